(** C25 and C52: valid UTF-8 in, valid UTF-8 out. *)
From Coq Require Import List NArith Bool Lia Arith String.
From Coq.Strings Require Import Byte.
From Verif Require Import Bytes Token Lexer SpecRead SpecUtf8 SpecCodegen Ast Parser Codegen StateFacts LexProps Utf8Facts TextUtf8 CodeUtf8.
Import ListNotations.
Open Scope nat_scope.
Open Scope list_scope.

(** C25: tokens begin and end between characters, and their text is valid UTF-8. *)
Theorem C25_tokens : forall (alnum : N -> bool) (src : str) (lx : lexer),
  utf8 src -> lexer_reach alnum src lx ->
  boundary src (pos (lx_tok lx)) /\ boundary src (pos (lx_cur lx)) /\
  utf8 (substring src (pos (lx_tok lx)) (pos (lx_cur lx))).
Proof.
  intros alnum src lx V R. assert (U := reach_uinv alnum src V lx R). destruct (uinv_boundaries src V lx U) as [A B].
  split; [exact A|]. split; [exact B|]. destruct (reach_text alnum src lx R) as [_ E]. rewrite <- E. now apply text_utf8 with src.
Qed.
Print Assumptions C25_tokens.
(** Errors begin and end between characters. *)
Theorem C25_errors : forall (alnum : N -> bool) (src : str) (es : list error) (e : error),
  utf8 src -> parses_to alnum src (ParseErr es) -> In e es ->
  boundary src (err_start e) /\ boundary src (err_end e) /\ utf8 (err_raw e).
Proof. intros alnum src es e V H I. apply (errors_bd alnum src V) in H. rewrite Forall_forall in H. exact (H e I). Qed.
Print Assumptions C25_errors.
(** Every name, literal, label, import source and template chunk of the tree is valid UTF-8. *)
Theorem C25_texts : forall (alnum : N -> bool) (src : str) (m : module) (a : any) (x : str),
  utf8 src -> parses_to alnum src (ParseOk m) -> in_module a m -> own_text a x -> utf8 x.
Proof. exact parse_utf8. Qed.
Print Assumptions C25_texts.

(** C52: the generated code, pretty or minified, is valid UTF-8 ... *)
Theorem C52_codegen_utf8 : forall (m : module) (minify : bool) (s : str),
  (forall a x, in_module a m -> own_text a x -> utf8 x) -> codegen m minify = Done s -> utf8 s.
Proof. exact codegen_utf8. Qed.
Print Assumptions C52_codegen_utf8.
(** ... for every valid UTF-8 source. *)
Theorem C52_transform_utf8 : forall (alnum : N -> bool) (src : str) (m : module) (minify : bool) (s : str),
  utf8 src -> parses_to alnum src (ParseOk m) -> codegen m minify = Done s -> utf8 s.
Proof. intros alnum src m minify s V H. apply codegen_utf8. intros a x. exact (parse_utf8 alnum src m a x V H). Qed.
Print Assumptions C52_transform_utf8.

(** ** The hypotheses are met *)
(** [let é = `→${o.xü}`] *)
Definition utf8_sample : str :=
  bs "let " ++ [xc3; xa9] ++ bs " = `" ++ [xe2; x86; x92] ++ bs "${o.x" ++ [xc3; xbc] ++ bs "}`".
Lemma utf8_sample_valid : utf8 utf8_sample.
Proof.
  assert (A : forall s, forallb Boundary.ascii (bs s) = true -> utf8 (bs s)) by (intros; now apply utf8_ascii).
  unfold utf8_sample. repeat apply utf8_app; try (apply A; reflexivity).
  - exists 1. apply (ch_cons 0 [xc3; xa9] []); [|constructor]. apply u2; split; vm_compute; discriminate.
  - exists 1. apply (ch_cons 0 [xe2; x86; x92] []); [|constructor]. apply u3_ec; split; vm_compute; discriminate.
  - exists 1. apply (ch_cons 0 [xc3; xbc] []); [|constructor]. apply u2; split; vm_compute; discriminate.
Qed.
Example utf8_nonvacuous : exists m s, utf8 utf8_sample /\ parses_to (fun _ => true) utf8_sample (ParseOk m) /\ codegen m true = Done s /\
  s = bs "let " ++ [xc3; xa9] ++ bs "=`" ++ [xe2; x86; x92] ++ bs "${o.x" ++ [xc3; xbc] ++ bs "}`;".
Proof.
  destruct (parse_fuel (fun _ => true) 200 utf8_sample) as [[m|e]| | |] eqn:E; try (vm_compute in E; discriminate E).
  exists m. eexists. split; [exact utf8_sample_valid|]. split; [exists 200; exact E|]. vm_compute in E. injection E as <-. split; reflexivity.
Qed.
Example utf8_error_nonvacuous : exists e, parses_to (fun _ => true) ([xc3; xa9] ++ bs " " ++ [xc3; xa9]) (ParseErr [e]) /\ err_start e = 3 /\ err_end e = 5.
Proof. eexists. split; [exists 20; vm_compute; reflexivity|]. split; reflexivity. Qed.
(** A position inside a character is not a boundary. *)
Example boundary_strict : ~ boundary [xc3; xa9] 1.
Proof.
  intros (a & b & E & L & [n A] & [m B]). destruct a as [|x [|y a]]; try discriminate L. cbn in E. injection E as <- <-.
  apply utf8_start in A || idtac. assert (S := utf8_start [xa9] (ex_intro _ m B)). discriminate S.
Qed.
