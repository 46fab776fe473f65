(** C81: the empty program. *)
From Coq Require Import List NArith Bool Lia Arith String.
From Coq.Strings Require Import Byte.
From Verif Require Import Bytes Token Lexer Ast Prog Parser SpecLexer SpecGap SpecEmpty LexerFacts ConsumeFacts LexProps StateFacts ErrorFacts Codegen ErrorFmt LexEval LocalConsume Cross PropCompact PropMessage.
Import ListNotations.
Open Scope nat_scope.
Open Scope list_scope.

Lemma run_parse_eof alnum n s : lx_token (p_lexer s) = T_EndOfProgram -> run alnum body n (body _ F_parse) s = Done ([], s).
Proof. intros E. destruct n; cbn [body body_parse look bind run]; cbn; unfold body_parse, look, is; cbn; rewrite E; reflexivity. Qed.

Lemma run_parse_nil alnum n s s' : run alnum body n (body _ F_parse) s = Done ([], s') -> lx_token (p_lexer s) = T_EndOfProgram.
Proof.
  destruct (token_eqb (lx_token (p_lexer s)) T_EndOfProgram) eqn:E; [intros _; now apply token_eqb_eq|].
  intros H. exfalso. destruct n as [|n]; cbn in H; unfold body_parse, look, is, call in H; cbn in H; rewrite E in H; cbn in H; [discriminate H|].
  odone H. destruct a as [r1 s1]. odone H1. destruct a as [r2 s2]. discriminate.
Qed.

Lemma trivia_token alnum src : only_trivia src -> exists lx, lexer_new alnum src = Done lx /\ lx_token lx = T_EndOfProgram.
Proof.
  intros (ws & rest & E & G). unfold lexer_new. rewrite (consume_from alnum).
  destruct (gap_from alnum _ _ G NoSemicolon (lexer_init (nul_terminated src))) as (a & H & _). { exact E. }
  rewrite H. eexists. split; [unfold from, once_from, after, cur_advance; cbn [set_cur lx_cur lexer_init pos rem]|].
  - unfold nul_terminated. rewrite E, skipn_app, skipn_all, Nat.sub_diag. reflexivity.
  - reflexivity.
Qed.

(** C81: [parse] gives the empty program exactly when the source holds no token. *)
Theorem C81_empty : forall (alnum : N -> bool) (src : str),
  parses_to alnum src (ParseOk []) <-> only_trivia src.
Proof.
  intros alnum src. split.
  - intros H. apply parse_state in H as (n & lx & m & s & H1 & H2 & H3).
    destruct (p_errors s); [|discriminate H3]. injection H3 as <-. apply run_parse_nil in H2. cbn in H2.
    unfold lexer_new in H1. apply consume_consumed in H1; [|exact (li_ok _ _ (init_inv src))].
    destruct H1 as [B (w & A & G) _ _ _ D]. destruct D as [D1 D2|[r D1] D2 D3 D4|b r c k D1 D2 D3 D4 D5 D6]; try congruence.
    exists w, r. rewrite D1 in G. split; [|exact G]. destruct A as [A _]. cbn in A. rewrite D1 in A. exact A.
  - intros T. destruct (trivia_token alnum _ T) as (lx & H & E). exists 0. unfold parse_fuel. rewrite H. cbn [obind].
    rewrite run_parse_eof; [reflexivity|exact E].
Qed.
Print Assumptions C81_empty.
(** Without a NUL, to the end of the source. *)
Theorem C81_no_nul : forall (alnum : N -> bool) (src : str),
  ~ In x00 src -> (parses_to alnum src (ParseOk []) <-> gap src [x00]).
Proof.
  intros alnum src N. rewrite C81_empty. split.
  - intros (ws & rest & E & G). assert (rest = []).
    { destruct rest as [|b rest _] using rev_ind; [reflexivity|exfalso]. rewrite app_comm_cons, app_assoc in E. apply app_inj_tail in E as [E _]. apply N. rewrite E. apply in_or_app. right. now left. }
    subst rest. apply app_inj_tail in E as [-> _]. exact G.
  - intros G. exists src, []. split; [reflexivity|exact G].
Qed.
Print Assumptions C81_no_nul.
(** A source with a token gives a statement or an error. *)
Theorem C81_something : forall (alnum : N -> bool) (src : str) (r : parse_result),
  parses_to alnum src r -> ~ only_trivia src ->
  match r with ParseOk m => m <> [] | ParseErr es => es <> [] end.
Proof.
  intros alnum src r H T. destruct r as [m|es].
  - intros ->. apply T. now apply C81_empty in H.
  - apply parse_errors in H as [H _]. exact H.
Qed.
Print Assumptions C81_something.

(** ** The text of an empty program *)
Definition noisy (c : code) : Prop := forall s, run_min c = Done s -> s <> [].
Lemma noisy_l a b : noisy a -> noisy (a ++ b).
Proof. intros N s H. apply run_min_app in H as (s1 & s2 & H1 & _ & ->). apply N in H1. destruct s1; [congruence|discriminate]. Qed.
Lemma noisy_r a b : noisy b -> noisy (a ++ b).
Proof. intros N s H. apply run_min_app in H as (s1 & s2 & _ & H2 & ->). apply N in H2. destruct s1; [exact H2|discriminate]. Qed.
Lemma noisy_bytes x s c : noisy (GBytes (x :: s) :: c).
Proof. intros s' H. cbn in H. destruct (run_min c) as [r| | |]; cbn in H; [injection H as <-; discriminate|discriminate..]. Qed.
Ltac noisy := solve [apply noisy_bytes | simple apply noisy_l; noisy | simple apply noisy_r; noisy].
Lemma statement_noisy s : s <> St_Empty -> noisy (c_statement s).
Proof.
  intros N. destruct s as [| |e|k ds|[v|]|l|l|v|t c a|t b|b t|i t u b|l r b|l r b|b h f|b|l b|f|c|d c|ss src]; try congruence; cbn [c_statement].
  all: try noisy.
  all: try (destruct k; noisy).
  all: try (destruct l; noisy).
  - destruct f. cbn [c_func]. noisy.
  - destruct c. cbn [c_class]. unfold c_node, c_block. noisy.
Qed.
Lemma rest_empty m : run_min (c_block_rest c_statement m) = Done [] <-> Forall (fun s => n_item s = St_Empty) m.
Proof.
  induction m as [|s m IH]; [now split|]. cbn [c_block_rest app run_min]. unfold c_node. rewrite Forall_cons_iff, <- IH. split.
  - intros H. apply run_min_app in H as (s1 & s2 & H1 & H2 & E). symmetry in E. apply app_eq_nil in E as [-> ->]. split; [|exact H2].
    destruct (n_item s) eqn:Es; [reflexivity|exfalso; eapply statement_noisy; [|exact H1|reflexivity]; discriminate..].
  - intros [-> H]. exact H.
Qed.
(** The compact text of a program is empty exactly when it is made of empty statements. *)
Theorem C81_empty_text : forall (m : module),
  codegen m true = Done [] <-> Forall (fun s => n_item s = St_Empty) m.
Proof. intros [|s m]; [now split|]. rewrite <- rest_empty. reflexivity. Qed.
Print Assumptions C81_empty_text.
(** Trivia, transformed, is the empty text in both modes: no comment is kept. *)
Theorem C81_transform : forall (alnum : N -> bool) (src : str) (minify : bool),
  only_trivia src -> exists n, wasm_transform alnum n src minify = Done [].
Proof.
  intros alnum src minify T. apply (C81_empty alnum) in T as [n H]. exists n. unfold wasm_transform. rewrite H. now destruct minify.
Qed.
Print Assumptions C81_transform.

(** ** The hypotheses are met; an open comment is not trivia, and empty statements print nothing *)
Example empty_nonvacuous :
  only_trivia (bs "  // a" ++ [x0a] ++ bs "/* b **/ //") /\ parses_to (fun _ => true) (bs "  // a" ++ [x0a] ++ bs "/* b **/ //") (ParseOk []).
Proof.
  assert (P : parses_to (fun _ => true) (bs "  // a" ++ [x0a] ++ bs "/* b **/ //") (ParseOk [])) by (exists 5; vm_compute; reflexivity).
  split; [|exact P]. now apply C81_empty in P.
Qed.
Example empty_open_comment : ~ only_trivia (bs "/* b").
Proof.
  intros H. apply (trivia_token (fun _ => true)) in H as (lx & H & E). vm_compute in H. injection H as <-. discriminate E.
Qed.
Example empty_statements : exists n m, wasm_transform (fun _ => true) n (bs ";;") true = Done [] /\ parses_to (fun _ => true) (bs ";;") (ParseOk m) /\ m <> [].
Proof. exists 9. eexists. split; [vm_compute; reflexivity|]. split; [exists 9; vm_compute; reflexivity|discriminate]. Qed.
