(** Properties of the serialisation of trees to ESTree JSON: C35, C36, C48.
    The vocabulary is in SpecAst.v and SpecTokens.v. *)
From Coq Require Import List NArith Bool String Lia.
From Coq.Strings Require Import Byte.
From Verif Require Import Bytes Token Lexer Ast SpecTokens SpecChunks SpecTree SpecPos SpecRead SpecAst Parser Structure NodeText PosFacts Astgen AstFacts.
Import ListNotations.
Open Scope list_scope.

(** ** C35: serialising succeeds exactly on the modules all of whose nodes are writable *)
Lemma chunks_end src opening qs : opening <> [] -> chunks src opening qs -> Forall (fun q => n_end q <> 0%N) qs.
Proof.
  intros No H. revert No.
  assert (G : forall t o q, o <> [] -> chunk_of src t o q -> n_end q <> 0%N).
  { intros t o q No [_ C] E. unfold source_of, substring in C. cbn in C. rewrite E in C. cbn in C.
    rewrite PeanoNat.Nat.sub_0_l in C || idtac. destruct t; try contradiction C; destruct o; try congruence; discriminate C. }
  induction H as [o q C|o q qs C H IH]; intros No; constructor; eauto. apply IH. discriminate.
Qed.
Lemma parsed_nodes_ok alnum src m : (N.of_nat (List.length src) < 4294967296)%N -> parses_to alnum src (ParseOk m) ->
  forall d, in_module d m -> node_ok d.
Proof.
  intros S H d I. destruct (parse_nodes alnum src m d H I) as (A & _ & _ & W). split; [exact A|split; [exact W|]].
  intros es qs T. apply (chunks_end src (bs "`")); [discriminate|].
  exact (proj1 (proj2 (proj2 (parse_spelled alnum src m d S H I))) es qs T).
Qed.
Theorem C35_serialises_partial : forall (alnum : N -> bool) (src : str) (m : module),
  (N.of_nat (List.length src) < 4294967296)%N -> parses_to alnum src (ParseOk m) ->
  ((exists j, a_module m = Done j) <-> forall a, in_module a m -> writable a).
Proof. intros alnum src m S H. exact (written_module m (parsed_nodes_ok alnum src m S H)). Qed.
Print Assumptions C35_serialises_partial.
(** ... so it is not the case that every module that parses can be serialised: *)
Definition unserialisable : list str :=
  [bs "1e5"; bs "0xffffffff"; bs "9223372036854775808"; bs "0b"; bs "1.5e"; bs "new X"; bs "class A{x=1}"; bs "var [,a]=b"].
Theorem C35_serialises_refuted : forall (alnum : N -> bool) (src : str), In src unserialisable ->
  exists m, parses_to alnum src (ParseOk m) /\ a_module m = Panicked.
Proof.
  intros alnum src I. unfold unserialisable in I.
  repeat (destruct I as [<-|I]; [eexists; split; [exists 100; vm_compute; reflexivity|vm_compute; reflexivity]|]). destruct I.
Qed.
Print Assumptions C35_serialises_refuted.

(** ** C36: regular expressions *)
Theorem C36_regex_split : forall (alnum : N -> bool) (src : str) (m : module) (n : node expression) (s : str),
  parses_to alnum src (ParseOk m) -> in_module (A_Expr n) m -> n_item n = E_Literal (L_RegEx s) ->
  exists pattern flags,
    a_expression (n_start n) (n_end n) (n_item n) =
      Done (J_Obj [(bs "type", J_Str (bs "Literal"));
                   (bs "regex", J_Obj [(bs "pattern", J_Str pattern); (bs "flags", J_Str flags)]);
                   (bs "raw", J_Str s);
                   (bs "start", J_Int (n_start n)); (bs "end", J_Int (n_end n))]) /\
    s = "/"%byte :: pattern ++ "/"%byte :: flags /\
    Forall (fun b => In b regex_flags) flags /\ ~ In "/"%byte flags.
Proof.
  intros alnum src m n s H I E. assert (W := proj2 (proj2 (proj2 (parse_nodes alnum src m _ H I)))).
  apply proj1 in W. rewrite E in *. cbn [expression_wf] in W. destruct W as (body & flags & -> & F).
  exists body, flags. assert (F' := flags_no_slash _ F). cbn [a_expression a_literal]. rewrite (parse_regex_parts _ _ F').
  split; [reflexivity|]. split; [reflexivity|]. split.
  - revert F. apply Forall_impl. intros b Hb. apply existsb_exists in Hb as (y & Hy & Ey). apply byte_eqb_eq in Ey. now subst.
  - intros Hi. exact (proj1 (Forall_forall _ _) F' _ Hi eq_refl).
Qed.
Print Assumptions C36_regex_split.

(** ** C48: the values of literals *)
Definition literal_json (n : node expression) (value : json) (raw : str) : json :=
  J_Obj [(bs "type", J_Str (bs "Literal")); (bs "value", value); (bs "raw", J_Str raw);
         (bs "start", J_Int (n_start n)); (bs "end", J_Int (n_end n))].
Theorem C48_integers : forall (n : node expression) (s : str) (v : N),
  (n_item n = E_Literal (L_Number s) /\ integer s v \/ n_item n = E_Literal (L_Binary s) /\ binary_integer s v) ->
  a_expression (n_start n) (n_end n) (n_item n) = Done (literal_json n (J_Int v) s).
Proof.
  intros n s v [[-> H]|[-> H]]; cbn [a_expression a_literal].
  - rewrite (integer_value _ _ H). reflexivity.
  - rewrite (binary_value _ _ H). reflexivity.
Qed.
Print Assumptions C48_integers.
Theorem C48_fractions : forall (n : node expression) (s : str),
  n_item n = E_Literal (L_Number s) -> decimal_fraction s ->
  a_expression (n_start n) (n_end n) (n_item n) = Done (literal_json n (J_Float s) s).
Proof. intros n s -> H. cbn [a_expression a_literal]. rewrite (fraction_value _ H). reflexivity. Qed.
Print Assumptions C48_fractions.
Theorem C48_strings : forall (alnum : N -> bool) (src : str) (m : module) (n : node expression) (s : str),
  parses_to alnum src (ParseOk m) -> in_module (A_Expr n) m -> n_item n = E_Literal (L_String s) ->
  exists q inside, In q ["'"; """"]%byte /\ s = q :: inside ++ [q] /\
    a_expression (n_start n) (n_end n) (n_item n) = Done (literal_json n (J_Str inside) s).
Proof.
  intros alnum src m n s H I E. assert (W := proj2 (proj2 (proj2 (parse_nodes alnum src m _ H I)))).
  apply proj1 in W. rewrite E in *. cbn [expression_wf] in W. destruct W as (q & inside & Hq & _ & ->).
  exists q, inside. split; [destruct Hq as [->| ->]; simpl; auto|]. split; [reflexivity|].
  cbn [a_expression a_literal]. replace (List.length (q :: inside ++ [q]) - 2) with (List.length inside)
    by (cbn [List.length]; rewrite app_length; cbn [List.length]; lia).
  cbn [skipn]. rewrite firstn_app, PeanoNat.Nat.sub_diag, firstn_all. cbn [firstn]. rewrite app_nil_r. reflexivity.
Qed.
Print Assumptions C48_strings.

(** ** The hypotheses are met *)
Definition literals_sample : str := bs "f(0xFf, 0b101, 017, .5e-3, 'a\'b', /a[/]\/b/gi, [1,,], new X(1))".
Example C35_nonvacuous : exists m j,
  parses_to (fun _ => true) literals_sample (ParseOk m) /\ a_module m = Done j /\ (forall a, in_module a m -> writable a).
Proof.
  eexists. eexists. split; [exists 1000; vm_compute; reflexivity|]. split; [vm_compute; reflexivity|].
  apply (C35_serialises_partial (fun _ => true) literals_sample); [vm_compute; reflexivity|exists 1000; vm_compute; reflexivity|].
  eexists. vm_compute. reflexivity.
Qed.
Example C36_nonvacuous : exists m n, parses_to (fun _ => true) (bs "/a[/]\/b/gi") (ParseOk m) /\
  in_module (A_Expr n) m /\ n_item n = E_Literal (L_RegEx (bs "/a[/]\/b/gi")).
Proof.
  eexists. eexists. split; [exists 100; vm_compute; reflexivity|]. split; [|].
  - eexists. split; [left; reflexivity|]. eapply within_child; [left; reflexivity|]. apply within_refl.
  - reflexivity.
Qed.
Example C48_nonvacuous : integer (bs "0xFf") 255 /\ integer (bs "017") 17 /\ binary_integer (bs "0B101") 5 /\ decimal_fraction (bs ".5e-3").
Proof.
  split; [|split; [|split]].
  - apply (int_radix "x" 16 (fun b => digit b || byte_in "a" "f" b || byte_in "A" "F" b)%byte%bool (bs "Ff")); [simpl; auto|discriminate|repeat constructor|reflexivity].
  - apply (int_decimal (bs "017")); [discriminate|repeat constructor|reflexivity].
  - exists "B"%byte, (bs "101"). split; [simpl; auto|]. split; [reflexivity|]. split; [discriminate|]. split; [repeat constructor|]. split; reflexivity.
  - apply (df_signed (bs ".5") digit "e"%byte "-"%byte "3"%byte []); [apply m_fraction; [reflexivity|constructor]|simpl; auto|simpl; auto|simpl; auto|reflexivity|constructor].
Qed.
