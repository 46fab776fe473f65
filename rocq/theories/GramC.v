From Coq Require Import List NArith Bool Lia String.
From Coq.Strings Require Import Byte.
From Verif Require Import Bytes Token Tables Lexer Ast Prog Parser ProgFacts Structure LexEval SpecGrammar Erase Valid Grammar GramA GramB.
Import ListNotations.
Open Scope nat_scope.
Open Scope list_scope.
Lemma unquoted (s : str) : (Nat.leb 2 (Datatypes.length s) = true) -> exists q1 q2, s = q1 :: firstn (Datatypes.length s - 2) (tl s) ++ [q2].
Proof.
  destruct s as [|q1 s]; [discriminate|]. intros L. assert (N : s <> []) by (intros ->; cbn in L; congruence). destruct (exists_last N) as (s' & q2 & E).
  subst s. exists q1, q2. cbn [tl Datatypes.length]. rewrite app_length. cbn [Datatypes.length].
    replace (S (Datatypes.length s' + 1) - 2) with (Datatypes.length s') by lia. rewrite firstn_app, firstn_all, PeanoNat.Nat.sub_diag. cbn [firstn]. now rewrite app_nil_r.
Qed.
Lemma g_imports (R : Set) (f : fn R) : match f with F_import | F_import_rest _ _ _ | F_import_specifiers => True | _ => False end -> gbody f.
Proof.
  intros Hf; destruct f; try contradiction Hf; go.
  all: fin.
  all: try (unfold no_else; cbn [n_item in_loc ends_open]; solve [discriminate | match goal with E : n_item ?r = _ |- context [n_item ?r] => rewrite E; discriminate end]).
  - match goal with Y : forall m o l0, expr m o l0 _ -> _ |- _ => destruct (Y 18 false [(T_Identifier, v_text v)] ltac:(apply x_atom; constructor) ltac:(apply ok_top; lia) ltac:(cbn; lia)) as (m' & o' & _ & X' & K') end.
    apply (st_import_name o'); [|assumption]. apply (x_weaker _ m'); [lia|exact X'].
  - subst l. rewrite H0. cbn [app]. apply (st_import_from _ _ _ (_ :: _ :: _)). apply (ic_both (in_loc v0 (v_text v0))); auto.
  - subst l x x0. rewrite H0. cbn [app]. apply (st_import_from _ _ _ [_]). apply (ic_default (in_loc v0 (v_text v0))); auto.
  - destruct (unquoted _ C2) as (q1 & q2 & E). cbn [in_loc n_item]. rewrite E at 1. apply st_import.
  - subst l. rewrite H0. cbn [app]. apply st_import_from. now apply ic_more.
  - destruct (unquoted _ C3) as (q1 & q2 & E). exists ((T_BraceOpen, v_text v) :: l), r, q1, q2. eexists. rewrite E at 1. rewrite H0. cbn [app]. repeat split. now apply im_names.
  - destruct (unquoted (v_text v3)) as (q1 & q2 & E); [assumption|]. exists [(T_OperatorMultiplication, v_text v); (T_Identifier, v_text v0); (T_Identifier, v_text v1)]. eexists. exists q1, q2. eexists. rewrite E at 1. cbn [app]. 
    split; [|split; [reflexivity|]].
    + repeat f_equal; assumption.
    + replace (v_text v0) with (bs "as") by congruence. now apply (im_all _ (in_loc v1 (v_text v1))).
  - destruct (unquoted (v_text v0)) as (q1 & q2 & E); [assumption|]. exists [], [], q1, q2. eexists. rewrite E at 1. cbn [app]. repeat split. repeat f_equal; assumption.
  - apply (io_cons _ [_; _; _]); [|assumption]. cbn [n_item]. replace (v_text v0) with (bs "as") by congruence. apply (ia_as (in_loc v (v_text v)) (in_loc v1 (v_text v1))).
  - apply (io_last _ [_; _; _]). cbn [n_item]. replace (v_text v0) with (bs "as") by congruence. apply (ia_as (in_loc v (v_text v)) (in_loc v1 (v_text v1))).
  - apply (io_cons _ [_]); [|assumption]. cbn [n_item]. now apply (ia_same (in_loc v (v_text v))).
  - apply (io_last _ [_]). cbn [n_item]. now apply (ia_same (in_loc v (v_text v))).
Qed.
Lemma g_fors (R : Set) (f : fn R) : match f with F_for_rest _ _ | F_for_in_from_parts _ _ _ | F_for_in _ _ | F_for_of _ _ => True | _ => False end -> gbody f.
Proof.
  intros Hf; destruct f; try contradiction Hf; go.
  all: fin. 
  all: unfold no_else in *; cbn [n_item ends_open]; try discriminate; try assumption.
  - intros s1 s2 lx X. match goal with Y : forall s1 s2 s3 l0, init_of l0 _ -> _ |- _ => now apply Y end.
  - intros s1 s2 lx X. replace (v_text v) with (bs "of") by congruence. match goal with Y : forall s1 s2 l0, init_of l0 _ -> _ |- _ => now apply Y end.
  - intros s1 s2 lx X. apply (st_for _ _ _ _ _ lx [] []); auto using oi_some, oe_none.
  - intros s1 s2 lx X. apply (st_for _ _ _ _ _ lx [] l); eauto using oi_some, oe_none, oe_some.
  - intros s1 s2 lx X. apply (st_for _ _ _ _ _ lx l []); eauto using oi_some, oe_none, oe_some.
  - intros s1 s2 lx (s3 & ->). apply (st_for _ _ _ _ _ [] [] []); eauto using oi_none, oe_none, oe_some.
  - intros s1 s2 lx (s3 & ->). apply (st_for _ _ _ _ _ [] [] l); eauto using oi_none, oe_none, oe_some.
  - intros s1 s2 lx (s3 & ->). apply (st_for _ _ _ _ _ [] l []); eauto using oi_none, oe_none, oe_some.
  - intros s1 s2 lx (s3 & ->). apply (st_for _ _ _ _ _ [] l l0); eauto using oi_none, oe_none, oe_some.
Qed.
Lemma g_for : gbody F_for.
Proof.
  go.
  all: fin.
  1: { match goal with Y : forall s1 s2 l0, _ -> stmt _ _ |- _ => apply (Y _ _ [_]) end. eauto. }
  all: match goal with Y : forall s1 s2 l0 o x, _ -> expr 0 o l0 _ -> stmt _ _, X : expr 0 ?o ?l _ |- _ => apply (Y _ _ l o _ eq_refl); congruence
       | Y : forall s1 s2 l0, _ -> stmt _ _ |- _ => apply Y; first [eassumption | eapply in_expression; [eassumption|congruence] | eapply in_expression; [congruence|congruence]] end.
Qed.
Theorem body_grammar (R : Set) (f : fn R) : gbody f.
Proof.
  destruct f; first [solve [apply g_blocks; exact I] | solve [apply g_patterns; exact I] | solve [apply g_exprs; exact I] | solve [apply g_funcs; exact I] | solve [apply g_stmts; exact I] | solve [apply g_imports; exact I] | solve [apply g_fors; exact I]
    | apply g_nested_handler | apply g_expr_handler | apply g_expression | apply g_stmt_handler | apply g_for].
Qed.
