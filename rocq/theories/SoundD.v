From Coq Require Import List NArith Bool Lia String.
From Coq.Strings Require Import Byte.
From Verif Require Import Bytes Token Tables Lexer Ast Prog Parser ProgFacts Structure LexEval Erase Valid.
From Verif Require Import Grammar SpecSyntax Sound SoundA SoundB SoundC.
Import ListNotations.
Open Scope nat_scope.
Open Scope list_scope.
Lemma not_first_app n o ts e l l' : expr n o l e -> not_first ts l -> not_first ts (l ++ l').
Proof. intros X. apply expr_cons in X. destruct l as [|[t s] l]; [now contradiction X|auto]. Qed.
Lemma explicit v : inv false v -> v_asi v = ExplicitSemicolon -> v_token v = T_Semicolon.
Proof. intros (H & _) E. now apply H. Qed.
Lemma implicit v nx : v_asi v = ImplicitSemicolon -> leads v nx -> semi nx [].
Proof. intros E L. constructor. rewrite (leads_break _ _ L). unfold breaks. now rewrite E. Qed.
Lemma stop_next v v' nx l : handler BP_ANY v = None -> inv false v -> passes v l v' -> leads v' nx -> ends 0 (next l nx).
Proof. intros H (_ & R & _) Ps L. exact (stop_any v _ H R (passes_next _ _ _ _ Ps L)). Qed.
Ltac stopn := match goal with X : handler BP_ANY ?v = None, Y : passes ?v _ _, Z : leads _ _, W : inv false ?v |- ends 0 (next _ _) => exact (stop_next _ _ _ _ X W Y Z) end.
Ltac sem := match goal with Y : forall nx, leads _ nx -> semi nx ?l, Z : leads _ ?nx |- semi ?nx ?l => exact (Y nx Z) end.
Ltac inst := match goal with Y : forall nx, leads ?v nx -> _, Z : leads ?v ?nx |- _ => exact (Y nx Z) end.
Lemma g_stmts (R : Set) (f : fn R) : match f with F_switch_case | F_case_body _ | F_statement | F_expect_semicolon | F_block_statement | F_expression_statement _ | F_labeled_or_expression | F_function_statement | F_class_statement
  | F_variable_declaration _ | F_declarator | F_declarators | F_return | F_break | F_continue | F_label | F_throw | F_try | F_catch | F_if | F_while | F_do | F_for_init _ | F_switch => True | _ => False end -> gbody f.
Proof.
  intros Hf; destruct f; try contradiction Hf; go.
  all: unfold states in *.
  all: clean; lexs; lower; norm; repeat match goal with |- _ /\ _ => split end; cbn [In]; try assumption; try reflexivity; try tauto; try discriminate.
  all: try st0; try apply starts_cons.
  all: try (intros nx Hnx).
  - eapply co_case; [eassumption|inst].
  - eapply co_default. inst.
  - constructor.
  - unfold case_end, on. rewrite !orb_true_iff in C. destruct C as [[C|C]|C]; apply is_eq in C; auto.
  - now left.
  - cbn [fst] in *. constructor; [|inst]. match goal with Y : forall nx, leads ?v nx -> stmt _ _ _, Z : passes ?v _ _ |- _ => apply Y; exact (passes_next _ _ _ _ Z Hnx) end.
  - right. now apply starts_app.
  - apply memb_in, pre_stmt.
  - rewrite (lexeme_on v _ (explicit _ Hv C)). constructor.
  - right. apply starts_cons.
  - exact (implicit _ _ C Hnx).
  - now left.
  - apply st_block. destruct r as [xs]. match goal with X : forall nx, _ -> _ |- _ => specialize (X _ (leads_self _)) end. constructor; [assumption|]. match goal with X : ending _ _ _ |- _ => exact (ending_closes _ _ _ X) end.
  - intros m o ly X K F. rewrite app_assoc. match goal with Y : forall m o l0, expr m o l0 (n_item e) -> _ |- _ => destruct (Y m o ly X K ltac:(cbn; lia)) as (m' & o' & _ & X' & K') end.
    apply (st_expression nx o'); [apply (x_weaker _ m'); [lia|exact X']| |sem|stopn]. now apply (not_first_app m o _ (n_item e)).
  - apply (st_labeled nx (Word (v_text v) (breaks v))). inst.
  - match goal with Y : forall m o l0, expr m o l0 (n_item (in_loc v _)) -> _ |- _ => destruct (Y 18 false [(T_Identifier, Word (v_text v) (breaks v))] ltac:(exact (x_atom _ _ _ (at_name (Word (v_text v) (breaks v))))) ltac:(apply ok_top; lia) ltac:(cbn; lia)) as (m' & o' & _ & X' & K') end.
    apply (st_expression nx o' (_ :: _)); [apply (x_weaker _ m'); [lia|exact X']| |sem|stopn]. cbn. intuition discriminate.
  - now apply st_function.
  - now apply st_class.
  - unfold lexeme_of. apply st_declaration; [exact Hp| |sem]. match goal with Y : forall nx, leads ?v nx -> declarators _ _ _, Z : passes ?v _ _ |- _ => apply Y; exact (passes_next _ _ _ _ Z Hnx) end.
  - eapply de_init; [assumption|eassumption|]. match goal with X : handler BP_B0 ?v = None, W : inv false ?v |- _ => exact (stop_b0 v _ X (proj1 (proj2 W)) Hnx) end.
  - now apply de_plain.
  - apply ds_cons; [|inst]. match goal with Y : forall nx, leads ?v nx -> declarator_of _ _ _ |- _ => apply Y; left; rewrite (lexeme_on v _ C); reflexivity end.
  - apply ds_one. inst.
  - rewrite (lexeme_on v0 _ (explicit _ Hi C)). apply st_return. constructor.
  - apply st_return. exact (implicit _ _ C Hnx).
  - eapply st_return_value; [eassumption| |sem|stopn]. match goal with X : starts v0 _ |- _ => apply (starts_line _ _ X) end. unfold breaks. now rewrite C.
  - match goal with Y : forall nx, leads ?v nx -> exists _ _, _ |- _ => destruct (Y _ Hnx) as (la & lb & -> & Y1 & Y2) end. now apply st_break.
  - match goal with Y : forall nx, leads ?v nx -> exists _ _, _ |- _ => destruct (Y _ Hnx) as (la & lb & -> & Y1 & Y2) end. now apply st_continue.
  - exists [], [lexeme_of v]. rewrite (lexeme_on v _ (explicit _ Hv C)). split; [reflexivity|]. split; constructor.
  - exists [], []. split; [reflexivity|]. split; [constructor|exact (implicit _ _ C Hnx)].
  - exists [(T_Identifier, Word (v_text v) (breaks v))], l. split; [reflexivity|]. split; [|sem]. apply la_some; [|reflexivity]. cbn [w_break]. unfold breaks. now rewrite C.
  - eapply st_throw; [eassumption|sem|stopn].
  - apply st_try; try assumption; [now constructor|left; discriminate].
  - rewrite <- (app_nil_r l0). apply st_try; try assumption; [now constructor|left; discriminate].
  - apply (st_try nx _ l []); try assumption; [constructor|now constructor|right; discriminate].
  - apply (ha_some _ _ _ _ _ r r0); [assumption|assumption|reflexivity].
  - eapply st_if_else; [eassumption| |inst]. match goal with Y : forall nx, leads v4 nx -> _, E : v_token v4 = _ |- _ => apply Y; left; rewrite (lexeme_on v4 _ E); reflexivity end.
  - eapply st_if; [eassumption|inst|]. intros E. refine (leads_token [T_Else] _ _ Hnx _ _ (or_introl (eq_sym E))); [|cbn; intuition discriminate]. intros [Q|[]]. unfold is in C1. rewrite <- Q in C1. discriminate C1.
  - eapply st_while; [eassumption|inst].
  - eapply st_do; [|eassumption]. match goal with Y : forall nx, leads v1 nx -> _, E : v_token v1 = _ |- _ => apply Y; left; rewrite (lexeme_on v1 _ E); reflexivity end.
  - unfold lexeme_of. apply in_declaration; [exact Hp|inst].
  - eapply st_switch; [eassumption|assumption].
Qed.
Lemma g_stmt_handler h : gbody (F_stmt_handler h).
Proof.
  destruct h; go.
  all: cbn [xtokens stokens In] in Hp; try (destruct Hp as [Hp|Hp]; [|contradiction Hp]); try (apply eq_sym in Hp). 
  all: unfold states in *; fin.
  all: try st0; try (cbn; tauto); try (apply starts_app; assumption).
  all: intros nx Hnx; match goal with Y : forall nx, leads _ nx -> forall m o l0, expr m o l0 (n_item ?r) -> _, X : expr ?m ?o ?l (n_item ?r) |- _ => apply (Y nx Hnx m o l X); [assumption|] end.
  all: apply (starts_not _ v); [assumption| |cbn; intuition discriminate].
  all: tok; intros [Q|[Q|[Q|[]]]]; congruence.
Qed.
Lemma unquoted (s : str) : (Nat.leb 2 (Datatypes.length s) = true) -> quoted (firstn (Datatypes.length s - 2) (tl s)) s.
Proof.
  destruct s as [|q1 s]; [discriminate|]. intros L. assert (N : s <> []) by (intros ->; cbn in L; congruence). destruct (exists_last N) as (s' & q2 & E).
  subst s. exists q1, q2. cbn [tl Datatypes.length]. rewrite app_length. cbn [Datatypes.length].
    replace (S (Datatypes.length s' + 1) - 2) with (Datatypes.length s') by lia. rewrite firstn_app, firstn_all, PeanoNat.Nat.sub_diag. cbn [firstn]. now rewrite app_nil_r.
Qed.
Lemma g_imports (R : Set) (f : fn R) : match f with F_import | F_import_rest _ _ _ | F_import_specifiers => True | _ => False end -> gbody f.
Proof.
  intros Hf; destruct f; try contradiction Hf; go.
  all: unfold states in *; fin.
  all: try st0; try (intros nx Hnx).
  - apply or_is in C. assert (N : handler BP_ANY v0 <> None) by (unfold handler, is; destruct C as [C|C]; rewrite C; destruct (v_asi v0); discriminate).
    match goal with Y : _ -> exists l', l = _ |- _ => destruct (Y N) as (l' & ->) end.
    match goal with Y : forall m o l0, expr m o l0 _ -> _ |- _ => destruct (Y 18 false [(T_Identifier, Word (v_text v) (breaks v))] ltac:(exact (x_atom _ _ _ (at_name (Word (v_text v) (breaks v))))) ltac:(apply ok_top; lia) ltac:(cbn; lia)) as (m' & o' & _ & X' & K') end.
    apply (st_import_name nx o' _ (v_token v0) (word_of v0) l'); [apply (x_weaker _ m'); [lia|exact X']| |sem|stopn]. destruct C as [C|C]; rewrite C; cbn; tauto.
  - destruct (Hq _ Hnx) as (lm & more & s2 & s3 & source & -> & T1 & T2 & T3 & T4). rewrite T3. cbn [app]. apply (st_import_from nx _ _ _ (_ :: _ :: _)); [|assumption..]. apply (ic_both _ _ (in_loc v0 (v_text v0))); auto.
  - destruct (Hq _ Hnx) as (lm & more & s2 & s3 & source & -> & T1 & T2 & T3 & -> & ->). rewrite T3. cbn [app]. apply (st_import_from nx _ _ _ [_]); [|assumption..]. apply (ic_default _ (in_loc v0 (v_text v0))); auto.
  - apply st_import. now apply unquoted.
  - destruct (Hq _ Hnx) as (lm & more & s2 & s3 & source & -> & T1 & T2 & T3 & T4). rewrite T3. cbn [app]. apply st_import_from; [|assumption..]. now apply ic_more.
  - exists ((T_BraceOpen, Word (v_text v) (breaks v)) :: l), r, (Word (v_text v1) (breaks v1)), (Word (v_text v2) (breaks v2)). eexists. split; [reflexivity|]. split; [assumption|]. split; [apply unquoted; assumption|]. split; [reflexivity|]. now apply im_names.
  - exists [(T_OperatorMultiplication, Word (v_text v) (breaks v)); (T_Identifier, Word (v_text v0) (breaks v0)); (T_Identifier, Word (v_text v1) (breaks v1))]. eexists. exists (Word (v_text v2) (breaks v2)), (Word (v_text v3) (breaks v3)). eexists. split; [reflexivity|]. split; [assumption|]. split; [apply unquoted; assumption|]. split; [reflexivity|].
    now apply (im_all _ _ _ (in_loc v1 (v_text v1))).
  - exists [], [], (Word (v_text v) (breaks v)), (Word (v_text v0) (breaks v0)). eexists. split; [reflexivity|]. split; [assumption|]. split; [apply unquoted; assumption|]. auto.
  - apply (io_cons _ [_; _; _]); [|assumption]. cbn [n_item]. now apply ia_as.
  - apply (io_last _ [_; _; _]). cbn [n_item]. now apply ia_as.
  - apply (io_cons _ [_]); [|assumption]. cbn [n_item]. now apply ia_same.
  - apply (io_last _ [_]). cbn [n_item]. now apply ia_same.
Qed.
Lemma g_fors (R : Set) (f : fn R) : match f with F_for_rest _ _ | F_for_in_from_parts _ _ _ | F_for_in _ _ | F_for_of _ _ => True | _ => False end -> gbody f.
Proof.
  intros Hf; destruct f; try contradiction Hf; go.
  all: unfold states in *; fin.
  all: try (intros nx Hnx).
  - intros s1 s2 lx X. now apply Hq.
  - intros s1 s2 lx X. now apply Hq.
  - intros s1 s2 lx X. apply (st_for nx _ _ _ _ _ lx [] []); auto using oi_some, oe_none.
  - intros s1 s2 lx X. apply (st_for nx _ _ _ _ _ lx [] l); eauto using oi_some, oe_none, oe_some.
  - intros s1 s2 lx X. apply (st_for nx _ _ _ _ _ lx l []); eauto using oi_some, oe_none, oe_some.
  - intros s1 s2 lx (s3 & ->). apply (st_for nx _ _ _ _ _ [] [] []); eauto using oi_none, oe_none, oe_some.
  - intros s1 s2 lx (s3 & ->). apply (st_for nx _ _ _ _ _ [] [] l); eauto using oi_none, oe_none, oe_some.
  - intros s1 s2 lx (s3 & ->). apply (st_for nx _ _ _ _ _ [] l []); eauto using oi_none, oe_none, oe_some.
  - intros s1 s2 lx (s3 & ->). apply (st_for nx _ _ _ _ _ [] l l0); eauto using oi_none, oe_none, oe_some.
Qed.
Lemma stop_here v : handler BP_ANY v = None -> inv false v -> ends 0 (lexeme_of v).
Proof. intros H (_ & R & _). exact (stop_any v _ H R (leads_self _)). Qed.
Lemma g_for : gbody F_for.
Proof.
  go.
  all: unfold states in *; fin.
  all: try st0.
  all: try (cbn; tauto).
  all: intros nx Hnx.
  1: { match goal with Y : forall nx, leads _ nx -> forall s1 s2 l0, _ -> stmt _ _ _ |- _ => apply (Y nx Hnx _ _ [_]) end. eauto. }
  all: match goal with Y : forall nx, leads _ nx -> forall s1 s2 l0 o x, _ -> expr 0 o l0 _ -> stmt _ _ _, X : expr 0 ?o ?l _ |- _ => apply (Y nx Hnx _ _ l o _ eq_refl); congruence
       | Y : forall nx, leads _ nx -> forall s1 s2 l0, _ -> stmt _ _ _ |- _ => apply (Y nx Hnx); first
           [match goal with Z : forall nx, leads _ nx -> init_of _ _ _ |- _ => exact (Z _ (leads_self _)) end
           |eapply in_expression; [eassumption|congruence|apply stop_here; assumption] | eapply in_expression; [congruence|congruence|apply stop_here; assumption]] end.
  all: idtac "left". Show.
Qed.
Theorem body_syntax (R : Set) (f : fn R) : gbody f.
Proof.
  destruct f; first [solve [apply g_blocks; exact I] | solve [apply g_patterns; exact I] | solve [apply g_exprs; exact I] | solve [apply g_funcs; exact I] | solve [apply g_stmts; exact I] | solve [apply g_imports; exact I] | solve [apply g_fors; exact I]
    | apply g_nested_handler | apply g_expr_handler | apply g_expression | apply g_stmt_handler | apply g_for].
Qed.
