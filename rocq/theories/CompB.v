(** Every program of the grammar is accepted: expressions. *)
From Coq Require Import List NArith Bool Lia Arith String.
From Coq.Strings Require Import Byte.
From Verif Require Import Bytes Token Tables Lexer Ast Prog Parser Structure SpecSyntax Erase Comp CompA.
Import ListNotations.
Open Scope nat_scope.
Open Scope list_scope.

Ltac prim := unfold primary; apply X_look; cbn [tv]; hsimp; eapply X_call; [xgo|apply X_ret].
(** A token that is not this one. *)
Ltac apart := let Q := fresh in intros Q; match goal with
  | V : viewer (v_token ?v) = true |- _ => rewrite Q in V; discriminate V
  | V : viewer (v_token ?v) = true \/ _ |- _ => destruct V as [V|V]; rewrite Q in V; discriminate V
  end.
Lemma stop_at n t a st en tx ac q : stops t = true -> follow n (tv (Plain (View t a st en tx ac q))).
Proof. intros H. now apply stops_follow. Qed.
Ltac stop := apply stop_at; reflexivity.
Lemma comma_at a st en tx ac q : follow 1 (tv (Plain (View T_Comma a st en tx ac q))).
Proof. now apply comma_follow. Qed.

Lemma c_primary n o l e : (forall s tk r, feeds s l -> follow n (tv tk) -> (o = true -> follow 1 (tv tk)) -> exists p, X (primary CtxDefault) (s ++ tk :: r) p (tk :: r) /\ same (n_item p) e) -> P_expr n o l e.
Proof. intros H s tk r F W O. destruct (H s tk r F W O) as (p & H1 & H2). exists p, (tk :: r), p. auto. Qed.
Lemma c_atom t s e : atom t s e -> P_expr 18 false [(t, s)] e.
Proof.
  intros A. apply c_primary. intros s0 tk r F W O. destruct A; feed.
  all: try solve [eexists; split; [prim|unfold same; strips]].
  match goal with S : spells _ (T_LiteralRegEx, _) |- _ => destruct (spells_regex _ _ S) as (v & w & -> & Ev & Ew & Et & _) end.
  eexists. split.
  - unfold primary. cbn [app]. apply X_look. cbn [tv]. unfold bound_handler. rewrite Ev. hsimp. change (nth (token_index T_OperatorDivision) (context_table CtxDefault) X_____) with X_REG. eapply X_call; [|apply X_ret].
    bodies. cbn [bind]. eapply X_call; [|apply X_ret]. bodies. cbn [bind]. apply X_look. apply X_regex. apply X_look. apply X_look. cbn [tv]. rewrite (is_yes _ _ Ew). cbn [bind]. apply X_consume. apply X_ret.
  - unfold same. strips.
Qed.
Lemma c_paren o l e s1 s2 : expr 0 o l e -> P_expr 0 o l e -> P_expr 18 false ((T_ParenOpen, s1) :: l ++ [(T_ParenClose, s2)]) e.
Proof.
  intros D H. apply c_primary. intros s tk r F W O. feed. norm.
  match goal with |- context [?s ++ Plain (View T_ParenClose ?a ?b ?c ?d ?e ?f) :: tk :: r] => destruct (use_any o l _ s (Plain (View T_ParenClose a b c d e f)) (tk :: r) CtxDefault H ltac:(assumption) ltac:(stop)) as (x & Hx & Sx);
    destruct (expr_view 0 o l _ s (Plain (View T_ParenClose a b c d e f)) H) as (tk0 & s0 & -> & V); [destruct (expr_begins _ _ _ _ D) as (? & ? & ? & -> & _); discriminate|assumption|stop|intros _; stop|] end.
  assert (v_token (tv tk0) <> T_ParenClose) by apart.
  cbn [app] in *. eexists. split; [prim|exact Sx].
Qed.
Lemma c_prefix t s op o l e : expr 16 o l (n_item e) -> In (t, op) prefix_operators -> P_expr 16 o l (n_item e) -> P_expr 16 o ((t, s) :: l) (E_Prefix op e).
Proof.
  intros D I H. apply c_primary. intros s0 tk r F W O.
  assert (Pt : plain t = true) by (cbn in I; repeat (destruct I as [I|I]; [injection I as <- <-; reflexivity|]); destruct I).
  feed.
  match goal with F : Forall2 spells ?s l |- _ => destruct (use_expr 16 o l _ s tk r H F W O CtxDefault BP_B15 ltac:(cbn; lia) (W ltac:(lia) BP_B15 ltac:(cbn; lia))) as (x & Hx & Sx);
    destruct (expr_view 16 o l _ s tk H) as (tk0 & s1 & -> & V); [destruct (expr_begins _ _ _ _ D) as (? & ? & ? & -> & _); discriminate|exact F|exact W|exact O|] end.
  assert (v_token (tv tk0) <> T_Accessor) by apart. cbn [app] in *.
  cbn in I; repeat (destruct I as [I|I]; [injection I as <- <-; eexists; (split; [prim|unfold same in *; strips])|]); destruct I.
Qed.

(** ** What follows an expression *)
Ltac adm := let b := fresh "b" in let L := fresh "L" in intros b L; unfold handler; cbn [tv v_asi v_token]; destruct b; cbn in L; try (exfalso; lia);
  match goal with |- context [match ?a with ImplicitSemicolon => _ | _ => _ end] => destruct a end; try reflexivity; try discriminate.
Lemma c_postfix t s op l e : In (t, op) postfix_operators -> assignable (n_item e) -> w_break s = false -> P_expr 17 false l (n_item e) -> P_expr 17 false (l ++ [(t, s)]) (E_Postfix op e).
Proof.
  intros I A B H. apply (going_on 17 17 false false l [(t, s)] _ _ H (le_n _)). intros s2 tk r F W O.
  assert (L : forall a' : node expression, same (n_item a') (n_item e) -> is_lvalue (n_item a') = true).
  { intros a' Sa. unfold same in Sa. destruct A as [(x & A)|[(x & y & A)|[(x & y & A)|[(x & A)|(x & A)]]]]; rewrite A in Sa; destruct (n_item a'); try discriminate Sa; reflexivity. }
  assert (Pt : plain t = true) by (cbn in I; repeat (destruct I as [I|I]; [injection I as <- <-; reflexivity|]); destruct I).
  feed. cbn in I. destruct I as [I|[I|[]]]; injection I as <- <-.
  - eexists _, _, N_INC. split; [reflexivity|]. split; [apply follow_17|]. split; [discriminate|]. split; [adm; congruence|]. intros a' Sa. specialize (L a' Sa).
    eexists. split; [bodies; xsimp; apply X_look; apply X_consume; rewrite L; cbn [bind]; apply X_ret|unfold same in *; strips].
  - eexists _, _, N_DEC. split; [reflexivity|]. split; [apply follow_17|]. split; [discriminate|]. split; [adm; congruence|]. intros a' Sa. specialize (L a' Sa).
    eexists. split; [bodies; xsimp; apply X_look; apply X_consume; rewrite L; cbn [bind]; apply X_ret|unfold same in *; strips].
Qed.
Lemma c_infix t s op p o l1 l2 a b : In (t, op, p) infix_operators -> P_expr p false l1 (n_item a) -> P_expr (S p) o l2 (n_item b) -> P_expr p o (l1 ++ (t, s) :: l2) (E_Binary op a b).
Proof.
  intros I H1 H2. apply (going_on p p false o l1 _ _ _ H1 (le_n _)). intros s2 tk r F W O.
  assert (Pt : plain t = true) by (cbn in I; repeat (destruct I as [I|I]; [injection I as <- <- <-; reflexivity|]); destruct I).
  feed. cbn in I.
  repeat (destruct I as [I|I]; [injection I as <- <- <-; eexists _, _, _; split; [reflexivity|];
    match goal with F : Forall2 spells ?s l2 |- _ => first
      [destruct (use_expr _ o l2 _ s tk r H2 F (follow_mono _ _ _ (le_S _ _ (le_n _)) W) O CtxDefault BP_B5 (le_n _) (W ltac:(lia) BP_B5 (le_n _))) as (x & Hx & Sx)
      |destruct (use_expr _ o l2 _ s tk r H2 F (follow_mono _ _ _ (le_S _ _ (le_n _)) W) O CtxDefault BP_B6 (le_n _) (W ltac:(lia) BP_B6 (le_n _))) as (x & Hx & Sx)
      |destruct (use_expr _ o l2 _ s tk r H2 F (follow_mono _ _ _ (le_S _ _ (le_n _)) W) O CtxDefault BP_B7 (le_n _) (W ltac:(lia) BP_B7 (le_n _))) as (x & Hx & Sx)
      |destruct (use_expr _ o l2 _ s tk r H2 F (follow_mono _ _ _ (le_S _ _ (le_n _)) W) O CtxDefault BP_B8 (le_n _) (W ltac:(lia) BP_B8 (le_n _))) as (x & Hx & Sx)
      |destruct (use_expr _ o l2 _ s tk r H2 F (follow_mono _ _ _ (le_S _ _ (le_n _)) W) O CtxDefault BP_B9 (le_n _) (W ltac:(lia) BP_B9 (le_n _))) as (x & Hx & Sx)
      |destruct (use_expr _ o l2 _ s tk r H2 F (follow_mono _ _ _ (le_S _ _ (le_n _)) W) O CtxDefault BP_B10 (le_n _) (W ltac:(lia) BP_B10 (le_n _))) as (x & Hx & Sx)
      |destruct (use_expr _ o l2 _ s tk r H2 F (follow_mono _ _ _ (le_S _ _ (le_n _)) W) O CtxDefault BP_B11 (le_n _) (W ltac:(lia) BP_B11 (le_n _))) as (x & Hx & Sx)
      |destruct (use_expr _ o l2 _ s tk r H2 F (follow_mono _ _ _ (le_S _ _ (le_n _)) W) O CtxDefault BP_B12 (le_n _) (W ltac:(lia) BP_B12 (le_n _))) as (x & Hx & Sx)
      |destruct (use_expr _ o l2 _ s tk r H2 F (follow_mono _ _ _ (le_S _ _ (le_n _)) W) O CtxDefault BP_B13 (le_n _) (W ltac:(lia) BP_B13 (le_n _))) as (x & Hx & Sx)
      |destruct (use_expr _ o l2 _ s tk r H2 F (follow_mono _ _ _ (le_S _ _ (le_n _)) W) O CtxDefault BP_B14 (le_n _) (W ltac:(lia) BP_B14 (le_n _))) as (x & Hx & Sx)
      |destruct (use_expr _ o l2 _ s tk r H2 F (follow_mono _ _ _ (le_S _ _ (le_n _)) W) O CtxDefault BP_B15 (le_n _) (W ltac:(lia) BP_B15 (le_n _))) as (x & Hx & Sx)] end;
    split; [intros _ b' Lb'; unfold handler; cbn [tv v_asi v_token]; destruct b'; cbn in Lb'; try (exfalso; lia); match goal with |- context [match ?a with ImplicitSemicolon => _ | _ => _ end] => destruct a end; reflexivity|];
    split; [discriminate|]; split; [adm|];
    intros a' Sa; eexists; (split; [xgo|unfold same in *; strips])|]); destruct I.
Qed.
Lemma lvalue_same (e : expression) (a' : node expression) : assignable e -> same (n_item a') e -> is_lvalue (n_item a') = true.
Proof. intros A Sa. unfold same in Sa. destruct A as [(x & ->)|[(x & y & ->)|[(x & y & ->)|[(x & ->)|(x & ->)]]]]; destruct (n_item a'); try discriminate Sa; reflexivity. Qed.
Lemma c_assign t s op o l1 l2 a b : In (t, op) assignment_operators -> assignable (n_item a) -> P_expr 17 false l1 (n_item a) -> P_expr 1 o l2 (n_item b) -> P_expr 1 o (l1 ++ (t, s) :: l2) (E_Binary op a b).
Proof.
  intros I A H1 H2. apply (going_on 1 17 false o l1 _ _ _ H1 ltac:(lia)). intros s2 tk r F W O.
  assert (Pt : plain t = true) by (cbn in I; repeat (destruct I as [I|I]; [injection I as <- <-; reflexivity|]); destruct I).
  feed. match goal with F : Forall2 spells ?s l2 |- _ => destruct (use_b1 o l2 _ s tk r CtxDefault H2 F W) as (x & Hx & Sx) end.
  cbn in I.
  repeat (destruct I as [I|I]; [injection I as <- <-; eexists _, _, _; split; [reflexivity|]; split; [apply follow_17|]; split; [discriminate|]; split; [adm|];
    intros a' Sa; assert (L := lvalue_same _ _ A Sa); eexists; (split; [bodies; xsimp; apply X_consume; rewrite L; cbn [bind]; xgo|unfold same in *; strips])|]); destruct I.
Qed.
Lemma c_conditional o2 o l1 l2 l3 s1 s2 a b c : P_expr 3 false l1 (n_item a) -> P_expr 1 o2 l2 (n_item b) -> P_expr 1 o l3 (n_item c) ->
  P_expr 1 o (l1 ++ (T_OperatorConditional, s1) :: l2 ++ (T_Colon, s2) :: l3) (E_Conditional a b c).
Proof.
  intros H1 H2 H3. apply (going_on 1 3 false o l1 _ _ _ H1 ltac:(lia)). intros s0 tk r F W O. feed.
  match goal with F2 : Forall2 spells ?s l2, F3 : Forall2 spells ?s3 l3 |- context [?sa ++ Plain (View T_Colon ?a ?b ?c ?d ?e ?f) :: ?sb] =>
    destruct (use_b1 o2 l2 _ sa (Plain (View T_Colon a b c d e f)) (sb ++ tk :: r) CtxDefault H2 F2 ltac:(stop)) as (x & Hx & Sx); destruct (use_b1 o l3 _ sb tk r CtxDefault H3 F3 W) as (y & Hy & Sy) end.
  eexists _, _, _; split; [reflexivity|]; split; [intros _ b' Lb'; unfold handler; cbn [tv v_asi v_token]; destruct b'; cbn in Lb'; try (exfalso; lia); match goal with |- context [match ?a with ImplicitSemicolon => _ | _ => _ end] => destruct a end; reflexivity|]; split; [discriminate|]; split; [adm|].
  intros a' Sa. eexists. split; [norm; xgo|unfold same in *; strips].
Qed.
Lemma c_sequence o l1 l2 e es : P_expr 1 o l1 (n_item e) -> es <> [] -> more_exprs l2 es -> P_more_exprs l2 es -> P_expr 0 false (l1 ++ l2) (E_Sequence (e :: es)).
Proof.
  intros H1 N D H2. apply (going_on 0 1 o false l1 _ _ _ H1 ltac:(lia)). intros s0 tk r F W O.
  assert (K : v_token (tv tk) <> T_Comma). { intros Q. assert (G := follow_0 _ BP_ANY W). unfold handler, is in G. rewrite Q in G. destruct (v_asi (tv tk)); discriminate G. }
  destruct (H2 s0 tk r F W K) as (es' & Hes & Ses).
  destruct D as [|o' sc l3 l4 e2 es2]; [contradiction|]. feed.
  eexists _, _, N_SEQ. split; [reflexivity|]. split; [apply comma_at|]. split; [intros _; apply comma_at|]. split; [adm|].
  intros a' Sa. revert Hes. norm. intros Hes. bodies. cbn [bind] in Hes. revert Hes. bodies. cbn [bind]. intros Hes.
  apply X_inv in Hes as (t0 & s5 & E0 & Hes). injection E0 as <- <-. cbn in Hes. apply X_inv in Hes as (v0 & s6 & E0 & Hes). injection E0 as <- <-.
  apply X_inv in Hes as (e' & s7 & He & Hes). apply X_inv in Hes as (es1 & s8 & Hes1 & Hes). apply X_inv in Hes as [<- ->].
  eexists. split; [apply X_consume; eapply X_call; [exact He|]; eapply X_call; [exact Hes1|]; apply X_look; apply X_ret|].
  unfold same, sames in *. strips.
Qed.
Lemma c_member l s o p : P_expr 17 false l (n_item o) -> n_item p = w_text s -> P_expr 17 false (l ++ [(T_Accessor, s)]) (E_Member o p).
Proof.
  intros H E. apply (going_on 17 17 false false l _ _ _ H (le_n _)). intros s2 tk r F W O. feed.
  eexists _, _, N_ACCS. split; [reflexivity|]. split; [apply follow_17|]. split; [discriminate|]. split; [adm|]. intros a' Sa.
  eexists. split; [xgo|unfold same in *; strips].
Qed.
Lemma c_computed o2 l1 l2 s1 s2 o p : P_expr 17 false l1 (n_item o) -> P_expr 0 o2 l2 (n_item p) ->
  P_expr 17 false (l1 ++ (T_BracketOpen, s1) :: l2 ++ [(T_BracketClose, s2)]) (E_ComputedMember o p).
Proof.
  intros H1 H2. apply (going_on 17 17 false false l1 _ _ _ H1 (le_n _)). intros s0 tk r F W O. feed.
  match goal with |- context [?sa ++ [Plain (View T_BracketClose ?a ?b ?c ?d ?e ?f)]] =>
    destruct (use_any o2 l2 _ sa (Plain (View T_BracketClose a b c d e f)) (tk :: r) CtxDefault H2 ltac:(assumption) ltac:(stop)) as (x & Hx & Sx) end.
  eexists _, _, N_CMEM. split; [reflexivity|]. split; [apply follow_17|]. split; [discriminate|]. split; [adm|]. intros a' Sa.
  eexists. split; [norm; xgo|unfold same in *; strips].
Qed.
Lemma c_new_target s1 s2 m p : n_item m = bs "new" -> n_item p = bs "target" -> w_text s2 = bs "target" -> P_expr 18 false [(T_OperatorNew, s1); (T_Accessor, s2)] (E_MetaProperty m p).
Proof.
  intros E1 E2 E3. apply c_primary. intros s tk r F W O. feed. rewrite E3 in *. match goal with Q : bs "target" = ?x |- _ => subst x end. eexists. split; [prim|unfold same in *; strips].
Qed.
Lemma c_call l1 l2 s1 s2 f args : P_expr 17 false l1 (n_item f) -> P_arguments l2 args -> P_expr 17 false (l1 ++ (T_ParenOpen, s1) :: l2 ++ [(T_ParenClose, s2)]) (E_Call f args).
Proof.
  intros H1 H2. apply (going_on 17 17 false false l1 _ _ _ H1 (le_n _)). intros s0 tk r F W O. feed.
  match goal with |- context [?sa ++ [Plain (View T_ParenClose ?a ?b ?c ?d ?e ?f)]] =>
    destruct (H2 sa (Plain (View T_ParenClose a b c d e f)) (tk :: r) ltac:(assumption) eq_refl) as (x & Hx & Sx) end.
  eexists _, _, N_CALL. split; [reflexivity|]. split; [apply follow_17|]. split; [discriminate|]. split; [adm|]. intros a' Sa.
  eexists. split; [norm; xgo|unfold same, sames in *; strips].
Qed.
Lemma c_array l s1 s2 es : P_elements l es -> P_expr 18 false ((T_BracketOpen, s1) :: l ++ [(T_BracketClose, s2)]) (E_Array es).
Proof.
  intros H. apply c_primary. intros s tk r F W O. feed.
  match goal with |- context [?sa ++ [Plain (View T_BracketClose ?a ?b ?c ?d ?e ?f)]] =>
    destruct (H sa (Plain (View T_BracketClose a b c d e f)) (tk :: r) ltac:(assumption) eq_refl) as (x & Hx & Sx) end.
  norm. eexists. split; [prim|unfold same, sames in *; strips].
Qed.
Lemma c_object l s1 s2 ps : P_properties l ps -> P_expr 18 false ((T_BraceOpen, s1) :: l ++ [(T_BraceClose, s2)]) (E_Object ps).
Proof.
  intros H. apply c_primary. intros s tk r F W O. feed.
  match goal with |- context [?sa ++ [Plain (View T_BraceClose ?a ?b ?c ?d ?e ?f)]] =>
    destruct (H sa (Plain (View T_BraceClose a b c d e f)) (tk :: r) ltac:(assumption) eq_refl) as (x & Hx & Sx) end.
  norm. eexists. split; [prim|unfold same, same_props in *; strips].
Qed.
Lemma c_function l s f : P_function MayBeNamed l f -> P_expr 18 false ((T_Function, s) :: l) (E_Function f).
Proof.
  intros H. apply c_primary. intros s0 tk r F W O. feed. match goal with F : Forall2 spells ?s l |- _ => destruct (H s (tk :: r) F) as (x & Hx & Sx) end.
  cbn [nk] in Hx. eexists. split; [prim|unfold same in *; strips].
Qed.
Lemma c_class l s f : P_class MayBeNamed l f -> P_expr 18 false ((T_Class, s) :: l) (E_Class f).
Proof.
  intros H. apply c_primary. intros s0 tk r F W O. feed. match goal with F : Forall2 spells ?s l |- _ => destruct (H s (tk :: r) F) as (x & Hx & Sx) end.
  cbn [nk] in Hx. eexists. split; [prim|unfold same in *; strips].
Qed.
