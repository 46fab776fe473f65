(** Every program of the grammar is accepted: templates, arrow functions, lists of expressions. *)
From Coq Require Import List NArith Bool Lia Arith String.
From Coq.Strings Require Import Byte.
From Verif Require Import Bytes Token Tables Lexer Ast Prog Parser Structure SpecSyntax Erase Comp CompA CompB.
Import ListNotations.
Open Scope nat_scope.
Open Scope list_scope.

(** Trees with blocks. *)
Ltac stripb := unfold in_loc; cbn [strip_expression strip_template strip_arrow_body strip_property strip_property_key strip_pattern strip_func strip_class strip_class_member strip_statement strip_declarator strip_for_init strip_case strip_catch strip_name strip_specifier option_map map n_item]; unfold strip_id, strip_node in *; cbn [n_item] in *; first [reflexivity | congruence | repeat match goal with H : ?a = _ |- context [?a] => rewrite H; clear H end; reflexivity].

(** ** Templates *)
Lemma spells_piece tk t s opening q : spells tk (t, s) -> is_template t = true -> (opening = bs "`" \/ opening = bs "}") -> w_text s = opening ++ q ++ closing t ->
  exists v, v_token v = t /\ v_quasi v = q /\ forall s', opened opening (tk :: s') v s'.
Proof.
  intros S Ht O E. remember (t, s) as x eqn:Ex. destruct S as [v A1 A2 A3|v w' A1 A2 A3 A4|v w' A1 A2 A3]; injection Ex as E1 E2.
  - rewrite E1 in *. specialize (A3 Ht). unfold piece in A3. subst s. cbn [w_text] in E. assert (E' : v_text v = opening ++ q ++ closing t) by (destruct t; try discriminate Ht; exact E). rewrite A3, E1 in E'.
    exists v. split; [exact E1|]. destruct O as [-> | ->]; cbn [bs app] in E'; [|discriminate E']. injection E' as E'. apply app_inv_tail in E'. split; [exact E'|]. intros s'. split; [now rewrite E1|]. now left.
  - rewrite A2 in E1. subst t. discriminate Ht.
  - rewrite E1 in *. unfold piece in A3. subst s. cbn [w_text] in E. assert (E' : v_text w' = opening ++ q ++ closing t) by (destruct t; try discriminate Ht; exact E). rewrite A3, E1 in E'.
    exists w'. split; [exact E1|]. destruct O as [-> | ->]; cbn [bs app] in E'; [discriminate E'|]. injection E' as E'. apply app_inv_tail in E'. split; [exact E'|]. intros s'. split; [now rewrite E1|]. right. split; [reflexivity|]. eauto.
Qed.
Lemma c_tm_last opening s q : w_text s = opening ++ n_item q ++ bs "`" -> P_template opening [(T_TemplateClosed, s)] (Template [] [q]).
Proof.
  intros E s0 tk r O F. inversion F as [|tk0 x s' l' S F']; subst. inversion F'; subst. clear F F'.
  destruct (spells_piece _ _ _ _ _ S eq_refl O E) as (v & Ev & Eq & Op). exists v, []. split; [apply Op|]. exists [], [q]. split; [reflexivity|].
  destruct v as [t a st en tx ac qq]. cbn in Ev, Eq. subst t qq. split.
  - eexists _, _, _. split; [xgo|]. split; [reflexivity|strips].
  - cbn. eauto.
Qed.
Lemma c_tm_more opening o s l1 l2 q e es qs : w_text s = opening ++ n_item q ++ bs "${" -> P_expr 0 o l1 (n_item e) -> P_template (bs "}") l2 (Template es qs) ->
  P_template opening ((T_TemplateOpen, s) :: l1 ++ l2) (Template (e :: es) (q :: qs)).
Proof.
  intros E H1 H2 s0 tk r O F. inversion F as [|tk0 x s' l' S F']; subst. apply Forall2_app_inv_r in F' as (s1 & s2 & F1 & F2 & ->). clear F.
  destruct (spells_piece _ _ _ _ _ S eq_refl O E) as (v & Ev & Eq & Op). exists v, (s1 ++ s2). split; [apply Op|]. exists (e :: es), (q :: qs). split; [reflexivity|].
  destruct (H2 s2 tk r (or_intror eq_refl) F2) as (v2 & s2' & (Tv2 & [[Q _]|(_ & v0 & Ev0 & ->)]) & es0 & qs0 & Q0 & (qs' & es' & en' & Hr & Se & Sq) & _); [discriminate Q|].
  injection Q0 as <- <-.
  destruct (use_any o l1 _ s1 (Piece v0 v2) (s2' ++ tk :: r) CtxDefault H1 F1) as (y & Hy & Sy); [apply stops_follow; cbn [tv]; now rewrite Ev0|].
  destruct v as [t a st en tx ac qq]. cbn in Ev, Eq. subst t qq. norm. cbn [v_token]. split.
  - eexists _, _, _. split; [bodies; xsimp; apply X_look; xsimp; apply X_consume; norm; eapply X_call; [exact Hy|]; apply X_look; cbn [tv]; rewrite (is_yes _ _ Ev0); apply X_template; eapply X_call; [exact Hr|]; apply X_ret|].
    unfold same_pieces, sames, same in *. split; strips.
  - eexists. split; [bodies; xsimp; apply X_look; apply X_consume; norm; eapply X_call; [exact Hy|]; apply X_look; cbn [tv]; rewrite (is_yes _ _ Ev0); cbn [bind]; apply X_template; eapply X_call; [exact Hr|]; apply X_ret|].
    unfold same_pieces, sames, same in *. strips.
Qed.
Lemma c_template l t : P_template (bs "`") l t -> P_expr 18 false l (E_Template t).
Proof.
  intros H. apply c_primary. intros s tk r F W O. destruct (H s tk r (or_introl eq_refl) F) as (v & s' & (Tv & [(_ & ->)|(Q & _)]) & es & qs & -> & _ & G); [|discriminate Q].
  destruct v as [t a st en tx ac qq]. cbn [v_token] in *. destruct t; try discriminate Tv.
  - destruct G as (t' & Ht & St). cbn [app]. eexists. split; [prim|]. unfold same. strips.
  - destruct G as (-> & -> & q & -> & Eq). cbn [app]. cbn in Eq. eexists. split; [prim|]. unfold same. strips.
Qed.
Lemma c_tagged l1 l2 f t : P_expr 17 false l1 (n_item f) -> P_template (bs "`") l2 (n_item t) -> P_expr 17 false (l1 ++ l2) (E_TaggedTemplate f t).
Proof.
  intros H1 H. apply (going_on 17 17 false false l1 _ _ _ H1 (le_n _)). intros s2 tk r F W O.
  destruct (H s2 tk r (or_introl eq_refl) F) as (v & s' & (Tv & [(_ & ->)|(Q & _)]) & es & qs & Et & _ & G); [|discriminate Q].
  destruct v as [t0 a st en tx ac qq]. cbn [v_token] in *. destruct t0; try discriminate Tv.
  - destruct G as (t' & Ht & St). cbn [app]. eexists _, _, N_TPLE. split; [reflexivity|]. split; [apply follow_17|]. split; [discriminate|]. split; [adm|]. intros a' Sa.
    eexists. split; [xgo|unfold same in *; strips].
  - destruct G as (-> & -> & q & -> & Eq). cbn [app]. cbn in Eq. eexists _, _, N_TPLS. split; [reflexivity|]. split; [apply follow_17|]. split; [discriminate|]. split; [adm|]. intros a' Sa.
    eexists. split; [xgo|unfold same in *; rewrite <- Eq; strips; rewrite Et; strips].
Qed.

(** ** Arrow functions *)
Lemma pattern_same e p : pattern_of e p -> forall e' : node expression, same (n_item e') e -> exists p', (forall q, X (body _ (F_pattern_from_expression e')) q p' q) /\ strip_pattern (n_item p') = strip_pattern p.
Proof.
  induction 1 as [s|e p d H IH]; intros e' Se; unfold same in *; destruct (n_item e') eqn:E; try discriminate Se.
  - injection Se as <-. eexists. split; [intros q; bodies; rewrite E; cbn [bind]; apply X_ret|]. reflexivity.
  - cbn in Se. injection Se as -> Sl Sr. destruct (IH left Sl) as (p' & Hp & Sp). eexists. split; [intros q; bodies; rewrite E; cbn [bind]; eapply X_call; [apply Hp|]; apply X_ret|]. strips.
Qed.
Lemma patterns_same es ps : patterns_of es ps -> forall es', sames es' es -> exists ps', (forall q, X (body _ (F_params_from_expressions es')) q ps' q) /\ same_pats ps' ps.
Proof.
  induction 1 as [|e p es ps H _ IH]; intros [|e' es'] Se; try discriminate Se.
  - exists []. split; [intros q; bodies; apply X_ret|reflexivity].
  - unfold sames in Se. cbn [map] in Se. injection Se as S1 S2. destruct (pattern_same _ _ H e' S1) as (p' & Hp & Sp). destruct (IH es' S2) as (ps' & Hps & Sps).
    exists (p' :: ps'). split; [intros q; bodies; cbn [bind]; eapply X_call; [apply Hp|]; eapply X_call; [apply Hps|]; apply X_ret|]. unfold same_pats in *. cbn [map]. rewrite Sps. unfold strip_node. now rewrite Sp.
Qed.
Lemma params_same e ps (a' : node expression) : params_of e ps -> same (n_item a') e ->
  exists ps', (forall q, X (body _ (F_params_from_expressions (match n_item a' with E_Sequence b => b | _ => [a'] end))) q ps' q) /\ same_pats ps' ps.
Proof.
  intros H Sa. destruct H as [b ps H|e p H].
  - unfold same in Sa. destruct (n_item a') eqn:E; try discriminate Sa. cbn in Sa. injection Sa as Sa. apply (patterns_same _ _ H). exact Sa.
  - match goal with |- context [F_params_from_expressions ?m] => assert (Q : m = [a']) end. { unfold same in Sa. destruct H; destruct (n_item a'); try discriminate Sa; reflexivity. }
    rewrite Q. destruct (pattern_same _ _ H a' Sa) as (p' & Hp & Sp). exists [p']. split; [|unfold same_pats; strips].
    intros q. bodies. cbn [bind]. eapply X_call; [apply Hp|]. eapply X_call; [bodies; apply X_ret|]. apply X_ret.
Qed.
Lemma c_arrow o l1 l2 s e ps b : P_expr 17 false l1 e -> params_of e ps -> P_arrow o l2 b -> P_expr 17 o (l1 ++ (T_OperatorFatArrow, s) :: l2) (E_Arrow ps b).
Proof.
  intros H1 Hp H2. apply (going_on 17 17 false o l1 _ _ _ H1 (le_n _)). intros s2 tk r F W O. feed.
  match goal with F : Forall2 spells ?s l2 |- _ => destruct (H2 s tk r F O) as (b' & Sb & Hb) end.
  eexists _, _, N_ARRW. split; [reflexivity|]. split; [apply follow_17|]. split; [discriminate|]. split; [adm|]. intros a' Sa.
  destruct (params_same _ _ _ Hp Sa) as (ps' & Hps & Sps). specialize (Hb _ _ Hps).
  eexists. split; [xgo|]. unfold same, same_pats, same_body in *. strips.
Qed.
Lemma c_thunk o l s1 s2 s3 b : P_arrow o l b -> P_expr 17 o ((T_ParenOpen, s1) :: (T_ParenClose, s2) :: (T_OperatorFatArrow, s3) :: l) (E_Arrow [] b).
Proof.
  intros H. apply c_primary. intros s tk r F W O. feed.
  match goal with F : Forall2 spells ?s l |- _ => destruct (H s tk r F O) as (b' & Sb & Hb) end.
  assert (Hps : forall q, X (body _ (F_params_from_expressions [])) q [] q) by (intros qz; bodies; apply X_ret). specialize (Hb _ _ Hps).
  eexists. split; [prim|]. unfold same, same_body in *. strips.
Qed.
Lemma c_to_expr o l e : expr 1 o l (n_item e) -> P_expr 1 o l (n_item e) -> not_first [T_BraceOpen] l -> P_arrow true l (AB_Expression e).
Proof.
  intros D H N s tk r F O. specialize (O eq_refl). destruct (use_b0 o l _ s tk r CtxDefault H F O) as (x & Hx & Sx).
  destruct (expr_begins _ _ _ _ D) as (t & w & l' & -> & It). inversion F as [|tk0 y s' l0 S F']; subst. clear F.
  assert (Nb : v_token (tv tk0) <> T_BraceOpen).
  { intros Q. cbn in N. remember (t, w) as y eqn:E. destruct S as [v A1 A2 A3|v w' A1 A2 A3 A4|v w' A1 A2 A3]; injection E as E1 E2; cbn [tv] in Q; try congruence. apply N. left. congruence. }
  cbn [app] in *. exists (AB_Expression x). split; [unfold same_body, same in *; strips|]. intros params ps Hp.
  bodies. cbn [bind]. eapply X_call; [apply Hp|]. xgo.
Qed.
Lemma c_to_block l b : P_body l (n_item b) -> P_arrow false l (AB_Block b).
Proof.
  intros H s tk r F O. destruct (H s (tk :: r) F) as (v & vc & s' & b' & -> & Ev & Hb & Sb). destruct v as [t a st en tx ac q]. cbn in Ev. subst t.
  exists (AB_Block (Node st (v_end vc) b')). split; [unfold same_body in *; stripb|]. intros params ps Hp.
  bodies. cbn [bind]. eapply X_call; [apply Hp|]. norm. xgo.
Qed.

(** ** Lists of expressions *)
Lemma c_me_nil : P_more_exprs [] [].
Proof. intros s tk r F W N. feed. exists []. split; [xgo|reflexivity]. Qed.
Lemma c_me_cons o s l1 l2 e es : P_expr 1 o l1 (n_item e) -> more_exprs l2 es -> P_more_exprs l2 es -> P_more_exprs ((T_Comma, s) :: l1 ++ l2) (e :: es).
Proof.
  intros H1 D H2 s0 tk r F W N. feed. norm.
  match goal with F1 : Forall2 spells ?s1 l1, F2 : Forall2 spells ?s2 l2 |- _ => destruct (H2 s2 tk r F2 W N) as (es' & Hes & Ses);
    assert (K : exists tk2 s3, s2 ++ tk :: r = tk2 :: s3 /\ follow 1 (tv tk2)) end.
  { destruct D; feed; [exists tk, r; split; [reflexivity|]; apply (follow_mono 0); [lia|exact W]|]. eexists _, _. split; [reflexivity|]. apply comma_at. }
  destruct K as (tk2 & s3 & E & W2). rewrite E in *. match goal with F1 : Forall2 spells ?s1 l1 |- _ => destruct (use_b0 o l1 _ s1 tk2 s3 CtxDefault H1 F1 W2) as (x & Hx & Sx) end.
  eexists. split; [xgo|]. unfold sames, same in *. strips.
Qed.
Lemma c_el_expr o l e : expr 1 o l e -> P_expr 1 o l e -> P_element l e.
Proof.
  intros D H c s tk r Nc F W. split; [|exact (use_b0 o l e s tk r c H F W)].
  destruct (expr_view 1 o l e s tk H) as (tk0 & s0 & -> & V); auto. destruct (expr_begins _ _ _ _ D) as (? & ? & ? & -> & _); discriminate. eauto.
Qed.
Lemma c_el_spread o s l e : P_expr 1 o l (n_item e) -> P_element ((T_OperatorSpread, s) :: l) (E_Spread e).
Proof.
  intros H c s0 tk r Nc F W. feed. match goal with F1 : Forall2 spells ?s1 l |- _ => destruct (use_b0 o l _ s1 tk r CtxDefault H F1 W) as (x & Hx & Sx) end.
  split; [eexists _, _; split; [reflexivity|now right]|]. assert (N : forall y, X (body _ (F_nested BP_B0 y)) (tk :: r) y (tk :: r)) by (intros y; apply nested_stop; apply follow_1; [exact W|cbn; lia]).
  eexists. split; [|unfold same in *; strips].
  - destruct c; [contradiction| |]; bodies; xsimp; apply X_look; cbn [tv]; hsimp; eapply X_call; [xgo|eapply X_call; [apply N|apply X_ret]|xgo|eapply X_call; [apply N|apply X_ret]].
  - cbn [n_item strip_expression]. unfold strip_node. congruence.
Qed.
Lemma c_ar_nil : P_arguments [] [].
Proof. intros s tk r F W. feed. exists []. split; [xgo|reflexivity]. Qed.
(** What comes after an argument or element. *)
Lemma after_argument l2 es s2 tk r : more_arguments l2 es -> feeds s2 l2 -> v_token (tv tk) = T_ParenClose -> exists tk2 s3, s2 ++ tk :: r = tk2 :: s3 /\ follow 1 (tv tk2).
Proof.
  intros D F W. destruct D; feed; [exists tk, r; split; [reflexivity|]; apply stops_follow; now rewrite W|..]; (eexists _, _; split; [reflexivity|]; apply comma_at).
Qed.
Lemma c_ar_cons l1 l2 e es : P_element l1 (n_item e) -> more_arguments l2 es -> P_more_arguments l2 es -> P_arguments (l1 ++ l2) (e :: es).
Proof.
  intros H1 D H2 s tk r F W. apply Forall2_app_inv_r in F as (s1 & s2 & F1 & F2 & ->). norm.
  destruct (H2 s2 tk r F2 W) as (es' & Hes & Ses). destruct (after_argument l2 es s2 tk r D F2 W) as (tk2 & s3 & E & W2). rewrite E in *.
  destruct (H1 CtxCall s1 tk2 s3 ltac:(discriminate) F1 W2) as [(tk0 & s0 & -> & V) (e' & He & Se)].
  assert (v_token (tv tk0) <> T_ParenClose) by apart. cbn [app] in *. eexists. split; [xgo|unfold sames, same in *; strips].
Qed.
Lemma c_ma_nil : P_more_arguments [] [].
Proof. intros s tk r F W. feed. exists []. split; [xgo|reflexivity]. Qed.
Lemma c_ma_comma w : P_more_arguments [(T_Comma, w)] [].
Proof. intros s tk r F W. feed. exists []. split; [xgo|reflexivity]. Qed.
Lemma c_ma_cons w l1 l2 e es : P_element l1 (n_item e) -> more_arguments l2 es -> P_more_arguments l2 es -> P_more_arguments ((T_Comma, w) :: l1 ++ l2) (e :: es).
Proof.
  intros H1 D H2 s tk r F W. feed. norm.
  match goal with F1 : Forall2 spells ?s1 l1, F2 : Forall2 spells ?s2 l2 |- _ => destruct (H2 s2 tk r F2 W) as (es' & Hes & Ses); destruct (after_argument l2 es s2 tk r D F2 W) as (tk2 & s3 & E & W2); rewrite E in *;
    destruct (H1 CtxCall s1 tk2 s3 ltac:(discriminate) F1 W2) as [(tk0 & sz & -> & V) (e' & He & Se)] end.
  assert (v_token (tv tk0) <> T_ParenClose) by apart. cbn [app] in *. eexists. split; [xgo|unfold sames, same in *; strips].
Qed.
Lemma hole_expression tk r : v_token (tv tk) = T_Comma \/ v_token (tv tk) = T_BracketClose -> exists e', X (body _ (F_expression CtxArray BP_B0)) (tk :: r) e' (tk :: r) /\ same (n_item e') E_Void.
Proof.
  intros W. assert (N : forall y, X (body _ (F_nested BP_B0 y)) (tk :: r) y (tk :: r)) by (intros y; apply nested_stop, follow_1; [destruct W as [W|W]; [now apply comma_follow|apply stops_follow; now rewrite W]|cbn; lia]).
  eexists. split.
  - bodies. cbn [bind]. apply X_look. assert (bound_handler CtxArray (tv tk) = X_VOID) as -> by (unfold bound_handler; destruct W as [-> | ->]; reflexivity).
    eapply X_call; [|eapply X_call; [apply N|apply X_ret]]. bodies. cbn [bind]. repeat (first [apply X_look|apply X_ret]).
  - reflexivity.
Qed.
Lemma c_he_hole : P_hole [] E_Void.
Proof. intros s tk r F W. feed. destruct (hole_expression tk r W) as (e' & He & Se). exists e'. split; [exact He|]. split; [exact Se|]. intros Q. now contradiction Q. Qed.
Lemma c_he_element l e : P_element l e -> P_hole l e.
Proof.
  intros H s tk r F W. assert (W1 : follow 1 (tv tk)) by (destruct W as [W|W]; [now apply comma_follow|apply stops_follow; now rewrite W]).
  destruct (H CtxArray s tk r ltac:(discriminate) F W1) as [V (e' & He & Se)]. exists e'. auto.
Qed.
Lemma c_es_nil : P_elements [] [].
Proof. intros s tk r F W. feed. exists []. split; [xgo|reflexivity]. Qed.
Lemma after_element l2 es s2 tk r : more_elements l2 es -> feeds s2 l2 -> v_token (tv tk) = T_BracketClose -> exists tk2 s3, s2 ++ tk :: r = tk2 :: s3 /\ (v_token (tv tk2) = T_Comma \/ (v_token (tv tk2) = T_BracketClose /\ l2 = [])).
Proof.
  intros D F W. destruct D; feed; [exists tk, r; split; [reflexivity|]; auto|]. eexists _, _; split; [reflexivity|]. now left.
Qed.
Lemma c_es_cons l1 l2 e es : l1 ++ l2 <> [] -> P_hole l1 (n_item e) -> more_elements l2 es -> P_more_elements l2 es -> P_elements (l1 ++ l2) (e :: es).
Proof.
  intros N H1 D H2 s tk r F W. apply Forall2_app_inv_r in F as (s1 & s2 & F1 & F2 & ->). norm.
  destruct (H2 s2 tk r F2 W) as (es' & Hes & Ses). destruct (after_element l2 es s2 tk r D F2 W) as (tk2 & s3 & E & W2). rewrite E in *.
  destruct (H1 s1 tk2 s3 F1 ltac:(tauto)) as (e' & He & Se & V).
  assert (K : exists tk0 s0, s1 ++ tk2 :: s3 = tk0 :: s0 /\ v_token (tv tk0) <> T_BracketClose).
  { destruct s1 as [|tk1 s1].
    - exists tk2, s3. split; [reflexivity|]. inversion F1; subst. destruct W2 as [W2|[_ ->]]; [rewrite W2; discriminate|]. now contradiction N.
    - destruct (V ltac:(discriminate)) as (tk0 & s0 & Q & V'). injection Q as -> ->. exists tk0, (s0 ++ tk2 :: s3). split; [reflexivity|]. apart. }
  destruct K as (tk0 & s0 & K & N0). rewrite K in *. eexists. split; [xgo|unfold sames, same in *; strips].
Qed.
Lemma c_mo_nil : P_more_elements [] [].
Proof. intros s tk r F W. feed. exists []. split; [xgo|reflexivity]. Qed.
Lemma c_mo_cons w l1 l2 e es : P_hole l1 (n_item e) -> more_elements l2 es -> P_more_elements l2 es -> P_more_elements ((T_Comma, w) :: l1 ++ l2) (e :: es).
Proof.
  intros H1 D H2 s tk r F W. feed. norm.
  match goal with F1 : Forall2 spells ?s1 l1, F2 : Forall2 spells ?s2 l2 |- _ => destruct (H2 s2 tk r F2 W) as (es' & Hes & Ses); destruct (after_element l2 es s2 tk r D F2 W) as (tk2 & s3 & E & W2); rewrite E in *;
    destruct (H1 s1 tk2 s3 F1 ltac:(tauto)) as (e' & He & Se & V) end.
  eexists. split; [xgo|unfold sames, same in *; strips].
Qed.
