(** Every program of the grammar is accepted: objects, patterns, functions. *)
From Coq Require Import List NArith Bool Lia Arith String.
From Coq.Strings Require Import Byte.
From Verif Require Import Bytes Token Tables Lexer Ast Prog Parser Structure SpecSyntax Erase Comp CompA CompB CompC.
Import ListNotations.
Open Scope nat_scope.
Open Scope list_scope.

Lemma word_plain t : is_word t = true -> plain t = true.
Proof. destruct t; try reflexivity; discriminate. Qed.
(** A bracketed expression. *)
Ltac inside H o l close := match goal with |- context [?sa ++ Plain (View close ?a ?b ?c ?d ?e ?f) :: ?rr] =>
  let x := fresh "x" in let Hx := fresh "Hx" in let Sx := fresh "Sx" in
  destruct (use_any o l _ sa (Plain (View close a b c d e f)) rr CtxDefault H ltac:(assumption) ltac:(stop)) as (x & Hx & Sx) end.

(** ** Objects *)
Ltac wordly Hw := rewrite ?Hw; cbn [bind].
Lemma c_ke_word t w : is_word t = true -> P_key [(t, w)] (Key_Literal (w_text w)).
Proof.
  intros Hw s tk r F W. assert (Pt := word_plain t Hw). feed. exists st, (in_loc (View t a st en tx ac q) (Key_Literal tx)). split; [destruct t; try discriminate Hw; strips|].
  intros x u H. bodies. cbn [app bind]. apply X_look. cbn [tv v_token]. wordly Hw. apply X_consume. apply X_look.
  destruct W as [W|W]; rewrite (is_yes _ _ W); rewrite ?orb_true_r; cbn [orb]; (eapply X_call; [exact H|apply X_ret]).
Qed.
Lemma c_ke_string w : P_key [(T_LiteralString, w)] (Key_Literal (w_text w)).
Proof.
  intros s tk r F W. feed. exists st, (in_loc (View T_LiteralString a st en tx ac q) (Key_Literal tx)). split; [strips|].
  intros x u H. bodies. cbn [app bind]. apply X_look. xsimp. apply X_consume. eapply X_call; [exact H|apply X_ret].
Qed.
Lemma c_ke_number w : P_key [(T_LiteralNumber, w)] (Key_Literal (w_text w)).
Proof.
  intros s tk r F W. feed. exists st, (in_loc (View T_LiteralNumber a st en tx ac q) (Key_Literal tx)). split; [strips|].
  intros x u H. bodies. cbn [app bind]. apply X_look. xsimp. apply X_consume. eapply X_call; [exact H|apply X_ret].
Qed.
Lemma c_ke_binary w : P_key [(T_LiteralBinary, w)] (Key_Binary (w_text w)).
Proof.
  intros s tk r F W. feed. exists st, (in_loc (View T_LiteralBinary a st en tx ac q) (Key_Binary tx)). split; [strips|].
  intros x u H. bodies. cbn [app bind]. apply X_look. xsimp. apply X_consume. eapply X_call; [exact H|apply X_ret].
Qed.
Lemma c_ke_computed o w1 w2 l e : P_expr 0 o l (n_item e) -> P_key ((T_BracketOpen, w1) :: l ++ [(T_BracketClose, w2)]) (Key_Computed e).
Proof.
  intros He s tk r F W. feed. norm. inside He o l T_BracketClose. eexists _, _. split; [|intros x0 u H; norm; xgo]. unfold same in *; strips.
Qed.
Lemma c_pr_shorthand t w : is_word t = true -> P_property [(t, w)] (P_Shorthand (w_text w)).
Proof.
  intros Hw s tk r F W. assert (Pt := word_plain t Hw). feed. exists (in_loc (View t a st en tx ac q) (P_Shorthand tx)). split; [|destruct t; try discriminate Hw; strips].
  bodies. cbn [app bind]. apply X_look. cbn [tv v_token]. wordly Hw. apply X_consume. apply X_look.
  destruct W as [W|W]; rewrite !(is_not _ (tv tk)) by (rewrite W; discriminate); cbn [orb]; apply X_ret.
Qed.
Lemma closing_b0 tk : v_token (tv tk) = T_Comma \/ v_token (tv tk) = T_BraceClose -> follow 1 (tv tk).
Proof. intros [W|W]; [now apply comma_follow|apply stops_follow; now rewrite W]. Qed.
Lemma c_pr_literal o l1 l2 w k e : P_key l1 (n_item k) -> P_expr 1 o l2 (n_item e) -> P_property (l1 ++ (T_Colon, w) :: l2) (P_Literal k e).
Proof.
  intros H1 H2 s tk r F W. feed. norm.
  match goal with F1 : Forall2 spells ?s1 l1, F2 : Forall2 spells ?s2 l2 |- context [Plain ?v :: ?rr] => destruct (use_b0 o l2 _ s2 tk r CtxDefault H2 F2 (closing_b0 tk W)) as (x & Hx & Sx);
    destruct (H1 s1 (Plain v) rr F1 (or_introl eq_refl)) as (st' & k' & Sk & Hk) end.
  eexists. split; [apply Hk; xgo|unfold same in *; strips].
Qed.
Lemma function_paren s l f r : function Nameless l f -> feeds s l -> exists v s', s ++ r = Plain v :: s' /\ v_token v = T_ParenOpen.
Proof.
  intros D F. inversion D as [k l1 l2 l3 n ps b Hn Hp Hb|]; subst; [|contradiction]. clear D. inversion Hn; subst. cbn [app] in F. destruct Hp; feed; (eexists _, _; split; [reflexivity|reflexivity]).
Qed.
Lemma c_pr_method l1 l2 k f : P_key l1 (n_item k) -> function Nameless l2 (n_item f) -> P_function Nameless l2 (n_item f) -> P_property (l1 ++ l2) (P_Method k f).
Proof.
  intros H1 D H2 s tk r F W. apply Forall2_app_inv_r in F as (s1 & s2 & F1 & F2 & ->). norm.
  destruct (H2 s2 (tk :: r) F2) as (f' & Hf & Sf). destruct (function_paren s2 l2 _ (tk :: r) D F2) as (v & s3 & E & Ev). rewrite E in *.
  destruct (H1 s1 (Plain v) s3 F1 (or_intror Ev)) as (st' & k' & Sk & Hk). cbn [nk] in Hf.
  eexists. split; [apply Hk|].
  - bodies. cbn [bind]. apply X_look. cbn [tv]. rewrite (is_not T_Colon v) by (rewrite Ev; discriminate). rewrite (is_yes _ _ Ev). cbn [bind]. eapply X_call; [|apply X_ret]. bodies. cbn [bind]. apply X_look. eapply X_call; [exact Hf|apply X_ret].
  - stripb.
Qed.
Lemma c_pr_spread o w l e : P_expr 1 o l (n_item e) -> P_property ((T_OperatorSpread, w) :: l) (P_Spread e).
Proof.
  intros H s tk r F W. feed. match goal with F1 : Forall2 spells ?s1 l |- _ => destruct (use_b0 o l _ s1 tk r CtxDefault H F1 (closing_b0 tk W)) as (x & Hx & Sx) end.
  eexists. split; [xgo|unfold same in *; strips].
Qed.
Lemma c_ps_nil : P_properties [] [].
Proof. intros s tk r F W. feed. exists []. split; [xgo|reflexivity]. Qed.
(** No property begins with a closing brace. *)
Lemma property_not_close tk s p u : X (body _ F_property) (tk :: s) p u -> v_token (tv tk) <> T_BraceClose.
Proof.
  intros H Q. bodies. cbn [bind] in H. revert H. bodies. cbn [bind]. intros H. apply X_inv in H as (t0 & s0 & E & H). injection E as <- <-. rewrite Q in H. cbn in H.
  unfold is in H. rewrite Q in H. cbn in H. now apply X_inv in H.
Qed.
Lemma after_property l2 ps s2 tk r : more_properties l2 ps -> feeds s2 l2 -> v_token (tv tk) = T_BraceClose -> exists tk2 s3, s2 ++ tk :: r = tk2 :: s3 /\ (v_token (tv tk2) = T_Comma \/ v_token (tv tk2) = T_BraceClose).
Proof.
  intros D F W. destruct D; feed; [exists tk, r; split; [reflexivity|]; auto|..]; (eexists _, _; split; [reflexivity|]; now left).
Qed.
Lemma key_nonempty l k : key l k -> l <> [].
Proof. intros D. destruct D; discriminate. Qed.
Lemma property_nonempty l p : property_of l p -> l <> [].
Proof. intros D. destruct D; try discriminate; match goal with D : key _ _ |- _ => apply key_nonempty in D end; intros Q; apply app_eq_nil in Q as [Q _]; contradiction. Qed.
Lemma first_property l p s tk r x u : property_of l p -> feeds s l -> X (body _ F_property) (s ++ tk :: r) x u -> exists tk0 s0, s = tk0 :: s0 /\ v_token (tv tk0) <> T_BraceClose.
Proof.
  intros D F H. assert (N := feeds_nonempty _ _ F (property_nonempty _ _ D)). destruct s as [|tk0 s0]; [contradiction|]. exists tk0, s0. split; [reflexivity|]. exact (property_not_close _ _ _ _ H).
Qed.
Lemma c_ps_cons l1 l2 p ps : property_of l1 (n_item p) -> P_property l1 (n_item p) -> more_properties l2 ps -> P_more_properties l2 ps -> P_properties (l1 ++ l2) (p :: ps).
Proof.
  intros D1 H1 D H2 s tk r F W. apply Forall2_app_inv_r in F as (s1 & s2 & F1 & F2 & ->). norm.
  destruct (H2 s2 tk r F2 W) as (es' & Hes & Ses). destruct (after_property l2 ps s2 tk r D F2 W) as (tk2 & s3 & E & W2). rewrite E in *.
  destruct (H1 s1 tk2 s3 F1 W2) as (e' & He & Se). destruct (first_property _ _ _ _ _ _ _ D1 F1 He) as (tk0 & s0 & -> & N). cbn [app] in *.
  eexists. split; [xgo|unfold same_props in *; strips].
Qed.
Lemma c_mp_nil : P_more_properties [] [].
Proof. intros s tk r F W. feed. exists []. split; [xgo|reflexivity]. Qed.
Lemma c_mp_comma w : P_more_properties [(T_Comma, w)] [].
Proof. intros s tk r F W. feed. exists []. split; [xgo|reflexivity]. Qed.
Lemma c_mp_cons w l1 l2 p ps : property_of l1 (n_item p) -> P_property l1 (n_item p) -> more_properties l2 ps -> P_more_properties l2 ps -> P_more_properties ((T_Comma, w) :: l1 ++ l2) (p :: ps).
Proof.
  intros D1 H1 D H2 s tk r F W. feed. norm.
  match goal with F1 : Forall2 spells ?s1 l1, F2 : Forall2 spells ?s2 l2 |- _ => destruct (H2 s2 tk r F2 W) as (es' & Hes & Ses); destruct (after_property l2 ps s2 tk r D F2 W) as (tk2 & s3 & E & W2); rewrite E in *;
    destruct (H1 s1 tk2 s3 F1 W2) as (e' & He & Se); destruct (first_property _ _ _ _ _ _ _ D1 F1 He) as (tk0 & sz & -> & N) end. cbn [app] in *.
  eexists. split; [xgo|unfold same_props in *; strips].
Qed.

(** ** Patterns *)
Lemma c_pt_name w : P_pattern [(T_Identifier, w)] (Pat_Identifier (w_text w)).
Proof. intros s tk r F. feed. eexists. split; [xgo|strips]. Qed.
Lemma c_pt_array l w1 w2 ps : P_pattern_elements l ps -> P_pattern ((T_BracketOpen, w1) :: l ++ [(T_BracketClose, w2)]) (Pat_Array ps).
Proof.
  intros H s tk r F. feed. norm. match goal with |- context [?sa ++ Plain ?v :: tk :: r] => destruct (H sa (Plain v) (tk :: r) ltac:(assumption) eq_refl) as (ps' & Hp & Sp) end.
  eexists. split; [xgo|unfold same_pats in *; strips].
Qed.
Lemma c_pt_object l w1 w2 ps : P_properties l ps -> P_pattern ((T_BraceOpen, w1) :: l ++ [(T_BraceClose, w2)]) (Pat_Object ps).
Proof.
  intros H s tk r F. feed. norm. match goal with |- context [?sa ++ Plain ?v :: tk :: r] => destruct (H sa (Plain v) (tk :: r) ltac:(assumption) eq_refl) as (ps' & Hp & Sp) end.
  eexists. split; [xgo|unfold same_props in *; strips].
Qed.
Definition pattern_at (v : view) : P (node pattern) :=
  if is T_Identifier v then pattern_identifier else if is T_BracketOpen v then call F_pattern_array else if is T_BraceOpen v then call F_pattern_object else fail_with err_pattern.
Lemma pattern_begins tk s p u : X (body _ F_pattern) (tk :: s) p u -> X (pattern_at (tv tk)) (tk :: s) p u /\ (v_token (tv tk) = T_Identifier \/ v_token (tv tk) = T_BracketOpen \/ v_token (tv tk) = T_BraceOpen).
Proof.
  intros H. change (body _ F_pattern) with (Look (fun v => pattern_at v)) in H. apply X_inv in H as (t0 & s0 & E & H). injection E as <- <-. cbv beta in H. split; [exact H|].
  unfold pattern_at in H. destruct (is T_Identifier (tv tk)) eqn:E1; [apply LexEval.token_eqb_eq in E1; auto|]. destruct (is T_BracketOpen (tv tk)) eqn:E2; [apply LexEval.token_eqb_eq in E2; auto|]. destruct (is T_BraceOpen (tv tk)) eqn:E3; [apply LexEval.token_eqb_eq in E3; auto|].
  exfalso. now apply X_inv in H.
Qed.
Lemma pattern_nonempty l p : pattern_is l p -> l <> [].
Proof. intros D. destruct D; discriminate. Qed.
(** A pattern and its default value. *)
Lemma with_default s tk r p p' u : s <> [] -> X (body _ F_pattern) (s ++ tk :: r) p (tk :: r) -> X (body _ (F_pattern_assign p)) (tk :: r) p' u ->
  X (body _ F_pattern_param) (s ++ tk :: r) p' u /\ X (body _ F_pattern_array_element) (s ++ tk :: r) p' u.
Proof.
  intros N H1 H2. destruct s as [|tk0 s0]; [contradiction|]. cbn [app] in *. destruct (pattern_begins _ _ _ _ H1) as [H V].
  assert (G : X (bind (pattern_at (tv tk0)) (fun left => call (F_pattern_assign left))) (tk0 :: s0 ++ tk :: r) p' u).
  { eapply X_bind; [exact H|]. unfold call. eapply X_call; [exact H2|apply X_ret]. }
  split.
  - change (body _ F_pattern_param) with (Look (fun v => bind (pattern_at v) (fun left => call (F_pattern_assign left)))). apply X_look. exact G.
  - change (body _ F_pattern_array_element) with (Look (fun v => if (is T_Comma v || is T_BracketClose v)%bool then Ret (Node (v_start v) (v_start v) Pat_Void) else bind (pattern_at v) (fun left => call (F_pattern_assign left)))). apply X_look.
    rewrite (is_not T_Comma), (is_not T_BracketClose) by (destruct V as [V|[V|V]]; rewrite V; discriminate). exact G.
Qed.
Lemma c_pm_plain l p : pattern_is l p -> P_pattern l p -> P_parameter l p.
Proof.
  intros D H s tk r F W N. destruct (H s tk r F) as (p' & Hp & Sp). assert (N' := feeds_nonempty _ _ F (pattern_nonempty _ _ D)).
  assert (G : X (body _ (F_pattern_assign p')) (tk :: r) p' (tk :: r)) by xgo.
  destruct (with_default _ _ _ _ _ _ N' Hp G) as [G1 G2]. eauto.
Qed.
Lemma c_pm_default o l1 l2 w p e : pattern_is l1 (n_item p) -> P_pattern l1 (n_item p) -> P_expr 1 o l2 (n_item e) -> P_parameter (l1 ++ (T_OperatorAssign, w) :: l2) (Pat_Assign p e).
Proof.
  intros D H1 H2 s tk r F W N. feed. norm.
  match goal with F1 : Forall2 spells ?s1 l1, F2 : Forall2 spells ?s2 l2 |- context [Plain ?v :: ?rr] => destruct (use_b0 o l2 _ s2 tk r CtxDefault H2 F2 W) as (x & Hx & Sx);
    destruct (H1 s1 (Plain v) rr F1) as (p' & Hp & Sp); assert (N' := feeds_nonempty _ _ F1 (pattern_nonempty _ _ D));
    assert (G : X (body _ (F_pattern_assign p')) (Plain v :: rr) (Node (n_start p') (n_end x) (Pat_Assign p' x)) (tk :: r)) by xgo end.
  destruct (with_default _ _ _ _ _ _ N' Hp G) as [G1 G2]. eexists. split; [exact G1|]. split; [exact G2|]. unfold same in *. strips.
Qed.
Lemma parameter_begins l p s : parameter l p -> feeds s l -> exists tk0 s0, s = tk0 :: s0 /\ (v_token (tv tk0) = T_Identifier \/ v_token (tv tk0) = T_BracketOpen \/ v_token (tv tk0) = T_BraceOpen).
Proof.
  intros D F. destruct D as [l p D|o l1 l2 w p e D]; destruct D; feed; (eexists _, _; split; [reflexivity|]; cbn [tv v_token]; auto).
Qed.
Lemma c_hp_hole : P_hole_pattern [] Pat_Void.
Proof.
  intros s tk r F W. feed. eexists. split; [|split; [|intros Q; now contradiction Q]].
  - bodies. cbn [bind app]. apply X_look. destruct W as [W|W]; rewrite (is_yes _ _ W); rewrite ?orb_true_r; cbn [orb]; apply X_ret.
  - reflexivity.
Qed.
Lemma c_hp_pattern l p : parameter l p -> P_parameter l p -> P_hole_pattern l p.
Proof.
  intros D H s tk r F W. assert (W1 : follow 1 (tv tk)) by (destruct W as [W|W]; [now apply comma_follow|apply stops_follow; now rewrite W]).
  destruct (H s tk r F W1) as (p' & _ & Hp & Sp); [destruct W as [W|W]; rewrite W; discriminate|]. exists p'. split; [exact Hp|]. split; [exact Sp|]. intros _.
  destruct (parameter_begins _ _ _ D F) as (tk0 & s0 & -> & V). exists tk0, s0. split; [reflexivity|]. destruct V as [V|[V|V]]; rewrite V; discriminate.
Qed.
Lemma c_pe_nil : P_pattern_elements [] [].
Proof. intros s tk r F W. feed. exists []. split; [xgo|reflexivity]. Qed.
Lemma after_pattern l2 es s2 tk r : more_patterns l2 es -> feeds s2 l2 -> v_token (tv tk) = T_BracketClose -> exists tk2 s3, s2 ++ tk :: r = tk2 :: s3 /\ (v_token (tv tk2) = T_Comma \/ (v_token (tv tk2) = T_BracketClose /\ l2 = [])).
Proof.
  intros D F W. destruct D; feed; [exists tk, r; split; [reflexivity|]; auto|]. eexists _, _; split; [reflexivity|]. now left.
Qed.
Lemma c_pe_cons l1 l2 e es : l1 ++ l2 <> [] -> P_hole_pattern l1 (n_item e) -> more_patterns l2 es -> P_more_patterns l2 es -> P_pattern_elements (l1 ++ l2) (e :: es).
Proof.
  intros N H1 D H2 s tk r F W. apply Forall2_app_inv_r in F as (s1 & s2 & F1 & F2 & ->). norm.
  destruct (H2 s2 tk r F2 W) as (es' & Hes & Ses). destruct (after_pattern l2 es s2 tk r D F2 W) as (tk2 & s3 & E & W2). rewrite E in *.
  destruct (H1 s1 tk2 s3 F1 ltac:(tauto)) as (e' & He & Se & V).
  assert (K : exists tk0 s0, s1 ++ tk2 :: s3 = tk0 :: s0 /\ v_token (tv tk0) <> T_BracketClose).
  { destruct s1 as [|tk1 s1].
    - exists tk2, s3. split; [reflexivity|]. inversion F1; subst. destruct W2 as [W2|[_ ->]]; [rewrite W2; discriminate|]. now contradiction N.
    - destruct (V ltac:(discriminate)) as (tk0 & s0 & Q & V'). injection Q as -> ->. exists tk0, (s0 ++ tk2 :: s3). split; [reflexivity|exact V']. }
  destruct K as (tk0 & s0 & K & N0). rewrite K in *. eexists. split; [xgo|unfold same_pats in *; strips].
Qed.
Lemma c_mq_nil : P_more_patterns [] [].
Proof. intros s tk r F W. feed. exists []. split; [xgo|reflexivity]. Qed.
Lemma c_mq_cons w l1 l2 e es : P_hole_pattern l1 (n_item e) -> more_patterns l2 es -> P_more_patterns l2 es -> P_more_patterns ((T_Comma, w) :: l1 ++ l2) (e :: es).
Proof.
  intros H1 D H2 s tk r F W. feed. norm.
  match goal with F1 : Forall2 spells ?s1 l1, F2 : Forall2 spells ?s2 l2 |- _ => destruct (H2 s2 tk r F2 W) as (es' & Hes & Ses); destruct (after_pattern l2 es s2 tk r D F2 W) as (tk2 & s3 & E & W2); rewrite E in *;
    destruct (H1 s1 tk2 s3 F1 ltac:(tauto)) as (e' & He & Se & V) end.
  eexists. split; [xgo|unfold same_pats in *; strips].
Qed.

(** ** Parameters *)
Lemma c_rp_rest w1 w2 w3 a : n_item a = w_text w2 -> P_rest_parameter [(T_OperatorSpread, w1); (T_Identifier, w2); (T_ParenClose, w3)] (Pat_Rest a).
Proof.
  intros E s r F. feed. split; [eexists _, _; split; reflexivity|]. eexists. split; [xgo|strips].
Qed.
Lemma c_pl_nil w1 w2 : P_parameters [(T_ParenOpen, w1); (T_ParenClose, w2)] [].
Proof. intros s r F. feed. exists []. split; [xgo|reflexivity]. Qed.
Lemma c_pl_rest w l p : P_rest_parameter l (n_item p) -> P_parameters ((T_ParenOpen, w) :: l) [p].
Proof.
  intros H s r F. feed. match goal with F1 : Forall2 spells ?s1 l |- _ => destruct (H s1 r F1) as [(tk0 & s0 & -> & V) (p' & Hp & Sp)] end. cbn [app] in *.
  eexists. split; [xgo|unfold same_pats; strips].
Qed.
Lemma at_list_end tk : v_token (tv tk) = T_Comma \/ v_token (tv tk) = T_ParenClose -> follow 1 (tv tk) /\ v_token (tv tk) <> T_OperatorAssign.
Proof. intros [W|W]; (split; [first [now apply comma_follow|apply stops_follow; now rewrite W]|rewrite W; discriminate]). Qed.
Lemma c_pl_cons w l1 l2 p ps : parameter l1 (n_item p) -> P_parameter l1 (n_item p) -> P_more_parameters l2 ps -> P_parameters ((T_ParenOpen, w) :: l1 ++ l2) (p :: ps).
Proof.
  intros D H1 H2 s r F. feed. norm.
  match goal with F1 : Forall2 spells ?s1 l1, F2 : Forall2 spells ?s2 l2 |- _ => destruct (H2 s2 r F2) as [(tk2 & sy & -> & W2) (ps' & Hps & Sps)]; cbn [app] in *; destruct (at_list_end tk2 W2) as [W3 W4];
    destruct (H1 s1 tk2 (sy ++ r) F1 W3 W4) as (p' & Hp & _ & Sp); destruct (parameter_begins _ _ _ D F1) as (tk0 & sz & -> & V) end.
  cbn [app] in *. assert (N1 : v_token (tv tk0) <> T_ParenClose) by (destruct V as [V|[V|V]]; rewrite V; discriminate). assert (N2 : v_token (tv tk0) <> T_OperatorSpread) by (destruct V as [V|[V|V]]; rewrite V; discriminate).
  eexists. split; [xgo|unfold same_pats in *; strips].
Qed.
Lemma c_mr_nil w : P_more_parameters [(T_ParenClose, w)] [].
Proof. intros s r F. feed. split; [eexists _, _; split; [reflexivity|now right]|]. exists []. split; [xgo|reflexivity]. Qed.
Lemma c_mr_comma w1 w2 : P_more_parameters [(T_Comma, w1); (T_ParenClose, w2)] [].
Proof. intros s r F. feed. split; [eexists _, _; split; [reflexivity|now left]|]. exists []. split; [xgo|reflexivity]. Qed.
Lemma c_mr_rest w l p : P_rest_parameter l (n_item p) -> P_more_parameters ((T_Comma, w) :: l) [p].
Proof.
  intros H s r F. feed. match goal with F1 : Forall2 spells ?s1 l |- _ => destruct (H s1 r F1) as [(tk0 & sz & -> & V) (p' & Hp & Sp)] end. cbn [app] in *. split; [eexists _, _; split; [reflexivity|now left]|].
  eexists. split; [xgo|unfold same_pats; strips].
Qed.
Lemma c_mr_cons w l1 l2 p ps : parameter l1 (n_item p) -> P_parameter l1 (n_item p) -> P_more_parameters l2 ps -> P_more_parameters ((T_Comma, w) :: l1 ++ l2) (p :: ps).
Proof.
  intros D H1 H2 s r F. feed. norm. split; [eexists _, _; split; [reflexivity|now left]|].
  match goal with F1 : Forall2 spells ?s1 l1, F2 : Forall2 spells ?s2 l2 |- _ => destruct (H2 s2 r F2) as [(tk2 & sy & -> & W2) (ps' & Hps & Sps)]; cbn [app] in *; destruct (at_list_end tk2 W2) as [W3 W4];
    destruct (H1 s1 tk2 (sy ++ r) F1 W3 W4) as (p' & Hp & _ & Sp); destruct (parameter_begins _ _ _ D F1) as (tk0 & sz & -> & V) end.
  cbn [app] in *. assert (N1 : v_token (tv tk0) <> T_ParenClose) by (destruct V as [V|[V|V]]; rewrite V; discriminate). assert (N2 : v_token (tv tk0) <> T_OperatorSpread) by (destruct V as [V|[V|V]]; rewrite V; discriminate).
  eexists. split; [xgo|unfold same_pats in *; strips].
Qed.

(** ** Functions *)
Lemma block_of l b s r : P_body l b -> feeds s l -> exists b', X (body _ (F_block I_Statement)) (s ++ r) b' r /\ X (body _ (F_unchecked_block I_Statement)) (s ++ r) b' r /\ strip_block strip_statement (n_item b') = strip_block strip_statement b.
Proof.
  intros H F. destruct (H s r F) as (v & vc & s' & b' & -> & Ev & Hb & Sb). destruct v as [t a st en tx ac q]. cbn in Ev. subst t.
  exists (Node st (v_end vc) b'). split; [|split; [|exact Sb]]; norm; xgo.
Qed.
Lemma named k l n s tk r : name_of k l n -> feeds s l -> v_token (tv tk) <> T_Identifier -> exists n', X (body _ (F_name (nk k))) (s ++ tk :: r) n' (tk :: r) /\ strip_name n' = strip_name n.
Proof.
  intros D F N. destruct D; feed; cbn [nk]; eexists; (split; [xgo|strips]).
Qed.
Lemma params_open l ps s r : parameters l ps -> feeds s l -> exists v s', s ++ r = Plain v :: s' /\ v_token v = T_ParenOpen.
Proof. intros D F. destruct D; feed; (eexists _, _; split; [reflexivity|reflexivity]). Qed.
Lemma name_first k l n s tk r : name_of k l n -> feeds s l -> v_token (tv tk) <> T_OperatorMultiplication -> exists tk0 s0, s ++ tk :: r = tk0 :: s0 /\ v_token (tv tk0) <> T_OperatorMultiplication.
Proof. intros D F N. destruct D; feed; (eexists _, _; split; [reflexivity|first [exact N|discriminate]]). Qed.
Lemma c_fu_plain k l1 l2 l3 n ps b : name_of k l1 n -> parameters l2 ps -> P_parameters l2 ps -> P_body l3 (n_item b) -> P_function k (l1 ++ l2 ++ l3) (Func n false ps b).
Proof.
  intros Dn Dp Hp Hb s r F. apply Forall2_app_inv_r in F as (s1 & s23 & F1 & F & ->). apply Forall2_app_inv_r in F as (s2 & s3 & F2 & F3 & ->). norm.
  destruct (block_of _ _ s3 r Hb F3) as (b' & Xb & _ & Sb). destruct (Hp s2 (s3 ++ r) F2) as (ps' & Xp & Sp).
  destruct (params_open _ _ s2 (s3 ++ r) Dp F2) as (v & s' & E & Ev). rewrite E in *.
  destruct (named k l1 n s1 (Plain v) s' Dn F1) as (n' & Xn & Sn); [cbn [tv]; rewrite Ev; discriminate|].
  destruct (name_first k l1 n s1 (Plain v) s' Dn F1) as (tk0 & s0 & E0 & N0); [cbn [tv]; rewrite Ev; discriminate|]. rewrite E0 in *.
  eexists. split; [xgo|unfold same_pats in *; stripb].
Qed.
Lemma c_fu_generator k w l1 l2 l3 n ps b : name_of k l1 n -> parameters l2 ps -> P_parameters l2 ps -> P_body l3 (n_item b) -> P_function k ((T_OperatorMultiplication, w) :: l1 ++ l2 ++ l3) (Func n true ps b).
Proof.
  intros Dn Dp Hp Hb s r F. inversion F as [|tk x sx lx Sx F']; subst. clear F. apply Forall2_app_inv_r in F' as (s1 & s23 & F1 & F & ->). apply Forall2_app_inv_r in F as (s2 & s3 & F2 & F3 & ->). feed. norm.
  destruct (block_of _ _ s3 r Hb F3) as (b' & Xb & _ & Sb). destruct (Hp s2 (s3 ++ r) F2) as (ps' & Xp & Sp).
  destruct (params_open _ _ s2 (s3 ++ r) Dp F2) as (v & s' & E & Ev). rewrite E in *.
  destruct (named k l1 n s1 (Plain v) s' Dn F1) as (n' & Xn & Sn); [cbn [tv]; rewrite Ev; discriminate|].
  eexists. split; [xgo|unfold same_pats in *; stripb].
Qed.
