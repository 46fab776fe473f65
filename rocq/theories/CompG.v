(** Every program of the grammar is accepted: more statements. *)
From Coq Require Import List NArith Bool Lia Arith String.
From Coq.Strings Require Import Byte.
From Verif Require Import Bytes Token Tables Lexer Ast Prog Parser Structure SpecSyntax Erase Comp CompA CompB CompC CompD CompE CompF.
Import ListNotations.
Open Scope nat_scope.
Open Scope list_scope.

(** ** Declarations *)
Lemma c_de_plain nx l p : P_pattern l (n_item p) -> P_declarator nx l (Declarator p None).
Proof.
  intros H s tk r F S N. destruct (H s tk r F) as (p' & Hp & Sp). assert (Nt : v_token (tv tk) <> T_OperatorAssign) by (apply (spells_not _ _ _ S); [exact N|discriminate|discriminate]).
  eexists. split; [bodies; cbn [bind]; eapply X_call; [exact Hp|]; apply X_look; rewrite (is_not _ _ Nt); apply X_ret|strips].
Qed.
Lemma c_de_init nx o w l1 l2 p e : P_pattern l1 (n_item p) -> P_expr 1 o l2 (n_item e) -> ends 1 nx -> P_declarator nx (l1 ++ (T_OperatorAssign, w) :: l2) (Declarator p (Some e)).
Proof.
  intros H1 H2 En s tk r F S N. feed. norm. assert (W := ends_b0 _ _ S En).
  match goal with F1 : Forall2 spells ?s1 l1, F2 : Forall2 spells ?s2 l2 |- context [Plain ?v :: ?rr] => destruct (use_b0 o l2 _ s2 tk r CtxDefault H2 F2 W) as (x & Hx & Sx); destruct (H1 s1 (Plain v) rr F1) as (p' & Hp & Sp) end.
  eexists. split; [bodies; cbn [bind]; eapply X_call; [exact Hp|]; apply X_look; xsimp; apply X_consume; eapply X_call; [exact Hx|]; apply X_ret|unfold same in *; strips].
Qed.
Lemma c_ds_one nx l d : P_declarator nx l (n_item d) -> P_declarators nx l [d].
Proof.
  intros H s tk r F S K. destruct (H s tk r F S) as (d' & Hd & Sd); [intros Q; apply K; rewrite Q; cbn; tauto|].
  assert (Nt : v_token (tv tk) <> T_Comma) by (apply (spells_not _ _ _ S); [intros Q; apply K; rewrite Q; cbn; tauto|discriminate|discriminate]).
  eexists. split; [bodies; cbn [bind]; eapply X_call; [exact Hd|]; apply X_look; rewrite (is_not _ _ Nt); apply X_ret|strips].
Qed.
Lemma c_ds_cons nx w l1 l2 d ds : P_declarator (T_Comma, w) l1 (n_item d) -> P_declarators nx l2 ds -> P_declarators nx (l1 ++ (T_Comma, w) :: l2) (d :: ds).
Proof.
  intros H1 H2 s tk r F S K. apply Forall2_app_inv_r in F as (s1 & sx & F1 & F & ->). inversion F as [|tk1 x1 s2 l' S1 F2]; subst. clear F. norm.
  destruct (H2 s2 tk r F2 S K) as (ds' & Hds & Sds). destruct (H1 s1 tk1 (s2 ++ tk :: r) F1 S1) as (d' & Hd & Sd); [discriminate|]. feed.
  eexists. split; [bodies; cbn [bind]; eapply X_call; [exact Hd|]; apply X_look; xsimp; apply X_consume; eapply X_call; [exact Hds|]; apply X_ret|strips].
Qed.
Lemma declaration_plain t k : In (t, k) declarations -> plain t = true.
Proof. intros I. cbn in I. repeat (destruct I as [I|I]; [injection I as <- <-; reflexivity|]). destruct I. Qed.
Lemma okn_semi nx l2 : semi nx l2 -> okn nx -> okn (next l2 nx).
Proof. intros D K. destruct D; [exact K|]. intros Q. cbn in Q. intuition discriminate. Qed.
Lemma c_st_declaration nx t w k l1 l2 ds : In (t, k) declarations -> P_declarators (next l2 nx) l1 ds -> semi nx l2 -> P_stmt nx ((t, w) :: l1 ++ l2) (St_Declaration k ds).
Proof.
  intros I H Dl s tk r F S K. inversion F as [|tk0 x0 sx l0 S0 F0]; subst. clear F. apply Forall2_app_inv_r in F0 as (s1 & s2 & F1 & F2 & ->). norm.
  assert (G := semicolon nx l2 s2 tk r Dl F2 S). destruct (next_tok s2 l2 nx tk r F2 S) as (tk2 & u & E & S2). rewrite E in *.
  destruct (H s1 tk2 u F1 S2 (okn_semi _ _ Dl K)) as (ds' & Hds & Sds).
  destruct (spells_plain _ _ _ S0 (declaration_plain _ _ I)) as (a & st & en & tx & ac & q & -> & _).
  cbn in I; repeat (destruct I as [I|I]; [injection I as <- <-; eexists; (split; [xgo|strips])|]); destruct I.
Qed.

(** ** Jumps *)
Lemma c_st_return nx w l : semi nx l -> P_stmt nx ((T_Return, w) :: l) (St_Return None).
Proof.
  intros D s tk r F S K. inversion F as [|tk0 x0 s1 l0 S0 F0]; subst. clear F. destruct D as [B|w2]; feed.
  - assert (A := spells_break _ _ S B). eexists. split; [bodies; xsimp; norm; apply X_look; xsimp; hsimp; eapply X_call; [|apply X_ret]; bodies; cbn [bind]; eapply X_call; [|apply X_ret]; bodies; cbn [bind]; apply X_look; apply X_consume; apply X_look; rewrite A; apply X_ret|strips].
  - match goal with Ea : ?a = ExplicitSemicolon <-> T_Semicolon = T_Semicolon |- _ => assert (Q : a = ExplicitSemicolon) by tauto; subst a end.
    eexists. split; [xgo|strips].
Qed.
Lemma nosemi_of tk t w : spells tk (t, w) -> t <> T_Semicolon -> w_break w = false -> viewer (v_token (tv tk)) = true \/ plain t = true -> v_asi (tv tk) = NoSemicolon.
Proof.
  intros S N B V. remember (t, w) as x eqn:E. destruct S as [v A1 A2 A3|v w' A1 A2 A3 A4|v w' A1 A2 A3 A4]; injection E as E1 E2; cbn [tv] in *; subst w; cbn [w_break] in B.
  - unfold breaks in B. destruct (v_asi v); try reflexivity; [|discriminate B]. exfalso. apply N. rewrite <- E1. now apply A1.
  - rewrite A3 in B. unfold breaks in B. destruct (v_asi v); try reflexivity; [contradiction|discriminate B].
  - rewrite A1 in V. destruct V as [V|V]; [discriminate V|]. rewrite E1 in A2. destruct t; discriminate.
Qed.
Lemma c_st_return_value nx o w l1 l2 e : expr 0 o l1 (n_item e) -> P_expr 0 o l1 (n_item e) -> same_line l1 -> semi nx l2 -> ends 0 (next l2 nx) -> P_stmt nx ((T_Return, w) :: l1 ++ l2) (St_Return (Some e)).
Proof.
  intros D H L Dl En s tk r F S K. inversion F as [|tk0 x0 sx l0 S0 F0]; subst. clear F. apply Forall2_app_inv_r in F0 as (s1 & s2 & F1 & F2 & ->). norm.
  destruct (expr_semi o l1 l2 nx _ s1 s2 tk r H Dl En F1 F2 S) as (e' & Se & tk2 & u & E & W & He & G). rewrite E in *.
  destruct (expr_begins _ _ _ _ D) as (t & w1 & l' & -> & It).
  destruct (expr_view 0 o ((t, w1) :: l') _ s1 tk2 H ltac:(discriminate) F1 W) as (tk1 & s3 & -> & V); [intros _; apply (follow_mono 0); [lia|exact W]|].
  inversion F1 as [|tk1' x1 s3' l1' S1 F3]; subst. assert (A : v_asi (tv tk1) = NoSemicolon). { apply (nosemi_of _ t w1 S1); [|exact L|now left]. intros ->. revert It. vm_compute. intuition discriminate. }
  destruct (spells_plain _ _ _ S0 eq_refl) as (a & st & en & tx & ac & q & -> & _). cbn [app] in *.
  eexists. split; [bodies; xsimp; norm; apply X_look; xsimp; hsimp; eapply X_call; [|apply X_ret]; bodies; cbn [bind]; eapply X_call; [|apply X_ret]; bodies; cbn [bind]; apply X_look; apply X_consume; apply X_look; rewrite A; cbn [bind]; eapply X_call; [exact He|]; eapply X_call; [exact G|]; apply X_ret|unfold same in *; strips].
Qed.
Lemma label_of nx l1 l2 o s1 s2 tk r : label l1 o -> semi nx l2 -> feeds s1 l1 -> feeds s2 l2 -> spells tk nx -> exists o' e, X (body _ F_label) (s1 ++ s2 ++ tk :: r) (o', e) (tk :: r) /\ option_map strip_id o' = option_map strip_id o.
Proof.
  intros D Dl F1 F2 S. assert (G := semicolon nx l2 s2 tk r Dl F2 S). destruct D as [|w n B E].
  - feed. destruct Dl as [B|w2]; feed.
    + assert (A := spells_break _ _ S B). eexists _, _. split; [bodies; cbn [bind app]; apply X_look; rewrite A; apply X_ret|reflexivity].
    + match goal with Ea : ?a = ExplicitSemicolon <-> T_Semicolon = T_Semicolon |- _ => assert (Q : a = ExplicitSemicolon) by tauto; subst a end.
      eexists _, _. split; [bodies; cbn [bind app]; apply X_look; cbn [tv v_asi bind]; apply X_consume; apply X_ret|reflexivity].
  - feed. assert (a = NoSemicolon) as -> by (destruct a; try reflexivity; [exfalso; assert (Q : T_Identifier = T_Semicolon) by tauto; discriminate Q|congruence]).
    eexists _, _. split; [bodies; cbn [bind app]; apply X_look; cbn [tv v_asi bind]; apply X_look; xsimp; apply X_consume; cbn [bind]; eapply X_call; [exact G|]; apply X_ret|strips].
Qed.
Lemma c_st_break nx w l1 l2 o : label l1 o -> semi nx l2 -> P_stmt nx ((T_Break, w) :: l1 ++ l2) (St_Break o).
Proof.
  intros D Dl s tk r F S K. inversion F as [|tk0 x0 sx l0 S0 F0]; subst. clear F. apply Forall2_app_inv_r in F0 as (s1 & s2 & F1 & F2 & ->). norm.
  destruct (label_of nx l1 l2 o s1 s2 tk r D Dl F1 F2 S) as (o' & e & Hl & So). destruct (spells_plain _ _ _ S0 eq_refl) as (a & st & en & tx & ac & q & -> & _).
  eexists. split; [xgo|cbn [n_item strip_statement]; now rewrite So].
Qed.
Lemma c_st_continue nx w l1 l2 o : label l1 o -> semi nx l2 -> P_stmt nx ((T_Continue, w) :: l1 ++ l2) (St_Continue o).
Proof.
  intros D Dl s tk r F S K. inversion F as [|tk0 x0 sx l0 S0 F0]; subst. clear F. apply Forall2_app_inv_r in F0 as (s1 & s2 & F1 & F2 & ->). norm.
  destruct (label_of nx l1 l2 o s1 s2 tk r D Dl F1 F2 S) as (o' & e & Hl & So). destruct (spells_plain _ _ _ S0 eq_refl) as (a & st & en & tx & ac & q & -> & _).
  eexists. split; [xgo|cbn [n_item strip_statement]; now rewrite So].
Qed.
Lemma c_st_throw nx o w l1 l2 e : P_expr 0 o l1 (n_item e) -> semi nx l2 -> ends 0 (next l2 nx) -> P_stmt nx ((T_Throw, w) :: l1 ++ l2) (St_Throw e).
Proof.
  intros H Dl En s tk r F S K. inversion F as [|tk0 x0 sx l0 S0 F0]; subst. clear F. apply Forall2_app_inv_r in F0 as (s1 & s2 & F1 & F2 & ->). norm.
  destruct (expr_semi o l1 l2 nx _ s1 s2 tk r H Dl En F1 F2 S) as (e' & Se & tk2 & u & E & W & He & G). destruct (spells_plain _ _ _ S0 eq_refl) as (a & st & en & tx & ac & q & -> & _).
  eexists. split; [xgo|unfold same in *; strips].
Qed.

(** ** Statements with parts *)
Lemma c_st_labeled nx w1 w2 l b : P_stmt nx l (n_item b) -> P_stmt nx ((T_Identifier, w1) :: (T_Colon, w2) :: l) (St_Labeled (w_text w1) b).
Proof.
  intros H s tk r F S K. feed. match goal with F1 : Forall2 spells ?s1 l |- _ => destruct (H s1 tk r F1 S K) as (b' & Hb & Sb) end.
  eexists. split; [xgo|]. match goal with E : w_text w1 = _ |- _ => rewrite E end. strips.
Qed.
Lemma c_st_function nx w l f : P_function Named l f -> P_stmt nx ((T_Function, w) :: l) (St_Function f).
Proof.
  intros H s tk r F S K. feed. match goal with F1 : Forall2 spells ?s1 l |- _ => destruct (H s1 (tk :: r) F1) as (f' & Hf & Sf) end. cbn [nk] in Hf. eexists. split; [xgo|strips].
Qed.
Lemma c_st_class nx w l f : P_class Named l f -> P_stmt nx ((T_Class, w) :: l) (St_Class f).
Proof.
  intros H s tk r F S K. feed. match goal with F1 : Forall2 spells ?s1 l |- _ => destruct (H s1 (tk :: r) F1) as (f' & Hf & Sf) end. cbn [nk] in Hf. eexists. split; [xgo|strips].
Qed.
(** A condition in parentheses. *)
Lemma use_paren o l e s tk w r : P_expr 0 o l e -> feeds s l -> spells tk (T_ParenClose, w) -> exists e' v, tk = Plain v /\ v_token v = T_ParenClose /\ X (body _ (F_expression CtxDefault BP_ANY)) (s ++ Plain v :: r) e' (Plain v :: r) /\ same (n_item e') e.
Proof.
  intros H F S. destruct (spells_tok _ _ S eq_refl) as (v & -> & Ev). destruct (use_any o l e s (Plain v) r CtxDefault H F) as (e' & He & Se); [apply stops_follow; cbn [tv]; now rewrite Ev|]. eauto 6.
Qed.
Lemma c_st_while nx o w1 w2 w3 l1 l2 e b : P_expr 0 o l1 (n_item e) -> P_stmt nx l2 (n_item b) -> P_stmt nx ((T_While, w1) :: (T_ParenOpen, w2) :: l1 ++ (T_ParenClose, w3) :: l2) (St_While e b).
Proof.
  intros H1 H2 s tk r F S K. feed. norm. match goal with F2 : Forall2 spells ?s2 l2 |- _ => destruct (H2 s2 tk r F2 S K) as (b' & Hb & Sb) end. inside H1 o l1 T_ParenClose.
  eexists. split; [xgo|unfold same in *; strips].
Qed.
Lemma c_st_if nx o w1 w2 w3 l1 l2 e b : P_expr 0 o l1 (n_item e) -> P_stmt nx l2 (n_item b) -> fst nx <> T_Else -> P_stmt nx ((T_If, w1) :: (T_ParenOpen, w2) :: l1 ++ (T_ParenClose, w3) :: l2) (St_If e b None).
Proof.
  intros H1 H2 Ne s tk r F S K. feed. norm. match goal with F2 : Forall2 spells ?s2 l2 |- _ => destruct (H2 s2 tk r F2 S K) as (b' & Hb & Sb) end. inside H1 o l1 T_ParenClose.
  assert (Nt : v_token (tv tk) <> T_Else) by (apply (spells_not _ _ _ S); [exact Ne|discriminate|discriminate]).
  eexists. split; [xgo|unfold same in *; strips].
Qed.
Lemma okn_else w : okn (T_Else, w). Proof. intros Q. cbn in Q. intuition discriminate. Qed.
Lemma okn_while w : okn (T_While, w). Proof. intros Q. cbn in Q. intuition discriminate. Qed.
Lemma c_st_if_else nx o w1 w2 w3 w4 l1 l2 l3 e a b : P_expr 0 o l1 (n_item e) -> P_stmt (T_Else, w4) l2 (n_item a) -> P_stmt nx l3 (n_item b) ->
  P_stmt nx ((T_If, w1) :: (T_ParenOpen, w2) :: l1 ++ (T_ParenClose, w3) :: l2 ++ (T_Else, w4) :: l3) (St_If e a (Some b)).
Proof.
  intros H1 H2 H3 s tk r F S K. inversion F as [|tk1 x1 sx1 lx1 S1 F']; subst. clear F. inversion F' as [|tk2 x2 sx2 lx2 S2 F]; subst. clear F'. apply Forall2_app_inv_r in F as (s1 & sx3 & F1 & F & ->). inversion F as [|tk3 x3 sx4 lx4 S3 F']; subst. clear F.
  apply Forall2_app_inv_r in F' as (s2 & sx5 & F2 & F & ->). inversion F as [|tk4 x4 s3 lx5 S4 F3]; subst. clear F. norm.
  destruct (H3 s3 tk r F3 S K) as (b' & Hb & Sb). destruct (H2 s2 tk4 (s3 ++ tk :: r) F2 S4 (okn_else _)) as (a' & Ha & Sa). feed. inside H1 o l1 T_ParenClose.
  eexists. split; [xgo|unfold same in *; strips].
Qed.
Lemma c_st_do nx o w1 w2 w3 w4 l1 l2 b e : P_stmt (T_While, w2) l1 (n_item b) -> P_expr 0 o l2 (n_item e) -> P_stmt nx ((T_Do, w1) :: l1 ++ (T_While, w2) :: (T_ParenOpen, w3) :: l2 ++ [(T_ParenClose, w4)]) (St_Do b e).
Proof.
  intros H1 H2 s tk r F S K. inversion F as [|tk1 x1 sx1 lx1 S1 F']; subst. clear F. apply Forall2_app_inv_r in F' as (s1 & sx3 & F1 & F & ->). inversion F as [|tk3 x3 sx4 lx4 S3 F']; subst. clear F.
  norm. destruct (H1 s1 tk3 (sx4 ++ tk :: r) F1 S3 (okn_while _)) as (b' & Hb & Sb). feed. norm. revert Hb. norm. intros Hb. inside H2 o l2 T_ParenClose.
  eexists. split; [xgo|unfold same in *; strips].
Qed.
