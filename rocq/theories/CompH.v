(** Every program of the grammar is accepted: loops, try, switch, import, lists of statements. *)
From Coq Require Import List NArith Bool Lia Arith String.
From Coq.Strings Require Import Byte.
From Verif Require Import Bytes Token Tables Lexer Ast Prog Parser Structure SpecSyntax Erase Comp CompA CompB CompC CompD CompE CompF CompG.
Import ListNotations.
Open Scope nat_scope.
Open Scope list_scope.

(** ** For *)
Lemma c_in_declaration nx t w k l ds : In (t, k) declarations -> P_declarators nx l ds -> P_init nx ((t, w) :: l) (FI_Declaration k ds).
Proof.
  intros I H s tk r start F S K. inversion F as [|tk0 x0 s1 l0 S0 F1]; subst. clear F. destruct (H s1 tk r F1 S K) as (ds' & Hds & Sds).
  destruct (spells_plain _ _ _ S0 (declaration_plain _ _ I)) as (a & st & en & tx & ac & q & -> & _). exists (Node st (v_end (tv tk)) (FI_Declaration k ds')). split; [strips|].
  intros x u Hx. unfold for_head, look, call, consume_. cbn [bind app]. apply X_look.
  cbn in I; repeat (destruct I as [I|I]; [injection I as <- <-; xsimp; (eapply X_call; [xgo|]; eapply X_call; [exact Hx|apply X_ret])|]); destruct I.
Qed.
Lemma head_expression start o l e s tk r : expr 0 o l e -> P_expr 0 o l e -> feeds s l -> follow 0 (tv tk) -> exists e', same (n_item e') e /\ forall x u,
  X (match n_item e' with
    | E_Binary O_In l r => call (F_for_in_from_parts start (Node (n_start l) (n_end l) (FI_Expression l)) r)
    | _ => call (F_for_rest start (Some (Node (n_start e') (n_end e') (FI_Expression e'))))
    end) (tk :: r) x u -> X (for_head start) (s ++ tk :: r) x u.
Proof.
  intros D H F W. destruct (use_any o l e s tk r CtxDefault H F W) as (e' & He & Se). exists e'. split; [exact Se|]. intros x u Hx.
  destruct (expr_view 0 o l _ s tk H) as (tk0 & s0 & -> & V); [destruct (expr_begins _ _ _ _ D) as (? & ? & ? & -> & _); discriminate|exact F|exact W|intros _; apply (follow_mono 0); [lia|exact W]|].
  unfold for_head. cbn [bind look app] in *. apply X_look. rewrite !(is_not _ (tv tk0)) by apart. cbn [bind call]. eapply X_call; [exact He|]. exact Hx.
Qed.
Lemma c_in_expression nx o l e : expr 0 o l (n_item e) -> P_expr 0 o l (n_item e) -> (forall a b, n_item e <> E_Binary O_In a b) -> ends 0 nx -> P_init nx l (FI_Expression e).
Proof.
  intros D H N En s tk r start F S K. assert (W := ends_any _ _ S En). destruct (head_expression start o l _ s tk r D H F W) as (e' & Se & G).
  exists (Node (n_start e') (n_end e') (FI_Expression e')). split; [unfold same in *; strips|]. intros x u Hx. apply G.
  assert (forall a b, n_item e' <> E_Binary O_In a b) as N'. { intros a b Q. unfold same in Se. rewrite Q in Se. destruct (n_item e) eqn:E; try discriminate Se. cbn in Se. injection Se as <- _ _. exact (N _ _ eq_refl). }
  destruct (n_item e') as [| | | | | | | | | |op left right| | | | | | | | | |] eqn:E; try (eapply X_call; [exact Hx|apply X_ret]). destruct op; try (eapply X_call; [exact Hx|apply X_ret]). exfalso. exact (N' _ _ eq_refl).
Qed.
Lemma c_oi_none nx : P_optional_init nx [] None.
Proof.
  intros s tk r start F S E. destruct nx as [t w]. cbn in E. subst t. feed. exists None. split; [reflexivity|]. intros x u Hx. unfold for_head, look, call, consume_. cbn [bind app]. apply X_look. xsimp. apply X_consume. eapply X_call; [|apply X_ret]. exact Hx.
Qed.
Lemma c_oi_some nx l i : P_init nx l (n_item i) -> P_optional_init nx l (Some i).
Proof.
  intros H s tk r start F S E. destruct nx as [t w]. cbn in E. subst t. destruct (H s tk r start F S) as (i' & Si & Hi); [intros Q; cbn in Q; intuition discriminate|].
  exists (Some i'). split; [cbn [option_map]; unfold strip_node; now rewrite Si|]. intros x u Hx. apply Hi. feed.
  change (body _ (F_for_rest start (Some i'))) with (body_for_rest start (Some i')). unfold body_for_rest, look, expect. cbn [bind]. apply X_look. xsimp. apply X_look. xsimp. apply X_consume. exact Hx.
Qed.
Lemma c_oe_none : P_optional_expr [] None.
Proof.
  intros stop s tk w r F St S. feed. exists None. split; [reflexivity|]. destruct (spells_tok _ _ S) as (v & -> & Ev); [destruct St as [-> | ->]; reflexivity|]. cbn [fst] in Ev.
  unfold opt_expr, look, consume_. cbn [bind app]. apply X_look. cbn [tv]. rewrite (is_yes _ _ Ev). cbn [bind]. apply X_consume. apply X_ret.
Qed.
Lemma c_oe_some o l e : expr 0 o l (n_item e) -> P_expr 0 o l (n_item e) -> P_optional_expr l (Some e).
Proof.
  intros D H stop s tk w r F St S. destruct (spells_tok _ _ S) as (v & -> & Ev); [destruct St as [-> | ->]; reflexivity|]. cbn [fst] in Ev.
  assert (W : follow 0 (tv (Plain v))) by (apply stops_follow; cbn [tv]; rewrite Ev; destruct St as [-> | ->]; reflexivity).
  destruct (use_any o l _ s (Plain v) r CtxDefault H F W) as (e' & He & Se). exists (Some e'). split; [cbn [option_map]; unfold strip_node, same in *; now rewrite Se|].
  destruct (expr_view 0 o l _ s (Plain v) H) as (tk0 & s0 & -> & V); [destruct (expr_begins _ _ _ _ D) as (? & ? & ? & -> & _); discriminate|exact F|exact W|intros _; apply (follow_mono 0); [lia|exact W]|].
  unfold opt_expr, look, consume_, expect, call. cbn [bind app] in *. apply X_look. rewrite (is_not stop (tv tk0)) by (destruct St as [-> | ->]; apart). cbn [bind]. eapply X_call; [exact He|]. apply X_look. cbn [tv]. rewrite (is_yes _ _ Ev). cbn [bind]. apply X_consume. apply X_ret.
Qed.
Lemma for_statement s1 s2 sg x u a1 st1 en1 tx1 ac1 q1 a2 st2 en2 tx2 ac2 q2 : s1 = Plain (View T_For a1 st1 en1 tx1 ac1 q1) -> s2 = Plain (View T_ParenOpen a2 st2 en2 tx2 ac2 q2) -> X (for_head st1) sg x u -> X (body _ F_statement) (s1 :: s2 :: sg) x u.
Proof.
  intros -> -> H. st_go. bodies. cbn [bind]. eapply X_call; [|apply X_ret]. bodies. cbn [bind tv v_start]. apply X_look. apply X_consume. cbn [bind]. apply X_look. xsimp. apply X_consume. exact H.
Qed.
Lemma c_st_for nx w1 w2 w3 w4 w5 l1 l2 l3 l4 i t u b : P_optional_init (T_Semicolon, w3) l1 i -> P_optional_expr l2 t -> P_optional_expr l3 u -> P_stmt nx l4 (n_item b) ->
  P_stmt nx ((T_For, w1) :: (T_ParenOpen, w2) :: l1 ++ (T_Semicolon, w3) :: l2 ++ (T_Semicolon, w4) :: l3 ++ (T_ParenClose, w5) :: l4) (St_For i t u b).
Proof.
  intros H1 H2 H3 H4 s tk r F S K. inversion F as [|tk1 x1 sx1 lx1 S1 F']; subst. clear F. inversion F' as [|tk2 x2 sx2 lx2 S2 F]; subst. clear F'. apply Forall2_app_inv_r in F as (s1 & sx3 & F1 & F & ->). inversion F as [|tk3 x3 sx4 lx4 S3 F']; subst. clear F.
  apply Forall2_app_inv_r in F' as (s2 & sx5 & F2 & F & ->). inversion F as [|tk4 x4 sx6 lx6 S4 F']; subst. clear F. apply Forall2_app_inv_r in F' as (s3 & sx7 & F3 & F & ->). inversion F as [|tk5 x5 s4 lx8 S5 F4]; subst. clear F. norm.
  destruct (H4 s4 tk r F4 S K) as (b' & Hb & Sb). destruct (H3 T_ParenClose s3 tk5 w5 (s4 ++ tk :: r) F3 (or_intror eq_refl) S5) as (u' & Su & Hu). destruct (H2 T_Semicolon s2 tk4 w4 (s3 ++ tk5 :: s4 ++ tk :: r) F2 (or_introl eq_refl) S4) as (t' & St & Ht).
  destruct (spells_plain _ _ _ S1 eq_refl) as (a & st & en & tx & ac & q & E1 & _). destruct (spells_plain _ _ _ S2 eq_refl) as (a2 & st2 & en2 & tx2 & ac2 & q2 & E2 & _).
  destruct (H1 s1 tk3 (s2 ++ tk4 :: s3 ++ tk5 :: s4 ++ tk :: r) st F1 S3 eq_refl) as (i' & Si & Hi).
  eexists. split; [eapply for_statement; [exact E1|exact E2|]; apply Hi; unfold for_tail; eapply X_bind; [exact Ht|]; cbv beta; eapply X_bind; [exact Hu|]; cbv beta; unfold call; cbn [bind]; eapply X_call; [exact Hb|]; apply X_ret|].
  cbn [n_item strip_statement]. rewrite Si, St, Su. unfold strip_node. now rewrite Sb.
Qed.
Lemma okn_in w : okn (T_OperatorIn, w). Proof. intros Q. cbn in Q. intuition discriminate. Qed.
Lemma okn_of w : okn (T_Identifier, w). Proof. intros Q. cbn in Q. intuition discriminate. Qed.
Lemma c_st_for_in nx o w1 w2 w3 w4 l1 l2 l3 i e b : P_init (T_OperatorIn, w3) l1 (n_item i) -> P_expr 0 o l2 (n_item e) -> P_stmt nx l3 (n_item b) ->
  P_stmt nx ((T_For, w1) :: (T_ParenOpen, w2) :: l1 ++ (T_OperatorIn, w3) :: l2 ++ (T_ParenClose, w4) :: l3) (St_ForIn i e b).
Proof.
  intros H1 H2 H3 s tk r F S K. inversion F as [|tk1 x1 sx1 lx1 S1 F']; subst. clear F. inversion F' as [|tk2 x2 sx2 lx2 S2 F]; subst. clear F'. apply Forall2_app_inv_r in F as (s1 & sx3 & F1 & F & ->). inversion F as [|tk3 x3 sx4 lx4 S3 F']; subst. clear F.
  apply Forall2_app_inv_r in F' as (s2 & sx5 & F2 & F & ->). inversion F as [|tk4 x4 s3 lx6 S4 F3]; subst. clear F. norm.
  destruct (H3 s3 tk r F3 S K) as (b' & Hb & Sb). destruct (use_paren o l2 _ s2 tk4 w4 (s3 ++ tk :: r) H2 F2 S4) as (e' & v4 & -> & E4 & He & Se).
  destruct (spells_plain _ _ _ S1 eq_refl) as (a & st & en & tx & ac & q & E1 & _). destruct (spells_plain _ _ _ S2 eq_refl) as (a2 & st2 & en2 & tx2 & ac2 & q2 & E2 & _).
  destruct (H1 s1 tk3 (s2 ++ Plain v4 :: s3 ++ tk :: r) st F1 S3 (okn_in _)) as (i' & Si & Hi). destruct (spells_plain _ _ _ S3 eq_refl) as (a3 & st3 & en3 & tx3 & ac3 & q3 & -> & _).
  assert (Hin : X (body _ (F_for_in st i')) (s2 ++ Plain v4 :: s3 ++ tk :: r) (Node st (n_end b') (St_ForIn i' e' b')) (tk :: r)).
  { bodies. cbn [bind]. eapply X_call; [exact He|]. apply X_look. cbn [tv]. rewrite (is_yes _ _ E4). apply X_consume. cbn [bind]. eapply X_call; [exact Hb|]. apply X_ret. }
  eexists. split; [eapply for_statement; [exact E1|exact E2|]; apply Hi; change (body _ (F_for_rest st (Some i'))) with (body_for_rest st (Some i')); unfold body_for_rest, look, call; cbn [bind]; apply X_look; xsimp; apply X_consume; eapply X_call; [exact Hin|apply X_ret]|].
  unfold same in *. cbn [n_item strip_statement]. unfold strip_node. now rewrite Si, Se, Sb.
Qed.
Lemma c_st_for_of nx o w1 w2 w3 w4 l1 l2 l3 i e b : w_text w4 = bs "of" -> P_init (T_Identifier, w4) l1 (n_item i) -> P_expr 0 o l2 (n_item e) -> P_stmt nx l3 (n_item b) ->
  P_stmt nx ((T_For, w1) :: (T_ParenOpen, w2) :: l1 ++ (T_Identifier, w4) :: l2 ++ (T_ParenClose, w3) :: l3) (St_ForOf i e b).
Proof.
  intros Ew H1 H2 H3 s tk r F S K. inversion F as [|tk1 x1 sx1 lx1 S1 F']; subst. clear F. inversion F' as [|tk2 x2 sx2 lx2 S2 F]; subst. clear F'. apply Forall2_app_inv_r in F as (s1 & sx3 & F1 & F & ->). inversion F as [|tk3 x3 sx4 lx4 S3 F']; subst. clear F.
  apply Forall2_app_inv_r in F' as (s2 & sx5 & F2 & F & ->). inversion F as [|tk4 x4 s3 lx6 S4 F3]; subst. clear F. norm.
  destruct (H3 s3 tk r F3 S K) as (b' & Hb & Sb). destruct (use_paren o l2 _ s2 tk4 w3 (s3 ++ tk :: r) H2 F2 S4) as (e' & v4 & -> & E4 & He & Se).
  destruct (spells_plain _ _ _ S1 eq_refl) as (a & st & en & tx & ac & q & E1 & _). destruct (spells_plain _ _ _ S2 eq_refl) as (a2 & st2 & en2 & tx2 & ac2 & q2 & E2 & _).
  destruct (H1 s1 tk3 (s2 ++ Plain v4 :: s3 ++ tk :: r) st F1 S3 (okn_of _)) as (i' & Si & Hi). destruct (spells_plain _ _ _ S3 eq_refl) as (a3 & st3 & en3 & tx3 & ac3 & q3 & -> & Et3 & _). rewrite Ew in Et3. subst tx3.
  assert (Hin : X (body _ (F_for_of st i')) (s2 ++ Plain v4 :: s3 ++ tk :: r) (Node st (n_end b') (St_ForOf i' e' b')) (tk :: r)).
  { bodies. cbn [bind]. eapply X_call; [exact He|]. apply X_look. cbn [tv]. rewrite (is_yes _ _ E4). apply X_consume. cbn [bind]. eapply X_call; [exact Hb|]. apply X_ret. }
  eexists. split; [eapply for_statement; [exact E1|exact E2|]; apply Hi; change (body _ (F_for_rest st (Some i'))) with (body_for_rest st (Some i')); unfold body_for_rest, look, call; cbn [bind]; apply X_look; xsimp; apply X_consume; eapply X_call; [exact Hin|apply X_ret]|].
  unfold same in *. cbn [n_item strip_statement]. unfold strip_node. now rewrite Si, Se, Sb.
Qed.
Lemma c_st_for_in_expr nx o w1 w2 w3 l1 l2 a i e b : expr 0 o l1 (E_Binary O_In a e) -> P_expr 0 o l1 (E_Binary O_In a e) -> n_item i = FI_Expression a -> P_stmt nx l2 (n_item b) ->
  P_stmt nx ((T_For, w1) :: (T_ParenOpen, w2) :: l1 ++ (T_ParenClose, w3) :: l2) (St_ForIn i e b).
Proof.
  intros D H1 Ei H2 s tk r F S K. inversion F as [|tk1 x1 sx1 lx1 S1 F']; subst. clear F. inversion F' as [|tk2 x2 sx2 lx2 S2 F]; subst. clear F'. apply Forall2_app_inv_r in F as (s1 & sx3 & F1 & F & ->). inversion F as [|tk3 x3 s2 lx4 S3 F2]; subst. clear F. norm.
  destruct (H2 s2 tk r F2 S K) as (b' & Hb & Sb). destruct (spells_tok _ _ S3 eq_refl) as (v3 & -> & E3). cbn [fst] in E3.
  destruct (spells_plain _ _ _ S1 eq_refl) as (a1 & st & en & tx & ac & q & E1 & _). destruct (spells_plain _ _ _ S2 eq_refl) as (a2 & st2 & en2 & tx2 & ac2 & q2 & E2 & _).
  destruct (head_expression st o l1 _ s1 (Plain v3) (s2 ++ tk :: r) D H1 F1) as (e' & Se & G); [apply stops_follow; cbn [tv]; now rewrite E3|].
  unfold same in Se. destruct (n_item e') as [| | | | | | | | | |op left right| | | | | | | | | |]; try discriminate Se. cbn in Se. injection Se as -> Sl Sr.
  eexists. split; [eapply for_statement; [exact E1|exact E2|]; apply G; cbn [bind]; eapply X_call; [|apply X_ret]; bodies; cbn [bind]; apply X_look; cbn [tv]; rewrite (is_yes _ _ E3); apply X_consume; cbn [bind]; eapply X_call; [exact Hb|]; apply X_ret|].
  cbn [n_item strip_statement]. unfold strip_node. rewrite Ei. cbn [n_item strip_for_init]. unfold strip_node. now rewrite Sl, Sr, Sb.
Qed.
