(** Every program of the grammar is accepted: try, switch, import, lists of statements. *)
From Coq Require Import List NArith Bool Lia Arith String.
From Coq.Strings Require Import Byte.
From Verif Require Import Bytes Token Tables Lexer Ast Prog Parser Structure SpecSyntax Erase Comp CompA CompB CompC CompD CompE CompF CompG CompH.
Import ListNotations.
Open Scope nat_scope.
Open Scope list_scope.

(** ** Try *)
Lemma c_ha_none : P_handler [] None.
Proof. intros s r F. now inversion F. Qed.
Lemma c_ha_some w1 w2 w3 l1 l2 p b c : P_pattern l1 (n_item p) -> P_body l2 (n_item b) -> n_item c = CatchClause p b -> P_handler ((T_Catch, w1) :: (T_ParenOpen, w2) :: l1 ++ (T_ParenClose, w3) :: l2) (Some c).
Proof.
  intros H1 H2 Ec s r F. feed. match goal with F2 : Forall2 spells ?s2 l2 |- _ => destruct (block_of _ _ s2 r H2 F2) as (b' & Hb & _ & Sb) end.
  match goal with F1 : Forall2 spells ?s1 l1 |- context [Plain (View T_ParenClose ?a ?b ?c0 ?d ?e ?f) :: ?rr] => destruct (H1 s1 (Plain (View T_ParenClose a b c0 d e f)) (rr ++ r) F1) as (p' & Hp & Sp) end.
  eexists _, _, _. split; [reflexivity|]. split; [reflexivity|]. split; [norm; xgo|]. rewrite Ec. stripb.
Qed.
Lemma c_fi_none : P_finalizer [] None.
Proof. intros s r F. now inversion F. Qed.
Lemma c_fi_some w l b : P_body l (n_item b) -> P_finalizer ((T_Finally, w) :: l) (Some b).
Proof.
  intros H s r F. feed. match goal with F2 : Forall2 spells ?s2 l |- _ => destruct (block_of _ _ s2 r H F2) as (b' & Hb & _ & Sb) end.
  eexists _, _, _. split; [reflexivity|]. split; [reflexivity|]. eauto.
Qed.
Lemma c_st_try nx w l1 l2 l3 b h f : P_body l1 (n_item b) -> P_handler l2 h -> P_finalizer l3 f -> (h <> None \/ f <> None) -> P_stmt nx ((T_Try, w) :: l1 ++ l2 ++ l3) (St_Try b h f).
Proof.
  intros H1 H2 H3 N s tk r F S K. inversion F as [|tk0 x0 sx l0 S0 F']; subst. clear F. apply Forall2_app_inv_r in F' as (s1 & s23 & F1 & F & ->). apply Forall2_app_inv_r in F as (s2 & s3 & F2 & F3 & ->). norm.
  destruct (block_of _ _ s1 (s2 ++ s3 ++ tk :: r) H1 F1) as (b' & Hb & _ & Sb). specialize (H2 s2 (s3 ++ tk :: r) F2). specialize (H3 s3 (tk :: r) F3). feed.
  assert (Nf : v_token (tv tk) <> T_Finally) by (apply (spells_not _ _ _ S); [intros Q; apply K; rewrite Q; cbn; tauto|discriminate|discriminate]).
  destruct h as [c|]; destruct f as [g|].
  - destruct H2 as (tk2 & s20 & c' & -> & E2 & Hc & Sc). destruct H3 as (v3 & s30 & g' & -> & E3 & Hg & Sg). cbn [app] in *. destruct v3 as [t3 a3 st3 en3 tx3 ac3 q3]; cbn in E3; subst t3. clear F2 F3.
    eexists. split; [xgo|stripb].
  - subst s3. destruct H2 as (tk2 & s20 & c' & -> & E2 & Hc & Sc). cbn [app] in *. clear F2 F3. eexists. split; [xgo|stripb].
  - subst s2. destruct H3 as (v3 & s30 & g' & -> & E3 & Hg & Sg). cbn [app] in *. destruct v3 as [t3 a3 st3 en3 tx3 ac3 q3]; cbn in E3; subst t3. clear F2 F3.
    eexists. split; [xgo|stripb].
  - exfalso. now destruct N.
Qed.

(** ** Lists of statements *)
Lemma statement_first tk s x u : X (body _ F_statement) (tk :: s) x u -> ~ In (v_token (tv tk)) [T_BraceClose; T_EndOfProgram; T_Case; T_Default].
Proof.
  intros H I. change (body _ F_statement) with (Look (fun v => Call (F_stmt_handler (statement_handler v)) (fun r => Ret r))) in H. apply X_inv in H as (t0 & s0 & E & H). injection E as <- <-. apply X_inv in H as (y & s1 & H & _).
  assert (statement_handler (tv tk) = S_____) as Q by (unfold statement_handler; destruct I as [<-|[<-|[<-|[<-|[]]]]]; reflexivity). rewrite Q in H. revert H. bodies. cbn [bind]. intros H. apply X_inv in H as (? & ? & _ & H). now apply X_inv in H.
Qed.
Lemma c_ss_nil nx : P_statements nx [] [].
Proof.
  intros s tk r F S K. feed. exists []. split; [reflexivity|]. split; [|split].
  - intros W. assert (V : v_token (tv tk) = fst nx) by (apply spells_is; [exact S|destruct W as [-> | ->]; reflexivity]). bodies. cbn [bind app]. apply X_look. destruct W as [W|W]; rewrite W in V; rewrite (is_yes _ _ V), ?orb_true_r; cbn [orb]; apply X_ret.
  - intros W. assert (V : v_token (tv tk) = fst nx) by (apply spells_is; [exact S|rewrite W; reflexivity]). rewrite W in V. bodies. cbn [bind app]. apply X_look. rewrite (is_yes _ _ V). apply X_ret.
  - intros W e. assert (V : v_token (tv tk) = fst nx) by (apply spells_is; [exact S|destruct W as [W|[W|W]]; rewrite W; reflexivity]). exists e. bodies. cbn [bind app]. apply X_look. destruct W as [W|[W|W]]; rewrite W in V; rewrite (is_yes _ _ V), ?orb_true_r; cbn [orb]; apply X_ret.
Qed.
Lemma okn_next nx l2 xs : statements nx l2 xs -> okn nx -> okn (next l2 nx).
Proof.
  intros D K. destruct D as [|nx l3 l4 x xs D _]; [exact K|]. destruct (stmt_begins _ _ _ D) as (t & w & q & -> & I). cbn [app next]. unfold okn. cbn [fst]. intros Q. revert I. cbn in Q. destruct Q as [<-|[<-|[<-|[<-|[<-|[]]]]]]; vm_compute; intuition discriminate.
Qed.
Lemma c_ss_cons nx l1 l2 x xs : stmt (next l2 nx) l1 (n_item x) -> P_stmt (next l2 nx) l1 (n_item x) -> statements nx l2 xs -> P_statements nx l2 xs -> P_statements nx (l1 ++ l2) (x :: xs).
Proof.
  intros D1 H1 D2 H2 s tk r F S K. apply Forall2_app_inv_r in F as (s1 & s2 & F1 & F2 & ->). norm.
  destruct (H2 s2 tk r F2 S K) as (xs' & Sxs & G1 & G2 & G3). destruct (next_tok s2 l2 nx tk r F2 S) as (tk2 & u & E & S2). rewrite E in *.
  destruct (H1 s1 tk2 u F1 S2 (okn_next _ _ _ D2 K)) as (x' & Hx & Sx).
  assert (Ne : l1 <> []) by (destruct (stmt_begins _ _ _ D1) as (? & ? & ? & -> & _); discriminate). assert (Ne' := feeds_nonempty _ _ F1 Ne). destruct s1 as [|tk0 s0]; [contradiction|]. cbn [app] in *.
  assert (N := statement_first _ _ _ _ Hx). assert (N1 : v_token (tv tk0) <> T_BraceClose) by (intros Q; apply N; rewrite Q; cbn; tauto). assert (N2 : v_token (tv tk0) <> T_EndOfProgram) by (intros Q; apply N; rewrite Q; cbn; tauto).
  assert (N3 : v_token (tv tk0) <> T_Case) by (intros Q; apply N; rewrite Q; cbn; tauto). assert (N4 : v_token (tv tk0) <> T_Default) by (intros Q; apply N; rewrite Q; cbn; tauto).
  exists (x' :: xs'). split; [cbn [map]; rewrite Sxs; unfold strip_node; now rewrite Sx|]. split; [|split].
  - intros W. specialize (G1 W). bodies. cbn [bind]. apply X_look. rewrite (is_not _ _ N1), (is_not _ _ N2). cbn [orb bind]. eapply X_call; [bodies; cbn [bind]; eapply X_call; [exact Hx|apply X_ret]|]. eapply X_call; [exact G1|]. apply X_ret.
  - intros W. specialize (G2 W). bodies. cbn [bind]. apply X_look. rewrite (is_not _ _ N2). cbn [orb bind]. eapply X_call; [exact Hx|]. eapply X_call; [exact G2|]. apply X_ret.
  - intros W e. destruct (G3 W (n_end x')) as (e' & G). exists e'. bodies. cbn [bind]. apply X_look. rewrite (is_not _ _ N1), (is_not _ _ N3), (is_not _ _ N4). cbn [orb bind]. eapply X_call; [exact Hx|]. eapply X_call; [exact G|]. apply X_ret.
Qed.
Lemma okn_closes (A : Type) (xs : list A) c : closes xs c -> okn c /\ (fst c = T_BraceClose \/ fst c = T_EndOfProgram).
Proof. intros C. destruct C; (split; [intros Q; cbn in Q; intuition discriminate|cbn; auto]). Qed.
Lemma c_bo_body w l ss c : P_statements c l ss -> closes ss c -> P_body ((T_BraceOpen, w) :: l ++ [c]) (Block ss).
Proof.
  intros H C s r F. inversion F as [|tk0 x s' l' S0 F']; subst. clear F. apply Forall2_app_inv_r in F' as (s1 & sc & F1 & F2 & ->). inversion F2 as [|tkc x2 s2 l2 Sc F3]; subst. inversion F3; subst. clear F2 F3.
  destruct (okn_closes _ _ _ C) as [K W]. destruct (H s1 tkc r F1 Sc K) as (ss' & Sss & G & _). specialize (G W).
  destruct (spells_tok tkc c Sc) as (vc & -> & Ec); [destruct W as [-> | ->]; reflexivity|]. destruct (spells_tok tk0 _ S0 eq_refl) as (v0 & -> & E0).
  exists v0, vc, s1, (Block ss'). split; [reflexivity|]. split; [exact E0|]. split; [|unfold strip_block; cbn [b_body]; now rewrite Sss].
  destruct ss' as [|x' ss']; [|now apply raw_of_items]. destruct ss; [|discriminate Sss]. destruct C as [wc|wc NC]; [|now contradiction NC]. exact (raw_of_none _ _ _ _ _ G Ec).
Qed.

(** ** Switch *)
Lemma c_co_case nx o w1 w2 l1 l2 e ss : P_expr 0 o l1 (n_item e) -> P_statements nx l2 ss -> P_case nx ((T_Case, w1) :: l1 ++ (T_Colon, w2) :: l2) (SwitchCase (Some e) ss).
Proof.
  intros H1 H2 s tk r F S W. feed. norm. assert (K : okn nx) by (intros Q; cbn in Q; destruct W as [W|[W|W]]; rewrite W in Q; intuition discriminate).
  match goal with F2 : Forall2 spells ?s2 l2 |- _ => destruct (H2 s2 tk r F2 S K) as (ss' & Sss & _ & _ & G) end.
  match goal with |- context [Plain (View T_Colon ?a ?b ?en ?d ?e ?f)] => destruct (G ltac:(tauto) en) as (e' & Hb) end. inside H1 o l1 T_Colon.
  eexists. split; [xgo|unfold same in *; strips].
Qed.
Lemma c_co_default nx w1 w2 l ss : P_statements nx l ss -> P_case nx ((T_Default, w1) :: (T_Colon, w2) :: l) (SwitchCase None ss).
Proof.
  intros H2 s tk r F S W. feed. norm. assert (K : okn nx) by (intros Q; cbn in Q; destruct W as [W|[W|W]]; rewrite W in Q; intuition discriminate).
  match goal with F2 : Forall2 spells ?s2 l |- _ => destruct (H2 s2 tk r F2 S K) as (ss' & Sss & _ & _ & G) end.
  match goal with |- context [Plain (View T_Colon ?a ?b ?en ?d ?e ?f)] => destruct (G ltac:(tauto) en) as (e' & Hb) end.
  eexists. split; [xgo|unfold same in *; strips].
Qed.
Lemma c_ca_nil nx : P_cases nx [] [].
Proof.
  intros s tk r F S W. feed. exists []. split; [|reflexivity]. assert (V : v_token (tv tk) = fst nx) by (apply spells_is; [exact S|rewrite W; reflexivity]). rewrite W in V. bodies. cbn [bind app]. apply X_look. rewrite (is_yes _ _ V). cbn [orb]. apply X_ret.
Qed.
Lemma case_first tk s x u : X (body _ F_switch_case) (tk :: s) x u -> v_token (tv tk) = T_Case \/ v_token (tv tk) = T_Default.
Proof.
  intros H. revert H. bodies. cbn [bind]. intros H. apply X_inv in H as (t0 & s0 & E & H). injection E as <- <-. destruct (is T_Case (tv tk)) eqn:E1; [apply LexEval.token_eqb_eq in E1; auto|]. destruct (is T_Default (tv tk)) eqn:E2; [apply LexEval.token_eqb_eq in E2; auto|].
  cbn [bind] in H. now apply X_inv in H.
Qed.
Lemma c_ca_cons nx l1 l2 c cs : case_of (next l2 nx) l1 (n_item c) -> P_case (next l2 nx) l1 (n_item c) -> cases nx l2 cs -> P_cases nx l2 cs -> P_cases nx (l1 ++ l2) (c :: cs).
Proof.
  intros D1 H1 D2 H2 s tk r F S W. apply Forall2_app_inv_r in F as (s1 & s2 & F1 & F2 & ->). norm.
  destruct (H2 s2 tk r F2 S W) as (cs' & Hcs & Scs). destruct (next_tok s2 l2 nx tk r F2 S) as (tk2 & u & E & S2). rewrite E in *.
  assert (W2 : fst (next l2 nx) = T_BraceClose \/ fst (next l2 nx) = T_Case \/ fst (next l2 nx) = T_Default).
  { destruct D2 as [|nx l3 l4 c2 cs2 D3 _]; [now left|]. destruct (case_begins _ _ _ D3) as (t & w & q & -> & [<-|[<-|[]]]); cbn; auto. }
  destruct (H1 s1 tk2 u F1 S2 W2) as (c' & Hc & Sc).
  assert (Ne : l1 <> []) by (destruct (case_begins _ _ _ D1) as (? & ? & ? & -> & _); discriminate). assert (Ne' := feeds_nonempty _ _ F1 Ne). destruct s1 as [|tk0 s0]; [contradiction|]. cbn [app] in *.
  assert (V := case_first _ _ _ _ Hc). exists (c' :: cs'). split; [|cbn [map]; rewrite Scs; unfold strip_node; now rewrite Sc].
  bodies. cbn [bind]. apply X_look. rewrite !(is_not _ (tv tk0)) by (destruct V as [V|V]; rewrite V; discriminate). cbn [orb bind]. eapply X_call; [bodies; cbn [bind]; eapply X_call; [exact Hc|apply X_ret]|]. eapply X_call; [exact Hcs|]. apply X_ret.
Qed.
Lemma c_sw_body w1 w2 l cs : P_cases (T_BraceClose, w2) l cs -> P_switch_body ((T_BraceOpen, w1) :: l ++ [(T_BraceClose, w2)]) (Block cs).
Proof.
  intros H s r F. inversion F as [|tk0 x s' l' S0 F']; subst. clear F. apply Forall2_app_inv_r in F' as (s1 & sc & F1 & F2 & ->). inversion F2 as [|tkc x2 s2 l2 Sc F3]; subst. inversion F3; subst. clear F2 F3. norm.
  destruct (H s1 tkc r F1 Sc eq_refl) as (cs' & Hcs & Scs). destruct (spells_tok tkc _ Sc eq_refl) as (vc & -> & Ec). cbn [fst] in Ec.
  assert (G : X (body _ (F_raw_block I_Case)) (s1 ++ Plain vc :: r) (Block cs') (Plain vc :: r)).
  { destruct cs' as [|m' ms']; [|now apply raw_of_items]. exact (raw_of_none _ _ _ _ _ Hcs Ec). }
  clear Sc. feed. eexists. split; [xgo|]. cbn [n_item]. unfold strip_block. cbn [b_body]. now rewrite Scs.
Qed.
Lemma c_st_switch nx o w1 w2 w3 l1 l2 e b : P_expr 0 o l1 (n_item e) -> P_switch_body l2 (n_item b) -> P_stmt nx ((T_Switch, w1) :: (T_ParenOpen, w2) :: l1 ++ (T_ParenClose, w3) :: l2) (St_Switch e b).
Proof.
  intros H1 H2 s tk r F S K. feed. norm. match goal with F2 : Forall2 spells ?s2 l2 |- _ => destruct (H2 s2 (tk :: r) F2) as (b' & Hb & Sb) end. inside H1 o l1 T_ParenClose.
  eexists. split; [xgo|unfold same in *; stripb].
Qed.

(** ** Import *)
Lemma unquoted source tx : quoted source tx -> unquote tx = Ret source.
Proof.
  intros (q1 & q2 & ->). unfold unquote. cbn [List.length tl]. rewrite app_length. cbn [List.length]. replace (2 <=? S (List.length source + 1))%nat with true by (symmetry; apply Nat.leb_le; lia).
  replace (S (List.length source + 1) - 2)%nat with (List.length source) by lia. rewrite firstn_app, firstn_all, Nat.sub_diag. cbn [firstn]. now rewrite app_nil_r.
Qed.
Lemma c_st_import nx w1 w2 source : quoted source (w_text w2) -> P_stmt nx [(T_Import, w1); (T_LiteralString, w2)] (St_Import [] source).
Proof.
  intros Q s tk r F S K. inversion F as [|tk1 x1 sx1 lx1 S1 F']; subst. clear F. inversion F' as [|tk2 x2 sx2 lx2 S2 F]; subst. clear F'. inversion F; subst. clear F.
  destruct (spells_plain _ _ _ S1 eq_refl) as (a & st & en & tx & ac & q & -> & _). destruct (spells_plain _ _ _ S2 eq_refl) as (a2 & st2 & en2 & tx2 & ac2 & q2 & -> & Et & _). rewrite Et in Q.
  eexists. split; [|shelve]. cbn [app]. st_go. bodies. cbn [bind]. eapply X_call; [|apply X_ret]. bodies. cbn [bind app]. apply X_look. apply X_consume. apply X_look. xsimp. assert (U := unquoted _ _ Q). unfold unquote in U. rewrite U. cbn [bind]. apply X_consume. apply X_ret.
  Unshelve. strips.
Qed.
Lemma import_name_of l x s tk r : import_name l (n_item x) -> feeds s l -> (v_token (tv tk) = T_Comma \/ v_token (tv tk) = T_BraceClose) -> exists x' : node import_specifier, strip_specifier (n_item x') = strip_specifier (n_item x) /\
  forall xs u, X (if is T_Comma (tv tk) then bind consume_ (fun _ => bind (call F_import_specifiers) (fun rest => Ret (x' :: rest))) else if is T_BraceClose (tv tk) then bind consume_ (fun _ => Ret [x']) else bind error_ (fun _ => bind (call F_import_specifiers) (fun rest => Ret (x' :: rest)))) (tk :: r) xs u ->
    X (body _ F_import_specifiers) (s ++ tk :: r) xs u.
Proof.
  intros D F W. destruct (n_item x) as [n| |n m] eqn:Ex; inversion D as [w1 n0 m0 E1 E2|w1 w2 w3 n0 m0 Ea E1 E2]; subst; clear D.
  - feed. assert (Nt : v_token (tv tk) <> T_Identifier) by (destruct W as [W|W]; rewrite W; discriminate).
    eexists. split; [|intros xs u H; change (body _ F_import_specifiers) with body_import_specifiers; unfold body_import_specifiers, look, identifier_, consume_, call in *; cbn [bind app]; apply X_look; xsimp; apply X_look; xsimp; apply X_consume; cbn [bind]; apply X_look; rewrite (is_not _ _ Nt); cbn [andb bind]; apply X_look; exact H].
    strips.
  - inversion F as [|tk1 x1 sx1 lx1 S1 F']; subst. clear F. inversion F' as [|tk2 x2 sx2 lx2 S2 F]; subst. clear F'. inversion F as [|tk3 x3 sx3 lx3 S3 F']; subst. clear F. inversion F'; subst. clear F'.
    destruct (spells_plain _ _ _ S1 eq_refl) as (a & st & en & tx & ac & q & -> & Et1 & _). destruct (spells_plain _ _ _ S2 eq_refl) as (a2 & st2 & en2 & tx2 & ac2 & q2 & -> & Et2 & _). destruct (spells_plain _ _ _ S3 eq_refl) as (a3 & st3 & en3 & tx3 & ac3 & q3 & -> & Et3 & _).
    rewrite Ea in Et2. subst tx2.
    eexists. split; [|intros xs u H; change (body _ F_import_specifiers) with body_import_specifiers; unfold body_import_specifiers, look, identifier_, consume_, call in *; cbn [bind app]; apply X_look; xsimp; apply X_look; xsimp; apply X_consume; cbn [bind]; apply X_look; xsimp; apply X_consume; apply X_look; xsimp; apply X_consume; cbn [bind]; apply X_look; exact H].
    strips.
Qed.
Lemma import_names l specs s r : imported l specs -> feeds s l -> exists specs', X (body _ F_import_specifiers) (s ++ r) specs' r /\ map (strip_node strip_specifier) specs' = map (strip_node strip_specifier) specs.
Proof.
  intros D. revert s. induction D as [w l x Dn|w l1 l2 x specs Dn D IH]; intros s F.
  - apply Forall2_app_inv_r in F as (s1 & s2 & F1 & F2 & ->). norm. feed. norm.
    match goal with |- context [s1 ++ Plain ?v :: r] => destruct (import_name_of l x s1 (Plain v) r Dn F1 (or_intror eq_refl)) as (x' & Sx & H) end.
    eexists. split; [apply H; unfold consume_; xsimp; apply X_consume; apply X_ret|]. cbn [map]. unfold strip_node. now rewrite Sx.
  - apply Forall2_app_inv_r in F as (s1 & s2 & F1 & F2 & ->). inversion F2 as [|tk1 x1 s3 l3 S1 F3]; subst. clear F2. destruct (IH s3 F3) as (specs' & Hs & Ss). feed. norm.
    match goal with |- context [s1 ++ Plain ?v :: s3 ++ r] => destruct (import_name_of l1 x s1 (Plain v) (s3 ++ r) Dn F1 (or_introl eq_refl)) as (x' & Sx & H) end.
    eexists. split; [apply H; unfold consume_, call; xsimp; apply X_consume; eapply X_call; [exact Hs|]; apply X_ret|]. cbn [map]. unfold strip_node in *. now rewrite Sx, Ss.
Qed.
(** The words from and the source. *)
Definition from_source (start : N) (specs : list (node import_specifier)) : P stmt_node :=
  v <- look ;;
  (if (is T_Identifier v && str_eqb (v_text v) (bs "from"))%bool then consume_ else error_) ;;;
  v' <- look ;;
  source <- (if is T_LiteralString v' then unquote (v_text v') else error_ ;;; Ret []) ;;
  e_end <- end_then_consume ;;
  Ret (Node start e_end (St_Import specs source)).
Lemma from_runs start specs tk1 tk2 w2 w3 source r : spells tk1 (T_Identifier, w2) -> w_text w2 = bs "from" -> spells tk2 (T_LiteralString, w3) -> quoted source (w_text w3) -> exists e, X (from_source start specs) (tk1 :: tk2 :: r) (Node start e (St_Import specs source)) r.
Proof.
  intros S1 Ew S2 Q. destruct (spells_plain _ _ _ S1 eq_refl) as (a & st & en & tx & ac & q & -> & Et & _). destruct (spells_plain _ _ _ S2 eq_refl) as (a2 & st2 & en2 & tx2 & ac2 & q2 & -> & Et2 & _). rewrite Ew in Et. subst tx. rewrite Et2 in Q.
  exists en2. unfold from_source, look, consume_, end_then_consume. cbn [bind]. apply X_look. xsimp. apply X_consume. apply X_look. xsimp. rewrite (unquoted _ _ Q). cbn [bind]. apply X_look. apply X_consume. apply X_ret.
Qed.
Lemma import_more_of start l more s tk1 tk2 w2 w3 source specs r : import_more l more -> feeds s l -> spells tk1 (T_Identifier, w2) -> w_text w2 = bs "from" -> spells tk2 (T_LiteralString, w3) -> quoted source (w_text w3) ->
  exists more' e, X (body _ (F_import_rest start specs true)) (s ++ tk1 :: tk2 :: r) (Node start e (St_Import (specs ++ more') source)) r /\ map (strip_node strip_specifier) more' = map (strip_node strip_specifier) more.
Proof.
  intros D F S1 Ew S2 Q. destruct D as [u1 u2 u3 n x Ea En Ex|u l more D].
  - inversion F as [|ta x1 sx1 lx1 Sa F']; subst. clear F. inversion F' as [|tb x2 sx2 lx2 Sb F]; subst. clear F'. inversion F as [|tc x3 sx3 lx3 Sc F']; subst. clear F. inversion F'; subst. clear F'.
    destruct (spells_plain _ _ _ Sa eq_refl) as (a & st & en & tx & ac & q & -> & _). destruct (spells_plain _ _ _ Sb eq_refl) as (a2 & st2 & en2 & tx2 & ac2 & q2 & -> & Et2 & _). destruct (spells_plain _ _ _ Sc eq_refl) as (a3 & st3 & en3 & tx3 & ac3 & q3 & -> & Et3 & _).
    rewrite Ea in Et2. subst tx2. set (m := [Node st (v_end (tv tk1)) (IS_Namespace (Node st3 en3 tx3))]). destruct (from_runs start (specs ++ m) tk1 tk2 w2 w3 source r S1 Ew S2 Q) as (e & H).
    exists m, e. split; [|unfold m; cbn [map]; unfold strip_node; cbn [n_item]; rewrite Ex; strips].
    change (body _ (F_import_rest start specs true)) with (body_import_rest start specs true). unfold body_import_rest, look, consume_, call, identifier_, get_end. cbn [bind app]. apply X_look. xsimp. apply X_consume. apply X_look. xsimp. apply X_consume. apply X_look. xsimp. apply X_consume. apply X_look. cbn [bind]. exact H.
  - inversion F as [|ta x1 s1 lx1 Sa F1]; subst. clear F. destruct (import_names _ _ s1 (tk1 :: tk2 :: r) D F1) as (m & Hm & Sm). destruct (from_runs start (specs ++ m) tk1 tk2 w2 w3 source r S1 Ew S2 Q) as (e & H).
    destruct (spells_plain _ _ _ Sa eq_refl) as (a & st & en & tx & ac & q & -> & _). exists m, e. split; [|exact Sm].
    change (body _ (F_import_rest start specs true)) with (body_import_rest start specs true). unfold body_import_rest, look, consume_, call. cbn [bind app]. apply X_look. xsimp. apply X_consume. eapply X_call; [exact Hm|]. exact H.
Qed.
Lemma import_statement s1 sg x u a1 st1 en1 tx1 ac1 q1 : s1 = Plain (View T_Import a1 st1 en1 tx1 ac1 q1) -> X (body _ F_import) (s1 :: sg) x u -> X (body _ F_statement) (s1 :: sg) x u.
Proof. intros -> H. st_go. bodies. cbn [bind]. eapply X_call; [|apply X_ret]. exact H. Qed.
Lemma c_st_import_from nx w1 w2 w3 l specs source : import_clause l specs -> w_text w2 = bs "from" -> quoted source (w_text w3) ->
  P_stmt nx ((T_Import, w1) :: l ++ [(T_Identifier, w2); (T_LiteralString, w3)]) (St_Import specs source).
Proof.
  intros D Ew Q s tk r F S K. inversion F as [|tk0 x0 sx l0 S0 F']; subst. clear F. apply Forall2_app_inv_r in F' as (s1 & s23 & F1 & F & ->). inversion F as [|tk1 x1 sy lx1 S1 F2]; subst. clear F. inversion F2 as [|tk2 x2 sz lx2 S2 F3]; subst. clear F2. inversion F3; subst. clear F3. norm.
  destruct (spells_plain _ _ _ S0 eq_refl) as (a0 & st0 & en0 & tx0 & ac0 & q0 & E0 & _). rewrite E0.
  destruct D as [u n x En Ex|u1 u2 n x l more En Ex D|l more D].
  - inversion F1 as [|ta x1 sx1 lx1 Sa F2]; subst. inversion F2; subst. clear F1 F2. assert (S1' := S1). destruct (spells_plain _ _ _ S1' eq_refl) as (ab & stb & enb & txb & acb & qb & Eb' & _).
    destruct (spells_plain _ _ _ Sa eq_refl) as (a & st & en & tx & ac & q & -> & Et & _). set (spec := Node st enb (IS_Default (Node st en tx))).
    destruct (from_runs st0 [spec] tk1 tk2 w2 w3 source (tk :: r) S1 Ew S2 Q) as (e & H). exists (Node st0 e (St_Import [spec] source)). split; [|cbn [n_item strip_statement map]; unfold strip_node; rewrite Ex; unfold spec; strips].
    cbn [app]. eapply import_statement; [reflexivity|]. change (body _ F_import) with body_import. unfold body_import, look, consume_, call, identifier_. cbn [bind]. apply X_look. apply X_consume. apply X_look. xsimp. apply X_look. xsimp. apply X_consume. cbn [bind]. apply X_look. rewrite Eb'. xsimp.
    eapply X_call; [|apply X_ret]. rewrite Eb' in H. exact H.
  - inversion F1 as [|ta x1 sx1 lx1 Sa F2]; subst. clear F1. inversion F2 as [|tb x2 s2 lx2 Sb F3]; subst. clear F2.
    destruct (spells_plain _ _ _ Sa eq_refl) as (a & st & en & tx & ac & q & -> & Et & _). destruct (spells_plain _ _ _ Sb eq_refl) as (ab & stb & enb & txb & acb & qb & -> & _). set (spec := Node st enb (IS_Default (Node st en tx))).
    destruct (import_more_of st0 l more s2 tk1 tk2 w2 w3 source [spec] (tk :: r) D F3 S1 Ew S2 Q) as (m & e & H & Sm). exists (Node st0 e (St_Import ([spec] ++ m) source)). split; [|cbn [n_item strip_statement map app]; rewrite Sm; unfold strip_node; rewrite Ex; unfold spec; strips].
    cbn [app]. eapply import_statement; [reflexivity|]. change (body _ F_import) with body_import. unfold body_import, look, consume_, call, identifier_. cbn [bind]. apply X_look. apply X_consume. apply X_look. xsimp. apply X_look. xsimp. apply X_consume. cbn [bind]. apply X_look. xsimp. apply X_consume.
    eapply X_call; [|apply X_ret]. exact H.
  - destruct (import_more_of st0 l more s1 tk1 tk2 w2 w3 source [] (tk :: r) D F1 S1 Ew S2 Q) as (m & e & H & Sm). exists (Node st0 e (St_Import ([] ++ m) source)). split; [|cbn [n_item strip_statement map app]; now rewrite Sm].
    eapply import_statement; [reflexivity|]. change (body _ F_import) with body_import. unfold body_import, look, consume_, call. cbn [bind]. apply X_look. apply X_consume.
    assert (exists v sx, s1 ++ tk1 :: tk2 :: tk :: r = Plain v :: sx /\ (v_token v = T_OperatorMultiplication \/ v_token v = T_BraceOpen)) as (v & sx & E & V).
    { destruct D; clear - F1; inversion F1 as [|ta x1 sx1 lx1 Sa F2]; subst; destruct (spells_plain _ _ _ Sa eq_refl) as (a & st & en & tx & ac & q & -> & _); eexists _, _; (split; [reflexivity|cbn; auto]). }
    rewrite E in *. apply X_look. cbn [tv]. rewrite !(is_not _ v) by (destruct V as [V|V]; rewrite V; discriminate). cbn [orb bind]. eapply X_call; [|apply X_ret]. exact H.
Qed.
