(** Every program of the grammar is accepted: statements. *)
From Coq Require Import List NArith Bool Lia Arith String.
From Coq.Strings Require Import Byte.
From Verif Require Import Bytes Token Tables Lexer Ast Prog Parser Structure SpecSyntax Erase Comp CompA CompB CompC CompD CompE.
Import ListNotations.
Open Scope nat_scope.
Open Scope list_scope.

(** ** Semicolons *)
Lemma breaks_implicit v : breaks v = true -> v_asi v = ImplicitSemicolon.
Proof. unfold breaks. destruct (v_asi v); congruence. Qed.
Lemma spells_break tk nx : spells tk nx -> w_break (snd nx) = true -> v_asi (tv tk) = ImplicitSemicolon.
Proof. intros S B. apply breaks_implicit. destruct S as [v|v w A1 A2 A3|v w A1 A2 A3 A4]; cbn [tv lexeme_of snd w_break] in *; congruence. Qed.
Lemma semicolon nx l s tk r : semi nx l -> feeds s l -> spells tk nx -> X (body _ F_expect_semicolon) (s ++ tk :: r) tt (tk :: r).
Proof.
  intros D F S. destruct D as [B|w].
  - feed. bodies. cbn [bind app]. apply X_look. rewrite (spells_break _ _ S B). apply X_ret.
  - feed. assert (Q : a = ExplicitSemicolon) by tauto. subst a. bodies. cbn [bind app]. apply X_look. cbn [tv v_asi]. apply X_consume. apply X_ret.
Qed.
(** An expression and the semicolon after it. *)
Lemma expr_semi o l1 l2 nx e s1 s2 tk r : P_expr 0 o l1 e -> semi nx l2 -> ends 0 (next l2 nx) -> feeds s1 l1 -> feeds s2 l2 -> spells tk nx ->
  exists e', same (n_item e') e /\ exists tk2 u, s2 ++ tk :: r = tk2 :: u /\ follow 0 (tv tk2) /\ X (body _ (F_expression CtxDefault BP_ANY)) (s1 ++ s2 ++ tk :: r) e' (s2 ++ tk :: r) /\ X (body _ F_expect_semicolon) (s2 ++ tk :: r) tt (tk :: r).
Proof.
  intros H D En F1 F2 S. assert (G := semicolon nx l2 s2 tk r D F2 S). destruct (next_tok s2 l2 nx tk r F2 S) as (tk2 & u & E & S2). rewrite E in *. assert (W := ends_any _ _ S2 En).
  destruct (use_any o l1 e s1 tk2 u CtxDefault H F1 W) as (e' & He & Se). exists e'. split; [exact Se|]. exists tk2, u. auto.
Qed.

(** ** Simple statements *)
Ltac st_go := bodies; xsimp; apply X_look; xsimp; hsimp; eapply X_call; [|apply X_ret].
Lemma c_st_empty nx w : P_stmt nx [(T_Semicolon, w)] St_Empty.
Proof. intros s tk r F S K. feed. eexists. split; [xgo|strips]. Qed.
Lemma c_st_debugger nx w : P_stmt nx [(T_Debugger, w)] St_Debugger.
Proof. intros s tk r F S K. feed. eexists. split; [xgo|strips]. Qed.
Lemma c_st_block nx l b : P_body l b -> P_stmt nx l (St_Block b).
Proof.
  intros H s tk r F S K. destruct (H s (tk :: r) F) as (v & vc & s' & b' & -> & Ev & Hb & Sb). destruct v as [t a st en tx ac q]. cbn in Ev. subst t. norm.
  eexists. split; [xgo|stripb].
Qed.
Lemma handlers_agree v : viewer (v_token v) = true -> ~ In (v_token v) [T_BraceOpen; T_Function; T_Class; T_Identifier] ->
  body _ (F_stmt_handler (statement_handler v)) = expression_handler_statement (bound_handler CtxDefault v).
Proof.
  assert (G : forallb (fun t => (negb (viewer t) || existsb (token_eqb t) [T_BraceOpen; T_Function; T_Class; T_Identifier] ||
    match nth (token_index t) STMT_HANDLERS S_____, nth (token_index t) DEF_CONTEXT X_____ with
    | S_PRN, X_PRN | S_ARR, X_ARR | S_OP, X_OP | S_NEW, X_NEW | S_REG, X_REG | S_THIS, X_THIS | S_TRUE, X_TRUE | S_FALS, X_FALS | S_NULL, X_NULL | S_UNDE, X_UNDE
    | S_STR, X_STR | S_NUM, X_NUM | S_BIN, X_BIN | S_TPLS, X_TPLS | S_TPLE, X_TPLE => true | _, _ => false end)%bool) all_tokens = true) by (vm_compute; reflexivity).
  rewrite forallb_forall in G. specialize (G _ (in_all_tokens (v_token v))). intros V N. rewrite V in G. cbn [negb orb] in G.
  apply orb_true_iff in G as [G|G]; [apply memb_in in G; contradiction|]. unfold statement_handler, bound_handler. cbn [context_table].
  destruct (nth _ STMT_HANDLERS _); destruct (nth _ DEF_CONTEXT _); try discriminate G; reflexivity.
Qed.
Lemma statement_of tk0 s0 p t e u w : X (primary CtxDefault) (tk0 :: s0) p t -> X (body _ (F_nested BP_ANY p)) t e u -> X (body _ F_expect_semicolon) u tt w ->
  ~ In (v_token (tv tk0)) [T_BraceOpen; T_Function; T_Class] -> (forall tk1 t1, t = tk1 :: t1 -> v_token (tv tk1) <> T_Colon) -> t <> [] ->
  exists x, X (body _ F_statement) (tk0 :: s0) x w /\ n_item x = St_Expression e.
Proof.
  intros H1 H2 H3 N C Nt. assert (V := primary_viewer _ _ _ _ H1). destruct (token_eq_dec (v_token (tv tk0)) T_Identifier) as [I|I].
  - unfold primary in H1. apply X_inv in H1 as (t0 & q0 & E & H1). injection E as <- <-. unfold bound_handler in H1. rewrite I in H1. change (nth (token_index T_Identifier) (context_table CtxDefault) X_____) with X_IDEN in H1.
    apply X_inv in H1 as (p' & q1 & H1 & Q). apply X_inv in Q as [-> ->]. revert H1. bodies. cbn [bind]. intros H1. apply X_inv in H1 as (t0 & q0 & E & H1). injection E as <- <-. apply X_inv in H1 as (v & q0 & E & H1). injection E as -> <-. apply X_inv in H1 as [<- <-].
    destruct s0 as [|tk1 s1]; [contradiction|]. specialize (C tk1 s1 eq_refl). cbn [tv] in *. destruct v as [tt a st en tx ac qq]. cbn in I. subst tt.
    eexists. split; [st_go; bodies; cbn [bind]; eapply X_call; [|apply X_ret]; bodies; cbn [bind]; apply X_look; apply X_consume; apply X_look; rewrite (is_not _ _ C); cbn [bind]; eapply X_call; [exact H2|]; eapply X_call; [exact H3|]; apply X_ret|reflexivity].
  - assert (Hh : body _ (F_stmt_handler (statement_handler (tv tk0))) = expression_handler_statement (bound_handler CtxDefault (tv tk0))).
    { apply handlers_agree; [exact V|]. intros [Q|[Q|[Q|[Q|[]]]]]; try (apply N; rewrite <- Q; cbn; tauto). congruence. }
    unfold primary in H1. apply X_inv in H1 as (t0 & q0 & E & H1). injection E as <- <-. apply X_inv in H1 as (p' & q1 & H1 & Q). apply X_inv in Q as [-> ->].
    eexists. split.
    * change (body _ F_statement) with (Look (fun v => Call (F_stmt_handler (statement_handler v)) (fun r => Ret r))). apply X_look. eapply X_call; [|apply X_ret]. rewrite Hh.
      unfold expression_handler_statement, call. cbn [bind]. eapply X_call; [exact H1|]. eapply X_call; [|apply X_ret]. bodies. cbn [bind]. eapply X_call; [exact H2|]. eapply X_call; [exact H3|]. apply X_ret.
    * reflexivity.
Qed.
Lemma nested_colon b p tk t e u : v_token (tv tk) = T_Colon -> X (body _ (F_nested b p)) (tk :: t) e u -> u = tk :: t.
Proof.
  intros Q H. change (body _ (F_nested b p)) with (body_nested b p) in H. unfold body_nested, look, call in H. cbn [bind] in H. apply X_inv in H as (t0 & q0 & E & H). injection E as <- <-.
  assert (handler b (tv tk) = None) as E by (assert (G : follow 0 (tv tk)) by (apply stops_follow; now rewrite Q); now apply follow_0). rewrite E in H. apply X_inv in H as [_ <-]. reflexivity.
Qed.
Lemma nested_nonempty b p t e u : X (body _ (F_nested b p)) t e u -> t <> [].
Proof. intros H -> . change (body _ (F_nested b p)) with (body_nested b p) in H. apply X_inv in H as (t0 & q0 & E & H). discriminate E. Qed.
Lemma not_colon l2 nx tk2 : semi nx l2 -> okn nx -> spells tk2 (next l2 nx) -> v_token (tv tk2) <> T_Colon.
Proof.
  intros D K S. apply (spells_not _ _ _ S); [|discriminate|discriminate]. destruct D; cbn [next fst]; [|discriminate]. intros Q. apply K. rewrite Q. cbn. tauto.
Qed.
Lemma first_not ts s l tk0 : not_first ts l -> feeds (tk0 :: s) l -> ~ In T_OperatorDivision ts -> ~ In T_BraceClose ts -> ~ In (v_token (tv tk0)) ts.
Proof.
  intros N F N1 N2 I. inversion F as [|tk x s' l' S F']; subst. cbn in N. revert I. destruct S as [v|v w' A1|v w' A1]; cbn [tv] in *; [exact N|rewrite A1; exact N1|rewrite A1; exact N2].
Qed.
Ltac notin := intros [?Q|[?Q|[?Q|[?Q|[]]]]]; discriminate.
Lemma c_st_expression nx o l1 l2 e : expr 0 o l1 (n_item e) -> P_expr 0 o l1 (n_item e) -> not_first [T_BraceOpen; T_Function; T_Class] l1 -> semi nx l2 -> ends 0 (next l2 nx) ->
  P_stmt nx (l1 ++ l2) (St_Expression e).
Proof.
  intros D H N Dl En s tk r F S K. apply Forall2_app_inv_r in F as (s1 & s2 & F1 & F2 & ->). norm. assert (G := semicolon nx l2 s2 tk r Dl F2 S). destruct (next_tok s2 l2 nx tk r F2 S) as (tk2 & u & E & S2). rewrite E in *. assert (W := ends_any _ _ S2 En).
  destruct (H s1 tk2 u F1 W) as (p & t & e' & H1 & Se & H2); [intros _; apply (follow_mono 0); [lia|exact W]|].
  specialize (H2 BP_ANY (le_n _) e' (tk2 :: u) (nested_stop _ _ _ _ (follow_0 _ _ W))).
  assert (Ne : l1 <> []) by (destruct (expr_begins _ _ _ _ D) as (? & ? & ? & -> & _); discriminate). assert (Ne' := feeds_nonempty _ _ F1 Ne). destruct s1 as [|tk0 s0]; [contradiction|]. cbn [app] in *.
  destruct (statement_of tk0 _ p t e' (tk2 :: u) (tk :: r) H1 H2 G) as (x & Hx & Ex).
  - apply (first_not _ s0 l1); [exact N|exact F1|cbn; intros [Q|[Q|[Q|[]]]]; discriminate|cbn; intros [Q|[Q|[Q|[]]]]; discriminate].
  - intros tk1 t1 -> Q. assert (Q2 := nested_colon _ _ _ _ _ _ Q H2). injection Q2 as <- <-. exact (not_colon _ _ _ Dl K S2 Q).
  - exact (nested_nonempty _ _ _ _ _ H2).
  - exists x. split; [exact Hx|]. rewrite Ex. unfold same in *. strips.
Qed.
Lemma c_st_import_name nx o w t w' l1 l2 e : P_expr 0 o ((T_Identifier, w) :: (t, w') :: l1) (n_item e) -> In t [T_Comma; T_ParenOpen] -> semi nx l2 -> ends 0 (next l2 nx) ->
  P_stmt nx ((T_Import, w) :: (t, w') :: l1 ++ l2) (St_Expression e).
Proof.
  intros H I Dl En s tk r F S K. change ((T_Import, w) :: (t, w') :: l1 ++ l2) with ((T_Import, w) :: ((t, w') :: l1) ++ l2) in F. inversion F as [|tk0 x0 sx l0 S0 F0]; subst. clear F. apply (Forall2_app_inv_r ((t, w') :: l1) l2) in F0 as (s1 & s2 & F1 & F2 & ->).
  norm. assert (G := semicolon nx l2 s2 tk r Dl F2 S). destruct (next_tok s2 l2 nx tk r F2 S) as (tk2 & u & E & S2). rewrite E in *. assert (W := ends_any _ _ S2 En).
  destruct (spells_plain _ _ _ S0 eq_refl) as (a & st & en & tx & ac & q & -> & Et & Eb & Ea).
  assert (S0' : spells (Plain (View T_Identifier a st en tx ac q)) (T_Identifier, w)).
  { replace (T_Identifier, w) with (lexeme_of (View T_Identifier a st en tx ac q)); [|unfold lexeme_of, breaks; cbn [v_token v_text v_asi]; destruct w as [wt wb]; cbn [w_text w_break] in *; now subst]. apply sp_plain; cbn [v_asi v_token]; [|discriminate|discriminate]. split; intros Q; [apply Ea in Q; discriminate Q|discriminate Q]. }
  destruct (H (Plain (View T_Identifier a st en tx ac q) :: s1) tk2 u (Forall2_cons _ _ S0' F1) W) as (p & t0 & e' & H1 & Se & H2); [intros _; apply (follow_mono 0); [lia|exact W]|].
  specialize (H2 BP_ANY (le_n _) e' (tk2 :: u) (nested_stop _ _ _ _ (follow_0 _ _ W))). cbn [app] in *.
  unfold primary in H1. apply X_inv in H1 as (t1 & q0 & E1 & H1). injection E1 as <- <-. change (bound_handler CtxDefault (tv (Plain (View T_Identifier a st en tx ac q)))) with X_IDEN in H1.
  apply X_inv in H1 as (p' & q1 & H1 & Q). apply X_inv in Q as [-> ->]. revert H1. bodies. cbn [bind]. intros H1. apply X_inv in H1 as (t1 & q0 & E1 & H1). injection E1 as <- <-. apply X_inv in H1 as (v & q0 & E1 & H1). injection E1 as <- <-. apply X_inv in H1 as [<- <-].
  cbn [tv v_text] in H2. inversion F1 as [|tk1 x1 s3 l3 S1 F3]; subst. assert (Pt : plain t = true) by (destruct I as [<-|[<-|[]]]; reflexivity). destruct (spells_plain _ _ _ S1 Pt) as (a1 & st1 & en1 & tx1 & ac1 & q2 & -> & _).
  exists (Node st (n_end e') (St_Expression e')). split; [|unfold same in *; strips].
  st_go. bodies. cbn [bind]. eapply X_call; [|apply X_ret]. bodies. cbn [bind app]. apply X_look. apply X_consume. apply X_look. xsimp.
  change (in_loc (View T_Import a st en (w_text w) ac q) (E_Identifier (w_text w))) with (in_loc (View T_Identifier a st en (w_text w) ac q) (E_Identifier (w_text w))).
  destruct I as [<-|[<-|[]]]; xsimp; (eapply X_call; [exact H2|]; eapply X_call; [exact G|]; apply X_ret).
Qed.
