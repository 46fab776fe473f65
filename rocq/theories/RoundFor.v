(** Reading back [for] statements and imports. *)
From Coq Require Import List NArith PeanoNat Bool String Lia.
From Coq.Strings Require Import Byte.
From Verif Require Import Bytes Token Tables Lexer SpecLexer SpecTokens SpecChunks SpecTree SpecUtf8 SpecHazard SpecPrec SpecRound
  Ast Prog Parser Codegen LexerFacts ConsumeFacts LexEval ProgFacts ParseFacts Structure Gets Foreign Levels Chain RoundBase RoundExpr RoundParts RoundProps RoundStmt.
Import ListNotations.
Open Scope nat_scope.
Open Scope list_scope.

Section For.
  Variable alnum : N -> bool.
  Notation statement_fits := (statement_fits alnum).
  Notation gets := (gets alnum).
  Notation pend := (pend alnum).
  Notation Spec := (Spec alnum).
  Notation Stmt := (Stmt alnum).

  (** [body_for_rest] after the first semicolon. *)
  Definition for_tail (start : N) (init : option (node for_init)) : P stmt_node :=
    v <- look ;;
    test <- (if is T_Semicolon v then consume_ ;;; Ret None
             else e <- call (F_expression CtxDefault BP_ANY) ;; expect T_Semicolon ;;; Ret (Some e)) ;;
    v' <- look ;;
    update <- (if is T_ParenClose v' then consume_ ;;; Ret None
               else e <- call (F_expression CtxDefault BP_ANY) ;; expect T_ParenClose ;;; Ret (Some e)) ;;
    b <- call F_statement ;;
    Ret (Node start (n_end b) (St_For init test update b)).
  (** [body_for] after the parenthesis. *)
  Definition for_after (start : N) : P stmt_node :=
    v <- look ;;
    if is T_Semicolon v then consume_ ;;; call (F_for_rest start None)
    else if is T_DeclarationVar v then i <- call (F_for_init DK_Var) ;; call (F_for_rest start (Some i))
    else if is T_DeclarationLet v then i <- call (F_for_init DK_Let) ;; call (F_for_rest start (Some i))
    else if is T_DeclarationConst v then i <- call (F_for_init DK_Const) ;; call (F_for_rest start (Some i))
    else
      e <- call (F_expression CtxDefault BP_ANY) ;;
      match n_item e with
      | E_Binary O_In l r => call (F_for_in_from_parts start (Node (n_start l) (n_end l) (FI_Expression l)) r)
      | _ => call (F_for_rest start (Some (Node (n_start e) (n_end e) (FI_Expression e))))
      end.
  Lemma body_for_eq : body_for = (start <- start_then_consume ;; expect T_ParenOpen ;;; for_after start).
  Proof. reflexivity. Qed.
  Lemma body_for_rest_none s : body_for_rest s None = for_tail s None.
  Proof. reflexivity. Qed.
  Lemma body_for_rest_some s i : body_for_rest s (Some i) =
    (v <- look ;;
     if is T_OperatorIn v then consume_ ;;; call (F_for_in s i)
     else if (is T_Identifier v && str_eqb (v_text v) (bs "of"))%bool then consume_ ;;; call (F_for_of s i)
     else expect T_Semicolon ;;; for_tail s (Some i)).
  Proof. reflexivity. Qed.

  Definition opt_same (n e : option expr_node) : Prop := option_map (strip_node strip_expression) n = option_map (strip_node strip_expression) e.
  Definition opt_fit (e : option expr_node) : Prop := match e with Some e => Spec (n_item e) /\ 0 < ll (n_item e) | None => True end.
  Definition opt_code (e : option expr_node) : code := match e with Some e => c_node c_expression e | None => [] end.
  Lemma p_for_tail t u b start init nl c (Q : stmt_node -> lexer -> Prop) : opt_fit t -> opt_fit u -> Stmt (n_item b) ->
    (forall t' u' b', opt_same t' t -> opt_same u' u -> strip_statement (n_item b') = strip_statement (n_item b) ->
       pend false c (fun lx => Q (Node start (n_end b') (St_For init t' u' b')) lx /\ sfollow (n_item b) lx)) ->
    pend nl (opt_code t ++ GBytes (bs ";") :: GPretty x20 :: opt_code u ++ GBytes (bs ")") :: GPretty x20 :: c_statement (n_item b) ++ c)
      (fun lx => gets (for_tail start init) lx Q).
  Proof.
    intros FT FU SB H.
    assert (B : forall t' u', opt_same t' t -> opt_same u' u -> pend false (GPretty x20 :: c_statement (n_item b) ++ c)
      (fun lx => gets (b <- call F_statement ;; Ret (Node start (n_end b) (St_For init t' u' b))) lx Q)).
    { intros t' u' Et Eu. apply pend_sp. eapply pend_mono; [|apply (SB false c (fun b' lx => Q (Node start (n_end b') (St_For init t' u' b')) lx))].
      - intros lx (G & _). apply g_bind. eapply gets_mono; [|exact G]. intros b' lx1 HQ. apply g_ret. exact HQ.
      - intros b' Eb. apply H; assumption. }
    assert (U : forall t', opt_same t' t -> pend false (opt_code u ++ GBytes (bs ")") :: GPretty x20 :: c_statement (n_item b) ++ c)
      (fun lx => gets (v' <- look ;;
        update <- (if is T_ParenClose v' then consume_ ;;; Ret None
               else e <- call (F_expression CtxDefault BP_ANY) ;; expect T_ParenClose ;;; Ret (Some e)) ;;
        b <- call F_statement ;; Ret (Node start (n_end b) (St_For init t' update b))) lx Q)).
    { intros t' Et. destruct u as [u|]; cbn [opt_code]; flat.
      - destruct FU as (S & L). eapply (p_expr alnum (n_item u) CtxDefault BP_ANY); [exact S|exact L|htac| |].
        + intros lx G LD. apply g_bind, g_look. decide_is. apply g_bind, g_bind. exact G.
        + intros n E. tok lx O. split; [|split; lv]. apply g_bind. eapply g_expect; [exact O|].
          eapply pend_mono; [|apply (B t' (Some n) Et)]; [intros lx1 G; apply g_ret; exact G|]. unfold opt_same. cbn [option_map]. f_equal. apply same_node, E.
      - tok lx O. apply g_bind, g_look. decide_is. apply g_bind, g_bind. eapply g_consume; [exact O|].
        eapply pend_mono; [|apply (B t' None Et eq_refl)]. intros lx1 G. apply g_ret. exact G. }
    unfold for_tail. destruct t as [t|]; cbn [opt_code]; flat.
    - destruct FT as (S & L). eapply (p_expr alnum (n_item t) CtxDefault BP_ANY); [exact S|exact L|htac| |].
      + intros lx G LD. apply g_bind, g_look. decide_is. apply g_bind, g_bind. exact G.
      + intros n E. tok lx O. split; [|split; lv]. apply g_bind. eapply g_expect; [exact O|]. apply pend_sp.
        eapply pend_mono; [|apply (U (Some n))]; [intros lx1 G; apply g_ret; exact G|]. unfold opt_same. cbn [option_map]. f_equal. apply same_node, E.
    - tok lx O. apply g_bind, g_look. decide_is. apply g_bind, g_bind. eapply g_consume; [exact O|]. apply pend_sp.
      eapply pend_mono; [|apply (U None eq_refl)]. intros lx1 G. apply g_ret. exact G.
  Qed.

  (** ** The initialiser *)
  Definition InitIn (i : for_init) : Prop :=
    match i with
    | FI_Declaration _ ds => Forall (fun d => DeclIn alnum (n_item d)) ds
    | FI_Expression e => Spec (n_item e)
    end.
  Definition init_fits (i : for_init) : Prop :=
    match i with FI_Expression e => 0 < ll (n_item e) /\ is_in (n_item e) = false | FI_Declaration _ ds => ds <> [] end.
  Definition ifollow (i : for_init) (lx : lexer) : Prop :=
    match i with FI_Declaration _ ds => dfollow ds lx | FI_Expression e => tlevel (lx_token lx) = 0 end.
  Lemma is_in_strip e : is_in (strip_expression e) = is_in e.
  Proof. destruct e; reflexivity. Qed.
  Lemma same_in n e : same n e -> is_in (n_item n) = is_in e.
  Proof. intros H. rewrite <- is_in_strip, H. apply is_in_strip. Qed.
  Lemma p_init i start c Q : InitIn i -> init_fits i -> tail c ->
    (forall n, strip_for_init (n_item n) = strip_for_init i -> pend false c (fun lx => gets (call (F_for_rest start (Some n))) lx Q /\ ifollow i lx)) ->
    pend false (c_for_init i ++ c) (fun lx => gets (for_after start) lx Q).
  Proof.
    destruct i as [k ds|e]; cbn [InitIn init_fits ifollow c_for_init]; intros HI HF T H; unfold for_after.
    - rewrite <- app_assoc. apply p_kind. intros lx x O.
      assert (D : gets (i <- call (F_for_init k) ;; call (F_for_rest start (Some i))) lx Q).
      { apply g_bind, g_call. cbn [body]. unfold body_for_init, start_then_consume. apply g_bind, g_bind, g_look, g_bind. eapply g_consume; [exact O|].
        apply pend_blank. destruct ds as [|d ds]; [congruence|].
        eapply pend_mono; [|apply (p_declarators alnum d ds HI false c (fun ns lx' => gets (e_end <- get_end ;; Ret (Node (v_start (view_of lx)) e_end (FI_Declaration k ns))) lx'
          (fun i lx'' => gets (call (F_for_rest start (Some i))) lx'' Q)) T)].
        - intros lx1 G. apply g_ret, g_bind. exact G.
        - intros ns Es. eapply pend_mono; [|apply (pend_all alnum (fun n => strip_for_init (n_item n) = strip_for_init (FI_Declaration k (d :: ds))) _ _ _ (ex_intro _ (Node 0%N 0%N (FI_Declaration k (d :: ds))) eq_refl) H)].
          intros lx1 G. assert (E' : forall a b, strip_for_init (n_item (Node a b (FI_Declaration k ns))) = strip_for_init (FI_Declaration k (d :: ds))).
          { intros a b. cbn [n_item strip_for_init]. f_equal. exact Es. }
          split; [|apply (G _ (E' 0%N 0%N))]. unfold get_end. apply g_bind, g_bind, g_look, g_ret, g_ret. apply (G _ (E' _ _)). }
      destruct k; cbn [kind_token] in O; apply g_bind, g_look; repeat decide_is; exact D.
    - destruct HF as (L & NI). unfold c_node. eapply (p_expr alnum (n_item e) CtxDefault BP_ANY); [exact HI|exact L|exact T| |].
      + intros lx G LD. apply g_bind, g_look. repeat decide_is. apply g_bind. exact G.
      + intros n E. rewrite <- (same_in _ _ E) in NI. eapply pend_mono; [|apply (H (Node (n_start n) (n_end n) (FI_Expression n)))].
        * intros lx (G & LV). split; [|rewrite LV; split; lia].
          destruct (n_item n) as [ | | | | | | | | | |op l r| | | | | | | | | | ]; try exact G. destruct op; try exact G. discriminate NI.
        * cbn [n_item strip_for_init]. f_equal. apply same_node, E.
  Qed.
  Lemma g_for_open nl c lx Q : on nl T_For (bs "for") (GPretty x20 :: GBytes (bs "(") :: c) lx ->
    (forall start, pend false c (fun lx' => gets (for_after start) lx' Q)) -> gets (call F_statement) lx Q /\ slead lx.
  Proof.
    intros O H. split; [|eapply slead_on; [exact O|discriminate]].
    eapply g_statement_on; [exact O|reflexivity|]. cbn [body_stmt_handler]. apply g_call. cbn [body]. rewrite body_for_eq. unfold start_then_consume.
    apply g_bind, g_bind, g_look, g_bind. eapply g_consume; [exact O|]. apply pend_sp. tok lx1 O1. apply g_ret, g_bind. eapply g_expect; [exact O1|]. apply H.
  Qed.
  Lemma stmt_for i t u b : match i with Some i => InitIn (n_item i) /\ init_fits (n_item i) | None => True end -> opt_fit t -> opt_fit u -> Stmt (n_item b) ->
    Stmt (St_For i t u b).
  Proof.
    intros HI FT FU SB nl c Q H. cbn [c_statement]. fold (opt_code t) (opt_code u). flat. kw lx O. eapply g_for_open; [exact O|]. intros start.
    assert (TL : forall i', option_map (strip_node strip_for_init) i' = option_map (strip_node strip_for_init) i ->
      pend false (GPretty x20 :: opt_code t ++ GBytes (bs ";") :: GPretty x20 :: opt_code u ++ GBytes (bs ")") :: GPretty x20 :: c_statement (n_item b) ++ c)
        (fun lx => gets (for_tail start i') lx Q)).
    { intros i' Ei. apply pend_sp. apply p_for_tail; auto. intros t' u' b' Et Eu Eb. eapply pend_mono; [|apply H].
      - intros lx1 (G & F). split; [exact G|exact F].
      - cbn [n_item strip_statement]. f_equal; [exact Ei|exact Et|exact Eu|apply same_stmt, Eb]. }
    destruct i as [i|].
    - destruct HI as (HI & HF). apply p_init; [exact HI|exact HF|htac|]. intros n E. tok lx1 O1. split.
      + apply g_call. cbn [body]. rewrite body_for_rest_some. apply g_bind, g_look. do 2 decide_is. cbn [andb]. apply g_bind. eapply g_expect; [exact O1|].
        apply TL. cbn [option_map]. f_equal. unfold strip_node. now f_equal.
      + unfold ifollow, dfollow. destruct (n_item i); rewrite (on_token _ _ _ _ _ O1); [|reflexivity]. split; [discriminate|split; [discriminate|left; cbn; lia]].
    - cbn [app]. tok lx1 O1. unfold for_after. apply g_bind, g_look. decide_is. apply g_bind. eapply g_consume; [exact O1|].
      eapply pend_mono; [|apply (TL None eq_refl)]. intros lx2 G. apply g_call. cbn [body]. rewrite body_for_rest_none. exact G.
  Qed.

  (** [ in ] and [ of ] *)
  Lemma p_in nl c (K : lexer -> Prop) : (forall lx, on nl T_OperatorIn (bs "in") (GBytes [x20] :: c) lx -> K lx) -> pend nl (GBytes (bs " in ") :: c) K.
  Proof. intros H. apply (pend_blank_split alnum nl (bs "in ")); [reflexivity|]. apply (pend_kw_blank alnum nl (bs "in") (bs "in ") T_OperatorIn); [reflexivity|vm_compute; reflexivity|]. exact H. Qed.
  Lemma p_of nl c (K : lexer -> Prop) : (forall lx, on nl T_Identifier (bs "of") (GBytes [x20] :: c) lx -> K lx) -> pend nl (GBytes (bs " of ") :: c) K.
  Proof. intros H. apply (pend_blank_split alnum nl (bs "of ")); [reflexivity|]. apply (pend_kw_blank alnum nl (bs "of") (bs "of ") T_Identifier); [reflexivity|vm_compute; reflexivity|]. exact H. Qed.
  (** The rest of [for in] and [for of]. *)
  Lemma p_iterated (mk : expr_node -> stmt_node -> statement) start r b c (Q : stmt_node -> lexer -> Prop) : Spec (n_item r) -> 0 < ll (n_item r) -> Stmt (n_item b) ->
    (forall r' b', same r' (n_item r) -> strip_statement (n_item b') = strip_statement (n_item b) ->
       pend false c (fun lx => Q (Node start (n_end b') (mk r' b')) lx /\ sfollow (n_item b) lx)) ->
    pend false (c_expression (n_item r) ++ GBytes (bs ")") :: GPretty x20 :: c_statement (n_item b) ++ c)
      (fun lx => gets (right <- call (F_expression CtxDefault BP_ANY) ;; expect T_ParenClose ;;; b <- call F_statement ;; Ret (Node start (n_end b) (mk right b))) lx Q).
  Proof.
    intros S L SB H. eapply (p_expr alnum (n_item r) CtxDefault BP_ANY); [exact S|exact L|htac| |].
    - intros lx G LD. apply g_bind. exact G.
    - intros n E. tok lx O. split; [|split; lv]. apply g_bind. eapply g_expect; [exact O|]. apply pend_sp.
      eapply pend_mono; [|apply (SB false c (fun b' lx' => Q (Node start (n_end b') (mk n b')) lx'))].
      + intros lx1 (G & _). apply g_bind. eapply gets_mono; [|exact G]. intros b' lx2 HQ. apply g_ret. exact HQ.
      + intros b' Eb. apply H; assumption.
  Qed.
  Lemma stmt_for_of l r b : InitIn (n_item l) -> init_fits (n_item l) -> Spec (n_item r) -> 0 < ll (n_item r) -> Stmt (n_item b) -> Stmt (St_ForOf l r b).
  Proof.
    intros HI HF SR LR SB nl c Q H. cbn [c_statement]. flat. kw lx O. eapply g_for_open; [exact O|]. intros start.
    apply p_init; [exact HI|exact HF|htac|]. intros n E. apply p_of. intros lx1 O1. split.
    - apply g_call. cbn [body]. rewrite body_for_rest_some. apply g_bind, g_look. do 2 decide_is. rewrite (text_of _ _ _ _ _ O1). cbn [andb].
      change (str_eqb (bs "of") (bs "of")) with true. cbn [andb].
      apply g_bind. eapply g_consume; [exact O1|]. apply pend_blank.
      eapply pend_mono; [|apply (p_iterated (fun r' b' => St_ForOf n r' b') start r b c Q SR LR SB)].
      + intros lx2 G. apply g_call. exact G.
      + intros r' b' Er Eb. eapply pend_mono; [|apply H]; [intros lx2 (G & F); split; [exact G|exact F]|].
        cbn [n_item strip_statement]. f_equal; [unfold strip_node; now f_equal|apply same_node, Er|apply same_stmt, Eb].
    - unfold ifollow, dfollow. destruct (n_item l); rewrite (on_token _ _ _ _ _ O1); [|reflexivity]. split; [discriminate|split; [discriminate|left; cbn; lia]].
  Qed.
  Lemma stmt_for_in l r b : InitIn (n_item l) -> Spec (n_item r) -> Stmt (n_item b) -> statement_fits (St_ForIn l r b) -> Stmt (St_ForIn l r b).
  Proof.
    intros HI SR SB (LR & HF) nl c Q H. cbn [c_statement]. flat. kw lx O. eapply g_for_open; [exact O|]. intros start.
    destruct (n_item l) as [k ds|e] eqn:El.
    - destruct HF as (d & p & -> & Ed). apply p_init; [exact HI|discriminate|htac|]. intros n E. apply p_in. intros lx1 O1. split.
      + apply g_call. cbn [body]. rewrite body_for_rest_some. apply g_bind, g_look. decide_is. apply g_bind. eapply g_consume; [exact O1|]. apply pend_blank.
        eapply pend_mono; [|apply (p_iterated (fun r' b' => St_ForIn n r' b') start r b c Q SR LR SB)].
        * intros lx2 G. apply g_call. exact G.
        * intros r' b' Er Eb. eapply pend_mono; [|apply H]; [intros lx2 (G & F); split; [exact G|exact F]|].
          cbn [n_item strip_statement]. f_equal; [unfold strip_node; now rewrite E, El|apply same_node, Er|apply same_stmt, Eb].
      + unfold ifollow, dfollow. rewrite (on_token _ _ _ _ _ O1). split; [discriminate|split; [discriminate|right; exists d; split; [reflexivity|]]].
        exists p. exact Ed.
    - cbn [InitIn] in HI. destruct HF as (L0 & L1 & L2). cbn [c_for_init]. unfold c_node, for_after.
      eapply pend_mono; [|apply (HI CtxDefault BP_ANY false _ (fun e lx' => gets (match n_item e with
        | E_Binary O_In l r => call (F_for_in_from_parts start (Node (n_start l) (n_end l) (FI_Expression l)) r)
        | _ => call (F_for_rest start (Some (Node (n_start e) (n_end e) (FI_Expression e)))) end) lx' Q))].
      + intros lx1 (G & LD). apply g_bind, g_look. repeat decide_is. apply g_bind, g_call. exact G.
      + exact L0.
      + apply tail_tails. htac.
      + intros n E. apply p_in. intros lx1 O1. split; [|rewrite (on_token _ _ _ _ _ O1); cbn; lia].
        destruct (binary_nested O_In T_OperatorIn BP_ANY eq_refl) as (h & Hh & Hb); [cbn; tauto|cbn; lia|].
        eapply (g_nested alnum BP_ANY n lx1 h); [rewrite (on_token _ _ _ _ _ O1); exact Hh|right; rewrite (on_token _ _ _ _ _ O1); split; discriminate|].
        rewrite Hb. unfold binary_handler. apply g_bind. eapply g_consume; [exact O1|]. apply pend_blank.
        eapply (p_expr alnum (n_item r) CtxDefault BP_B11); [exact SR|exact L2|htac| |].
        * intros lx2 G _. apply g_bind. exact G.
        * intros m Em. tok lx2 O2. split; [|split; lv]. apply g_ret. apply nested_stop; [lv|].
          apply g_call. cbn [body n_item]. unfold body_for_in_from_parts. apply g_bind. eapply g_expect; [exact O2|]. apply pend_sp.
          eapply pend_mono; [|apply (SB false c (fun b' lx' => Q (Node start (n_end b') (St_ForIn (Node (n_start n) (n_end n) (FI_Expression n)) m b')) lx'))].
          -- intros lx3 (G & _). apply g_bind. eapply gets_mono; [|exact G]. intros b' lx4 HQ. apply g_ret. exact HQ.
          -- intros b' Eb. eapply pend_mono; [|apply H]; [intros lx3 (G & F); split; [exact G|exact F]|].
             cbn [n_item strip_statement]. f_equal; [|apply same_node, Em|apply same_stmt, Eb]. unfold strip_node. rewrite El. cbn [n_item strip_for_init]. do 2 f_equal. apply same_node, E.
  Qed.
End For.
