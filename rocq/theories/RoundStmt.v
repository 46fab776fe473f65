(** Reading back statements. *)
From Coq Require Import List NArith PeanoNat Bool String Lia.
From Coq.Strings Require Import Byte.
From Verif Require Import Bytes Token Tables Lexer SpecLexer SpecTokens SpecChunks SpecTree SpecUtf8 SpecHazard SpecPrec SpecRound
  Ast Prog Parser Codegen LexerFacts ConsumeFacts LexEval ProgFacts ParseFacts Structure Gets Foreign Levels Chain RoundBase RoundExpr RoundParts RoundProps.
Import ListNotations.
Open Scope nat_scope.
Open Scope list_scope.

Section Stmt.
  Variable alnum : N -> bool.
  Notation name_ok := (name_ok alnum).
  Notation identifier_name := (identifier_name alnum).
  Notation declared_name := (declared_name alnum).
  Notation statement_fits := (statement_fits alnum).
  Notation gets := (gets alnum).
  Notation pend := (pend alnum).
  Notation Spec := (Spec alnum).
  Notation Body := (Body alnum).

  Definition sfollow (s : statement) (lx : lexer) : Prop :=
    lx_token lx <> T_Finally /\ (open_if s = true -> lx_token lx <> T_Else).
  Definition slead (lx : lexer) : Prop := nth (token_index (lx_token lx)) STMT_HANDLERS S_____ <> S_____.
  Definition Stmt (s : statement) : Prop :=
    forall nl c Q, (forall n, strip_statement (n_item n) = strip_statement s -> pend false c (fun lx => Q n lx /\ sfollow s lx)) ->
      pend nl (c_statement s ++ c) (fun lx => gets (call F_statement) lx Q /\ slead lx).
  Lemma slead_not lx t : nth (token_index t) STMT_HANDLERS S_____ = S_____ -> slead lx -> lx_token lx <> t.
  Proof. intros H S E. apply S. rewrite E. exact H. Qed.
  Lemma slead_follow s lx : slead lx -> sfollow s lx.
  Proof. intros H. split; [|intros _]; apply slead_not; auto. Qed.
  Lemma slead_on nl t x c lx : on nl t x c lx -> nth (token_index t) STMT_HANDLERS S_____ <> S_____ -> slead lx.
  Proof. intros O H. unfold slead. now rewrite (on_token _ _ _ _ _ O). Qed.
  Lemma follow_tok s lx t : lx_token lx = t -> t <> T_Finally -> t <> T_Else -> sfollow s lx.
  Proof. intros H H1 H2. split; [|intros _]; congruence. Qed.
  Lemma g_statement h lx Q : nth (token_index (lx_token lx)) STMT_HANDLERS S_____ = h -> gets (body_stmt_handler h) lx Q -> gets (call F_statement) lx Q.
  Proof.
    intros H G. apply g_call. cbn [body]. unfold body_statement. apply g_bind, g_look. unfold statement_handler. cbn [view_of v_token]. rewrite H.
    apply g_call. exact G.
  Qed.
  Lemma g_statement_on nl t x c lx h Q : on nl t x c lx -> nth (token_index t) STMT_HANDLERS S_____ = h -> gets (body_stmt_handler h) lx Q -> gets (call F_statement) lx Q.
  Proof. intros O H. apply g_statement. now rewrite (on_token _ _ _ _ _ O). Qed.
  Lemma stmt_item s : Stmt s -> Item alnum I_Statement c_statement strip_statement sfollow slead false s.
  Proof. intros S nl c Q H. eapply pend_mono; [|apply (S nl c Q H)]. intros lx (G & L). split; [|exact L]. apply g_call. exact G. Qed.
  Lemma raw_body b : Forall (fun s => Stmt (n_item s)) (b_body b) -> Body b.
  Proof.
    intros F. unfold RoundParts.Body, Raw. apply (p_raw_block alnum I_Statement c_statement strip_statement sfollow slead false).
    - intros x lx. apply slead_follow.
    - intros x lx H. eapply follow_tok; [exact H|discriminate|discriminate].
    - intros lx H. split; apply slead_not; auto.
    - rewrite Forall_forall in *. intros x Hx. apply stmt_item, F, Hx.
  Qed.

  (** ** Expressions *)
  Lemma expr_handler_table t : nth (token_index t) DEF_CONTEXT X_____ <> X_____ ->
    ~ In t [T_Identifier; T_BraceOpen; T_Function; T_Class] ->
    body_stmt_handler (nth (token_index t) STMT_HANDLERS S_____) = expression_handler_statement (nth (token_index t) DEF_CONTEXT X_____) /\
    nth (token_index t) STMT_HANDLERS S_____ <> S_____.
  Proof.
    intros H N. destruct t; try (exfalso; apply H; reflexivity); try (exfalso; apply N; cbn; tauto); split; try reflexivity; discriminate.
  Qed.
  Definition then_semicolon (Q : stmt_node -> lexer -> Prop) (e : expr_node) (lx : lexer) : Prop :=
    lx_token lx = T_Semicolon /\ gets (call F_expect_semicolon) lx (fun _ lx' => forall a b, Q (Node a b (St_Expression e)) lx').
  Lemma g_expr_stmt lx x nl Q : gets (body_expression CtxDefault BP_ANY) lx (then_semicolon Q) -> lead x nl lx ->
    is_allowed_as_bare_statement x = true -> gets (call F_statement) lx Q /\ slead lx.
  Proof.
    intros G (ST & OP & _) BA. unfold starter in ST.
    unfold body_expression in G. apply look_inv in G. unfold bound_handler in G. cbn [view_of v_token context_table] in G. apply gets_bind in G.
    assert (NB : ~ In (lx_token lx) [T_BraceOpen; T_Function; T_Class]).
    { intros [E|[E|[E|[]]]]; rewrite <- E in OP; cbn [opening] in OP; destruct x; try destruct OP; discriminate BA. }
    destruct (token_eqb (lx_token lx) T_Identifier) eqn:EI.
    - apply token_eqb_eq in EI. split; [|unfold slead; rewrite EI; discriminate].
      eapply g_statement; [rewrite EI; reflexivity|]. cbn [body_stmt_handler]. apply g_call. cbn [body]. unfold body_labeled_or_expression.
      rewrite EI in G. cbn [nth token_index DEF_CONTEXT] in G. apply call_inv in G. cbn [body] in G.
      change (nth _ DEF_CONTEXT X_____) with X_IDEN in G. cbn [body_expr_handler] in G. unfold token_expression in G. apply look_inv in G. apply gets_bind in G.
      apply g_bind, g_look, g_bind. eapply gets_mono; [|exact G]. intros [] lx1 G1. apply gets_ret_inv in G1.
      apply g_bind, g_look. rewrite is_false_ne.
      + apply g_bind. eapply gets_mono; [|exact G1]. intros e lx2 (_ & G2). apply g_bind. eapply gets_mono; [|exact G2]. intros u lx3 HQ. apply g_ret. apply HQ.
      + intros TK. apply call_inv in G1. cbn [body] in G1. unfold body_nested in G1. apply look_inv in G1.
        rewrite handler_none in G1 by (rewrite TK; cbn; lia). apply gets_ret_inv in G1. destruct G1 as (TS & _). congruence.
    - assert (NI : ~ In (lx_token lx) [T_Identifier; T_BraceOpen; T_Function; T_Class]).
      { intros [E|E]; [|auto]. rewrite <- E in EI. discriminate. }
      destruct (expr_handler_table _ ST NI) as (HB & HS). split; [|exact HS].
      eapply g_statement; [reflexivity|]. rewrite HB. unfold expression_handler_statement. apply g_bind. eapply gets_mono; [|exact G].
      intros l lx1 G1. apply g_call. cbn [body]. unfold body_expression_statement. apply g_bind. eapply gets_mono; [|exact G1].
      intros e lx2 (_ & G2). apply g_bind. eapply gets_mono; [|exact G2]. intros u lx3 HQ. apply g_ret. apply HQ.
  Qed.
  Lemma stmt_expression e : Spec (n_item e) -> statement_fits (St_Expression e) -> Stmt (St_Expression e).
  Proof.
    intros S (L & SB) nl c Q H. cbn [c_statement]. unfold c_node.
    assert (G : forall n nl, same n (n_item e) -> pend nl (GBytes (bs ";") :: c) (fun lx => then_semicolon Q n lx /\ tlevel (lx_token lx) = 0)).
    { intros n nl' E. tok lx O. split; [|rewrite (on_token _ _ _ _ _ O); reflexivity]. split; [apply (on_token _ _ _ _ _ O)|].
      eapply g_semicolon; [exact O|].
      eapply pend_mono; [|apply (pend_all alnum (fun m => strip_statement (n_item m) = strip_statement (St_Expression e)) _ _ _ (ex_intro _ (Node 0%N 0%N (St_Expression e)) eq_refl) H)].
      intros lx1 X a b. apply X. cbn [n_item strip_statement]. f_equal. apply same_node, E. }
    destruct (is_allowed_as_bare_statement (n_item e)) eqn:BA.
    - rewrite <- app_assoc. cbn [w app].
      eapply pend_mono; [|apply (spec_reads alnum (n_item e) CtxDefault BP_ANY S L nl (GBytes (bs ";") :: c) (then_semicolon Q))].
      + intros lx (G0 & LD). eapply g_expr_stmt; [exact G0|exact LD|]. apply SB. reflexivity.
      + htac.
      + intros n E. eapply pend_mono; [|apply (G n false E)]. intros lx (G0 & LV). split; [exact G0|]. rewrite LV. lia.
    - flat. eapply pend_mono; [|apply (spec_paren alnum (n_item e) CtxDefault BP_ANY nl (GBytes (bs ";") :: c) (then_semicolon Q) E_This S L)].
      + intros lx (G0 & LD). eapply g_expr_stmt; [exact G0|exact LD|reflexivity].
      + intros n E. eapply pend_mono; [|apply (G n false E)]. intros lx (G0 & LV). apply nested_stop; [rewrite LV; lia|exact G0].
      + exact I.
  Qed.

  (** ** Declarations *)
  Definition DeclIn (d : declarator) : Prop :=
    match d with Declarator p i => Pat alnum (n_item p) /\ match i with Some e => Spec (n_item e) /\ First (n_item e) /\ element (n_item e) | None => True end end.
  Definition dsames (ns xs : list (node declarator)) : Prop := map (strip_node strip_declarator) ns = map (strip_node strip_declarator) xs.
  Lemma dsames_cons n ns x xs : strip_declarator (n_item n) = strip_declarator (n_item x) -> dsames ns xs -> dsames (n :: ns) (x :: xs).
  Proof. intros H1 H2. unfold dsames. cbn [map]. f_equal; [|exact H2]. unfold strip_node. now f_equal. Qed.
  Definition bare_declarator (d : declarator) : Prop := exists p, d = Declarator p None.
  Lemma p_declarator d nl c Q : DeclIn d -> tail c ->
    (forall n, strip_declarator (n_item n) = strip_declarator d ->
       pend false c (fun lx => Q n lx /\ lx_token lx <> T_OperatorAssign /\ (tlevel (lx_token lx) <= 1 \/ bare_declarator d))) ->
    pend nl (c_declarator d ++ c) (fun lx => gets (call F_declarator) lx Q /\ pat_start lx).
  Proof.
    intros DI T H. destruct d as [p i]. destruct DI as (HP & HI). cbn [c_declarator]. unfold c_node. rewrite <- app_assoc.
    eapply pend_mono; [|apply (HP nl _ (fun id lx => gets (v <- look ;;
      if is T_OperatorAssign v then consume_ ;;; init <- call (F_expression CtxDefault BP_B0) ;; Ret (Node (n_start id) (n_end init) (Declarator id (Some init)))
      else Ret (Node (n_start id) (n_end id) (Declarator id None))) lx Q))].
    - intros lx (G & PS). split; [|exact PS]. apply g_call. cbn [body]. unfold body_declarator. apply g_bind. exact G.
    - destruct i; flat; htac.
    - intros n E. destruct i as [e|]; flat.
      + destruct HI as (S & F & EL1 & EL2). apply pend_sp. apply p_assign; [exact F|lia|]. intros lx O. apply g_bind, g_look. decide_is.
        apply g_bind. eapply g_consume; [exact O|]. apply pend_sp. eapply (p_expr alnum (n_item e) CtxDefault BP_B0); [exact S|exact EL1|exact T| |].
        * intros lx1 G _. apply g_bind. exact G.
        * intros m Em. eapply pend_mono; [|apply (H (Node (n_start n) (n_end m) (Declarator n (Some m))))].
          -- intros lx1 (G & _ & [LV|(p' & B)]); [|discriminate B]. split; [apply g_ret; exact G|cbn [level]; lia].
          -- cbn [n_item strip_declarator option_map]. f_equal; [|f_equal; apply same_node, Em]. unfold strip_node. now f_equal.
      + eapply pend_mono; [|apply (H (Node (n_start n) (n_end n) (Declarator n None)))].
        * intros lx (G & NA & _). apply g_bind, g_look. rewrite is_false_ne by exact NA. apply g_ret. exact G.
        * cbn [n_item strip_declarator option_map]. f_equal. unfold strip_node. now f_equal.
  Qed.
  Definition dfollow (ds : list (node declarator)) (lx : lexer) : Prop :=
    lx_token lx <> T_Comma /\ lx_token lx <> T_OperatorAssign /\ (tlevel (lx_token lx) <= 1 \/ exists d, ds = [d] /\ bare_declarator (n_item d)).
  Lemma p_declarators d ds : Forall (fun d => DeclIn (n_item d)) (d :: ds) -> forall nl c Q, tail c ->
    (forall ns, dsames ns (d :: ds) -> pend false c (fun lx => Q ns lx /\ dfollow (d :: ds) lx)) ->
    pend nl (c_list c_declarator (d :: ds) ++ c) (fun lx => gets (call F_declarators) lx Q).
  Proof.
    revert d. induction ds as [|d2 ds IH]; intros d F nl c Q T H; inversion F as [|? ? DI F' E1]; subst; cbn [c_list c_list_rest]; flat.
    - eapply pend_mono; [|apply (p_declarator (n_item d) nl c (fun n lx => gets (v <- look ;; if is T_Comma v then consume_ ;;; ds <- call F_declarators ;; Ret (n :: ds) else Ret [n]) lx Q) DI T)].
      + intros lx (G & _). apply g_call. cbn [body]. unfold body_declarators. apply g_bind. exact G.
      + intros n E. eapply pend_mono; [|apply (H [n])].
        * intros lx (G & NC & NA & LV). split; [|split; [exact NA|]].
          -- apply g_bind, g_look. rewrite is_false_ne by exact NC. apply g_ret. exact G.
          -- destruct LV as [LV|(d' & Ed & B)]; [left; exact LV|]. injection Ed as <-. right. exact B.
        * apply dsames_cons; [exact E|reflexivity].
    - eapply pend_mono; [|apply (p_declarator (n_item d) nl _ (fun n lx => gets (v <- look ;; if is T_Comma v then consume_ ;;; ds <- call F_declarators ;; Ret (n :: ds) else Ret [n]) lx Q) DI)].
      + intros lx (G & _). apply g_call. cbn [body]. unfold body_declarators. apply g_bind. exact G.
      + htac.
      + intros n E. tok lx O. split; [|split; [rewrite (on_token _ _ _ _ _ O); discriminate|left; lv]].
        apply g_bind, g_look. decide_is. apply g_bind. eapply g_consume; [exact O|]. apply pend_sp.
        assert (G0 := IH d2 F' false c (fun ns lx => Q (n :: ns) lx) T). cbn [c_list] in G0. unfold c_node in G0. rewrite <- app_assoc in G0.
        eapply pend_mono; [|apply G0].
        * intros lx1 G. apply g_bind. eapply gets_mono; [|exact G]. intros ns lx2 HQ. apply g_ret. exact HQ.
        * intros ns Es. eapply pend_mono; [|apply (H (n :: ns))].
          -- intros lx1 (G & NC & NA & LV). split; [exact G|]. split; [exact NC|split; [exact NA|]].
             destruct LV as [LV|(d' & Ed & _)]; [left; exact LV|discriminate Ed].
          -- apply dsames_cons; assumption.
  Qed.
  Definition kind_token (k : declkind) : token := match k with DK_Var => T_DeclarationVar | DK_Let => T_DeclarationLet | DK_Const => T_DeclarationConst end.
  Lemma p_kind k nl c (K : lexer -> Prop) : (forall lx x, on nl (kind_token k) x (GBytes [x20] :: c) lx -> K lx) -> pend nl (c_kind k ++ c) K.
  Proof.
    intros H. destruct k; cbn [c_kind w app].
    - apply (pend_kw_blank alnum nl (bs "var") (bs "var ") T_DeclarationVar); [reflexivity|vm_compute; reflexivity|]. intros lx O. eapply H, O.
    - apply (pend_kw_blank alnum nl (bs "let") (bs "let ") T_DeclarationLet); [reflexivity|vm_compute; reflexivity|]. intros lx O. eapply H, O.
    - apply (pend_kw_blank alnum nl (bs "const") (bs "const ") T_DeclarationConst); [reflexivity|vm_compute; reflexivity|]. intros lx O. eapply H, O.
  Qed.
  Lemma stmt_declaration k ds : Forall (fun d => DeclIn (n_item d)) ds -> ds <> [] -> Stmt (St_Declaration k ds).
  Proof.
    intros F NE nl c Q H. cbn [c_statement]. rewrite <- !app_assoc. cbn [w app]. apply p_kind. intros lx x O.
    split; [|eapply slead_on; [exact O|destruct k; discriminate]].
    eapply (g_statement_on _ _ _ _ _ (match k with DK_Var => S_VAR | DK_Let => S_LET | DK_Const => S_CONS end)); [exact O|destruct k; reflexivity|].
    enough (G : gets (call (F_variable_declaration k)) lx Q) by (destruct k; exact G).
    apply g_call. cbn [body]. unfold body_variable_declaration, start_then_consume. apply g_bind, g_bind, g_look, g_bind. eapply g_consume; [exact O|].
    apply pend_blank. destruct ds as [|d ds]; [congruence|].
    eapply pend_mono; [|apply (p_declarators d ds F false (GBytes (bs ";") :: c) (fun ns lx' => gets (e_end <- get_end ;; call F_expect_semicolon ;;; Ret (Node (v_start (view_of lx)) e_end (St_Declaration k ns))) lx' Q))].
    - intros lx1 G. apply g_ret, g_bind. exact G.
    - htac.
    - intros ns Es. tok lx1 O1. split; [|unfold dfollow; rewrite (on_token _ _ _ _ _ O1); split; [discriminate|split; [discriminate|left; cbn; lia]]].
      unfold get_end. apply g_bind, g_bind, g_look, g_ret, g_bind. eapply g_semicolon; [exact O1|].
      eapply pend_mono; [|apply (H (Node (v_start (view_of lx)) (v_end (view_of lx1)) (St_Declaration k ns)))].
      + intros lx2 (G & _). apply g_ret. exact G.
      + cbn [n_item strip_statement]. f_equal. exact Es.
  Qed.

  (** ** Jumps *)
  Lemma g_explicit nl x c lx : on nl T_Semicolon x c lx -> v_asi (view_of lx) = ExplicitSemicolon.
  Proof. intros O. cbn [view_of v_asi]. destruct (on_asi _ _ _ _ _ O) as (ws & _ & ->). unfold asi_of. destruct (newline_in ws); reflexivity. Qed.
  Lemma stmt_return v : match v with Some e => Spec (n_item e) | None => True end -> statement_fits (St_Return v) -> Stmt (St_Return v).
  Proof.
    intros S L nl c Q H. destruct v as [e|]; cbn [c_statement statement_fits] in *; flat.
    - apply (pend_kw_blank alnum nl (bs "return") (bs "return ") T_Return); [reflexivity|vm_compute; reflexivity|]. intros lx O.
      split; [|eapply slead_on; [exact O|discriminate]]. eapply g_statement_on; [exact O|reflexivity|]. cbn [body_stmt_handler]. apply g_call. cbn [body].
      unfold body_return. apply g_bind, g_look, g_bind. eapply g_consume; [exact O|]. apply pend_blank.
      eapply (p_expr alnum (n_item e) CtxDefault BP_ANY); [exact S|exact L|htac| |].
      + intros lx1 G (_ & _ & NS). apply g_bind, g_look. cbn [view_of v_asi]. rewrite (NS eq_refl). apply g_bind. exact G.
      + intros n E. tok lx1 O1. split; [|split; lv]. apply g_bind. eapply g_semicolon; [exact O1|].
        eapply pend_mono; [|apply (H (Node (v_start (view_of lx)) (n_end n) (St_Return (Some n))))].
        * intros lx2 (G & _). apply g_ret. exact G.
        * cbn [n_item strip_statement option_map]. do 2 f_equal. apply same_node, E.
    - change (bs "return;") with (bs "return" ++ bs ";"). apply pend_split. kw lx O. split; [|eapply slead_on; [exact O|discriminate]].
      eapply g_statement_on; [exact O|reflexivity|]. cbn [body_stmt_handler]. apply g_call. cbn [body].
      unfold body_return. apply g_bind, g_look, g_bind. eapply g_consume; [exact O|]. tok lx1 O1. apply g_bind, g_look. rewrite (g_explicit _ _ _ _ O1).
      apply g_bind. eapply g_consume; [exact O1|]. eapply pend_mono; [|apply (H (in_loc (view_of lx) (St_Return None)))].
      + intros lx2 (G & _). apply g_ret. exact G.
      + reflexivity.
  Qed.
  Lemma p_label l c (Q : option (node str) * option N -> lexer -> Prop) : match l with Some l => identifier_name (n_item l) | None => True end ->
    (forall l' e, option_map strip_id l' = option_map strip_id l -> pend false c (fun lx => Q (l', e) lx)) ->
    pend false (match l with Some l => w " " ++ c_ident l ++ w ";" | None => w ";" end ++ c) (fun lx => gets (call F_label) lx Q).
  Proof.
    intros HL H. destruct l as [l|]; flat.
    - apply pend_blank. apply identifier_pend; [exact HL|htac|]. intros lx O. apply g_call. cbn [body]. unfold body_label. apply g_bind, g_look.
      assert (v_asi (view_of lx) = NoSemicolon) as ->.
      { cbn [view_of v_asi]. eapply starter_asi; [exact O| |reflexivity]. unfold starter. rewrite (on_token _ _ _ _ _ O). discriminate. }
      unfold identifier_. apply g_bind, g_bind, g_look. decide_is. apply g_bind. eapply g_consume; [exact O|]. tok lx1 O1. apply g_ret, g_bind.
      eapply g_semicolon; [exact O1|]. eapply pend_mono; [|apply H].
      + intros lx2 G. apply g_ret. exact G.
      + cbn [option_map]. unfold strip_id, strip_node. cbn [in_loc n_item]. now rewrite (text_of _ _ _ _ _ O).
    - tok lx O. apply g_call. cbn [body]. unfold body_label. apply g_bind, g_look. rewrite (g_explicit _ _ _ _ O). apply g_bind. eapply g_consume; [exact O|].
      eapply pend_mono; [|apply (H None None eq_refl)]. intros lx2 G. apply g_ret. exact G.
  Qed.
  Lemma stmt_break l : statement_fits (St_Break l) -> Stmt (St_Break l).
  Proof.
    intros F nl c Q H. cbn [statement_fits] in F.
    assert (c_statement (St_Break l) = GBytes (bs "break") :: match l with Some l => w " " ++ c_ident l ++ w ";" | None => w ";" end) as ->
      by (cbn [c_statement]; unfold c_jump; destruct l; reflexivity).
    cbn [app]. apply (pend_kw alnum nl (bs "break") T_Break); [vm_compute; reflexivity|destruct l; flat; htac|]. intros lx O.
    split; [|eapply slead_on; [exact O|discriminate]]. eapply g_statement_on; [exact O|reflexivity|]. cbn [body_stmt_handler]. apply g_call. cbn [body].
    unfold body_break, jump_statement. apply g_bind, g_look, g_bind. eapply g_consume; [exact O|].
    eapply pend_mono; [|apply (p_label l c (fun r lx' => gets (let '(l, e) := r in Ret (Node (v_start (view_of lx)) (match e with Some e => e | None => v_end (view_of lx) end) (St_Break l))) lx' Q) F)].
    - intros lx1 G. apply g_bind. exact G.
    - intros l' e E. cbv beta iota. eapply pend_mono; [|apply H].
      + intros lx2 (G & _). apply g_ret. exact G.
      + cbn [n_item strip_statement]. now f_equal.
  Qed.
  Lemma stmt_continue l : statement_fits (St_Continue l) -> Stmt (St_Continue l).
  Proof.
    intros F nl c Q H. cbn [statement_fits] in F.
    assert (c_statement (St_Continue l) = GBytes (bs "continue") :: match l with Some l => w " " ++ c_ident l ++ w ";" | None => w ";" end) as ->
      by (cbn [c_statement]; unfold c_jump; destruct l; reflexivity).
    cbn [app]. apply (pend_kw alnum nl (bs "continue") T_Continue); [vm_compute; reflexivity|destruct l; flat; htac|]. intros lx O.
    split; [|eapply slead_on; [exact O|discriminate]]. eapply g_statement_on; [exact O|reflexivity|]. cbn [body_stmt_handler]. apply g_call. cbn [body].
    unfold body_continue, jump_statement. apply g_bind, g_look, g_bind. eapply g_consume; [exact O|].
    eapply pend_mono; [|apply (p_label l c (fun r lx' => gets (let '(l, e) := r in Ret (Node (v_start (view_of lx)) (match e with Some e => e | None => v_end (view_of lx) end) (St_Continue l))) lx' Q) F)].
    - intros lx1 G. apply g_bind. exact G.
    - intros l' e E. cbv beta iota. eapply pend_mono; [|apply H].
      + intros lx2 (G & _). apply g_ret. exact G.
      + cbn [n_item strip_statement]. now f_equal.
  Qed.
  Lemma stmt_throw e : Spec (n_item e) -> 0 < ll (n_item e) -> Stmt (St_Throw e).
  Proof.
    intros S L nl c Q H. cbn [c_statement]. flat.
    apply (pend_kw_blank alnum nl (bs "throw") (bs "throw ") T_Throw); [reflexivity|vm_compute; reflexivity|]. intros lx O.
    split; [|eapply slead_on; [exact O|discriminate]]. eapply g_statement_on; [exact O|reflexivity|]. cbn [body_stmt_handler]. apply g_call. cbn [body].
    unfold body_throw, start_then_consume. apply g_bind, g_bind, g_look, g_bind. eapply g_consume; [exact O|]. apply pend_blank.
    eapply (p_expr alnum (n_item e) CtxDefault BP_ANY); [exact S|exact L|htac| |].
    - intros lx1 G _. apply g_ret, g_bind. exact G.
    - intros n E. tok lx1 O1. split; [|split; lv]. apply g_bind. eapply g_semicolon; [exact O1|].
      eapply pend_mono; [|apply (H (Node (v_start (view_of lx)) (n_end n) (St_Throw n)))].
      + intros lx2 (G & _). apply g_ret. exact G.
      + cbn [n_item strip_statement]. f_equal. apply same_node, E.
  Qed.

  (** ** Compound statements *)
  (** [keyword (expression)] *)
  Lemma p_test e c lx nl x t (Q : stmt_node -> lexer -> Prop) (k : N -> expr_node -> P stmt_node) : Spec (n_item e) -> 0 < ll (n_item e) ->
    on nl t x (GPretty x20 :: GBytes (bs "(") :: c_expression (n_item e) ++ GBytes (bs ")") :: c) lx ->
    (forall n s, same n (n_item e) -> pend false c (fun lx' => gets (k s n) lx' Q)) ->
    gets (start <- start_then_consume ;; expect T_ParenOpen ;;; test <- call (F_expression CtxDefault BP_ANY) ;; expect T_ParenClose ;;; k start test) lx Q.
  Proof.
    intros S L O H. unfold start_then_consume. apply g_bind, g_bind, g_look, g_bind. eapply g_consume; [exact O|]. apply pend_sp. tok lx1 O1.
    apply g_ret, g_bind. eapply g_expect; [exact O1|]. eapply (p_expr alnum (n_item e) CtxDefault BP_ANY); [exact S|exact L|htac| |].
    - intros lx2 G _. apply g_bind. exact G.
    - intros n E. tok lx2 O2. split; [|split; lv]. apply g_bind. eapply g_expect; [exact O2|]. apply H, E.
  Qed.
  Lemma same_stmt n x : strip_statement (n_item n) = strip_statement (n_item x) -> strip_node strip_statement n = strip_node strip_statement x.
  Proof. intros H. unfold strip_node. now f_equal. Qed.
  Lemma stmt_while t b : Spec (n_item t) -> 0 < ll (n_item t) -> Stmt (n_item b) -> Stmt (St_While t b).
  Proof.
    intros S L SB nl c Q H. cbn [c_statement]. flat. kw lx O. split; [|eapply slead_on; [exact O|discriminate]].
    eapply g_statement_on; [exact O|reflexivity|]. cbn [body_stmt_handler]. apply g_call. cbn [body]. unfold body_while.
    eapply (p_test t); [exact S|exact L|exact O|]. intros n s E. apply pend_sp.
    eapply pend_mono; [|apply (SB false c (fun b' lx' => Q (Node s (n_end b') (St_While n b')) lx'))].
    - intros lx1 (G & _). apply g_bind. eapply gets_mono; [|exact G]. intros b' lx2 HQ. apply g_ret. exact HQ.
    - intros b' Eb. eapply pend_mono; [|apply H]; [intros lx1 (G & F); split; [exact G|exact F]|].
      cbn [n_item strip_statement]. f_equal; [apply same_node, E|apply same_stmt, Eb].
  Qed.
  Lemma pend_space_if b nl c (K : lexer -> Prop) : pend nl c K -> pend nl (space_if b ++ c) K.
  Proof. intros H. unfold space_if. destruct b; cbn [app sp]; [apply pend_blank|apply pend_sp]; exact H. Qed.
  Lemma space_statement_tail s c : tail0 (space_if (negb (is_block (n_item s))) ++ c_statement (n_item s) ++ c).
  Proof.
    unfold space_if. destruct (n_item s) eqn:E; cbn [is_block negb app sp]; try htac.
    apply heads_sp; [reflexivity|]. cbn [c_statement]. unfold c_block. flat. htac.
  Qed.
  Lemma stmt_if t y z : Spec (n_item t) -> statement_fits (St_If t y z) -> Stmt (n_item y) -> match z with Some z => Stmt (n_item z) | None => True end -> Stmt (St_If t y z).
  Proof.
    intros S (L & OI) SY SZ nl c Q H. cbn [c_statement]. unfold c_node, w, sp. rewrite <- ?app_assoc. cbn [app]. rewrite <- ?app_assoc. cbn [app].
    kw lx O. split; [|eapply slead_on; [exact O|discriminate]].
    eapply g_statement_on; [exact O|reflexivity|]. cbn [body_stmt_handler]. apply g_call. cbn [body]. unfold body_if.
    eapply (p_test t); [exact S|exact L|exact O|]. intros n s E. apply pend_sp. rewrite <- ?app_assoc.
    eapply pend_mono; [|apply (SY false _ (fun c' lx' => gets (v <- look ;;
      if is T_Else v then consume_ ;;; a <- call F_statement ;; Ret (Node s (n_end a) (St_If n c' (Some a))) else Ret (Node s (n_end c') (St_If n c' None))) lx' Q))].
    { intros lx1 (G & _). apply g_bind. exact G. }
    intros c' Ec. destruct z as [z|].
    - rewrite <- ?app_assoc. apply pend_space_if. cbn [app].
      rewrite <- app_assoc.
      apply (pend_kw alnum false (bs "else") T_Else); [vm_compute; reflexivity|apply space_statement_tail|]. intros lx1 O1.
      split; [|split; [rewrite (on_token _ _ _ _ _ O1); discriminate|intros X; rewrite OI in X; discriminate]].
      apply g_bind, g_look. decide_is. apply g_bind. eapply g_consume; [exact O1|]. apply pend_space_if.
      eapply pend_mono; [|apply (SZ false c (fun a lx' => Q (Node s (n_end a) (St_If n c' (Some a))) lx'))].
      + intros lx2 (G & _). apply g_bind. eapply gets_mono; [|exact G]. intros a lx3 HQ. apply g_ret. exact HQ.
      + intros a Ea. eapply pend_mono; [|apply H]; [intros lx2 (G & F); split; [exact G|exact F]|].
        cbn [n_item strip_statement option_map]. f_equal; [apply same_node, E|apply same_stmt, Ec|f_equal; apply same_stmt, Ea].
    - cbn [app]. eapply pend_mono; [|apply (H (Node s (n_end c') (St_If n c' None)))].
      + intros lx1 (G & F1 & F2). split; [|split; [exact F1|intros _; apply F2; reflexivity]].
        apply g_bind, g_look. rewrite is_false_ne by (apply F2; reflexivity). apply g_ret. exact G.
      + cbn [n_item strip_statement option_map]. f_equal; [apply same_node, E|apply same_stmt, Ec].
  Qed.
  Lemma stmt_do b t : Spec (n_item t) -> 0 < ll (n_item t) -> Stmt (n_item b) -> Stmt (St_Do b t).
  Proof.
    intros S L SB nl c Q H. cbn [c_statement]. unfold c_node, w, sp. rewrite <- ?app_assoc. cbn [app]. rewrite <- ?app_assoc. cbn [app].
    apply (pend_kw alnum nl (bs "do") T_Do); [vm_compute; reflexivity|apply space_statement_tail|]. intros lx O.
    split; [|eapply slead_on; [exact O|discriminate]].
    eapply g_statement_on; [exact O|reflexivity|]. cbn [body_stmt_handler]. apply g_call. cbn [body]. unfold body_do, start_then_consume.
    apply g_bind, g_bind, g_look, g_bind. eapply g_consume; [exact O|]. apply pend_space_if.
    eapply pend_mono; [|apply (SB false _ (fun b' lx' => gets (expect T_While ;;; expect T_ParenOpen ;;; test <- call (F_expression CtxDefault BP_ANY) ;;
       e_end <- get_end ;; expect T_ParenClose ;;; Ret (Node (v_start (view_of lx)) e_end (St_Do b' test))) lx' Q))].
    - intros lx1 (G & _). apply g_ret, g_bind. exact G.
    - intros b' Eb. kw lx1 O1. split; [|eapply follow_tok; [apply (on_token _ _ _ _ _ O1)|discriminate|discriminate]].
      apply g_bind. eapply g_expect; [exact O1|]. apply pend_sp. tok lx2 O2. apply g_bind. eapply g_expect; [exact O2|].
      eapply (p_expr alnum (n_item t) CtxDefault BP_ANY); [exact S|exact L|htac| |].
      + intros lx3 G _. apply g_bind. exact G.
      + intros n E. tok lx3 O3. split; [|split; lv]. unfold get_end. apply g_bind, g_bind, g_look, g_ret, g_bind. eapply g_expect; [exact O3|].
        eapply pend_mono; [|apply (H (Node (v_start (view_of lx)) (v_end (view_of lx3)) (St_Do b' n)))].
        * intros lx4 (G & _). apply g_ret. exact G.
        * cbn [n_item strip_statement]. f_equal; [apply same_stmt, Eb|apply same_node, E].
  Qed.
  Lemma stmt_labeled l b : identifier_name l -> Stmt (n_item b) -> Stmt (St_Labeled l b).
  Proof.
    intros HI SB nl c Q H. cbn [c_statement]. flat. apply identifier_pend; [exact HI|htac|]. intros lx O.
    split; [|eapply slead_on; [exact O|discriminate]].
    eapply g_statement_on; [exact O|reflexivity|]. cbn [body_stmt_handler]. apply g_call. cbn [body]. unfold body_labeled_or_expression.
    apply g_bind, g_look, g_bind. eapply g_consume; [exact O|]. tok lx1 O1. apply g_bind, g_look. decide_is. apply g_bind. eapply g_consume; [exact O1|].
    apply pend_sp. eapply pend_mono; [|apply (SB false c (fun b' lx' => Q (Node (v_start (view_of lx)) (n_end b') (St_Labeled (v_text (view_of lx)) b')) lx'))].
    - intros lx2 (G & _). apply g_bind. eapply gets_mono; [|exact G]. intros b' lx3 HQ. apply g_ret. exact HQ.
    - intros b' Eb. eapply pend_mono; [|apply H]; [intros lx2 (G & F); split; [exact G|exact F]|].
      cbn [n_item strip_statement]. rewrite (text_of _ _ _ _ _ O). f_equal. apply same_stmt, Eb.
  Qed.
  Lemma stmt_block b : Body b -> Stmt (St_Block b).
  Proof.
    intros HB nl c Q H. cbn [c_statement]. unfold c_block. flat. tok lx O. split; [|eapply slead_on; [exact O|discriminate]].
    eapply g_statement_on; [exact O|reflexivity|]. cbn [body_stmt_handler]. apply g_call. cbn [body]. unfold body_block_statement, start_then_consume.
    apply g_bind, g_bind, g_look, g_bind. eapply g_consume; [exact O|].
    eapply pend_mono; [intros lx1 G; apply g_ret, g_bind; exact G|]. apply HB. intros b' lx1 E O1.
    unfold end_then_consume. apply g_bind, g_bind, g_look, g_bind. eapply g_consume; [exact O1|].
    eapply pend_mono; [|apply (H (Node (v_start (view_of lx)) (v_end (view_of lx1)) (St_Block b')))].
    - intros lx2 (G & _). apply g_ret, g_ret. exact G.
    - cbn [n_item strip_statement]. now f_equal.
  Qed.
  Lemma stmt_function f : declared_name (func_name f) -> func_fits f -> Fn alnum f -> Stmt (St_Function f).
  Proof.
    destruct f as [n g ps b]. cbn [func_name]. intros NO (-> & PF) (HP & HB) nl c Q H. cbn [c_statement].
    rewrite c_func_split. assert (c_keyword "function" n = [GBytes (bs "function")]) as -> by (destruct NO as (i & -> & _); reflexivity).
    rewrite <- ?app_assoc. cbn [app]. rewrite <- app_assoc. cbn [app].
    apply (pend_kw alnum nl (bs "function") T_Function); [vm_compute; reflexivity| |].
    { destruct NO as (i & -> & _); cbn [c_name]; flat; htac. }
    intros lx O. split; [|eapply slead_on; [exact O|discriminate]].
    eapply g_statement_on; [exact O|reflexivity|]. cbn [body_stmt_handler]. apply g_call. cbn [body]. unfold body_function_statement, start_then_consume.
    apply g_bind, g_bind, g_look, g_bind. eapply g_consume; [exact O|]. eapply pend_mono; [intros lx1 G; apply g_ret, g_bind; exact G|].
    apply (p_function alnum NK_Mandatory n false ps b); auto. intros f Ef. eapply pend_mono; [|apply (H (Node (v_start (view_of lx)) (func_body_end f) (St_Function f)))].
    - intros lx1 (G & _). apply g_ret. exact G.
    - cbn [n_item strip_statement]. f_equal. exact Ef.
  Qed.
  Lemma stmt_class cl : declared_name (class_name cl) -> class_fits cl -> ClassIn alnum cl -> Stmt (St_Class cl).
  Proof.
    destruct cl as [n e b]. cbn [class_name]. intros NO CF (SU & HB) nl c Q H. cbn [c_statement].
    rewrite c_class_split. assert (c_keyword "class" n = [GBytes (bs "class")]) as -> by (destruct NO as (i & -> & _); reflexivity).
    rewrite <- ?app_assoc. cbn [app].
    apply (pend_kw alnum nl (bs "class") T_Class); [vm_compute; reflexivity| |].
    { destruct NO as (i & -> & _); cbn [c_name]; flat; htac. }
    intros lx O. split; [|eapply slead_on; [exact O|discriminate]].
    eapply g_statement_on; [exact O|reflexivity|]. cbn [body_stmt_handler]. apply g_call. cbn [body]. unfold body_class_statement, start_then_consume.
    apply g_bind, g_bind, g_look, g_bind. eapply g_consume; [exact O|]. eapply pend_mono; [intros lx1 G; apply g_ret, g_bind; exact G|].
    apply (p_class alnum NK_Mandatory n e b); auto. intros f Ef. eapply pend_mono; [|apply (H (Node (v_start (view_of lx)) (class_body_end f) (St_Class f)))].
    - intros lx1 (G & _). apply g_ret. exact G.
    - cbn [n_item strip_statement]. f_equal. exact Ef.
  Qed.

  (** ** Switch *)
  Definition case_end (lx : lexer) : Prop := lx_token lx = T_Case \/ lx_token lx = T_Default \/ lx_token lx = T_BraceClose.
  Lemma case_end_follow s lx : case_end lx -> sfollow s lx.
  Proof. intros [H|[H|H]]; eapply follow_tok; try exact H; discriminate. Qed.
  Lemma p_case_body l : Forall (fun s => Stmt (n_item s)) l -> forall nl c (Q : list stmt_node * N -> lexer -> Prop) e,
    (forall ns e, sames_of strip_statement ns l -> pend true c (fun lx => Q (ns, e) lx /\ case_end lx)) ->
    pend nl (c_block_rest c_statement l ++ GDedent :: GNewLine :: c) (fun lx => gets (call (F_case_body e)) lx Q /\ (slead lx \/ case_end lx)).
  Proof.
    induction l as [|x l IH]; intros F nl c Q e H; cbn [c_block_rest]; flat.
    - apply pend_dedent, pend_newline. eapply pend_mono; [|apply (H [] e eq_refl)]. intros lx (G & CE). split; [|right; exact CE].
      apply g_call. cbn [body]. unfold body_case_body. apply g_bind, g_look.
      replace (is T_Case (view_of lx) || is T_Default (view_of lx) || is T_BraceClose (view_of lx))%bool with true; [apply g_ret; exact G|].
      unfold is. cbn [view_of v_token]. destruct CE as [->|[-> | ->]]; reflexivity.
    - inversion F as [|? ? SX F' E1]; subst. apply pend_newline.
      eapply pend_mono; [|apply (SX true _ (fun s lx => gets ('(ss, e') <- call (F_case_body (n_end s)) ;; Ret (s :: ss, e')) lx Q))].
      + intros lx (G & LX). split; [|left; exact LX]. apply g_call. cbn [body]. unfold body_case_body. apply g_bind, g_look.
        rewrite !is_false_ne by (apply slead_not; [reflexivity|exact LX]). cbn [orb]. apply g_bind. exact G.
      + intros n E. eapply pend_mono; [|apply (IH F' false c (fun r lx => Q (n :: fst r, snd r) lx) (n_end n))].
        * intros lx (G & LB). split; [|destruct LB; [apply slead_follow|apply case_end_follow]; assumption].
          apply g_bind. eapply gets_mono; [|exact G]. intros [ss e'] lx2 HQ. apply g_ret. exact HQ.
        * intros ns e' Es. cbn [fst snd]. apply H. apply sames_of_cons; assumption.
  Qed.
  Lemma p_case_items l : Forall (fun s => Stmt (n_item s)) l -> forall c (Q : list stmt_node * N -> lexer -> Prop) e,
    (forall ns e, sames_of strip_statement ns l -> pend true c (fun lx => Q (ns, e) lx /\ case_end lx)) ->
    pend false (c_items c_statement l ++ c) (fun lx => gets (call (F_case_body e)) lx Q).
  Proof.
    intros F c Q e H. destruct l as [|x l]; cbn [c_items]; flat.
    - eapply pend_weak. eapply pend_mono; [|apply (H [] e eq_refl)]. intros lx (G & CE).
      apply g_call. cbn [body]. unfold body_case_body. apply g_bind, g_look.
      replace (is T_Case (view_of lx) || is T_Default (view_of lx) || is T_BraceClose (view_of lx))%bool with true; [apply g_ret; exact G|].
      unfold is. cbn [view_of v_token]. destruct CE as [->|[-> | ->]]; reflexivity.
    - assert (G0 := p_case_body (x :: l) F false c Q e H). cbn [c_block_rest] in G0. revert G0. flat. intros G0.
      apply pend_indent. eapply pend_mono; [|exact G0]. intros lx (G & _). exact G.
  Qed.
  Definition CaseIn (x : switch_case) : Prop :=
    match x with SwitchCase t b => match t with Some t => Spec (n_item t) | None => True end /\ Forall (fun s => Stmt (n_item s)) b end.
  Definition case_lead (lx : lexer) : Prop := lx_token lx = T_Case \/ lx_token lx = T_Default.
  Definition case_fits (x : switch_case) : Prop := match x with SwitchCase (Some e) _ => 0 < ll (n_item e) | _ => True end.
  Definition Case (x : switch_case) : Prop := Item alnum I_Case c_case strip_case (fun _ => case_end) case_lead true x.
  Lemma case_reads x : case_fits x -> CaseIn x -> Case x.
  Proof.
    destruct x as [t b]. intros CF (ST & SB) nl c Q H. cbn [c_case].
    assert (B : forall s e t', option_map (strip_node strip_expression) t' = option_map (strip_node strip_expression) t ->
      pend false (c_items c_statement b ++ c) (fun lx => gets ('(consequent, e_end') <- call (F_case_body e) ;; Ret (Node s e_end' (SwitchCase t' consequent))) lx Q)).
    { intros s e t' Et. eapply pend_mono; [|apply (p_case_items b SB c (fun r lx => Q (Node s (snd r) (SwitchCase t' (fst r))) lx) e)].
      - intros lx G. apply g_bind. eapply gets_mono; [|exact G]. intros [ss e'] lx2 HQ. apply g_ret. exact HQ.
      - intros ns e' Es. cbn [fst snd]. apply H. cbn [n_item strip_case]. f_equal; [exact Et|exact Es]. }
    destruct t as [t|]; cbn [case_fits] in CF; flat.
    - apply (pend_kw_blank alnum nl (bs "case") (bs "case ") T_Case); [reflexivity|vm_compute; reflexivity|]. intros lx O.
      split; [|left; apply (on_token _ _ _ _ _ O)]. apply g_call. cbn [body body_item]. apply g_call. cbn [body]. unfold body_switch_case.
      apply g_bind, g_look. decide_is. apply g_bind, g_bind. eapply g_consume; [exact O|]. apply pend_blank.
      eapply (p_expr alnum (n_item t) CtxDefault BP_ANY); [exact ST|exact CF|htac| |].
      + intros lx1 G _. apply g_bind. exact G.
      + intros n E. tok lx1 O1. split; [|split; lv]. unfold get_end. apply g_ret, g_bind, g_bind, g_look, g_ret, g_bind. eapply g_expect; [exact O1|].
        apply B. cbn [option_map]. f_equal. apply same_node, E.
    - change (bs "default:") with (bs "default" ++ bs ":"). apply pend_split. kw lx O. split; [|right; apply (on_token _ _ _ _ _ O)].
      apply g_call. cbn [body body_item]. apply g_call. cbn [body]. unfold body_switch_case.
      apply g_bind, g_look. do 2 decide_is. apply g_bind, g_bind. eapply g_consume; [exact O|]. tok lx1 O1.
      unfold get_end. apply g_ret, g_bind, g_bind, g_look, g_ret, g_bind. eapply g_expect; [exact O1|]. apply B. reflexivity.
  Qed.
  Definition Cases (b : block switch_case) : Prop := Raw alnum I_Case c_case strip_case b.
  Lemma raw_cases b : Forall (fun x => Case (n_item x)) (b_body b) -> Cases b.
  Proof.
    intros F. unfold Cases, Raw. apply (p_raw_block alnum I_Case c_case strip_case (fun _ => case_end) case_lead true); [| | |exact F].
    - intros _ lx [H|H]; unfold case_end; auto.
    - intros _ lx H. unfold case_end. auto.
    - intros lx [H|H]; rewrite H; split; discriminate.
  Qed.
  Lemma stmt_switch d b : Spec (n_item d) -> 0 < ll (n_item d) -> Cases (n_item b) -> Stmt (St_Switch d b).
  Proof.
    intros S L HC nl c Q H. cbn [c_statement]. flat. kw lx O. split; [|eapply slead_on; [exact O|discriminate]].
    eapply g_statement_on; [exact O|reflexivity|]. cbn [body_stmt_handler]. apply g_call. cbn [body]. unfold body_switch.
    eapply (p_test d); [exact S|exact L|exact O|]. intros n s E.
    eapply pend_mono; [|apply (p_block alnum I_Case c_case strip_case (n_item b) HC false c (fun b' lx' => Q (Node s (n_end b') (St_Switch n b')) lx'))].
    - intros lx1 (G & _). apply g_bind. eapply gets_mono; [|exact G]. intros b' lx2 HQ. apply g_ret. exact HQ.
    - intros b' Eb. eapply pend_mono; [|apply H]; [intros lx1 (G & _); exact G|].
      cbn [n_item strip_statement]. f_equal; [apply same_node, E|]. unfold strip_node. now f_equal.
  Qed.

  (** ** Try *)
  Definition CatchIn (x : catch_clause) : Prop := match x with CatchClause p b => Pat alnum (n_item p) /\ Body (n_item b) end.
  Lemma stmt_try b h : Body (n_item b) -> CatchIn (n_item h) -> Stmt (St_Try b (Some h) None).
  Proof.
    intros HB HC nl c Q H. cbn [c_statement]. unfold c_node. destruct (n_item h) as [p cb] eqn:Eh. destruct HC as (HP & HCB). cbn [c_catch].
    unfold w, sp, c_node. rewrite <- ?app_assoc. cbn [app]. rewrite <- ?app_assoc. cbn [app]. rewrite <- ?app_assoc. cbn [app].
    apply (pend_kw alnum nl (bs "try") T_Try); [vm_compute; reflexivity|unfold c_block; flat; htac|]. intros lx O.
    split; [|eapply slead_on; [exact O|discriminate]].
    eapply g_statement_on; [exact O|reflexivity|]. cbn [body_stmt_handler]. apply g_call. cbn [body]. unfold body_try, start_then_consume.
    apply g_bind, g_bind, g_look, g_bind. eapply g_consume; [exact O|]. apply pend_sp.
    eapply pend_mono; [|apply (p_block alnum I_Statement c_statement strip_statement (n_item b) HB false)].
    { intros lx1 (G & _). apply g_ret, g_bind. exact G. }
    intros b' Eb.
    apply pend_sp. kw lx1 O1. apply g_bind, g_look. decide_is. apply g_bind, g_call. cbn [body]. unfold body_catch, start_then_consume.
    apply g_bind, g_bind, g_look, g_bind. eapply g_consume; [exact O1|]. apply pend_sp. tok lx2 O2. apply g_ret, g_bind. eapply g_expect; [exact O2|].
    eapply pend_mono; [|apply HP; [htac|]]. { intros lx3 (G & _). apply g_bind. exact G. }
    intros p' Ep. tok lx3 O3.
    apply g_bind. eapply g_expect; [exact O3|]. apply pend_sp.
    eapply pend_mono; [|apply (p_block alnum I_Statement c_statement strip_statement (n_item cb) HCB false)].
    { intros lx4 (G & _). apply g_bind. exact G. }
    intros cb' Ecb. cbn [app].
    match goal with |- pend _ _ (fun lx => _ _ (Ret ?h') _ _) => set (hh := h') end.
    eapply pend_mono; [|apply (H (Node (v_start (view_of lx)) (n_end hh) (St_Try b' (Some hh) None)))].
    - intros lx4 (G & NF & _). apply g_ret, g_bind, g_look. rewrite is_false_ne by exact NF. apply g_ret. exact G.
    - cbn [n_item strip_statement option_map]. f_equal; [unfold strip_node; now f_equal|]. f_equal. unfold strip_node. f_equal. rewrite Eh. cbn [hh n_item strip_catch].
      f_equal; unfold strip_node; now f_equal.
  Qed.
End Stmt.
