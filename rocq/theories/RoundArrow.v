(** Reading back arrow functions. *)
From Coq Require Import List NArith PeanoNat Bool String Lia.
From Coq.Strings Require Import Byte.
From Verif Require Import Bytes Token Tables Lexer SpecLexer SpecTokens SpecChunks SpecTree SpecUtf8 SpecHazard SpecPrec SpecRound
  Ast Prog Parser Codegen LexerFacts ConsumeFacts LexEval ProgFacts ParseFacts Structure Gets Foreign Levels Chain RoundBase RoundExpr RoundParts.
Import ListNotations.
Open Scope nat_scope.
Open Scope list_scope.

Section Arrow.
  Variable alnum : N -> bool.
  Notation identifier_name := (identifier_name alnum).
  Notation gets := (gets alnum).
  Notation pend := (pend alnum).
  Notation Spec := (Spec alnum).

  Definition AParam (p : pattern) : Prop :=
    match p with
    | Pat_Identifier s => identifier_name s
    | Pat_Assign l r =>
        match n_item l with Pat_Identifier s => identifier_name s | _ => False end /\
        Spec (n_item r) /\ First (n_item r) /\ element (n_item r)
    | _ => False
    end.
  (** The expression a parameter is read as. *)
  Definition param_of (n : expr_node) (p : pattern) : Prop :=
    match p with
    | Pat_Identifier s => n_item n = E_Identifier s
    | Pat_Assign l r =>
        exists l' r', n_item n = E_Binary O_Assign l' r' /\ same r' (n_item r) /\
          match n_item l with Pat_Identifier s => n_item l' = E_Identifier s | _ => False end
    | _ => False
    end.
  Lemma param_not_sequence n p : param_of n p -> forall es, n_item n <> E_Sequence es.
  Proof. destruct p; cbn [param_of]; try tauto; [congruence|]. intros (l' & r' & E & _) es. congruence. Qed.

  Lemma g_identifier s nl c ctx b lx Q : on nl T_Identifier s c lx ->
    (forall n, n_item n = E_Identifier s -> pend false c (fun lx => gets (body_nested b n) lx Q)) ->
    gets (body_expression ctx b) lx Q.
  Proof.
    intros O H. eapply g_expression; [apply (on_token _ _ _ _ _ O)|reflexivity|discriminate|].
    cbn [body_expr_handler]. unfold token_expression. apply g_bind, g_look, g_bind. eapply g_consume; [exact O|].
    eapply pend_mono; [intros lx1 G; apply g_ret; exact G|]. apply H. cbn [in_loc n_item]. now rewrite (text_of _ _ _ _ _ O).
  Qed.
  Lemma p_aparam p ctx b nl c Q : AParam p -> level b <= 1 -> tail c ->
    (forall n, param_of n p -> pend false c (fun lx => gets (body_nested b n) lx Q /\ tlevel (lx_token lx) <= 1)) ->
    pend nl (c_pattern p ++ c) (fun lx => gets (body_expression ctx b) lx Q /\ lx_token lx = T_Identifier).
  Proof.
    intros AP L T H. destruct p as [|s|?|?|?|l r]; try (exfalso; exact AP); cbn [c_pattern AParam] in *; flat.
    - apply identifier_pend; [exact AP|apply tail_tail0, T|]. intros lx O. split; [|apply (on_token _ _ _ _ _ O)].
      eapply g_identifier; [exact O|]. intros n En. eapply pend_mono; [|apply (H n En)]. intros lx1 (G & _). exact G.
    - cbn [AParam] in AP. destruct (n_item l) as [|s|?|?|?|? ?] eqn:El; try (destruct AP; tauto). destruct AP as (HI & S & F & EL1 & EL2).
      cbn [c_pattern]. flat. apply identifier_pend; [exact HI|htac|]. intros lx O. split; [|apply (on_token _ _ _ _ _ O)].
      eapply g_identifier; [exact O|]. intros n En. apply pend_sp. apply p_assign; [exact F|lia|]. intros lx1 O1.
      destruct (assign_nested O_Assign T_OperatorAssign b eq_refl) as (h & Hh & Hb); [cbn; auto|cbn [olevel operator_bp]; lia|].
      eapply (g_nested alnum b n lx1 h); [rewrite (on_token _ _ _ _ _ O1); exact Hh|right; rewrite (on_token _ _ _ _ _ O1); split; discriminate|].
      rewrite Hb. unfold assign_handler. apply g_bind. eapply g_consume; [exact O1|]. apply pend_sp.
      eapply (p_expr alnum (n_item r) CtxDefault BP_B1); [exact S|exact EL1|exact T| |].
      + intros lx2 G _. apply g_bind. rewrite En. cbn [is_lvalue]. apply g_ret, g_bind. exact G.
      + intros m Em. eapply pend_mono; [|apply (H (Node (n_start n) (n_end m) (E_Binary O_Assign n m)))].
        * intros lx2 (G & LV). split; [apply g_ret; exact G|cbn [level]; lia].
        * cbn [param_of n_item]. exists n, m. rewrite El. auto.
  Qed.
  Lemma p_aparams_rest ps : Forall (fun p => AParam (n_item p)) ps ->
    forall c (Q : list expr_node -> lexer -> Prop), tail c ->
    (forall ns, Forall2 (fun n p => param_of n (n_item p)) ns ps -> pend false c (fun lx => Q ns lx /\ tlevel (lx_token lx) = 0)) ->
    pend false (c_list_rest c_pattern ps ++ c) (fun lx => gets (call F_sequence) lx Q /\ tlevel (lx_token lx) <= 1).
  Proof.
    induction ps as [|p ps IH]; intros F c Q T H; cbn [c_list_rest]; flat.
    - eapply pend_mono; [|apply (H []); constructor]. intros lx (G & LV). split; [|lia].
      apply g_call. cbn [body]. unfold body_sequence. apply g_bind, g_look. rewrite is_false_ne by (intros E; rewrite E in LV; discriminate).
      apply g_ret. exact G.
    - inversion F as [|? ? AP F' E1]; subst. tok lx O. split; [|lv].
      apply g_call. cbn [body]. unfold body_sequence. apply g_bind, g_look. decide_is.
      apply g_bind. eapply g_consume; [exact O|]. apply pend_sp.
      eapply pend_mono; [|apply (p_aparam (n_item p) CtxDefault BP_B0 false _ (fun n lx => gets (es <- call F_sequence ;; Ret (n :: es)) lx Q) AP)].
      + intros lx1 (G & _). apply g_bind, g_call. exact G.
      + cbn [level]. lia.
      + apply list_rest_tail, T.
      + intros n E. eapply pend_mono; [|apply (IH F' c (fun ns lx => Q (n :: ns) lx) T)].
        * intros lx1 (G & LV). split; [|exact LV]. apply nested_stop; [cbn [level]; lia|].
          apply g_bind. eapply gets_mono; [|exact G]. intros ns lx2 HQ. apply g_ret. exact HQ.
        * intros ns Es. apply H. constructor; assumption.
  Qed.
  Definition seq_items (n : expr_node) : list expr_node := match n_item n with E_Sequence es => es | _ => [n] end.
  Lemma p_aparams p ps c (Q : expr_node -> lexer -> Prop) : Forall (fun p => AParam (n_item p)) (p :: ps) ->
    (forall n lx, Forall2 (fun n p => param_of n (n_item p)) (seq_items n) (p :: ps) -> on false T_ParenClose (bs ")") c lx -> Q n lx) ->
    pend false (c_list c_pattern (p :: ps) ++ GBytes (bs ")") :: c) (fun lx => gets (call (F_expression CtxDefault BP_ANY)) lx Q /\ lx_token lx = T_Identifier).
  Proof.
    intros F H. cbn [c_list]. inversion F as [|? ? AP F' E1]; subst. flat.
    eapply pend_mono; [|apply (p_aparam (n_item p) CtxDefault BP_ANY false _ Q AP)].
    - intros lx (G & TK). split; [|exact TK]. apply g_call. exact G.
    - cbn [level]. lia.
    - apply list_rest_tail. htac.
    - intros n E. destruct ps as [|p2 ps]; cbn [c_list_rest]; flat.
      + tok lx O. split; [|lv]. apply nested_stop; [lv|]. apply H; [|exact O]. unfold seq_items.
        assert (NS := param_not_sequence _ _ E). destruct (n_item n) eqn:En; try (constructor; [exact E|constructor]). exfalso. eapply NS. reflexivity.
      + inversion F' as [|? ? AP2 F2 E1]; subst. tok lx O. split; [|lv].
        eapply (g_nested alnum BP_ANY n lx N_SEQ); [rewrite (on_token _ _ _ _ _ O); reflexivity|right; rewrite (on_token _ _ _ _ _ O); split; discriminate|].
        cbn [body_nested_handler]. apply g_bind. eapply g_consume; [exact O|]. apply pend_sp.
        eapply pend_mono; [|apply (p_aparam (n_item p2) CtxDefault BP_B0 false _ (fun m lx => gets
           (es <- call F_sequence ;; e_end <- get_end ;; Ret (Node (n_start n) e_end (E_Sequence (n :: m :: es)))) lx (fun n' lx' => gets (body_nested BP_ANY n') lx' Q)) AP2)].
        * intros lx1 (G & _). apply g_bind, g_call. exact G.
        * cbn [level]. lia.
        * apply list_rest_tail. htac.
        * intros m Em.
          eapply pend_mono; [|apply (p_aparams_rest ps F2 (GBytes (bs ")") :: c) (fun ns lx => on false T_ParenClose (bs ")") c lx /\ Forall2 (fun n p => param_of n (n_item p)) ns ps))].
          -- intros lx1 (G & LV). split; [|exact LV]. apply nested_stop; [cbn [level]; lia|].
             apply g_bind. eapply gets_mono; [|exact G]. intros ns lx2 (O2 & Es). unfold get_end. apply g_bind, g_bind, g_look, g_ret, g_ret.
             apply nested_stop; [lv|]. apply H; [|exact O2]. cbn [seq_items n_item]. constructor; [exact E|constructor; assumption].
          -- htac.
          -- intros ns Es. tok lx1 O1. split; [split; [exact O1|exact Es]|lv].
  Qed.

  Lemma g_pattern_from n p lx (Q : node pattern -> lexer -> Prop) : param_of n p ->
    (forall q, strip_pattern (n_item q) = strip_pattern p -> Q q lx) -> gets (call (F_pattern_from_expression n)) lx Q.
  Proof.
    intros E H. apply g_call. cbn [body]. unfold body_pattern_from_expression. destruct p as [|s|?|?|?|l r]; try (exfalso; exact E); cbn [param_of] in E.
    - rewrite E. apply g_bind, g_ret, g_ret. apply H. reflexivity.
    - destruct E as (l' & r' & E & Er & El). rewrite E. apply g_bind, g_bind. destruct (n_item l) as [|s|?|?|?|? ?] eqn:Hl; try tauto.
      apply g_call. cbn [body]. unfold body_pattern_from_expression. rewrite El. apply g_bind, g_ret, g_ret, g_ret, g_ret. apply H.
      cbn [n_item strip_pattern]. f_equal; [|apply same_node, Er]. unfold strip_node. now rewrite Hl.
  Qed.
  Lemma g_params_from ns ps : Forall2 (fun n p => param_of n (n_item p)) ns ps -> forall lx (Q : list (node pattern) -> lexer -> Prop),
    (forall qs, psames qs ps -> Q qs lx) -> gets (call (F_params_from_expressions ns)) lx Q.
  Proof.
    induction 1 as [|n p ns ps E _ IH]; intros lx Q H; apply g_call; cbn [body body_params_from_expressions].
    - apply g_ret. apply H. reflexivity.
    - apply g_bind. eapply g_pattern_from; [exact E|]. intros q Eq. apply g_bind. apply IH. intros qs Es. apply g_ret. apply H. apply psames_cons; assumption.
  Qed.

  Definition ABody (b : arrow_body) : Prop :=
    match b with AB_Expression x => Spec (n_item x) | AB_Block b => Body alnum (n_item b) end.
  Definition abody_fits (b : arrow_body) : Prop :=
    match b with AB_Expression x => 1 < ll (n_item x) /\ starts_object (n_item x) = false | AB_Block _ => True end.
  Lemma p_arrow ns ps b c (Q : expression -> lexer -> Prop) : Forall2 (fun n p => param_of n (n_item p)) ns ps -> abody_fits b -> ABody b -> tail c ->
    (forall e, strip_expression e = strip_expression (E_Arrow ps b) -> pend false c (fun lx => Q e lx /\ tlevel (lx_token lx) <= rl (E_Arrow ps b))) ->
    pend false (GPretty x20 :: c_arrow_body b ++ c) (fun lx => gets (call (F_arrow ns)) lx Q).
  Proof.
    intros PS AF AB T H. apply pend_sp. destruct b as [x|bl]; cbn [c_arrow_body abody_fits ABody rl] in *; flat.
    - destruct AF as (L & SO).
      assert (G0 : pend false (c_expression (n_item x) ++ c) (fun lx => gets (call (F_expression CtxDefault BP_B0)) lx
         (fun e lx' => forall qs, psames qs ps -> Q (E_Arrow qs (AB_Expression e)) lx') /\ lead (leftmost (n_item x)) false lx)).
      { eapply (p_expr alnum (n_item x) CtxDefault BP_B0); [exact AB|exact L|exact T|intros lx G LD; split; [exact G|exact LD]|].
        intros n E. eapply pend_mono; [|apply (pend_all alnum (fun e => strip_expression e = strip_expression (E_Arrow ps (AB_Expression x))) _ _ _ (ex_intro _ _ eq_refl) H)].
        intros lx G.
        assert (EE : forall qs, psames qs ps -> strip_expression (E_Arrow qs (AB_Expression n)) = strip_expression (E_Arrow ps (AB_Expression x))).
        { intros qs Es. cbn [strip_expression strip_arrow_body]. f_equal; [exact Es|]. f_equal. apply same_node, E. }
        split; [intros qs Es; apply (G _ (EE qs Es))|]. destruct (G _ (EE ps eq_refl)) as (_ & LV). cbn [level]. lia. }
      eapply pend_mono; [|exact G0]. intros lx (G & LD). apply g_call. cbn [body]. unfold body_arrow. apply g_bind. eapply g_params_from; [exact PS|].
      intros qs Es. apply g_bind, g_look. rewrite is_false_ne.
      + apply g_bind. eapply gets_mono; [|exact G]. intros e lx1 HQ. apply g_ret. apply HQ, Es.
      + intros TK. destruct LD as (_ & OP & _). rewrite TK in OP. cbn [opening] in OP. unfold starts_object in SO. destruct (leftmost (n_item x)); try tauto. discriminate.
    - eapply pend_mono; [|apply (p_block alnum I_Statement c_statement strip_statement (n_item bl) AB false c (fun b' lx => forall qs, psames qs ps -> Q (E_Arrow qs (AB_Block b')) lx))].
      + intros lx (_ & G & TK). apply g_call. cbn [body]. unfold body_arrow. apply g_bind. eapply g_params_from; [exact PS|].
        intros qs Es. apply g_bind, g_look. rewrite (is_true_eq T_BraceOpen lx TK). apply g_bind. eapply gets_mono; [|exact G]. intros e lx1 HQ. apply g_ret. apply HQ, Es.
      + intros b' Eb. eapply pend_mono; [|apply (pend_all alnum (fun e => strip_expression e = strip_expression (E_Arrow ps (AB_Block bl))) _ _ _ (ex_intro _ _ eq_refl) H)].
        intros lx G qs Es. apply (G (E_Arrow qs (AB_Block b'))). cbn [strip_expression strip_arrow_body]. f_equal; [exact Es|]. f_equal. unfold strip_node. f_equal. exact Eb.
  Qed.

  Lemma spec_arrow ps b : Forall (fun p => AParam (n_item p)) ps -> abody_fits b -> ABody b -> Spec (E_Arrow ps b).
  Proof.
    intros AP AF AB ctx bp nl c Q L T H.
    assert (T' : tail c) by exact T.
    (* the arrow and the body, after the parameters *)
    assert (AR : forall ns (Q0 : expression -> lexer -> Prop), Forall2 (fun n p => param_of n (n_item p)) ns ps ->
      (forall e lx, (forall s e_end, gets (body_nested bp (Node s e_end e)) lx Q) -> Q0 e lx) ->
      pend false (GPretty x20 :: c_arrow_body b ++ c) (fun lx => gets (call (F_arrow ns)) lx Q0)).
    { intros ns Q0 PS HQ. apply (p_arrow ns ps b c Q0 PS AF AB T'). intros e E.
      eapply pend_mono; [|apply (pend_all alnum (fun m => same m (E_Arrow ps b)) _ _ _ (ex_intro _ (Node 0%N 0%N (E_Arrow ps b)) eq_refl) H)].
      intros lx G. split; [apply HQ; intros s e_end; apply (G (Node s e_end e)); exact E|]. apply (G (Node 0%N 0%N e)). exact E. }
    assert (NE : forall n, Forall2 (fun n p => param_of n (n_item p)) (seq_items n) ps ->
      pend false (GPretty x20 :: GBytes (bs "=>") :: GPretty x20 :: c_arrow_body b ++ c) (fun lx => gets (body_nested bp n) lx Q)).
    { intros n PS. apply pend_sp. tok lx O. eapply g_nested_on; [exact O|intros b'; destruct b'; reflexivity|discriminate|discriminate|].
      cbn [body_nested_handler]. apply g_bind. eapply g_consume; [exact O|]. eapply pend_mono; [intros lx1 G; apply g_bind; exact G|].
      apply (AR (seq_items n)); [exact PS|]. intros e lx1 G. unfold get_end. apply g_bind, g_bind, g_look, g_ret, g_ret. apply G. }
    assert (PR : pend nl (GBytes (bs "(") :: c_list c_pattern ps ++ GBytes (bs ")") :: GPretty x20 :: GBytes (bs "=>") :: GPretty x20 :: c_arrow_body b ++ c)
      (fun lx => gets (body_expression ctx bp) lx Q /\ lead (E_Arrow ps b) nl lx)).
    { tok lx O. split; [|eapply lead_on; [exact O|discriminate|exact I]].
      eapply g_expression; [apply (on_token _ _ _ _ _ O)|reflexivity|discriminate|].
      cbn [body_expr_handler]. apply g_call. cbn [body]. unfold body_paren, start_then_consume. apply g_bind, g_bind, g_look, g_bind.
      eapply g_consume; [exact O|]. destruct ps as [|p ps].
      - cbn [c_list app]. tok lx1 O1. apply g_ret, g_bind, g_look. decide_is. apply g_bind. eapply g_consume; [exact O1|].
        apply pend_sp. tok lx2 O2. apply g_bind. eapply g_expect; [exact O2|].
        eapply pend_mono; [intros lx3 G; apply g_bind; exact G|]. apply (AR []); [constructor|].
        intros e lx3 G. unfold get_end. apply g_bind, g_bind, g_look, g_ret, g_ret. apply G.
      - eapply pend_mono; [|apply (p_aparams p ps _ (fun n lx => gets (expect T_ParenClose ;;; Ret n) lx (fun l lx' => gets (body_nested bp l) lx' Q)) AP)].
        + intros lx1 (G & TK). apply g_ret, g_bind, g_look. rewrite is_false_ne by (rewrite TK; discriminate). apply g_bind. exact G.
        + intros n lx1 PS O1. apply g_bind. eapply g_expect; [exact O1|]. eapply pend_mono; [|apply (NE n PS)]. intros lx2 G. apply g_ret. exact G. }
    cbn [c_expression leftmost]. unfold c_node in *. unfold w, sp in *. cbn [app] in *.
    destruct ps as [|p [|p2 ps]].
    1,3: rewrite <- !app_assoc; cbn [app]; rewrite <- !app_assoc; exact PR.
    destruct (n_item p) as [|s|?|?|?|? ?] eqn:Ep; try (rewrite <- !app_assoc; cbn [app]; rewrite <- !app_assoc; exact PR).
    unfold wstr. cbn [app]. inversion AP as [|? ? AP1 _ E1]; subst. rewrite Ep in AP1. cbn [AParam] in AP1.
    apply identifier_pend; [exact AP1|htac|]. intros lx O. split; [|eapply lead_on; [exact O|discriminate|exact I]].
    eapply g_identifier; [exact O|]. intros n En. apply NE. unfold seq_items. rewrite En. constructor; [|constructor]. rewrite Ep. exact En.
  Qed.
End Arrow.
