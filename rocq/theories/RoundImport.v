(** Reading back imports. *)
From Coq Require Import List NArith PeanoNat Bool String Lia.
From Coq.Strings Require Import Byte.
From Verif Require Import Bytes Token Tables Lexer SpecLexer SpecTokens SpecChunks SpecTree SpecUtf8 SpecHazard SpecPrec SpecRound
  Ast Prog Parser Codegen LexerFacts ConsumeFacts LexEval ProgFacts ParseFacts Structure Gets Foreign Levels Chain RoundBase RoundExpr RoundParts RoundProps RoundStmt.
Import ListNotations.
Open Scope nat_scope.
Open Scope list_scope.

Section Import.
  Variable alnum : N -> bool.
  Notation identifier_name := (identifier_name alnum).
  Notation gets := (gets alnum).
  Notation pend := (pend alnum).
  Notation Stmt := (Stmt alnum).

  Lemma g_identifier nl s c lx (Q : node str -> lexer -> Prop) : on nl T_Identifier s c lx ->
    (forall n, n_item n = s -> pend false c (fun lx' => Q n lx')) -> gets identifier_ lx Q.
  Proof.
    intros O H. unfold identifier_. apply g_bind, g_look. decide_is. apply g_bind. eapply g_consume; [exact O|].
    eapply pend_mono; [|apply (H (in_loc (view_of lx) (v_text (view_of lx))))].
    - intros lx1 G. apply g_ret. exact G.
    - cbn [in_loc n_item]. apply (text_of _ _ _ _ _ O).
  Qed.
  Lemma strip_id_eq (a b : node str) : n_item a = n_item b -> strip_id a = strip_id b.
  Proof. intros H. unfold strip_id, strip_node. now rewrite H. Qed.

  (** The source *)
  Lemma p_source nl src c (K : lexer -> Prop) : string_inside "'"%byte src ->
    (forall lx, on nl T_LiteralString ("'"%byte :: src ++ ["'"%byte]) c lx -> K lx) ->
    pend nl (GBytes (bs "'") :: GBytes src :: GBytes (bs "'") :: c) K.
  Proof.
    intros S H. apply pend_join, pend_join. rewrite <- app_assoc. apply pend_string; [|exact H]. exists "'"%byte, src. auto.
  Qed.
  Lemma unquote_quoted src : unquote ("'"%byte :: src ++ ["'"%byte]) = Ret src.
  Proof.
    unfold unquote. cbn [List.length tl]. rewrite app_length. cbn [List.length].
    replace (S (List.length src + 1) - 2) with (List.length src) by lia.
    replace (Nat.leb 2 (S (List.length src + 1))) with true by (symmetry; apply Nat.leb_le; lia).
    f_equal. rewrite firstn_app, Nat.sub_diag, firstn_all. apply app_nil_r.
  Qed.
  Definition import_end (start : N) (specs : list (node import_specifier)) : P stmt_node :=
    v <- look ;;
    (if (is T_Identifier v && str_eqb (v_text v) (bs "from"))%bool then consume_ else error_) ;;;
    v' <- look ;;
    source <- (if is T_LiteralString v' then unquote (v_text v') else error_ ;;; Ret []) ;;
    e_end <- end_then_consume ;;
    Ret (Node start e_end (St_Import specs source)).
  Lemma p_import_end start specs src nl c (Q : stmt_node -> lexer -> Prop) : string_inside "'"%byte src ->
    (forall e, pend false c (fun lx => Q (Node start e (St_Import specs src)) lx)) ->
    pend nl (GBytes (bs " from '") :: GBytes src :: GBytes (bs "'") :: c) (fun lx => gets (import_end start specs) lx Q /\ lx_token lx = T_Identifier).
  Proof.
    intros S H. change (bs " from '") with (bs " from " ++ bs "'"). apply pend_split. apply (pend_blank_split alnum nl (bs "from ")); [reflexivity|].
    apply (pend_kw_blank alnum nl (bs "from") (bs "from ") T_Identifier); [reflexivity|vm_compute; reflexivity|]. intros lx O.
    split; [|apply (on_token _ _ _ _ _ O)]. unfold import_end. apply g_bind, g_look. decide_is. rewrite (text_of _ _ _ _ _ O).
    change (str_eqb (bs "from") (bs "from")) with true. cbn [andb]. apply g_bind. eapply g_consume; [exact O|]. apply pend_blank.
    apply p_source; [exact S|]. intros lx1 O1. apply g_bind, g_look. decide_is. apply g_bind. rewrite (text_of _ _ _ _ _ O1), unquote_quoted. apply g_ret.
    unfold end_then_consume. apply g_bind, g_bind, g_look, g_bind. eapply g_consume; [exact O1|].
    eapply pend_mono; [|apply (H (v_end (view_of lx1)))]. intros lx2 G. apply g_ret, g_ret. exact G.
  Qed.

  (** Named specifiers *)
  Definition spec_fits (s : import_specifier) : Prop :=
    match s with
    | IS_Named i l => identifier_name (n_item i) /\ identifier_name (n_item l)
    | IS_Default l | IS_Namespace l => identifier_name (n_item l)
    end.
  Definition isames (ns xs : list (node import_specifier)) : Prop := map (strip_node strip_specifier) ns = map (strip_node strip_specifier) xs.
  Lemma isames_cons n ns x xs : strip_specifier (n_item n) = strip_specifier (n_item x) -> isames ns xs -> isames (n :: ns) (x :: xs).
  Proof. intros H1 H2. unfold isames. cbn [map]. f_equal; [|exact H2]. unfold strip_node. now f_equal. Qed.
  Definition named_rest (s : N) (name local : node str) : P (list (node import_specifier)) :=
    v2 <- look ;;
    let spec := Node s (v_end v2) (IS_Named name local) in
    if is T_Comma v2 then consume_ ;;; rest <- call F_import_specifiers ;; Ret (spec :: rest)
    else if is T_BraceClose v2 then consume_ ;;; Ret [spec]
    else error_ ;;; rest <- call F_import_specifiers ;; Ret (spec :: rest).
  Lemma p_named i l c Q : identifier_name (n_item i) -> identifier_name (n_item l) -> tail0 c ->
    (forall s name local, strip_id name = strip_id i -> strip_id local = strip_id l ->
       pend false c (fun lx => gets (named_rest s name local) lx Q /\ lx_token lx <> T_Identifier)) ->
    pend false (c_specifier (IS_Named i l) ++ c) (fun lx => gets (call F_import_specifiers) lx Q).
  Proof.
    intros HI HL T H. cbn [c_specifier]. destruct (str_eqb (n_item i) (n_item l)) eqn:EQ.
    - apply str_eqb_eq in EQ. flat. apply identifier_pend; [exact HI|exact T|]. intros lx O. apply g_call. cbn [body]. unfold body_import_specifiers.
      apply g_bind, g_look. decide_is. apply g_bind. eapply g_identifier; [exact O|]. intros n En. eapply pend_mono; [|apply (H (v_start (view_of lx)) n n)].
      + intros lx1 (G & NI). apply g_bind, g_look. rewrite is_false_ne by exact NI. cbn [andb]. apply g_bind, g_ret. exact G.
      + apply strip_id_eq, En.
      + apply strip_id_eq. congruence.
    - flat. apply identifier_pend; [exact HI|htac|]. intros lx O. apply g_call. cbn [body]. unfold body_import_specifiers.
      apply g_bind, g_look. decide_is. apply g_bind. eapply g_identifier; [exact O|]. intros n En.
      apply (pend_blank_split alnum false (bs "as ")); [reflexivity|].
      apply (pend_kw_blank alnum false (bs "as") (bs "as ") T_Identifier); [reflexivity|vm_compute; reflexivity|]. intros lx1 O1.
      apply g_bind, g_look. decide_is. rewrite (text_of _ _ _ _ _ O1). change (str_eqb (bs "as") (bs "as")) with true. cbn [andb].
      apply g_bind, g_bind. eapply g_consume; [exact O1|]. apply pend_blank. apply identifier_pend; [exact HL|exact T|]. intros lx2 O2.
      eapply g_identifier; [exact O2|]. intros m Em. eapply pend_mono; [|apply (H (v_start (view_of lx)) n m)]; [intros lx3 (G & _); exact G| |].
      + apply strip_id_eq, En.
      + apply strip_id_eq, Em.
  Qed.
  Definition named (s : node import_specifier) : Prop := is_named_specifier s = true.
  Lemma p_specifiers x l : Forall (fun s => named s /\ spec_fits (n_item s)) (x :: l) -> forall c (Q : list (node import_specifier) -> lexer -> Prop),
    (forall ns, isames ns (x :: l) -> pend false c (fun lx => Q ns lx)) ->
    pend false (c_list c_specifier (x :: l) ++ GBytes (bs "}") :: c) (fun lx => gets (call F_import_specifiers) lx Q).
  Proof.
    revert x. induction l as [|y l IH]; intros x F c Q H; inversion F as [|? ? (N1 & FX) F' E1]; subst; cbn [c_list c_list_rest]; unfold named, is_named_specifier in N1;
      destruct (n_item x) as [i lc| |] eqn:Ex; try discriminate N1; destruct FX as (HI & HL); unfold c_node; rewrite Ex; rewrite <- !app_assoc; cbn [app].
    - apply p_named; [exact HI|exact HL|htac|]. intros s name local E1 E2. tok lx O. split; [|rewrite (on_token _ _ _ _ _ O); discriminate].
      unfold named_rest. apply g_bind, g_look. do 2 decide_is. apply g_bind. eapply g_consume; [exact O|]. eapply pend_mono; [|apply H].
      + intros lx1 G. apply g_ret. exact G.
      + apply isames_cons; [|reflexivity]. cbn [n_item]. rewrite Ex. cbn [strip_specifier]. now f_equal.
    - apply p_named; [exact HI|exact HL|flat; htac|]. intros s name local E1 E2. flat. tok lx O. split; [|rewrite (on_token _ _ _ _ _ O); discriminate].
      unfold named_rest. apply g_bind, g_look. decide_is. apply g_bind. eapply g_consume; [exact O|]. apply pend_sp.
      assert (G0 := IH y F' c (fun ns lx1 => Q (Node s (v_end (view_of lx)) (IS_Named name local) :: ns) lx1)). cbn [c_list] in G0. unfold c_node in G0. rewrite <- app_assoc in G0.
      eapply pend_mono; [|apply G0].
      + intros lx1 G. apply g_bind. eapply gets_mono; [|exact G]. intros ns lx2 HQ. apply g_ret. exact HQ.
      + intros ns Es. apply H. apply isames_cons; [|exact Es]. cbn [n_item]. rewrite Ex. cbn [strip_specifier]. now f_equal.
  Qed.
  Lemma c_named_list l : Forall named l -> filter is_named_specifier l = l /\ filter (fun s => negb (is_named_specifier s)) l = [].
  Proof.
    induction 1 as [|x l H F (IH1 & IH2)]; [split; reflexivity|]. unfold named in H. cbn [filter]. rewrite H. cbn [negb]. split; [now f_equal|exact IH2].
  Qed.
  (** Specifiers after the default one: what is left of the statement. *)
  Lemma body_import_rest_eq start specs has_next : body_import_rest start specs has_next =
    (more <- (if has_next then
             v <- look ;;
             if is T_BraceOpen v then consume_ ;;; call F_import_specifiers
             else if is T_OperatorMultiplication v then
               consume_ ;;;
               v1 <- look ;;
               (if (is T_Identifier v1 && str_eqb (v_text v1) (bs "as"))%bool then consume_ else error_) ;;;
               local <- identifier_ ;;
               e_end <- get_end ;;
               Ret [Node (v_start v) e_end (IS_Namespace local)]
             else error_ ;;; Ret []
           else Ret []) ;; import_end start (specs ++ more)).
  Proof. reflexivity. Qed.
  Definition others (l : list (node import_specifier)) : code := w "{" ++ c_list c_specifier l ++ w "}".
  Lemma p_rest_named start specs x l src nl c Q : Forall (fun s => named s /\ spec_fits (n_item s)) (x :: l) -> string_inside "'"%byte src ->
    (forall ns e, isames ns (x :: l) -> pend false c (fun lx => Q (Node start e (St_Import (specs ++ ns) src)) lx)) ->
    pend nl (GBytes (bs "{") :: c_list c_specifier (x :: l) ++ GBytes (bs "}") :: GBytes (bs " from '") :: GBytes src :: GBytes (bs "'") :: c)
      (fun lx => gets (call (F_import_rest start specs true)) lx Q /\ lx_token lx = T_BraceOpen).
  Proof.
    intros F S H. tok lx O. split; [|apply (on_token _ _ _ _ _ O)]. apply g_call. cbn [body]. rewrite body_import_rest_eq. apply g_bind, g_bind, g_look. decide_is.
    apply g_bind. eapply g_consume; [exact O|]. apply p_specifiers; [exact F|]. intros ns Es.
    eapply pend_mono; [|apply (p_import_end start (specs ++ ns) src false c Q S)]; [intros lx1 (G & _); exact G|]. intros e. apply H, Es.
  Qed.
  Lemma p_rest_namespace start specs l src nl c Q : identifier_name (n_item l) -> string_inside "'"%byte src ->
    (forall n e, strip_specifier (n_item n) = strip_specifier (IS_Namespace l) -> pend false c (fun lx => Q (Node start e (St_Import (specs ++ [n]) src)) lx)) ->
    pend nl (c_specifier (IS_Namespace l) ++ GBytes (bs " from '") :: GBytes src :: GBytes (bs "'") :: c)
      (fun lx => gets (call (F_import_rest start specs true)) lx Q /\ lx_token lx = T_OperatorMultiplication).
  Proof.
    intros HI S H. cbn [c_specifier]. flat. change (bs "* as ") with (bs "*" ++ bs " as "). apply pend_split.
    apply (pend_punct alnum nl (bs "*") T_OperatorMultiplication); [apply punctuator_in; vm_compute; reflexivity|apply heads_bytes; reflexivity|].
    intros lx O. split; [|apply (on_token _ _ _ _ _ O)]. apply g_call. cbn [body]. rewrite body_import_rest_eq. apply g_bind, g_bind, g_look. do 2 decide_is.
    apply g_bind. eapply g_consume; [exact O|]. apply (pend_blank_split alnum false (bs "as ")); [reflexivity|].
    apply (pend_kw_blank alnum false (bs "as") (bs "as ") T_Identifier); [reflexivity|vm_compute; reflexivity|]. intros lx1 O1.
    apply g_bind, g_look. decide_is. rewrite (text_of _ _ _ _ _ O1). change (str_eqb (bs "as") (bs "as")) with true. cbn [andb].
    apply g_bind. eapply g_consume; [exact O1|]. apply pend_blank. apply identifier_pend; [exact HI|htac|]. intros lx2 O2.
    apply g_bind. eapply g_identifier; [exact O2|]. intros n En. unfold get_end.
    assert (E : forall a b, strip_specifier (n_item (Node a b (IS_Namespace n))) = strip_specifier (IS_Namespace l)) by (intros a b; cbn [n_item strip_specifier]; f_equal; apply strip_id_eq, En).
    eapply pend_mono; [|apply (pend_all alnum (fun m => exists a b, m = Node a b (IS_Namespace n)) _ _
      (fun m lx => gets (import_end start (specs ++ [m])) lx Q))].
    - intros lx3 G. apply g_bind, g_bind, g_look, g_ret, g_ret. apply G. eauto.
    - exists (Node 0%N 0%N (IS_Namespace n)). eauto.
    - intros m (a & b & ->). eapply pend_mono; [|apply (p_import_end start (specs ++ [Node a b (IS_Namespace n)]) src false c Q S)]; [intros lx3 (G & _); exact G|].
      intros e. apply H, E.
  Qed.
  Lemma stmt_import ss src : Forall (fun s => spec_fits (n_item s)) ss -> specifiers_fit ss -> string_inside "'"%byte src -> Stmt (St_Import ss src).
  Proof.
    intros F SF S nl c Q H. cbn [c_statement].
    assert (HQ : forall ns s e, isames ns ss -> pend false c (fun lx => Q (Node s e (St_Import ns src)) lx)).
    { intros ns s e E. eapply pend_mono; [|apply H]; [intros lx (G & _); exact G|]. cbn [n_item strip_statement]. f_equal. exact E. }
    clear H.
    assert (OPEN : forall k, (forall start, pend false k (fun lx => gets (v1 <- look ;;
        if is T_Identifier v1 then
          id <- identifier_ ;; v2 <- look ;;
          let spec := Node (v_start v1) (v_end v2) (IS_Default id) in
          if is T_Comma v2 then consume_ ;;; call (F_import_rest start [spec] true) else call (F_import_rest start [spec] false)
        else if is T_LiteralString v1 then source <- unquote (v_text v1) ;; consume_ ;;; Ret (in_loc v1 (St_Import [] source))
        else call (F_import_rest start [] true)) lx Q /\ lx_token lx <> T_Comma /\ lx_token lx <> T_ParenOpen)) ->
      pend nl (GBytes (bs "import ") :: k) (fun lx => gets (call F_statement) lx Q /\ slead lx)).
    { intros k HK. apply (pend_kw_blank alnum nl (bs "import") (bs "import ") T_Import); [reflexivity|vm_compute; reflexivity|]. intros lx O.
      split; [|eapply slead_on; [exact O|discriminate]]. eapply g_statement_on; [exact O|reflexivity|]. cbn [body_stmt_handler]. apply g_call. cbn [body].
      unfold body_import. apply g_bind, g_look, g_bind. eapply g_consume; [exact O|]. apply pend_blank. eapply pend_mono; [|apply (HK (v_start (view_of lx)))].
      intros lx1 (G & N1 & N2). apply look_inv in G. apply g_bind, g_look. rewrite (is_false_ne T_Comma lx1) by exact N1. rewrite (is_false_ne T_ParenOpen lx1) by exact N2.
      cbn [orb]. exact G. }
    assert (DEF : forall (l : node str) k, identifier_name (n_item l) -> tail0 k ->
      (forall start s id, strip_id id = strip_id l -> pend false k (fun lx => gets (v2 <- look ;;
          let spec := Node s (v_end v2) (IS_Default id) in
          if is T_Comma v2 then consume_ ;;; call (F_import_rest start [spec] true) else call (F_import_rest start [spec] false)) lx Q)) ->
      pend nl (GBytes (bs "import ") :: c_ident l ++ k) (fun lx => gets (call F_statement) lx Q /\ slead lx)).
    { intros l k HI T HK. apply OPEN. intros start. flat. apply identifier_pend; [exact HI|exact T|]. intros lx O.
      split; [|rewrite (on_token _ _ _ _ _ O); split; discriminate]. apply g_bind, g_look. decide_is. apply g_bind. eapply g_identifier; [exact O|]. intros n En.
      apply HK. apply strip_id_eq, En. }
    assert (NAM : forall x l, Forall (fun s => named s /\ spec_fits (n_item s)) (x :: l) ->  (forall ns, isames ns (x :: l) -> isames ns ss) ->
      pend nl (GBytes (bs "import ") :: GBytes (bs "{") :: c_list c_specifier (x :: l) ++ GBytes (bs "}") :: GBytes (bs " from '") :: GBytes src :: GBytes (bs "'") :: c)
        (fun lx => gets (call F_statement) lx Q /\ slead lx)).
    { intros x l FN ES. apply OPEN. intros start. eapply pend_mono; [|apply (p_rest_named start [] x l src false c Q FN S)].
      - intros lx (G & TK). split; [|rewrite TK; split; discriminate]. apply g_bind, g_look. rewrite !is_false_ne by (rewrite TK; discriminate). exact G.
      - intros ns e E. cbn [app]. apply HQ, ES, E. }
    assert (BOTH : forall l, Forall named l -> Forall (fun s => spec_fits (n_item s)) l -> Forall (fun s => named s /\ spec_fits (n_item s)) l).
    { intros l H1 H2. rewrite Forall_forall in *. auto. }
    destruct ss as [|x ss].
    - flat. apply OPEN. intros start. apply p_source; [exact S|]. intros lx O. split; [|rewrite (on_token _ _ _ _ _ O); split; discriminate].
      apply g_bind, g_look. do 2 decide_is. rewrite (text_of _ _ _ _ _ O), unquote_quoted. apply g_bind, g_ret, g_bind. eapply g_consume; [exact O|].
      eapply pend_mono; [|apply (HQ [])]; [intros lx1 G; apply g_ret; exact G|reflexivity].
    - assert (CASES : Forall named (x :: ss) \/ (exists l, n_item x = IS_Namespace l /\ ss = []) \/
        (exists l, n_item x = IS_Default l /\ (Forall named ss \/ exists y l', ss = [y] /\ n_item y = IS_Namespace l'))).
      { destruct ss as [|y ss]; cbn in SF.
        - destruct SF as [(l & E)|[(l & E)|E]]; [|right; left; eauto|left; exact E]. right; right. exists l. split; [exact E|left; constructor].
        - destruct SF as [E|((l & E) & [N|(z & Ez & (l' & El))])]; [left; exact E| |]; right; right; exists l; (split; [exact E|]); [left; exact N|right; eauto]. }
      destruct CASES as [N|[(l & Ex & ->)|(l & Ex & R)]].
      + destruct (c_named_list _ N) as (-> & ->). cbn [c_list app]. flat.
        assert (G := NAM x ss (BOTH _ N F) (fun _ E => E)). cbn [c_list] in G. unfold c_node in G. rewrite <- app_assoc in G. exact G.
      + assert (NX : is_named_specifier x = false) by (unfold is_named_specifier; rewrite Ex; reflexivity).
        cbn [filter]. rewrite NX. cbn [negb c_list c_list_rest]. unfold c_node. rewrite Ex. flat. rewrite ?app_nil_r. inversion F as [|? ? FX _ E1]; subst. rewrite Ex in FX. cbn [spec_fits] in FX.
        apply OPEN. intros start. eapply pend_mono; [|apply (p_rest_namespace start [] l src false c Q FX S)].
        * intros lx (G & TK). split; [|rewrite TK; split; discriminate]. apply g_bind, g_look. rewrite !is_false_ne by (rewrite TK; discriminate). exact G.
        * intros n e E. cbn [app]. apply HQ. apply isames_cons; [|reflexivity]. now rewrite Ex.
      + assert (NX : is_named_specifier x = false) by (unfold is_named_specifier; rewrite Ex; reflexivity).
        inversion F as [|? ? FX FS E1]; subst. rewrite Ex in FX. cbn [spec_fits] in FX.
        assert (EX : forall s e id, strip_id id = strip_id l -> strip_specifier (n_item (Node s e (IS_Default id))) = strip_specifier (n_item x)).
        { intros s e id E. rewrite Ex. cbn [n_item strip_specifier]. now f_equal. }
        cbn [filter]. rewrite NX. cbn [negb].
        destruct R as [N|(y & l' & -> & Ey)].
        * destruct (c_named_list _ N) as (-> & ->). cbn [c_list c_list_rest]. unfold c_node. rewrite Ex, app_nil_r. destruct ss as [|y ss].
          -- cbn [app c_specifier]. rewrite <- ?app_assoc. cbn [app]. rewrite <- ?app_assoc. apply DEF; [exact FX|flat; htac|]. intros start s id E. flat.
             eapply pend_mono; [|apply (pend_all alnum (fun m => exists a b, m = Node a b (IS_Default id)) _ _ (fun m lx => gets (import_end start [m]) lx Q /\ lx_token lx = T_Identifier))].
             ++ intros lx G. apply g_bind, g_look. destruct (G (Node 0%N 0%N (IS_Default id)) ltac:(eauto)) as (_ & TK). rewrite is_false_ne by (rewrite TK; discriminate).
                apply g_call. cbn [body]. rewrite body_import_rest_eq. apply g_bind, g_ret. cbn [app]. apply G. eauto.
             ++ exists (Node 0%N 0%N (IS_Default id)). eauto.
             ++ intros m (a & b & ->). apply p_import_end; [exact S|]. intros e. apply HQ. apply isames_cons; [apply EX, E|reflexivity].
          -- cbn [app c_specifier w]. rewrite <- ?app_assoc. cbn [app]. apply DEF; [exact FX|flat; htac|]. intros start s id E. flat. tok lx O.
             apply g_bind, g_look. decide_is. apply g_bind. eapply g_consume; [exact O|].
             assert (G0 := p_rest_named start [Node s (v_end (view_of lx)) (IS_Default id)] y ss src false c Q (BOTH _ N FS) S).
             eapply pend_mono; [|apply G0]; [intros lx1 (G & _); exact G|]. intros ns e En. apply HQ. cbn [app]. apply isames_cons; [apply EX, E|exact En].
        * assert (NY : is_named_specifier y = false) by (unfold is_named_specifier; rewrite Ey; reflexivity).
          cbn [filter]. rewrite NY. cbn [negb c_list c_list_rest app]. unfold c_node. rewrite Ex, Ey. cbn [c_specifier w app]. rewrite <- ?app_assoc. cbn [app].
          inversion FS as [|? ? FY _ E2]; subst. rewrite Ey in FY. cbn [spec_fits] in FY.
          apply DEF; [exact FX|flat; htac|]. intros start s id E. flat. tok lx O. apply g_bind, g_look. decide_is. apply g_bind. eapply g_consume; [exact O|].
          apply pend_sp. assert (G0 := p_rest_namespace start [Node s (v_end (view_of lx)) (IS_Default id)] l' src false c Q FY S). revert G0. cbn [c_specifier]. flat. intros G0.
          eapply pend_mono; [|apply G0]; [intros lx1 (G & _); exact G|]. intros n e En. apply HQ. cbn [app]. apply isames_cons; [apply EX, E|]. apply isames_cons; [|reflexivity]. now rewrite Ey.
  Qed.
End Import.
