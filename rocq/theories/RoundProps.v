(** Reading back properties, objects, classes and arrow functions. *)
From Coq Require Import List NArith PeanoNat Bool String Lia.
From Coq.Strings Require Import Byte.
From Verif Require Import Bytes Token Tables Lexer SpecLexer SpecTokens SpecChunks SpecTree SpecUtf8 SpecHazard SpecPrec SpecRound
  Ast Prog Parser Codegen LexerFacts ConsumeFacts LexEval ProgFacts ParseFacts Structure Gets Foreign Levels Chain RoundBase RoundExpr RoundParts.
Import ListNotations.
Open Scope nat_scope.
Open Scope list_scope.

Section Props.
  Variable alnum : N -> bool.
  Notation name_ok := (name_ok alnum).
  Notation optional_name := (optional_name alnum).
  Notation key_word := (key_word alnum).
  Notation property_key_fits := (property_key_fits alnum).
  Notation member_key_fits := (member_key_fits alnum).
  Notation is_word_key := (is_word_key alnum).
  Notation member_fits := (member_fits alnum).
  Notation property_fits := (property_fits alnum).
  Notation gets := (gets alnum).
  Notation pend := (pend alnum).
  Notation Spec := (Spec alnum).
  Notation Key := (Key alnum).
  Notation Method := (Method alnum).

  (** ** Properties *)
  Definition after_prop (lx : lexer) : Prop := lx_token lx = T_Comma \/ lx_token lx = T_BraceClose.
  Lemma after_prop_level lx : after_prop lx -> tlevel (lx_token lx) <= 1.
  Proof. intros [-> | ->]; cbn; lia. Qed.
  Definition PropS (p : property) : Prop :=
    forall nl c Q, tail c -> (forall n, strip_property (n_item n) = strip_property p -> pend false c (fun lx => Q n lx /\ after_prop lx)) ->
      pend nl (c_property p ++ c) (fun lx => gets (call F_property) lx Q /\ lx_token lx <> T_BraceClose).
  Definition same_key (kn : node property_key) (k : property_key) : Prop := strip_property_key (n_item kn) = strip_property_key k.
  Lemma is_word_not lx t : is_word t = false -> is_word (lx_token lx) = true -> lx_token lx <> t.
  Proof. congruence. Qed.

  Lemma p_property_key k nl c Q : property_key_fits k -> Key k -> tail c ->
    (forall start kn, same_key kn k -> pend false c (fun lx => gets (call (F_property_value start kn)) lx Q /\ (lx_token lx = T_Colon \/ lx_token lx = T_ParenOpen))) ->
    pend nl (c_key k ++ c) (fun lx => gets (call F_property) lx Q /\ lx_token lx <> T_BraceClose).
  Proof.
    intros KF KS T H. destruct k as [e|s|s]; cbn [c_key property_key_fits] in *; flat.
    - tok lx O. split; [|rewrite (on_token _ _ _ _ _ O); discriminate].
      apply g_call. cbn [body]. unfold body_property. apply g_bind, g_look.
      assert (is_word (v_token (view_of lx)) = false) as -> by (cbn [view_of v_token]; now rewrite (on_token _ _ _ _ _ O)).
      do 5 decide_is. cbn [orb]. apply g_bind. eapply g_consume; [exact O|].
      eapply (p_expr alnum (n_item e) CtxDefault BP_ANY); [exact KS|exact KF|htac| |].
      + intros lx1 G _. apply g_bind. exact G.
      + intros n E. tok lx1 O1. split; [|split; lv]. unfold get_end. apply g_bind, g_bind, g_look, g_ret, g_bind.
        eapply g_expect; [exact O1|]. eapply pend_mono; [|apply (H (v_start (view_of lx)) (Node (v_start (view_of lx)) (v_end (view_of lx1)) (Key_Computed n)))].
        * intros lx2 (G & _). exact G.
        * unfold same_key. cbn [n_item strip_property_key]. f_equal. apply same_node, E.
    - destruct KF as [KW|[KQ|(more & KN)]].
      + apply key_pend; [apply KW|apply tail_tail0, T|]. intros lx O.
        assert (W : is_word (lx_token lx) = true) by (rewrite (on_token _ _ _ _ _ O); apply (key_word_is alnum), KW).
        split; [|apply is_word_not; auto]. apply g_call. cbn [body]. unfold body_property. apply g_bind, g_look.
        cbn [view_of v_token]. rewrite W. fold (view_of lx). apply g_bind. eapply g_consume; [exact O|].
        eapply pend_mono; [|apply (H (v_start (view_of lx)) (in_loc (view_of lx) (Key_Literal (v_text (view_of lx)))))].
        * intros lx1 (G & TK). apply g_bind, g_look.
          replace (is T_Colon (view_of lx1) || is T_ParenOpen (view_of lx1))%bool with true; [exact G|].
          unfold is. cbn [view_of v_token]. destruct TK as [-> | ->]; reflexivity.
        * unfold same_key. cbn [in_loc n_item]. now rewrite (text_of _ _ _ _ _ O).
      + apply pend_string; [exact KQ|]. intros lx O. split; [|rewrite (on_token _ _ _ _ _ O); discriminate].
        apply g_call. cbn [body]. unfold body_property. apply g_bind, g_look.
        assert (is_word (v_token (view_of lx)) = false) as -> by (cbn [view_of v_token]; now rewrite (on_token _ _ _ _ _ O)).
        do 2 decide_is. cbn [orb]. apply g_bind. eapply g_consume; [exact O|].
        eapply pend_mono; [|apply (H (v_start (view_of lx)) (in_loc (view_of lx) (Key_Literal (v_text (view_of lx)))))].
        * intros lx1 (G & _). exact G.
        * unfold same_key. cbn [in_loc n_item]. now rewrite (text_of _ _ _ _ _ O).
      + apply (number_pend alnum nl s _ more _ _ KN T). intros lx O. split; [|rewrite (on_token _ _ _ _ _ O); discriminate].
        apply g_call. cbn [body]. unfold body_property. apply g_bind, g_look.
        assert (is_word (v_token (view_of lx)) = false) as -> by (cbn [view_of v_token]; now rewrite (on_token _ _ _ _ _ O)).
        do 3 decide_is. cbn [orb]. apply g_bind. eapply g_consume; [exact O|].
        eapply pend_mono; [|apply (H (v_start (view_of lx)) (in_loc (view_of lx) (Key_Literal (v_text (view_of lx)))))].
        * intros lx1 (G & _). exact G.
        * unfold same_key. cbn [in_loc n_item]. now rewrite (text_of _ _ _ _ _ O).
    - destruct KF as (more & KN). apply (number_pend alnum nl s _ more _ _ KN T). intros lx O. split; [|rewrite (on_token _ _ _ _ _ O); discriminate].
      apply g_call. cbn [body]. unfold body_property. apply g_bind, g_look.
      assert (is_word (v_token (view_of lx)) = false) as -> by (cbn [view_of v_token]; now rewrite (on_token _ _ _ _ _ O)).
      do 4 decide_is. cbn [orb]. apply g_bind. eapply g_consume; [exact O|].
      eapply pend_mono; [|apply (H (v_start (view_of lx)) (in_loc (view_of lx) (Key_Binary (v_text (view_of lx)))))].
      * intros lx1 (G & _). exact G.
      * unfold same_key. cbn [in_loc n_item]. now rewrite (text_of _ _ _ _ _ O).
  Qed.

  Definition PropIn (p : property) : Prop :=
    match p with
    | P_Shorthand _ => True
    | P_Literal k v => Key (n_item k) /\ Spec (n_item v)
    | P_Method k v => Key (n_item k) /\ Method (n_item v)
    | P_Spread x => Spec (n_item x)
    end.
  Lemma prop_reads p : property_fits p -> PropIn p -> PropS p.
  Proof.
    intros PF PI nl c Q T H. destruct p as [s|k v|k v|x]; cbn [c_property property_fits PropIn] in *; flat.
    - apply key_pend; [apply PF|apply tail_tail0, T|]. intros lx O.
      assert (W : is_word (lx_token lx) = true) by (rewrite (on_token _ _ _ _ _ O); apply (key_word_is alnum), PF).
      split; [|apply is_word_not; auto]. apply g_call. cbn [body]. unfold body_property. apply g_bind, g_look.
      cbn [view_of v_token]. rewrite W. fold (view_of lx). apply g_bind. eapply g_consume; [exact O|].
      eapply pend_mono; [|apply (H (in_loc (view_of lx) (P_Shorthand (v_text (view_of lx)))))].
      + intros lx1 (G & TK). apply g_bind, g_look.
        replace (is T_Colon (view_of lx1) || is T_ParenOpen (view_of lx1))%bool with false; [apply g_ret; exact G|].
        unfold is. cbn [view_of v_token]. destruct TK as [-> | ->]; reflexivity.
      + cbn [in_loc n_item]. now rewrite (text_of _ _ _ _ _ O).
    - destruct PF as (KF & EL1 & EL2). destruct PI as (KS & S). apply p_property_key; [exact KF|exact KS|htac|].
      intros start kn Ek. tok lx O. split; [|left; apply (on_token _ _ _ _ _ O)].
      apply g_call. cbn [body]. unfold body_property_value. apply g_bind, g_look. decide_is. apply g_bind. eapply g_consume; [exact O|].
      apply pend_sp. eapply (p_expr alnum (n_item v) CtxDefault BP_B0); [exact S|exact EL1|exact T| |].
      + intros lx1 G _. apply g_bind. exact G.
      + intros n E. eapply pend_mono; [|apply (H (Node start (n_end n) (P_Literal kn n)))].
        * intros lx1 (G & A). apply after_prop_level in A. split; [apply g_ret; exact G|cbn [level]; lia].
        * cbn [n_item strip_property]. f_equal; [|apply same_node, E]. unfold strip_node. f_equal. exact Ek.
    - destruct PF as (KF & NF & FF). destruct PI as (KS & M). apply p_property_key; [exact KF|exact KS| |].
      { destruct (n_item v) as [fn g ps b]. cbn [func_name] in NF. subst fn. cbn [c_func c_keyword c_name]. flat. htac. }
      intros start kn Ek. eapply pend_mono; [|apply (M c (fun m lx => gets (Ret (Node start (n_end m) (P_Method kn m))) lx Q))].
      + intros lx (G & TK). split; [|right; exact TK]. apply g_call. cbn [body]. unfold body_property_value. apply g_bind, g_look.
        rewrite (is_false_ne T_Colon lx) by (rewrite TK; discriminate). rewrite (is_true_eq T_ParenOpen lx TK). apply g_bind. exact G.
      + intros m E. eapply pend_mono; [|apply (H (Node start (n_end m) (P_Method kn m)))].
        * intros lx1 (G & A). apply g_ret. exact G.
        * cbn [n_item strip_property]. unfold strip_node. do 2 f_equal; [exact Ek|exact E].
    - destruct PF as (EL1 & EL2). tok lx O. split; [|rewrite (on_token _ _ _ _ _ O); discriminate].
      apply g_call. cbn [body]. unfold body_property. apply g_bind, g_look.
      assert (is_word (v_token (view_of lx)) = false) as -> by (cbn [view_of v_token]; now rewrite (on_token _ _ _ _ _ O)).
      decide_is. apply g_bind. eapply g_consume; [exact O|].
      eapply (p_expr alnum (n_item x) CtxDefault BP_B0); [exact PI|exact EL1|exact T| |].
      + intros lx1 G _. apply g_bind. exact G.
      + intros n E.
        eapply pend_mono; [|apply (pend_all alnum (fun m => strip_property (n_item m) = strip_property (P_Spread x)) _ _ _ (ex_intro _ (Node 0%N 0%N (P_Spread x)) eq_refl) H)].
        intros lx1 G. assert (EE : forall a b, strip_property (n_item (Node a b (P_Spread n))) = strip_property (P_Spread x))
          by (intros; cbn [n_item strip_property]; f_equal; apply same_node, E).
        split.
        * unfold get_end. apply g_bind, g_bind, g_look, g_ret, g_ret. apply (G _ (EE _ _)).
        * destruct (G _ (EE 0%N 0%N)) as (_ & A). apply after_prop_level in A. cbn [level]. lia.
  Qed.

  (** Lists of properties. *)
  Section List.
    Variables (sep cl : code).
    Hypothesis skip_sep : forall c (K : lexer -> Prop), pend true c K -> pend false (sep ++ c) K.
    Hypothesis skip_cl : forall c (K : lexer -> Prop), pend true c K -> pend false (cl ++ c) K.
    Hypothesis tail_cl : forall c, tail (cl ++ GBytes (bs "}") :: c).
    Fixpoint rest (l : list (node property)) : code :=
      match l with [] => [] | p :: l' => GBytes (bs ",") :: sep ++ c_property (n_item p) ++ rest l' end.
    Definition prsames (ns xs : list (node property)) : Prop := map (strip_node strip_property) ns = map (strip_node strip_property) xs.
    Lemma prsames_cons n ns x xs : strip_property (n_item n) = strip_property (n_item x) -> prsames ns xs -> prsames (n :: ns) (x :: xs).
    Proof. intros H1 H2. unfold prsames. cbn [map]. f_equal; [|exact H2]. unfold strip_node. now f_equal. Qed.
    Lemma rest_tail l c : tail (rest l ++ cl ++ GBytes (bs "}") :: c).
    Proof. destruct l; cbn [rest app]; [apply tail_cl|htac]. Qed.
    Lemma p_props_rest l : Forall (fun x => PropS (n_item x)) l ->
      forall c (Q : list (node property) -> lexer -> Prop), (forall ns lx, prsames ns l -> on true T_BraceClose (bs "}") c lx -> Q ns lx) ->
      pend false (rest l ++ cl ++ GBytes (bs "}") :: c) (fun lx => gets (call F_property_list_rest) lx Q /\ after_prop lx).
    Proof.
      induction l as [|x l IH]; intros F c Q H; cbn [rest app].
      - apply skip_cl. tok lx O. split; [|right; apply (on_token _ _ _ _ _ O)]. apply g_call. cbn [body]. unfold body_property_list_rest.
        apply g_bind, g_look. decide_is. apply g_ret. apply H; [reflexivity|exact O].
      - inversion F as [|? ? S F' E1]; subst. tok lx O. split; [|left; apply (on_token _ _ _ _ _ O)].
        apply g_call. cbn [body]. unfold body_property_list_rest. apply g_bind, g_look. do 2 decide_is.
        apply g_bind. eapply g_consume; [exact O|]. rewrite <- !app_assoc. apply skip_sep.
        eapply pend_mono; [|apply (S true _ (fun n lx => gets (ps <- call F_property_list_rest ;; Ret (n :: ps)) lx Q)); [apply rest_tail|]].
        + intros lx1 (G & N). apply g_bind, g_look. rewrite is_false_ne by exact N. apply g_bind. exact G.
        + intros n E. eapply pend_mono; [|apply (IH F' c (fun ns lx => Q (n :: ns) lx))].
          * intros lx1 (G & A). split; [|exact A]. apply g_bind. eapply gets_mono; [|exact G]. intros ns lx2 HQ. apply g_ret. exact HQ.
          * intros ns lx1 Es O1. apply H; [|exact O1]. apply prsames_cons; assumption.
    Qed.
    Lemma p_props p l : Forall (fun x => PropS (n_item x)) (p :: l) ->
      forall nl c (Q : list (node property) -> lexer -> Prop), (forall ns lx, prsames ns (p :: l) -> on true T_BraceClose (bs "}") c lx -> Q ns lx) ->
      pend nl (c_property (n_item p) ++ rest l ++ cl ++ GBytes (bs "}") :: c) (fun lx => gets (call F_property_list) lx Q).
    Proof.
      intros F nl c Q H. inversion F as [|? ? S F' E1]; subst.
      eapply pend_mono; [|apply (S nl _ (fun n lx => gets (ps <- call F_property_list_rest ;; Ret (n :: ps)) lx Q)); [apply rest_tail|]].
      + intros lx1 (G & N). apply g_call. cbn [body]. unfold body_property_list. apply g_bind, g_look. rewrite is_false_ne by exact N. apply g_bind. exact G.
      + intros n E. eapply pend_mono; [|apply (p_props_rest l F' c (fun ns lx => Q (n :: ns) lx))].
        * intros lx1 (G & A). split; [|exact A]. apply g_bind. eapply gets_mono; [|exact G]. intros ns lx2 HQ. apply g_ret. exact HQ.
        * intros ns lx1 Es O1. apply H; [|exact O1]. apply prsames_cons; assumption.
    Qed.
  End List.
  Lemma p_no_props nl c (Q : list (node property) -> lexer -> Prop) : (forall lx, on nl T_BraceClose (bs "}") c lx -> Q [] lx) ->
    pend nl (GBytes (bs "}") :: c) (fun lx => gets (call F_property_list) lx Q).
  Proof. intros H. tok lx O. apply g_call. cbn [body]. unfold body_property_list. apply g_bind, g_look. decide_is. apply g_ret, H, O. Qed.
  Lemma props_rest_eq l : c_props_rest c_property l = rest [GNewLine] l.
  Proof. induction l as [|x l IH]; cbn [c_props_rest rest]; [reflexivity|]. flat. now rewrite IH. Qed.
  Lemma list_rest_eq l : c_list_rest c_property l = rest [GPretty x20] l.
  Proof. induction l as [|x l IH]; cbn [c_list_rest rest]; [reflexivity|]. flat. now rewrite IH. Qed.

  Lemma spec_object ps : Forall (fun x => PropS (n_item x)) ps -> Spec (E_Object ps).
  Proof.
    intros F ctx b nl c Q L T H. cbn [c_expression leftmost].
    enough (G : pend nl (GBytes (bs "{") :: (match ps with [] => [] | p :: l => [GIndent; GNewLine] ++ c_property (n_item p) ++ c_props_rest c_property l ++ [GDedent; GNewLine] end)
       ++ GBytes (bs "}") :: c) (fun lx => gets (body_expression ctx b) lx Q /\ lead (E_Object ps) nl lx)).
    { destruct ps as [|p l]; cbn [c_props]; [|flat; revert G; flat; auto]. flat. change (bs "{}") with (bs "{" ++ bs "}"). apply pend_split. exact G. }
    tok lx O. split; [|eapply lead_on; [exact O|discriminate|exact I]].
    eapply g_expression; [apply (on_token _ _ _ _ _ O)|reflexivity|discriminate|].
    cbn [body_expr_handler]. apply g_call. cbn [body]. unfold body_object, start_then_consume. apply g_bind, g_bind, g_look, g_bind.
    eapply g_consume; [exact O|].
    assert (E1 : forall ns lx', prsames ns ps -> on true T_BraceClose (bs "}") c lx' ->
      gets (e_end <- end_then_consume ;; Ret (Node (v_start (view_of lx)) e_end (E_Object ns))) lx' (fun l lx' => gets (body_nested b l) lx' Q)).
    { intros ns lx' Es O1. unfold end_then_consume. apply g_bind, g_bind, g_look, g_bind. eapply g_consume; [exact O1|].
      eapply pend_mono; [|apply H].
      - intros lx2 (G & _). apply g_ret, g_ret. exact G.
      - unfold same. cbn [n_item strip_expression]. f_equal. exact Es. }
    destruct ps as [|p l].
    - cbn [app]. eapply pend_mono; [intros lx1 G; apply g_ret, g_bind; exact G|]. apply p_no_props. intros lx1 O1. apply E1; [reflexivity|]. eapply on_true, O1.
    - cbn [app]. eapply pend_mono; [intros lx1 G; apply g_ret, g_bind; exact G|]. rewrite <- app_assoc. cbn [app]. apply pend_indent, pend_newline.
      rewrite props_rest_eq. rewrite <- app_assoc. apply (p_props [GNewLine] [GDedent; GNewLine]); auto.
      + intros c' K HK. cbn [app]. apply pend_newline. exact HK.
      + intros c' K HK. cbn [app]. apply pend_dedent, pend_newline. exact HK.
      + intros c'. cbn [app]. htac.
  Qed.
  Lemma pat_object ps : Forall (fun x => PropS (n_item x)) ps -> Pat alnum (Pat_Object ps).
  Proof.
    intros F nl c Q T H. cbn [c_pattern]. flat.
    tok lx O. split; [|right; right; apply (on_token _ _ _ _ _ O)]. apply g_call. cbn [body]. unfold body_pattern. apply g_bind, g_look. do 3 decide_is.
    apply g_call. cbn [body]. unfold body_pattern_object, start_then_consume. apply g_bind, g_bind, g_look, g_bind.
    eapply g_consume; [exact O|].
    assert (E1 : forall ns lx', prsames ns ps -> on true T_BraceClose (bs "}") c lx' ->
      gets (e_end <- end_then_consume ;; Ret (Node (v_start (view_of lx)) e_end (Pat_Object ns))) lx' Q).
    { intros ns lx' Es O1. unfold end_then_consume. apply g_bind, g_bind, g_look, g_bind. eapply g_consume; [exact O1|].
      eapply pend_mono; [|apply H].
      - intros lx2 G. apply g_ret, g_ret. exact G.
      - cbn [n_item strip_pattern]. f_equal. exact Es. }
    destruct ps as [|p l]; cbn [c_list]; flat.
    - eapply pend_mono; [intros lx1 G; apply g_ret, g_bind; exact G|]. apply p_no_props. intros lx1 O1. apply E1; [reflexivity|]. eapply on_true, O1.
    - eapply pend_mono; [intros lx1 G; apply g_ret, g_bind; exact G|].
      rewrite list_rest_eq. apply (p_props [GPretty x20] []); auto.
      + intros c' K HK. cbn [app]. apply pend_sp. eapply pend_weak, HK.
      + intros c' K HK. cbn [app]. eapply pend_weak, HK.
      + intros c'. cbn [app]. htac.
  Qed.

  (** ** Classes *)
  Definition member_key (start : N) (is_static : bool) : P (node class_member) :=
    v <- look ;;
    if is_word (v_token v) then
      consume_ ;;;
      v' <- look ;;
      if is_word (v_token v') then
        if str_eqb (v_text v) (bs "get") then
          consume_ ;;;
          call (F_class_member_value start is_static MK_Get (in_loc v (Key_Literal (v_text v'))))
        else if str_eqb (v_text v) (bs "set") then
          consume_ ;;;
          call (F_class_member_value start is_static MK_Set (in_loc v (Key_Literal (v_text v'))))
        else fail_with err_member
      else
        let kind := if (negb is_static && str_eqb (v_text v) (bs "constructor"))%bool
                    then MK_Constructor else MK_Method in
        call (F_class_member_value start is_static kind (in_loc v (Key_Literal (v_text v))))
    else if is T_LiteralNumber v then
      consume_ ;;;
      call (F_class_member_value start is_static MK_Method (in_loc v (Key_Literal (v_text v))))
    else if is T_LiteralBinary v then
      consume_ ;;;
      call (F_class_member_value start is_static MK_Method (in_loc v (Key_Binary (v_text v))))
    else if is T_BracketOpen v then
      consume_ ;;;
      e <- call (F_expression CtxDefault BP_ANY) ;;
      token_end <- get_end ;;
      expect T_BracketClose ;;;
      call (F_class_member_value start is_static MK_Method
              (Node (v_start v) token_end (Key_Computed e)))
    else fail_with err_member.
  Lemma class_member_eq : body_class_member =
    (start <- get_start ;; v0 <- look ;;
     is_static <- (if is T_Static v0 then consume_ ;;; Ret true else Ret false) ;; member_key start is_static).
  Proof. reflexivity. Qed.
  (** Tokens a member can start with, [static] apart. *)
  Definition member_start (lx : lexer) : Prop :=
    is_word (lx_token lx) = true \/ In (lx_token lx) [T_LiteralNumber; T_LiteralBinary; T_BracketOpen].
  Lemma member_start_not lx t : is_word t = false -> ~ In t [T_LiteralNumber; T_LiteralBinary; T_BracketOpen] -> member_start lx -> lx_token lx <> t.
  Proof. intros W N [H|H] E; [congruence|]. apply N. now rewrite <- E. Qed.
  Definition value_start (lx : lexer) : Prop := lx_token lx = T_ParenOpen \/ lx_token lx = T_OperatorAssign.
  Lemma static_word s : keyword_or_identifier s = T_Static -> s = bs "static".
  Proof.
    unfold keyword_or_identifier. intros H. destruct (assoc s KEYWORDS) as [t|] eqn:E; [|discriminate]. subst t.
    assert (I : In (s, T_Static) KEYWORDS).
    { revert E. induction KEYWORDS as [|(x & t') l IH]; cbn [assoc]; [discriminate|]. destruct (str_eqb s x) eqn:Es.
      - intros X. injection X as <-. apply str_eqb_eq in Es. left. congruence.
      - intros X. right. apply IH, X. }
    assert (G : forallb (fun p => negb (token_eqb (snd p) T_Static) || str_eqb (fst p) (bs "static")) KEYWORDS = true) by (vm_compute; reflexivity).
    rewrite forallb_forall in G. specialize (G _ I). cbn in G. apply str_eqb_eq in G. exact G.
  Qed.
  Lemma number_word s t more : number s t more ->
    ~ (ascii_word s \/ (Forall (fun b => word_byte b = true) s /\ foreign_start alnum s)).
  Proof.
    intros H HW.
    assert (HW' : exists b r, s = b :: r /\ (word_first b || (127 <? byte_val b)%N)%bool = true).
    { destruct HW as [(_ & b & r & E & W)|(_ & _ & b & r & c & E & W & _)]; exists b, r; split; auto; [now rewrite W|].
      apply N.ltb_lt in W. rewrite W. apply orb_true_r. }
    clear HW. destruct HW' as (b & r & -> & W).
    assert (D : (digit b || byte_eqb b "."%byte)%bool = true).
    { assert (M : forall m mo, mantissa m mo -> exists x y, m = x :: y /\ (digit x || byte_eqb x "."%byte)%bool = true).
      { intros m mo [|d ds D _|d ds D _|d ds f D _ _|d f D _]; do 2 eexists; split; try reflexivity.
        - cbn [app]. destruct d; vm_compute in D |- *; try discriminate; reflexivity.
        - rewrite D. reflexivity. }
      remember (b :: r) as s eqn:Es. destruct H as [m mo HM|m mo e d ds HM _ _ _|m mo e sg ds HM _ _ _|x ds _ _|x ds _ _|x ds _ _].
      1-3: destruct (M _ _ HM) as (x & y & -> & D); cbn [app] in Es; injection Es as -> _; exact D.
      all: injection Es as <- _; reflexivity. }
    destruct b; vm_compute in W, D; discriminate.
  Qed.

  Lemma p_member_key k nl c start is_static Q : member_key_fits k -> Key k -> tail c ->
    (forall kind kn, plain_kind is_static k kind -> same_key kn k ->
       pend false c (fun lx => gets (call (F_class_member_value start is_static kind kn)) lx Q /\ value_start lx)) ->
    pend nl (c_key k ++ c) (fun lx => gets (member_key start is_static) lx Q /\ member_start lx /\ (k <> Key_Literal (bs "static") -> lx_token lx <> T_Static)).
  Proof.
    intros KF KS T H. destruct k as [e|s|s]; cbn [c_key member_key_fits] in *; flat.
    - tok lx O. split; [|split; [right; rewrite (on_token _ _ _ _ _ O); cbn; auto|rewrite (on_token _ _ _ _ _ O); discriminate]].
      unfold member_key. apply g_bind, g_look.
      assert (is_word (v_token (view_of lx)) = false) as -> by (cbn [view_of v_token]; now rewrite (on_token _ _ _ _ _ O)).
      do 3 decide_is. apply g_bind. eapply g_consume; [exact O|].
      eapply (p_expr alnum (n_item e) CtxDefault BP_ANY); [exact KS|exact KF|htac| |].
      + intros lx1 G _. apply g_bind. exact G.
      + intros n E. tok lx1 O1. split; [|split; lv]. unfold get_end. apply g_bind, g_bind, g_look, g_ret, g_bind.
        eapply g_expect; [exact O1|]. eapply pend_mono; [|apply (H MK_Method (Node (v_start (view_of lx)) (v_end (view_of lx1)) (Key_Computed n)))].
        * intros lx2 (G & _). exact G.
        * reflexivity.
        * unfold same_key. cbn [n_item strip_property_key]. f_equal. apply same_node, E.
    - destruct KF as [KW|(more & KN)].
      + apply key_pend; [apply KW|apply tail_tail0, T|]. intros lx O.
        assert (W : is_word (lx_token lx) = true) by (rewrite (on_token _ _ _ _ _ O); apply (key_word_is alnum), KW).
        split; [|split; [left; exact W|intros N E; apply N; f_equal; apply static_word; rewrite <- E; symmetry; apply (on_token _ _ _ _ _ O)]].
        unfold member_key. apply g_bind, g_look. cbn [view_of v_token]. rewrite W. fold (view_of lx). apply g_bind. eapply g_consume; [exact O|].
        eapply pend_mono; [|apply (H (if (negb is_static && str_eqb (v_text (view_of lx)) (bs "constructor"))%bool then MK_Constructor else MK_Method)
            (in_loc (view_of lx) (Key_Literal (v_text (view_of lx)))))].
        * intros lx1 (G & TK). apply g_bind, g_look.
          assert (is_word (v_token (view_of lx1)) = false) as -> by (cbn [view_of v_token]; destruct TK as [-> | ->]; reflexivity).
          exact G.
        * rewrite (text_of _ _ _ _ _ O). unfold plain_kind. destruct (negb is_static && str_eqb s (bs "constructor"))%bool; reflexivity.
        * unfold same_key. cbn [in_loc n_item]. now rewrite (text_of _ _ _ _ _ O).
      + apply (number_pend alnum nl s _ more _ _ KN T). intros lx O.
        split; [|split; [right; rewrite (on_token _ _ _ _ _ O); cbn; auto|rewrite (on_token _ _ _ _ _ O); discriminate]].
        unfold member_key. apply g_bind, g_look.
        assert (is_word (v_token (view_of lx)) = false) as -> by (cbn [view_of v_token]; now rewrite (on_token _ _ _ _ _ O)).
        decide_is. apply g_bind. eapply g_consume; [exact O|].
        eapply pend_mono; [|apply (H MK_Method (in_loc (view_of lx) (Key_Literal (v_text (view_of lx)))))].
        * intros lx1 (G & _). exact G.
        * unfold plain_kind. destruct (str_eqb s (bs "constructor")) eqn:E; [|rewrite andb_false_r; reflexivity].
          apply str_eqb_eq in E. exfalso. apply (number_word _ _ _ KN). subst s. left. split; [|exists "c"%byte; eexists; split; reflexivity].
          apply Forall_forall. apply forallb_forall. vm_compute. reflexivity.
        * unfold same_key. cbn [in_loc n_item]. now rewrite (text_of _ _ _ _ _ O).
    - destruct KF as (more & KN). apply (number_pend alnum nl s _ more _ _ KN T). intros lx O.
      split; [|split; [right; rewrite (on_token _ _ _ _ _ O); cbn; auto|rewrite (on_token _ _ _ _ _ O); discriminate]].
      unfold member_key. apply g_bind, g_look.
      assert (is_word (v_token (view_of lx)) = false) as -> by (cbn [view_of v_token]; now rewrite (on_token _ _ _ _ _ O)).
      do 2 decide_is. apply g_bind. eapply g_consume; [exact O|].
      eapply pend_mono; [|apply (H MK_Method (in_loc (view_of lx) (Key_Binary (v_text (view_of lx)))))].
      * intros lx1 (G & _). exact G.
      * reflexivity.
      * unfold same_key. cbn [in_loc n_item]. now rewrite (text_of _ _ _ _ _ O).
  Qed.
  (** The key of an accessor. *)
  Lemma p_accessor_key word kind s nl c start is_static Q :
    (word = "get"%string /\ kind = MK_Get \/ word = "set"%string /\ kind = MK_Set) -> key_word s -> tail0 c ->
    (forall kn, same_key kn (Key_Literal s) ->
       pend false c (fun lx => gets (call (F_class_member_value start is_static kind kn)) lx Q)) ->
    pend nl (GBytes (bs (word ++ " ")%string) :: GBytes s :: c) (fun lx => gets (member_key start is_static) lx Q /\ member_start lx /\ lx_token lx <> T_Static).
  Proof.
    intros HW KW T H.
    assert (G0 : pend nl (GBytes (bs word) :: GBytes [x20] :: GBytes s :: c)
       (fun lx => gets (member_key start is_static) lx Q /\ member_start lx /\ lx_token lx <> T_Static)).
    2:{ destruct HW as [(-> & ->)|(-> & ->)]; cbn [String.append]; [change (bs "get ") with (bs "get" ++ [x20])|change (bs "set ") with (bs "set" ++ [x20])]; apply pend_split; exact G0. }
    apply (pend_kw alnum nl (bs word) T_Identifier); [destruct HW as [(-> & ->)|(-> & ->)]; vm_compute; reflexivity|htac|].
    intros lx O. split; [|split; [left; rewrite (on_token _ _ _ _ _ O); reflexivity|rewrite (on_token _ _ _ _ _ O); discriminate]].
    unfold member_key. apply g_bind, g_look.
    assert (is_word (v_token (view_of lx)) = true) as -> by (cbn [view_of v_token]; now rewrite (on_token _ _ _ _ _ O)).
    apply g_bind. eapply g_consume; [exact O|]. apply pend_blank. apply key_pend; [apply KW|exact T|]. intros lx1 O1.
    apply g_bind, g_look.
    assert (is_word (v_token (view_of lx1)) = true) as -> by (cbn [view_of v_token]; rewrite (on_token _ _ _ _ _ O1); apply (key_word_is alnum), KW).
    rewrite (text_of _ _ _ _ _ O).
    assert (E : same_key (in_loc (view_of lx) (Key_Literal (v_text (view_of lx1)))) (Key_Literal s))
      by (unfold same_key; cbn [in_loc n_item]; now rewrite (text_of _ _ _ _ _ O1)).
    destruct HW as [(-> & ->)|(-> & ->)].
    - rewrite (proj2 (str_eqb_eq (bs "get") (bs "get")) eq_refl). apply g_bind. eapply g_consume; [exact O1|]. apply H, E.
    - assert (str_eqb (bs "set") (bs "get") = false) as -> by reflexivity. rewrite (proj2 (str_eqb_eq (bs "set") (bs "set")) eq_refl).
      apply g_bind. eapply g_consume; [exact O1|]. apply H, E.
  Qed.

  (** The value. *)
  Definition not_semicolon (lx : lexer) : Prop := lx_token lx <> T_Semicolon.
  Lemma p_member_method f kn start is_static kind c Q : Method f ->
    (forall n, n_item n = f \/ strip_func (n_item n) = strip_func f -> 
       forall s e, pend false c (fun lx => Q (Node s e (CM_Method is_static kn kind n)) lx /\ not_semicolon lx)) ->
    pend false (c_func f ++ c) (fun lx => gets (call (F_class_member_value start is_static kind kn)) lx Q /\ value_start lx).
  Proof.
    intros M H. eapply pend_mono; [|apply (M c (fun m lx => Q (Node start (n_end m) (CM_Method is_static kn kind m)) lx /\ not_semicolon lx))].
    - intros lx (G & TK). split; [|left; exact TK]. apply g_call. cbn [body]. unfold body_class_member_value. apply g_bind, g_look.
      rewrite (is_true_eq T_ParenOpen lx TK). apply g_bind. eapply gets_mono; [|exact G]. intros m lx1 (HQ & NS).
      apply g_bind, g_look. rewrite is_false_ne by exact NS. apply g_bind, g_ret, g_ret. exact HQ.
    - intros m E. apply H. right. exact E.
  Qed.
  Lemma p_member_literal e kn start is_static kind c Q : Spec e -> First e -> 1 < ll e ->
    (forall n, same n e -> forall s e', pend false c (fun lx => Q (Node s e' (CM_Literal is_static kn n)) lx)) ->
    pend false (GPretty x20 :: GBytes (bs "=") :: GPretty x20 :: c_expression e ++ GBytes (bs ";") :: c)
      (fun lx => gets (call (F_class_member_value start is_static kind kn)) lx Q /\ value_start lx).
  Proof.
    intros S F L H. apply pend_sp. apply p_assign; [exact F|lia|]. intros lx O. split; [|right; apply (on_token _ _ _ _ _ O)].
    apply g_call. cbn [body]. unfold body_class_member_value. apply g_bind, g_look. do 2 decide_is. apply g_bind. eapply g_consume; [exact O|].
    apply pend_sp. eapply (p_expr alnum e CtxDefault BP_B0); [exact S|exact L|htac| |].
    - intros lx1 G _. apply g_bind. exact G.
    - intros n E. tok lx1 O1. split; [|split; lv]. apply g_bind, g_look. decide_is. apply g_bind. eapply g_consume; [exact O1|].
      eapply pend_mono; [|apply (H n E)]. intros lx2 HQ. apply g_ret. exact HQ.
  Qed.

  Definition MemberIn (m : class_member) : Prop :=
    match m with
    | CM_Error => True
    | CM_Method _ k _ v => Key (n_item k) /\ Method (n_item v)
    | CM_Literal _ k v => Key (n_item k) /\ Spec (n_item v) /\ First (n_item v)
    end.
  Definition member_follow (m : class_member) (lx : lexer) : Prop := not_semicolon lx.
  Definition member_lead (lx : lexer) : Prop := member_start lx \/ lx_token lx = T_Static.
  Definition Member (m : class_member) : Prop := Item alnum I_Member c_member strip_class_member member_follow member_lead false m.
  Lemma p_static is_static code nl c Q :
    (forall nl, pend nl (code ++ c) (fun lx => (forall start, gets (member_key start is_static) lx Q) /\ member_start lx /\ (is_static = false -> lx_token lx <> T_Static))) ->
    pend nl ((if is_static then w "static " else []) ++ code ++ c) (fun lx => gets (call (F_item I_Member)) lx Q /\ member_lead lx).
  Proof.
    intros H. destruct is_static; cbn [w app].
    - apply (pend_kw_blank alnum nl (bs "static") (bs "static ") T_Static); [reflexivity|vm_compute; reflexivity|]. intros lx O.
      split; [|right; apply (on_token _ _ _ _ _ O)].
      apply g_call. cbn [body body_item]. apply g_call. cbn [body]. rewrite class_member_eq. unfold get_start.
      apply g_bind, g_bind, g_look, g_ret, g_bind, g_look. decide_is. apply g_bind, g_bind. eapply g_consume; [exact O|].
      apply pend_blank. eapply pend_mono; [|apply H]. intros lx1 (G & _). apply g_ret. apply G.
    - eapply pend_mono; [|apply H]. intros lx (G & MS & NS). split; [|left; exact MS].
      apply g_call. cbn [body body_item]. apply g_call. cbn [body]. rewrite class_member_eq. unfold get_start.
      apply g_bind, g_bind, g_look, g_ret, g_bind, g_look. rewrite is_false_ne by auto. apply g_bind, g_ret. apply G.
  Qed.
  Lemma pend_starts nl code (G : N -> lexer -> Prop) (R : lexer -> Prop) :
    (forall start, pend nl code (fun lx => G start lx /\ R lx)) -> pend nl code (fun lx => (forall start, G start lx) /\ R lx).
  Proof.
    intros H. eapply pend_mono; [|apply (pend_all alnum (fun _ : N => True) nl code _ (ex_intro _ 0%N I) (fun s _ => H s))].
    intros lx X. split; [intros s; apply (X s I)|apply (X 0%N I)].
  Qed.
  Lemma func_tail f c : func_name f = Name_Empty -> tail (c_func f ++ c).
  Proof. destruct f as [n g ps b]. cbn [func_name]. intros ->. cbn [c_func c_keyword c_name]. flat. htac. Qed.
  Lemma member_reads m : member_fits m -> MemberIn m -> Member m.
  Proof.
    intros MF MI nl c Q H. destruct m as [|is_static k kind v|is_static k v]; cbn [c_member member_fits MemberIn] in *; [destruct MF| |].
    - destruct MF as (NF & FF & KF). destruct MI as (KS & M). unfold c_node. rewrite <- !app_assoc.
      assert (V : forall start kn, same_key kn (n_item k) -> pend false (c_func (n_item v) ++ c)
         (fun lx => gets (call (F_class_member_value start is_static kind kn)) lx Q /\ value_start lx)).
      { intros start kn Ek. apply p_member_method; [exact M|]. intros n E s e. eapply pend_mono; [|apply (H (Node s e (CM_Method is_static kn kind n)))].
        - intros lx G. exact G.
        - cbn [n_item strip_class_member]. unfold strip_node. f_equal; [now f_equal|]. f_equal. destruct E as [->|E]; [reflexivity|exact E]. }
      assert (AC : forall word, (word = "get"%string /\ kind = MK_Get \/ word = "set"%string /\ kind = MK_Set) -> is_word_key (n_item k) ->
        pend nl ((if is_static then w "static " else []) ++ (GBytes (bs (word ++ " ")%string) :: c_key (n_item k)) ++ c_func (n_item v) ++ c)
          (fun lx => gets (call (F_item I_Member)) lx Q /\ member_lead lx)).
      { intros word HW (s & Es & KW). apply p_static. intros nl'. apply pend_starts. intros start. rewrite Es. cbn [c_key wstr app].
        eapply pend_mono; [|apply (p_accessor_key word kind s nl' _ start is_static Q HW KW (tail_tail0 _ (func_tail _ _ NF)))].
        - intros lx (G & MS & NS). auto.
        - intros kn Ek. eapply pend_mono; [|apply (V start kn)]; [intros lx (G & _); exact G|]. now rewrite Es. }
      assert (PL : member_key_fits (n_item k) -> plain_kind is_static (n_item k) kind -> (is_static = false -> n_item k <> Key_Literal (bs "static")) ->
        pend nl ((if is_static then w "static " else []) ++ c_key (n_item k) ++ c_func (n_item v) ++ c)
          (fun lx => gets (call (F_item I_Member)) lx Q /\ member_lead lx)).
      { intros K1 K2 K3. apply p_static. intros nl'. apply pend_starts. intros start.
        eapply pend_mono; [|apply (p_member_key (n_item k) nl' _ start is_static Q K1 KS (func_tail _ _ NF))].
        - intros lx (G & MS & NS). auto.
        - intros kind' kn PK Ek. assert (kind' = kind) as ->.
          { unfold plain_kind in *. destruct (match n_item k with Key_Literal s => negb is_static && str_eqb s (bs "constructor") | _ => false end)%bool; congruence. }
          apply V, Ek. }
      destruct kind.
      + destruct KF as (K1 & K2 & K3). cbn [app]. apply PL; assumption.
      + destruct KF as (K1 & K2 & K3). cbn [app]. apply PL; assumption.
      + cbn [w app]. apply (AC "get"%string); auto.
      + cbn [w app]. apply (AC "set"%string); auto.
    - destruct MF as (KF & L & NS). destruct MI as (KS & S & F). flat.
      apply p_static. intros nl'. apply pend_starts. intros start.
      eapply pend_mono; [|apply (p_member_key (n_item k) nl' _ start is_static Q KF KS)].
      + intros lx (G & MS & NS'). auto.
      + htac.
      + intros kind kn _ Ek. apply p_member_literal; auto. intros n E s e'.
        eapply pend_mono; [|apply (H (Node s e' (CM_Literal is_static kn n)))].
        * intros lx (G & _). exact G.
        * cbn [n_item strip_class_member]. unfold strip_node. f_equal; [now f_equal|]. f_equal. exact E.
  Qed.

  Definition ClassBody (b : block class_member) : Prop := Raw alnum I_Member c_member strip_class_member b.
  Lemma class_body b : Forall (fun m => Member (n_item m)) (b_body b) -> ClassBody b.
  Proof.
    intros F. unfold ClassBody, Raw. apply (p_raw_block alnum I_Member c_member strip_class_member member_follow member_lead false); [| | |exact F].
    - intros x lx [H|H]; unfold member_follow, not_semicolon.
      + apply member_start_not; [reflexivity| |exact H]. cbn. intuition discriminate.
      + rewrite H. discriminate.
    - intros x lx H. unfold member_follow, not_semicolon. rewrite H. discriminate.
    - intros lx [H|H]; [|rewrite H; split; discriminate].
      split; apply member_start_not; try reflexivity; try exact H; cbn; intuition discriminate.
  Qed.
  Definition Super (e : option expr_node) : Prop := match e with Some e => Spec (n_item e) | None => True end.
  Lemma p_class k n e b c Q : name_ok k n -> class_fits (Class n e b) -> Super e -> ClassBody (n_item b) ->
    (forall cl, strip_class cl = strip_class (Class n e b) -> pend false c (fun lx => Q cl lx)) ->
    pend false (c_name n ++ (match e with Some e => w " extends " ++ c_node c_expression e | None => [] end)
       ++ GPretty x20 :: c_block c_member (n_item b) ++ c)
      (fun lx => gets (call (F_class k)) lx Q).
  Proof.
    intros NO CF SU HB H.
    assert (BL : forall n' e', strip_name n' = strip_name n -> option_map (strip_node strip_expression) e' = option_map (strip_node strip_expression) e ->
      pend false (GPretty x20 :: c_block c_member (n_item b) ++ c) (fun lx => gets (b' <- call (F_block I_Member) ;; Ret (Class n' e' b')) lx Q /\ lx_token lx = T_BraceOpen)).
    { intros n' e' En Ee. apply pend_sp.
      eapply pend_mono; [|apply (p_block alnum I_Member c_member strip_class_member (n_item b) HB false c (fun b' lx => Q (Class n' e' b') lx))].
      - intros lx (G & _ & TK). split; [|exact TK]. apply g_bind. eapply gets_mono; [|exact G]. intros b' lx2 HQ. apply g_ret. exact HQ.
      - intros b' Eb. apply H. cbn [strip_class]. f_equal; [exact En|exact Ee|]. unfold strip_node. f_equal. exact Eb. }
    eapply pend_mono; [|apply (p_name alnum k n _ (fun n' lx => gets (v <- look ;; super <- (if is T_Extends v then consume_ ;;; e <- call (F_expression CtxDefault BP_B0) ;; Ret (Some e) else Ret None) ;;
        b <- call (F_block I_Member) ;; Ret (Class n' super b)) lx Q) NO)].
    - intros lx (G & _). apply g_call. cbn [body]. unfold body_class. apply g_bind. exact G.
    - destruct e as [e|]; unfold c_block; flat; htac.
    - intros n' En. destruct e as [e|]; cbn [class_fits Super] in *; flat.
      + change (bs " extends ") with ([x20] ++ bs "extends" ++ [x20]). apply pend_split, pend_blank, pend_split. kw lx O.
        split; [|rewrite (on_token _ _ _ _ _ O); split; discriminate]. apply g_bind, g_look. decide_is. apply g_bind, g_bind. eapply g_consume; [exact O|].
        apply pend_blank. eapply (p_expr alnum (n_item e) CtxDefault BP_B0); [exact SU|exact CF|unfold c_block; flat; htac| |].
        * intros lx1 G _. apply g_bind. exact G.
        * intros m Em. eapply pend_mono; [|apply (BL n' (Some m) En)].
          -- intros lx1 (G & TK). split; [apply g_ret; exact G|]. rewrite TK. cbn. lia.
          -- cbn [option_map]. f_equal. apply same_node, Em.
      + eapply pend_mono; [|apply (BL n' None En eq_refl)]. intros lx (G & TK). rewrite TK. split; [|split; discriminate].
        apply g_bind, g_look. rewrite is_false_ne by (rewrite TK; discriminate). apply g_bind, g_ret. exact G.
  Qed.
  Definition ClassIn (c : class) : Prop := match c with Class _ e b => Super e /\ ClassBody (n_item b) end.
  Lemma c_class_split n e b : c_class (Class n e b) =
    c_keyword "class" n ++ c_name n ++ (match e with Some e => w " extends " ++ c_node c_expression e | None => [] end) ++ GPretty x20 :: c_block c_member (n_item b).
  Proof. cbn [c_class]. unfold c_node, sp. cbn [app]. reflexivity. Qed.
  Lemma spec_class c : optional_name (class_name c) -> class_fits c -> ClassIn c -> Spec (E_Class c).
  Proof.
    destruct c as [n e b0]. cbn [class_name]. intros NO CF (SU & HB) ctx bp nl c Q L T H. cbn [c_expression leftmost].
    rewrite c_class_split. assert (c_keyword "class" n = [GBytes (bs "class")]) as -> by (destruct NO as [->|(i & -> & _)]; reflexivity).
    rewrite <- !app_assoc. cbn [app].
    apply (pend_kw alnum nl (bs "class") T_Class); [vm_compute; reflexivity| |].
    { destruct NO as [->|(i & -> & _)]; cbn [c_name]; flat; [|htac]. apply heads_sp; [reflexivity|]. destruct e; unfold c_block; flat; htac. }
    intros lx O. split; [|eapply lead_on; [exact O|discriminate|exact I]].
    eapply g_expression; [apply (on_token _ _ _ _ _ O)|reflexivity|discriminate|].
    cbn [body_expr_handler]. apply g_call. cbn [body]. unfold body_class_expression, start_then_consume. apply g_bind, g_bind, g_look, g_bind.
    eapply g_consume; [exact O|]. eapply pend_mono; [intros lx1 G; apply g_ret, g_bind; exact G|].
    apply (p_class NK_Optional n e b0); auto. intros f Ef. eapply pend_mono; [|apply H]. { intros lx1 (G & _). apply g_ret. exact G. }
    unfold same. cbn [n_item strip_expression]. f_equal. exact Ef.
  Qed.
End Props.
