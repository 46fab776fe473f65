(** Reading back expressions: one lemma for each form of expression. *)
From Coq Require Import List NArith PeanoNat Bool String Lia.
From Coq.Strings Require Import Byte.
From Verif Require Import Bytes Token Tables Lexer SpecLexer SpecTokens SpecChunks SpecTree SpecUtf8 SpecHazard SpecPrec SpecRound
  Ast Prog Parser Codegen LexerFacts ConsumeFacts LexEval ProgFacts ParseFacts Structure Gets Foreign Levels Chain RoundBase.
Import ListNotations.
Open Scope nat_scope.
Open Scope list_scope.

(** The token of a fixed text. *)
Definition punct_token (x : str) : token :=
  match find (fun p => str_eqb (fst p) x) PUNCTUATORS with Some p => snd p | None => keyword_or_identifier x end.
(** Take a fixed punctuator that nothing extends. *)
Tactic Notation "tok" ident(lx) ident(O) :=
  lazymatch goal with
  | |- pend ?al ?nl (GBytes ?x :: ?c) _ =>
      let t := eval vm_compute in (punct_token x) in
      apply (pend_solid al nl x t); [vm_compute; reflexivity|intros lx O]
  end.
(** Take a fixed keyword. *)
Tactic Notation "kw" ident(lx) ident(O) :=
  lazymatch goal with
  | |- pend ?al ?nl (GBytes ?x :: ?c) _ =>
      let t := eval vm_compute in (keyword_or_identifier x) in
      apply (pend_kw al nl x t); [vm_compute; reflexivity|htac|intros lx O]
  end.
Ltac lv := lazymatch goal with O : on _ _ _ _ ?lx |- context [lx_token ?lx] => rewrite (on_token _ _ _ _ _ O); cbn [tlevel operator_from_token operator_infix olevel operator_bp level]; unfold closed_level in *; lia end.

Section Expr.
  Variable alnum : N -> bool.
  Notation identifier_name := (identifier_name alnum).
  Notation expression_fits := (expression_fits alnum).
  Notation gets := (gets alnum).
  Notation pend := (pend alnum).
  Notation Spec := (Spec alnum).

  Lemma g_semicolon nl x c lx (Q : unit -> lexer -> Prop) :
    on nl T_Semicolon x c lx -> pend false c (fun lx' => Q tt lx') -> gets (call F_expect_semicolon) lx Q.
  Proof.
    intros O H. apply g_call. cbn [body]. unfold body_expect_semicolon. apply g_bind, g_look. cbn [view_of v_asi].
    destruct (on_asi _ _ _ _ _ O) as (ws & _ & ->). unfold asi_of.
    destruct (newline_in ws); cbn; eapply g_consume; eauto.
  Qed.

  (** An expression and what follows. *)
  Lemma p_expr e ctx b nl c Q (R : lexer -> Prop) : Spec e -> level b < ll e -> tail c ->
    (forall lx, gets (call (F_expression ctx b)) lx Q -> lead (leftmost e) nl lx -> R lx) ->
    (forall n, same n e -> pend false c (fun lx => Q n lx /\ tlevel (lx_token lx) <= level b /\ tlevel (lx_token lx) <= rl e)) ->
    pend nl (c_expression e ++ c) R.
  Proof.
    intros S L T HR H. eapply pend_mono; [|apply (spec_reads alnum e ctx b S L nl c Q T H)].
    intros lx (G & LD). apply HR; auto. apply g_call. exact G.
  Qed.
  Lemma same_refl n e : n_item n = e -> same n e.
  Proof. intros <-. reflexivity. Qed.
  Lemma same_node n x : same n (n_item x) -> strip_node strip_expression n = strip_node strip_expression x.
  Proof. intros H. unfold strip_node. f_equal. exact H. Qed.

  (** ** One token *)
  Lemma g_token f ctx b t x c nl lx Q h :
    on nl t x c lx -> nth (token_index t) DEF_CONTEXT X_____ = h -> h <> X_____ ->
    body_expr_handler h = token_expression f ->
    pend false c (fun lx' => gets (body_nested b (in_loc (view_of lx) (f (view_of lx)))) lx' Q) ->
    gets (body_expression ctx b) lx Q.
  Proof.
    intros O Hh N Hb H. eapply g_expression; [apply (on_token _ _ _ _ _ O)|exact Hh|exact N|].
    rewrite Hb. unfold token_expression. apply g_bind, g_look. apply g_bind. eapply g_consume; [exact O|].
    eapply pend_mono; [|exact H]. intros lx' G. apply g_ret. exact G.
  Qed.
  Lemma spec_token e f t x h :
    (forall nl c (K : lexer -> Prop), tails e c -> (forall lx, on nl t x c lx -> K lx) -> pend nl (GBytes x :: c) K) ->
    c_expression e = [GBytes x] -> leftmost e = e ->
    nth (token_index t) DEF_CONTEXT X_____ = h -> h <> X_____ -> opening e t ->
    body_expr_handler h = token_expression f ->
    (forall nl c lx, on nl t x c lx -> f (view_of lx) = e) ->
    Spec e.
  Proof.
    intros HP Hc Hl Hh N HO Hb Hf ctx b nl c Q L T H. rewrite Hc. cbn [app]. apply HP; auto. intros lx O. split.
    - eapply g_token; eauto. erewrite Hf by exact O. eapply pend_mono; [|apply (H (in_loc (view_of lx) e)); reflexivity].
      intros lx' G. apply G.
    - rewrite Hl. eapply lead_on; eauto. now rewrite Hh.
  Qed.
  Lemma spec_this : Spec E_This.
  Proof.
    eapply (spec_token _ (fun _ => E_This) T_This (bs "this")); try reflexivity; try discriminate; try exact I.
    intros nl c K T HK. apply (pend_kw alnum nl _ T_This); auto.
  Qed.
  Lemma identifier_pend nl s c (K : lexer -> Prop) : identifier_name s -> tail0 c ->
    (forall lx, on nl T_Identifier s c lx -> K lx) -> pend nl (GBytes s :: c) K.
  Proof.
    intros ((W & E) & F) T HK. rewrite <- E in HK. apply pend_any_word; auto.
    destruct W as (b' & w & _ & W & _). exact W.
  Qed.
  Lemma word_pend nl s c (K : lexer -> Prop) : ascii_word s -> tail0 c ->
    (forall lx, on nl (keyword_or_identifier s) s c lx -> K lx) -> pend nl (GBytes s :: c) K.
  Proof. intros (W & F) T HK. apply pend_word; eauto. Qed.
  Lemma key_pend nl s c (K : lexer -> Prop) :
    ascii_word s \/ (Forall (fun b => word_byte b = true) s /\ foreign_start alnum s) -> tail0 c ->
    (forall lx, on nl (keyword_or_identifier s) s c lx -> K lx) -> pend nl (GBytes s :: c) K.
  Proof. intros [(W & F)|(W & F)] T HK; apply pend_any_word; auto; [now left|now right]. Qed.
  Lemma number_more x t more : number x t more -> forall b, more b = true -> tail_b b = false.
  Proof.
    intros H b M. assert (G : tail_b b = true -> False); [|destruct (tail_b b); auto; exfalso; auto].
    intros T. revert M T. assert (E : forall f : byte -> bool, forallb (fun b => negb (f b) || negb (tail_b b)) all_bytes = true -> f b = true -> tail_b b = true -> False).
    { intros f G F T. rewrite forallb_forall in G. specialize (G b (in_all_bytes b)). rewrite F, T in G. discriminate. }
    destruct H as [m more M|m more e d ds M _ _ _|m more e sg ds M _ _ _|y ds _ _|y ds _ _|y ds _ _].
    1: destruct M.
    all: intros F T; match goal with F : ?X = true, T : tail_b ?y = true |- _ => let g := eval pattern y in X in
      match g with ?h _ => apply (E h); [vm_compute; reflexivity|exact F|exact T] end end.
  Qed.
  Lemma number_pend nl x t more c (K : lexer -> Prop) : number x t more -> tail c ->
    (forall lx, on nl t x c lx -> K lx) -> pend nl (GBytes x :: c) K.
  Proof.
    intros H T HK. eapply pend_number; [exact H| |exact HK]. eapply heads_mono; [|exact T].
    intros b Hb. apply negb_true_iff. destruct (more b) eqn:E; auto. rewrite (number_more _ _ _ H _ E) in Hb. discriminate.
  Qed.
  Lemma text_of nl t x c lx : on nl t x c lx -> v_text (view_of lx) = x.
  Proof. intros O. cbn [view_of v_text]. apply (on_text _ _ _ _ _ O). Qed.
  Lemma spec_identifier s : identifier_name s -> Spec (E_Identifier s).
  Proof.
    intros H. eapply (spec_token _ (fun v => E_Identifier (v_text v)) T_Identifier s); try reflexivity; try discriminate; try exact I.
    - intros nl c K T HK. apply identifier_pend; auto.
    - intros nl c lx O. now rewrite (text_of _ _ _ _ _ O).
  Qed.

  Lemma spec_literal l : literal_fits l -> Spec (E_Literal l).
  Proof.
    destruct l as [| | | |s|s|s|s]; intros H; cbn [literal_fits] in H.
    - eapply (spec_token _ (fun _ => E_Literal L_Undefined) T_LiteralUndefined (bs "undefined")); try reflexivity; try discriminate; try exact I.
      intros nl c K T HK. apply (pend_kw alnum nl _ T_LiteralUndefined); auto.
    - eapply (spec_token _ (fun _ => E_Literal L_Null) T_LiteralNull (bs "null")); try reflexivity; try discriminate; try exact I.
      intros nl c K T HK. apply (pend_kw alnum nl _ T_LiteralNull); auto.
    - eapply (spec_token _ (fun _ => E_Literal L_True) T_LiteralTrue (bs "true")); try reflexivity; try discriminate; try exact I.
      intros nl c K T HK. apply (pend_kw alnum nl _ T_LiteralTrue); auto.
    - eapply (spec_token _ (fun _ => E_Literal L_False) T_LiteralFalse (bs "false")); try reflexivity; try discriminate; try exact I.
      intros nl c K T HK. apply (pend_kw alnum nl _ T_LiteralFalse); auto.
    - destruct H as (more & H).
      eapply (spec_token _ (fun v => E_Literal (L_Number (v_text v))) T_LiteralNumber s); try reflexivity; try discriminate; try exact I.
      + intros nl c K T HK. eapply number_pend; eauto.
      + intros nl c lx O. now rewrite (text_of _ _ _ _ _ O).
    - destruct H as (more & H).
      eapply (spec_token _ (fun v => E_Literal (L_Binary (v_text v))) T_LiteralBinary s); try reflexivity; try discriminate; try exact I.
      + intros nl c K T HK. eapply number_pend; eauto.
      + intros nl c lx O. now rewrite (text_of _ _ _ _ _ O).
    - eapply (spec_token _ (fun v => E_Literal (L_String (v_text v))) T_LiteralString s); try reflexivity; try discriminate; try exact I.
      + intros nl c K T HK. apply pend_string; auto.
      + intros nl c lx O. now rewrite (text_of _ _ _ _ _ O).
    - destruct H as (b0 & body0 & flags & -> & HI & HB & HF). intros ctx b nl c Q L T H. cbn [c_expression c_literal]. flat.
      change ("/"%byte :: b0 :: body0 ++ "/"%byte :: flags) with (bs "/" ++ (b0 :: body0) ++ bs "/" ++ flags).
      apply pend_split. apply (pend_punct alnum nl (bs "/") T_OperatorDivision).
      { apply punctuator_in. vm_compute. reflexivity. }
      { cbn [app]. apply heads_bytes. destruct b0; try reflexivity; exfalso; apply HB; cbn; tauto. }
      intros lx O. split; [|eapply lead_on; [exact O|discriminate|exact I]].
      eapply g_expression; [apply (on_token _ _ _ _ _ O)|reflexivity|discriminate|].
      cbn [body_expr_handler]. apply g_call. cbn [body]. unfold body_regular_expression, get_start.
      apply g_bind, g_bind, g_look, g_ret, g_bind. unfold read_regex.
      eapply gets_regex_text; [exact HI|exact HF|apply T|exact O|]. intros lx' S. apply g_ret.
      apply g_bind, g_bind, g_look, g_ret, g_bind. unfold expect. apply g_bind, g_look.
      rewrite (is_true_eq T_LiteralRegEx lx') by apply (st_token _ _ _ S).
      eapply g_consume_stand; [exact S|]. match goal with |- pend _ _ (fun lx'' => _ _ (Ret ?m) _ _) => eapply pend_mono; [|apply (H m)]; [|reflexivity] end.
      intros lx2 (G & _). apply g_ret. exact G.
  Qed.

  (** ** Operators *)
  Lemma g_nested b n lx h Q : nth (token_index (lx_token lx)) (LUT b) None = Some h ->
    lx_asi lx <> ImplicitSemicolon \/ (lx_token lx <> T_OperatorIncrement /\ lx_token lx <> T_OperatorDecrement) ->
    gets (body_nested_handler h n) lx (fun n' lx' => gets (body_nested b n') lx' Q) ->
    gets (body_nested b n) lx Q.
  Proof.
    intros H N G. unfold body_nested. apply g_bind, g_look. rewrite (handler_some b lx h H N).
    apply g_bind, g_call. cbn [body]. eapply gets_mono; [|exact G]. intros n' lx' G'. apply g_call. exact G'.
  Qed.
  (** Tokens that continue an expression of any binding power. *)
  Lemma g_nested_on b n nl t x c lx h Q : on nl t x c lx -> (forall b, nth (token_index t) (LUT b) None = Some h) ->
    t <> T_OperatorIncrement -> t <> T_OperatorDecrement ->
    gets (body_nested_handler h n) lx (fun n' lx' => gets (body_nested b n') lx' Q) ->
    gets (body_nested b n) lx Q.
  Proof.
    intros O H N1 N2 G. eapply g_nested; [rewrite (on_token _ _ _ _ _ O); apply H| |exact G].
    right. rewrite (on_token _ _ _ _ _ O). auto.
  Qed.

  Definition First (e : expression) : Prop := 0 < ll e -> exists b, first (c_expression e) = Some b /\ starter_byte b = true.

  Lemma tails_dot o c : rl_in 19 o = closed_level -> in_parens 19 o = false -> 0 < ll o -> ~ number_literal o -> tail0 c -> tails o c.
  Proof.
    unfold rl_in. intros R P L N T. rewrite P in R. unfold tails.
    destruct o as [| | |[| | | |s|s|s|s]| | | | | | | | | | | | | | | | |]; cbn in P, L, N |- *; try exact T; try discriminate P; try (exfalso; lia); try (exfalso; tauto).
    all: try (destruct op; cbn in P; discriminate P).
  Qed.
  Lemma spec_member o p : Spec (n_item o) -> expression_fits (E_Member o p) -> Spec (E_Member o p).
  Proof.
    intros S (W & L0 & R & N) ctx b nl c Q L T H. cbn [c_expression leftmost]. rewrite <- !app_assoc.
    cbn [ll] in L. apply spec_bound; auto.
    - intros HP. eapply tails_dot; eauto. apply heads_bytes. reflexivity.
    - intros n E. flat. apply pend_accessor; [apply W|apply W|apply (tails_tail0 _ _ T)|].
      intros lx O A. split; [|rewrite R; lv].
      eapply g_nested_on; [exact O|intros b0; destruct b0; reflexivity|discriminate|discriminate|].
      cbn [body_nested_handler]. apply g_bind, g_look, g_bind. eapply g_consume; [exact O|].
      eapply pend_mono; [|apply (pend_all alnum (fun m => same m (E_Member o p)) _ _ _ (ex_intro _ (Node 0%N 0%N (E_Member o p)) eq_refl) H)].
      intros lx' G. apply g_bind, g_look, g_ret. apply G.
      unfold same. cbn [n_item strip_expression]. f_equal; [apply same_node, E|].
      unfold strip_id, strip_node. cbn [in_loc n_item view_of v_accessor]. now rewrite A.
  Qed.
  Lemma spec_computed o p : Spec (n_item o) -> Spec (n_item p) -> expression_fits (E_ComputedMember o p) -> Spec (E_ComputedMember o p).
  Proof.
    intros S Sp (L0 & R & Lp) ctx b nl c Q L T H. cbn [c_expression leftmost]. rewrite <- !app_assoc.
    cbn [ll] in L. apply spec_bound; auto.
    - intros HP. apply tail_tails. flat. htac.
    - intros n E. flat. tok lx O. split; [|rewrite R; lv].
      eapply g_nested_on; [exact O|intros b0; destruct b0; reflexivity|discriminate|discriminate|].
      cbn [body_nested_handler]. apply g_bind. eapply g_consume; [exact O|].
      eapply (p_expr (n_item p) CtxDefault BP_ANY); [exact Sp|exact Lp|htac| |].
      + intros lx1 G _. apply g_bind. exact G.
      + intros m Em. cbv beta. tok lx2 O2. split; [|split; lv].
        apply g_bind. eapply g_expect; [exact O2|].
        eapply pend_mono; [|apply (pend_all alnum (fun m => same m (E_ComputedMember o p)) _ _ _ (ex_intro _ (Node 0%N 0%N (E_ComputedMember o p)) eq_refl) H)].
        intros lx3 G. apply g_bind. unfold get_end. apply g_bind, g_look, g_ret, g_ret. apply G.
        unfold same. cbn [n_item strip_expression]. f_equal; apply same_node; assumption.
  Qed.

  Lemma spec_meta m p : expression_fits (E_MetaProperty m p) -> Spec (E_MetaProperty m p).
  Proof.
    intros (Em & Ep) ctx b nl c Q L T H. cbn [c_expression leftmost]. flat. rewrite Em, Ep.
    kw lx O. split; [|eapply lead_on; [exact O|discriminate|exact I]].
    eapply g_expression; [apply (on_token _ _ _ _ _ O)|reflexivity|discriminate|].
    cbn [body_expr_handler]. apply g_bind, g_look, g_bind. eapply g_consume; [exact O|].
    apply pend_accessor; [apply Forall_forall, forallb_forall; vm_compute; reflexivity|do 2 eexists; split; reflexivity|apply (tails_tail0 _ _ T)|].
    intros lx1 O1 A. apply g_bind, g_look. rewrite (is_true_eq T_Accessor lx1) by apply (on_token _ _ _ _ _ O1).
    cbv zeta. apply g_bind, g_call. cbn [body]. unfold body_meta_property. apply g_bind, g_look. cbn [view_of v_accessor].
    rewrite A. change (str_eqb (bs "target") (bs "target")) with true. cbv iota.
    apply g_bind, g_ret, g_bind, g_look, g_ret. unfold end_then_consume. apply g_bind, g_bind, g_look, g_bind.
    eapply g_consume; [exact O1|].
    eapply pend_mono; [|apply (pend_all alnum (fun n => same n (E_MetaProperty m p)) _ _ _ (ex_intro _ (Node 0%N 0%N (E_MetaProperty m p)) eq_refl) H)].
    intros lx3 G. apply g_ret, g_ret. apply G.
    unfold same. cbn [n_item strip_expression in_loc]. unfold strip_id, strip_node. cbn [n_item]. now rewrite Em, Ep.
  Qed.

  (** Elements of argument lists and arrays. *)
  Definition sames (ns xs : list expr_node) : Prop := map (strip_node strip_expression) ns = map (strip_node strip_expression) xs.
  Lemma sames_cons n ns x xs : same n (n_item x) -> sames ns xs -> sames (n :: ns) (x :: xs).
  Proof. intros H1 H2. unfold sames. cbn [map]. f_equal; [apply same_node, H1|exact H2]. Qed.
  Definition closing (t : token) : bool :=
    match t with T_ParenClose | T_BracketClose | T_Comma | T_BraceClose | T_Semicolon => true | _ => false end.
  Lemma starter_closing lx t : starter lx -> closing t = true -> lx_token lx <> t.
  Proof. intros S H. apply starter_not; auto. destruct t; try discriminate H; reflexivity. Qed.
  Definition Spread (e : expression) : Prop := match e with E_Spread x => Spec (n_item x) | _ => True end.
  Lemma p_elem e ctx nl c Q (R : lexer -> Prop) : ctx <> CtxDefault -> Spec e -> Spread e -> list_element e -> tail c ->
    (forall lx, gets (call (F_expression ctx BP_B0)) lx Q -> (forall t, closing t = true -> lx_token lx <> t) -> R lx) ->
    (forall n, same n e -> pend false c (fun lx => Q n lx /\ tlevel (lx_token lx) <= 1)) ->
    pend nl (c_expression e ++ c) R.
  Proof.
    intros C S Sx LE T HR H. destruct LE as [(L1 & L2)|LE].
    - eapply (p_expr e ctx BP_B0); [exact S|exact L1|exact T| |].
      + intros lx G LD. apply HR; [exact G|]. intros t. apply starter_closing. apply LD.
      + intros n E. eapply pend_mono; [|apply (H n E)]. intros lx (G & LV). cbn [level]. split; [exact G|lia].
    - destruct e as [| | | | | | | | | | | | | | | |x| | | |]; try destruct LE. cbn [c_expression]. flat.
      tok lx O. apply HR; [|intros t Ht; rewrite (on_token _ _ _ _ _ O); destruct t; discriminate].
      apply g_call. cbn [body]. unfold body_expression. apply g_bind, g_look.
      replace (bound_handler ctx (view_of lx)) with X_SPRD
        by (unfold bound_handler; cbn [view_of v_token]; rewrite (on_token _ _ _ _ _ O); destruct ctx; [congruence|reflexivity|reflexivity]).
      apply g_bind, g_call. cbn [body body_expr_handler]. unfold start_then_consume. apply g_bind, g_bind, g_look, g_bind.
      eapply g_consume; [exact O|]. eapply (p_expr (n_item x) CtxDefault BP_B0); [exact Sx|assumption|exact T| |].
      + intros lx1 G _. apply g_ret, g_bind. exact G.
      + intros n E. eapply pend_mono; [|apply (pend_all alnum (fun m => same m (E_Spread x)) _ _ _ (ex_intro _ (Node 0%N 0%N (E_Spread x)) eq_refl) H)].
        intros lx1 G. cbn [level].
        assert (E' : forall s e, same (Node s e (E_Spread n)) (E_Spread x)).
        { intros s e. unfold same. cbn [n_item strip_expression]. f_equal. apply same_node, E. }
        destruct (G _ (E' 0%N 0%N)) as (_ & LV).
        split; [|lia]. apply g_ret, g_call. cbn [body]. apply nested_stop; [exact LV|]. apply (G _ (E' _ _)).
  Qed.
  Lemma p_args_rest args : Forall (fun x => Spec (n_item x) /\ Spread (n_item x) /\ list_element (n_item x)) args ->
    forall c (Q : list expr_node -> lexer -> Prop), (forall ns lx, sames ns args -> on false T_ParenClose (bs ")") c lx -> Q ns lx) ->
    pend false (c_list_rest c_expression args ++ GBytes (bs ")") :: c)
      (fun lx => gets (call F_call_arguments_rest) lx Q /\ tlevel (lx_token lx) <= 1).
  Proof.
    induction args as [|x args IH]; intros F c Q H; cbn [c_list_rest]; flat.
    - tok lx O. split; [|lv]. apply g_call. cbn [body]. unfold body_call_arguments_rest. apply g_bind, g_look.
      decide_is. apply g_ret. apply H; [reflexivity|exact O].
    - inversion F as [|x' l' (S & Sp & LE) F' E1]; subst. tok lx O. split; [|lv].
      apply g_call. cbn [body]. unfold body_call_arguments_rest. apply g_bind, g_look. do 2 decide_is.
      apply g_bind. eapply g_consume; [exact O|]. apply pend_sp.
      eapply (p_elem (n_item x) CtxCall); [discriminate|exact S|exact Sp|exact LE|destruct args; cbn [c_list_rest]; flat; htac| |].
      + intros lx1 G N. apply g_bind, g_look. rewrite is_false_ne by (apply N; reflexivity). apply g_bind. exact G.
      + intros n E. cbv beta. eapply pend_mono; [|apply (IH F' c (fun ns lx => Q (n :: ns) lx))].
        * intros lx1 (G & LV). split; [|exact LV]. apply g_bind. eapply gets_mono; [|exact G]. intros ns lx2 HQ. apply g_ret. exact HQ.
        * intros ns lx1 Es O1. apply H; [|exact O1]. apply sames_cons; assumption.
  Qed.
  Lemma list_rest_tail {A : Set} (f : A -> code) (l : list (node A)) c : tail c -> tail (c_list_rest f l ++ c).
  Proof. intros T. destruct l; [exact T|]. cbn [c_list_rest]. flat. htac. Qed.
  Lemma p_args args : Forall (fun x => Spec (n_item x) /\ Spread (n_item x) /\ list_element (n_item x)) args ->
    forall c (Q : list expr_node -> lexer -> Prop), (forall ns lx, sames ns args -> on false T_ParenClose (bs ")") c lx -> Q ns lx) ->
    pend false (c_list c_expression args ++ GBytes (bs ")") :: c) (fun lx => gets (call F_call_arguments) lx Q).
  Proof.
    intros F c Q H. destruct args as [|x args]; cbn [c_list]; flat.
    - tok lx O. apply g_call. cbn [body]. unfold body_call_arguments. apply g_bind, g_look. decide_is. apply g_ret.
      apply H; [reflexivity|exact O].
    - inversion F as [|x' l' (S & Sp & LE) F' E1]; subst.
      eapply (p_elem (n_item x) CtxCall); [discriminate|exact S|exact Sp|exact LE|apply list_rest_tail; htac| |].
      + intros lx1 G N. apply g_call. cbn [body]. unfold body_call_arguments. apply g_bind, g_look.
        rewrite is_false_ne by (apply N; reflexivity). apply g_bind. exact G.
      + intros n E. cbv beta. eapply pend_mono; [|apply (p_args_rest args F' c (fun ns lx => Q (n :: ns) lx))].
        * intros lx1 (G & LV). split; [|exact LV]. apply g_bind. eapply gets_mono; [|exact G]. intros ns lx2 HQ. apply g_ret. exact HQ.
        * intros ns lx1 Es O1. apply H; [|exact O1]. apply sames_cons; assumption.
  Qed.
  Lemma spec_call x args : Spec (n_item x) -> Forall (fun x => Spec (n_item x) /\ Spread (n_item x)) args ->
    expression_fits (E_Call x args) -> Spec (E_Call x args).
  Proof.
    intros S F (R & LE) ctx b nl c Q L T H. cbn [c_expression leftmost ll] in *. flat. apply S; [exact L|apply tail_tails; htac|].
    intros n E. tok lx O. split; [|rewrite R; lv].
    eapply g_nested_on; [exact O|intros b0; destruct b0; reflexivity|discriminate|discriminate|].
    cbn [body_nested_handler]. unfold start_then_consume. apply g_bind, g_bind, g_look, g_bind. eapply g_consume; [exact O|].
    eapply pend_mono; [intros lx1 G; apply g_ret, g_bind; exact G|].
    apply p_args.
    { rewrite Forall_forall in *. intros y Hy. destruct (F y Hy). auto. }
    intros ns lx1 Es O1. unfold end_then_consume. apply g_bind, g_bind, g_look, g_bind. eapply g_consume; [exact O1|].
    eapply pend_mono; [|apply H].
    - intros lx2 (G & _). apply g_ret, g_ret. exact G.
    - unfold same. cbn [n_item strip_expression]. f_equal; [apply same_node, E|exact Es].
  Qed.

  (** ** Operators *)
  Definition otoken (op : operator) : token := punct_token (operator_str op).
  Definition operators : list operator := binary_operators ++ prefix_operators ++ postfix_operators.
  Definition word_op (op : operator) : bool := match operator_category op with CatWord => true | _ => false end.
  Definition operator_row (op : operator) : bool :=
    match operator_from_token (otoken op) with Some op' => operator_eqb op' op | None => false end
    && (if word_op op
        then forallb word_byte (operator_str op) && match operator_str op with b :: _ => word_first b | [] => false end
             && token_eqb (keyword_or_identifier (operator_str op)) (otoken op)
        else punctuator_b (operator_str op) (otoken op) && negb (extends (operator_str op) x20)
             && match operator_str op with b :: _ => tail_b b | [] => false end).
  Lemma operator_rows : forallb operator_row operators = true.
  Proof. vm_compute. reflexivity. Qed.
  Lemma operator_row_of op : In op operators -> operator_row op = true.
  Proof. intros H. assert (G := operator_rows). rewrite forallb_forall in G. apply G, H. Qed.
  Lemma otoken_operator op : In op operators -> operator_from_token (otoken op) = Some op.
  Proof.
    intros H. apply operator_row_of in H. unfold operator_row in H. apply andb_true_iff in H as [H _].
    destruct (operator_from_token (otoken op)); [|discriminate]. apply operator_eqb_eq in H. now subst.
  Qed.
  Lemma pend_operator nl op c (K : lexer -> Prop) : In op operators ->
    (if word_op op then tail0 c else heads (fun b => negb (extends (operator_str op) b)) c) ->
    (forall lx, on nl (otoken op) (operator_str op) c lx -> K lx) -> pend nl (GBytes (operator_str op) :: c) K.
  Proof.
    intros H T HK. apply operator_row_of in H. unfold operator_row in H. apply andb_true_iff in H as [_ H].
    destruct (word_op op).
    - apply (pend_kw alnum nl _ (otoken op)); assumption.
    - apply andb_true_iff in H as [H _]. apply andb_true_iff in H as [H _].
      apply (pend_punct alnum nl _ (otoken op)); auto using punctuator_in.
  Qed.
  Lemma operator_tail op c : In op operators -> word_op op = false -> tail (GBytes (operator_str op) :: c).
  Proof.
    intros H W. apply operator_row_of in H. unfold operator_row in H. apply andb_true_iff in H as [_ H]. rewrite W in H.
    apply andb_true_iff in H as [_ H]. destruct (operator_str op); [discriminate|]. now apply heads_bytes.
  Qed.
  Lemma operator_blank op c : In op operators -> word_op op = false -> heads (fun b => negb (extends (operator_str op) b)) (GBytes [x20] :: c).
  Proof.
    intros H W. apply operator_row_of in H. unfold operator_row in H. apply andb_true_iff in H as [_ H]. rewrite W in H.
    apply andb_true_iff in H as [H _]. apply andb_true_iff in H as [_ H]. now apply heads_bytes.
  Qed.
  Lemma operator_first op code c : In op operators -> word_op op = false -> ~ sticks op code ->
    (exists b, first code = Some b /\ starter_byte b = true) ->
    heads (fun b => negb (extends (operator_str op) b)) (code ++ c).
  Proof.
    intros H W N (b & F & S). eapply first_heads; [exact F|].
    apply operator_row_of in H. unfold operator_row in H. apply andb_true_iff in H as [_ H]. rewrite W in H.
    apply andb_true_iff in H as [H _]. apply andb_true_iff in H as [H _]. apply punctuator_in in H.
    apply negb_true_iff. destruct (extends (operator_str op) b) eqn:E; [|reflexivity]. exfalso. apply N. unfold sticks.
    destruct (starter_extends _ _ _ H S E) as [(-> & ->)|[(-> & ->)|(-> & ->)]]; auto.
  Qed.
  Lemma operator_sp op c : In op operators -> word_op op = false ->
    heads (fun b => negb (extends (operator_str op) b)) c -> heads (fun b => negb (extends (operator_str op) b)) (GPretty x20 :: c).
  Proof.
    intros H W T. apply heads_sp; [|exact T]. apply operator_row_of in H. unfold operator_row in H. apply andb_true_iff in H as [_ H]. rewrite W in H.
    apply andb_true_iff in H as [H _]. apply andb_true_iff in H as [_ H]. exact H.
  Qed.
  Lemma first_bound o k : First (n_item o) -> 0 < ll (n_item o) -> exists b, first (c_bound c_expression o k) = Some b /\ starter_byte b = true.
  Proof.
    intros F L. unfold c_bound. destruct (Nat.ltb _ k).
    - exists "("%byte. split; reflexivity.
    - apply F, L.
  Qed.
  Lemma lvalue_strip e : is_lvalue (strip_expression e) = is_lvalue e.
  Proof. destruct e; reflexivity. Qed.
  Lemma same_lvalue n e : same n e -> is_lvalue (n_item n) = is_lvalue e.
  Proof. intros H. rewrite <- lvalue_strip, H. apply lvalue_strip. Qed.

  Lemma binary_split op : In op binary_operators -> In op plain_binary \/ In op assignment_operators.
  Proof. intros H. unfold binary_operators in H. apply in_app_or in H as [H|H]; [left|right; exact H]. exact H. Qed.
  Lemma binary_level op : In op binary_operators -> tlevel (otoken op) = olevel op /\ rlevel op < closed_level.
  Proof.
    intros H. assert (G : forallb (fun op => (tlevel (otoken op) =? olevel op) && (rlevel op <? closed_level)) binary_operators = true) by (vm_compute; reflexivity).
    rewrite forallb_forall in G. specialize (G op H). apply andb_true_iff in G as [G1 G2]. apply Nat.eqb_eq in G1. apply Nat.ltb_lt in G2. auto.
  Qed.
  Lemma word_spacing op e : word_op op = true -> spacing_left op e = true /\ spacing_right op e = true.
  Proof. unfold word_op, spacing_left, spacing_right. destruct (operator_category op); intros H; try discriminate H; auto. Qed.
  Lemma binary_not_step op : In op binary_operators -> otoken op <> T_OperatorIncrement /\ otoken op <> T_OperatorDecrement.
  Proof.
    intros H. assert (G : forallb (fun op => negb (token_eqb (otoken op) T_OperatorIncrement) && negb (token_eqb (otoken op) T_OperatorDecrement)) binary_operators = true) by (vm_compute; reflexivity).
    rewrite forallb_forall in G. specialize (G op H). apply andb_true_iff in G as [G1 G2].
    split; intros E; rewrite E in *; discriminate.
  Qed.

  Lemma spec_binary op l r : Spec (n_item l) -> Spec (n_item r) -> First (n_item r) -> expression_fits (E_Binary op l r) -> Spec (E_Binary op l r).
  Proof.
    intros Sl Sr Fr (Iop & Ll & Lr & Hl & Hr & HA & HS) ctx b nl c Q L T H. cbn [c_expression leftmost ll] in *. rewrite <- !app_assoc.
    assert (Iops : In op operators) by (unfold operators; apply in_or_app; left; exact Iop).
    destruct (binary_level op Iop) as (TL & RL).
    apply spec_bound; [exact Sl|exact Ll|unfold ll_in; lia| |].
    { intros _. apply tail_tails. unfold space_if. destruct (spacing_left op (n_item l)) eqn:E; cbn [app]; flat; [htac|].
      apply heads_sp; [reflexivity|]. apply operator_tail; [exact Iops|].
      destruct (word_op op) eqn:W; [|reflexivity]. destruct (word_spacing op (n_item l) W). congruence. }
    intros n E.
    assert (G : forall nl, pend nl (wstr (operator_str op) ++ space_if (spacing_right op (n_item r)) ++ c_bound c_expression r (operator_bp op + 1) ++ c)
      (fun lx => gets (body_nested b n) lx Q /\ tlevel (lx_token lx) <= rl_in (operator_bp op) (n_item l))).
    { intros nl'. unfold wstr. cbn [app]. apply pend_operator; [exact Iops| |].
      { unfold space_if. destruct (word_op op) eqn:W.
        - destruct (word_spacing op (n_item r) W) as (_ & ->). cbn [app]. htac.
        - destruct (spacing_right op (n_item r)) eqn:ER; cbn [app].
          + apply operator_blank; assumption.
          + unfold sp. cbn [app]. apply operator_sp; [assumption|assumption|]. apply operator_first; [assumption|assumption| |].
            * destruct HS as [HS|HS]; [discriminate|exact HS].
            * apply first_bound; assumption. }
      intros lx O. split; [|rewrite (on_token _ _ _ _ _ O), TL; unfold rl_in in *; lia].
      assert (NX : pend false (space_if (spacing_right op (n_item r)) ++ c_bound c_expression r (operator_bp op + 1) ++ c)
        (fun lx' => gets (right <- call (F_expression CtxDefault (right_bp op)) ;; Ret (Node (n_start n) (n_end right) (E_Binary op n right))) lx'
           (fun n' lx'' => gets (body_nested b n') lx'' Q))).
      { assert (N1 : pend false (c_bound c_expression r (operator_bp op + 1) ++ c) (fun lx' => gets (right <- call (F_expression CtxDefault (right_bp op)) ;; Ret (Node (n_start n) (n_end right) (E_Binary op n right))) lx'
           (fun n' lx'' => gets (body_nested b n') lx'' Q))).
        { eapply pend_mono; [|apply (spec_bound alnum (operator_bp op + 1) r CtxDefault (right_bp op) false c
            (fun right lx' => gets (body_nested b (Node (n_start n) (n_end right) (E_Binary op n right))) lx' Q)); [exact Sr|exact Lr|exact Hr| |]].
          - intros lx1 (G & _). apply g_bind, g_call. cbn [body]. eapply gets_mono; [|exact G]. intros m lx2 Hm. apply g_ret. exact Hm.
          - intros _. apply tail_tails, T.
          - intros m Em. eapply pend_mono; [|apply (H (Node (n_start n) (n_end m) (E_Binary op n m)))].
            + intros lx1 (G & LV). cbn [rl] in LV. split; [|unfold rl_in; lia]. apply nested_stop; [unfold rlevel in LV; lia|exact G].
            + unfold same. cbn [n_item strip_expression]. f_equal; apply same_node; assumption. }
        unfold space_if. destruct (spacing_right op (n_item r)); cbn [app sp]; [apply pend_blank|apply pend_sp]; exact N1. }
      destruct (binary_split op Iop) as [B|B].
      - destruct (binary_nested op (otoken op) b (otoken_operator op Iops) B) as (h & Hh & Hb); [lia|].
        eapply (g_nested b n lx h); [rewrite (on_token _ _ _ _ _ O); exact Hh|right; rewrite (on_token _ _ _ _ _ O); apply binary_not_step, Iop|].
        rewrite Hb. unfold binary_handler. apply g_bind. eapply g_consume; [exact O|]. exact NX.
      - destruct (assign_nested op (otoken op) b (otoken_operator op Iops) B) as (h & Hh & Hb); [lia|].
        eapply (g_nested b n lx h); [rewrite (on_token _ _ _ _ _ O); exact Hh|right; rewrite (on_token _ _ _ _ _ O); apply binary_not_step, Iop|].
        rewrite Hb. unfold assign_handler. apply g_bind. eapply g_consume; [exact O|]. eapply pend_mono; [|exact NX].
        intros lx1 G. apply g_bind. rewrite (same_lvalue _ _ E), (HA B). apply g_ret.
        replace (right_bp op) with BP_B1 in G; [exact G|]. clear - B. cbn in B.
        repeat (destruct B as [<-|B]; [reflexivity|]). destruct B. }
    unfold space_if at 1. destruct (spacing_left op (n_item l)); cbn [app sp]; [apply pend_blank|apply pend_sp]; apply G.
  Qed.

  Lemma prefix_row op : In op prefix_operators -> op = O_New \/
    (nth (token_index (otoken op)) DEF_CONTEXT X_____ = X_OP).
  Proof. intros H. cbn in H. repeat (destruct H as [<-|H]; [first [left; reflexivity|right; reflexivity]|]). destruct H. Qed.
  Lemma spec_prefix op x : Spec (n_item x) -> First (n_item x) -> expression_fits (E_Prefix op x) -> Spec (E_Prefix op x).
  Proof.
    intros S F (Iop & Lx & HS) ctx b nl c Q L T H. cbn [c_expression leftmost] in *.
    assert (Iops : In op operators) by (unfold operators; apply in_or_app; right; apply in_or_app; left; exact Iop).
    flat. apply pend_operator; [exact Iops| |].
    { destruct (word_op op) eqn:W; unfold word_op in W.
      - destruct (operator_category op); try discriminate W. flat. htac.
      - destruct HS as [HS|HS]; [rewrite HS in W; discriminate W|].
        assert (W' : word_op op = false) by (unfold word_op; exact W).
        destruct (operator_category op); try discriminate W; cbn [app]; (apply operator_first; [assumption|assumption|exact HS|apply F; lia]). }
    intros lx O.
    assert (TK : nth (token_index (otoken op)) DEF_CONTEXT X_____ <> X_____ /\ opening (E_Prefix op x) (otoken op)).
    { clear - Iop. cbn in Iop. repeat (destruct Iop as [<-|Iop]; [split; [discriminate|exact I]|]). destruct Iop. }
    destruct TK as (TK1 & TK2).
    split; [|eapply lead_on; [exact O|exact TK1|exact TK2]].
    assert (NX : forall (R : expression -> lexer -> Prop), (forall n, same n (n_item x) -> pend false c (fun lx' => R (E_Prefix op n) lx' /\ tlevel (lx_token lx') <= 15 /\ tlevel (lx_token lx') <= rl (n_item x))) ->
       pend false ((match operator_category op with CatWord => w " " | _ => [] end) ++ c_expression (n_item x) ++ c)
         (fun lx' => gets (call (F_prefix op)) lx' R /\ lx_token lx' <> T_Accessor)).
    { intros R HR. assert (N1 : pend false (c_expression (n_item x) ++ c) (fun lx' => gets (call (F_prefix op)) lx' R /\ lx_token lx' <> T_Accessor)).
      { eapply (p_expr (n_item x) CtxDefault BP_B15); [exact S|exact Lx|exact T| |].
        - intros lx1 G LD. split; [|apply starter_not; [reflexivity|apply LD]]. apply g_call. cbn [body]. unfold body_prefix. apply g_bind. exact G.
        - intros n E. eapply pend_mono; [|apply (HR n E)]. intros lx1 (G & LV). split; [apply g_ret; exact G|exact LV]. }
      destruct (operator_category op); cbn [app w]; try exact N1. apply pend_blank. exact N1. }
    destruct (prefix_row op Iop) as [->|E].
    - eapply g_expression; [apply (on_token _ _ _ _ _ O)|reflexivity|discriminate|].
      cbn [body_expr_handler]. apply g_bind, g_look, g_bind. eapply g_consume; [exact O|].
      eapply pend_mono; [|eapply (NX (fun e lx' => forall s e', gets (body_nested b (Node s e' e)) lx' Q))].
      + intros lx1 (G & N). apply g_bind, g_look. rewrite is_false_ne by exact N. apply g_bind. eapply gets_mono; [|exact G].
        intros e lx2 G2. apply g_bind. unfold get_end. apply g_bind, g_look, g_ret, g_ret. apply G2.
      + intros n E. eapply pend_mono; [|apply (pend_all alnum (fun m => same m (E_Prefix O_New x)) _ _ _ (ex_intro _ (Node 0%N 0%N (E_Prefix O_New x)) eq_refl) H)].
        assert (E' : forall s e, same (Node s e (E_Prefix O_New n)) (E_Prefix O_New x)).
        { intros s e. unfold same. cbn [n_item strip_expression]. f_equal. apply same_node, E. }
        intros lx1 G. destruct (G _ (E' 0%N 0%N)) as (_ & LV). cbn [rl] in LV. split; [|lia]. intros s e. apply (G _ (E' s e)).
    - eapply g_expression; [apply (on_token _ _ _ _ _ O)|exact E|discriminate|].
      cbn [body_expr_handler]. apply g_bind, g_look. cbn [view_of v_token]. rewrite (on_token _ _ _ _ _ O), (otoken_operator op Iops).
      apply g_bind. eapply g_consume; [exact O|].
      eapply pend_mono; [|eapply (NX (fun e lx' => forall s e', gets (body_nested b (Node s e' e)) lx' Q))].
      + intros lx1 (G & N). apply g_bind. eapply gets_mono; [|exact G].
        intros e lx2 G2. apply g_bind. unfold get_end. apply g_bind, g_look, g_ret, g_ret. apply G2.
      + intros n E1. eapply pend_mono; [|apply (pend_all alnum (fun m => same m (E_Prefix op x)) _ _ _ (ex_intro _ (Node 0%N 0%N (E_Prefix op x)) eq_refl) H)].
        assert (E' : forall s e, same (Node s e (E_Prefix op n)) (E_Prefix op x)).
        { intros s e. unfold same. cbn [n_item strip_expression]. f_equal. apply same_node, E1. }
        intros lx1 G. destruct (G _ (E' 0%N 0%N)) as (_ & LV). cbn [rl] in LV. split; [|lia]. intros s e. apply (G _ (E' s e)).
  Qed.
  Lemma spec_postfix op x : Spec (n_item x) -> expression_fits (E_Postfix op x) -> Spec (E_Postfix op x).
  Proof.
    intros S (Iop & LV & R) ctx b nl c Q L T H. cbn [c_expression leftmost ll] in *. flat.
    apply S; [exact L|apply tail_tails; cbn in Iop; destruct Iop as [<-|[<-|[]]]; apply heads_bytes; reflexivity|].
    intros n E.
    assert (G : forall lx, on false (otoken op) (operator_str op) c lx -> gets (postfix_handler op n) lx (fun n' lx' => gets (body_nested b n') lx' Q)).
    { intros lx O. unfold postfix_handler. apply g_bind, g_look, g_bind. eapply g_consume; [exact O|].
      rewrite (same_lvalue _ _ E), LV. eapply pend_mono; [|apply H].
      - intros lx1 (G & _). apply g_bind, g_ret, g_ret. exact G.
      - unfold same. cbn [n_item strip_expression]. f_equal. apply same_node, E. }
    assert (A : forall lx, on false (otoken op) (operator_str op) c lx -> lx_asi lx <> ImplicitSemicolon).
    { intros lx O. destruct (on_asi _ _ _ _ _ O) as (ws & N & ->). unfold asi_of. rewrite (N eq_refl).
      cbn in Iop. destruct Iop as [<-|[<-|[]]]; discriminate. }
    cbn in Iop. destruct Iop as [<-|[<-|[]]]; cbn [operator_str]; tok lx O; (split; [|rewrite R; lv]).
    - eapply g_nested; [rewrite (on_token _ _ _ _ _ O); destruct b; reflexivity|left; exact (A lx O)|exact (G lx O)].
    - eapply g_nested; [rewrite (on_token _ _ _ _ _ O); destruct b; reflexivity|left; exact (A lx O)|exact (G lx O)].
  Qed.
  Lemma level_cases b : level b = 0 \/ level b = 1 \/ 5 <= level b.
  Proof. destruct b; cbn; lia. Qed.
  Lemma spec_conditional t y z : Spec (n_item t) -> Spec (n_item y) -> Spec (n_item z) -> expression_fits (E_Conditional t y z) -> Spec (E_Conditional t y z).
  Proof.
    intros St Sy Sz (Rt & Ly & Lz) ctx b nl c Q L T H. cbn [c_expression leftmost ll] in *. flat.
    apply St; [lia|apply tail_tails; htac|]. intros n E. apply pend_sp. tok lx O. split; [|lv].
    eapply (g_nested b n lx N_COND); [rewrite (on_token _ _ _ _ _ O); destruct b; cbn [level] in L; try lia; reflexivity|right; rewrite (on_token _ _ _ _ _ O); split; discriminate|].
    cbn [body_nested_handler]. apply g_bind. eapply g_consume; [exact O|]. apply pend_sp.
    eapply (p_expr (n_item y) CtxDefault BP_B1); [exact Sy|exact Ly|htac| |].
    { intros lx1 G _. apply g_bind. exact G. }
    intros m Em. cbv beta. apply pend_sp. tok lx1 O1. split; [|split; lv]. apply g_bind. eapply g_expect; [exact O1|]. apply pend_sp.
    eapply (p_expr (n_item z) CtxDefault BP_B1); [exact Sz|exact Lz|exact T| |].
    { intros lx2 G _. apply g_bind. exact G. }
    intros k Ek. eapply pend_mono; [|apply H].
    - intros lx2 (G & LV). cbn [rl] in LV. split; [apply g_ret; exact G|cbn [level]; lia].
    - unfold same. cbn [n_item strip_expression]. f_equal; apply same_node; assumption.
  Qed.
  Lemma p_sequence_rest es : Forall (fun x => Spec (n_item x) /\ element (n_item x)) es ->
    forall c (Q : list expr_node -> lexer -> Prop), tail c -> 
    (forall ns, sames ns es -> pend false c (fun lx => Q ns lx /\ tlevel (lx_token lx) = 0)) ->
    pend false (c_list_rest c_expression es ++ c) (fun lx => gets (call F_sequence) lx Q /\ tlevel (lx_token lx) <= 1).
  Proof.
    induction es as [|x es IH]; intros F c Q T H; cbn [c_list_rest]; flat.
    - eapply pend_mono; [|apply (H []); reflexivity]. intros lx (G & LV). split; [|lia].
      apply g_call. cbn [body]. unfold body_sequence. apply g_bind, g_look. rewrite is_false_ne by (intros E; rewrite E in LV; discriminate).
      apply g_ret. exact G.
    - inversion F as [|x' l' (S & LE1 & LE2) F' E1]; subst. tok lx O. split; [|lv].
      apply g_call. cbn [body]. unfold body_sequence. apply g_bind, g_look. decide_is.
      apply g_bind. eapply g_consume; [exact O|]. apply pend_sp.
      eapply (p_expr (n_item x) CtxDefault BP_B0); [exact S|exact LE1|apply list_rest_tail, T| |].
      + intros lx1 G _. apply g_bind. exact G.
      + intros n E. cbv beta. eapply pend_mono; [|apply (IH F' c (fun ns lx => Q (n :: ns) lx) T)].
        * intros lx1 (G & LV). split; [|cbn [level]; lia]. apply g_bind. eapply gets_mono; [|exact G]. intros ns lx2 HQ. apply g_ret. exact HQ.
        * intros ns Es. apply H. apply sames_cons; assumption.
  Qed.
  Lemma spec_sequence es : Forall (fun x => Spec (n_item x)) es -> expression_fits (E_Sequence es) -> Spec (E_Sequence es).
  Proof.
    intros F (Len & LE) ctx b nl c Q L T H. destruct es as [|x [|y es]]; cbn [List.length] in Len; try lia.
    cbn [c_expression leftmost ll c_list c_list_rest] in *. flat.
    assert (b = BP_ANY) as -> by (destruct b; cbn [level] in L; try lia; reflexivity).
    inversion F as [|? ? Sx F' E1]; subst. inversion F' as [|? ? Sy F2 E1]; subst.
    inversion LE as [|? ? (Ex1 & Ex2) LE' E1]; subst. inversion LE' as [|? ? (Ey1 & Ey2) LE2 E1]; subst.
    apply Sx; [cbn [level]; lia|apply tail_tails; htac|]. intros n E. tok lx O. split; [|lv].
    eapply (g_nested BP_ANY n lx N_SEQ); [rewrite (on_token _ _ _ _ _ O); reflexivity|right; rewrite (on_token _ _ _ _ _ O); split; discriminate|].
    cbn [body_nested_handler]. apply g_bind. eapply g_consume; [exact O|]. apply pend_sp.
    eapply (p_expr (n_item y) CtxDefault BP_B0); [exact Sy|exact Ey1|apply list_rest_tail, T| |].
    { intros lx1 G _. apply g_bind. exact G. }
    intros m Em. cbv beta.
    eapply pend_mono; [|apply (p_sequence_rest es)].
    - intros lx1 (G & LV). split; [|cbn [level]; lia]. apply g_bind. exact G.
    - rewrite Forall_forall in *. intros z Hz. split; [apply F2, Hz|apply LE2, Hz].
    - exact T.
    - intros ns Es. cbv beta.
      eapply pend_mono; [|apply (pend_all alnum (fun m => same m (E_Sequence (x :: y :: es))) _ _ _ (ex_intro _ (Node 0%N 0%N (E_Sequence (x :: y :: es))) eq_refl) H)].
      assert (E' : forall s e, same (Node s e (E_Sequence (n :: m :: ns))) (E_Sequence (x :: y :: es))).
      { intros s e. unfold same. cbn [n_item strip_expression]. f_equal. apply sames_cons; [exact E|apply sames_cons; assumption]. }
      intros lx1 G. destruct (G _ (E' 0%N 0%N)) as (_ & LV). cbn [rl] in LV. split; [|lia].
      apply g_bind. unfold get_end. apply g_bind, g_look, g_ret, g_ret. apply (G _ (E' _ _)).
  Qed.

  (** ** Arrays *)
  Definition after_element (lx : lexer) : Prop := lx_token lx = T_Comma \/ lx_token lx = T_BracketClose.
  Lemma after_level lx : after_element lx -> tlevel (lx_token lx) <= 1.
  Proof. intros [->| ->]; cbn; lia. Qed.
  Definition Slot (e : expression) : Prop := e = E_Void \/ (Spec e /\ Spread e /\ list_element e).
  Lemma p_slot e c Q : Slot e -> tail c ->
    (forall n, same n e -> pend false c (fun lx => Q n lx /\ after_element lx)) ->
    pend false (c_expression e ++ c) (fun lx => gets (call (F_expression CtxArray BP_B0)) lx Q /\ (e <> E_Void -> lx_token lx <> T_BracketClose)).
  Proof.
    intros [->|(S & Sp & LE)] T H.
    - cbn [c_expression app]. eapply pend_mono; [|apply (pend_all alnum (fun m => same m E_Void) _ _ _ (ex_intro _ (Node 0%N 0%N E_Void) eq_refl) H)].
      intros lx G. assert (E' : forall s e, same (Node s e E_Void) E_Void) by reflexivity. destruct (G _ (E' 0%N 0%N)) as (_ & A).
      split; [|congruence]. apply g_call. cbn [body]. unfold body_expression. apply g_bind, g_look.
      replace (bound_handler CtxArray (view_of lx)) with X_VOID
        by (unfold bound_handler; cbn [view_of v_token]; destruct A as [-> | ->]; reflexivity).
      apply g_bind, g_call. cbn [body body_expr_handler]. unfold get_start. apply g_bind, g_bind, g_look, g_ret, g_ret, g_call. cbn [body].
      apply nested_stop; [apply after_level, A|]. apply (G _ (E' _ _)).
    - eapply (p_elem e CtxArray); [discriminate|exact S|exact Sp|exact LE|exact T| |].
      + intros lx G N. split; [exact G|]. intros _. apply N. reflexivity.
      + intros n E. eapply pend_mono; [|apply (H n E)]. intros lx (G & A). split; [exact G|apply after_level, A].
  Qed.
  Lemma p_array_rest es : Forall (fun x => Slot (n_item x)) es ->
    forall c (Q : list expr_node -> lexer -> Prop), (forall ns lx, sames ns es -> on false T_BracketClose (bs "]") c lx -> Q ns lx) ->
    pend false (c_list_rest c_expression es ++ GBytes (bs "]") :: c) (fun lx => gets (call F_array_elements_rest) lx Q /\ after_element lx).
  Proof.
    induction es as [|x es IH]; intros F c Q H; cbn [c_list_rest]; flat.
    - tok lx O. split; [|right; apply (on_token _ _ _ _ _ O)]. apply g_call. cbn [body]. unfold body_array_elements_rest. apply g_bind, g_look.
      do 2 decide_is. apply g_ret. apply H; [reflexivity|exact O].
    - inversion F as [|? ? S F' E1]; subst. tok lx O. split; [|left; apply (on_token _ _ _ _ _ O)].
      apply g_call. cbn [body]. unfold body_array_elements_rest. apply g_bind, g_look. decide_is.
      apply g_bind. eapply g_consume; [exact O|]. apply pend_sp.
      eapply pend_mono; [|apply (p_slot (n_item x)); [exact S|apply list_rest_tail; htac|]].
      + intros lx1 (G & _). apply g_bind. exact G.
      + intros n E. cbv beta. eapply pend_mono; [|apply (IH F' c (fun ns lx => Q (n :: ns) lx))].
        * intros lx1 (G & A). split; [|exact A]. apply g_bind. eapply gets_mono; [|exact G]. intros ns lx2 HQ. apply g_ret. exact HQ.
        * intros ns lx1 Es O1. apply H; [|exact O1]. apply sames_cons; assumption.
  Qed.
  Lemma spec_array es : Forall (fun x => Spec (n_item x) /\ Spread (n_item x)) es -> expression_fits (E_Array es) -> Spec (E_Array es).
  Proof.
    intros F (LE & NV) ctx b nl c Q L T H. cbn [c_expression leftmost] in *. flat.
    assert (SL : Forall (fun x => Slot (n_item x)) es).
    { rewrite Forall_forall in *. intros x Hx. destruct (F x Hx) as (S & Sp). destruct (LE x Hx) as [V|V]; [left; exact V|right; auto]. }
    tok lx O. split; [|eapply lead_on; [exact O|discriminate|exact I]].
    eapply g_expression; [apply (on_token _ _ _ _ _ O)|reflexivity|discriminate|].
    cbn [body_expr_handler]. apply g_call. cbn [body]. unfold body_array, start_then_consume. apply g_bind, g_bind, g_look, g_bind.
    eapply g_consume; [exact O|].
    set (Q1 := fun es' (lx' : lexer) => gets (e_end <- end_then_consume ;; Ret (Node (v_start (view_of lx)) e_end (E_Array es'))) lx' (fun l lx'' => gets (body_nested b l) lx'' Q)).
    assert (E1 : forall ns lx', sames ns es -> on false T_BracketClose (bs "]") c lx' -> Q1 ns lx').
    { intros ns lx' Es O1. unfold Q1, end_then_consume. apply g_bind, g_bind, g_look, g_bind. eapply g_consume; [exact O1|].
      eapply pend_mono; [|apply H].
      - intros lx2 (G & _). apply g_ret, g_ret. exact G.
      - unfold same. cbn [n_item strip_expression]. f_equal. exact Es. }
    enough (G0 : pend false (c_list c_expression es ++ GBytes (bs "]") :: c) (fun lx' => gets (call F_array_elements) lx' Q1)).
    { eapply pend_mono; [|exact G0]. intros lx1 G. apply g_ret, g_bind. exact G. }
    destruct es as [|x es]; cbn [c_list]; flat.
    - tok lx1 O1. apply g_call. cbn [body]. unfold body_array_elements. apply g_bind, g_look. decide_is. apply g_ret. apply E1; [reflexivity|exact O1].
    - inversion SL as [|? ? S F' E2]; subst.
      assert (PS : pend false (c_expression (n_item x) ++ c_list_rest c_expression es ++ GBytes (bs "]") :: c)
        (fun lx' => (gets (call (F_expression CtxArray BP_B0)) lx' (fun e lx'' => gets (es <- call F_array_elements_rest ;; Ret (e :: es)) lx'' Q1)
                     /\ (n_item x <> E_Void -> lx_token lx' <> T_BracketClose)) /\ lx_token lx' <> T_BracketClose)).
      { assert (PS1 : pend false (c_expression (n_item x) ++ c_list_rest c_expression es ++ GBytes (bs "]") :: c)
          (fun lx' => gets (call (F_expression CtxArray BP_B0)) lx' (fun e lx'' => gets (es <- call F_array_elements_rest ;; Ret (e :: es)) lx'' Q1)
                     /\ (n_item x <> E_Void -> lx_token lx' <> T_BracketClose))).
        { apply p_slot; [exact S|apply list_rest_tail; htac|].
          intros n E. eapply pend_mono; [|apply (p_array_rest es F' c (fun ns lx => Q1 (n :: ns) lx))].
          - intros lx1 (G & A). split; [|exact A]. apply g_bind. eapply gets_mono; [|exact G]. intros ns lx2 HQ. apply g_ret. exact HQ.
          - intros ns lx1 Es O1. apply E1; [|exact O1]. apply sames_cons; assumption. }
        destruct S as [V|S].
        - apply pend_and; [exact PS1|]. rewrite V. cbn [c_expression app]. destruct es as [|y es]; [exfalso; apply (NV x); auto|].
          cbn [c_list_rest]. flat. tok lx1 O1. rewrite (on_token _ _ _ _ _ O1). discriminate.
        - eapply pend_mono; [|exact PS1]. intros lx' (G & N). split; [auto|]. apply N.
          intros V. rewrite V in S. destruct S as (_ & _ & [(X & _)|X]); [cbn in X; lia|exact X]. }
      eapply pend_mono; [|exact PS]. intros lx1 ((G & _) & N).
      apply g_call. cbn [body]. unfold body_array_elements. apply g_bind, g_look. rewrite is_false_ne by exact N. apply g_bind. exact G.
  Qed.

  (** ** Templates *)
  Lemma g_chunk nl q t e c lx (Q : unit -> lexer -> Prop) :
    template_inside q -> chunk_end t e -> on nl T_BraceClose (bs "}") (GBytes q :: GBytes e :: c) lx ->
    (forall lx', stand t c lx' -> lx_quasi lx' = q -> Q tt lx') -> gets read_template lx Q.
  Proof. intros H1 H2 O H. unfold read_template. eapply gets_chunk; eauto. intros lx' S E. apply g_ret. apply H; assumption. Qed.
  Definition chunks (es : list expr_node) (q : node str) (qs : list (node str)) : code :=
    GBytes (n_item q) :: c_template_rest c_expression qs es ++ [GBytes (bs "`")].
  Definition same_rest (r : list (node str) * list expr_node * N) (q : node str) qs es : Prop :=
    map strip_id (fst (fst r)) = map strip_id (q :: qs) /\ sames (snd (fst r)) es.
  (** On the token that ends with the first delimiter after [q]. *)
  Lemma g_template_rest es : Forall (fun x => Spec (n_item x) /\ 0 < ll (n_item x)) es ->
    forall q qs c lx Q, List.length qs = List.length es -> Forall (fun q => template_inside (n_item q)) qs ->
    lx_quasi lx = n_item q ->
    (match es with
     | [] => stand T_TemplateClosed c lx
     | x :: es' => match qs with
       | q1 :: qs' => stand T_TemplateOpen (sp ++ c_expression (n_item x) ++ sp ++ GBytes (bs "}") :: chunks es' q1 qs' ++ c) lx
       | [] => False end
     end) ->
    (forall r, same_rest r q qs es -> pend false c (fun lx' => Q r lx')) ->
    gets (call F_template_rest) lx Q.
  Proof.
    induction es as [|x es IH]; intros F q qs c lx Q Len HQ Eq HS H.
    - destruct qs; [|discriminate Len]. apply g_call. cbn [body]. unfold body_template_rest. apply g_bind, g_look.
      rewrite (is_false_ne T_TemplateOpen lx) by (rewrite (st_token _ _ _ HS); discriminate).
      rewrite (is_true_eq T_TemplateClosed lx) by apply (st_token _ _ _ HS). cbv zeta. unfold end_then_consume.
      apply g_bind, g_bind, g_look, g_bind. eapply g_consume_stand; [exact HS|].
      eapply pend_mono; [|apply H]. { intros lx' G. apply g_ret, g_ret. exact G. }
      split; [|reflexivity]. cbn [fst map]. unfold strip_id, strip_node. cbn [in_loc n_item view_of v_quasi]. now rewrite Eq.
    - destruct qs as [|q1 qs]; [discriminate Len|]. cbn [List.length] in Len. injection Len as Len.
      inversion F as [|? ? (S & Lx) F' E1]; subst. inversion HQ as [|? ? HQ1 HQ' E1]; subst.
      apply g_call. cbn [body]. unfold body_template_rest. apply g_bind, g_look.
      rewrite (is_true_eq T_TemplateOpen lx) by apply (st_token _ _ _ HS). cbv zeta. apply g_bind.
      eapply g_consume_stand; [exact HS|]. cbn [sp app]. apply pend_sp.
      eapply (p_expr (n_item x) CtxDefault BP_ANY); [exact S|exact Lx|htac| |].
      { intros lx1 G _. apply g_bind. exact G. }
      intros n E. cbv beta. apply pend_sp. tok lx1 O1. split; [|split; lv]. apply g_bind, g_look. decide_is.
      apply g_bind. unfold chunks in O1. cbn [app] in O1.
      set (Q1 := fun r lx' => Q (in_loc (view_of lx) (v_quasi (view_of lx)) :: fst (fst r), n :: snd (fst r), snd r) lx').
      assert (H1 : forall r, same_rest r q1 qs es -> pend false c (fun lx' => Q1 r lx')).
      { intros r (R1 & R2). unfold Q1. apply H. split; cbn [fst snd].
        - cbn [map]. f_equal; [|exact R1]. unfold strip_id, strip_node. cbn [in_loc n_item view_of v_quasi]. now rewrite Eq.
        - apply sames_cons; assumption. }
      assert (G1 : forall lx', gets (call F_template_rest) lx' Q1 ->
        gets ('(qs0, es0, e_end) <- call F_template_rest ;; Ret (in_loc (view_of lx) (v_quasi (view_of lx)) :: qs0, n :: es0, e_end)) lx' Q).
      { intros lx' G. apply g_bind. eapply gets_mono; [|exact G]. intros ((r1 & r2) & r3) lx2 HR. apply g_ret. exact HR. }
      destruct es as [|x2 es].
      + destruct qs as [|q2 qs]; [|discriminate Len]. cbn [c_template_rest app] in O1.
        eapply (g_chunk false (n_item q1) T_TemplateClosed (bs "`") c); [exact HQ1|left; auto|exact O1|].
        intros lx2 S2 Eq2. cbv beta. apply G1. apply (IH F' q1 [] c lx2 Q1); auto.
      + destruct qs as [|q2 qs]; [discriminate Len|]. cbn [c_template_rest app w sp c_node] in O1.
        eapply (g_chunk false (n_item q1) T_TemplateOpen (bs "${") _); [exact HQ1|right; auto|exact O1|].
        intros lx2 S2 Eq2. cbv beta. apply G1. apply (IH F' q1 (q2 :: qs) c lx2 Q1); auto.
        unfold chunks. cbn [app sp]. rewrite <- !app_assoc in *. cbn [app c_ident wstr] in *. rewrite <- ?app_assoc in S2. exact S2.
  Qed.

  Definition same_template (t t' : template) : Prop := strip_template t = strip_template t'.
  Lemma pend_template0 q nl c (K : lexer -> Prop) : template_inside (n_item q) ->
    (forall lx x, on nl T_TemplateClosed x c lx -> lx_quasi lx = n_item q -> K lx) ->
    pend nl (c_template (Template [] [q]) ++ c) K.
  Proof.
    intros HI HK. cbn [c_template]. flat. eapply (pend_chunk alnum nl (n_item q) T_TemplateClosed (bs "`")); [exact HI|left; auto|].
    intros lx O E. eapply HK; eauto.
  Qed.
  Lemma pend_template1 x es q q1 qs nl c (K : lexer -> Prop) : template_inside (n_item q) ->
    (forall lx s, on nl T_TemplateOpen s (sp ++ c_expression (n_item x) ++ sp ++ GBytes (bs "}") :: chunks es q1 qs ++ c) lx -> lx_quasi lx = n_item q -> K lx) ->
    pend nl (c_template (Template (x :: es) (q :: q1 :: qs)) ++ c) K.
  Proof.
    intros HI HK. cbn [c_template c_template_rest]. flat. eapply (pend_chunk alnum nl (n_item q) T_TemplateOpen (bs "${")); [exact HI|right; auto|].
    intros lx O E. eapply HK; [|exact E]. unfold chunks. cbn [app sp]. rewrite <- app_assoc. exact O.
  Qed.
  Lemma g_template_literal x es q q1 qs nl s c lx Q : Forall (fun x => Spec (n_item x) /\ 0 < ll (n_item x)) (x :: es) ->
    List.length qs = List.length es -> Forall (fun q => template_inside (n_item q)) (q1 :: qs) ->
    on nl T_TemplateOpen s (sp ++ c_expression (n_item x) ++ sp ++ GBytes (bs "}") :: chunks es q1 qs ++ c) lx -> lx_quasi lx = n_item q ->
    (forall n, same_template (n_item n) (Template (x :: es) (q :: q1 :: qs)) -> pend false c (fun lx' => Q n lx')) ->
    gets (call F_template_literal) lx Q.
  Proof.
    intros F Len HQ O Eq H. inversion F as [|? ? (S & Lx) F' E1]; subst. inversion HQ as [|? ? HQ1 HQ' E1]; subst.
    apply g_call. cbn [body]. unfold body_template_literal. apply g_bind, g_look, g_bind. eapply g_consume; [exact O|].
    cbn [sp app]. apply pend_sp. eapply (p_expr (n_item x) CtxDefault BP_ANY); [exact S|exact Lx|htac| |].
    { intros lx1 G _. apply g_bind. exact G. }
    intros n E. cbv beta. apply pend_sp. tok lx1 O1. split; [|split; lv]. apply g_bind, g_look. decide_is.
    apply g_bind. unfold chunks in O1. cbn [app] in O1.
    set (Q1 := fun (r : list (node str) * list expr_node * N) lx' => Q (Node (v_start (view_of lx)) (snd r) (Template (n :: snd (fst r)) (in_loc (view_of lx) (v_quasi (view_of lx)) :: fst (fst r)))) lx').
    assert (H1 : forall r, same_rest r q1 qs es -> pend false c (fun lx' => Q1 r lx')).
    { intros r (R1 & R2). unfold Q1. apply H. unfold same_template. cbn [n_item strip_template]. f_equal.
      - apply sames_cons; assumption.
      - cbn [map]. f_equal; [|exact R1]. unfold strip_id, strip_node. cbn [in_loc n_item view_of v_quasi]. now rewrite Eq. }
    assert (G1 : forall lx', gets (call F_template_rest) lx' Q1 ->
      gets ('(qs0, es0, e_end) <- call F_template_rest ;; Ret (Node (v_start (view_of lx)) e_end (Template (n :: es0) (in_loc (view_of lx) (v_quasi (view_of lx)) :: qs0)))) lx' Q).
    { intros lx' G. apply g_bind. eapply gets_mono; [|exact G]. intros ((r1 & r2) & r3) lx2 HR. apply g_ret. exact HR. }
    destruct es as [|x2 es].
    + destruct qs as [|q2 qs]; [|discriminate Len]. cbn [c_template_rest app] in O1.
      eapply (g_chunk false (n_item q1) T_TemplateClosed (bs "`") c); [exact HQ1|left; auto|exact O1|].
      intros lx2 S2 Eq2. cbv beta. apply G1. apply (g_template_rest [] F' q1 [] c lx2 Q1); auto.
    + destruct qs as [|q2 qs]; [discriminate Len|]. cbn [c_template_rest app w sp c_node] in O1.
      eapply (g_chunk false (n_item q1) T_TemplateOpen (bs "${") _); [exact HQ1|right; auto|exact O1|].
      intros lx2 S2 Eq2. cbv beta. apply G1. apply (g_template_rest (x2 :: es) F' q1 (q2 :: qs) c lx2 Q1); auto.
      unfold chunks. cbn [app sp]. rewrite <- !app_assoc in *. cbn [app c_ident wstr] in *. rewrite <- ?app_assoc in S2. exact S2.
  Qed.
  Definition Tpl (t : template) : Prop := match t with Template es _ => Forall (fun x => Spec (n_item x)) es end.
  Lemma tpl_specs es : Forall (fun x : expr_node => Spec (n_item x)) es -> Forall (fun e : expr_node => 0 < ll (n_item e)) es ->
    Forall (fun x => Spec (n_item x) /\ 0 < ll (n_item x)) es.
  Proof. rewrite !Forall_forall. auto. Qed.
  Lemma spec_template t : Tpl t -> template_fits t -> Spec (E_Template t).
  Proof.
    destruct t as [es qs]. intros S (Len & HI & HL) ctx b nl c Q L T H. cbn [Tpl c_expression leftmost] in *.
    assert (SP := tpl_specs es S HL).
    destruct es as [|x es], qs as [|q qs]; try discriminate Len.
    - destruct qs as [|q1 qs]; [|discriminate Len]. inversion HI; subst. apply pend_template0; [assumption|].
      intros lx x O Eq. split; [|eapply lead_on; [exact O|discriminate|exact I]].
      eapply (g_token (fun v => E_Template (Template [] [in_loc v (v_quasi v)]))); [exact O|reflexivity|discriminate|reflexivity|].
      eapply pend_mono; [|apply H]; [intros lx' G; apply G|].
      unfold same. cbn [n_item strip_expression in_loc view_of v_quasi strip_template map]. unfold strip_id, strip_node. cbn [n_item]. now rewrite Eq.
    - destruct qs as [|q1 qs]; [discriminate Len|]. cbn [List.length] in Len. injection Len as Len. inversion HI; subst.
      apply pend_template1; [assumption|]. intros lx s O Eq. split; [|eapply lead_on; [exact O|discriminate|exact I]].
      eapply g_expression; [apply (on_token _ _ _ _ _ O)|reflexivity|discriminate|].
      cbn [body_expr_handler]. apply g_bind. eapply g_template_literal; eauto.
      intros n E. cbv beta. eapply pend_mono; [|apply H]. { intros lx' (G & _). apply g_ret. exact G. }
      unfold same. cbn [n_item strip_expression]. f_equal. exact E.
  Qed.
  Lemma spec_tagged x t : Spec (n_item x) -> Tpl (n_item t) -> template_fits (n_item t) ->
    expression_fits (E_TaggedTemplate x t) -> Spec (E_TaggedTemplate x t).
  Proof.
    intros Sx S TF R ctx b nl c Q L T H. destruct t as [ts te [es qs]]. destruct TF as (Len & HI & HL). cbn [Tpl c_expression leftmost ll n_item expression_fits] in *.
    assert (SP := tpl_specs es S HL). unfold c_node. cbn [n_item]. rewrite <- app_assoc.
    apply Sx; [exact L|apply tail_tails; destruct qs as [|? [|]]; cbn [c_template]; flat; htac|]. intros n E.
    destruct es as [|y es], qs as [|q qs]; try discriminate Len.
    - destruct qs as [|q1 qs]; [|discriminate Len]. inversion HI; subst. apply pend_template0; [assumption|].
      intros lx s O Eq. split; [|rewrite R; lv].
      eapply g_nested_on; [exact O|intros b0; destruct b0; reflexivity|discriminate|discriminate|].
      cbn [body_nested_handler]. apply g_bind, g_call. cbn [body]. unfold body_template_string. apply g_bind, g_look, g_bind. eapply g_consume; [exact O|].
      eapply pend_mono; [|apply H]; [intros lx' (G & _); apply g_ret, g_ret; exact G|].
      unfold same. cbn [n_item strip_expression]. f_equal; [apply same_node, E|].
      unfold strip_node. cbn [in_loc n_item strip_template map view_of v_quasi]. unfold strip_id, strip_node. cbn [n_item]. now rewrite Eq.
    - destruct qs as [|q1 qs]; [discriminate Len|]. cbn [List.length] in Len. injection Len as Len. inversion HI; subst.
      apply pend_template1; [assumption|]. intros lx s O Eq. split; [|rewrite R; lv].
      eapply g_nested_on; [exact O|intros b0; destruct b0; reflexivity|discriminate|discriminate|].
      cbn [body_nested_handler]. apply g_bind. eapply g_template_literal; eauto.
      intros m Em. cbv beta. eapply pend_mono; [|apply H]. { intros lx' (G & _). apply g_ret. exact G. }
      unfold same. cbn [n_item strip_expression]. f_equal; [apply same_node, E|].
      unfold strip_node. f_equal. exact Em.
  Qed.
End Expr.
