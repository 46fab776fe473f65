(** Reading back blocks, properties, patterns, functions and classes. *)
From Coq Require Import List NArith PeanoNat Bool String Lia.
From Coq.Strings Require Import Byte.
From Verif Require Import Bytes Token Tables Lexer SpecLexer SpecTokens SpecChunks SpecTree SpecUtf8 SpecHazard SpecPrec SpecRound
  Ast Prog Parser Codegen LexerFacts ConsumeFacts LexEval ProgFacts ParseFacts Structure Gets Foreign Levels Chain RoundBase RoundExpr.
Import ListNotations.
Open Scope nat_scope.
Open Scope list_scope.

Section Parts.
  Variable alnum : N -> bool.
  Notation identifier_name := (identifier_name alnum).
  Notation declared_name := (declared_name alnum).
  Notation optional_name := (optional_name alnum).
  Notation key_word := (key_word alnum).
  Notation gets := (gets alnum).
  Notation pend := (pend alnum).
  Notation Spec := (Spec alnum).

  Lemma on_true nl t x c lx : on nl t x c lx -> on true t x c lx.
  Proof. intros [A B (ws & _ & C) D E]. constructor; auto. exists ws. split; [discriminate|exact C]. Qed.

  (** ** Blocks *)
  Section Items.
    Context {T : Set} (i : item T) (f : T -> code) (strip : T -> T) (F : T -> lexer -> Prop) (L : lexer -> Prop) (m : bool).
    Definition Item (x : T) : Prop :=
      forall nl c Q, (forall n, strip (n_item n) = strip x -> pend m c (fun lx => Q n lx /\ F x lx)) ->
        pend nl (f x ++ c) (fun lx => gets (call (F_item i)) lx Q /\ L lx).
    Hypothesis L_F : forall x lx, L lx -> F x lx.
    Hypothesis close_F : forall x lx, lx_token lx = T_BraceClose -> F x lx.
    Hypothesis L_more : forall lx, L lx -> lx_token lx <> T_BraceClose /\ lx_token lx <> T_EndOfProgram.
    Definition sames_of (ns xs : list (node T)) : Prop := map (strip_node strip) ns = map (strip_node strip) xs.
    Lemma sames_of_cons n ns x xs : strip (n_item n) = strip (n_item x) -> sames_of ns xs -> sames_of (n :: ns) (x :: xs).
    Proof. intros H1 H2. unfold sames_of. cbn [map]. f_equal; [|exact H2]. unfold strip_node. now f_equal. Qed.

    Lemma p_items l : Forall (fun x => Item (n_item x)) l ->
      forall nl c (Q : list (node T) -> lexer -> Prop), (forall ns lx, sames_of ns l -> on true T_BraceClose (bs "}") c lx -> Q ns lx) ->
      pend nl (c_block_rest f l ++ GDedent :: GNewLine :: GBytes (bs "}") :: c)
        (fun lx => gets (call (F_items i)) lx Q /\ (L lx \/ lx_token lx = T_BraceClose)).
    Proof.
      induction l as [|x l IH]; intros FI nl c Q H; cbn [c_block_rest]; flat.
      - apply pend_dedent, pend_newline. tok lx O. split; [|right; apply (on_token _ _ _ _ _ O)].
        apply g_call. cbn [body]. unfold body_items. apply g_bind, g_look. decide_is. cbn [orb]. apply g_ret. apply H; [reflexivity|exact O].
      - inversion FI as [|? ? IX FI' E1]; subst. apply pend_newline.
        eapply pend_mono; [|apply (IX true _ (fun n lx => gets (xs <- call (F_items i) ;; Ret (n :: xs)) lx Q))].
        + intros lx (G & LX). split; [|left; exact LX]. destruct (L_more lx LX) as (N1 & N2).
          apply g_call. cbn [body]. unfold body_items. apply g_bind, g_look. rewrite !is_false_ne by assumption. cbn [orb].
          apply g_bind. exact G.
        + intros n E. eapply pend_mono; [|apply (IH FI' m c (fun ns lx => Q (n :: ns) lx))].
          * intros lx (G & LB). split; [|destruct LB; [apply L_F|apply close_F]; assumption].
            apply g_bind. eapply gets_mono; [|exact G]. intros ns lx2 HQ. apply g_ret. exact HQ.
          * intros ns lx Es O. apply H; [|exact O]. apply sames_of_cons; assumption.
    Qed.
    Lemma p_raw_block b : Forall (fun x => Item (n_item x)) (b_body b) ->
      forall c (Q : block T -> lexer -> Prop),
      (forall b' lx, strip_block strip b' = strip_block strip b -> on true T_BraceClose (bs "}") c lx -> Q b' lx) ->
      pend false (c_items f (b_body b) ++ GBytes (bs "}") :: c) (fun lx => gets (call (F_raw_block i)) lx Q).
    Proof.
      destruct b as [l]. cbn [b_body]. intros FI c Q H. destruct l as [|x l]; cbn [c_items]; flat.
      - tok lx O. apply g_call. cbn [body]. unfold body_raw_block. apply g_bind, g_look. decide_is. apply g_ret.
        apply H; [reflexivity|apply (on_true _ _ _ _ _ O)].
      - inversion FI as [|? ? IX FI' E1]; subst. apply pend_indent, pend_newline.
        eapply pend_mono; [|apply (IX true _ (fun n lx => gets (xs <- call (F_items i) ;; Ret (Block (n :: xs))) lx Q))].
        + intros lx (G & LX). destruct (L_more lx LX) as (N1 & N2).
          apply g_call. cbn [body]. unfold body_raw_block. apply g_bind, g_look. rewrite is_false_ne by assumption.
          apply g_bind. exact G.
        + intros n E. eapply pend_mono; [|apply (p_items l FI' m c (fun ns lx => Q (Block (n :: ns)) lx))].
          * intros lx (G & LB). split; [|destruct LB; [apply L_F|apply close_F]; assumption].
            apply g_bind. eapply gets_mono; [|exact G]. intros ns lx2 HQ. apply g_ret. exact HQ.
          * intros ns lx Es O. apply H; [|exact O]. unfold strip_block. cbn [b_body]. f_equal. apply sames_of_cons; assumption.
    Qed.
  End Items.

  Definition Raw {T : Set} (i : item T) (f : T -> code) (strip : T -> T) (b : block T) : Prop :=
    forall c (Q : block T -> lexer -> Prop),
      (forall b' lx, strip_block strip b' = strip_block strip b -> on true T_BraceClose (bs "}") c lx -> Q b' lx) ->
      pend false (c_items f (b_body b) ++ GBytes (bs "}") :: c) (fun lx => gets (call (F_raw_block i)) lx Q).
  Lemma p_block {T : Set} (i : item T) f strip b : Raw i f strip b ->
    forall nl c Q, (forall n, strip_block strip (n_item n) = strip_block strip b -> pend false c (fun lx => Q n lx)) ->
    pend nl (c_block f b ++ c) (fun lx => gets (call (F_block i)) lx Q /\ gets (call (F_unchecked_block i)) lx Q /\ lx_token lx = T_BraceOpen).
  Proof.
    intros R nl c Q H. unfold c_block. flat. tok lx O. split; [|split; [|apply (on_token _ _ _ _ _ O)]].
    - apply g_call. cbn [body]. unfold body_block. apply g_bind, g_look. decide_is. apply g_bind. eapply g_consume; [exact O|].
      eapply pend_mono; [intros lx1 G; apply g_bind; exact G|]. apply R. intros b' lx1 E O1.
      unfold end_then_consume. apply g_bind, g_bind, g_look, g_bind. eapply g_consume; [exact O1|].
      eapply pend_mono; [intros lx2 G; apply g_ret, g_ret; exact G|]. apply H. exact E.
    - apply g_call. cbn [body]. unfold body_unchecked_block, start_then_consume. apply g_bind, g_bind, g_look, g_bind. eapply g_consume; [exact O|].
      eapply pend_mono; [intros lx1 G; apply g_ret, g_bind; exact G|]. apply R. intros b' lx1 E O1.
      unfold end_then_consume. apply g_bind, g_bind, g_look, g_bind. eapply g_consume; [exact O1|].
      eapply pend_mono; [intros lx2 G; apply g_ret, g_ret; exact G|]. apply H. exact E.
  Qed.
  Definition Body (b : block statement) : Prop := Raw I_Statement c_statement strip_statement b.

  (** ** Patterns *)
  (** [=] before an expression. *)
  Lemma p_assign nl e c (K : lexer -> Prop) : First e -> 0 < ll e ->
    (forall lx, on nl T_OperatorAssign (bs "=") (GPretty x20 :: c_expression e ++ c) lx -> K lx) ->
    pend nl (GBytes (bs "=") :: GPretty x20 :: c_expression e ++ c) K.
  Proof.
    intros F L HK. destruct (F L) as (b & Fb & Sb).
    apply (pend_punct alnum nl (bs "=") T_OperatorAssign); [apply punctuator_in; vm_compute; reflexivity| |exact HK].
    apply heads_sp; [reflexivity|]. eapply first_heads; [exact Fb|]. apply negb_true_iff.
    destruct (extends (bs "=") b) eqn:E; [|reflexivity]. exfalso.
    destruct (starter_extends (bs "=") T_OperatorAssign b (punctuator_in (bs "=") T_OperatorAssign eq_refl) Sb E) as [(X & _)|[(X & _)|(X & _)]]; discriminate X.
  Qed.

  Definition pat_start (lx : lexer) : Prop :=
    lx_token lx = T_Identifier \/ lx_token lx = T_BracketOpen \/ lx_token lx = T_BraceOpen.
  Definition Pat (p : pattern) : Prop :=
    forall nl c Q, tail0 c -> (forall n, strip_pattern (n_item n) = strip_pattern p -> pend false c (fun lx => Q n lx)) ->
      pend nl (c_pattern p ++ c) (fun lx => gets (call F_pattern) lx Q /\ pat_start lx).
  Definition Param (p : pattern) : Prop :=
    forall nl c Q, tail c ->
      (forall n, strip_pattern (n_item n) = strip_pattern p -> pend false c (fun lx => Q n lx /\ tlevel (lx_token lx) <= 1)) ->
      pend nl (c_pattern p ++ c) (fun lx => (gets (call F_pattern_param) lx Q /\ gets (call F_pattern_array_element) lx Q) /\ pat_start lx).
  Lemma pat_start_not lx t : pat_start lx -> ~ In t [T_Identifier; T_BracketOpen; T_BraceOpen] -> lx_token lx <> t.
  Proof. intros [E|[E|E]] N X; apply N; rewrite <- X, E; cbn; tauto. Qed.
  Lemma call_inv {R : Set} (g : fn R) lx Q : gets (call g) lx Q -> gets (body R g) lx Q.
  Proof. intros H. apply gets_call in H. eapply gets_mono; [|exact H]. intros a lx' G. apply gets_ret_inv in G. exact G. Qed.
  Lemma look_inv {B : Type} (g : view -> P B) lx Q : gets (bind look g) lx Q -> gets (g (view_of lx)) lx Q.
  Proof. intros H. apply gets_bind in H. apply gets_look in H. apply gets_ret_inv in H. exact H. Qed.
  (** A pattern where a default value can follow. *)
  Lemma param_intro Q lx : gets (call F_pattern) lx (fun l lx' => gets (call (F_pattern_assign l)) lx' Q) -> pat_start lx ->
    gets (call F_pattern_param) lx Q /\ gets (call F_pattern_array_element) lx Q.
  Proof.
    intros G PS. apply call_inv in G. cbn [body] in G. unfold body_pattern in G. apply look_inv in G. split.
    - apply g_call. cbn [body]. unfold body_pattern_param. apply g_bind, g_look. apply g_bind. exact G.
    - apply g_call. cbn [body]. unfold body_pattern_array_element. apply g_bind, g_look.
      rewrite !is_false_ne by (apply (pat_start_not _ _ PS); cbn; intuition discriminate). cbn [orb]. apply g_bind. exact G.
  Qed.
  Lemma param_base p : Pat p -> Param p.
  Proof.
    intros HP nl c Q T H. eapply pend_mono; [|apply (HP nl c (fun l lx' => gets (call (F_pattern_assign l)) lx' Q) (tail_tail0 _ T))].
    - intros lx (G & PS). split; [|exact PS]. apply param_intro; assumption.
    - intros n E. eapply pend_mono; [|apply (H n E)]. intros lx (HQ & LV). apply g_call. cbn [body]. unfold body_pattern_assign.
      apply g_bind, g_look. rewrite is_false_ne by (intros X; rewrite X in LV; cbn in LV; lia). apply g_ret. exact HQ.
  Qed.
  Lemma param_assign l r : Pat (n_item l) -> Spec (n_item r) -> First (n_item r) -> element (n_item r) -> Param (Pat_Assign l r).
  Proof.
    intros HP S Fr (L1 & L2) nl c Q T H. cbn [c_pattern]. flat.
    eapply pend_mono; [|apply (HP nl _ (fun l lx' => gets (call (F_pattern_assign l)) lx' Q))].
    - intros lx (G & PS). split; [|exact PS]. apply param_intro; assumption.
    - htac.
    - intros n E. apply pend_sp. apply p_assign; [exact Fr|lia|]. intros lx O.
      apply g_call. cbn [body]. unfold body_pattern_assign. apply g_bind, g_look. decide_is. apply g_bind. eapply g_consume; [exact O|].
      apply pend_sp. eapply (p_expr alnum (n_item r) CtxDefault BP_B0); [exact S|exact L1|exact T| |].
      + intros lx1 G _. apply g_bind. exact G.
      + intros m Em. eapply pend_mono; [|apply H].
        * intros lx1 (HQ & LV). split; [apply g_ret; exact HQ|cbn [level]; lia].
        * cbn [n_item strip_pattern]. f_equal; [|apply same_node, Em]. unfold strip_node. f_equal. exact E.
  Qed.
  Lemma pat_identifier s : identifier_name s -> Pat (Pat_Identifier s).
  Proof.
    intros HI nl c Q T H. cbn [c_pattern]. flat. apply identifier_pend; [exact HI|exact T|]. intros lx O.
    split; [|left; apply (on_token _ _ _ _ _ O)]. apply g_call. cbn [body]. unfold body_pattern. apply g_bind, g_look. decide_is.
    unfold pattern_identifier. apply g_bind, g_look, g_bind. eapply g_consume; [exact O|].
    eapply pend_mono; [intros lx1 G; apply g_ret; exact G|]. apply H. cbn [in_loc n_item]. now rewrite (text_of _ _ _ _ _ O).
  Qed.
  (** Array patterns. *)
  Definition PSlot (p : pattern) : Prop := p = Pat_Void \/ (Param p /\ p <> Pat_Void).
  Lemma p_pslot p c Q : PSlot p -> tail c ->
    (forall n, strip_pattern (n_item n) = strip_pattern p -> pend false c (fun lx => Q n lx /\ after_element lx)) ->
    pend false (c_pattern p ++ c) (fun lx => gets (call F_pattern_array_element) lx Q /\ (p <> Pat_Void -> lx_token lx <> T_BracketClose)).
  Proof.
    intros [->|(HP & NV)] T H.
    - cbn [c_pattern app]. eapply pend_mono; [|apply (pend_all alnum (fun m => strip_pattern (n_item m) = Pat_Void) _ _ _ (ex_intro _ (Node 0%N 0%N Pat_Void) eq_refl) H)].
      intros lx G. assert (E' : forall s e, strip_pattern (n_item (Node s e Pat_Void)) = Pat_Void) by reflexivity. destruct (G _ (E' 0%N 0%N)) as (_ & A).
      split; [|congruence]. apply g_call. cbn [body]. unfold body_pattern_array_element. apply g_bind, g_look.
      replace (is T_Comma (view_of lx) || is T_BracketClose (view_of lx))%bool with true
        by (unfold is; cbn [view_of v_token]; destruct A as [-> | ->]; reflexivity).
      apply g_ret. apply (G _ (E' _ _)).
    - eapply pend_mono; [|apply (HP false c Q T)].
      + intros lx ((_ & G) & PS). split; [exact G|]. intros _. apply (pat_start_not _ _ PS). cbn. intuition discriminate.
      + intros n E. eapply pend_mono; [|apply (H n E)]. intros lx (G & A). split; [exact G|apply after_level, A].
  Qed.
  Definition psames (ns xs : list (node pattern)) : Prop := map (strip_node strip_pattern) ns = map (strip_node strip_pattern) xs.
  Lemma psames_cons n ns x xs : strip_pattern (n_item n) = strip_pattern (n_item x) -> psames ns xs -> psames (n :: ns) (x :: xs).
  Proof. intros H1 H2. unfold psames. cbn [map]. f_equal; [|exact H2]. unfold strip_node. now f_equal. Qed.
  Lemma p_pattern_rest es : Forall (fun x => PSlot (n_item x)) es ->
    forall c (Q : list (node pattern) -> lexer -> Prop), (forall ns lx, psames ns es -> on false T_BracketClose (bs "]") c lx -> Q ns lx) ->
    pend false (c_list_rest c_pattern es ++ GBytes (bs "]") :: c) (fun lx => gets (call F_pattern_elements_rest) lx Q /\ after_element lx).
  Proof.
    induction es as [|x es IH]; intros F c Q H; cbn [c_list_rest]; flat.
    - tok lx O. split; [|right; apply (on_token _ _ _ _ _ O)]. apply g_call. cbn [body]. unfold body_pattern_elements_rest. apply g_bind, g_look.
      do 2 decide_is. apply g_ret. apply H; [reflexivity|exact O].
    - inversion F as [|? ? S F' E1]; subst. tok lx O. split; [|left; apply (on_token _ _ _ _ _ O)].
      apply g_call. cbn [body]. unfold body_pattern_elements_rest. apply g_bind, g_look. decide_is.
      apply g_bind. eapply g_consume; [exact O|]. apply pend_sp.
      eapply pend_mono; [|apply (p_pslot (n_item x)); [exact S|apply list_rest_tail; htac|]].
      + intros lx1 (G & _). apply g_bind. exact G.
      + intros n E. cbv beta. eapply pend_mono; [|apply (IH F' c (fun ns lx => Q (n :: ns) lx))].
        * intros lx1 (G & A). split; [|exact A]. apply g_bind. eapply gets_mono; [|exact G]. intros ns lx2 HQ. apply g_ret. exact HQ.
        * intros ns lx1 Es O1. apply H; [|exact O1]. apply psames_cons; assumption.
  Qed.
  Lemma pat_array es : Forall (fun x => PSlot (n_item x)) es -> (forall x, es = [x] -> n_item x <> Pat_Void) -> Pat (Pat_Array es).
  Proof.
    intros SL NV nl c Q T H. cbn [c_pattern] in *. flat.
    tok lx O. split; [|right; left; apply (on_token _ _ _ _ _ O)]. apply g_call. cbn [body]. unfold body_pattern. apply g_bind, g_look.
    do 2 decide_is. apply g_call. cbn [body]. unfold body_pattern_array, start_then_consume. apply g_bind, g_bind, g_look, g_bind.
    eapply g_consume; [exact O|].
    set (Q1 := fun es' (lx' : lexer) => gets (e_end <- end_then_consume ;; Ret (Node (v_start (view_of lx)) e_end (Pat_Array es'))) lx' Q).
    assert (E1 : forall ns lx', psames ns es -> on false T_BracketClose (bs "]") c lx' -> Q1 ns lx').
    { intros ns lx' Es O1. unfold Q1, end_then_consume. apply g_bind, g_bind, g_look, g_bind. eapply g_consume; [exact O1|].
      eapply pend_mono; [|apply H].
      - intros lx2 G. apply g_ret, g_ret. exact G.
      - cbn [n_item strip_pattern]. f_equal. exact Es. }
    enough (G0 : pend false (c_list c_pattern es ++ GBytes (bs "]") :: c) (fun lx' => gets (call F_pattern_elements) lx' Q1)).
    { eapply pend_mono; [|exact G0]. intros lx1 G. apply g_ret, g_bind. exact G. }
    destruct es as [|x es]; cbn [c_list]; flat.
    - tok lx1 O1. apply g_call. cbn [body]. unfold body_pattern_elements. apply g_bind, g_look. decide_is. apply g_ret. apply E1; [reflexivity|exact O1].
    - inversion SL as [|? ? S F' E2]; subst.
      assert (PS1 : pend false (c_pattern (n_item x) ++ c_list_rest c_pattern es ++ GBytes (bs "]") :: c)
          (fun lx' => gets (call F_pattern_array_element) lx' (fun e lx'' => gets (es <- call F_pattern_elements_rest ;; Ret (e :: es)) lx'' Q1)
                     /\ (n_item x <> Pat_Void -> lx_token lx' <> T_BracketClose))).
      { apply p_pslot; [exact S|apply list_rest_tail; htac|].
        intros n E. eapply pend_mono; [|apply (p_pattern_rest es F' c (fun ns lx => Q1 (n :: ns) lx))].
        - intros lx1 (G & A). split; [|exact A]. apply g_bind. eapply gets_mono; [|exact G]. intros ns lx2 HQ. apply g_ret. exact HQ.
        - intros ns lx1 Es O1. apply E1; [|exact O1]. apply psames_cons; assumption. }
      assert (PS : pend false (c_pattern (n_item x) ++ c_list_rest c_pattern es ++ GBytes (bs "]") :: c)
        (fun lx' => (gets (call F_pattern_array_element) lx' (fun e lx'' => gets (es <- call F_pattern_elements_rest ;; Ret (e :: es)) lx'' Q1)
                     /\ (n_item x <> Pat_Void -> lx_token lx' <> T_BracketClose)) /\ lx_token lx' <> T_BracketClose)).
      { destruct S as [V|S].
        - apply pend_and; [exact PS1|]. rewrite V. cbn [c_pattern app]. destruct es as [|y es]; [exfalso; apply (NV x); auto|].
          cbn [c_list_rest]. flat. tok lx1 O1. rewrite (on_token _ _ _ _ _ O1). discriminate.
        - eapply pend_mono; [|exact PS1]. intros lx' (G & N). split; [auto|]. apply N. apply S. }
      eapply pend_mono; [|exact PS]. intros lx1 ((G & _) & N).
      apply g_call. cbn [body]. unfold body_pattern_elements. apply g_bind, g_look. rewrite is_false_ne by exact N. apply g_bind. exact G.
  Qed.

  (** ** Parameters and functions *)
  Definition Params (ps : list (node pattern)) : Prop :=
    Forall (fun p => match n_item p with Pat_Rest x => identifier_name (n_item x) | _ => Param (n_item p) end) ps.
  Lemma p_rest_element x nl c Q : identifier_name (n_item x) ->
    (forall n, strip_pattern (n_item n) = strip_pattern (Pat_Rest x) -> pend false c (fun lx => Q n lx)) ->
    pend nl (c_pattern (Pat_Rest x) ++ GBytes (bs ")") :: c)
      (fun lx => gets (call F_rest_element) lx Q /\ lx_token lx = T_OperatorSpread).
  Proof.
    intros HI H. cbn [c_pattern]. flat. tok lx O. split; [|apply (on_token _ _ _ _ _ O)].
    apply g_call. cbn [body]. unfold body_rest_element, start_then_consume. apply g_bind, g_bind, g_look, g_bind. eapply g_consume; [exact O|].
    apply identifier_pend; [exact HI|htac|]. intros lx1 O1. apply g_ret, g_bind. unfold identifier_. apply g_bind, g_look. decide_is.
    apply g_bind. eapply g_consume; [exact O1|]. tok lx2 O2. apply g_ret, g_bind. eapply g_expect; [exact O2|].
    eapply pend_mono; [intros lx3 G; apply g_ret; exact G|]. apply H. cbn [n_item strip_pattern in_loc]. unfold strip_id, strip_node. cbn [n_item].
    now rewrite (text_of _ _ _ _ _ O1).
  Qed.
  Lemma param_not_rest p : param_pattern p -> forall x, p <> Pat_Rest x.
  Proof. intros [H|H] x E; subst; exact H. Qed.
  Lemma p_params_rest ps : params_fit ps -> Params ps ->
    forall c (Q : list (node pattern) -> lexer -> Prop), (forall ns, psames ns ps -> pend false c (fun lx => Q ns lx)) ->
    pend false (c_list_rest c_pattern ps ++ GBytes (bs ")") :: c) (fun lx => gets (call F_params_rest) lx Q /\ tlevel (lx_token lx) <= 1).
  Proof.
    induction ps as [|p ps IH]; intros PF HP c Q H; cbn [c_list_rest]; flat.
    - tok lx O. split; [|lv]. apply g_call. cbn [body]. unfold body_params_rest. apply g_bind, g_look. do 2 decide_is.
      apply g_bind. eapply g_consume; [exact O|]. eapply pend_mono; [intros lx1 G; apply g_ret; exact G|]. apply H. reflexivity.
    - destruct PF as (PF & PF'). inversion HP as [|? ? HP1 HP' E1]; subst.
      tok lx O. split; [|lv]. apply g_call. cbn [body]. unfold body_params_rest. apply g_bind, g_look. decide_is.
      apply g_bind. eapply g_consume; [exact O|]. apply pend_sp. destruct PF as [PF|(PF & ->)].
      + assert (HP2 : Param (n_item p)) by (assert (X := param_not_rest _ PF); destruct (n_item p); try exact HP1; exfalso; eapply X; reflexivity).
        eapply pend_mono; [|apply (HP2 false _ (fun n lx => gets (ps <- call F_params_rest ;; Ret (n :: ps)) lx Q) (list_rest_tail _ _ (GBytes (bs ")") :: c) ltac:(htac)))].
        * intros lx1 ((G & _) & PS). apply g_bind, g_look. rewrite !is_false_ne by (apply (pat_start_not _ _ PS); cbn; intuition discriminate).
          apply g_bind. exact G.
        * intros n E. eapply pend_mono; [|apply (IH PF' HP' c (fun ns lx => Q (n :: ns) lx))].
          -- intros lx1 (G & LV). split; [|exact LV]. apply g_bind. eapply gets_mono; [|exact G]. intros ns lx2 HQ. apply g_ret. exact HQ.
          -- intros ns Es. apply H. apply psames_cons; assumption.
      + destruct (n_item p) eqn:Ep; try destruct PF. cbn [c_list_rest app].
        eapply pend_mono; [|apply p_rest_element; [exact HP1|]].
        * intros lx1 (G & TK). apply g_bind, g_look. rewrite (is_false_ne T_ParenClose lx1) by (rewrite TK; discriminate).
          rewrite (is_true_eq T_OperatorSpread lx1 TK). apply g_bind. exact G.
        * intros n E. cbv beta. eapply pend_mono; [intros lx1 G; apply g_ret; exact G|]. apply H. apply psames_cons; [|reflexivity]. rewrite Ep. exact E.
  Qed.
  Lemma p_params ps : params_fit ps -> Params ps ->
    forall nl c (Q : list (node pattern) -> lexer -> Prop), (forall ns, psames ns ps -> pend false c (fun lx => Q ns lx)) ->
    pend nl (GBytes (bs "(") :: c_list c_pattern ps ++ GBytes (bs ")") :: c) (fun lx => gets (call F_params) lx Q /\ lx_token lx = T_ParenOpen).
  Proof.
    intros PF HP nl c Q H. tok lx O. split; [|apply (on_token _ _ _ _ _ O)]. apply g_call. cbn [body]. unfold body_params.
    apply g_bind. eapply g_expect; [exact O|]. destruct ps as [|p ps]; cbn [c_list]; flat.
    - tok lx1 O1. apply g_bind, g_look. decide_is. apply g_bind. eapply g_consume; [exact O1|].
      eapply pend_mono; [intros lx2 G; apply g_ret; exact G|]. apply H. reflexivity.
    - destruct PF as (PF & PF'). inversion HP as [|? ? HP1 HP' E1]; subst. destruct PF as [PF|(PF & ->)].
      + assert (HP2 : Param (n_item p)) by (assert (X := param_not_rest _ PF); destruct (n_item p); try exact HP1; exfalso; eapply X; reflexivity).
        eapply pend_mono; [|apply (HP2 false _ (fun n lx => gets (ps <- call F_params_rest ;; Ret (n :: ps)) lx Q) (list_rest_tail _ _ (GBytes (bs ")") :: c) ltac:(htac)))].
        * intros lx1 ((G & _) & PS). apply g_bind, g_look. rewrite !is_false_ne by (apply (pat_start_not _ _ PS); cbn; intuition discriminate).
          apply g_bind. exact G.
        * intros n E. eapply pend_mono; [|apply (p_params_rest ps PF' HP' c (fun ns lx => Q (n :: ns) lx))].
          -- intros lx1 (G & LV). split; [|exact LV]. apply g_bind. eapply gets_mono; [|exact G]. intros ns lx2 HQ. apply g_ret. exact HQ.
          -- intros ns Es. apply H. apply psames_cons; assumption.
      + destruct (n_item p) eqn:Ep; try destruct PF. cbn [c_list_rest app].
        eapply pend_mono; [|apply p_rest_element; [exact HP1|]].
        * intros lx1 (G & TK). apply g_bind, g_look. rewrite (is_false_ne T_ParenClose lx1) by (rewrite TK; discriminate).
          rewrite (is_true_eq T_OperatorSpread lx1 TK). apply g_bind. exact G.
        * intros n E. cbv beta. eapply pend_mono; [intros lx1 G; apply g_ret; exact G|]. apply H. apply psames_cons; [|reflexivity]. rewrite Ep. exact E.
  Qed.

  Definition name_ok (k : namekind) (n : fname) : Prop :=
    match k with NK_Empty => n = Name_Empty | NK_Optional => optional_name n | NK_Mandatory => declared_name n end.
  (** A name, and what follows it: not an identifier. *)
  Lemma p_name k n c Q : name_ok k n -> tail0 c ->
    (forall n', strip_name n' = strip_name n -> pend false c (fun lx => Q n' lx /\ lx_token lx <> T_Identifier /\ lx_token lx <> T_OperatorMultiplication)) ->
    pend false (c_name n ++ c) (fun lx => gets (call (F_name k)) lx Q /\ lx_token lx <> T_OperatorMultiplication).
  Proof.
    intros NO T H.
    assert (ID : forall i, identifier_name (n_item i) -> (n = Name_Optional (Some i) /\ k = NK_Optional) \/ (n = Name_Mandatory i /\ k = NK_Mandatory) ->
      pend false (GBytes (bs " ") :: GBytes (n_item i) :: c) (fun lx => gets (call (F_name k)) lx Q /\ lx_token lx <> T_OperatorMultiplication)).
    { intros i HI HN. apply pend_blank, identifier_pend; [exact HI|exact T|]. intros lx O. split; [|rewrite (on_token _ _ _ _ _ O); discriminate].
      apply g_call. cbn [body]. unfold body_name.
      assert (E : n_item (in_loc (view_of lx) (v_text (view_of lx))) = n_item i) by (cbn [in_loc n_item]; apply (text_of _ _ _ _ _ O)).
      destruct HN as [(-> & ->)|(-> & ->)].
      - apply g_bind, g_look. decide_is. apply g_bind. eapply g_consume; [exact O|].
        eapply pend_mono; [|apply H].
        + intros lx1 (G & _). apply g_ret. exact G.
        + cbn [strip_name option_map]. unfold strip_id, strip_node. now rewrite E.
      - apply g_bind, g_look. decide_is. apply g_bind. eapply g_consume; [exact O|].
        eapply pend_mono; [|apply H].
        + intros lx1 (G & _). apply g_ret. exact G.
        + cbn [strip_name option_map]. unfold strip_id, strip_node. now rewrite E. }
    destruct k; cbn [name_ok] in NO.
    - subst n. cbn [c_name app]. eapply pend_mono; [|apply (H Name_Empty eq_refl)]. intros lx (G & N1 & N2). split; [|exact N2].
      apply g_call. cbn [body body_name]. apply g_ret. exact G.
    - destruct NO as [->|(i & -> & HI)]; cbn [c_name]; flat.
      + apply pend_sp. eapply pend_mono; [|apply (H (Name_Optional None) eq_refl)]. intros lx (G & N1 & N2). split; [|exact N2].
        apply g_call. cbn [body body_name]. apply g_bind, g_look. rewrite is_false_ne by exact N1. apply g_ret. exact G.
      + apply ID; auto.
    - destruct NO as (i & -> & HI). cbn [c_name]; flat. apply ID; auto.
  Qed.
  Lemma c_func_split n g ps b : c_func (Func n g ps b) = c_keyword "function" n ++ c_name n ++ GBytes (bs "(") :: c_list c_pattern ps ++ GBytes (bs ")") :: GPretty x20 :: c_block c_statement (n_item b).
  Proof. cbn [c_func]. unfold c_node, w, sp. cbn [app]. rewrite ?app_assoc. reflexivity. Qed.
  Lemma p_function k n g ps b c Q : name_ok k n -> g = false -> params_fit ps -> Params ps -> Body (n_item b) ->
    (forall f, strip_func f = strip_func (Func n g ps b) -> pend false c (fun lx => Q f lx)) ->
    pend false (c_name n ++ GBytes (bs "(") :: c_list c_pattern ps ++ GBytes (bs ")") :: GPretty x20 :: c_block c_statement (n_item b) ++ c)
      (fun lx => gets (call (F_function k)) lx Q).
  Proof.
    intros NO -> PF HP HB H.
    eapply pend_mono; [|apply (p_name k n _ (fun n' lx => gets (ps' <- call F_params ;; b' <- call (F_block I_Statement) ;; Ret (Func n' false ps' b')) lx Q) NO)].
    - intros lx (G & N). apply g_call. cbn [body]. unfold body_function. apply g_bind, g_look. rewrite is_false_ne by exact N.
      apply g_bind, g_ret, g_bind. exact G.
    - htac.
    - intros n' En. eapply pend_mono; [|apply (p_params ps PF HP false _ (fun ps' lx => gets (b' <- call (F_block I_Statement) ;; Ret (Func n' false ps' b')) lx Q))].
      + intros lx (G & TK). split; [|rewrite TK; split; discriminate]. apply g_bind. exact G.
      + intros ps' Eps. apply pend_sp. eapply pend_mono; [|apply (p_block I_Statement c_statement strip_statement (n_item b) HB false c (fun b' lx => Q (Func n' false ps' b') lx))].
        * intros lx (G & _). apply g_bind. eapply gets_mono; [|exact G]. intros b' lx2 HQ. apply g_ret. exact HQ.
        * intros b' Eb. apply H. cbn [strip_func]. f_equal; [exact En|exact Eps|]. unfold strip_node. f_equal. exact Eb.
  Qed.
  Definition Fn (f : func) : Prop := match f with Func _ _ ps b => Params ps /\ Body (n_item b) end.
  Definition Method (f : func) : Prop :=
    forall c Q, (forall n, strip_func (n_item n) = strip_func f -> pend false c (fun lx => Q n lx)) ->
      pend false (c_func f ++ c) (fun lx => gets (call F_method) lx Q /\ lx_token lx = T_ParenOpen).
  Lemma fn_method f : func_name f = Name_Empty -> func_fits f -> Fn f -> Method f.
  Proof.
    destruct f as [n g ps b]. cbn [func_name]. intros -> (-> & PF) (HP & HB) c Q H. rewrite c_func_split. cbn [c_keyword c_name app].
    rewrite <- app_assoc. cbn [app].
    apply pend_and; [|tok lx O; apply (on_token _ _ _ _ _ O)].
    assert (G0 := p_function NK_Empty Name_Empty false ps b c (fun f lx => forall s, Q (Node s (func_body_end f) f) lx) eq_refl eq_refl PF HP HB).
    cbn [c_name app] in G0. eapply pend_mono; [|apply G0].
    - intros lx G. apply g_call. cbn [body]. unfold body_method, get_start. apply g_bind, g_bind, g_look, g_ret, g_bind.
      eapply gets_mono; [|exact G]. intros f lx2 HQ. apply g_ret. apply HQ.
    - intros f Ef.
      eapply pend_mono; [|apply (pend_all alnum (fun m => strip_func (n_item m) = strip_func (Func Name_Empty false ps b)) _ _ _ (ex_intro _ (Node 0%N 0%N (Func Name_Empty false ps b)) eq_refl) H)].
      intros lx G s. apply G. exact Ef.
  Qed.
  Lemma spec_function f : optional_name (func_name f) -> func_fits f -> Fn f -> Spec (E_Function f).
  Proof.
    destruct f as [n g ps b]. cbn [func_name]. intros NO (-> & PF) (HP & HB) ctx bp nl c Q L T H. cbn [c_expression leftmost].
    rewrite c_func_split. assert (c_keyword "function" n = [GBytes (bs "function")]) as -> by (destruct NO as [->|(i & -> & _)]; reflexivity).
    rewrite <- !app_assoc. cbn [app]. rewrite <- app_assoc. cbn [app].
    apply (pend_kw alnum nl (bs "function") T_Function); [vm_compute; reflexivity| |].
    { destruct NO as [->|(i & -> & _)]; cbn [c_name]; flat; htac. }
    intros lx O. split; [|eapply lead_on; [exact O|discriminate|exact I]].
    eapply g_expression; [apply (on_token _ _ _ _ _ O)|reflexivity|discriminate|].
    cbn [body_expr_handler]. apply g_call. cbn [body]. unfold body_function_expression, start_then_consume. apply g_bind, g_bind, g_look, g_bind.
    eapply g_consume; [exact O|]. eapply pend_mono; [intros lx1 G; apply g_ret, g_bind; exact G|].
    apply (p_function NK_Optional n false ps b); auto. intros f Ef. eapply pend_mono; [|apply H]. { intros lx1 (G & _). apply g_ret. exact G. }
    unfold same. cbn [n_item strip_expression]. f_equal. exact Ef.
  Qed.

  (** ** Properties *)
  Definition Key (k : property_key) : Prop := match k with Key_Computed e => Spec (n_item e) | _ => True end.
  Lemma key_word_is s : key_word s -> is_word (keyword_or_identifier s) = true.
  Proof.
    intros (_ & N). unfold keyword_or_identifier. destruct (assoc s KEYWORDS) as [t|] eqn:E; [|reflexivity].
    assert (I : In (s, t) KEYWORDS).
    { clear N. revert E. induction KEYWORDS as [|(x & t') l IH]; cbn [assoc]; [discriminate|]. destruct (str_eqb s x) eqn:Es.
      - intros X. injection X as <-. apply str_eqb_eq in Es. left. congruence.
      - intros X. right. apply IH, X. }
    assert (G : forallb (fun p => is_word (snd p) || existsb (str_eqb (fst p)) not_keys) KEYWORDS = true) by (vm_compute; reflexivity).
    rewrite forallb_forall in G. specialize (G _ I). cbn [fst snd] in G. apply orb_true_iff in G as [G|G]; [exact G|].
    exfalso. apply N. apply existsb_exists in G as (x & Ix & Ex). apply str_eqb_eq in Ex. now subst.
  Qed.
End Parts.
