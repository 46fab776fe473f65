(** Reading back generated code: the statements proved by induction over the
    tree, and the steps they are proved with. *)
From Coq Require Import List NArith PeanoNat Bool String Lia.
From Coq.Strings Require Import Byte.
From Verif Require Import Bytes Token Tables Lexer SpecLexer SpecTokens SpecChunks SpecTree SpecUtf8 SpecHazard SpecPrec SpecRound
  Ast Prog Parser Codegen LexerFacts ConsumeFacts LexEval ProgFacts ParseFacts Structure Gets Foreign Levels Chain.
Import ListNotations.
Open Scope nat_scope.
Open Scope list_scope.

(** ** Bytes *)
Definition dot : byte := "."%byte.
Definition tail0_b (b : byte) : bool := negb (word_byte b).
Definition tail_b (b : byte) : bool := negb (word_byte b) && negb (byte_eqb b dot).
Notation tail0 := (heads tail0_b).
Notation tail := (heads tail_b).
Lemma tail_tail0 c : tail c -> tail0 c.
Proof. apply heads_mono. intros b H. unfold tail_b in H. apply andb_true_iff in H. apply H. Qed.
Lemma white_tail b : white b -> tail_b b = true.
Proof. unfold white. destruct b; vm_compute; intros [H1 H2]; congruence. Qed.
Lemma white_tail0 b : white b -> tail0_b b = true.
Proof. intros H. apply white_tail in H. unfold tail_b in H. apply andb_true_iff in H. apply H. Qed.
(** Bytes an expression can start with. *)
Definition starter_byte (b : byte) : bool :=
  word_first b || digit b || (127 <? byte_val b)%N || one_of [""""; "'"; "."; "("; "["; "{"; "+"; "-"; "!"; "~"; "/"; "`"]%byte b.
Lemma starter_extends x t b : In (x, t) PUNCTUATORS -> starter_byte b = true -> extends x b = true ->
  (x = bs "+" /\ b = "+"%byte) \/ (x = bs "-" /\ b = "-"%byte) \/ (x = bs "/" /\ b = "/"%byte).
Proof.
  assert (G : forallb (fun p => forallb (fun b => negb (starter_byte b) || negb (extends (fst p) b)
     || (str_eqb (fst p) (bs "+") && byte_eqb b "+") || (str_eqb (fst p) (bs "-") && byte_eqb b "-")
     || (str_eqb (fst p) (bs "/") && byte_eqb b "/"))%byte all_bytes) PUNCTUATORS = true) by (vm_compute; reflexivity).
  intros I S E. rewrite forallb_forall in G. specialize (G _ I). rewrite forallb_forall in G. specialize (G _ (in_all_bytes b)).
  cbn [fst] in G. rewrite S, E in G. cbn [negb orb] in G.
  apply orb_true_iff in G as [G|G]; [apply orb_true_iff in G as [G|G]|].
  all: apply andb_true_iff in G as [G1 G2]; apply str_eqb_eq in G1; apply byte_eqb_eq in G2; auto.
Qed.
Lemma first_heads (f : byte -> bool) c d b : first c = Some b -> f b = true -> heads f (c ++ d).
Proof.
  intros H F. destruct c as [|[[|b' x]| | | | |] c]; try discriminate H. injection H as ->.
  cbn [app]. now apply heads_bytes.
Qed.

(** Punctuators that are never part of a longer one. *)
Definition solid (x : str) (t : token) : bool := punctuator_b x t && forallb (fun b => negb (extends x b)) all_bytes.

Section Round.
  Variable alnum : N -> bool.
  Notation gets := (gets alnum).
  Notation pend := (pend alnum).

  (** ** Steps *)
  Lemma g_look lx (Q : view -> lexer -> Prop) : Q (view_of lx) lx -> gets look lx Q.
  Proof. intros H. unfold look. apply gets_look, gets_ret. exact H. Qed.
  Lemma g_bind {A B : Type} (p : P A) (g : A -> P B) lx Q : gets p lx (fun a lx' => gets (g a) lx' Q) -> gets (bind p g) lx Q.
  Proof. apply gets_bind. Qed.
  Lemma g_ret {A : Type} (a : A) lx (Q : A -> lexer -> Prop) : Q a lx -> gets (Ret a) lx Q.
  Proof. apply gets_ret. Qed.
  Lemma g_call {R : Set} (f : fn R) lx Q : gets (body R f) lx Q -> gets (call f) lx Q.
  Proof. intros H. unfold call. apply gets_call. eapply gets_mono; [|exact H]. intros a lx' HQ. apply gets_ret. exact HQ. Qed.
  Lemma g_consume nl t x c lx (Q : unit -> lexer -> Prop) : on nl t x c lx -> pend false c (fun lx' => Q tt lx') -> gets consume_ lx Q.
  Proof. intros O H. unfold consume_. eapply on_next; [exact O|]. eapply pend_mono; [|exact H]. intros lx' HQ. apply g_ret. exact HQ. Qed.
  Lemma g_consume_stand t c lx (Q : unit -> lexer -> Prop) : stand t c lx -> pend false c (fun lx' => Q tt lx') -> gets consume_ lx Q.
  Proof. intros O H. unfold consume_. eapply stand_next; [exact O|]. eapply pend_mono; [|exact H]. intros lx' HQ. apply g_ret. exact HQ. Qed.
  Lemma is_true_eq t lx : lx_token lx = t -> is t (view_of lx) = true.
  Proof. intros H. unfold is. cbn [view_of v_token]. rewrite H. destruct t; reflexivity. Qed.
  Lemma is_false_ne t lx : lx_token lx <> t -> is t (view_of lx) = false.
  Proof.
    intros H. unfold is. cbn [view_of v_token]. destruct (token_eqb (lx_token lx) t) eqn:E; auto.
    apply token_eqb_eq in E. congruence.
  Qed.
  Lemma g_expect nl t x c lx (Q : unit -> lexer -> Prop) : on nl t x c lx -> pend false c (fun lx' => Q tt lx') -> gets (expect t) lx Q.
  Proof.
    intros O H. unfold expect. apply g_bind, g_look. rewrite (is_true_eq _ _ (on_token _ _ _ _ _ O)).
    eapply g_consume; eauto.
  Qed.

  (** The tokens, for whatever comes next. *)
  Lemma pend_solid nl x t c (K : lexer -> Prop) : solid x t = true -> (forall lx, on nl t x c lx -> K lx) -> pend nl (GBytes x :: c) K.
  Proof.
    intros H HK. apply andb_true_iff in H as [H1 H2]. apply (pend_punct alnum nl x t); auto using punctuator_in.
    apply heads_any. intros b. rewrite forallb_forall in H2. apply H2, in_all_bytes.
  Qed.
  Lemma pend_kw nl x t c (K : lexer -> Prop) :
    forallb word_byte x && match x with b :: _ => word_first b | [] => false end && token_eqb (keyword_or_identifier x) t = true ->
    tail0 c -> (forall lx, on nl t x c lx -> K lx) -> pend nl (GBytes x :: c) K.
  Proof.
    intros H HT HK. apply andb_true_iff in H as [H H3]. apply andb_true_iff in H as [H1 H2]. apply token_eqb_eq in H3. subst t.
    apply pend_word; auto.
    - apply Forall_forall. apply forallb_forall. exact H1.
    - destruct x as [|b r]; [discriminate|]. eauto.
  Qed.
  (** A keyword and a blank in one piece. *)
  Lemma pend_kw_blank nl x y t c (K : lexer -> Prop) :
    y = x ++ [x20] ->
    forallb word_byte x && match x with b :: _ => word_first b | [] => false end && token_eqb (keyword_or_identifier x) t = true ->
    (forall lx, on nl t x (GBytes [x20] :: c) lx -> K lx) -> pend nl (GBytes y :: c) K.
  Proof. intros -> H HK. apply pend_split. eapply pend_kw; eauto. apply heads_bytes. reflexivity. Qed.
  Lemma pend_blank_split nl x y c (K : lexer -> Prop) : y = x20 :: x -> pend nl (GBytes x :: c) K -> pend nl (GBytes y :: c) K.
  Proof. intros -> H. change (x20 :: x) with ([x20] ++ x). apply pend_split, pend_blank. exact H. Qed.

  Lemma pend_all {A : Type} (good : A -> Prop) nl c (K : A -> lexer -> Prop) : (exists a, good a) ->
    (forall a, good a -> pend nl c (K a)) -> pend nl c (fun lx => forall a, good a -> K a lx).
  Proof.
    intros (a0 & H0) H lx0 ws s W N R PL E. destruct (H a0 H0 lx0 ws s W N R PL E) as (lx & E1 & _).
    exists lx. split; [assumption|]. intros a Ha. destruct (H a Ha lx0 ws s W N R PL E) as (lx' & E2 & HK). congruence.
  Qed.

  (** ** Where an expression starts *)
  Definition starter (lx : lexer) : Prop := nth (token_index (lx_token lx)) DEF_CONTEXT X_____ <> X_____.
  Lemma starter_not t lx : nth (token_index t) DEF_CONTEXT X_____ = X_____ -> starter lx -> lx_token lx <> t.
  Proof. intros H S E. apply S. rewrite E. exact H. Qed.
  Definition opening (x : expression) (t : token) : Prop :=
    match t with
    | T_BraceOpen => match x with E_Object _ => True | _ => False end
    | T_Function => match x with E_Function _ => True | _ => False end
    | T_Class => match x with E_Class _ => True | _ => False end
    | _ => True
    end.
  Definition lead (x : expression) (nl : bool) (lx : lexer) : Prop :=
    starter lx /\ opening x (lx_token lx) /\ (nl = false -> lx_asi lx = NoSemicolon).
  Lemma contexts ctx t : nth (token_index t) DEF_CONTEXT X_____ <> X_____ ->
    nth (token_index t) (context_table ctx) X_____ = nth (token_index t) DEF_CONTEXT X_____.
  Proof. destruct ctx, t; intros H; try reflexivity; exfalso; apply H; reflexivity. Qed.
  Lemma starter_asi t nl x c lx : on nl t x c lx -> starter lx -> nl = false -> lx_asi lx = NoSemicolon.
  Proof.
    intros O S ->. destruct (on_asi _ _ _ _ _ O) as (ws & N & ->). specialize (N eq_refl).
    unfold starter in S. rewrite (on_token _ _ _ _ _ O) in S. unfold asi_of. rewrite N.
    destruct t; try reflexivity; exfalso; apply S; reflexivity.
  Qed.
  Lemma lead_on x t nl s c lx : on nl t s c lx -> nth (token_index t) DEF_CONTEXT X_____ <> X_____ -> opening x t -> lead x nl lx.
  Proof.
    intros O S H. assert (starter lx) by (unfold starter; now rewrite (on_token _ _ _ _ _ O)).
    split; [assumption|]. split; [now rewrite (on_token _ _ _ _ _ O)|]. eapply starter_asi; eauto.
  Qed.
  Lemma g_expression ctx b t lx Q h :
    lx_token lx = t -> nth (token_index t) DEF_CONTEXT X_____ = h -> h <> X_____ ->
    gets (body_expr_handler h) lx (fun l lx' => gets (body_nested b l) lx' Q) ->
    gets (body_expression ctx b) lx Q.
  Proof.
    intros Ht Hh N H. unfold body_expression. apply g_bind, g_look.
    assert (E : bound_handler ctx (view_of lx) = h).
    { unfold bound_handler. cbn [view_of v_token]. rewrite Ht, contexts; congruence. }
    rewrite E. apply g_bind, g_call. cbn [body]. eapply gets_mono; [|exact H].
    intros l lx' HQ. apply g_call. exact HQ.
  Qed.

  (** ** The statements *)
  Definition same (n : expr_node) (e : expression) : Prop := strip_expression (n_item n) = strip_expression e.
  (** After these expressions an accessor is not read as part of a number. *)
  Definition dot_ok (e : expression) : bool :=
    match e with
    | E_Literal (L_Number _) | E_Literal (L_Binary _) => false
    | E_This | E_Identifier _ | E_Literal _ | E_Array _ | E_ComputedMember _ _ | E_Template _ | E_TaggedTemplate _ _
    | E_Object _ | E_Function _ | E_Class _ => true
    | _ => false
    end.
  Definition tails (e : expression) (c : code) : Prop := if dot_ok e then tail0 c else tail c.
  Lemma tail_tails e c : tail c -> tails e c.
  Proof. unfold tails. destruct (dot_ok e); auto using tail_tail0. Qed.
  Lemma tails_tail0 e c : tails e c -> tail0 c.
  Proof. unfold tails. destruct (dot_ok e); auto using tail_tail0. Qed.

  Definition Spec (e : expression) : Prop :=
    forall ctx b nl c Q, level b < ll e -> tails e c ->
      (forall n, same n e -> pend false c (fun lx => gets (body_nested b n) lx Q /\ tlevel (lx_token lx) <= rl e)) ->
      pend nl (c_expression e ++ c) (fun lx => gets (body_expression ctx b) lx Q /\ lead (leftmost e) nl lx).

  (** A program reads the code: it gives a result that is [rel]ated, whatever
      code (subject to [ok]) and token (subject to [follow]) come next. *)
  Definition reads {A : Type} (p : P A) (code : code) (rel : A -> Prop) (ok : Codegen.code -> Prop) (follow : lexer -> Prop)
    (ld : bool -> lexer -> Prop) : Prop :=
    forall nl c Q, ok c -> (forall a, rel a -> pend false c (fun lx => Q a lx /\ follow lx)) ->
      pend nl (code ++ c) (fun lx => gets p lx Q /\ ld nl lx).

  (** Nothing is taken after the expression. *)
  Lemma nested_stop b n lx (Q : expr_node -> lexer -> Prop) : tlevel (lx_token lx) <= level b -> Q n lx -> gets (body_nested b n) lx Q.
  Proof. intros H HQ. unfold body_nested. apply g_bind, g_look. rewrite handler_none by assumption. apply g_ret. exact HQ. Qed.
  Lemma spec_reads e ctx b : Spec e -> level b < ll e ->
    reads (body_expression ctx b) (c_expression e) (fun n => same n e) tail
      (fun lx => tlevel (lx_token lx) <= level b /\ tlevel (lx_token lx) <= rl e) (lead (leftmost e)).
  Proof.
    intros S L nl c Q T H. apply S; auto using tail_tails. intros n E. eapply pend_mono; [|apply (H n E)].
    intros lx (HQ & L1 & L2). split; [|assumption]. apply nested_stop; auto.
  Qed.

  (** In parentheses. *)
  Lemma spec_paren e ctx b nl c Q x : Spec e -> 0 < ll e ->
    (forall n, same n e -> pend false c (fun lx => gets (body_nested b n) lx Q)) ->
    opening x T_ParenOpen ->
    pend nl (GBytes (bs "(") :: c_expression e ++ GBytes (bs ")") :: c) (fun lx => gets (body_expression ctx b) lx Q /\ lead x nl lx).
  Proof.
    intros S L H HX. apply (pend_solid nl (bs "(") T_ParenOpen); [vm_compute; reflexivity|]. intros lx O.
    split; [|eapply lead_on; [exact O|discriminate|exact HX]].
    eapply (g_expression ctx b T_ParenOpen); [apply (on_token _ _ _ _ _ O)|reflexivity|discriminate|].
    cbn [body_expr_handler]. apply g_call. cbn [body]. unfold body_paren.
    apply g_bind. unfold start_then_consume. apply g_bind, g_look. apply g_bind. eapply g_consume; [exact O|].
    eapply pend_mono; [|apply (spec_reads e CtxDefault BP_ANY S L false (GBytes (bs ")") :: c)
      (fun n lx' => gets (expect T_ParenClose ;;; Ret n) lx' (fun l lx'' => gets (body_nested b l) lx'' Q)))].
    - intros lx1 (G & LD). apply g_ret. apply g_bind, g_look.
      rewrite is_false_ne by (apply starter_not; [reflexivity|apply LD]).
      apply g_bind, g_call. cbn [body]. exact G.
    - apply heads_bytes. reflexivity.
    - intros n E. apply (pend_solid false (bs ")") T_ParenClose); [vm_compute; reflexivity|]. intros lx2 O2.
      split; [|rewrite (on_token _ _ _ _ _ O2); cbn; lia].
      apply g_bind. eapply g_expect; [exact O2|]. eapply pend_mono; [|apply (H n E)].
      intros lx3 G. apply g_ret. exact G.
  Qed.
  (** As an operand. *)
  Lemma spec_bound k o ctx b nl c Q : Spec (n_item o) -> 0 < ll (n_item o) -> level b < ll_in k (n_item o) ->
    (in_parens k (n_item o) = false -> tails (n_item o) c) ->
    (forall n, same n (n_item o) -> pend false c (fun lx => gets (body_nested b n) lx Q /\ tlevel (lx_token lx) <= rl_in k (n_item o))) ->
    pend nl (c_bound c_expression o k ++ c) (fun lx => gets (body_expression ctx b) lx Q /\ lead (left_in k (n_item o)) nl lx).
  Proof.
    intros S L0 L T H. unfold c_bound, ll_in, rl_in, left_in, in_parens in *.
    destruct (Nat.ltb (expression_bp (n_item o)) k).
    - rewrite <- !app_assoc. cbn [w app]. apply spec_paren; auto; [|exact I].
      intros n E. eapply pend_mono; [|apply (H n E)]. intros lx G. apply G.
    - apply S; auto.
  Qed.
End Round.

(** ** Tactics *)
(** Code as a list of generator calls. *)
Ltac flat :=
  unfold c_node, c_ident, wstr, w, sp, space_if; rewrite <- ?app_assoc; cbn [app]; rewrite <- ?app_assoc; cbn [app].
Ltac known_token lx :=
  lazymatch goal with
  | O : on _ _ _ _ lx |- _ => rewrite (on_token _ _ _ _ _ O)
  | O : stand _ _ lx |- _ => rewrite (st_token _ _ _ O)
  end.
Ltac decide_is :=
  match goal with
  | |- context [is ?t (view_of ?lx)] =>
      first
        [ rewrite (is_true_eq t lx) by (solve [known_token lx; reflexivity | assumption])
        | rewrite (is_false_ne t lx) by (solve [known_token lx; discriminate | assumption
             | match goal with L : lead _ _ _ lx |- _ => apply starter_not; [reflexivity|apply L] end
             | match goal with L : lead _ _ lx |- _ => apply starter_not; [reflexivity|apply L] end]) ]
  end.
Ltac gstep :=
  lazymatch goal with
  | |- gets _ (bind _ _) _ _ => apply g_bind
  | |- gets _ look _ _ => apply g_look
  | |- gets _ (Ret _) _ _ => apply g_ret
  | |- gets _ start_then_consume _ _ => unfold start_then_consume
  | |- gets _ end_then_consume _ _ => unfold end_then_consume
  | |- gets _ get_end _ _ => unfold get_end
  | |- gets _ get_start _ _ => unfold get_start
  | |- gets _ (call F_statement) _ _ => fail
  | |- gets _ (call (F_expression _ _)) _ _ => fail
  | |- gets _ (if _ then _ else _) _ _ => decide_is; cbn [andb orb]
  | O : on _ _ _ ?c ?lx |- gets _ consume_ ?lx _ => apply (g_consume _ _ _ _ _ _ _ O)
  | O : stand _ ?c ?lx |- gets _ consume_ ?lx _ => apply (g_consume_stand _ _ _ _ _ O)
  | O : on _ ?t _ _ ?lx |- gets _ (expect ?t) ?lx _ => apply (g_expect _ _ _ _ _ _ _ O)
  end; cbv beta iota.
Ltac pstep :=
  lazymatch goal with
  | |- pend _ _ (GPretty x20 :: _) _ => apply pend_sp
  | |- pend _ _ (GNewLine :: _) _ => apply pend_newline
  | |- pend _ _ (GIndent :: _) _ => apply pend_indent
  | |- pend _ _ (GDedent :: _) _ => apply pend_dedent
  | |- pend _ _ (GBytes [x20] :: _) _ => apply pend_blank
  | |- pend _ _ (GBytes (bs " ") :: _) _ => apply pend_blank
  end.
(** First bytes of code. *)
Ltac htac :=
  lazymatch goal with
  | |- heads _ (GPretty x20 :: _) => apply heads_sp; [reflexivity|htac]
  | |- heads tail_b (GNewLine :: _) => apply heads_newline; [exact white_tail|htac]
  | |- heads tail0_b (GNewLine :: _) => apply heads_newline; [exact white_tail0|htac]
  | |- heads _ (GIndent :: _) => apply heads_indent; htac
  | |- heads _ (GDedent :: _) => apply heads_dedent; htac
  | |- heads _ (GBytes (bs _) :: _) => apply heads_bytes; reflexivity
  | |- heads _ (GBytes [_] :: _) => apply heads_bytes; reflexivity
  | |- heads tail0_b _ => first [assumption | apply tail_tail0; assumption | apply heads_nil; reflexivity]
  | |- heads _ _ => first [assumption | apply heads_nil; reflexivity]
  | |- tails _ _ => apply tail_tails; htac
  end.
