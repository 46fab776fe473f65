(** An accepted program has no invalid tokens. *)
From Coq Require Import List NArith Bool Lia String.
From Coq.Strings Require Import Byte.
From Verif Require Import Bytes Token Tables Lexer Ast Prog Parser ProgFacts Structure LexEval TokenText StateFacts LexerFacts ConsumeFacts LexProps SpecTrace Erase TraceFacts.
Import ListNotations.
Open Scope nat_scope.
Open Scope list_scope.

Definition bad (t : token) : bool := match t with T_UnexpectedToken | T_UnexpectedEndOfProgram => true | _ => false end.
Definition good (v : view) : Prop := bad (v_token v) = false.
Definition vpre {R : Set} (f : fn R) (v : view) : Prop :=
  match f with
  | F_regular_expression | F_expr_handler X_REG | F_stmt_handler S_REG => v_token v = T_OperatorDivision
  | F_unchecked_block _ | F_nested_handler _ _ | F_paren | F_object | F_array | F_template_string | F_template_literal
  | F_function_expression | F_class_expression | F_meta_property _ | F_pattern_array | F_pattern_object | F_rest_element
  | F_block_statement | F_labeled_or_expression | F_function_statement | F_class_statement | F_variable_declaration _ | F_return | F_break | F_continue
  | F_throw | F_try | F_catch | F_if | F_while | F_do | F_for_init _ | F_for | F_switch | F_import => good v
  | F_expr_handler X_____ | F_stmt_handler S_____ => True
  | F_expr_handler _ | F_stmt_handler _ => good v
  | _ => True
  end.
Lemma good_nested b v h : handler b v = Some h -> good v.
Proof.
  intros H. unfold handler in H. assert (G : nth (token_index (v_token v)) (LUT b) None = Some h).
  { destruct (v_asi v); auto. destruct (_ || _)%bool; [discriminate|exact H]. }
  unfold good. destruct (v_token v); try reflexivity; destruct b; discriminate G.
Qed.
Lemma good_expr c v : bound_handler c v = X_____ \/ good v.
Proof. unfold bound_handler, good. destruct (v_token v); auto; left; destruct c; reflexivity. Qed.
Lemma good_stmt v : statement_handler v = S_____ \/ good v.
Proof. unfold statement_handler, good. destruct (v_token v); auto; left; reflexivity. Qed.
Lemma good_operator v o : operator_from_token (v_token v) = Some o -> good v.
Proof. unfold good. destruct (v_token v); try reflexivity; discriminate. Qed.
Lemma good_word v : is_word (v_token v) = true -> good v.
Proof. unfold good. destruct (v_token v); try reflexivity; discriminate. Qed.
(** What is known of the current token when a method returns, if there was no error. *)
Definition vpost {R : Set} (f : fn R) (v : view) : Prop :=
  match f with
  | F_raw_block _ | F_items _ | F_call_arguments | F_call_arguments_rest | F_property_list | F_property_list_rest | F_array_elements | F_array_elements_rest
  | F_pattern_elements | F_pattern_elements_rest | F_meta_property _ => good v
  | F_parse => v_token v = T_EndOfProgram
  | _ => True
  end.
Definition vinv (v : view) : Prop := v_asi v = ExplicitSemicolon -> v_token v = T_Semicolon.
Inductive V {A : Type} (Q : view -> Prop) : view -> P A -> Prop :=
| V_Ret v a : Q v -> V Q v (Ret a)
| V_Look v k : V Q v (k v) -> V Q v (Look k)
| V_Consume v k : good v -> (forall v', vinv v' -> V Q v' k) -> V Q v (Consume k)
| V_Template v k : v_token v = T_BraceClose -> (forall v', vinv v' -> V Q v' k) -> V Q v (ReadTemplate k)
| V_Regex v k : v_token v = T_OperatorDivision -> (forall s v', vinv v' -> V Q v' (k s)) -> V Q v (ReadRegex k)
| V_Error v k : V Q v (PushError k)
| V_Abort v : V Q v Abort
| V_Call v (R : Set) (f : fn R) k : vpre f v -> (forall r v', vinv v' -> vpost f v' -> V Q v' (k r)) -> V Q v (Call f k).
Ltac vcond p := match p with bind ?q _ => vcond q | (if ?c then _ else _) => c | (match ?c with _ => _ end) => c end.
Ltac vstep :=
  match goal with
  | |- V _ _ (Ret _) => apply V_Ret
  | |- V _ _ (Look _) => apply V_Look
  | |- V _ _ (Consume _) => apply V_Consume; [|intros ?v ?Hi]
  | |- V _ _ (ReadTemplate _) => apply V_Template; [|intros ?v ?Hi]
  | |- V _ _ (ReadRegex _) => apply V_Regex; [|intros ?s ?v ?Hi]
  | |- V _ _ (PushError _) => apply V_Error
  | |- V _ _ Abort => apply V_Abort
  | |- V _ _ (Call _ _) => apply V_Call; [try exact I|intros ?r ?v ?Hi ?Hq; cbn [vpost] in *]
  | |- V _ _ ?p => let c := vcond p in let E := fresh "C" in destruct c eqn:E
  end.
Lemma is_good t v : is t v = true -> bad t = false -> good v.
Proof. intros H. apply is_eq in H. unfold good. now rewrite H. Qed.
Lemma good_explicit v : vinv v -> v_asi v = ExplicitSemicolon -> good v.
Proof. intros H E. unfold good. now rewrite (H E). Qed.
Lemma good_slash v : v_token v = T_OperatorDivision -> good v.
Proof. unfold good. now intros ->. Qed.
Ltac vclose := try assumption; try exact I;
  try (match goal with
  | C : is ?t ?v = true |- good ?v => exact (is_good t v C eq_refl)
  | C : (is ?t ?v && _)%bool = true |- good ?v => apply andb_true_iff in C as [C _]; exact (is_good t v C eq_refl)
  | C : is ?t ?v = true |- v_token ?v = ?t => exact (is_eq t v C)
  | C : handler _ ?v = Some _ |- _ => exact (good_nested _ _ _ C)
  | C : operator_from_token (v_token ?v) = Some _ |- good ?v => exact (good_operator _ _ C)
  | C : is_word (v_token ?v) = true |- good ?v => exact (good_word _ C)
  | C : v_asi ?v = ExplicitSemicolon |- good ?v => apply good_explicit; assumption
  | C : (is _ ?v || is _ ?v)%bool = true |- good ?v => apply orb_true_iff in C as [C|C]; exact (is_good _ v C eq_refl)
  | |- (match bound_handler ?c ?v with _ => _ end) => destruct (good_expr c v) as [X|X]; [rewrite X; exact I|destruct (bound_handler c v) eqn:Y; try exact I; try exact X; exact (regex_handler _ _ Y)]
  | |- (match statement_handler ?v with _ => _ end) => destruct (good_stmt v) as [X|X]; [rewrite X; exact I|destruct (statement_handler v) eqn:Y; try exact I; try exact X; exact (regex_statement _ Y)]
  end).
Lemma body_valid (R : Set) (f : fn R) v : vinv v -> vpre f v -> V (vpost f) v (body R f).
Proof.
  intros Hv Hp. destruct f; try (match goal with h : nested_handler |- _ => destruct h end); try (match goal with h : expr_handler |- _ => destruct h end); try (match goal with h : stmt_handler |- _ => destruct h end);
    try (match goal with i : item _ |- _ => destruct i end); try (match goal with k : namekind |- _ => destruct k end).
  all: cbn [vpre] in Hp; match goal with |- V _ _ (body _ ?f) => pose (fn_now := f) end.
  all: bodies; cbn [bind vpost]; repeat (vstep; cbn [bind vpre vpost]); vclose.
Qed.

(** ** Runs *)
Lemma inv_consume alnum lx lx1 : ok lx -> consume alnum lx = Done lx1 -> ok lx1 /\ vinv (view_of lx1).
Proof.
  intros O E. assert (C := consume_consumed _ _ _ O E). split; [apply C|]. destruct (consume_asi _ _ _ O E) as (g1 & ws & A & W & X & Y). intros H. cbn [view_of v_asi v_token] in *. rewrite Y in H.
  destruct (lx_token lx1); try reflexivity; cbn in H; try discriminate H; unfold asi_ws in H; match type of H with (if ?c then _ else _) = _ => destruct c end; discriminate H.
Qed.
Lemma template_asi lx lx1 : read_template_kind lx = Done lx1 -> lx_asi lx1 = lx_asi lx.
Proof. unfold read_template_kind. intros E. ob E as [[k e] c] E1 E2. destruct k; injection E2 as <-; reflexivity. Qed.
Lemma regex_asi lx v lx1 : read_regular_expression lx = Done (v, lx1) -> lx_asi lx1 = lx_asi lx.
Proof.
  unfold read_regular_expression. cbv zeta. intros E. ob E as [k c] E1 E2. destruct k; [|injection E2 as _ <-; reflexivity..]. ob E2 as lx2 E3 E4. injection E4 as _ <-. unfold skip_while in E3. ob E3 as c2 E5 E6. injection E6 as <-. reflexivity.
Qed.
Lemma inv_template lx lx1 : ok lx -> vinv (view_of lx) -> lx_token lx = T_BraceClose -> read_template_kind lx = Done lx1 -> ok lx1 /\ vinv (view_of lx1).
Proof.
  intros O I T E. split; [exact (proj2 (template_step _ _ O E))|]. intros X. cbn [view_of v_asi v_token] in X. rewrite (template_asi _ _ E) in X. specialize (I X). cbn in I. congruence.
Qed.
Lemma inv_regex lx v lx1 : ok lx -> vinv (view_of lx) -> lx_token lx = T_OperatorDivision -> read_regular_expression lx = Done (v, lx1) -> ok lx1 /\ vinv (view_of lx1).
Proof.
  intros O I T E. split; [exact (proj2 (regex_step _ _ _ O E))|]. intros X. cbn [view_of v_asi v_token] in X. rewrite (regex_asi _ _ _ E) in X. specialize (I X). cbn in I. congruence.
Qed.
Definition legit (x : spot) : Prop := bad (s_token x) = false.
Definition linv (s : pstate) : Prop := ok (p_lexer s) /\ vinv (view_of (p_lexer s)).
Section Run.
  Variable alnum : N -> bool.
  Notation trun := (trun alnum body).
  Lemma errors_none n A (p : P A) s a s1 l : trun n p s = Done (a, s1, l) -> p_errors s1 = [] -> p_errors s = [].
  Proof.
    intros T E. destruct (errors_grow fn alnum body n A p s a s1) as (l0 & X); [rewrite trun_run, T; reflexivity|]. rewrite E in X. symmetry in X. apply app_eq_nil in X. tauto.
  Qed.
  Lemma chain_join st l1 : forall x l2, chain st x l1 -> chain st (last l1 x) l2 -> chain st x (l1 ++ l2).
  Proof.
    induction l1 as [|y l1 IH]; intros x l2 H1 H2; [exact H2|]. destruct H1 as [H3 H4]. split; [exact H3|]. apply IH; [exact H4|]. rewrite last_cons in H2. exact H2.
  Qed.
  Lemma trun_last n A (p : P A) s a s1 l : trun n p s = Done (a, s1, l) -> last l (spot_of (p_lexer s)) = spot_of (p_lexer s1).
  Proof. intros H. rewrite <- full_sound in H. exact (trun0_last _ _ _ _ _ _ _ _ _ _ H). Qed.
  Lemma valid_run n : forall A Q v (p : P A), V Q v p -> forall s a s1 l, v = view_of (p_lexer s) -> trun n p s = Done (a, s1, l) -> p_errors s1 = [] -> linv s ->
    Q (view_of (p_lexer s1)) /\ linv s1 /\ chain (fun x _ => legit x) (spot_of (p_lexer s)) l.
  Proof.
    induction n as [|n IHn]; intros A Q v p Vp;
    induction Vp as [v a0 HQ|v k Vk IH|v k Hg Vk IH|v k Hg Vk IH|v k Hg Vk IH|v k|v|v R f k Hp Vk IH]; intros s a s1 l -> T E [O I].
    all: rewrite ?trun_Ret, ?trun_Look, ?trun_Consume, ?trun_Template, ?trun_Regex, ?trun_Error, ?trun_Abort, ?trun_Call0, ?trun_CallS in T; try discriminate T.
    all: try (injection T as <- <- <-; split; [exact HQ|]; split; [split; assumption|exact Logic.I]).
    all: try (eapply IH; eauto; split; assumption).
    all: try (ob T as s2 T1 T2; ob T2 as [[b s3] l2] T3 T4; injection T4 as <- <- <-; unfold op_consume in T1; ob T1 as lx1 T5 T6; injection T6 as <-; destruct (inv_consume _ _ _ O T5) as [O1 I1];
      destruct (IH (view_of lx1) I1 (PState lx1 (p_errors s)) _ _ _ eq_refl T3 E (conj O1 I1)) as (X1 & X2 & X3); split; [exact X1|]; split; [exact X2|]; split; [exact Hg|exact X3]).
    all: try (ob T as s2 T1 T2; ob T2 as [[b s3] l2] T3 T4; injection T4 as <- <- <-; unfold op_template in T1; ob T1 as lx1 T5 T6; injection T6 as <-; destruct (inv_template _ _ O I Hg T5) as [O1 I1];
      destruct (IH (view_of lx1) I1 (PState lx1 (p_errors s)) _ _ _ eq_refl T3 E (conj O1 I1)) as (X1 & X2 & X3); split; [exact X1|]; split; [exact X2|]; split; [unfold legit, spot_of, s_token; cbn in *; rewrite Hg; reflexivity|exact X3]).
    all: try (ob T as [w s2] T1 T2; ob T2 as [[b s3] l2] T3 T4; injection T4 as <- <- <-; unfold op_regex in T1; ob T1 as [w1 lx1] T5 T6; injection T6 as <- <-; destruct (inv_regex _ _ _ O I Hg T5) as [O1 I1];
      destruct (IH w1 (view_of lx1) I1 (PState lx1 (p_errors s)) _ _ _ eq_refl T3 E (conj O1 I1)) as (X1 & X2 & X3); split; [exact X1|]; split; [exact X2|]; split; [unfold legit, spot_of, s_token; cbn in *; rewrite Hg; reflexivity|exact X3]).
    all: try (exfalso; ob T as s2 T1 T2; ob T2 as [[b s3] l2] T3 T4; injection T4 as <- <- <-; apply (errors_none _ _ _ _ _ _ _ T3) in E; unfold op_error in T1; ob T1 as [e lx1] T5 T6; injection T6 as <-; cbn in E; apply app_eq_nil in E as [_ E]; discriminate E).
    ob T as [[r s2] l1] T1 T2. ob T2 as [[b s3] l2] T3 T4. injection T4 as <- <- <-. assert (E2 := errors_none _ _ _ _ _ _ _ T3 E).
    destruct (IHn _ _ _ _ (body_valid R f _ I Hp) s _ _ _ eq_refl T1 E2 (conj O I)) as (X1 & X2 & X3).
    destruct (IH r (view_of (p_lexer s2)) (proj2 X2) X1 s2 _ _ _ eq_refl T3 E X2) as (Y1 & Y2 & Y3). split; [exact Y1|]. split; [exact Y2|]. apply chain_join; [exact X3|]. rewrite (trun_last _ _ _ _ _ _ _ T1). exact Y3.
  Qed.
  Lemma chain_legit l : forall x, chain (fun x _ => legit x) x l -> legit (last l x) -> Forall legit (x :: l).
  Proof.
    induction l as [|y l IH]; intros x C H; [constructor; [exact H|constructor]|]. destruct C as [C1 C2]. constructor; [exact C1|]. apply IH; [exact C2|]. now rewrite last_cons in H.
  Qed.
  (** All tokens of an accepted program are valid, and the last is its end. *)
  Lemma accepted_tokens src m l : parse_tokens alnum src (ParseOk m) l -> Forall legit l /\ exists l0 x, l = l0 ++ [x] /\ s_token x = T_EndOfProgram.
  Proof.
    intros (n & lx & m1 & s & l1 & E & T & Er & ->). destruct (p_errors s) as [|e es] eqn:Es; [|discriminate Er]. clear Er.
    destruct (inv_consume _ _ _ (li_ok _ _ (init_inv src)) E) as [O I]. destruct (valid_run n _ _ _ _ (body_valid _ F_parse (view_of lx) I Logic.I) (PState lx []) _ _ _ eq_refl T Es (conj O I)) as (X1 & X2 & X3).
    assert (L := trun_last _ _ _ _ _ _ _ T). cbn [p_lexer vpost] in *. cbn [view_of v_token] in X1. split.
    - apply chain_legit; [exact X3|]. rewrite L. unfold legit, spot_of, s_token. cbn. rewrite X1. reflexivity.
    - destruct (exists_last (l := spot_of lx :: l1) ltac:(discriminate)) as (l0 & x & X). exists l0, x. split; [exact X|]. rewrite <- (last_cons l1 (spot_of lx) (spot_of lx)), X, last_last in L. rewrite L. exact X1.
  Qed.
End Run.
