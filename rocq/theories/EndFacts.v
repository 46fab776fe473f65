(** An accepted program does not stop after a token that asks for more. *)
From Coq Require Import List NArith Bool Lia String.
From Coq.Strings Require Import Byte.
From Verif Require Import Bytes Token Tables Lexer Ast Prog Parser ProgFacts Structure LexEval TokenText StateFacts LexerFacts ConsumeFacts LexProps SpecRead SpecTrace SpecNest Erase TraceFacts Valid.
Import ListNotations.
Open Scope nat_scope.
Open Scope list_scope.

Definition wants (t : token) : bool := negb (existsb (token_eqb t) may_end).
Definition live (v : view) : Prop := v_token v <> T_EndOfProgram.
Definition on (t : token) (v : view) : Prop := v_token v = t.
(** Methods that fail when they are called at the end of the program, or leave it to the next one. *)
Definition passes {R : Set} (f : fn R) : bool := match f with F_property | F_name _ | F_pattern_from_expression _ | F_params_from_expressions _ => true | _ => false end.
Definition takes {R : Set} (f : fn R) : bool :=
  match f with
  | F_nested _ _ | F_nested_handler _ _ | F_expression_statement _ | F_expect_semicolon | F_label | F_items _ | F_parse | F_sequence | F_pattern_assign _ => false
  | _ => true
  end.
Definition calm (v : view) : Prop := wants (v_token v) = false.
Definition soft (v : view) : Prop := wants (v_token v) = false /\ live v.
Definition wpre {R : Set} (f : fn R) (v : view) : Prop :=
  match f with
  | F_expr_handler X_____ | F_stmt_handler S_____ => True
  | F_expr_handler X_REG | F_stmt_handler S_REG | F_regular_expression => on T_OperatorDivision v
  | F_expr_handler (X_IDEN | X_THIS | X_TRUE | X_FALS | X_NULL | X_UNDE | X_STR | X_NUM | X_BIN | X_TPLS)
  | F_stmt_handler (S_EMPT | S_DBGGR | S_THIS | S_TRUE | S_FALS | S_NULL | S_UNDE | S_STR | S_NUM | S_BIN | S_TPLS | S_RET | S_BRK | S_CONT | S_LABL)
  | F_nested_handler (N_TPLS | N_INC | N_DEC | N_ACCS) _ | F_return | F_break | F_continue | F_template_string | F_labeled_or_expression => soft v
  | F_expr_handler _ | F_stmt_handler _ | F_nested_handler _ _ => live v
  | F_unchecked_block _ | F_paren | F_object | F_array | F_template_literal
  | F_function_expression | F_class_expression | F_pattern_array | F_pattern_object | F_rest_element
  | F_block_statement | F_function_statement | F_class_statement | F_variable_declaration _
  | F_throw | F_try | F_catch | F_if | F_while | F_do | F_for_init _ | F_for | F_switch | F_import => live v
  | F_meta_property _ => on T_Accessor v
  | _ => True
  end.
Definition wpost {R : Set} (f : fn R) (v : view) : Prop :=
  match f with
  | F_raw_block _ | F_items _ | F_call_arguments | F_call_arguments_rest | F_property_list | F_property_list_rest | F_array_elements | F_array_elements_rest
  | F_pattern_elements | F_pattern_elements_rest => calm v
  | F_meta_property _ => on T_Accessor v
  | _ => True
  end.
Lemma pre_nested b v h l : handler b v = Some h -> wpre (F_nested_handler h l) v.
Proof.
  intros H. unfold handler in H. assert (G : nth (token_index (v_token v)) (LUT b) None = Some h).
  { destruct (v_asi v); auto. destruct (_ || _)%bool; [discriminate|exact H]. }
  clear H. revert G. unfold wpre, soft, live. destruct b; destruct (v_token v); intros G; vm_compute in G; try discriminate G; injection G as <-; try split; try reflexivity; discriminate.
Qed.
Lemma pre_expr c v : wpre (F_expr_handler (bound_handler c v)) v.
Proof. unfold bound_handler, wpre, on, soft, live. destruct c; destruct (v_token v) eqn:E; vm_compute; auto; try split; try reflexivity; discriminate. Qed.
Lemma pre_stmt v : wpre (F_stmt_handler (statement_handler v)) v.
Proof. unfold statement_handler, wpre, on, soft, live. destruct (v_token v) eqn:E; vm_compute; auto; try split; try reflexivity; discriminate. Qed.
Definition wends {R : Set} (f : fn R) (fl : bool) (v : view) : Prop := (fl = true -> passes f = true) /\ wpost f v.
Inductive W {A : Type} (Q : bool -> view -> Prop) : bool -> view -> P A -> Prop :=
| W_Ret fl v a : Q fl v -> W Q fl v (Ret a)
| W_Look fl v k : W Q fl v (k v) -> W Q fl v (Look k)
| W_Consume v k : (forall v', vinv v' -> W Q (wants (v_token v)) v' k) -> W Q false v (Consume k)
| W_Template v k : v_token v = T_BraceClose -> (forall v', vinv v' -> W Q false v' k) -> W Q false v (ReadTemplate k)
| W_Regex v k : v_token v = T_OperatorDivision -> (forall s v', vinv v' -> W Q false v' (k s)) -> W Q false v (ReadRegex k)
| W_Error fl v k : W Q fl v (PushError k)
| W_Abort fl v : W Q fl v Abort
| W_Call fl v (R : Set) (f : fn R) k : wpre f v -> (fl = true -> takes f = true) -> (forall fl' r v', vinv v' -> wends f fl' v' -> W Q fl' v' (k r)) -> W Q fl v (Call f k)
| W_Drop v p : live v -> W Q false v p -> W Q true v p.
Lemma W_On A (Q : bool -> view -> Prop) t v (k : P A) : v_token v = t -> (forall v', vinv v' -> W Q (wants t) v' k) -> W Q false v (Consume k).
Proof. intros <-. apply W_Consume. Qed.
Lemma W_Soft A (Q : bool -> view -> Prop) v (k : P A) : calm v -> (forall v', vinv v' -> W Q false v' k) -> W Q false v (Consume k).
Proof. intros H K. apply W_Consume. rewrite H. exact K. Qed.
Lemma W_Any A (Q : bool -> view -> Prop) v (k : P A) : (forall fl v', vinv v' -> W Q fl v' k) -> W Q false v (Consume k).
Proof. intros K. apply W_Consume. apply K. Qed.
Lemma live_on t v : on t v -> token_eqb t T_EndOfProgram = false -> live v.
Proof. unfold on, live. intros -> H E. rewrite E in H. discriminate H. Qed.
Lemma live_is t v : is t v = true -> token_eqb t T_EndOfProgram = false -> live v.
Proof. intros H. apply live_on. exact (is_eq _ _ H). Qed.
Lemma live_word v : is_word (v_token v) = true -> live v.
Proof. intros H E. rewrite E in H. discriminate H. Qed.
Lemma live_operator v o : operator_from_token (v_token v) = Some o -> live v.
Proof. intros H E. rewrite E in H. discriminate H. Qed.
Lemma live_explicit v : vinv v -> v_asi v = ExplicitSemicolon -> live v.
Proof. intros H E X. rewrite (H E) in X. discriminate X. Qed.
Lemma token_explicit v : vinv v -> v_asi v = ExplicitSemicolon -> v_token v = T_Semicolon.
Proof. intros H E. exact (H E). Qed.
Ltac clean := repeat match goal with
  | C : (is _ ?v && _)%bool = true |- _ => apply andb_true_iff in C as [C _]
  | C : is _ _ = true |- _ => apply is_eq in C
  end.
Ltac wlive := clean; match goal with
  | H : live ?v |- live ?v => exact H
  | H : soft ?v |- live ?v => exact (proj2 H)
  | H : on _ ?v |- live ?v => exact (live_on _ _ H eq_refl)
  | H : v_token ?v = _ |- live ?v => exact (live_on _ _ H eq_refl)
  | C : operator_from_token (v_token ?v) = Some _ |- live ?v => exact (live_operator _ _ C)
  | C : is_word (v_token ?v) = true |- live ?v => exact (live_word _ C)
  | C : v_asi ?v = ExplicitSemicolon |- live ?v => apply live_explicit; assumption
  | C : (is _ ?v || is _ ?v || is _ ?v)%bool = true |- live ?v => apply orb_true_iff in C as [C|C]; [apply orb_true_iff in C as [C|C]|]; exact (live_is _ v C eq_refl)
  | C : (is _ ?v || is _ ?v)%bool = true |- live ?v => apply orb_true_iff in C as [C|C]; exact (live_is _ v C eq_refl)
  end.
Ltac won := unfold on; clean; unfold on in *; match goal with H : ?a |- ?a => exact H | H : v_token ?v = _ |- v_token ?v = _ => exact H | C : v_asi ?v = ExplicitSemicolon |- _ => apply token_explicit; assumption end.
Ltac wcalled := let Hf := fresh "Hf" in let Hq := fresh "Hq" in let fl := fresh "fl" in let r := fresh "r" in let v := fresh "v" in let Hi := fresh "Hi" in
  intros fl r v Hi [Hf Hq]; cbn [wpost passes] in Hf, Hq;
  first [assert (Z : fl = false) by (destruct fl; [discriminate (Hf eq_refl)|reflexivity]); clear Hf; subst fl | clear Hf; destruct fl].
Ltac wstep :=
  match goal with
  | |- W _ _ _ (PushError _) => apply W_Error
  | |- W _ _ _ Abort => apply W_Abort
  | |- W _ true ?v _ => apply W_Drop; [solve [wlive]|]
  | |- W _ _ _ (Ret _) => apply W_Ret
  | |- W _ _ _ (Look _) => apply W_Look
  | |- W _ _ _ (Consume _) => first [apply W_Soft; [solve [assumption|match goal with H : soft _ |- _ => exact (proj1 H) end]|intros ?v ?Hi] | eapply W_On; [solve [won]|intros ?v ?Hi; match goal with |- W _ ?w _ _ => let c := eval vm_compute in w in change w with c end] | apply W_Any; let fl := fresh "fl" in intros fl ?v ?Hi; destruct fl]
  | |- W _ _ _ (ReadTemplate _) => apply W_Template; [solve [won]|intros ?v ?Hi]
  | |- W _ _ _ (ReadRegex _) => apply W_Regex; [solve [won]|intros ?s ?v ?Hi]
  | |- W _ _ _ (Call _ _) => eapply W_Call; [try exact I|let E := fresh in intros E; first [discriminate E|reflexivity]|wcalled]
  | |- W _ _ _ ?p => let c := vcond p in let E := fresh "C" in destruct c eqn:E
  end.
Lemma calm_on t v : on t v -> wants t = false -> calm v.
Proof. unfold on, calm. now intros ->. Qed.
Lemma calm_is t v : is t v = true -> wants t = false -> calm v.
Proof. intros H. apply calm_on. exact (is_eq _ _ H). Qed.
Ltac wclose := try assumption; try exact I; clean;
  try (match goal with
  | C : handler ?b ?v = Some ?h, l : expr_node |- _ => exact (pre_nested b v h l C)
  | |- match bound_handler ?c ?v with _ => _ end => exact (pre_expr c v)
  | |- match statement_handler ?v with _ => _ end => exact (pre_stmt v)
  | C : (is _ ?v || is _ ?v)%bool = true |- calm ?v => apply orb_true_iff in C as [C|C]; exact (calm_is _ v C eq_refl)
  | C : v_token ?v = _ |- calm ?v => exact (calm_on _ v C eq_refl)
  | |- live _ => wlive
  | |- on _ _ => won
  end).
Lemma body_ends (R : Set) (f : fn R) v fl : vinv v -> wpre f v -> (fl = true -> takes f = true) -> W (wends f) fl v (body R f).
Proof.
  intros Hv Hp Hf. destruct f; try (match goal with h : nested_handler |- _ => destruct h end); try (match goal with h : expr_handler |- _ => destruct h end); try (match goal with h : stmt_handler |- _ => destruct h end);
    try (match goal with i : item _ |- _ => destruct i end); try (match goal with k : namekind |- _ => destruct k end).
  all: cbn [wpre takes] in Hp, Hf; match goal with |- W _ _ _ (body _ ?f) => pose (fn_now := f) end.
  all: destruct fl; [try discriminate (Hf eq_refl)|]; clear Hf.
  all: bodies; cbn [bind]; repeat (wstep; cbn [bind wpre]).
  all: try (split; [intros Z; try discriminate Z; try reflexivity|cbn [wpost]; try exact I]).
  all: wclose.
Qed.

(** ** Runs *)
Definition stops (x y : spot) : Prop := s_token y = T_EndOfProgram /\ wants (s_token x) = true.
Fixpoint pairs (x y : spot) (l : list spot) (fl : bool) : Prop :=
  match l with
  | [] => stops x y -> fl = true
  | z :: r => ~ stops x y /\ pairs y z r fl
  end.
Lemma pairs_all l : forall x y, pairs x y l false -> forall l0 a b l1, x :: y :: l = l0 ++ a :: b :: l1 -> ~ stops a b.
Proof.
  induction l as [|z l IH]; intros x y H l0 a b l1 E.
  - destruct l0 as [|u [|w l0]]; [injection E as -> -> _|discriminate E|destruct l0; discriminate E]. intros X. discriminate (H X).
  - destruct H as [H0 H]. destruct l0 as [|u l0]; [injection E as -> -> _; exact H0|]. injection E as _ E. exact (IH _ _ H _ _ _ _ E).
Qed.
Section Run.
  Variable alnum : N -> bool.
  Notation trun := (trun alnum body).
  Lemma pairs_join l1 : forall x y fl, pairs x y l1 fl -> exists x1, (stops x1 (last l1 y) -> fl = true) /\ forall l2 fl2, pairs x1 (last l1 y) l2 fl2 -> pairs x y (l1 ++ l2) fl2.
  Proof.
    induction l1 as [|z l1 IH]; intros x y fl H; [exists x; split; [exact H|tauto]|]. destruct H as [H1 H2]. destruct (IH _ _ _ H2) as (x1 & K1 & K2). rewrite last_cons. exists x1. split; [exact K1|].
    intros l2 fl2 X. cbn [app]. split; [exact H1|exact (K2 _ _ X)].
  Qed.
  Lemma end_run n : forall A Q fl v (p : P A), W Q fl v p -> forall s a s1 l x, v = view_of (p_lexer s) -> trun n p s = Done (a, s1, l) -> p_errors s1 = [] -> linv s ->
    (stops x (spot_of (p_lexer s)) -> fl = true) -> exists fl1, Q fl1 (view_of (p_lexer s1)) /\ linv s1 /\ pairs x (spot_of (p_lexer s)) l fl1.
  Proof.
    induction n as [|n IHn]; intros A Q fl v p Wp;
    induction Wp as [fl v a0 HQ|fl v k Vk IH|v k Vk IH|v k Hg Vk IH|v k Hg Vk IH|fl v k|fl v|fl v R f k Hp Hf Vk IH|v p Hg Vk IH]; intros s a s1 l x -> T E I Ag.
    all: try (apply (IH s a s1 l x eq_refl T E I); intros [X _]; exfalso; exact (Hg X)).
    all: rewrite ?trun_Ret, ?trun_Look, ?trun_Consume, ?trun_Template, ?trun_Regex, ?trun_Error, ?trun_Abort, ?trun_Call0, ?trun_CallS in T; try discriminate T.
    all: try (injection T as <- <- <-; exists fl; split; [exact HQ|]; split; [exact I|exact Ag]).
    all: try (eapply IH; eauto; fail).
    all: try (ob T as s2 T1 T2; ob T2 as [[b s3] l2] T3 T4; injection T4 as <- <- <-; unfold op_consume in T1; ob T1 as lx1 T5 T6; injection T6 as <-;
      assert (I1 := inv_consume _ _ _ (proj1 I) T5);
      destruct (IH (view_of lx1) (proj2 I1) (PState lx1 (p_errors s)) _ _ _ (spot_of (p_lexer s)) eq_refl T3 E I1) as (fl1 & Y1 & Y2 & Y3); [intros [_ X]; exact X|];
      exists fl1; split; [exact Y1|]; split; [exact Y2|]; split; [intros X; discriminate (Ag X)|exact Y3]).
    all: try (ob T as s2 T1 T2; ob T2 as [[b s3] l2] T3 T4; injection T4 as <- <- <-; unfold op_template in T1; ob T1 as lx1 T5 T6; injection T6 as <-; cbn in Hg;
      assert (I1 := inv_template _ _ (proj1 I) (proj2 I) Hg T5);
      destruct (IH (view_of lx1) (proj2 I1) (PState lx1 (p_errors s)) _ _ _ (spot_of (p_lexer s)) eq_refl T3 E I1) as (fl1 & Y1 & Y2 & Y3);
        [intros [_ X]; unfold spot_of, s_token in X; cbn in X; rewrite Hg in X; discriminate X|];
      exists fl1; split; [exact Y1|]; split; [exact Y2|]; split; [intros X; discriminate (Ag X)|exact Y3]).
    all: try (ob T as [w s2] T1 T2; ob T2 as [[b s3] l2] T3 T4; injection T4 as <- <- <-; unfold op_regex in T1; ob T1 as [w1 lx1] T5 T6; injection T6 as <- <-; cbn in Hg;
      assert (I1 := inv_regex _ _ _ (proj1 I) (proj2 I) Hg T5);
      destruct (IH w1 (view_of lx1) (proj2 I1) (PState lx1 (p_errors s)) _ _ _ (spot_of (p_lexer s)) eq_refl T3 E I1) as (fl1 & Y1 & Y2 & Y3);
        [intros [X _]; exfalso; exact (regex_token _ _ _ T5 X)|];
      exists fl1; split; [exact Y1|]; split; [exact Y2|]; split; [intros X; discriminate (Ag X)|exact Y3]).
    all: try (exfalso; ob T as s2 T1 T2; ob T2 as [[b s3] l2] T3 T4; injection T4 as <- <- <-; apply (errors_none _ _ _ _ _ _ _ _ T3) in E; unfold op_error in T1; ob T1 as [e lx1] T5 T6; injection T6 as <-; cbn in E; apply app_eq_nil in E as [_ E]; discriminate E).
    ob T as [[r s2] l1] T1 T2. ob T2 as [[b s3] l2] T3 T4. injection T4 as <- <- <-. assert (E2 := errors_none _ _ _ _ _ _ _ _ T3 E).
    destruct (IHn _ _ _ _ _ (body_ends R f _ fl (proj2 I) Hp Hf) s _ _ _ x eq_refl T1 E2 I Ag) as (fl1 & X1 & X2 & X3).
    destruct (pairs_join _ _ _ _ X3) as (x1 & K1 & K2). rewrite (trun_last _ _ _ _ _ _ _ _ T1) in K1, K2.
    destruct (IH fl1 r (view_of (p_lexer s2)) (proj2 X2) X1 s2 _ _ _ x1 eq_refl T3 E X2 K1) as (fl2 & Y1 & Y2 & Y3). exists fl2. split; [exact Y1|]. split; [exact Y2|]. exact (K2 _ _ Y3).
  Qed.
  Lemma accepted_end src m l l0 a b l2 : parse_tokens alnum src (ParseOk m) l -> l = l0 ++ a :: b :: l2 -> s_token b = T_EndOfProgram -> In (s_token a) may_end.
  Proof.
    intros (n & lx & m1 & s & l1 & E & T & Er & X) El B. destruct (p_errors s) as [|e es] eqn:Es; [|discriminate Er]. clear Er.
    assert (I := inv_consume _ _ _ (li_ok _ _ (init_inv src)) E).
    destruct (end_run n _ _ _ _ _ (body_ends _ F_parse (view_of lx) false (proj2 I) Logic.I ltac:(discriminate)) (PState lx []) _ _ _ (T_Semicolon, 0, 0) eq_refl T Es I) as (fl & Y1 & Y2 & Y3); [intros [_ Z]; discriminate Z|].
    destruct fl; [discriminate (proj1 Y1 eq_refl)|]. cbn [p_lexer] in Y3. assert (Z := pairs_all _ _ _ Y3 ((T_Semicolon, 0, 0) :: l0) a b l2). cbn [app] in Z. rewrite <- El, X in Z. specialize (Z eq_refl).
    destruct (wants (s_token a)) eqn:Wa; [exfalso; apply Z; split; assumption|]. unfold wants in Wa. apply negb_false_iff in Wa. apply existsb_exists in Wa as (t & Ht & Et). apply token_eqb_eq in Et as ->. exact Ht.
  Qed.
End Run.
