(** The brackets of an accepted program nest. *)
From Coq Require Import List NArith Bool Lia String.
From Coq.Strings Require Import Byte.
From Verif Require Import Bytes Token Tables Lexer Ast Prog Parser ProgFacts Structure LexEval TokenText StateFacts LexerFacts ConsumeFacts LexProps SpecRead SpecTrace SpecNest Erase TraceFacts Valid.
Import ListNotations.
Open Scope nat_scope.
Open Scope list_scope.

Definition quiet_token (t : token) : bool := match t with T_ParenOpen | T_BracketOpen | T_BraceOpen | T_TemplateOpen | T_ParenClose | T_BracketClose | T_BraceClose => false | _ => true end.
Definition quiet (v : view) : Prop := quiet_token (v_token v) = true.
Lemma quiet_effect t st : quiet_token t = true -> effect t st st.
Proof. intros H. apply ef_other. intros X. cbn in X. repeat (destruct X as [<-|X]; [discriminate H|]). exact X. Qed.
Definition on (t : token) (v : view) : Prop := v_token v = t.
Definition xpre (h : expr_handler) (v : view) : Prop :=
  match h with
  | X_____ | X_VOID => True
  | X_PRN => on T_ParenOpen v | X_OBJ => on T_BraceOpen v | X_ARR => on T_BracketOpen v | X_TPLE => on T_TemplateOpen v
  | X_REG => on T_OperatorDivision v
  | _ => quiet v
  end.
Definition stpre (h : stmt_handler) (v : view) : Prop :=
  match h with
  | S_____ => True
  | S_PRN => on T_ParenOpen v | S_BLCK => on T_BraceOpen v | S_ARR => on T_BracketOpen v | S_TPLE => on T_TemplateOpen v
  | S_REG => on T_OperatorDivision v
  | _ => quiet v
  end.
Definition npre (h : nested_handler) (v : view) : Prop :=
  match h with N_CALL => on T_ParenOpen v | N_CMEM => on T_BracketOpen v | N_TPLE => on T_TemplateOpen v | _ => quiet v end.
Definition bpre {R : Set} (f : fn R) (v : view) : Prop :=
  match f with
  | F_expr_handler h => xpre h v
  | F_stmt_handler h => stpre h v
  | F_nested_handler h _ => npre h v
  | F_regular_expression => on T_OperatorDivision v
  | F_paren => on T_ParenOpen v
  | F_object | F_pattern_object | F_block_statement | F_unchecked_block _ => on T_BraceOpen v
  | F_array | F_pattern_array => on T_BracketOpen v
  | F_template_literal => on T_TemplateOpen v
  | F_meta_property _ => on T_Accessor v
  | F_template_string | F_function_expression | F_class_expression | F_rest_element | F_labeled_or_expression | F_function_statement | F_class_statement
  | F_variable_declaration _ | F_return | F_break | F_continue | F_throw | F_try | F_catch | F_if | F_while | F_do | F_for_init _ | F_for | F_switch | F_import => quiet v
  | _ => True
  end.
Lemma pre_nested b v h : handler b v = Some h -> npre h v.
Proof.
  intros H. unfold handler in H. assert (G : nth (token_index (v_token v)) (LUT b) None = Some h).
  { destruct (v_asi v); auto. destruct (_ || _)%bool; [discriminate|exact H]. }
  clear H. revert G. unfold npre, on, quiet. destruct b; destruct (v_token v); intros G; vm_compute in G; try discriminate G; injection G as <-; reflexivity.
Qed.
Lemma pre_expr c v : xpre (bound_handler c v) v.
Proof. unfold bound_handler, xpre, on, quiet. destruct c; destruct (v_token v) eqn:E; cbn; auto. Qed.
Lemma pre_stmt v : stpre (statement_handler v) v.
Proof. unfold statement_handler, stpre, on, quiet. destruct (v_token v) eqn:E; cbn; auto. Qed.
Definition ended (v : view) : Prop := on T_BraceClose v \/ on T_EndOfProgram v.
Definition bpost {R : Set} (f : fn R) (v : view) : Prop :=
  match f with
  | F_raw_block _ | F_items _ => ended v
  | F_call_arguments | F_call_arguments_rest => on T_ParenClose v
  | F_property_list | F_property_list_rest => on T_BraceClose v
  | F_array_elements | F_array_elements_rest | F_pattern_elements | F_pattern_elements_rest => on T_BracketClose v
  | F_meta_property _ => on T_Accessor v
  | F_parse => on T_EndOfProgram v
  | _ => True
  end.
(** The brackets a method closes without having opened them. *)
Definition need {R : Set} (f : fn R) : list bracket :=
  match f with
  | F_rest_element | F_params_rest | F_for_rest _ _ | F_for_in_from_parts _ _ _ | F_for_in _ _ | F_for_of _ _ => [Paren]
  | F_import_specifiers => [Brace]
  | _ => []
  end.
Inductive B {A : Type} (Q : view -> Prop) : list bracket -> view -> P A -> Prop :=
| B_Ret v a : Q v -> B Q [] v (Ret a)
| B_Look st v k : B Q st v (k v) -> B Q st v (Look k)
| B_Consume st st' v k : effect (v_token v) st st' -> (forall v', vinv v' -> B Q st' v' k) -> B Q st v (Consume k)
| B_Template st v k : v_token v = T_BraceClose -> (forall v', vinv v' -> B Q st v' k) -> B Q (Dollar :: st) v (ReadTemplate k)
| B_Regex st v k : v_token v = T_OperatorDivision -> (forall s v', vinv v' -> B Q st v' (k s)) -> B Q st v (ReadRegex k)
| B_Error st v k : B Q st v (PushError k)
| B_Abort st v : B Q st v Abort
| B_Call st st' v (R : Set) (f : fn R) k : bpre f v -> st = need f ++ st' -> (forall r v', vinv v' -> bpost f v' -> B Q st' v' (k r)) -> B Q st v (Call f k)
| B_Forget st v p : v_token v = T_EndOfProgram -> B Q st v p -> B Q (Brace :: st) v p.
Lemma B_Quiet A (Q : view -> Prop) st v (k : P A) : quiet v -> (forall v', vinv v' -> B Q st v' k) -> B Q st v (Consume k).
Proof. intros H. apply B_Consume. now apply quiet_effect. Qed.
Lemma B_On A (Q : view -> Prop) t st st' v (k : P A) : v_token v = t -> effect t st st' -> (forall v', vinv v' -> B Q st' v' k) -> B Q st v (Consume k).
Proof. intros <-. apply B_Consume. Qed.
Lemma B_End A (Q : view -> Prop) st v (k : P A) : ended v -> (forall v', vinv v' -> B Q st v' k) -> B Q (Brace :: st) v (Consume k).
Proof.
  intros [H|H] K; [exact (B_On _ _ _ _ _ _ _ H (ef_close_brace _) K)|]. apply B_Forget; [exact H|]. apply B_Quiet; [|exact K]. unfold quiet. rewrite H. reflexivity.
Qed.
Lemma quiet_operator v o : operator_from_token (v_token v) = Some o -> quiet v.
Proof. unfold quiet. destruct (v_token v); try reflexivity; discriminate. Qed.
Lemma quiet_word v : is_word (v_token v) = true -> quiet v.
Proof. unfold quiet. destruct (v_token v); try reflexivity; discriminate. Qed.
Lemma quiet_on t v : on t v -> quiet_token t = true -> quiet v.
Proof. unfold on, quiet. now intros ->. Qed.
Lemma quiet_is t v : is t v = true -> quiet_token t = true -> quiet v.
Proof. intros H. apply quiet_on. exact (is_eq _ _ H). Qed.
Lemma quiet_explicit v : vinv v -> v_asi v = ExplicitSemicolon -> quiet v.
Proof. intros H E. unfold quiet. now rewrite (H E). Qed.
Ltac clean := repeat match goal with
  | C : (is _ ?v && _)%bool = true |- _ => apply andb_true_iff in C as [C _]
  | C : is _ _ = true |- _ => apply is_eq in C
  end.
Ltac bquiet := clean; match goal with
  | H : quiet ?v |- quiet ?v => exact H
  | H : on _ ?v |- quiet ?v => exact (quiet_on _ _ H eq_refl)
  | H : v_token ?v = _ |- quiet ?v => exact (quiet_on _ _ H eq_refl)
  | C : operator_from_token (v_token ?v) = Some _ |- quiet ?v => exact (quiet_operator _ _ C)
  | C : is_word (v_token ?v) = true |- quiet ?v => exact (quiet_word _ C)
  | C : v_asi ?v = ExplicitSemicolon |- quiet ?v => apply quiet_explicit; assumption
  | C : (is _ ?v || is _ ?v)%bool = true |- quiet ?v => apply orb_true_iff in C as [C|C]; exact (quiet_is _ v C eq_refl)
  end.
Ltac bon := unfold on; clean; unfold on in *; match goal with H : ?a |- ?a => exact H | H : on ?t ?v |- v_token ?v = _ => exact H | H : v_token ?v = _ |- v_token ?v = _ => exact H end.
Ltac bcall := cbn [need app]; once (match goal with |- ?st = ?st' => reflexivity end).
Ltac bstep :=
  match goal with
  | |- B _ _ _ (Ret _) => apply B_Ret
  | |- B _ _ _ (Look _) => apply B_Look
  | H : ended ?v |- B _ _ ?v (Consume _) => apply B_End; [exact H|intros ?v ?Hi]
  | |- B _ _ _ (Consume _) => first [apply B_Quiet; [solve [bquiet]|intros ?v ?Hi] | eapply B_On; [solve [bon]|once constructor|intros ?v ?Hi]]
  | |- B _ _ _ (ReadTemplate _) => apply B_Template; [solve [bon]|intros ?v ?Hi]
  | |- B _ _ _ (ReadRegex _) => apply B_Regex; [solve [bon]|intros ?s ?v ?Hi]
  | |- B _ _ _ (PushError _) => apply B_Error
  | |- B _ _ _ Abort => apply B_Abort
  | |- B _ _ _ (Call _ _) => eapply B_Call; [try exact I|bcall|intros ?r ?v ?Hi ?Hq; cbn [bpost] in *]
  | |- B _ _ _ ?p => let c := vcond p in let E := fresh "C" in destruct c eqn:E
  end.
Ltac bclose := try assumption; try exact I; clean;
  try (match goal with
  | C : handler _ ?v = Some _ |- _ => exact (pre_nested _ _ _ C)
  | |- xpre (bound_handler _ ?v) ?v => apply pre_expr
  | |- stpre (statement_handler ?v) ?v => apply pre_stmt
  | |- ended ?v => left; assumption
  | C : (is T_BraceClose ?v || is T_EndOfProgram ?v)%bool = true |- ended ?v => apply orb_true_iff in C as [C|C]; apply is_eq in C; [left|right]; exact C
  | |- quiet _ => bquiet
  | |- on _ _ => bon
  end).
Lemma body_nested_brackets (R : Set) (f : fn R) v : vinv v -> bpre f v -> B (bpost f) (need f) v (body R f).
Proof.
  intros Hv Hp. destruct f; try (match goal with h : nested_handler |- _ => destruct h end); try (match goal with h : expr_handler |- _ => destruct h end); try (match goal with h : stmt_handler |- _ => destruct h end);
    try (match goal with i : item _ |- _ => destruct i end); try (match goal with k : namekind |- _ => destruct k end).
  all: cbn [bpre xpre stpre npre] in Hp; match goal with |- B _ _ _ (body _ ?f) => pose (fn_now := f) end.
  all: cbn [need]; bodies; cbn [bind bpost]; repeat (bstep; cbn [bind bpre xpre stpre npre bpost]); bclose.
Qed.

(** ** Runs *)
(** [more s t]: [s] is [t] with some braces that were never closed. *)
Inductive more : list bracket -> list bracket -> Prop :=
| mo_nil : more [] []
| mo_cons k s t : more s t -> more (k :: s) (k :: t)
| mo_brace s t : more s t -> more (Brace :: s) t.
Lemma more_refl s : more s s.
Proof. induction s; constructor; assumption. Qed.
Lemma more_drop s : forall t, more s (Brace :: t) -> more s t.
Proof.
  induction s as [|k s IH]; intros t H; inversion H; subst; [constructor; assumption|]. apply mo_brace. apply IH. assumption.
Qed.
Inductive leaves : list bracket -> spot -> list spot -> list bracket -> Prop :=
| lv_nil st x : leaves st x [] st
| lv_cons st st1 st2 x y l : effect (s_token x) st st1 -> leaves st1 y l st2 -> leaves st x (y :: l) st2.
Lemma leaves_join s1 x l1 s2 : leaves s1 x l1 s2 -> forall l2 s3, leaves s2 (last l1 x) l2 s3 -> leaves s1 x (l1 ++ l2) s3.
Proof.
  induction 1 as [st x|st st1 st2 x y l E H IH]; intros l2 s3 J; [exact J|]. cbn [app]. eapply lv_cons; [exact E|]. apply IH. rewrite last_cons in J. exact J.
Qed.
Definition at_end (s : pstate) : Prop := lx_token (p_lexer s) = T_EndOfProgram.
Definition agree (s : pstate) (sigma st : list bracket) : Prop := more sigma st /\ (sigma = st \/ at_end s).
Lemma effect_frame t st st' base : effect t st st' -> effect t (st ++ base) (st' ++ base).
Proof. intros H. destruct H; cbn [app]; constructor; assumption. Qed.
Lemma effect_end st st' : effect T_EndOfProgram st st' -> st' = st.
Proof. intros H. inversion H; reflexivity. Qed.
Section Run.
  Variable alnum : N -> bool.
  Variable src : str.
  Notation trun := (trun alnum body).
  Definition rinv (s : pstate) : Prop := lexer_reach alnum src (p_lexer s) /\ vinv (view_of (p_lexer s)).
  Lemma rinv_linv s : rinv s -> linv s.
  Proof. intros [R I]. split; [exact (li_ok _ _ (lexer_reach_inv _ _ _ R))|exact I]. Qed.
  Lemma rinv_consume s lx1 es : rinv s -> consume alnum (p_lexer s) = Done lx1 -> rinv (PState lx1 es).
  Proof. intros H C. split; [exact (lr_consume _ _ _ _ (proj1 H) C)|]. exact (proj2 (inv_consume _ _ _ (proj1 (rinv_linv _ H)) C)). Qed.
  Lemma agree_consume s lx1 sigma st st' base es : rinv s -> consume alnum (p_lexer s) = Done lx1 -> effect (lx_token (p_lexer s)) st st' -> agree s sigma (st ++ base) ->
    exists sigma1, effect (lx_token (p_lexer s)) sigma sigma1 /\ agree (PState lx1 es) sigma1 (st' ++ base).
  Proof.
    intros [O I] C E [M [->|H]].
    - exists (st' ++ base). split; [now apply effect_frame|]. split; [apply more_refl|now left].
    - exists sigma. unfold at_end in H. destruct (eop_forever _ _ _ O H) as (lx2 & C2 & E2 & _ & _). rewrite C in C2. injection C2 as <-.
      rewrite H in *. apply effect_end in E as ->. split; [now apply quiet_effect|]. split; [exact M|]. right. exact E2.
  Qed.
  Lemma nest_run n : forall A Q st v (p : P A), B Q st v p -> forall s a s1 l, v = view_of (p_lexer s) -> trun n p s = Done (a, s1, l) -> p_errors s1 = [] -> rinv s ->
    forall sigma base, agree s sigma (st ++ base) -> Q (view_of (p_lexer s1)) /\ rinv s1 /\ exists sigma1, leaves sigma (spot_of (p_lexer s)) l sigma1 /\ agree s1 sigma1 base.
  Proof.
    induction n as [|n IHn]; intros A Q st v p Bp;
    induction Bp as [v a0 HQ|st v k Vk IH|st st' v k Hg Vk IH|st v k Hg Vk IH|st v k Hg Vk IH|st v k|st v|st st' v R f k Hp Hn Vk IH|st v p Hg Vk IH]; intros s a s1 l -> T E I sigma base Ag.
    all: try (apply (IH s a s1 l eq_refl T E I sigma base); destruct Ag as [M Ag]; split; [now apply more_drop|now right]).
    all: rewrite ?trun_Ret, ?trun_Look, ?trun_Consume, ?trun_Template, ?trun_Regex, ?trun_Error, ?trun_Abort, ?trun_Call0, ?trun_CallS in T; try discriminate T.
    all: try (injection T as <- <- <-; split; [exact HQ|]; split; [exact I|]; exists sigma; split; [constructor|exact Ag]).
    all: try (eapply IH; eauto; fail).
    all: try (ob T as s2 T1 T2; ob T2 as [[b s3] l2] T3 T4; injection T4 as <- <- <-; unfold op_consume in T1; ob T1 as lx1 T5 T6; injection T6 as <-;
      destruct (agree_consume s lx1 sigma st st' base (p_errors s) I T5 Hg Ag) as (sg & X1 & X2); assert (I1 := rinv_consume _ _ (p_errors s) I T5);
      destruct (IH (view_of lx1) (proj2 I1) (PState lx1 (p_errors s)) _ _ _ eq_refl T3 E I1 sg base X2) as (Y1 & Y2 & sg1 & Y3 & Y4); split; [exact Y1|]; split; [exact Y2|]; exists sg1; split; [eapply lv_cons; [exact X1|exact Y3]|exact Y4]).
    all: try (ob T as s2 T1 T2; ob T2 as [[b s3] l2] T3 T4; injection T4 as <- <- <-; unfold op_template in T1; ob T1 as lx1 T5 T6; injection T6 as <-; cbn in Hg;
      assert (I1 : rinv (PState lx1 (p_errors s))) by (split; [exact (lr_template _ _ _ _ (proj1 I) T5)|exact (proj2 (inv_template _ _ (proj1 (rinv_linv _ I)) (proj2 I) Hg T5))]);
      destruct Ag as [M [->|X]]; [|unfold at_end in X; congruence];
      destruct (IH (view_of lx1) (proj2 I1) (PState lx1 (p_errors s)) _ _ _ eq_refl T3 E I1 (st ++ base) base (conj (more_refl _) (or_introl eq_refl))) as (Y1 & Y2 & sg1 & Y3 & Y4);
      split; [exact Y1|]; split; [exact Y2|]; exists sg1; split; [|exact Y4]; eapply lv_cons; [|exact Y3]; unfold spot_of, s_token; cbn; rewrite Hg; constructor).
    all: try (ob T as [w s2] T1 T2; ob T2 as [[b s3] l2] T3 T4; injection T4 as <- <- <-; unfold op_regex in T1; ob T1 as [w1 lx1] T5 T6; injection T6 as <- <-; cbn in Hg;
      assert (I1 : rinv (PState lx1 (p_errors s))) by (split; [exact (lr_regex _ _ _ _ _ (proj1 I) T5)|exact (proj2 (inv_regex _ _ _ (proj1 (rinv_linv _ I)) (proj2 I) Hg T5))]);
      destruct Ag as [M [->|X]]; [|unfold at_end in X; congruence];
      destruct (IH w1 (view_of lx1) (proj2 I1) (PState lx1 (p_errors s)) _ _ _ eq_refl T3 E I1 (st ++ base) base (conj (more_refl _) (or_introl eq_refl))) as (Y1 & Y2 & sg1 & Y3 & Y4);
      split; [exact Y1|]; split; [exact Y2|]; exists sg1; split; [|exact Y4]; eapply lv_cons; [|exact Y3]; unfold spot_of, s_token; cbn; rewrite Hg; now apply quiet_effect).
    all: try (exfalso; ob T as s2 T1 T2; ob T2 as [[b s3] l2] T3 T4; injection T4 as <- <- <-; apply (errors_none _ _ _ _ _ _ _ _ T3) in E; unfold op_error in T1; ob T1 as [e lx1] T5 T6; injection T6 as <-; cbn in E; apply app_eq_nil in E as [_ E]; discriminate E).
    ob T as [[r s2] l1] T1 T2. ob T2 as [[b s3] l2] T3 T4. injection T4 as <- <- <-. assert (E2 := errors_none _ _ _ _ _ _ _ _ T3 E). rewrite Hn, <- app_assoc in Ag.
    destruct (IHn _ _ _ _ _ (body_nested_brackets R f _ (proj2 I) Hp) s _ _ _ eq_refl T1 E2 I sigma (st' ++ base) Ag) as (X1 & X2 & sg & X3 & X4).
    destruct (IH r (view_of (p_lexer s2)) (proj2 X2) X1 s2 _ _ _ eq_refl T3 E X2 sg base X4) as (Y1 & Y2 & sg1 & Y3 & Y4). split; [exact Y1|]. split; [exact Y2|]. exists sg1. split; [|exact Y4]. eapply leaves_join; [exact X3|]. rewrite (trun_last _ _ _ _ _ _ _ _ T1). exact Y3.
  Qed.
  Lemma leaves_nests l : forall st x st', leaves st x l st' -> effect (s_token (last l x)) st' st' -> nests st (x :: l) st'.
  Proof.
    induction l as [|y l IH]; intros st x st' H E; inversion H; subst.
    - econstructor; [exact E|constructor].
    - econstructor; [eassumption|]. apply IH; [assumption|]. rewrite last_cons in E. exact E.
  Qed.
  Lemma more_nil s : more s [] -> s = repeat Brace (List.length s).
  Proof. remember [] as t. intros H. revert Heqt. induction H as [|k s t H IH|s t H IH]; intros Q; [reflexivity|discriminate Q|]. cbn [List.length repeat]. f_equal. now apply IH. Qed.
  Lemma accepted_nest m l : parse_tokens alnum src (ParseOk m) l -> exists k, nests [] l (repeat Brace k).
  Proof.
    intros (n & lx & m1 & s & l1 & E & T & Er & ->). destruct (p_errors s) as [|e es] eqn:Es; [|discriminate Er]. clear Er.
    assert (I : rinv (PState lx [])) by (split; [exact (lr_new _ _ _ E)|exact (proj2 (inv_consume _ _ _ (li_ok _ _ (init_inv src)) E))]).
    destruct (nest_run n _ _ _ _ _ (body_nested_brackets _ F_parse (view_of lx) (proj2 I) Logic.I) (PState lx []) _ _ _ eq_refl T Es I [] []) as (X1 & X2 & sg & X3 & M & _); [split; [constructor|now left]|].
    exists (List.length sg). rewrite <- (more_nil _ M). apply leaves_nests; [exact X3|]. assert (L := trun_last _ _ _ _ _ _ _ _ T). cbn [p_lexer] in L. rewrite L. cbn in X1. unfold on in X1. cbn in X1. unfold spot_of, s_token. cbn. rewrite X1. now apply quiet_effect.
  Qed.
End Run.

(** ** Counting *)
Definition bracket_eqb (a b : bracket) : bool := match a, b with Paren, Paren | Square, Square | Brace, Brace | Dollar, Dollar => true | _, _ => false end.
Definition opened (k : bracket) (st : list bracket) : nat := List.length (filter (bracket_eqb k) st).
Lemma count_cons t x l : count t (x :: l) = (if token_eqb (s_token x) t then 1 else 0) + count t l.
Proof. unfold count. cbn [filter]. destruct (token_eqb (s_token x) t); reflexivity. Qed.
Lemma effect_count t st st' : effect t st st' ->
  let c k := if token_eqb t k then 1 else 0 in
  c T_ParenOpen + opened Paren st = c T_ParenClose + opened Paren st' /\
  c T_BracketOpen + opened Square st = c T_BracketClose + opened Square st' /\
  c T_BraceOpen + c T_TemplateOpen + opened Brace st + opened Dollar st = c T_BraceClose + opened Brace st' + opened Dollar st'.
Proof.
  intros H. destruct H as [st|st|st|st|st|st|st|st|t st H].
  1-8: repeat split; unfold opened; cbn; lia.
  assert (X : forall k, In k [T_ParenOpen; T_BracketOpen; T_BraceOpen; T_TemplateOpen; T_ParenClose; T_BracketClose; T_BraceClose] -> token_eqb t k = false).
  { intros k Hk. destruct (token_eqb t k) eqn:E; [|reflexivity]. apply token_eqb_eq in E as ->. contradiction. }
  cbv beta zeta. rewrite !X by (cbn; tauto). repeat split; lia.
Qed.
Lemma nests_count st l st' : nests st l st' ->
  count T_ParenOpen l + opened Paren st = count T_ParenClose l + opened Paren st' /\
  count T_BracketOpen l + opened Square st = count T_BracketClose l + opened Square st' /\
  count T_BraceOpen l + count T_TemplateOpen l + opened Brace st + opened Dollar st = count T_BraceClose l + opened Brace st' + opened Dollar st'.
Proof.
  induction 1 as [st|st st1 st2 x l E H IH]; [unfold count; cbn; lia|]. apply effect_count in E. cbv beta zeta in E. rewrite !count_cons. lia.
Qed.
Lemma opened_repeat k j n : opened j (repeat k n) = if bracket_eqb j k then n else 0.
Proof. unfold opened. induction n as [|n IH]; cbn [repeat filter]; [destruct (bracket_eqb j k); reflexivity|]. destruct (bracket_eqb j k); cbn [List.length]; lia. Qed.
Lemma accepted_count alnum src m l : parse_tokens alnum src (ParseOk m) l ->
  count T_ParenOpen l = count T_ParenClose l /\ count T_BracketOpen l = count T_BracketClose l /\
  count T_BraceClose l <= count T_BraceOpen l + count T_TemplateOpen l.
Proof.
  intros H. destruct (accepted_nest _ _ _ _ H) as (k & N). apply nests_count in N. rewrite !opened_repeat in N. cbn in N. lia.
Qed.
