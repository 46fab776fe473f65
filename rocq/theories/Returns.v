(** The parser returns: every method, started on a token, comes to an end. *)
From Coq Require Import List NArith Bool Lia Arith String.
From Coq.Strings Require Import Byte.
From Verif Require Import Bytes Token Tables Lexer Ast Prog Parser ProgFacts Structure LexEval Erase.
Import ListNotations.
Open Scope nat_scope.
Open Scope list_scope.

Definition live (v : view) : Prop := v_token v <> T_EndOfProgram.

(** Methods that do not consume a token before they call each other are ranked. *)
Fixpoint spine (e : expression) : nat :=
  match e with E_Binary _ l _ => S (spine (n_item l)) | _ => 0 end.
Definition spines (es : list expr_node) : nat := fold_right (fun e n => S (spine (n_item e)) + n) 0 es.
Definition item_rank {T : Set} (i : item T) : nat := match i with I_Statement => 6 | I_Member => 14 | I_Case => 14 end.
Definition rank {R : Set} (f : fn R) : nat :=
  match f with
  | F_parse => 6
  | F_item i => item_rank i | F_items i => 1 + item_rank i | F_raw_block i => 2 + item_rank i | F_block i => 3 + item_rank i
  | F_pattern_from_expression e => spine (n_item e)
  | F_params_from_expressions es => S (spines es)
  | F_arrow ps => 6 + spines ps
  | F_nested_handler _ _ => 1 | F_nested _ _ => 2 | F_expr_handler _ => 3 | F_expression _ _ => 4 | F_prefix _ => 5
  | F_expression_statement _ => 3 | F_stmt_handler _ => 4 | F_statement => 5
  | F_pattern_param => 1 | F_params_rest => 2 | F_params => 3
  | F_function _ => 10 | F_method => 11 | F_class_member_value _ _ _ _ => 12 | F_property_value _ _ => 12 | F_class_member => 13 | F_class _ => 18
  | F_property => 1 | F_property_list_rest => 2 | F_property_list => 3
  | F_call_arguments_rest => 5 | F_call_arguments => 6 | F_array_elements_rest => 5 | F_array_elements => 6
  | F_pattern_array_element => 1 | F_pattern_elements_rest => 2 | F_pattern_elements => 3
  | F_pattern => 1 | F_declarator => 2 | F_declarators => 3
  | F_for_in_from_parts _ _ _ | F_for_in _ _ | F_for_of _ _ => 6 | F_for_rest _ _ => 7
  | F_label => 1 | F_import_rest _ _ _ => 1
  | _ => 0
  end.

Section Total.
  (** Whether template literals can occur. *)
  Variable tp : bool.

  Definition item_pre {T : Set} (i : item T) : Prop := match i with I_Case => False | _ => True end.
  Definition tpre {R : Set} (f : fn R) (v : view) : Prop :=
    match f with
    | F_regular_expression | F_expr_handler X_REG | F_stmt_handler S_REG => v_token v = T_OperatorDivision
    | F_expr_handler X_OP | F_stmt_handler S_OP => operator_from_token (v_token v) <> None
    | F_template_literal | F_nested_handler N_TPLE _ | F_expr_handler X_TPLE | F_stmt_handler S_TPLE => live v /\ tp = true
    | F_template_rest => tp = true
    | F_switch | F_stmt_handler S_SWCH => v_token v = T_Switch
    | F_switch_case | F_case_body _ => False
    | F_block i | F_raw_block i | F_items i | F_item i => item_pre i
    | F_unchecked_block i => live v /\ item_pre i
    | F_expr_handler X_____ | F_stmt_handler S_____ | F_expr_handler X_VOID => True
    | F_nested_handler _ _ | F_paren | F_object | F_array | F_template_string
    | F_function_expression | F_class_expression | F_pattern_array | F_pattern_object | F_rest_element
    | F_block_statement | F_labeled_or_expression | F_function_statement | F_class_statement | F_variable_declaration _ | F_return | F_break | F_continue
    | F_throw | F_try | F_catch | F_if | F_while | F_do | F_for_init _ | F_for | F_import => live v
    | F_expr_handler _ | F_stmt_handler _ => live v
    | _ => True
    end.
  (** Methods that consume a token if there is one. *)
  Definition moves {R : Set} (f : fn R) : bool :=
    match f with
    | F_expr_handler X_VOID => false
    | F_statement | F_stmt_handler _ | F_item _ | F_class_member | F_expr_handler _ | F_nested_handler _ _ | F_regular_expression
    | F_unchecked_block _ | F_template_literal | F_paren | F_object | F_array | F_template_string
    | F_function_expression | F_class_expression | F_pattern_array | F_pattern_object | F_rest_element
    | F_block_statement | F_labeled_or_expression | F_function_statement | F_class_statement | F_variable_declaration _ | F_return | F_break | F_continue
    | F_throw | F_try | F_catch | F_if | F_while | F_do | F_for_init _ | F_for | F_import | F_switch => true
    | _ => false
    end.
  Definition tpost {R : Set} (f : fn R) (v : view) (k k' : nat) : Prop := k' <= k /\ (moves f = true -> live v -> k' < k).
  Record tinv (v : view) : Prop := TInv {
    ti_string : v_token v = T_LiteralString -> 2 <= List.length (v_text v);
    ti_tpl : tp = false -> v_token v <> T_TemplateOpen /\ v_token v <> T_TemplateClosed
  }.
  Definition before (k r k0 r0 : nat) : Prop := k < k0 \/ (k <= k0 /\ r < r0).
  (** [T k0 r0 Q v k p]: on a state that shows [v] and has measure [k], the program [p] ends, provided
      that the methods before [k0], [r0] do; and if it returns, with measure [k'], then [Q k']. *)
  Inductive T {A : Type} (k0 r0 : nat) (Q : nat -> Prop) : view -> nat -> P A -> Prop :=
  | TSwitch v k p : v_token v = T_Switch -> T k0 r0 Q v k p
  | T_Ret v k a : Q k -> T k0 r0 Q v k (Ret a)
  | T_Look v k p : T k0 r0 Q v k (p v) -> T k0 r0 Q v k (Look p)
  | T_Consume v k p : (forall v' k', tinv v' -> k' <= k -> (live v -> k' < k) -> T k0 r0 Q v' k' p) -> T k0 r0 Q v k (Consume p)
  | T_Template v k p : tp = true -> v_token v = T_BraceClose -> (forall v' k', tinv v' -> k' < k -> T k0 r0 Q v' k' p) -> T k0 r0 Q v k (ReadTemplate p)
  | T_Regex v k p : v_token v = T_OperatorDivision -> (forall s v' k', tinv v' -> k' < k -> T k0 r0 Q v' k' (p s)) -> T k0 r0 Q v k (ReadRegex p)
  | T_Error v k p : (forall v' k', tinv v' -> k' <= k -> (live v -> k' < k) -> T k0 r0 Q v' k' p) -> T k0 r0 Q v k (PushError p)
  | T_Call v k (R : Set) (f : fn R) p : tpre f v -> before k (rank f) k0 r0 ->
      (forall r v' k', tinv v' -> tpost f v k k' -> T k0 r0 Q v' k' (p r)) -> T k0 r0 Q v k (Call f p).

  Lemma is_live t v : is t v = true -> token_eqb t T_EndOfProgram = false -> live v.
  Proof. intros H E X. apply is_eq in H. rewrite <- H, X in E. discriminate E. Qed.
  Lemma live_slash v : v_token v = T_OperatorDivision -> live v.
  Proof. unfold live. intros ->. discriminate. Qed.
  Lemma live_word v : is_word (v_token v) = true -> live v.
  Proof. unfold live. intros H X. rewrite X in H. discriminate H. Qed.
  Lemma live_operator v : operator_from_token (v_token v) <> None -> live v.
  Proof. unfold live. intros H X. rewrite X in H. now apply H. Qed.
  Lemma live_not v : is T_EndOfProgram v = false -> live v.
  Proof. unfold live, is. intros H X. rewrite X in H. discriminate H. Qed.
  Lemma nested_lut b v h : handler b v = Some h -> nth (token_index (v_token v)) (LUT b) None = Some h.
  Proof. unfold handler. intros H. destruct (v_asi v); auto. destruct (_ || _)%bool; [discriminate|exact H]. Qed.
  Lemma live_nested b v h : handler b v = Some h -> live v.
  Proof. intros H. apply nested_lut in H. unfold live. intros X. rewrite X in H. destruct b; discriminate H. Qed.
  Lemma short_string v : tinv v -> is T_LiteralString v = true -> Nat.leb 2 (List.length (v_text v)) = true.
  Proof. intros Hi H. apply Nat.leb_le. apply (ti_string _ Hi). now apply is_eq. Qed.
  Lemma pre_nested b v h l : tinv v -> handler b v = Some h -> tpre (F_nested_handler h l) v.
  Proof.
    intros Iv H. apply nested_lut in H. assert (L : live v) by (unfold live; intros X; rewrite X in H; destruct b; discriminate H).
    destruct h; cbn [tpre]; try exact L. split; [exact L|]. destruct tp eqn:E; [reflexivity|].
    assert (X : v_token v = T_TemplateOpen) by (destruct (v_token v); destruct b; try discriminate H; reflexivity).
    now destruct (proj1 (ti_tpl _ Iv E)).
  Qed.
  Lemma pre_expr c v : tinv v -> tpre (F_expr_handler (bound_handler c v)) v.
  Proof.
    intros Iv. unfold bound_handler. destruct (v_token v) eqn:E; destruct c; cbn; try exact I; unfold live; rewrite ?E; try discriminate; try reflexivity.
    all: split; [discriminate|]; destruct tp eqn:Et; [reflexivity|]; now destruct (proj1 (ti_tpl _ Iv Et)).
  Qed.
  Lemma pre_stmt v : tinv v -> tpre (F_stmt_handler (statement_handler v)) v.
  Proof.
    intros Iv. unfold statement_handler. destruct (v_token v) eqn:E; cbn; try exact I; unfold live; rewrite ?E; try discriminate; try reflexivity.
    all: split; [discriminate|]; destruct tp eqn:Et; [reflexivity|]; now destruct (proj1 (ti_tpl _ Iv Et)).
  Qed.
  Ltac tlive := first [assumption
    | match goal with
      | C : is ?t ?v = true |- live ?v => exact (is_live t v C eq_refl)
      | C : (is ?t ?v && _)%bool = true |- live ?v => apply andb_true_iff in C as [C _]; exact (is_live t v C eq_refl)
      | C : (is _ ?v || is _ ?v)%bool = true |- live ?v => apply orb_true_iff in C as [C|C]; exact (is_live _ v C eq_refl)
      | C : (is _ ?v || is T_EndOfProgram ?v)%bool = false |- live ?v => apply orb_false_iff in C as [_ C]; exact (live_not v C)
      | C : is T_EndOfProgram ?v = false |- live ?v => exact (live_not v C)
      | C : is_word (v_token ?v) = true |- live ?v => exact (live_word v C)
      | C : operator_from_token (v_token ?v) <> None |- live ?v => exact (live_operator v C)
      | C : operator_from_token (v_token ?v) = Some _ |- live ?v => apply live_operator; rewrite C; discriminate
      | C : v_token ?v = T_OperatorDivision |- live ?v => exact (live_slash v C)
      | C : live ?v /\ _ |- live ?v => exact (proj1 C)
      | C : handler _ ?v = Some _ |- live ?v => exact (live_nested _ _ _ C)
      end].
  Ltac tcond p := match p with bind ?q _ => tcond q | (if ?c then _ else _) => c | (match ?c with _ => _ end) => c end.
  Ltac strict H := try (specialize (H ltac:(tlive))).
  Ltac tstep :=
    match goal with
    | |- T _ _ _ _ _ (Ret _) => apply T_Ret
    | |- T _ _ _ _ _ (Look _) => apply T_Look
    | |- T _ _ _ _ _ (Consume _) => apply T_Consume; let L := fresh "Hl" in intros ?v ?k ?Hi ?Hk L; strict L
    | |- T _ _ _ _ _ (ReadTemplate _) => apply T_Template; [| |intros ?v ?k ?Hi ?Hk]
    | |- T _ _ _ _ _ (ReadRegex _) => apply T_Regex; [|intros ?s ?v ?k ?Hi ?Hk]
    | |- T _ _ _ _ _ (PushError _) => apply T_Error; let L := fresh "Hl" in intros ?v ?k ?Hi ?Hk L; strict L
    | |- T _ _ _ _ _ (Call _ _) => apply T_Call; [| |let L := fresh "Hl" in intros ?r ?v ?k ?Hi [?Hk L]; cbn [moves] in L; try (specialize (L eq_refl)); strict L]
    | |- T _ _ _ _ _ ?p => let c := tcond p in let E := fresh "C" in destruct c eqn:E
    end.
  Ltac tclose := try assumption; try exact I;
    match goal with
    | |- before _ _ _ _ => first [right; cbn [rank item_rank]; unfold spines; cbn [spine fold_right n_item]; split; lia | left; lia]
    | |- tpre (F_expr_handler (bound_handler _ _)) _ => apply pre_expr; assumption
    | |- tpre (F_stmt_handler (statement_handler _)) _ => apply pre_stmt; assumption
    | C : handler _ ?v = Some ?h |- tpre (F_nested_handler ?h _) ?v => eapply pre_nested; eassumption
    | |- tpost _ _ _ _ => split; [lia|let M := fresh in let L := fresh "L" in intros M L; first [discriminate M | lia | repeat (match goal with H : live ?v -> _ |- _ => specialize (H L) end); lia | idtac]]
    | C : is ?t ?v = true |- v_token ?v = ?t => exact (is_eq t v C)
    | |- tpre _ _ => cbn [tpre item_pre]; try tlive; try (split; [tlive|]); try assumption; try exact I; try tauto
    | H : None <> None |- _ => now destruct H
    | H : live _ /\ tp = true |- tp = true => exact (proj2 H)
    | C : is T_LiteralString ?v = true, D : Nat.leb 2 (List.length (v_text ?v)) = false |- _ => rewrite short_string in D by assumption; discriminate D
    | |- _ => idtac
    end.
  Lemma body_returns (R : Set) (f : fn R) v k : tinv v -> tpre f v -> T k (rank f) (fun k' => tpost f v k k') v k (body R f).
  Proof.
    intros Hv Hp. destruct f; try (match goal with h : nested_handler |- _ => destruct h end); try (match goal with h : expr_handler |- _ => destruct h end); try (match goal with h : stmt_handler |- _ => destruct h end);
      try (match goal with i : item _ |- _ => destruct i end); try (match goal with k : namekind |- _ => destruct k end).
    all: cbn [tpre item_pre] in Hp; try (exfalso; exact Hp); try (apply TSwitch; exact Hp); cbn [rank item_rank]; try (match goal with |- T _ _ _ _ _ (body _ ?f) => pose (fn_now := f) end).
    all: bodies; cbn [bind]; repeat (tstep; cbn [bind]); tclose.
  Qed.

  (** ** Methods ask for what they need, whether or not they come to an end *)
  Definition upre {R : Set} (f : fn R) (v : view) : Prop :=
    match f with
    | F_regular_expression | F_expr_handler X_REG | F_stmt_handler S_REG => v_token v = T_OperatorDivision
    | F_expr_handler X_OP | F_stmt_handler S_OP => operator_from_token (v_token v) <> None
    | F_template_literal | F_nested_handler N_TPLE _ | F_expr_handler X_TPLE | F_stmt_handler S_TPLE => tp = true
    | F_template_rest => tp = true
    | _ => True
    end.
  Inductive U {A : Type} : view -> P A -> Prop :=
  | U_Ret v a : U v (Ret a)
  | U_Look v p : U v (p v) -> U v (Look p)
  | U_Consume v p : (forall v', tinv v' -> U v' p) -> U v (Consume p)
  | U_Template v p : tp = true -> v_token v = T_BraceClose -> (forall v', tinv v' -> U v' p) -> U v (ReadTemplate p)
  | U_Regex v p : v_token v = T_OperatorDivision -> (forall s v', tinv v' -> U v' (p s)) -> U v (ReadRegex p)
  | U_Error v p : (forall v', tinv v' -> U v' p) -> U v (PushError p)
  | U_Call v (R : Set) (f : fn R) p : upre f v -> (forall r v', tinv v' -> U v' (p r)) -> U v (Call f p).
  Lemma tpre_upre (R : Set) (f : fn R) v : tpre f v -> upre f v.
  Proof.
    destruct f; try exact (fun _ => I); try (match goal with h : nested_handler |- _ => destruct h end); try (match goal with h : expr_handler |- _ => destruct h end); try (match goal with h : stmt_handler |- _ => destruct h end);
      cbn; tauto.
  Qed.
  Ltac ustep :=
    match goal with
    | |- U _ (Ret _) => apply U_Ret
    | |- U _ (Look _) => apply U_Look
    | |- U _ (Consume _) => apply U_Consume; intros ?v ?Hi
    | |- U _ (ReadTemplate _) => apply U_Template; [| |intros ?v ?Hi]
    | |- U _ (ReadRegex _) => apply U_Regex; [|intros ?s ?v ?Hi]
    | |- U _ (PushError _) => apply U_Error; intros ?v ?Hi
    | |- U _ (Call _ _) => apply U_Call; [|intros ?r ?v ?Hi]
    | |- U _ ?p => let c := tcond p in let E := fresh "C" in destruct c eqn:E
    end.
  Ltac uclose := try assumption; try exact I;
    match goal with
    | |- upre (F_expr_handler (bound_handler _ _)) _ => apply tpre_upre, pre_expr; assumption
    | |- upre (F_stmt_handler (statement_handler _)) _ => apply tpre_upre, pre_stmt; assumption
    | C : handler _ ?v = Some ?h |- upre (F_nested_handler ?h _) ?v => apply tpre_upre; eapply pre_nested; eassumption
    | C : is ?t ?v = true |- v_token ?v = ?t => exact (is_eq t v C)
    | |- upre _ _ => cbn [upre]; try assumption; try exact I
    | H : None <> None |- _ => now destruct H
    | C : is T_LiteralString ?v = true, D : Nat.leb 2 (List.length (v_text ?v)) = false |- _ => rewrite short_string in D by assumption; discriminate D
    | |- _ => idtac
    end.
  Lemma body_safe (R : Set) (f : fn R) v : tinv v -> upre f v -> U v (body R f).
  Proof.
    intros Hv Hp. destruct f; try (match goal with h : nested_handler |- _ => destruct h end); try (match goal with h : expr_handler |- _ => destruct h end); try (match goal with h : stmt_handler |- _ => destruct h end);
      try (match goal with i : item _ |- _ => destruct i end); try (match goal with k : namekind |- _ => destruct k end).
    all: cbn [upre] in Hp.
    all: bodies; cbn [bind]; repeat (ustep; cbn [bind]); uclose.
  Qed.
End Total.
