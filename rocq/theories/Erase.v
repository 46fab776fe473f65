(** The parser does not look at locations: run on a lexer whose positions are
    not seen, its methods return the same trees without locations. *)
From Coq Require Import List NArith Bool Lia String.
From Coq.Strings Require Import Byte.
From Verif Require Import Bytes Token Tables Lexer Ast Prog Parser ProgFacts Structure LexEval.
Import ListNotations.
Open Scope nat_scope.
Open Scope list_scope.

(** A view without positions; the accessor only where there is one. *)
Definition zero (v : view) : view :=
  View (v_token v) (v_asi v) 0%N 0%N (v_text v) (if token_eqb (v_token v) T_Accessor then v_accessor v else []) (v_quasi v).
Notation sx := (strip_node strip_expression).
Notation sp := (strip_node strip_pattern).
Notation ss := (strip_node strip_statement).
Definition strip_item {T : Set} (i : item T) : T -> T :=
  match i in item T return T -> T with I_Statement => strip_statement | I_Member => strip_class_member | I_Case => strip_case end.
Definition era {R : Set} (f : fn R) : R -> R :=
  match f in fn R return R -> R with
  | F_parse => map ss
  | F_block i | F_unchecked_block i => strip_node (strip_block (strip_item i))
  | F_raw_block i => strip_block (strip_item i)
  | F_items i => map (strip_node (strip_item i))
  | F_item i => strip_node (strip_item i)
  | F_pattern_from_expression _ => sp
  | F_params_from_expressions _ => map sp
  | F_nested _ _ | F_nested_handler _ _ | F_expr_handler _ | F_expression _ _ | F_paren | F_object | F_array | F_regular_expression | F_function_expression | F_class_expression => sx
  | F_sequence | F_call_arguments | F_call_arguments_rest | F_array_elements | F_array_elements_rest => map sx
  | F_arrow _ | F_prefix _ | F_meta_property _ => strip_expression
  | F_property_list | F_property_list_rest => map (strip_node strip_property)
  | F_property | F_property_value _ _ => strip_node strip_property
  | F_template_string | F_template_literal => strip_node strip_template
  | F_template_rest => fun x => match x with (qs, es, _) => (map strip_id qs, map sx es, 0%N) end
  | F_name _ => strip_name
  | F_pattern | F_pattern_array | F_pattern_object | F_pattern_assign _ | F_pattern_array_element | F_pattern_param | F_rest_element => sp
  | F_pattern_elements | F_pattern_elements_rest | F_params | F_params_rest => map sp
  | F_function _ => strip_func
  | F_method => strip_node strip_func
  | F_class_member | F_class_member_value _ _ _ _ => strip_node strip_class_member
  | F_class _ => strip_class
  | F_switch_case => strip_node strip_case
  | F_case_body _ => fun x => match x with (l, _) => (map ss l, 0%N) end
  | F_expect_semicolon => fun x => x
  | F_declarator => strip_node strip_declarator
  | F_declarators => map (strip_node strip_declarator)
  | F_label => fun x => match x with (l, e) => (option_map strip_id l, option_map (fun _ => 0%N) e) end
  | F_catch => strip_node strip_catch
  | F_for_init _ => strip_node strip_for_init
  | F_import_specifiers => map (strip_node strip_specifier)
  | F_stmt_handler _ | F_statement | F_block_statement | F_expression_statement _ | F_labeled_or_expression | F_function_statement | F_class_statement
  | F_variable_declaration _ | F_return | F_break | F_continue | F_throw | F_try | F_if | F_while | F_do | F_for | F_for_rest _ _ | F_for_in_from_parts _ _ _
  | F_for_in _ _ | F_for_of _ _ | F_switch | F_import | F_import_rest _ _ _ => ss
  end.
Definition eraf {R : Set} (f : fn R) : fn R :=
  match f in fn R return fn R with
  | F_pattern_from_expression e => F_pattern_from_expression (sx e)
  | F_params_from_expressions es => F_params_from_expressions (map sx es)
  | F_nested b l => F_nested b (sx l)
  | F_nested_handler h l => F_nested_handler h (sx l)
  | F_arrow ps => F_arrow (map sx ps)
  | F_meta_property m => F_meta_property (strip_id m)
  | F_property_value _ k => F_property_value 0%N (strip_node strip_property_key k)
  | F_class_member_value _ st kd k => F_class_member_value 0%N st kd (strip_node strip_property_key k)
  | F_pattern_assign l => F_pattern_assign (sp l)
  | F_case_body _ => F_case_body 0%N
  | F_expression_statement e => F_expression_statement (sx e)
  | F_for_rest _ i => F_for_rest 0%N (option_map (strip_node strip_for_init) i)
  | F_for_in_from_parts _ l r => F_for_in_from_parts 0%N (strip_node strip_for_init l) (sx r)
  | F_for_in _ l => F_for_in 0%N (strip_node strip_for_init l)
  | F_for_of _ l => F_for_of 0%N (strip_node strip_for_init l)
  | F_import_rest _ sps h => F_import_rest 0%N (map (strip_node strip_specifier) sps) h
  | g => g
  end.
(** What is known of the current token when a method is called. *)
Definition pre {R : Set} (f : fn R) (v : view) : Prop :=
  match f with
  | F_nested_handler N_ACCS _ | F_meta_property _ => v_token v = T_Accessor
  | F_expr_handler X_REG | F_regular_expression | F_stmt_handler S_REG => v_token v = T_OperatorDivision
  | _ => True
  end.

(** [p0] does with a [zero] view what [p] does, and returns the erased result. *)
Inductive J {A : Type} (E : A -> A) : view -> P A -> P A -> Prop :=
| J_Ret v a a0 : a0 = E a -> J E v (Ret a) (Ret a0)
| J_Look v k k0 : J E v (k v) (k0 (zero v)) -> J E v (Look k) (Look k0)
| J_Consume v k k0 : (forall v', J E v' k k0) -> J E v (Consume k) (Consume k0)
| J_Template v k k0 : (forall v', J E v' k k0) -> J E v (ReadTemplate k) (ReadTemplate k0)
| J_Regex v k k0 : v_token v = T_OperatorDivision -> (forall s v', J E v' (k s) (k0 s)) -> J E v (ReadRegex k) (ReadRegex k0)
| J_Error v k k0 : (forall v', J E v' k k0) -> J E v (PushError k) (PushError k0)
| J_Abort v : J E v Abort Abort
| J_Call v (R : Set) (f f0 : fn R) k k0 : f0 = eraf f -> pre f v -> (forall r v', J E v' (k r) (k0 (era f r))) -> J E v (Call f k) (Call f0 k0).

Lemma is_zero t v : is t (zero v) = is t v. Proof. reflexivity. Qed.
Lemma z_token v : v_token (zero v) = v_token v. Proof. reflexivity. Qed.
Lemma z_asi v : v_asi (zero v) = v_asi v. Proof. reflexivity. Qed.
Lemma z_text v : v_text (zero v) = v_text v. Proof. reflexivity. Qed.
Lemma z_handler b v : handler b (zero v) = handler b v. Proof. reflexivity. Qed.
Lemma accessor_handler b v : handler b v = Some N_ACCS -> v_token v = T_Accessor.
Proof.
  intros H. unfold handler in H. assert (G : nth (token_index (v_token v)) (LUT b) None = Some N_ACCS).
  { destruct (v_asi v); auto. destruct (_ || _)%bool; [discriminate|exact H]. }
  destruct b; destruct (v_token v); vm_compute in G; try discriminate G; reflexivity.
Qed.
Lemma regex_handler c v : bound_handler c v = X_REG -> v_token v = T_OperatorDivision.
Proof. unfold bound_handler. intros G. destruct c; destruct (v_token v); vm_compute in G; try discriminate G; reflexivity. Qed.
Lemma regex_statement v : statement_handler v = S_REG -> v_token v = T_OperatorDivision.
Proof. unfold statement_handler. intros G. destruct (v_token v); vm_compute in G; try discriminate G; reflexivity. Qed.
Lemma zero_accessor v : v_token v = T_Accessor -> v_accessor (zero v) = v_accessor v.
Proof. intros E. unfold zero. cbn. rewrite E. reflexivity. Qed.
Lemma func_end f : func_body_end (strip_func f) = 0%N. Proof. destruct f. reflexivity. Qed.
Lemma class_end c : class_body_end (strip_class c) = 0%N. Proof. destruct c. reflexivity. Qed.
Lemma lvalue_strip (l : expr_node) : is_lvalue (n_item (sx l)) = is_lvalue (n_item l). Proof. destruct l as [a b e]. destruct e; reflexivity. Qed.

Ltac cond p := match p with bind ?q _ => cond q | (if ?c then _ else _) => c | (match ?c with NoSemicolon => _ | ImplicitSemicolon => _ | ExplicitSemicolon => _ end) => c end.
Ltac bodies := cbn [eraf body];
    cbv delta [body_parse body_raw_block body_items body_item body_block body_unchecked_block body_pattern_from_expression
      body_params_from_expressions body_nested body_nested_handler body_sequence body_expression body_expr_handler body_stmt_handler
      body_arrow body_call_arguments body_call_arguments_rest body_paren body_prefix body_object body_meta_property
      body_property_list body_property_list_rest body_property body_property_value body_array body_array_elements
      body_array_elements_rest body_regular_expression body_template_string body_template_literal body_template_rest
      body_function_expression body_class_expression body_name body_pattern body_function body_method body_class_member
      body_class_member_value body_class body_pattern_array body_pattern_object body_pattern_assign body_pattern_array_element
      body_pattern_elements body_pattern_elements_rest body_pattern_param body_rest_element body_params body_params_rest
      body_switch_case body_case_body body_statement body_expect_semicolon body_block_statement body_expression_statement
      body_labeled_or_expression body_function_statement body_class_statement body_variable_declaration body_declarator
      body_declarators body_return body_break body_continue body_label body_throw body_try body_catch body_if body_while body_do
      body_for_init body_for body_for_rest body_for_in_from_parts body_for_in body_for_of body_switch body_import body_import_rest
      body_import_specifiers jump_statement token_expression postfix_handler assign_handler binary_handler expression_handler_statement unquote
      look consume_ read_template read_regex fail_with error_ call start_then_consume end_then_consume get_end get_start expect identifier_ pattern_identifier]; cbv beta zeta.
Ltac step1 :=
  match goal with
  | |- J _ _ (Ret _) _ => apply J_Ret
  | |- J _ _ (Look _) _ => apply J_Look
  | |- J _ _ (Consume _) _ => apply J_Consume; intros ?v
  | |- J _ _ (ReadTemplate _) _ => apply J_Template; intros ?v
  | |- J _ _ (ReadRegex _) _ => apply J_Regex; [|intros ?s ?v]
  | |- J _ _ (PushError _) _ => apply J_Error; intros ?v
  | |- J _ _ Abort _ => apply J_Abort
  | |- J _ _ (Call _ _) _ => apply J_Call; [try reflexivity|try exact I|intros ?r ?v]
  | |- J _ _ (let (_, _) := ?x in _) _ => destruct x
  | |- J _ _ ?p _ => let c := cond p in let E := fresh "C" in destruct c eqn:E
  end.
Ltac tidy2 := cbn [bind eraf era pre]; rewrite ?is_zero, ?lvalue_strip, ?z_token, ?z_asi, ?z_text, ?z_handler.
Ltac walk := repeat (step1; tidy2).

Lemma is_eq t v : is t v = true -> v_token v = t.
Proof. unfold is. intros H. apply token_eqb_eq. exact H. Qed.

Ltac close := try reflexivity; try assumption; rewrite ?func_end, ?class_end, ?zero_accessor by assumption; try reflexivity;
  try (match goal with C : is ?t ?v = true |- v_token ?v = ?t => apply (is_eq t v C) end).
Ltac more := tidy2; walk; close.
Lemma import_strip a b x y z : ss (Node a b (St_Import (x ++ y) z)) = Node 0%N 0%N (St_Import (map (strip_node strip_specifier) x ++ map (strip_node strip_specifier) y) z).
Proof. rewrite <- map_app. reflexivity. Qed.
Ltac finish :=
  match goal with
  | |- J _ _ (match handler ?b ?v with Some _ => _ | None => _ end) _ =>
      let E := fresh "E" in let h := fresh "h" in destruct (handler b v) as [h|] eqn:E; more; destruct h; try exact I; exact (accessor_handler _ _ E)
  | |- J _ _ (match operator_from_token ?x with Some _ => _ | None => _ end) _ => destruct (operator_from_token x); more
  | |- J _ _ (match n_item ?e with _ => _ end) _ =>
      let it := fresh "it" in destruct e as [? ? it]; destruct it; cbn [n_item strip_node strip_expression n_start n_end]; more;
      try (match goal with o : operator |- _ => destruct o end; more)
  | |- J _ _ (bind (match n_item ?e with _ => _ end) _) _ =>
      let it := fresh "it" in destruct e as [? ? it]; destruct it; cbn [n_item strip_node strip_expression n_start n_end]; more;
      try (match goal with o : operator |- _ => destruct o end; more)
  | |- (F_arrow _ = F_arrow _) => match goal with l : expr_node |- _ => let it := fresh "it" in destruct l as [? ? it]; destruct it; reflexivity end
  | |- J _ _ _ (bind (if str_eqb ?a ?b then _ else _) _) => match goal with C : str_eqb a b = _ |- _ => rewrite C; more end
  | |- (Node _ _ _ = ss (Node _ _ _)) => try (rewrite import_strip; reflexivity); match goal with o : option N |- _ => destruct o; reflexivity end
  | |- (match bound_handler ?c ?v with _ => _ end) => let E := fresh "E" in destruct (bound_handler c v) eqn:E; try exact I; exact (regex_handler _ _ E)
  | |- (match statement_handler ?v with _ => _ end) => let E := fresh "E" in destruct (statement_handler v) eqn:E; try exact I; exact (regex_statement _ E)
  | |- _ => idtac
  end.
Lemma body_erased (R : Set) (f : fn R) v : pre f v -> J (era f) v (body R f) (body R (eraf f)).
Proof.
  intros Hp. destruct f; try (match goal with h : nested_handler |- _ => destruct h end); try (match goal with h : expr_handler |- _ => destruct h end); try (match goal with h : stmt_handler |- _ => destruct h end);
    try (match goal with i : item _ |- _ => destruct i end); try (match goal with k : namekind |- _ => destruct k end); try (match goal with es : list expr_node |- _ => destruct es end);
    try (match goal with i : option (node for_init) |- _ => destruct i end).
  all: bodies; more; finish.
Qed.
