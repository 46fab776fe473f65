(** The parser, /repo/ratel/src/parser/*.rs, method by method. *)
From Coq Require Import List NArith Bool String.
From Coq.Strings Require Import Byte.
From Verif Require Import Bytes Token Tables Lexer Ast Prog.
Import ListNotations.
Open Scope nat_scope.

(** Expression contexts, parser/expression.rs:13-66. *)
Inductive context : Set := CtxDefault | CtxArray | CtxCall.

(** The parameter [N] of [Function<N>] and [Class<N>]. *)
Inductive namekind : Set := NK_Empty | NK_Optional | NK_Mandatory.

(** The parameter [I] of [Block<I>] (the implementations of [Parse]). *)
Inductive item : Set -> Type :=
| I_Statement : item statement
| I_Member : item class_member
| I_Case : item switch_case.

Definition expr_node := node expression.
Definition stmt_node := node statement.

(** The methods (and loops) of the parser, indexed by their result type. *)
Inductive fn : Set -> Type :=
(* mod.rs *)
| F_parse : fn module
| F_block {T : Set} (i : item T) : fn (node (block T))
| F_unchecked_block {T : Set} (i : item T) : fn (node (block T))
| F_raw_block {T : Set} (i : item T) : fn (block T)
| F_items {T : Set} (i : item T) : fn (list (node T))
| F_item {T : Set} (i : item T) : fn (node T)
| F_pattern_from_expression (e : expr_node) : fn (node pattern)
| F_params_from_expressions (es : list expr_node) : fn (list (node pattern))
(* nested.rs *)
| F_nested (b : bp) (left : expr_node) : fn expr_node
| F_nested_handler (h : nested_handler) (left : expr_node) : fn expr_node
| F_sequence : fn (list expr_node)
(* expression.rs *)
| F_expr_handler (h : expr_handler) : fn expr_node
| F_expression (c : context) (b : bp) : fn expr_node
| F_arrow (params : list expr_node) : fn expression
| F_call_arguments : fn (list expr_node)
| F_call_arguments_rest : fn (list expr_node)
| F_paren : fn expr_node
| F_prefix (op : operator) : fn expression
| F_object : fn expr_node
| F_meta_property (meta : node str) : fn expression
| F_property_list : fn (list (node property))
| F_property_list_rest : fn (list (node property))
| F_property : fn (node property)
| F_property_value (start : N) (key : node property_key) : fn (node property)
| F_array : fn expr_node
| F_array_elements : fn (list expr_node)
| F_array_elements_rest : fn (list expr_node)
| F_regular_expression : fn expr_node
| F_template_string : fn (node template)
| F_template_literal : fn (node template)
| F_template_rest : fn (list (node str) * list expr_node * N)
| F_function_expression : fn expr_node
| F_class_expression : fn expr_node
(* function.rs *)
| F_name (k : namekind) : fn fname
| F_pattern : fn (node pattern)
| F_function (k : namekind) : fn func
| F_method : fn (node func)
| F_class_member : fn (node class_member)
| F_class_member_value (start : N) (is_static : bool) (kind : methodkind) (key : node property_key)
    : fn (node class_member)
| F_class (k : namekind) : fn class
| F_pattern_array : fn (node pattern)
| F_pattern_object : fn (node pattern)
| F_pattern_assign (left : node pattern) : fn (node pattern)
| F_pattern_array_element : fn (node pattern)
| F_pattern_elements : fn (list (node pattern))
| F_pattern_elements_rest : fn (list (node pattern))
| F_pattern_param : fn (node pattern)
| F_rest_element : fn (node pattern)
| F_params : fn (list (node pattern))
| F_params_rest : fn (list (node pattern))
(* statement.rs *)
| F_stmt_handler (h : stmt_handler) : fn stmt_node
| F_switch_case : fn (node switch_case)
| F_case_body (e : N) : fn (list stmt_node * N)
| F_statement : fn stmt_node
| F_expect_semicolon : fn unit
| F_block_statement : fn stmt_node
| F_expression_statement (e : expr_node) : fn stmt_node
| F_labeled_or_expression : fn stmt_node
| F_function_statement : fn stmt_node
| F_class_statement : fn stmt_node
| F_variable_declaration (k : declkind) : fn stmt_node
| F_declarator : fn (node declarator)
| F_declarators : fn (list (node declarator))
| F_return : fn stmt_node
| F_break : fn stmt_node
| F_continue : fn stmt_node
| F_label : fn (option (node str) * option N)
| F_throw : fn stmt_node
| F_try : fn stmt_node
| F_catch : fn (node catch_clause)
| F_if : fn stmt_node
| F_while : fn stmt_node
| F_do : fn stmt_node
| F_for_init (k : declkind) : fn (node for_init)
| F_for : fn stmt_node
| F_for_rest (start : N) (init : option (node for_init)) : fn stmt_node
| F_for_in_from_parts (start : N) (left : node for_init) (right : expr_node) : fn stmt_node
| F_for_in (start : N) (left : node for_init) : fn stmt_node
| F_for_of (start : N) (left : node for_init) : fn stmt_node
| F_switch : fn stmt_node
| F_import : fn stmt_node
| F_import_rest (start : N) (specs : list (node import_specifier)) (has_next : bool) : fn stmt_node
| F_import_specifiers : fn (list (node import_specifier)).

Definition P (A : Type) := prog fn A.

Notation "x <- m ;; k" := (bind m (fun x => k))
  (at level 61, m at next level, right associativity).
Notation "' pat <- m ;; k" := (bind m (fun x => match x with pat => k end))
  (at level 61, pat pattern, m at next level, right associativity).
Notation "m ;;; k" := (bind m (fun _ => k)) (at level 61, right associativity).

Definition look : P view := Look (fun v => Ret v).
Definition consume_ : P unit := Consume (Ret tt).
Definition read_template : P unit := ReadTemplate (Ret tt).
Definition read_regex : P str := ReadRegex (fun s => Ret s).
(** [self.error::<T>()], mod.rs:50-55; [d] is [T::to_error()], parser/error.rs:12-106. *)
Definition fail_with {A} (d : A) : P A := PushError (Ret d).
Definition error_ : P unit := fail_with tt.
Definition call {R : Set} (f : fn R) : P R := Call f (fun r => Ret r).

Definition is (t : token) (v : view) : bool := token_eqb (v_token v) t.

(** [start_then_consume] / [end_then_consume], lexer/mod.rs:717-729. *)
Definition start_then_consume : P N := v <- look ;; consume_ ;;; Ret (v_start v).
Definition end_then_consume : P N := v <- look ;; consume_ ;;; Ret (v_end v).
Definition get_end : P N := v <- look ;; Ret (v_end v).
Definition get_start : P N := v <- look ;; Ret (v_start v).

(** [in_loc] / [alloc_in_loc], mod.rs:67-89. *)
Definition in_loc {A : Set} (v : view) (a : A) : node A := Node (v_start v) (v_end v) a.

(** [expect!], macros.rs:16-25. *)
Definition expect (t : token) : P unit :=
  v <- look ;; if is t v then consume_ else error_.

(** The values [T::to_error()], parser/error.rs:20-106. *)
Definition err_ident : node str := Node 0 0 [].
Definition err_pattern : node pattern := Node 0 0 Pat_Void.
Definition err_property : node property := Node 0 0 (P_Shorthand []).
Definition err_member : node class_member := Node 0 0 CM_Error.

(** [Parser::identifier], mod.rs:160-172. *)
Definition identifier_ : P (node str) :=
  v <- look ;;
  if is T_Identifier v then consume_ ;;; Ret (in_loc v (v_text v))
  else fail_with err_ident.

(** [pattern_identifier], function.rs:230-238. *)
Definition pattern_identifier : P (node pattern) :=
  v <- look ;; consume_ ;;; Ret (in_loc v (Pat_Identifier (v_text v))).

(** ** mod.rs *)

(** [Parser::parse], mod.rs:98-112.  The loop is that of [F_items] with the
    condition [token != EndOfProgram] only; see [body_parse_loop]. *)
Definition body_parse : P module :=
  v <- look ;;
  if is T_EndOfProgram v then Ret []
  else
    s <- call F_statement ;;
    rest <- call F_parse ;;
    Ret (s :: rest).

(** [block], mod.rs:115-130. *)
Definition body_block {T : Set} (i : item T) : P (node (block T)) :=
  v <- look ;;
  (if is T_BraceOpen v then consume_ else error_) ;;;
  b <- call (F_raw_block i) ;;
  e <- end_then_consume ;;
  Ret (Node (v_start v) e b).

(** [unchecked_block], mod.rs:134-141. *)
Definition body_unchecked_block {T : Set} (i : item T) : P (node (block T)) :=
  start <- start_then_consume ;;
  b <- call (F_raw_block i) ;;
  e <- end_then_consume ;;
  Ret (Node start e b).

(** [raw_block], mod.rs:143-158; [F_items] is its [while] loop. *)
Definition body_raw_block {T : Set} (i : item T) : P (block T) :=
  v <- look ;;
  if is T_BraceClose v then Ret (Block [])
  else
    x <- call (F_item i) ;;
    xs <- call (F_items i) ;;
    Ret (Block (x :: xs)).

Definition body_items {T : Set} (i : item T) : P (list (node T)) :=
  v <- look ;;
  if (is T_BraceClose v || is T_EndOfProgram v)%bool then Ret []
  else
    x <- call (F_item i) ;;
    xs <- call (F_items i) ;;
    Ret (x :: xs).

(** [I::parse]. *)
Definition body_item {T : Set} (i : item T) : P (node T) :=
  match i with
  | I_Statement => call F_statement
  | I_Member => call F_class_member
  | I_Case => call F_switch_case
  end.

(** [pattern_from_expression], mod.rs:174-195. *)
Definition body_pattern_from_expression (e : expr_node) : P (node pattern) :=
  p <- match n_item e with
       | E_Binary O_Assign l r =>
           l' <- call (F_pattern_from_expression l) ;; Ret (Pat_Assign l' r)
       | E_Identifier s => Ret (Pat_Identifier s)
       | _ => fail_with Pat_Void
       end ;;
  Ret (Node (n_start e) (n_end e) p).

(** [params_from_expressions], mod.rs:197-214. *)
Definition body_params_from_expressions (es : list expr_node) : P (list (node pattern)) :=
  match es with
  | [] => Ret []
  | e :: es' =>
      p <- call (F_pattern_from_expression e) ;;
      ps <- call (F_params_from_expressions es') ;;
      Ret (p :: ps)
  end.

(** ** nested.rs *)

(** [BindingPower::handler], nested.rs:17-27. *)
Definition handler (b : bp) (v : view) : option nested_handler :=
  match v_asi v with
  | ImplicitSemicolon =>
      if (is T_OperatorIncrement v || is T_OperatorDecrement v)%bool then None
      else nth (token_index (v_token v)) (LUT b) None
  | _ => nth (token_index (v_token v)) (LUT b) None
  end.

(** [nested_expression], nested.rs:434-443. *)
Definition body_nested (b : bp) (left : expr_node) : P expr_node :=
  v <- look ;;
  match handler b v with
  | Some h =>
      left' <- call (F_nested_handler h left) ;;
      call (F_nested b left')
  | None => Ret left
  end.

(** The [while let Comma] loop of [SEQ], nested.rs:235-238. *)
Definition body_sequence : P (list expr_node) :=
  v <- look ;;
  if is T_Comma v then
    consume_ ;;;
    e <- call (F_expression CtxDefault BP_B0) ;;
    es <- call F_sequence ;;
    Ret (e :: es)
  else Ret [].

(** [postfix!], nested.rs:338-356. *)
Definition postfix_handler (op : operator) (left : expr_node) : P expr_node :=
  v <- look ;;
  consume_ ;;;
  (if is_lvalue (n_item left) then Ret tt else error_) ;;;
  Ret (Node (n_start left) (v_end v) (E_Postfix op left)).

(** [assign!], nested.rs:358-378. *)
Definition assign_handler (op : operator) (left : expr_node) : P expr_node :=
  consume_ ;;;
  (if is_lvalue (n_item left) then Ret tt else error_) ;;;
  right <- call (F_expression CtxDefault BP_B1) ;;
  Ret (Node (n_start left) (n_end right) (E_Binary op left right)).

(** [binary!], nested.rs:380-396. *)
Definition binary_handler (b : bp) (op : operator) (left : expr_node) : P expr_node :=
  consume_ ;;;
  right <- call (F_expression CtxDefault b) ;;
  Ret (Node (n_start left) (n_end right) (E_Binary op left right)).

(** The nested handlers, nested.rs:229-429. *)
Definition body_nested_handler (h : nested_handler) (left : expr_node) : P expr_node :=
  match h with
  | N_SEQ =>
      consume_ ;;;
      e <- call (F_expression CtxDefault BP_B0) ;;
      es <- call F_sequence ;;
      e_end <- get_end ;;
      Ret (Node (n_start left) e_end (E_Sequence (left :: e :: es)))
  | N_COND =>
      consume_ ;;;
      consequent <- call (F_expression CtxDefault BP_B1) ;;
      expect T_Colon ;;;
      alternate <- call (F_expression CtxDefault BP_B1) ;;
      Ret (Node (n_start left) (n_end alternate) (E_Conditional left consequent alternate))
  | N_ARRW =>
      consume_ ;;;
      let params := match n_item left with E_Sequence b => b | _ => [left] end in
      e <- call (F_arrow params) ;;
      e_end <- get_end ;;
      Ret (Node (n_start left) e_end e)
  | N_ACCS =>
      v <- look ;;
      consume_ ;;;
      v' <- look ;;
      let right := in_loc v' (v_accessor v) in
      Ret (Node (n_start left) (n_end right) (E_Member left right))
  | N_CALL =>
      start <- start_then_consume ;;
      args <- call F_call_arguments ;;
      e_end <- end_then_consume ;;
      Ret (Node start e_end (E_Call left args))
  | N_CMEM =>
      consume_ ;;;
      p <- call (F_expression CtxDefault BP_ANY) ;;
      expect T_BracketClose ;;;
      e_end <- get_end ;;
      Ret (Node (n_start left) e_end (E_ComputedMember left p))
  | N_TPLS =>
      q <- call F_template_string ;;
      Ret (Node (n_start left) (n_end q) (E_TaggedTemplate left q))
  | N_TPLE =>
      q <- call F_template_literal ;;
      Ret (Node (n_start left) (n_end q) (E_TaggedTemplate left q))
  | N_INC => postfix_handler O_Increment left
  | N_DEC => postfix_handler O_Decrement left
  | N_ASGN => assign_handler O_Assign left
  | N_ADDA => assign_handler O_AddAssign left
  | N_SUBA => assign_handler O_SubtractAssign left
  | N_EXPA => assign_handler O_ExponentAssign left
  | N_MULA => assign_handler O_MultiplyAssign left
  | N_DIVA => assign_handler O_DivideAssign left
  | N_REMA => assign_handler O_RemainderAssign left
  | N_BSLA => assign_handler O_BSLAssign left
  | N_BSRA => assign_handler O_BSRAssign left
  | N_UBSA => assign_handler O_UBSRAssign left
  | N_BWAA => assign_handler O_BitAndAssign left
  | N_XORA => assign_handler O_BitXorAssign left
  | N_BORA => assign_handler O_BitOrAssign left
  | N_OR => binary_handler BP_B5 O_LogicalOr left
  | N_AND => binary_handler BP_B6 O_LogicalAnd left
  | N_BWOR => binary_handler BP_B7 O_BitwiseOr left
  | N_BWXO => binary_handler BP_B8 O_BitwiseXor left
  | N_BWAN => binary_handler BP_B9 O_BitwiseAnd left
  | N_STEQ => binary_handler BP_B10 O_StrictEquality left
  | N_SIEQ => binary_handler BP_B10 O_StrictInequality left
  | N_EQ => binary_handler BP_B10 O_Equality left
  | N_INEQ => binary_handler BP_B10 O_Inequality left
  | N_LESS => binary_handler BP_B11 O_Lesser left
  | N_LSEQ => binary_handler BP_B11 O_LesserEquals left
  | N_GRTR => binary_handler BP_B11 O_Greater left
  | N_GREQ => binary_handler BP_B11 O_GreaterEquals left
  | N_INOF => binary_handler BP_B11 O_Instanceof left
  | N_IN => binary_handler BP_B11 O_In left
  | N_BSL => binary_handler BP_B12 O_BitShiftLeft left
  | N_BSR => binary_handler BP_B12 O_BitShiftRight left
  | N_UBSR => binary_handler BP_B12 O_UBitShiftRight left
  | N_ADD => binary_handler BP_B13 O_Addition left
  | N_SUB => binary_handler BP_B13 O_Subtraction left
  | N_MUL => binary_handler BP_B14 O_Multiplication left
  | N_DIV => binary_handler BP_B14 O_Division left
  | N_REM => binary_handler BP_B14 O_Remainder left
  | N_EXPN => binary_handler BP_B15 O_Exponent left
  end.

(** ** expression.rs *)

Definition context_table (c : context) : list expr_handler :=
  match c with
  | CtxDefault => DEF_CONTEXT
  | CtxArray => ARRAY_CONTEXT
  | CtxCall => CALL_CONTEXT
  end.

(** [bound_expression] and [context_bound_expression], expression.rs:223-231. *)
Definition bound_handler (c : context) (v : view) : expr_handler :=
  nth (token_index (v_token v)) (context_table c) X_____.

(** [expression::<B>] and [expression_in_context::<B>], expression.rs:233-251. *)
Definition body_expression (c : context) (b : bp) : P expr_node :=
  v <- look ;;
  left <- call (F_expr_handler (bound_handler c v)) ;;
  call (F_nested b left).

(** A handler that makes a node of the current token and consumes it. *)
Definition token_expression (f : view -> expression) : P expr_node :=
  v <- look ;; consume_ ;;; Ret (in_loc v (f v)).

(** The expression handlers, expression.rs:98-219. *)
Definition body_expr_handler (h : expr_handler) : P expr_node :=
  match h with
  | X_____ =>
      loc <- get_start ;;
      error_ ;;;
      Ret (Node loc loc E_Void)
  | X_VOID => (* void_expression, expression.rs:464-467 *)
      loc <- get_start ;;
      Ret (Node loc loc E_Void)
  | X_OBJ => call F_object
  | X_CLAS => call F_class_expression
  | X_FUNC => call F_function_expression
  | X_IDEN => token_expression (fun v => E_Identifier (v_text v))
  | X_SPRD =>
      start <- start_then_consume ;;
      argument <- call (F_expression CtxDefault BP_B0) ;;
      Ret (Node start (n_end argument) (E_Spread argument))
  | X_THIS => token_expression (fun _ => E_This)
  | X_OP =>
      v <- look ;;
      match operator_from_token (v_token v) with
      | None => Abort   (* expect("Must be a prefix operator") *)
      | Some op =>
          consume_ ;;;
          e <- call (F_prefix op) ;;
          e_end <- get_end ;;
          Ret (Node (v_start v) e_end e)
      end
  | X_NEW =>
      v <- look ;;
      consume_ ;;;
      v' <- look ;;
      if is T_Accessor v' then
        let meta := in_loc v (bs "new") in
        e <- call (F_meta_property meta) ;;
        e_end <- end_then_consume ;;
        Ret (Node (v_start v) e_end e)
      else
        e <- call (F_prefix O_New) ;;
        e_end <- get_end ;;
        Ret (Node (v_start v) e_end e)
  | X_PRN => call F_paren
  | X_ARR => call F_array
  | X_REG => call F_regular_expression
  | X_TRUE => token_expression (fun _ => E_Literal L_True)
  | X_FALS => token_expression (fun _ => E_Literal L_False)
  | X_NULL => token_expression (fun _ => E_Literal L_Null)
  | X_UNDE => token_expression (fun _ => E_Literal L_Undefined)
  | X_STR => token_expression (fun v => E_Literal (L_String (v_text v)))
  | X_NUM => token_expression (fun v => E_Literal (L_Number (v_text v)))
  | X_BIN => token_expression (fun v => E_Literal (L_Binary (v_text v)))
  | X_TPLS => token_expression (fun v => E_Template (Template [] [in_loc v (v_quasi v)]))
  | X_TPLE =>
      t <- call F_template_literal ;;
      Ret (Node (n_start t) (n_end t) (E_Template (n_item t)))
  end.

(** [arrow_function_expression], expression.rs:253-266. *)
Definition body_arrow (params : list expr_node) : P expression :=
  ps <- call (F_params_from_expressions params) ;;
  v <- look ;;
  if is T_BraceOpen v then
    b <- call (F_unchecked_block I_Statement) ;;
    Ret (E_Arrow ps (AB_Block b))
  else
    e <- call (F_expression CtxDefault BP_B0) ;;
    Ret (E_Arrow ps (AB_Expression e)).

(** [call_arguments], expression.rs:268-302. *)
Definition body_call_arguments : P (list expr_node) :=
  v <- look ;;
  if is T_ParenClose v then Ret []
  else
    e <- call (F_expression CtxCall BP_B0) ;;
    es <- call F_call_arguments_rest ;;
    Ret (e :: es).

(** Its loop, expression.rs:277-298. *)
Definition body_call_arguments_rest : P (list expr_node) :=
  v <- look ;;
  if is T_ParenClose v then Ret []
  else if is T_Comma v then
    consume_ ;;;
    v' <- look ;;
    if is T_ParenClose v' then Ret []
    else
      e <- call (F_expression CtxCall BP_B0) ;;
      es <- call F_call_arguments_rest ;;
      Ret (e :: es)
  else error_ ;;; Ret [].

(** [paren_expression], expression.rs:304-323. *)
Definition body_paren : P expr_node :=
  start <- start_then_consume ;;
  v <- look ;;
  if is T_ParenClose v then
    consume_ ;;;
    expect T_OperatorFatArrow ;;;
    e <- call (F_arrow []) ;;
    e_end <- get_end ;;
    Ret (Node start e_end e)
  else
    e <- call (F_expression CtxDefault BP_ANY) ;;
    expect T_ParenClose ;;;
    Ret e.

(** [prefix_expression], expression.rs:325-333. *)
Definition body_prefix (op : operator) : P expression :=
  operand <- call (F_expression CtxDefault BP_B15) ;;
  Ret (E_Prefix op operand).

(** [object_expression], expression.rs:335-344. *)
Definition body_object : P expr_node :=
  start <- start_then_consume ;;
  b <- call F_property_list ;;
  e_end <- end_then_consume ;;
  Ret (Node start e_end (E_Object b)).

(** [meta_property_expression], expression.rs:346-362. *)
Definition body_meta_property (meta : node str) : P expression :=
  v <- look ;;
  (if str_eqb (v_accessor v) (bs "target") then Ret tt else error_) ;;;
  v' <- look ;;
  Ret (E_MetaProperty meta (in_loc v' (v_accessor v))).

(** [property_list], expression.rs:364-389, and its loop. *)
Definition body_property_list : P (list (node property)) :=
  v <- look ;;
  if is T_BraceClose v then Ret []
  else
    p <- call F_property ;;
    ps <- call F_property_list_rest ;;
    Ret (p :: ps).

Definition body_property_list_rest : P (list (node property)) :=
  v <- look ;;
  if is T_BraceClose v then Ret []
  else if is T_Comma v then
    consume_ ;;;
    v' <- look ;;
    if is T_BraceClose v' then Ret []
    else
      p <- call F_property ;;
      ps <- call F_property_list_rest ;;
      Ret (p :: ps)
  else error_ ;;; Ret [].

(** [property], expression.rs:391-452: the key. *)
Definition body_property : P (node property) :=
  v <- look ;;
  if is_word (v_token v) then
    consume_ ;;;
    v' <- look ;;
    if (is T_Colon v' || is T_ParenOpen v')%bool then
      call (F_property_value (v_start v) (in_loc v (Key_Literal (v_text v))))
    else Ret (in_loc v (P_Shorthand (v_text v)))
  else if is T_OperatorSpread v then
    consume_ ;;;
    argument <- call (F_expression CtxDefault BP_B0) ;;
    e_end <- get_end ;;
    Ret (Node (v_start v) e_end (P_Spread argument))
  else if (is T_LiteralString v || is T_LiteralNumber v)%bool then
    consume_ ;;;
    call (F_property_value (v_start v) (in_loc v (Key_Literal (v_text v))))
  else if is T_LiteralBinary v then
    consume_ ;;;
    call (F_property_value (v_start v) (in_loc v (Key_Binary (v_text v))))
  else if is T_BracketOpen v then
    consume_ ;;;
    e <- call (F_expression CtxDefault BP_ANY) ;;
    e_end <- get_end ;;
    expect T_BracketClose ;;;
    call (F_property_value (v_start v) (Node (v_start v) e_end (Key_Computed e)))
  else fail_with err_property.

(** [property], expression.rs:430-452: the value. *)
Definition body_property_value (start : N) (key : node property_key) : P (node property) :=
  v <- look ;;
  if is T_Colon v then
    consume_ ;;;
    value <- call (F_expression CtxDefault BP_B0) ;;
    Ret (Node start (n_end value) (P_Literal key value))
  else if is T_ParenOpen v then
    value <- call F_method ;;
    Ret (Node start (n_end value) (P_Method key value))
  else fail_with err_property.

(** [array_expression], expression.rs:454-461. *)
Definition body_array : P expr_node :=
  start <- start_then_consume ;;
  b <- call F_array_elements ;;
  e_end <- end_then_consume ;;
  Ret (Node start e_end (E_Array b)).

(** [array_elements] with [get = expression_in_context::<B0>(ARRAY_CONTEXT)],
    expression.rs:470-496, and its loop. *)
Definition body_array_elements : P (list expr_node) :=
  v <- look ;;
  if is T_BracketClose v then Ret []
  else
    e <- call (F_expression CtxArray BP_B0) ;;
    es <- call F_array_elements_rest ;;
    Ret (e :: es).

Definition body_array_elements_rest : P (list expr_node) :=
  v <- look ;;
  if is T_Comma v then
    consume_ ;;;
    e <- call (F_expression CtxArray BP_B0) ;;
    es <- call F_array_elements_rest ;;
    Ret (e :: es)
  else if is T_BracketClose v then Ret []
  else error_ ;;; Ret [].

(** [regular_expression], expression.rs:498-507. *)
Definition body_regular_expression : P expr_node :=
  start <- get_start ;;
  value <- read_regex ;;
  e_end <- get_end ;;
  expect T_LiteralRegEx ;;;
  Ret (Node start e_end (E_Literal (L_RegEx value))).

(** [template_string], expression.rs:509-523. *)
Definition body_template_string : P (node template) :=
  v <- look ;;
  consume_ ;;;
  Ret (in_loc v (Template [] [in_loc v (v_quasi v)])).

(** [template_literal], expression.rs:525-583. *)
Definition body_template_literal : P (node template) :=
  v <- look ;;
  consume_ ;;;
  e <- call (F_expression CtxDefault BP_ANY) ;;
  v' <- look ;;
  (if is T_BraceClose v' then read_template else error_) ;;;
  '(qs, es, e_end) <- call F_template_rest ;;
  Ret (Node (v_start v) e_end (Template (e :: es) (in_loc v (v_quasi v) :: qs))).

(** Its loop, expression.rs:545-577: further quasis and expressions, and [end]. *)
Definition body_template_rest : P (list (node str) * list expr_node * N) :=
  v <- look ;;
  if is T_TemplateOpen v then
    let q := in_loc v (v_quasi v) in
    consume_ ;;;
    e <- call (F_expression CtxDefault BP_ANY) ;;
    v' <- look ;;
    if is T_BraceClose v' then
      read_template ;;;
      '(qs, es, e_end) <- call F_template_rest ;;
      Ret (q :: qs, e :: es, e_end)
    else error_ ;;; Ret ([q], [e], v_end v')
  else if is T_TemplateClosed v then
    let q := in_loc v (v_quasi v) in
    e_end <- end_then_consume ;;
    Ret ([q], [], e_end)
  else error_ ;;; Ret ([], [], v_end v).

(** [function_expression], expression.rs:601-607. *)
Definition func_body_end (f : func) : N := match f with Func _ _ _ b => n_end b end.
Definition class_body_end (c : class) : N := match c with Class _ _ b => n_end b end.

Definition body_function_expression : P expr_node :=
  start <- start_then_consume ;;
  f <- call (F_function NK_Optional) ;;
  Ret (Node start (func_body_end f) (E_Function f)).

(** [class_expression], expression.rs:609-615. *)
Definition body_class_expression : P expr_node :=
  start <- start_then_consume ;;
  c <- call (F_class NK_Optional) ;;
  Ret (Node start (class_body_end c) (E_Class c)).

(** ** function.rs *)

(** [Parse for EmptyName / OptionalName / MandatoryName], function.rs:7-47. *)
Definition body_name (k : namekind) : P fname :=
  match k with
  | NK_Empty => Ret Name_Empty
  | NK_Optional =>
      v <- look ;;
      if is T_Identifier v then consume_ ;;; Ret (Name_Optional (Some (in_loc v (v_text v))))
      else Ret (Name_Optional None)
  | NK_Mandatory =>
      v <- look ;;
      if is T_Identifier v then consume_ ;;; Ret (Name_Mandatory (in_loc v (v_text v)))
      else fail_with (Name_Mandatory err_ident)
  end.

(** [Parse for Pattern], function.rs:49-61. *)
Definition body_pattern : P (node pattern) :=
  v <- look ;;
  if is T_Identifier v then pattern_identifier
  else if is T_BracketOpen v then call F_pattern_array
  else if is T_BraceOpen v then call F_pattern_object
  else fail_with err_pattern.

(** [Parse for Function<N>], function.rs:63-87. *)
Definition body_function (k : namekind) : P func :=
  v <- look ;;
  generator <- (if is T_OperatorMultiplication v then consume_ ;;; Ret true else Ret false) ;;
  name <- call (F_name k) ;;
  params <- call F_params ;;
  b <- call (F_block I_Statement) ;;
  Ret (Func name generator params b).

(** [Parse for Node<Function<N>>], function.rs:89-101 (used with [EmptyName]). *)
Definition body_method : P (node func) :=
  start <- get_start ;;
  f <- call (F_function NK_Empty) ;;
  Ret (Node start (func_body_end f) f).

(** [Parse for ClassMember], function.rs:103-197: the key. *)
Definition body_class_member : P (node class_member) :=
  start <- get_start ;;
  v0 <- look ;;
  is_static <- (if is T_Static v0 then consume_ ;;; Ret true else Ret false) ;;
  v <- look ;;
  if is_word (v_token v) then
    consume_ ;;;
    v' <- look ;;
    if is_word (v_token v') then
      if str_eqb (v_text v) (bs "get") then
        consume_ ;;;
        call (F_class_member_value start is_static MK_Get (in_loc v (Key_Literal (v_text v'))))
      else if str_eqb (v_text v) (bs "set") then
        consume_ ;;;
        call (F_class_member_value start is_static MK_Set (in_loc v (Key_Literal (v_text v'))))
      else fail_with err_member
    else
      let kind := if (negb is_static && str_eqb (v_text v) (bs "constructor"))%bool
                  then MK_Constructor else MK_Method in
      call (F_class_member_value start is_static kind (in_loc v (Key_Literal (v_text v))))
  else if is T_LiteralNumber v then
    consume_ ;;;
    call (F_class_member_value start is_static MK_Method (in_loc v (Key_Literal (v_text v))))
  else if is T_LiteralBinary v then
    consume_ ;;;
    call (F_class_member_value start is_static MK_Method (in_loc v (Key_Binary (v_text v))))
  else if is T_BracketOpen v then
    consume_ ;;;
    e <- call (F_expression CtxDefault BP_ANY) ;;
    token_end <- get_end ;;
    expect T_BracketClose ;;;
    call (F_class_member_value start is_static MK_Method
            (Node (v_start v) token_end (Key_Computed e)))
  else fail_with err_member.

(** [Parse for ClassMember], function.rs:159-196: the value. *)
Definition body_class_member_value (start : N) (is_static : bool) (kind : methodkind)
    (key : node property_key) : P (node class_member) :=
  v <- look ;;
  let finish (e_end : N) (m : class_member) : P (node class_member) :=
    v' <- look ;;
    (if is T_Semicolon v' then consume_ else Ret tt) ;;;
    Ret (Node start e_end m) in
  if is T_ParenOpen v then
    value <- call F_method ;;
    finish (n_end value) (CM_Method is_static key kind value)
  else if is T_OperatorAssign v then
    consume_ ;;;
    e <- call (F_expression CtxDefault BP_B0) ;;
    finish (n_end e) (CM_Literal is_static key e)
  else fail_with err_member.

(** [Parse for Class<N>], function.rs:199-223. *)
Definition body_class (k : namekind) : P class :=
  name <- call (F_name k) ;;
  v <- look ;;
  super <- (if is T_Extends v then
              consume_ ;;;
              e <- call (F_expression CtxDefault BP_B0) ;;
              Ret (Some e)
            else Ret None) ;;
  b <- call (F_block I_Member) ;;
  Ret (Class name super b).

(** [pattern_array], function.rs:240-249. *)
Definition body_pattern_array : P (node pattern) :=
  start <- start_then_consume ;;
  es <- call F_pattern_elements ;;
  e_end <- end_then_consume ;;
  Ret (Node start e_end (Pat_Array es)).

(** [pattern_object], function.rs:251-260. *)
Definition body_pattern_object : P (node pattern) :=
  start <- start_then_consume ;;
  ps <- call F_property_list ;;
  e_end <- end_then_consume ;;
  Ret (Node start e_end (Pat_Object ps)).

(** [pattern_assign], function.rs:262-278. *)
Definition body_pattern_assign (left : node pattern) : P (node pattern) :=
  v <- look ;;
  if is T_OperatorAssign v then
    consume_ ;;;
    right <- call (F_expression CtxDefault BP_B0) ;;
    Ret (Node (n_start left) (n_end right) (Pat_Assign left right))
  else Ret left.

(** [pattern_array_element], function.rs:280-291 (and [pattern_void], 226-229). *)
Definition body_pattern_array_element : P (node pattern) :=
  v <- look ;;
  if (is T_Comma v || is T_BracketClose v)%bool then
    Ret (Node (v_start v) (v_start v) Pat_Void)
  else
    left <- (if is T_Identifier v then pattern_identifier
             else if is T_BracketOpen v then call F_pattern_array
             else if is T_BraceOpen v then call F_pattern_object
             else fail_with err_pattern) ;;
    call (F_pattern_assign left).

(** [array_elements] with [get = pattern_array_element], expression.rs:470-496. *)
Definition body_pattern_elements : P (list (node pattern)) :=
  v <- look ;;
  if is T_BracketClose v then Ret []
  else
    e <- call F_pattern_array_element ;;
    es <- call F_pattern_elements_rest ;;
    Ret (e :: es).

Definition body_pattern_elements_rest : P (list (node pattern)) :=
  v <- look ;;
  if is T_Comma v then
    consume_ ;;;
    e <- call F_pattern_array_element ;;
    es <- call F_pattern_elements_rest ;;
    Ret (e :: es)
  else if is T_BracketClose v then Ret []
  else error_ ;;; Ret [].

(** [pattern_param], function.rs:293-303. *)
Definition body_pattern_param : P (node pattern) :=
  v <- look ;;
  left <- (if is T_Identifier v then pattern_identifier
           else if is T_BracketOpen v then call F_pattern_array
           else if is T_BraceOpen v then call F_pattern_object
           else fail_with err_pattern) ;;
  call (F_pattern_assign left).

(** [rest_element], function.rs:305-325. *)
Definition body_rest_element : P (node pattern) :=
  start <- start_then_consume ;;
  argument <- identifier_ ;;
  expect T_ParenClose ;;;
  Ret (Node start (n_end argument) (Pat_Rest argument)).

(** [params], function.rs:327-380, and its loop. *)
Definition body_params : P (list (node pattern)) :=
  expect T_ParenOpen ;;;
  v <- look ;;
  if is T_ParenClose v then consume_ ;;; Ret []
  else if is T_OperatorSpread v then
    r <- call F_rest_element ;; Ret [r]
  else
    p <- call F_pattern_param ;;
    ps <- call F_params_rest ;;
    Ret (p :: ps).

Definition body_params_rest : P (list (node pattern)) :=
  v <- look ;;
  if is T_Comma v then
    consume_ ;;;
    v' <- look ;;
    if is T_ParenClose v' then consume_ ;;; Ret []
    else if is T_OperatorSpread v' then
      r <- call F_rest_element ;; Ret [r]
    else
      p <- call F_pattern_param ;;
      ps <- call F_params_rest ;;
      Ret (p :: ps)
  else if is T_ParenClose v then consume_ ;;; Ret []
  else error_ ;;; Ret [].

(** ** statement.rs *)

(** [statement], statement.rs:167-170. *)
Definition statement_handler (v : view) : stmt_handler :=
  nth (token_index (v_token v)) STMT_HANDLERS S_____.

Definition body_statement : P stmt_node :=
  v <- look ;; call (F_stmt_handler (statement_handler v)).

(** An expression handler used as a statement handler, expression.rs:68-97. *)
Definition expression_handler_statement (h : expr_handler) : P stmt_node :=
  e <- call (F_expr_handler h) ;;
  call (F_expression_statement e).

(** The statement handlers, statement.rs:59-105. *)
Definition body_stmt_handler (h : stmt_handler) : P stmt_node :=
  match h with
  | S_____ =>
      loc <- get_start ;;
      error_ ;;;
      Ret (Node loc loc St_Empty)
  | S_EMPT => v <- look ;; consume_ ;;; Ret (in_loc v St_Empty)
  | S_DBGGR => v <- look ;; consume_ ;;; Ret (in_loc v St_Debugger)
  | S_BLCK => call F_block_statement
  | S_VAR => call (F_variable_declaration DK_Var)
  | S_LET => call (F_variable_declaration DK_Let)
  | S_CONS => call (F_variable_declaration DK_Const)
  | S_RET => call F_return
  | S_BRK => call F_break
  | S_THRW => call F_throw
  | S_CONT => call F_continue
  | S_FUNC => call F_function_statement
  | S_CLAS => call F_class_statement
  | S_IF => call F_if
  | S_WHL => call F_while
  | S_DO => call F_do
  | S_FOR => call F_for
  | S_TRY => call F_try
  | S_SWCH => call F_switch
  | S_LABL => call F_labeled_or_expression
  | S_IMPT => call F_import
  | S_PRN => expression_handler_statement X_PRN
  | S_ARR => expression_handler_statement X_ARR
  | S_OP => expression_handler_statement X_OP
  | S_NEW => expression_handler_statement X_NEW
  | S_REG => expression_handler_statement X_REG
  | S_THIS => expression_handler_statement X_THIS
  | S_TRUE => expression_handler_statement X_TRUE
  | S_FALS => expression_handler_statement X_FALS
  | S_NULL => expression_handler_statement X_NULL
  | S_UNDE => expression_handler_statement X_UNDE
  | S_STR => expression_handler_statement X_STR
  | S_NUM => expression_handler_statement X_NUM
  | S_BIN => expression_handler_statement X_BIN
  | S_TPLS => expression_handler_statement X_TPLS
  | S_TPLE => expression_handler_statement X_TPLE
  end.

(** [Parse for SwitchCase], statement.rs:116-164. *)
Definition body_switch_case : P (node switch_case) :=
  v <- look ;;
  test <- (if is T_Case v then
             consume_ ;;;
             e <- call (F_expression CtxDefault BP_ANY) ;;
             Ret (Some e)
           else if is T_Default v then consume_ ;;; Ret None
           else error_ ;;; Ret None) ;;
  e_end <- get_end ;;
  expect T_Colon ;;;
  '(consequent, e_end') <- call (F_case_body e_end) ;;
  Ret (Node (v_start v) e_end' (SwitchCase test consequent)).

(** Its loop, statement.rs:147-156.  [EndOfProgram] does not stop it. *)
Definition body_case_body (e : N) : P (list stmt_node * N) :=
  v <- look ;;
  if (is T_Case v || is T_Default v || is T_BraceClose v)%bool then Ret ([], e)
  else
    s <- call F_statement ;;
    '(ss, e') <- call (F_case_body (n_end s)) ;;
    Ret (s :: ss, e').

(** [expect_semicolon], statement.rs:174-181. *)
Definition body_expect_semicolon : P unit :=
  v <- look ;;
  match v_asi v with
  | ExplicitSemicolon => consume_
  | ImplicitSemicolon => Ret tt
  | NoSemicolon => error_
  end.

(** [block_statement], statement.rs:183-190. *)
Definition body_block_statement : P stmt_node :=
  start <- start_then_consume ;;
  b <- call (F_raw_block I_Statement) ;;
  e_end <- end_then_consume ;;
  Ret (Node start e_end (St_Block b)).

(** [expression_statement] and [wrap_expression], statement.rs:192-203. *)
Definition body_expression_statement (e : expr_node) : P stmt_node :=
  e' <- call (F_nested BP_ANY e) ;;
  call F_expect_semicolon ;;;
  Ret (Node (n_start e') (n_end e') (St_Expression e')).

(** [labeled_or_expression_statement], statement.rs:205-230. *)
Definition body_labeled_or_expression : P stmt_node :=
  v <- look ;;
  consume_ ;;;
  v' <- look ;;
  if is T_Colon v' then
    consume_ ;;;
    b <- call F_statement ;;
    Ret (Node (v_start v) (n_end b) (St_Labeled (v_text v) b))
  else
    e <- call (F_nested BP_ANY (in_loc v (E_Identifier (v_text v)))) ;;
    call F_expect_semicolon ;;;
    Ret (Node (v_start v) (n_end e) (St_Expression e)).

(** [function_statement], [class_statement], statement.rs:232-246. *)
Definition body_function_statement : P stmt_node :=
  start <- start_then_consume ;;
  f <- call (F_function NK_Mandatory) ;;
  Ret (Node start (func_body_end f) (St_Function f)).

Definition body_class_statement : P stmt_node :=
  start <- start_then_consume ;;
  c <- call (F_class NK_Mandatory) ;;
  Ret (Node start (class_body_end c) (St_Class c)).

(** [variable_declaration_statement], statement.rs:248-261. *)
Definition body_variable_declaration (k : declkind) : P stmt_node :=
  start <- start_then_consume ;;
  ds <- call F_declarators ;;
  e_end <- get_end ;;
  call F_expect_semicolon ;;;
  Ret (Node start e_end (St_Declaration k ds)).

(** [variable_declarator], statement.rs:263-281. *)
Definition body_declarator : P (node declarator) :=
  id <- call F_pattern ;;
  v <- look ;;
  if is T_OperatorAssign v then
    consume_ ;;;
    init <- call (F_expression CtxDefault BP_B0) ;;
    Ret (Node (n_start id) (n_end init) (Declarator id (Some init)))
  else Ret (Node (n_start id) (n_end id) (Declarator id None)).

(** [variable_declarators], statement.rs:283-301: the first declarator and the
    loop do the same thing, so both are this method calling itself. *)
Definition body_declarators : P (list (node declarator)) :=
  d <- call F_declarator ;;
  v <- look ;;
  if is T_Comma v then
    consume_ ;;;
    ds <- call F_declarators ;;
    Ret (d :: ds)
  else Ret [d].

(** [return_statement], statement.rs:303-327. *)
Definition body_return : P stmt_node :=
  v <- look ;;
  consume_ ;;;
  v' <- look ;;
  match v_asi v' with
  | NoSemicolon =>
      e <- call (F_expression CtxDefault BP_ANY) ;;
      call F_expect_semicolon ;;;
      Ret (Node (v_start v) (n_end e) (St_Return (Some e)))
  | ImplicitSemicolon => Ret (in_loc v (St_Return None))
  | ExplicitSemicolon => consume_ ;;; Ret (in_loc v (St_Return None))
  end.

(** The label part shared by [break_statement] (statement.rs:329-352) and
    [continue_statement] (354-377): the label and its end, if there is one. *)
Definition body_label : P (option (node str) * option N) :=
  v <- look ;;
  match v_asi v with
  | ExplicitSemicolon => consume_ ;;; Ret (None, None)
  | ImplicitSemicolon => Ret (None, None)
  | NoSemicolon =>
      l <- identifier_ ;;
      call F_expect_semicolon ;;;
      Ret (Some l, Some (n_end l))
  end.

Definition jump_statement (mk : option (node str) -> statement) : P stmt_node :=
  v <- look ;;
  consume_ ;;;
  '(l, e) <- call F_label ;;
  Ret (Node (v_start v) (match e with Some e => e | None => v_end v end) (mk l)).
Definition body_break : P stmt_node := jump_statement St_Break.
Definition body_continue : P stmt_node := jump_statement St_Continue.

(** [throw_statement], statement.rs:379-387. *)
Definition body_throw : P stmt_node :=
  start <- start_then_consume ;;
  e <- call (F_expression CtxDefault BP_ANY) ;;
  call F_expect_semicolon ;;;
  Ret (Node start (n_end e) (St_Throw e)).

(** [try_statement], statement.rs:389-436; [F_catch] is the catch clause. *)
Definition body_catch : P (node catch_clause) :=
  start <- start_then_consume ;;
  expect T_ParenOpen ;;;
  param <- call F_pattern ;;
  expect T_ParenClose ;;;
  b <- call (F_block I_Statement) ;;
  Ret (Node start (n_end b) (CatchClause param b)).

Definition body_try : P stmt_node :=
  start <- start_then_consume ;;
  b <- call (F_block I_Statement) ;;
  v <- look ;;
  if is T_Catch v then
    h <- call F_catch ;;
    v' <- look ;;
    if is T_Finally v' then
      consume_ ;;;
      f <- call (F_block I_Statement) ;;
      Ret (Node start (n_end f) (St_Try b (Some h) (Some f)))
    else Ret (Node start (n_end h) (St_Try b (Some h) None))
  else if is T_Finally v then
    consume_ ;;;
    f <- call (F_block I_Statement) ;;
    Ret (Node start (n_end f) (St_Try b None (Some f)))
  else error_ ;;; Ret (Node start (n_end b) (St_Try b None None)).

(** [if_statement], statement.rs:438-461. *)
Definition body_if : P stmt_node :=
  start <- start_then_consume ;;
  expect T_ParenOpen ;;;
  test <- call (F_expression CtxDefault BP_ANY) ;;
  expect T_ParenClose ;;;
  c <- call F_statement ;;
  v <- look ;;
  if is T_Else v then
    consume_ ;;;
    a <- call F_statement ;;
    Ret (Node start (n_end a) (St_If test c (Some a)))
  else Ret (Node start (n_end c) (St_If test c None)).

(** [while_statement], statement.rs:463-476. *)
Definition body_while : P stmt_node :=
  start <- start_then_consume ;;
  expect T_ParenOpen ;;;
  test <- call (F_expression CtxDefault BP_ANY) ;;
  expect T_ParenClose ;;;
  b <- call F_statement ;;
  Ret (Node start (n_end b) (St_While test b)).

(** [do_statement], statement.rs:478-492. *)
Definition body_do : P stmt_node :=
  start <- start_then_consume ;;
  b <- call F_statement ;;
  expect T_While ;;;
  expect T_ParenOpen ;;;
  test <- call (F_expression CtxDefault BP_ANY) ;;
  e_end <- get_end ;;
  expect T_ParenClose ;;;
  Ret (Node start e_end (St_Do b test)).

(** [for_init], statement.rs:494-504. *)
Definition body_for_init (k : declkind) : P (node for_init) :=
  start <- start_then_consume ;;
  ds <- call F_declarators ;;
  e_end <- get_end ;;
  Ret (Node start e_end (FI_Declaration k ds)).

(** [for_statement], statement.rs:506-583: up to the initialiser. *)
Definition body_for : P stmt_node :=
  start <- start_then_consume ;;
  expect T_ParenOpen ;;;
  v <- look ;;
  if is T_Semicolon v then consume_ ;;; call (F_for_rest start None)
  else if is T_DeclarationVar v then
    i <- call (F_for_init DK_Var) ;; call (F_for_rest start (Some i))
  else if is T_DeclarationLet v then
    i <- call (F_for_init DK_Let) ;; call (F_for_rest start (Some i))
  else if is T_DeclarationConst v then
    i <- call (F_for_init DK_Const) ;; call (F_for_rest start (Some i))
  else
    e <- call (F_expression CtxDefault BP_ANY) ;;
    match n_item e with
    | E_Binary O_In l r =>
        call (F_for_in_from_parts start (Node (n_start l) (n_end l) (FI_Expression l)) r)
    | _ => call (F_for_rest start (Some (Node (n_start e) (n_end e) (FI_Expression e))))
    end.

(** [for_statement], statement.rs:535-582: after the initialiser. *)
Definition body_for_rest (start : N) (init : option (node for_init)) : P stmt_node :=
  let tail : P stmt_node :=
    v <- look ;;
    test <- (if is T_Semicolon v then consume_ ;;; Ret None
             else
               e <- call (F_expression CtxDefault BP_ANY) ;;
               expect T_Semicolon ;;;
               Ret (Some e)) ;;
    v' <- look ;;
    update <- (if is T_ParenClose v' then consume_ ;;; Ret None
               else
                 e <- call (F_expression CtxDefault BP_ANY) ;;
                 expect T_ParenClose ;;;
                 Ret (Some e)) ;;
    b <- call F_statement ;;
    Ret (Node start (n_end b) (St_For init test update b)) in
  match init with
  | None => tail
  | Some i =>
      v <- look ;;
      if is T_OperatorIn v then consume_ ;;; call (F_for_in start i)
      else if (is T_Identifier v && str_eqb (v_text v) (bs "of"))%bool then
        consume_ ;;; call (F_for_of start i)
      else expect T_Semicolon ;;; tail
  end.

(** statement.rs:585-595. *)
Definition body_for_in_from_parts (start : N) (left : node for_init) (right : expr_node) : P stmt_node :=
  expect T_ParenClose ;;;
  b <- call F_statement ;;
  Ret (Node start (n_end b) (St_ForIn left right b)).

(** [for_in_statement], statement.rs:597-609; [for_of_statement], 611-623. *)
Definition body_for_in (start : N) (left : node for_init) : P stmt_node :=
  right <- call (F_expression CtxDefault BP_ANY) ;;
  expect T_ParenClose ;;;
  b <- call F_statement ;;
  Ret (Node start (n_end b) (St_ForIn left right b)).

Definition body_for_of (start : N) (left : node for_init) : P stmt_node :=
  right <- call (F_expression CtxDefault BP_ANY) ;;
  expect T_ParenClose ;;;
  b <- call F_statement ;;
  Ret (Node start (n_end b) (St_ForOf left right b)).

(** [switch_statement], statement.rs:625-639. *)
Definition body_switch : P stmt_node :=
  start <- start_then_consume ;;
  expect T_ParenOpen ;;;
  d <- call (F_expression CtxDefault BP_ANY) ;;
  expect T_ParenClose ;;;
  cs <- call (F_block I_Case) ;;
  Ret (Node start (n_end cs) (St_Switch d cs)).

(** [&str_ltr[1..str_ltr.len() - 1]], statement.rs:671 and 746. *)
Definition unquote (s : str) : P str :=
  if Nat.leb 2 (List.length s) then Ret (firstn (List.length s - 2) (tl s)) else Abort.

(** [import_declaration], statement.rs:641-758: up to the default specifier. *)
Definition body_import : P stmt_node :=
  v <- look ;;
  consume_ ;;;
  v1 <- look ;;
  if (is T_Comma v1 || is T_ParenOpen v1)%bool then
    e <- call (F_nested BP_ANY (in_loc v (E_Identifier (v_text v)))) ;;
    call F_expect_semicolon ;;;
    Ret (Node (v_start v) (n_end e) (St_Expression e))
  else if is T_Identifier v1 then
    id <- identifier_ ;;
    v2 <- look ;;
    let spec := Node (v_start v1) (v_end v2) (IS_Default id) in
    if is T_Comma v2 then consume_ ;;; call (F_import_rest (v_start v) [spec] true)
    else call (F_import_rest (v_start v) [spec] false)
  else if is T_LiteralString v1 then
    source <- unquote (v_text v1) ;;
    consume_ ;;;
    Ret (in_loc v1 (St_Import [] source))
  else call (F_import_rest (v_start v) [] true).

(** statement.rs:680-757: the other specifiers and the source. *)
Definition body_import_rest (start : N) (specs : list (node import_specifier)) (has_next : bool)
    : P stmt_node :=
  more <- (if has_next then
             v <- look ;;
             if is T_BraceOpen v then consume_ ;;; call F_import_specifiers
             else if is T_OperatorMultiplication v then
               consume_ ;;;
               v1 <- look ;;
               (if (is T_Identifier v1 && str_eqb (v_text v1) (bs "as"))%bool
                then consume_ else error_) ;;;
               local <- identifier_ ;;
               e_end <- get_end ;;
               Ret [Node (v_start v) e_end (IS_Namespace local)]
             else error_ ;;; Ret []
           else Ret []) ;;
  v <- look ;;
  (if (is T_Identifier v && str_eqb (v_text v) (bs "from"))%bool then consume_ else error_) ;;;
  v' <- look ;;
  source <- (if is T_LiteralString v' then unquote (v_text v')
             else error_ ;;; Ret []) ;;
  e_end <- end_then_consume ;;
  Ret (Node start e_end (St_Import (specs ++ more) source)).

(** The loop over the named specifiers, statement.rs:683-722. *)
Definition body_import_specifiers : P (list (node import_specifier)) :=
  v <- look ;;
  if is T_Identifier v then
    name <- identifier_ ;;
    v1 <- look ;;
    local <- (if (is T_Identifier v1 && str_eqb (v_text v1) (bs "as"))%bool
              then consume_ ;;; identifier_
              else Ret name) ;;
    v2 <- look ;;
    let spec := Node (v_start v) (v_end v2) (IS_Named name local) in
    if is T_Comma v2 then
      consume_ ;;; rest <- call F_import_specifiers ;; Ret (spec :: rest)
    else if is T_BraceClose v2 then consume_ ;;; Ret [spec]
    else error_ ;;; rest <- call F_import_specifiers ;; Ret (spec :: rest)
  else error_ ;;; Ret [].

(** ** The whole parser *)

Definition body (R : Set) (f : fn R) : P R :=
  match f in fn R return P R with
  | F_parse => body_parse
  | F_block i => body_block i
  | F_unchecked_block i => body_unchecked_block i
  | F_raw_block i => body_raw_block i
  | F_items i => body_items i
  | F_item i => body_item i
  | F_pattern_from_expression e => body_pattern_from_expression e
  | F_params_from_expressions es => body_params_from_expressions es
  | F_nested b l => body_nested b l
  | F_nested_handler h l => body_nested_handler h l
  | F_sequence => body_sequence
  | F_expr_handler h => body_expr_handler h
  | F_expression c b => body_expression c b
  | F_arrow ps => body_arrow ps
  | F_call_arguments => body_call_arguments
  | F_call_arguments_rest => body_call_arguments_rest
  | F_paren => body_paren
  | F_prefix op => body_prefix op
  | F_object => body_object
  | F_meta_property m => body_meta_property m
  | F_property_list => body_property_list
  | F_property_list_rest => body_property_list_rest
  | F_property => body_property
  | F_property_value s k => body_property_value s k
  | F_array => body_array
  | F_array_elements => body_array_elements
  | F_array_elements_rest => body_array_elements_rest
  | F_regular_expression => body_regular_expression
  | F_template_string => body_template_string
  | F_template_literal => body_template_literal
  | F_template_rest => body_template_rest
  | F_function_expression => body_function_expression
  | F_class_expression => body_class_expression
  | F_name k => body_name k
  | F_pattern => body_pattern
  | F_function k => body_function k
  | F_method => body_method
  | F_class_member => body_class_member
  | F_class_member_value s st k key => body_class_member_value s st k key
  | F_class k => body_class k
  | F_pattern_array => body_pattern_array
  | F_pattern_object => body_pattern_object
  | F_pattern_assign l => body_pattern_assign l
  | F_pattern_array_element => body_pattern_array_element
  | F_pattern_elements => body_pattern_elements
  | F_pattern_elements_rest => body_pattern_elements_rest
  | F_pattern_param => body_pattern_param
  | F_rest_element => body_rest_element
  | F_params => body_params
  | F_params_rest => body_params_rest
  | F_stmt_handler h => body_stmt_handler h
  | F_switch_case => body_switch_case
  | F_case_body e => body_case_body e
  | F_statement => body_statement
  | F_expect_semicolon => body_expect_semicolon
  | F_block_statement => body_block_statement
  | F_expression_statement e => body_expression_statement e
  | F_labeled_or_expression => body_labeled_or_expression
  | F_function_statement => body_function_statement
  | F_class_statement => body_class_statement
  | F_variable_declaration k => body_variable_declaration k
  | F_declarator => body_declarator
  | F_declarators => body_declarators
  | F_return => body_return
  | F_break => body_break
  | F_continue => body_continue
  | F_label => body_label
  | F_throw => body_throw
  | F_try => body_try
  | F_catch => body_catch
  | F_if => body_if
  | F_while => body_while
  | F_do => body_do
  | F_for_init k => body_for_init k
  | F_for => body_for
  | F_for_rest s i => body_for_rest s i
  | F_for_in_from_parts s l r => body_for_in_from_parts s l r
  | F_for_in s l => body_for_in s l
  | F_for_of s l => body_for_of s l
  | F_switch => body_switch
  | F_import => body_import
  | F_import_rest s sp h => body_import_rest s sp h
  | F_import_specifiers => body_import_specifiers
  end.

(** [Result<Module, Vec<Error>>]. *)
Inductive parse_result : Set :=
| ParseOk (m : module)
| ParseErr (errors : list error).

(** [parse], mod.rs:217-233, with call depth bounded by [n]. *)
Definition parse_fuel (alnum : N -> bool) (n : nat) (src : str) : outcome parse_result :=
  lx <~ lexer_new alnum src ;;
  '(m, s) <~ run alnum body n (body _ F_parse) (PState lx []) ;;
  Done (match p_errors s with
        | [] => ParseOk m
        | errs => ParseErr errs
        end).

(** [parse src] returns [r]. *)
Definition parses_to (alnum : N -> bool) (src : str) (r : parse_result) : Prop :=
  exists n, parse_fuel alnum n src = Done r.
