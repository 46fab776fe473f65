(** A grammar of trees that the code generator always prints so that they can be
    read back (C03, C41, C45): expressions built with every operator except [**],
    names, literals other than regular expressions, arrays, member accesses,
    calls, templates; and the usual statements over them.  The side conditions
    exclude the places where the generator leaves out a parenthesis or a space
    that is needed (see [C04_round_trip_refuted]). *)
From Coq Require Import List NArith Bool String.
From Coq.Strings Require Import Byte.
From Verif Require Import Bytes Token SpecTokens SpecChunks SpecTree SpecPrec Ast Codegen SpecRound.
Import ListNotations.
Open Scope nat_scope.
Open Scope list_scope.

(** Everything that needs no parentheses anywhere. *)
Definition primary (e : expression) : bool :=
  match e with
  | E_This | E_Identifier _ | E_Literal _ | E_Array _ | E_Member _ _ | E_ComputedMember _ _ | E_Call _ _ | E_Template _ => true
  | _ => false
  end.
Definition is_sequence (e : expression) : bool := match e with E_Sequence _ => true | _ => false end.
Definition is_prefix (e : expression) : bool := match e with E_Prefix _ _ => true | _ => false end.
Definition is_postfix (e : expression) : bool := match e with E_Postfix _ _ => true | _ => false end.
Definition is_conditional (e : expression) : bool := match e with E_Conditional _ _ _ => true | _ => false end.
Definition is_assignment (e : expression) : Prop := match e with E_Binary op _ _ => In op assignment_operators | _ => False end.
(** The text starts with a prefix operator. *)
Definition starts_prefixed (e : expression) : bool := is_prefix (leftmost e).
Definition other_operators : list operator :=
  [O_Multiplication; O_Division; O_Remainder; O_Addition; O_Subtraction; O_BitShiftLeft; O_BitShiftRight; O_UBitShiftRight;
   O_Lesser; O_LesserEquals; O_Greater; O_GreaterEquals; O_Instanceof; O_In; O_StrictEquality; O_StrictInequality;
   O_Equality; O_Inequality; O_BitwiseAnd; O_BitwiseXor; O_BitwiseOr; O_LogicalAnd; O_LogicalOr].
Definition signs : list operator := [O_Addition; O_Subtraction; O_Increment; O_Decrement].

Section Plain.
(** Which characters outside ASCII are alphanumeric. *)
Variable alnum : N -> bool.

Inductive plain : expression -> Prop :=
| plain_this : plain E_This
| plain_identifier s : identifier_name alnum s -> plain (E_Identifier s)
| plain_literal l : literal_fits l -> (forall s, l <> L_RegEx s) -> plain (E_Literal l)
| plain_array es : plain_list es -> plain (E_Array es)
| plain_member o p : plain (n_item o) -> ~ number_literal (n_item o) -> ascii_word (n_item p) -> plain (E_Member o p)
| plain_index o p : plain (n_item o) -> plain (n_item p) -> plain (E_ComputedMember o p)
| plain_call f args : plain (n_item f) -> primary (n_item f) = true -> plain_list args -> plain (E_Call f args)
| plain_template es qs : plain_list es -> List.length qs = S (List.length es) ->
    Forall (fun q => template_inside (n_item q)) qs -> plain (E_Template (Template es qs))
| plain_binary op l r : In op other_operators -> plain (n_item l) -> plain (n_item r) ->
    (In op signs -> starts_prefixed (n_item r) = true -> is_prefix (n_item r) = true \/ expression_bp (n_item r) <= operator_bp op) ->
    plain (E_Binary op l r)
| plain_assignment op l r : In op assignment_operators -> is_lvalue (n_item l) = true ->
    plain (n_item l) -> plain (n_item r) -> plain (E_Binary op l r)
| plain_prefix op x : In op prefix_operators -> plain (n_item x) ->
    (primary (n_item x) = true \/ is_postfix (n_item x) = true \/ (is_prefix (n_item x) = true /\ ~ In op signs)) ->
    plain (E_Prefix op x)
| plain_postfix op x : In op postfix_operators -> is_lvalue (n_item x) = true -> plain (n_item x) -> plain (E_Postfix op x)
| plain_conditional t c a : plain (n_item t) -> plain (n_item c) -> plain (n_item a) ->
    is_sequence (n_item t) = false -> is_conditional (n_item t) = false -> ~ is_assignment (n_item t) ->
    is_sequence (n_item c) = false -> is_sequence (n_item a) = false -> plain (E_Conditional t c a)
| plain_sequence es : 2 <= List.length es -> plain_list es -> plain (E_Sequence es)
(** Between commas: no sequences. *)
with plain_list : list (node expression) -> Prop :=
| plain_nil : plain_list []
| plain_cons x es : plain (n_item x) -> is_sequence (n_item x) = false -> plain_list es -> plain_list (x :: es).

Definition plain_option (o : option (node expression)) : Prop := match o with Some e => plain (n_item e) | None => True end.
Definition plain_label (o : option (node str)) : Prop := match o with Some l => identifier_name alnum (n_item l) | None => True end.
(** [x] or [x = e]. *)
Definition plain_declarator (d : node declarator) : Prop :=
  match n_item d with
  | Declarator p i =>
      (exists s, n_item p = Pat_Identifier s /\ identifier_name alnum s) /\
      match i with Some e => plain (n_item e) /\ is_sequence (n_item e) = false | None => True end
  end.
Definition plain_param (p : node pattern) : Prop :=
  exists s, n_item p = Pat_Identifier s /\ identifier_name alnum s.

Inductive plain_statement : statement -> Prop :=
| plain_expression e : plain (n_item e) -> plain_statement (St_Expression e)
| plain_declaration k ds : ds <> [] -> Forall plain_declarator ds -> plain_statement (St_Declaration k ds)
| plain_return e : plain_option e -> plain_statement (St_Return e)
| plain_throw e : plain (n_item e) -> plain_statement (St_Throw e)
| plain_break l : plain_label l -> plain_statement (St_Break l)
| plain_continue l : plain_label l -> plain_statement (St_Continue l)
| plain_if t c : plain (n_item t) -> plain_statement (n_item c) -> plain_statement (St_If t c None)
| plain_if_else t c a : plain (n_item t) -> plain_statement (n_item c) -> plain_statement (n_item a) ->
    open_if (n_item c) = false -> plain_statement (St_If t c (Some a))
| plain_while t b : plain (n_item t) -> plain_statement (n_item b) -> plain_statement (St_While t b)
| plain_do b t : plain_statement (n_item b) -> plain (n_item t) -> plain_statement (St_Do b t)
| plain_for t u b : plain_option t -> plain_option u -> plain_statement (n_item b) -> plain_statement (St_For None t u b)
| plain_for_var i k ds t u b : n_item i = FI_Declaration k ds -> ds <> [] -> Forall plain_declarator ds ->
    plain_option t -> plain_option u -> plain_statement (n_item b) -> plain_statement (St_For (Some i) t u b)
| plain_for_expression i e t u b : n_item i = FI_Expression e -> plain (n_item e) -> is_in (n_item e) = false ->
    plain_option t -> plain_option u -> plain_statement (n_item b) -> plain_statement (St_For (Some i) t u b)
| plain_for_in i k p r b : n_item i = FI_Declaration k [p] ->
    (exists x s, n_item p = Declarator x None /\ n_item x = Pat_Identifier s /\ identifier_name alnum s) ->
    plain (n_item r) -> plain_statement (n_item b) -> plain_statement (St_ForIn i r b)
| plain_for_of i k p r b : n_item i = FI_Declaration k [p] ->
    (exists x s, n_item p = Declarator x None /\ n_item x = Pat_Identifier s /\ identifier_name alnum s) ->
    plain (n_item r) -> plain_statement (n_item b) -> plain_statement (St_ForOf i r b)
| plain_block b : plain_statements (b_body b) -> plain_statement (St_Block b)
| plain_labeled l b : identifier_name alnum l -> plain_statement (n_item b) -> plain_statement (St_Labeled l b)
| plain_function f ps b : identifier_name alnum (n_item f) -> Forall plain_param ps -> plain_statements (b_body (n_item b)) ->
    plain_statement (St_Function (Func (Name_Mandatory f) false ps b))
| plain_try b c h p : n_item h = CatchClause p c -> plain_param p ->
    plain_statements (b_body (n_item b)) -> plain_statements (b_body (n_item c)) -> plain_statement (St_Try b (Some h) None)
| plain_switch d cs : plain (n_item d) -> plain_cases (b_body (n_item cs)) -> plain_statement (St_Switch d cs)
with plain_statements : list (node statement) -> Prop :=
| plain_none : plain_statements []
| plain_more s ss : plain_statement (n_item s) -> plain_statements ss -> plain_statements (s :: ss)
with plain_cases : list (node switch_case) -> Prop :=
| plain_no_case : plain_cases []
| plain_case c t b cs : n_item c = SwitchCase t b -> plain_option t -> plain_statements b -> plain_cases cs -> plain_cases (c :: cs).
End Plain.
