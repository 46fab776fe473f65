(** Vocabulary for the JSON of a module (PropJson.v): the ESTree type of each
    node, the parts of a JSON value.  Only the type of JSON values is taken from
    the serialiser (Astgen.v). *)
From Coq Require Import List NArith Bool String.
From Coq.Strings Require Import Byte.
From Verif Require Import Bytes Token Lexer Ast Astgen SpecTree SpecPos.
Import ListNotations.
Open Scope list_scope.

(** [x] is [y] or a part of it. *)
Inductive part_of (x : json) : json -> Prop :=
| part_refl : part_of x x
| part_elem l y : In y l -> part_of x y -> part_of x (J_Arr l)
| part_field fs k y : In (k, y) fs -> part_of x y -> part_of x (J_Obj fs).

(** An ESTree node of type [ty]: an object whose first field is its type. *)
Definition estree_node (ty : str) (fields : list (str * json)) (x : json) : Prop :=
  x = J_Obj ((bs "type", J_Str ty) :: fields).
(** Its offsets are those of a part of a source of [len] bytes. *)
Definition offsets_in (len : N) (x : json) : Prop :=
  forall ty fields, estree_node ty fields x ->
    exists st en, In (bs "start", J_Int st) fields /\ In (bs "end", J_Int en) fields /\ (st <= en <= len)%N.

(** ** Types and texts *)
Local Open Scope string_scope.
Definition unary : list operator :=
  [O_Typeof; O_Void; O_Delete; O_Subtraction; O_Addition; O_LogicalNot; O_BitwiseNot].
Definition update : list operator := [O_Increment; O_Decrement].
Definition logical : list operator := [O_LogicalAnd; O_LogicalOr].
Definition op_in (op : operator) (l : list operator) : bool := existsb (fun o => if operator_eq_dec op o then true else false) l.
Definition function_type (n : fname) : string :=
  match n with Name_Mandatory _ => "FunctionDeclaration" | _ => "FunctionExpression" end.
Definition class_type (n : fname) : string :=
  match n with Name_Mandatory _ => "ClassDeclaration" | _ => "ClassExpression" end.
Definition expression_estree (e : expression) : option string :=
  match e with
  | E_Void => None
  | E_This => Some "ThisExpression"
  | E_Identifier _ => Some "Identifier"
  | E_Literal _ => Some "Literal"
  | E_Sequence _ => Some "SequenceExpression"
  | E_Array _ => Some "ArrayExpression"
  | E_Member _ _ | E_ComputedMember _ _ => Some "MemberExpression"
  | E_MetaProperty _ _ => Some "MetaProperty"
  | E_Call _ _ => Some "CallExpression"
  | E_Binary op _ _ =>
      Some (if op_in op assignment_operators then "AssignmentExpression"
            else if op_in op logical then "LogicalExpression" else "BinaryExpression")
  | E_Prefix op _ =>
      Some (if op_in op update then "UpdateExpression"
            else if op_in op unary then "UnaryExpression" else "NewExpression")
  | E_Postfix _ _ => Some "UpdateExpression"
  | E_Conditional _ _ _ => Some "ConditionalExpression"
  | E_Template _ => Some "TemplateLiteral"
  | E_TaggedTemplate _ _ => Some "TaggedTemplateExpression"
  | E_Spread _ => Some "SpreadElement"
  | E_Arrow _ _ => Some "ArrowFunctionExpression"
  | E_Object _ => Some "ObjectExpression"
  | E_Function (Func n _ _ _) => Some (function_type n)
  | E_Class (Class n _ _) => Some (class_type n)
  end.
Definition statement_estree (s : statement) : string :=
  match s with
  | St_Empty => "EmptyStatement"
  | St_Debugger => "DebuggerStatement"
  | St_Expression _ => "ExpressionStatement"
  | St_Declaration _ _ => "VariableDeclaration"
  | St_Return _ => "ReturnStatement"
  | St_Break _ => "BreakStatement"
  | St_Continue _ => "ContinueStatement"
  | St_Throw _ => "ThrowStatement"
  | St_If _ _ _ => "IfStatement"
  | St_While _ _ => "WhileStatement"
  | St_Do _ _ => "DoWhileStatement"
  | St_For _ _ _ _ => "ForStatement"
  | St_ForIn _ _ _ => "ForInStatement"
  | St_ForOf _ _ _ => "ForOfStatement"
  | St_Try _ _ _ => "TryStatement"
  | St_Block _ => "BlockStatement"
  | St_Labeled _ _ => "LabeledStatement"
  | St_Function (Func n _ _ _) => function_type n
  | St_Class (Class n _ _) => class_type n
  | St_Switch _ _ => "SwitchStatement"
  | St_Import _ _ => "ImportDeclaration"
  end.
(** The ESTree type of a node; [None]: the node has no object of its own. *)
Definition estree_type (a : any) : option string :=
  match a with
  | A_Ident _ => Some "Identifier"
  | A_Expr n => expression_estree (n_item n)
  | A_Tpl _ => Some "TemplateLiteral"
  | A_Prop n =>
      match n_item n with
      | P_Shorthand _ => Some "Identifier" | P_Literal _ _ | P_Method _ _ => Some "Property"
      | P_Spread _ => Some "SpreadProperty"
      end
  | A_Key n => match n_item n with Key_Computed _ => None | _ => Some "Identifier" end
  | A_Pat n =>
      match n_item n with
      | Pat_Void => None | Pat_Identifier _ => Some "Identifier" | Pat_Object _ => Some "ObjectPattern"
      | Pat_Array _ => Some "ArrayPattern" | Pat_Rest _ => Some "RestElement" | Pat_Assign _ _ => Some "AssignmentPattern"
      end
  | A_Func n => match n_item n with Func f _ _ _ => Some (function_type f) end
  | A_Member _ => Some "MethodDefinition"
  | A_Body _ => Some "BlockStatement"
  | A_ClassBody _ => Some "ClassBody"
  | A_Cases _ => None
  | A_Stmt n => Some (statement_estree (n_item n))
  | A_Declarator _ => Some "VariableDeclarator"
  | A_ForInit n => match n_item n with FI_Declaration _ _ => Some "VariableDeclaration" | FI_Expression _ => None end
  | A_Case _ => Some "SwitchCase"
  | A_Catch _ => Some "CatchClause"
  | A_Spec n =>
      Some match n_item n with
           | IS_Named _ _ => "ImportSpecifier" | IS_Default _ => "ImportDefaultSpecifier" | IS_Namespace _ => "ImportNamespaceSpecifier"
           end
  end.
(** The texts that make a node what it is: the name, the operator, the raw text of a literal. *)
Definition estree_texts (a : any) : list (string * str) :=
  match a with
  | A_Ident n => [("name", n_item n)]
  | A_Expr n =>
      match n_item n with
      | E_Identifier s => [("name", s)]
      | E_Literal (L_Number s) | E_Literal (L_Binary s) | E_Literal (L_String s) | E_Literal (L_RegEx s) => [("raw", s)]
      | E_Binary op _ _ | E_Postfix op _ => [("operator", operator_str op)]
      | E_Prefix op _ => match op with O_New => [] | _ => [("operator", operator_str op)] end
      | _ => []
      end
  | A_Prop n => match n_item n with P_Shorthand s => [("name", s)] | _ => [] end
  | A_Key n => match n_item n with Key_Computed _ => [] | Key_Literal s | Key_Binary s => [("name", s)] end
  | A_Pat n => match n_item n with Pat_Identifier s => [("name", s)] | _ => [] end
  | A_Stmt n => match n_item n with St_Labeled s _ => [("label", s)] | St_Import _ s => [("source", s)] | _ => [] end
  | _ => []
  end.
Local Close Scope string_scope.

(** [x] is an object for the node [a]: its type, its offsets, its texts. *)
Definition object_of (a : any) (x : json) : Prop :=
  exists ty fields, estree_type a = Some ty /\ estree_node (bs ty) fields x /\
    In (bs "start", J_Int (start_of a)) fields /\ In (bs "end", J_Int (end_of a)) fields /\
    forall k s, In (k, s) (estree_texts a) -> In (bs k, J_Str s) fields.

(** Nodes that have no object because their parent's object takes their place: the call that is the operand of [new],
    the expression that initialises a [for] loop, the chunks of a template (which are written as
    elements with other offsets). *)
Definition absorbed (a parent : any) : Prop :=
  (exists p x f args, parent = A_Expr p /\ n_item p = E_Prefix O_New x /\ n_item x = E_Call f args) \/
  (exists p x, parent = A_ForInit p /\ n_item p = FI_Expression x) \/
  (template_of parent <> None /\ exists i, a = A_Ident i).

(** The elements of a template with the chunks [qs]: their texts in order, only the last one a tail;
    [span text last st en] says where an element is. *)
Inductive elements (span : str -> bool -> N -> N -> Prop) : list (node str) -> list json -> Prop :=
| el_last q st en fields x :
    estree_node (bs "TemplateElement") fields x ->
    In (bs "tail", J_Bool true) fields -> In (bs "value", J_Obj [(bs "raw", J_Str (n_item q)); (bs "cooked", J_Str (n_item q))]) fields ->
    In (bs "start", J_Int st) fields -> In (bs "end", J_Int en) fields -> span (n_item q) true st en ->
    elements span [q] [x]
| el_more q qs st en fields x l :
    estree_node (bs "TemplateElement") fields x ->
    In (bs "tail", J_Bool false) fields -> In (bs "value", J_Obj [(bs "raw", J_Str (n_item q)); (bs "cooked", J_Str (n_item q))]) fields ->
    In (bs "start", J_Int st) fields -> In (bs "end", J_Int en) fields -> span (n_item q) false st en ->
    elements span qs l -> elements span (q :: qs) (x :: l).
