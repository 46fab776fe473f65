(** The abstract syntax tree, /repo/ratel/src/ast/*.rs.

    References into the arena ([Node], [&'ast str], [List]) are modelled by the
    values they refer to; [Transform.v] has a separate model of the cells. *)
From Coq Require Import List NArith Bool Lia String.
From Coq.Strings Require Import Byte.
From Verif Require Import Bytes Token.
Import ListNotations.
Open Scope nat_scope.

(** [Loc<T>] behind a [Node<T>], ast/mod.rs:65-70 and ast/node.rs:9-13. *)
Record node (A : Set) : Set := Node { n_start : N; n_end : N; n_item : A }.
Arguments Node {A} n_start n_end n_item.
Arguments n_start {A} n.
Arguments n_end {A} n.
Arguments n_item {A} n.

(** [Block<T>], ast/mod.rs:25-28. *)
Record block (A : Set) : Set := Block { b_body : list (node A) }.
Arguments Block {A} b_body.
Arguments b_body {A} b.

(** [Literal], ast/literal.rs:1-11. *)
Inductive literal : Set :=
| L_Undefined | L_Null | L_True | L_False
| L_Number (s : str) | L_Binary (s : str) | L_String (s : str) | L_RegEx (s : str).

(** [DeclarationKind], ast/variable.rs:1-6. *)
Inductive declkind : Set := DK_Var | DK_Let | DK_Const.

(** [MethodKind], ast/function.rs:73-79. *)
Inductive methodkind : Set := MK_Constructor | MK_Method | MK_Get | MK_Set.

(** [EmptyName], [OptionalName], [MandatoryName], ast/function.rs:8-15: the
    three instances of the parameter [N] of [Function] and [Class]. *)
Inductive fname : Set :=
| Name_Empty
| Name_Optional (n : option (node str))
| Name_Mandatory (n : node str).

(** [ForImportSpecifier] and the three specifiers, ast/statement.rs:122-143. *)
Inductive import_specifier : Set :=
| IS_Named (imported local : node str)
| IS_Default (local : node str)
| IS_Namespace (local : node str).

(** [Expression], ast/expression.rs:129-152, with the structs of lines 28-124
    inlined as constructor arguments. *)
Inductive expression : Set :=
| E_Void
| E_This
| E_Identifier (s : str)
| E_Literal (l : literal)
| E_Sequence (body : list (node expression))
| E_Array (body : list (node expression))
| E_Member (object : node expression) (property : node str)
| E_ComputedMember (object property : node expression)
| E_MetaProperty (meta property : node str)
| E_Call (callee : node expression) (arguments : list (node expression))
| E_Binary (op : operator) (left right : node expression)
| E_Prefix (op : operator) (operand : node expression)
| E_Postfix (op : operator) (operand : node expression)
| E_Conditional (test consequent alternate : node expression)
| E_Template (t : template)
| E_TaggedTemplate (tag : node expression) (quasi : node template)
| E_Spread (argument : node expression)
| E_Arrow (params : list (node pattern)) (body : arrow_body)
| E_Object (body : list (node property))
| E_Function (f : func)
| E_Class (c : class)
(** [TemplateLiteral], ast/expression.rs:92-96. *)
with template : Set :=
| Template (expressions : list (node expression)) (quasis : list (node str))
(** [ArrowBody], ast/expression.rs:109-113. *)
with arrow_body : Set :=
| AB_Expression (e : node expression)
| AB_Block (b : node (block statement))
(** [Property], ast/expression.rs:11-25. *)
with property : Set :=
| P_Shorthand (s : str)
| P_Literal (key : node property_key) (value : node expression)
| P_Method (key : node property_key) (value : node func)
| P_Spread (argument : node expression)
(** [PropertyKey], ast/expression.rs:4-9. *)
with property_key : Set :=
| Key_Computed (e : node expression)
| Key_Literal (s : str)
| Key_Binary (s : str)
(** [Pattern], ast/mod.rs:30-48. *)
with pattern : Set :=
| Pat_Void
| Pat_Identifier (s : str)
| Pat_Object (properties : list (node property))
| Pat_Array (elements : list (node pattern))
| Pat_Rest (argument : node str)
| Pat_Assign (left : node pattern) (right : node expression)
(** [Function<N>], ast/function.rs:65-71. *)
with func : Set :=
| Func (name : fname) (generator : bool) (params : list (node pattern)) (body : node (block statement))
(** [Class<N>], ast/function.rs:97-102. *)
with class : Set :=
| Class (name : fname) (extends : option (node expression)) (body : node (block class_member))
(** [ClassMember], ast/function.rs:81-95. *)
with class_member : Set :=
| CM_Error
| CM_Method (is_static : bool) (key : node property_key) (kind : methodkind) (value : node func)
| CM_Literal (is_static : bool) (key : node property_key) (value : node expression)
(** [Statement], ast/statement.rs:151-174, structs of lines 4-145 inlined. *)
with statement : Set :=
| St_Empty
| St_Debugger
| St_Expression (e : node expression)
| St_Declaration (kind : declkind) (declarators : list (node declarator))
| St_Return (value : option (node expression))
| St_Break (label : option (node str))
| St_Continue (label : option (node str))
| St_Throw (value : node expression)
| St_If (test : node expression) (consequent : node statement) (alternate : option (node statement))
| St_While (test : node expression) (body : node statement)
| St_Do (body : node statement) (test : node expression)
| St_For (init : option (node for_init)) (test update : option (node expression)) (body : node statement)
| St_ForIn (left : node for_init) (right : node expression) (body : node statement)
| St_ForOf (left : node for_init) (right : node expression) (body : node statement)
| St_Try (body : node (block statement)) (handler : option (node catch_clause))
         (finalizer : option (node (block statement)))
| St_Block (b : block statement)
| St_Labeled (label : str) (body : node statement)
| St_Function (f : func)
| St_Class (c : class)
| St_Switch (discriminant : node expression) (cases : node (block switch_case))
| St_Import (specifiers : list (node import_specifier)) (source : str)
(** [Declarator], ast/statement.rs:4-8. *)
with declarator : Set :=
| Declarator (id : node pattern) (init : option (node expression))
(** [ForInit], ast/statement.rs:57-61. *)
with for_init : Set :=
| FI_Declaration (kind : declkind) (declarators : list (node declarator))
| FI_Expression (e : node expression)
(** [SwitchCase], ast/statement.rs:110-114. *)
with switch_case : Set :=
| SwitchCase (test : option (node expression)) (consequent : list (node statement))
(** [CatchClause], ast/statement.rs:85-89. *)
with catch_clause : Set :=
| CatchClause (param : node pattern) (body : node (block statement)).

(** The body of a [Module], /repo/ratel/src/module.rs:10-14. *)
Definition module := list (node statement).

(** [Expression::binding_power], ast/expression.rs:189-208. *)
Definition expression_bp (e : expression) : nat :=
  match e with
  | E_Member _ _ | E_MetaProperty _ _ | E_Arrow _ _ => 18
  | E_Call _ _ => 17
  | E_Prefix _ _ => 15
  | E_Binary op _ _ | E_Postfix op _ => operator_bp op
  | E_Conditional _ _ _ => 4
  | E_Sequence _ => 0
  | _ => 100
  end.

(** [is_allowed_as_bare_statement], ast/expression.rs:211-221. *)
Definition is_allowed_as_bare_statement (e : expression) : bool :=
  match e with
  | E_Object _ | E_Function _ | E_Class _ => false
  | _ => true
  end.

(** [is_lvalue], ast/expression.rs:223-236. *)
Definition is_lvalue (e : expression) : bool :=
  match e with
  | E_Identifier _ | E_Member _ _ | E_ComputedMember _ _ | E_Object _ | E_Array _ | E_Spread _ => true
  | _ => false
  end.

(** [Statement::is_block], ast/statement.rs:243-249. *)
Definition is_block (s : statement) : bool :=
  match s with St_Block _ => true | _ => false end.

(** ** All nodes of a tree

    [any] is a node of the tree of whatever type; [children] lists the nodes
    directly below one; [within a b]: [a] is [b] or below it. *)
Inductive any : Set :=
| A_Ident (n : node str)
| A_Expr (n : node expression)
| A_Tpl (n : node template)
| A_Prop (n : node property)
| A_Key (n : node property_key)
| A_Pat (n : node pattern)
| A_Func (n : node func)
| A_Member (n : node class_member)
| A_Body (n : node (block statement))
| A_ClassBody (n : node (block class_member))
| A_Cases (n : node (block switch_case))
| A_Stmt (n : node statement)
| A_Declarator (n : node declarator)
| A_ForInit (n : node for_init)
| A_Case (n : node switch_case)
| A_Catch (n : node catch_clause)
| A_Spec (n : node import_specifier).

Definition any_span (a : any) : N * N :=
  match a with
  | A_Ident n => (n_start n, n_end n) | A_Expr n => (n_start n, n_end n)
  | A_Tpl n => (n_start n, n_end n) | A_Prop n => (n_start n, n_end n)
  | A_Key n => (n_start n, n_end n) | A_Pat n => (n_start n, n_end n)
  | A_Func n => (n_start n, n_end n) | A_Member n => (n_start n, n_end n)
  | A_Body n => (n_start n, n_end n) | A_ClassBody n => (n_start n, n_end n)
  | A_Cases n => (n_start n, n_end n) | A_Stmt n => (n_start n, n_end n)
  | A_Declarator n => (n_start n, n_end n) | A_ForInit n => (n_start n, n_end n)
  | A_Case n => (n_start n, n_end n) | A_Catch n => (n_start n, n_end n)
  | A_Spec n => (n_start n, n_end n)
  end.

Definition opt {A B : Type} (f : A -> B) (o : option A) : list B :=
  match o with Some a => [f a] | None => [] end.

Definition children_name (n : fname) : list any :=
  match n with
  | Name_Empty => []
  | Name_Optional o => opt A_Ident o
  | Name_Mandatory n => [A_Ident n]
  end.
Definition children_func (f : func) : list any :=
  match f with Func n _ ps b => children_name n ++ map A_Pat ps ++ [A_Body b] end.
Definition children_class (c : class) : list any :=
  match c with Class n e b => children_name n ++ opt A_Expr e ++ [A_ClassBody b] end.
Definition children_template (t : template) : list any :=
  match t with Template es qs => map A_Expr es ++ map A_Ident qs end.
Definition children_expression (e : expression) : list any :=
  match e with
  | E_Void | E_This | E_Identifier _ | E_Literal _ => []
  | E_Sequence b | E_Array b => map A_Expr b
  | E_Member o p => [A_Expr o; A_Ident p]
  | E_ComputedMember o p => [A_Expr o; A_Expr p]
  | E_MetaProperty m p => [A_Ident m; A_Ident p]
  | E_Call c args => A_Expr c :: map A_Expr args
  | E_Binary _ l r => [A_Expr l; A_Expr r]
  | E_Prefix _ x | E_Postfix _ x => [A_Expr x]
  | E_Conditional t c a => [A_Expr t; A_Expr c; A_Expr a]
  | E_Template t => children_template t
  | E_TaggedTemplate t q => [A_Expr t; A_Tpl q]
  | E_Spread x => [A_Expr x]
  | E_Arrow ps (AB_Expression x) => map A_Pat ps ++ [A_Expr x]
  | E_Arrow ps (AB_Block b) => map A_Pat ps ++ [A_Body b]
  | E_Object b => map A_Prop b
  | E_Function f => children_func f
  | E_Class c => children_class c
  end.
Definition children_statement (s : statement) : list any :=
  match s with
  | St_Empty | St_Debugger => []
  | St_Expression e => [A_Expr e]
  | St_Declaration _ ds => map A_Declarator ds
  | St_Return v => opt A_Expr v
  | St_Break l | St_Continue l => opt A_Ident l
  | St_Throw v => [A_Expr v]
  | St_If t c a => [A_Expr t; A_Stmt c] ++ opt A_Stmt a
  | St_While t b => [A_Expr t; A_Stmt b]
  | St_Do b t => [A_Stmt b; A_Expr t]
  | St_For i t u b => opt A_ForInit i ++ opt A_Expr t ++ opt A_Expr u ++ [A_Stmt b]
  | St_ForIn l r b | St_ForOf l r b => [A_ForInit l; A_Expr r; A_Stmt b]
  | St_Try b h f => [A_Body b] ++ opt A_Catch h ++ opt A_Body f
  | St_Block b => map A_Stmt (b_body b)
  | St_Labeled _ b => [A_Stmt b]
  | St_Function f => children_func f
  | St_Class c => children_class c
  | St_Switch d c => [A_Expr d; A_Cases c]
  | St_Import ss _ => map A_Spec ss
  end.
Definition children (a : any) : list any :=
  match a with
  | A_Ident _ => []
  | A_Expr n => children_expression (n_item n)
  | A_Tpl n => children_template (n_item n)
  | A_Prop n =>
      match n_item n with
      | P_Shorthand _ => []
      | P_Literal k v => [A_Key k; A_Expr v]
      | P_Method k v => [A_Key k; A_Func v]
      | P_Spread x => [A_Expr x]
      end
  | A_Key n =>
      match n_item n with
      | Key_Computed e => [A_Expr e]
      | Key_Literal _ | Key_Binary _ => []
      end
  | A_Pat n =>
      match n_item n with
      | Pat_Void | Pat_Identifier _ => []
      | Pat_Object ps => map A_Prop ps
      | Pat_Array es => map A_Pat es
      | Pat_Rest x => [A_Ident x]
      | Pat_Assign l r => [A_Pat l; A_Expr r]
      end
  | A_Func n => children_func (n_item n)
  | A_Member n =>
      match n_item n with
      | CM_Error => []
      | CM_Method _ k _ v => [A_Key k; A_Func v]
      | CM_Literal _ k v => [A_Key k; A_Expr v]
      end
  | A_Body n => map A_Stmt (b_body (n_item n))
  | A_ClassBody n => map A_Member (b_body (n_item n))
  | A_Cases n => map A_Case (b_body (n_item n))
  | A_Stmt n => children_statement (n_item n)
  | A_Declarator n =>
      match n_item n with Declarator p i => A_Pat p :: opt A_Expr i end
  | A_ForInit n =>
      match n_item n with
      | FI_Declaration _ ds => map A_Declarator ds
      | FI_Expression e => [A_Expr e]
      end
  | A_Case n =>
      match n_item n with SwitchCase t c => opt A_Expr t ++ map A_Stmt c end
  | A_Catch n =>
      match n_item n with CatchClause p b => [A_Pat p; A_Body b] end
  | A_Spec n =>
      match n_item n with
      | IS_Named i l => [A_Ident i; A_Ident l]
      | IS_Default l | IS_Namespace l => [A_Ident l]
      end
  end.

Inductive within : any -> any -> Prop :=
| within_refl a : within a a
| within_child a b c : In c (children b) -> within a c -> within a b.

(** [a] is a node of the module [m]. *)
Definition in_module (a : any) (m : module) : Prop :=
  exists s, In s m /\ within a (A_Stmt s).

(** ** Equality up to source locations

    [PartialEq for Loc], ast/mod.rs:100-106, compares only the items, so two
    trees are [==] in Rust exactly when they are equal once every location is
    replaced by 0; [strip_*] does that. *)
Section Strip.
  Definition strip_node {A : Set} (f : A -> A) (n : node A) : node A := Node 0%N 0%N (f (n_item n)).
  Definition strip_id (n : node str) : node str := strip_node (fun s => s) n.
  Definition strip_name (n : fname) : fname :=
    match n with
    | Name_Empty => Name_Empty
    | Name_Optional o => Name_Optional (option_map strip_id o)
    | Name_Mandatory n => Name_Mandatory (strip_id n)
    end.
  Definition strip_block {A : Set} (f : A -> A) (b : block A) : block A :=
    Block (map (strip_node f) (b_body b)).
  Definition strip_specifier (i : import_specifier) : import_specifier :=
    match i with
    | IS_Named i l => IS_Named (strip_id i) (strip_id l)
    | IS_Default l => IS_Default (strip_id l)
    | IS_Namespace l => IS_Namespace (strip_id l)
    end.

  Fixpoint strip_expression (e : expression) : expression :=
    match e with
    | E_Void => E_Void
    | E_This => E_This
    | E_Identifier s => E_Identifier s
    | E_Literal l => E_Literal l
    | E_Sequence b => E_Sequence (map (strip_node strip_expression) b)
    | E_Array b => E_Array (map (strip_node strip_expression) b)
    | E_Member o p => E_Member (strip_node strip_expression o) (strip_id p)
    | E_ComputedMember o p =>
        E_ComputedMember (strip_node strip_expression o) (strip_node strip_expression p)
    | E_MetaProperty m p => E_MetaProperty (strip_id m) (strip_id p)
    | E_Call c args => E_Call (strip_node strip_expression c) (map (strip_node strip_expression) args)
    | E_Binary op l r => E_Binary op (strip_node strip_expression l) (strip_node strip_expression r)
    | E_Prefix op x => E_Prefix op (strip_node strip_expression x)
    | E_Postfix op x => E_Postfix op (strip_node strip_expression x)
    | E_Conditional t c a =>
        E_Conditional (strip_node strip_expression t) (strip_node strip_expression c)
                      (strip_node strip_expression a)
    | E_Template t => E_Template (strip_template t)
    | E_TaggedTemplate t q => E_TaggedTemplate (strip_node strip_expression t) (strip_node strip_template q)
    | E_Spread x => E_Spread (strip_node strip_expression x)
    | E_Arrow ps b => E_Arrow (map (strip_node strip_pattern) ps) (strip_arrow_body b)
    | E_Object b => E_Object (map (strip_node strip_property) b)
    | E_Function f => E_Function (strip_func f)
    | E_Class c => E_Class (strip_class c)
    end
  with strip_template (t : template) : template :=
    match t with
    | Template es qs => Template (map (strip_node strip_expression) es) (map strip_id qs)
    end
  with strip_arrow_body (b : arrow_body) : arrow_body :=
    match b with
    | AB_Expression e => AB_Expression (strip_node strip_expression e)
    | AB_Block b => AB_Block (strip_node (strip_block strip_statement) b)
    end
  with strip_property (p : property) : property :=
    match p with
    | P_Shorthand s => P_Shorthand s
    | P_Literal k v => P_Literal (strip_node strip_property_key k) (strip_node strip_expression v)
    | P_Method k v => P_Method (strip_node strip_property_key k) (strip_node strip_func v)
    | P_Spread x => P_Spread (strip_node strip_expression x)
    end
  with strip_property_key (k : property_key) : property_key :=
    match k with
    | Key_Computed e => Key_Computed (strip_node strip_expression e)
    | Key_Literal s => Key_Literal s
    | Key_Binary s => Key_Binary s
    end
  with strip_pattern (p : pattern) : pattern :=
    match p with
    | Pat_Void => Pat_Void
    | Pat_Identifier s => Pat_Identifier s
    | Pat_Object ps => Pat_Object (map (strip_node strip_property) ps)
    | Pat_Array es => Pat_Array (map (strip_node strip_pattern) es)
    | Pat_Rest x => Pat_Rest (strip_id x)
    | Pat_Assign l r => Pat_Assign (strip_node strip_pattern l) (strip_node strip_expression r)
    end
  with strip_func (f : func) : func :=
    match f with
    | Func n g ps b =>
        Func (strip_name n) g (map (strip_node strip_pattern) ps)
             (strip_node (strip_block strip_statement) b)
    end
  with strip_class (c : class) : class :=
    match c with
    | Class n e b =>
        Class (strip_name n) (option_map (strip_node strip_expression) e)
              (strip_node (strip_block strip_class_member) b)
    end
  with strip_class_member (m : class_member) : class_member :=
    match m with
    | CM_Error => CM_Error
    | CM_Method s k kd v => CM_Method s (strip_node strip_property_key k) kd (strip_node strip_func v)
    | CM_Literal s k v => CM_Literal s (strip_node strip_property_key k) (strip_node strip_expression v)
    end
  with strip_statement (s : statement) : statement :=
    match s with
    | St_Empty => St_Empty
    | St_Debugger => St_Debugger
    | St_Expression e => St_Expression (strip_node strip_expression e)
    | St_Declaration k ds => St_Declaration k (map (strip_node strip_declarator) ds)
    | St_Return v => St_Return (option_map (strip_node strip_expression) v)
    | St_Break l => St_Break (option_map strip_id l)
    | St_Continue l => St_Continue (option_map strip_id l)
    | St_Throw v => St_Throw (strip_node strip_expression v)
    | St_If t c a =>
        St_If (strip_node strip_expression t) (strip_node strip_statement c)
              (option_map (strip_node strip_statement) a)
    | St_While t b => St_While (strip_node strip_expression t) (strip_node strip_statement b)
    | St_Do b t => St_Do (strip_node strip_statement b) (strip_node strip_expression t)
    | St_For i t u b =>
        St_For (option_map (strip_node strip_for_init) i) (option_map (strip_node strip_expression) t)
               (option_map (strip_node strip_expression) u) (strip_node strip_statement b)
    | St_ForIn l r b =>
        St_ForIn (strip_node strip_for_init l) (strip_node strip_expression r) (strip_node strip_statement b)
    | St_ForOf l r b =>
        St_ForOf (strip_node strip_for_init l) (strip_node strip_expression r) (strip_node strip_statement b)
    | St_Try b h f =>
        St_Try (strip_node (strip_block strip_statement) b)
               (option_map (strip_node strip_catch) h)
               (option_map (strip_node (strip_block strip_statement)) f)
    | St_Block b => St_Block (strip_block strip_statement b)
    | St_Labeled l b => St_Labeled l (strip_node strip_statement b)
    | St_Function f => St_Function (strip_func f)
    | St_Class c => St_Class (strip_class c)
    | St_Switch d c =>
        St_Switch (strip_node strip_expression d) (strip_node (strip_block strip_case) c)
    | St_Import ss src => St_Import (map (strip_node strip_specifier) ss) src
    end
  with strip_declarator (d : declarator) : declarator :=
    match d with
    | Declarator p i => Declarator (strip_node strip_pattern p) (option_map (strip_node strip_expression) i)
    end
  with strip_for_init (i : for_init) : for_init :=
    match i with
    | FI_Declaration k ds => FI_Declaration k (map (strip_node strip_declarator) ds)
    | FI_Expression e => FI_Expression (strip_node strip_expression e)
    end
  with strip_case (c : switch_case) : switch_case :=
    match c with
    | SwitchCase t b =>
        SwitchCase (option_map (strip_node strip_expression) t) (map (strip_node strip_statement) b)
    end
  with strip_catch (c : catch_clause) : catch_clause :=
    match c with
    | CatchClause p b => CatchClause (strip_node strip_pattern p) (strip_node (strip_block strip_statement) b)
    end.

  Definition strip_module (m : module) : module := map (strip_node strip_statement) m.
End Strip.

(** Equality of modules as decided by the Rust [PartialEq]. *)
Definition same_tree (a b : module) : Prop := strip_module a = strip_module b.
