(** The [Debug] text of a tree, which the wasm function [generateAST] and the
    node function [parse] return.

    Every type of /repo/ratel/src/ast has [#[derive(Debug)]]; what the derived
    code asks of the formatter is modelled by [dval], and the compact text that
    the formatter of the standard library writes ([{:?}]) by [show].  The
    indented text ([{:#?}]) is not modelled.  [List] of the toolshed crate, whose
    source is not in /repo, is taken to be shown as any Rust list
    ([Formatter::debug_list]). *)
From Coq Require Import List NArith Bool String.
From Coq.Strings Require Import Byte.
From Verif Require Import Bytes Token Lexer Ast Parser Codegen ErrorFmt.
Import ListNotations.
Open Scope nat_scope.
Open Scope list_scope.

(** What derived [Debug] asks for: [f.write_str(name)] for a unit,
    [debug_tuple(name).field(x)] (all tuples of the AST have one field),
    [debug_struct(name).field(..)...], [debug_list().entries(..)], [&str], [u32]. *)
Inductive dval : Set :=
| D_Unit (name : string)
| D_Tuple (name : string) (x : dval)
| D_Struct (name : string) (fields : list (string * dval))
| D_List (l : list dval)
| D_Str (s : str)
| D_Num (n : N).

Section Show.
  (** How the standard library shows a [&str] (between double quotes, with
      escapes that depend on the Unicode tables of the release). *)
  Variable quote : str -> str.

  (** [{:?}] of the standard library, core::fmt::builders. *)
  Fixpoint show (v : dval) : str :=
    match v with
    | D_Unit n => bs n
    | D_Tuple n x => bs n ++ bs "(" ++ show x ++ bs ")"
    | D_Struct n fs => bs n ++ bs " {" ++ join (bs ",") (map (fun f => bs " " ++ bs (fst f) ++ bs ": " ++ show (snd f)) fs) ++ bs " }"
    | D_List l => bs "[" ++ join (bs ", ") (map show l) ++ bs "]"
    | D_Str s => quote s
    | D_Num n => uint_str (N.to_uint n)
    end.
End Show.

(** [Debug for Node], ast/node.rs:54-59, and the derived one of [Loc], ast/mod.rs:65-70. *)
Definition d_node {A : Set} (f : A -> dval) (n : node A) : dval :=
  D_Struct "Loc" [("start", D_Num (n_start n)); ("end", D_Num (n_end n)); ("item", f (n_item n))]%string.
(** [Debug for Option]. *)
Definition d_opt {A : Set} (f : A -> dval) (o : option A) : dval :=
  match o with None => D_Unit "None" | Some x => D_Tuple "Some" (f x) end.
Definition d_bool (b : bool) : dval := D_Unit (if b then "true" else "false").
(** [Block], ast/mod.rs:25-28. *)
Definition d_block {A : Set} (f : A -> dval) (b : block A) : dval :=
  D_Struct "Block" [("body", D_List (map (d_node f) (b_body b)))]%string.
Definition d_list {A : Set} (f : A -> dval) (l : list (node A)) : dval := D_List (map (d_node f) l).
Definition d_ident (n : node str) : dval := d_node D_Str n.

(** [OperatorKind], ast/operator.rs:4-54. *)
Definition operator_name (o : operator) : string :=
  match o with
  | O_FatArrow => "FatArrow" | O_New => "New" | O_Increment => "Increment" | O_Decrement => "Decrement"
  | O_LogicalNot => "LogicalNot" | O_BitwiseNot => "BitwiseNot" | O_Typeof => "Typeof" | O_Void => "Void"
  | O_Delete => "Delete" | O_Multiplication => "Multiplication" | O_Division => "Division"
  | O_Remainder => "Remainder" | O_Exponent => "Exponent" | O_Addition => "Addition"
  | O_Subtraction => "Subtraction" | O_BitShiftLeft => "BitShiftLeft" | O_BitShiftRight => "BitShiftRight"
  | O_UBitShiftRight => "UBitShiftRight" | O_Lesser => "Lesser" | O_LesserEquals => "LesserEquals"
  | O_Greater => "Greater" | O_GreaterEquals => "GreaterEquals" | O_Instanceof => "Instanceof" | O_In => "In"
  | O_StrictEquality => "StrictEquality" | O_StrictInequality => "StrictInequality" | O_Equality => "Equality"
  | O_Inequality => "Inequality" | O_BitwiseAnd => "BitwiseAnd" | O_BitwiseXor => "BitwiseXor"
  | O_BitwiseOr => "BitwiseOr" | O_LogicalAnd => "LogicalAnd" | O_LogicalOr => "LogicalOr"
  | O_Conditional => "Conditional" | O_Assign => "Assign" | O_AddAssign => "AddAssign"
  | O_SubtractAssign => "SubtractAssign" | O_ExponentAssign => "ExponentAssign"
  | O_MultiplyAssign => "MultiplyAssign" | O_DivideAssign => "DivideAssign"
  | O_RemainderAssign => "RemainderAssign" | O_BSLAssign => "BSLAssign" | O_BSRAssign => "BSRAssign"
  | O_UBSRAssign => "UBSRAssign" | O_BitAndAssign => "BitAndAssign" | O_BitXorAssign => "BitXorAssign"
  | O_BitOrAssign => "BitOrAssign" | O_Spread => "Spread"
  end%string.
Definition d_operator (o : operator) : dval := D_Unit (operator_name o).

(** ast/literal.rs:1-11. *)
Definition d_literal (l : literal) : dval :=
  match l with
  | L_Undefined => D_Unit "Undefined" | L_Null => D_Unit "Null" | L_True => D_Unit "True" | L_False => D_Unit "False"
  | L_Number s => D_Tuple "Number" (D_Str s) | L_Binary s => D_Tuple "Binary" (D_Str s)
  | L_String s => D_Tuple "String" (D_Str s) | L_RegEx s => D_Tuple "RegEx" (D_Str s)
  end.
(** ast/variable.rs:1-6, ast/function.rs:73-79. *)
Definition d_declkind (k : declkind) : dval := D_Unit match k with DK_Var => "Var" | DK_Let => "Let" | DK_Const => "Const" end.
Definition d_methodkind (k : methodkind) : dval :=
  D_Unit match k with MK_Constructor => "Constructor" | MK_Method => "Method" | MK_Get => "Get" | MK_Set => "Set" end.
(** ast/function.rs:8-15. *)
Definition d_name (n : fname) : dval :=
  match n with
  | Name_Empty => D_Unit "EmptyName"
  | Name_Optional o => D_Tuple "OptionalName" (d_opt d_ident o)
  | Name_Mandatory n => D_Tuple "MandatoryName" (d_ident n)
  end.
(** ast/statement.rs:122-143. *)
Definition d_specifier (i : import_specifier) : dval :=
  match i with
  | IS_Named i l => D_Tuple "ImportSpecifier" (D_Struct "ImportSpecifier" [("imported", d_ident i); ("local", d_ident l)])
  | IS_Default l => D_Tuple "ImportDefaultSpecifier" (D_Struct "ImportDefaultSpecifier" [("local", d_ident l)])
  | IS_Namespace l => D_Tuple "ImportNamespaceSpecifier" (D_Struct "ImportNamespaceSpecifier" [("local", d_ident l)])
  end%string.

(** [Expression], ast/expression.rs:129-152, and the structs of lines 28-124. *)
Fixpoint d_expression (e : expression) : dval :=
  match e with
  | E_Void => D_Unit "Void"
  | E_This => D_Tuple "This" (D_Unit "ThisExpression")
  | E_Identifier s => D_Tuple "Identifier" (D_Str s)
  | E_Literal l => D_Tuple "Literal" (d_literal l)
  | E_Sequence b => D_Tuple "Sequence" (D_Struct "SequenceExpression" [("body", d_list d_expression b)])
  | E_Array b => D_Tuple "Array" (D_Struct "ArrayExpression" [("body", d_list d_expression b)])
  | E_Member o p => D_Tuple "Member" (D_Struct "MemberExpression" [("object", d_node d_expression o); ("property", d_ident p)])
  | E_ComputedMember o p =>
      D_Tuple "ComputedMember" (D_Struct "ComputedMemberExpression" [("object", d_node d_expression o); ("property", d_node d_expression p)])
  | E_MetaProperty m p => D_Tuple "MetaProperty" (D_Struct "MetaPropertyExpression" [("meta", d_ident m); ("property", d_ident p)])
  | E_Call c args => D_Tuple "Call" (D_Struct "CallExpression" [("callee", d_node d_expression c); ("arguments", d_list d_expression args)])
  | E_Binary op l r =>
      D_Tuple "Binary" (D_Struct "BinaryExpression" [("operator", d_operator op); ("left", d_node d_expression l); ("right", d_node d_expression r)])
  | E_Prefix op x => D_Tuple "Prefix" (D_Struct "PrefixExpression" [("operator", d_operator op); ("operand", d_node d_expression x)])
  | E_Postfix op x => D_Tuple "Postfix" (D_Struct "PostfixExpression" [("operator", d_operator op); ("operand", d_node d_expression x)])
  | E_Conditional t c a =>
      D_Tuple "Conditional" (D_Struct "ConditionalExpression"
        [("test", d_node d_expression t); ("consequent", d_node d_expression c); ("alternate", d_node d_expression a)])
  | E_Template t => D_Tuple "Template" (d_template t)
  | E_TaggedTemplate t q => D_Tuple "TaggedTemplate" (D_Struct "TaggedTemplateExpression" [("tag", d_node d_expression t); ("quasi", d_node d_template q)])
  | E_Spread x => D_Tuple "Spread" (D_Struct "SpreadExpression" [("argument", d_node d_expression x)])
  | E_Arrow ps b => D_Tuple "Arrow" (D_Struct "ArrowExpression" [("params", d_list d_pattern ps); ("body", d_arrow_body b)])
  | E_Object b => D_Tuple "Object" (D_Struct "ObjectExpression" [("body", d_list d_property b)])
  | E_Function f => D_Tuple "Function" (d_func f)
  | E_Class c => D_Tuple "Class" (d_class c)
  end%string
(** ast/expression.rs:92-96. *)
with d_template (t : template) : dval :=
  match t with
  | Template es qs => D_Struct "TemplateLiteral" [("expressions", d_list d_expression es); ("quasis", D_List (map d_ident qs))]
  end%string
(** ast/expression.rs:109-113. *)
with d_arrow_body (b : arrow_body) : dval :=
  match b with
  | AB_Expression e => D_Tuple "Expression" (d_node d_expression e)
  | AB_Block b => D_Tuple "Block" (d_node (d_block d_statement) b)
  end
(** ast/expression.rs:11-25. *)
with d_property (p : property) : dval :=
  match p with
  | P_Shorthand s => D_Tuple "Shorthand" (D_Str s)
  | P_Literal k v => D_Struct "Literal" [("key", d_node d_property_key k); ("value", d_node d_expression v)]
  | P_Method k v => D_Struct "Method" [("key", d_node d_property_key k); ("value", d_node d_func v)]
  | P_Spread x => D_Struct "Spread" [("argument", d_node d_expression x)]
  end%string
(** ast/expression.rs:4-9. *)
with d_property_key (k : property_key) : dval :=
  match k with
  | Key_Computed e => D_Tuple "Computed" (d_node d_expression e)
  | Key_Literal s => D_Tuple "Literal" (D_Str s)
  | Key_Binary s => D_Tuple "Binary" (D_Str s)
  end
(** [Pattern], ast/mod.rs:30-48. *)
with d_pattern (p : pattern) : dval :=
  match p with
  | Pat_Void => D_Unit "Void"
  | Pat_Identifier s => D_Tuple "Identifier" (D_Str s)
  | Pat_Object ps => D_Struct "ObjectPattern" [("properties", d_list d_property ps)]
  | Pat_Array es => D_Struct "ArrayPattern" [("elements", d_list d_pattern es)]
  | Pat_Rest x => D_Struct "RestElement" [("argument", d_ident x)]
  | Pat_Assign l r => D_Struct "AssignmentPattern" [("left", d_node d_pattern l); ("right", d_node d_expression r)]
  end%string
(** [Function], ast/function.rs:65-71. *)
with d_func (f : func) : dval :=
  match f with
  | Func n g ps b =>
      D_Struct "Function" [("name", d_name n); ("generator", d_bool g); ("params", d_list d_pattern ps); ("body", d_node (d_block d_statement) b)]
  end%string
(** [Class], ast/function.rs:97-102. *)
with d_class (c : class) : dval :=
  match c with
  | Class n e b =>
      D_Struct "Class" [("name", d_name n); ("extends", d_opt (d_node d_expression) e); ("body", d_node (d_block d_class_member) b)]
  end%string
(** [ClassMember], ast/function.rs:81-95. *)
with d_class_member (m : class_member) : dval :=
  match m with
  | CM_Error => D_Unit "Error"
  | CM_Method s k kd v =>
      D_Struct "Method" [("is_static", d_bool s); ("key", d_node d_property_key k); ("kind", d_methodkind kd); ("value", d_node d_func v)]
  | CM_Literal s k v =>
      D_Struct "Literal" [("is_static", d_bool s); ("key", d_node d_property_key k); ("value", d_node d_expression v)]
  end%string
(** [Statement], ast/statement.rs:151-174, and the structs of lines 4-145. *)
with d_statement (s : statement) : dval :=
  match s with
  | St_Empty => D_Unit "Empty"
  | St_Debugger => D_Unit "Debugger"
  | St_Expression e => D_Tuple "Expression" (d_node d_expression e)
  | St_Declaration k ds =>
      D_Tuple "Declaration" (D_Struct "DeclarationStatement" [("kind", d_declkind k); ("declarators", d_list d_declarator ds)])
  | St_Return v => D_Tuple "Return" (D_Struct "ReturnStatement" [("value", d_opt (d_node d_expression) v)])
  | St_Break l => D_Tuple "Break" (D_Struct "BreakStatement" [("label", d_opt d_ident l)])
  | St_Continue l => D_Tuple "Continue" (D_Struct "ContinueStatement" [("label", d_opt d_ident l)])
  | St_Throw v => D_Tuple "Throw" (D_Struct "ThrowStatement" [("value", d_node d_expression v)])
  | St_If t c a =>
      D_Tuple "If" (D_Struct "IfStatement"
        [("test", d_node d_expression t); ("consequent", d_node d_statement c); ("alternate", d_opt (d_node d_statement) a)])
  | St_While t b => D_Tuple "While" (D_Struct "WhileStatement" [("test", d_node d_expression t); ("body", d_node d_statement b)])
  | St_Do b t => D_Tuple "Do" (D_Struct "DoStatement" [("body", d_node d_statement b); ("test", d_node d_expression t)])
  | St_For i t u b =>
      D_Tuple "For" (D_Struct "ForStatement"
        [("init", d_opt (d_node d_for_init) i); ("test", d_opt (d_node d_expression) t);
         ("update", d_opt (d_node d_expression) u); ("body", d_node d_statement b)])
  | St_ForIn l r b =>
      D_Tuple "ForIn" (D_Struct "ForInStatement" [("left", d_node d_for_init l); ("right", d_node d_expression r); ("body", d_node d_statement b)])
  | St_ForOf l r b =>
      D_Tuple "ForOf" (D_Struct "ForOfStatement" [("left", d_node d_for_init l); ("right", d_node d_expression r); ("body", d_node d_statement b)])
  | St_Try b h f =>
      D_Tuple "Try" (D_Struct "TryStatement"
        [("block", d_node (d_block d_statement) b); ("handler", d_opt (d_node d_catch) h);
         ("finalizer", d_opt (d_node (d_block d_statement)) f)])
  | St_Block b => D_Tuple "Block" (d_block d_statement b)
  | St_Labeled l b => D_Tuple "Labeled" (D_Struct "LabeledStatement" [("label", D_Str l); ("body", d_node d_statement b)])
  | St_Function f => D_Tuple "Function" (d_func f)
  | St_Class c => D_Tuple "Class" (d_class c)
  | St_Switch d c =>
      D_Tuple "Switch" (D_Struct "SwitchStatement" [("discriminant", d_node d_expression d); ("cases", d_node (d_block d_case) c)])
  | St_Import ss src => D_Tuple "Import" (D_Struct "ImportDeclaration" [("specifiers", d_list d_specifier ss); ("source", D_Str src)])
  end%string
(** ast/statement.rs:4-8. *)
with d_declarator (d : declarator) : dval :=
  match d with
  | Declarator p i => D_Struct "Declarator" [("id", d_node d_pattern p); ("init", d_opt (d_node d_expression) i)]
  end%string
(** ast/statement.rs:57-61. *)
with d_for_init (i : for_init) : dval :=
  match i with
  | FI_Declaration k ds =>
      D_Tuple "Declaration" (D_Struct "DeclarationStatement" [("kind", d_declkind k); ("declarators", d_list d_declarator ds)])
  | FI_Expression e => D_Tuple "Expression" (d_node d_expression e)
  end%string
(** ast/statement.rs:110-114. *)
with d_case (c : switch_case) : dval :=
  match c with
  | SwitchCase t b => D_Struct "SwitchCase" [("test", d_opt (d_node d_expression) t); ("consequent", d_list d_statement b)]
  end%string
(** ast/statement.rs:85-89. *)
with d_catch (c : catch_clause) : dval :=
  match c with
  | CatchClause p b => D_Struct "CatchClause" [("param", d_node d_pattern p); ("body", d_node (d_block d_statement) b)]
  end%string.

(** [format!("{:?}", module.body())]; [body], module.rs:29-32. *)
Definition debug_module (quote : str -> str) (m : module) : str := show quote (d_list d_statement m).

(** [generateAST] with [minify], ratel-wasm/src/lib.rs:37-49. *)
Definition wasm_generate_ast (quote : str -> str) (alnum : N -> bool) (n : nat) (data : str) : outcome str :=
  r <~ parse_fuel alnum n data ;;
  match r with
  | ParseOk m => Done (debug_module quote m)
  | ParseErr errors => format_errors errors data
  end.

(** [parse], ffi/native/src/lib.rs:75-92. *)
Definition ffi_parse (quote : str -> str) (alnum : N -> bool) (n : nat) (source : str) : outcome (js_result str) :=
  r <~ parse_fuel alnum n source ;;
  match r with
  | ParseOk m => Done (JsValue (debug_module quote m))
  | ParseErr errors => s <~ ffi_format_errors errors source ;; Done (JsTypeError s)
  end.
