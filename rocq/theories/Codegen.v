(** The code generator, /repo/ratel-codegen/src/{lib,expression,statement,function}.rs.

    [ToCode::to_code] drives a [Generator] only through [write_byte],
    [write_bytes], [write_pretty], [new_line], [indent] and [dedent]
    (lib.rs:13-90); the model produces the sequence of these calls, and the two
    generators ([MinifyingGenerator], lib.rs:92-124, [PrettyGenerator],
    lib.rs:126-179) execute it. *)
From Coq Require Import List NArith Bool String.
From Coq.Strings Require Import Byte.
From Verif Require Import Bytes Token Lexer Ast.
Import ListNotations.
Open Scope nat_scope.

(** A call on the generator.  [GPanic] is [panic!("Module contains errors")]. *)
Inductive gop : Set :=
| GBytes (s : str)        (* write_byte / write_bytes *)
| GPretty (b : byte)      (* write_pretty *)
| GNewLine
| GIndent
| GDedent
| GPanic.

Definition code := list gop.
Definition w (s : string) : code := [GBytes (bs s)].
Definition wstr (s : str) : code := [GBytes s].
Definition sp : code := [GPretty x20].
(** [if cond { write_byte(b' ') } else { write_pretty(b' ') }] *)
Definition space_if (cond : bool) : code := if cond then [GBytes [x20]] else sp.

(** [ToCode for Node<T>], lib.rs:211-219: the location is not looked at. *)
Definition c_node {A : Set} (f : A -> code) (n : node A) : code := f (n_item n).
(** [ToCode for Option<T>], lib.rs:257-267. *)
Definition c_opt {A : Set} (f : A -> code) (o : option A) : code :=
  match o with Some a => f a | None => [] end.

Definition c_ident (n : node str) : code := wstr (n_item n).

(** [write_list], lib.rs:40-56. *)
Section Lists.
  Context {A : Set} (f : A -> code).
  Fixpoint c_list_rest (l : list (node A)) : code :=
    match l with
    | [] => []
    | n :: l' => w "," ++ sp ++ c_node f n ++ c_list_rest l'
    end.
  Definition c_list (l : list (node A)) : code :=
    match l with
    | [] => []
    | n :: l' => c_node f n ++ c_list_rest l'
    end.
  (** [write_block], lib.rs:58-80. *)
  Fixpoint c_block_rest (l : list (node A)) : code :=
    match l with
    | [] => []
    | n :: l' => [GNewLine] ++ c_node f n ++ c_block_rest l'
    end.
  Definition c_items (l : list (node A)) : code :=
    match l with
    | [] => []
    | n :: l' => [GIndent; GNewLine] ++ c_node f n ++ c_block_rest l' ++ [GDedent; GNewLine]
    end.
  (** [ToCode for Block<T>], lib.rs:269-279. *)
  Definition c_block (b : block A) : code := w "{" ++ c_items (b_body b) ++ w "}".
  (** The loop of [ToCode for ObjectExpression], expression.rs:324-343. *)
  Fixpoint c_props_rest (l : list (node A)) : code :=
    match l with
    | [] => []
    | n :: l' => w "," ++ [GNewLine] ++ c_node f n ++ c_props_rest l'
    end.
  Definition c_props (l : list (node A)) : code :=
    match l with
    | [] => w "{}"
    | n :: l' => w "{" ++ [GIndent; GNewLine] ++ c_node f n ++ c_props_rest l'
                 ++ [GDedent; GNewLine] ++ w "}"
    end.
  (** The loop of [ToCode for TemplateLiteral], expression.rs:252-278:
      [quasis.zip(expressions)]. *)
  Fixpoint c_template_rest (qs : list (node str)) (es : list (node A)) {struct es} : code :=
    match es, qs with
    | e :: es', q :: qs' =>
        w "${" ++ sp ++ c_node f e ++ sp ++ w "}" ++ c_ident q ++ c_template_rest qs' es'
    | _, _ => []
    end.
End Lists.

(** [write_expression], lib.rs:28-38. *)
Definition c_bound (f : expression -> code) (n : node expression) (bp : nat) : code :=
  if Nat.ltb (expression_bp (n_item n)) bp
  then w "(" ++ f (n_item n) ++ w ")"
  else f (n_item n).

(** [ToCode for Literal], expression.rs:38-54. *)
Definition c_literal (l : literal) : code :=
  match l with
  | L_Undefined => w "undefined"
  | L_Null => w "null"
  | L_True => w "true"
  | L_False => w "false"
  | L_Binary s | L_Number s | L_String s | L_RegEx s => wstr s
  end.

(** The spacing of [ToCode for BinaryExpression], expression.rs:170-193. *)
Definition opcategory_eqb (a b : opcategory) : bool :=
  match a, b with
  | CatMinus, CatMinus | CatPlus, CatPlus | CatSafe, CatSafe | CatWord, CatWord => true
  | _, _ => false
  end.
Definition spacing_left (op : operator) (l : expression) : bool :=
  match operator_category op with
  | CatWord => true
  | CatSafe => false
  | c => match l with E_Postfix o _ => opcategory_eqb c (operator_category o) | _ => false end
  end.
Definition spacing_right (op : operator) (r : expression) : bool :=
  match operator_category op with
  | CatWord => true
  | CatSafe => false
  | c => match r with E_Prefix o _ => opcategory_eqb c (operator_category o) | _ => false end
  end.

(** [ToCode for EmptyName / MandatoryName / OptionalName], function.rs:6-30. *)
Definition c_name (n : fname) : code :=
  match n with
  | Name_Empty => []
  | Name_Mandatory n => w " " ++ c_ident n
  | Name_Optional (Some n) => w " " ++ c_ident n
  | Name_Optional None => sp
  end.
(** [ClassFunctionDeclaration], function.rs:32-53. *)
Definition c_keyword (kw : string) (n : fname) : code :=
  match n with Name_Empty => [] | _ => w kw end.

(** [ToCode for ForImportSpecifier], statement.rs:356-378. *)
Definition c_specifier (s : import_specifier) : code :=
  match s with
  | IS_Default l => c_ident l
  | IS_Namespace l => w "* as " ++ c_ident l
  | IS_Named i l =>
      if str_eqb (n_item i) (n_item l) then c_ident i
      else c_ident i ++ w " as " ++ c_ident l
  end.
Definition is_named_specifier (s : node import_specifier) : bool :=
  match n_item s with IS_Named _ _ => true | _ => false end.

(** [ToCode for DeclarationKind], statement.rs:53-64. *)
Definition c_kind (k : declkind) : code :=
  match k with DK_Var => w "var " | DK_Let => w "let " | DK_Const => w "const " end.

(** [ToCode for BreakStatement], statement.rs:102-114, and
    [ContinueStatement], 276-288. *)
Definition c_jump (kw : string) (l : option (node str)) : code :=
  match l with
  | Some l => w kw ++ w " " ++ c_ident l ++ w ";"
  | None => w kw ++ w ";"
  end.

(** expression.rs:7-343, statement.rs:8-378, function.rs:55-136. *)
Fixpoint c_expression (e : expression) : code :=
  match e with
  | E_Void => []
  | E_This => w "this"
  | E_Identifier s => wstr s
  | E_Literal l => c_literal l
  | E_Sequence b => c_list c_expression b                                 (* 113-118 *)
  | E_Array b => w "[" ++ c_list c_expression b ++ w "]"                  (* 120-127 *)
  | E_Member o p => c_bound c_expression o 19 ++ w "." ++ c_ident p       (* 129-136 *)
  | E_ComputedMember o p =>                                               (* 138-146 *)
      c_bound c_expression o 19 ++ w "[" ++ c_node c_expression p ++ w "]"
  | E_MetaProperty m p => c_ident m ++ w "." ++ c_ident p                 (* 148-155 *)
  | E_Call c args =>                                                      (* 157-165 *)
      c_node c_expression c ++ w "(" ++ c_list c_expression args ++ w ")"
  | E_Binary op l r =>                                                    (* 167-216 *)
      c_bound c_expression l (operator_bp op)
      ++ space_if (spacing_left op (n_item l))
      ++ wstr (operator_str op)
      ++ space_if (spacing_right op (n_item r))
      ++ c_bound c_expression r (operator_bp op + 1)
  | E_Prefix op x =>                                                      (* 218-227 *)
      wstr (operator_str op)
      ++ (match operator_category op with CatWord => w " " | _ => [] end)
      ++ c_node c_expression x
  | E_Postfix op x => c_node c_expression x ++ wstr (operator_str op)     (* 229-235 *)
  | E_Conditional t c a =>                                                (* 237-250 *)
      c_node c_expression t ++ sp ++ w "?" ++ sp ++ c_node c_expression c
      ++ sp ++ w ":" ++ sp ++ c_node c_expression a
  | E_Template t => c_template t
  | E_TaggedTemplate t q => c_node c_expression t ++ c_node c_template q  (* 281-287 *)
  | E_Spread x => w "..." ++ c_node c_expression x                        (* 289-295 *)
  | E_Arrow ps b =>                                                       (* 307-323 *)
      (match ps with
       | [p] => match n_item p with
                | Pat_Identifier s => wstr s
                | _ => w "(" ++ c_list c_pattern ps ++ w ")"
                end
       | _ => w "(" ++ c_list c_pattern ps ++ w ")"
       end)
      ++ sp ++ w "=>" ++ sp ++ c_arrow_body b
  | E_Object b => c_props c_property b                                    (* 325-352 *)
  | E_Function f => c_func f
  | E_Class c => c_class c
  end
(* expression.rs:252-279 *)
with c_template (t : template) : code :=
  match t with
  | Template es qs =>
      w "`"
      ++ (match qs with
          | [q] => c_ident q
          | q :: qs' => c_ident q ++ c_template_rest c_expression qs' es
          | [] => []
          end)
      ++ w "`"
  end
(* expression.rs:297-305 *)
with c_arrow_body (b : arrow_body) : code :=
  match b with
  | AB_Expression e => c_node c_expression e
  | AB_Block b => c_node (c_block c_statement) b
  end
(* expression.rs:80-111 *)
with c_property (p : property) : code :=
  match p with
  | P_Shorthand s => wstr s
  | P_Literal k v => c_node c_key k ++ w ":" ++ sp ++ c_node c_expression v
  | P_Method k v => c_node c_key k ++ c_node c_func v
  | P_Spread x => w "..." ++ c_node c_expression x
  end
(* expression.rs:63-78 *)
with c_key (k : property_key) : code :=
  match k with
  | Key_Computed e => w "[" ++ c_node c_expression e ++ w "]"
  | Key_Literal s | Key_Binary s => wstr s
  end
(* lib.rs:281-321 *)
with c_pattern (p : pattern) : code :=
  match p with
  | Pat_Void => []
  | Pat_Identifier s => wstr s
  | Pat_Object ps => w "{" ++ c_list c_property ps ++ w "}"
  | Pat_Array es => w "[" ++ c_list c_pattern es ++ w "]"
  | Pat_Rest x => w "..." ++ c_ident x
  | Pat_Assign l r => c_node c_pattern l ++ sp ++ w "=" ++ sp ++ c_node c_expression r
  end
(* function.rs:55-70: [generator] is not written *)
with c_func (f : func) : code :=
  match f with
  | Func n _ ps b =>
      c_keyword "function" n ++ c_name n ++ w "(" ++ c_list c_pattern ps ++ w ")" ++ sp
      ++ c_node (c_block c_statement) b
  end
(* function.rs:117-133 *)
with c_class (c : class) : code :=
  match c with
  | Class n e b =>
      c_keyword "class" n ++ c_name n
      ++ (match e with Some e => w " extends " ++ c_node c_expression e | None => [] end)
      ++ sp ++ c_node (c_block c_member) b
  end
(* function.rs:72-115 *)
with c_member (m : class_member) : code :=
  match m with
  | CM_Error => [GPanic]
  | CM_Method is_static k kind v =>
      (if is_static then w "static " else [])
      ++ (match kind with MK_Get => w "get " | MK_Set => w "set " | _ => [] end)
      ++ c_node c_key k ++ c_node c_func v
  | CM_Literal is_static k v =>
      (if is_static then w "static " else [])
      ++ c_node c_key k ++ sp ++ w "=" ++ sp ++ c_node c_expression v ++ w ";"
  end
(* statement.rs:8-51 *)
with c_statement (s : statement) : code :=
  match s with
  | St_Empty => []
  | St_Debugger => w "debugger"
  | St_Expression e =>
      (if is_allowed_as_bare_statement (n_item e) then c_node c_expression e
       else w "(" ++ c_node c_expression e ++ w ")") ++ w ";"
  | St_Declaration k ds => c_kind k ++ c_list c_declarator ds ++ w ";"    (* 80-86 *)
  | St_Return (Some v) => w "return " ++ c_node c_expression v ++ w ";"   (* 88-100 *)
  | St_Return None => w "return;"
  | St_Break l => c_jump "break" l
  | St_Continue l => c_jump "continue" l
  | St_Throw v => w "throw " ++ c_node c_expression v ++ w ";"            (* 116-123 *)
  | St_If t c a =>                                                        (* 125-151 *)
      w "if" ++ sp ++ w "(" ++ c_node c_expression t ++ w ")" ++ sp ++ c_node c_statement c
      ++ (match a with
          | Some a =>
              space_if (negb (is_block (n_item c))) ++ w "else"
              ++ space_if (negb (is_block (n_item a))) ++ c_node c_statement a
          | None => []
          end)
  | St_While t b =>                                                       (* 153-164 *)
      w "while" ++ sp ++ w "(" ++ c_node c_expression t ++ w ")" ++ sp ++ c_node c_statement b
  | St_Do b t =>                                                          (* 166-182 *)
      w "do" ++ space_if (negb (is_block (n_item b))) ++ c_node c_statement b
      ++ w "while" ++ sp ++ w "(" ++ c_node c_expression t ++ w ")"
  | St_For i t u b =>                                                     (* 194-211 *)
      w "for" ++ sp ++ w "(" ++ (match i with Some i => c_node c_for_init i | None => [] end)
      ++ w ";" ++ sp ++ (match t with Some t => c_node c_expression t | None => [] end)
      ++ w ";" ++ sp ++ (match u with Some u => c_node c_expression u | None => [] end)
      ++ w ")" ++ sp ++ c_node c_statement b
  | St_ForIn l r b =>                                                     (* 213-226 *)
      w "for" ++ sp ++ w "(" ++ c_node c_for_init l ++ w " in " ++ c_node c_expression r
      ++ w ")" ++ sp ++ c_node c_statement b
  | St_ForOf l r b =>                                                     (* 228-241 *)
      w "for" ++ sp ++ w "(" ++ c_node c_for_init l ++ w " of " ++ c_node c_expression r
      ++ w ")" ++ sp ++ c_node c_statement b
  | St_Try b h f =>                                                       (* 243-264 *)
      w "try" ++ sp ++ c_node (c_block c_statement) b
      ++ (match h with Some h => c_node c_catch h | None => [] end)
      ++ (match f with Some f => sp ++ c_node (c_block c_statement) f | None => [] end)
  | St_Block b => c_block c_statement b
  | St_Labeled l b => wstr l ++ w ":" ++ sp ++ c_node c_statement b       (* 266-274 *)
  | St_Function f => c_func f
  | St_Class c => c_class c
  | St_Switch d c =>                                                      (* 290-300 *)
      w "switch" ++ sp ++ w "(" ++ c_node c_expression d ++ w ")" ++ c_node (c_block c_case) c
  | St_Import ss src =>                                                   (* 317-355 *)
      w "import " ++
      (match ss with
       | [] => w "'" ++ wstr src ++ w "'"
       | _ =>
           let others := filter (fun s => negb (is_named_specifier s)) ss in
           let named := filter is_named_specifier ss in
           c_list c_specifier others
           ++ (match named with
               | [] => []
               | _ => (match others with [] => [] | _ => w "," end)
                      ++ w "{" ++ c_list c_specifier named ++ w "}"
               end)
           ++ w " from '" ++ wstr src ++ w "'"
       end)
  end
(* statement.rs:66-78 *)
with c_declarator (d : declarator) : code :=
  match d with
  | Declarator p i =>
      c_node c_pattern p
      ++ (match i with Some i => sp ++ w "=" ++ sp ++ c_node c_expression i | None => [] end)
  end
(* statement.rs:184-192 *)
with c_for_init (i : for_init) : code :=
  match i with
  | FI_Declaration k ds => c_kind k ++ c_list c_declarator ds
  | FI_Expression e => c_node c_expression e
  end
(* statement.rs:302-315 *)
with c_case (c : switch_case) : code :=
  match c with
  | SwitchCase t b =>
      (match t with Some t => w "case " ++ c_node c_expression t ++ w ":" | None => w "default:" end)
      ++ c_items c_statement b
  end
(* the catch clause inside statement.rs:249-258 *)
with c_catch (c : catch_clause) : code :=
  match c with
  | CatchClause p b =>
      sp ++ w "catch" ++ sp ++ w "(" ++ c_node c_pattern p ++ w ")" ++ sp
      ++ c_node (c_block c_statement) b
  end.

(** [codegen], lib.rs:181-203: the statements one after the other, and between
    two statements a [new_line] (which the minifying generator ignores; the
    Rust code does not make that call when minifying). *)
Definition c_module (m : module) : code :=
  match m with
  | [] => []
  | s :: m' => c_node c_statement s ++ c_block_rest c_statement m'
  end.

(** ** The generators *)

(** [MinifyingGenerator], lib.rs:105-124, with the default [new_line],
    [indent] and [dedent], lib.rs:82-89. *)
Fixpoint run_min (c : code) : outcome str :=
  match c with
  | [] => Done []
  | GPanic :: _ => Panicked
  | GBytes s :: c' => r <~ run_min c' ;; Done (s ++ r)
  | _ :: c' => run_min c'
  end.

(** [PrettyGenerator], lib.rs:140-179; [dent -= 1] panics at 0 in a debug
    build. *)
Definition indentation (dent : nat) : str := List.concat (repeat (bs "    ") dent).
Fixpoint run_pretty (dent : nat) (c : code) : outcome str :=
  match c with
  | [] => Done []
  | GPanic :: _ => Panicked
  | GBytes s :: c' => r <~ run_pretty dent c' ;; Done (s ++ r)
  | GPretty b :: c' => r <~ run_pretty dent c' ;; Done (b :: r)
  | GNewLine :: c' => r <~ run_pretty dent c' ;; Done (x0a :: indentation dent ++ r)
  | GIndent :: c' => run_pretty (S dent) c'
  | GDedent :: c' => match dent with 0 => Panicked | S d => run_pretty d c' end
  end.

(** [codegen(module, minify)], lib.rs:181-203. *)
Definition codegen (m : module) (minify : bool) : outcome str :=
  if minify then run_min (c_module m) else run_pretty 0 (c_module m).
