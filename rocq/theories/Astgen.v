(** AST serialisation to ESTree JSON, /repo/ratel/src/astgen/{mod,expression,
    statement,function,value}.rs.

    The result is the JSON value [serde_json::to_value] builds (not its text).
    A panic is the outcome [Panicked]. *)
From Coq Require Import List NArith Bool String.
From Coq.Strings Require Import Byte.
From Verif Require Import Bytes Token Lexer Ast.
Import ListNotations.
Open Scope nat_scope.

Inductive json : Set :=
| J_Null
| J_Bool (b : bool)
| J_Int (n : N)
| J_Float (text : str)    (* the f64 that [str::parse] makes of the text *)
| J_Str (s : str)
| J_Arr (l : list json)
| J_Obj (fields : list (str * json)).

(** Serialise the fields in order; the first panic wins. *)
Fixpoint seq_fields (fs : list (string * outcome json)) : outcome (list (str * json)) :=
  match fs with
  | [] => Done []
  | (k, v) :: fs' =>
      v' <~ v ;; fs'' <~ seq_fields fs' ;; Done ((bs k, v') :: fs'')
  end.
Fixpoint seq_list (l : list (outcome json)) : outcome (list json) :=
  match l with
  | [] => Done []
  | v :: l' => v' <~ v ;; l'' <~ seq_list l' ;; Done (v' :: l'')
  end.

(** [in_loc] and [Serialize for Loc<T>], mod.rs:12-47: "type", the fields,
    "start", "end". *)
Definition obj (st en : N) (ty : string) (fs : list (string * outcome json)) : outcome json :=
  fs' <~ seq_fields fs ;;
  Done (J_Obj ((bs "type", J_Str (bs ty)) :: fs'
               ++ [(bs "start", J_Int st); (bs "end", J_Int en)])).
Definition jarr (l : list (outcome json)) : outcome json := l' <~ seq_list l ;; Done (J_Arr l').
Definition jstr (s : str) : outcome json := Done (J_Str s).
Definition jbool (b : bool) : outcome json := Done (J_Bool b).
Definition jnull : outcome json := Done J_Null.

(** [expression_type], expression.rs:6-39. *)
Definition expression_type (op : operator) (prefix : bool) : string :=
  match op with
  | O_Assign | O_AddAssign | O_ExponentAssign | O_MultiplyAssign | O_DivideAssign
  | O_RemainderAssign | O_BSLAssign | O_BSRAssign | O_UBSRAssign | O_BitOrAssign
  | O_BitXorAssign | O_SubtractAssign | O_BitAndAssign => "AssignmentExpression"
  | O_LogicalAnd | O_LogicalOr => "LogicalExpression"
  | O_Increment | O_Decrement => "UpdateExpression"
  | O_Typeof | O_Void | O_Delete => "UnaryExpression"
  | O_Subtraction | O_Addition | O_LogicalNot | O_BitwiseNot =>
      if prefix then "UnaryExpression" else "BinaryExpression"
  | O_New => "NewExpression"
  | _ => "BinaryExpression"
  end.

(** ** Literals, value.rs *)

(** The digit a byte denotes in a radix, as in [i32::from_str_radix]. *)
Definition digit_of (radix : N) (b : byte) : option N :=
  let v := byte_val b in
  let d :=
    if byte_in x30 x39 b then Some (v - 48)%N
    else if byte_in x61 x7a b then Some (v - 87)%N
    else if byte_in x41 x5a b then Some (v - 55)%N
    else None in
  match d with
  | Some d => if N.ltb d radix then Some d else None
  | None => None
  end.
Fixpoint digits_value (radix : N) (acc : N) (s : str) : option N :=
  match s with
  | [] => Some acc
  | b :: s' =>
      match digit_of radix b with
      | Some d => digits_value radix (acc * radix + d) s'
      | None => None
      end
  end.
(** [from_str_radix] of an unsigned digit string into a signed type with
    maximum [limit]: fails on the empty string, on a non-digit, on overflow.
    (A leading [+] or [-] is accepted by Rust; no literal the lexer produces
    starts its digits with one.) *)
Definition from_str_radix (radix limit : N) (s : str) : option N :=
  match s with
  | [] => None
  | _ =>
      match digits_value radix 0 s with
      | Some v => if N.leb v limit then Some v else None
      | None => None
      end
  end.
Definition i32_max : N := 2147483647.
Definition i64_max : N := 9223372036854775807.

(** [is_float], value.rs:28-31. *)
Definition is_float (s : str) : bool := existsb (byte_eqb x2e) s.

(** The texts [f64::from_str] accepts, of those made of digits, [.], [e], [E],
    [+] and [-]: digits with an optional fraction, at least one digit, and an
    optional exponent with at least one digit. *)
Fixpoint drop_digits (s : str) : str :=
  match s with
  | b :: s' => if is_digit b then drop_digits s' else s
  | [] => []
  end.
Definition starts_with_digit (s : str) : bool :=
  match s with b :: _ => is_digit b | [] => false end.
Definition is_exponent (s : str) : bool :=
  match s with
  | [] => true
  | b :: s' =>
      if (byte_eqb b x65 || byte_eqb b x45)%bool then
        let s'' := match s' with
                   | c :: t => if (byte_eqb c x2b || byte_eqb c x2d)%bool then t else s'
                   | [] => []
                   end in
        (starts_with_digit s'' && match drop_digits s'' with [] => true | _ => false end)%bool
      else false
  end.
Definition f64_parses (s : str) : bool :=
  let int := starts_with_digit s in
  match drop_digits s with
  | b :: t =>
      if byte_eqb b x2e then
        ((int || starts_with_digit t) && is_exponent (drop_digits t))%bool
      else (int && is_exponent (b :: t))%bool
  | [] => int
  end.

(** [Number], value.rs:200-225. *)
Definition number_value (s : str) : outcome json :=
  let radix_prefix (p q : string) :=
    (Nat.ltb 2 (List.length s)
     && (str_eqb (firstn 2 s) (bs p) || str_eqb (firstn 2 s) (bs q)))%bool in
  let int (r : option N) : outcome json :=
    match r with Some v => Done (J_Int v) | None => Panicked end in
  if radix_prefix "0x"%string "0X"%string then int (from_str_radix 16 i32_max (skipn 2 s))
  else if radix_prefix "0o"%string "0O"%string then int (from_str_radix 8 i32_max (skipn 2 s))
  else if is_float s then (if f64_parses s then Done (J_Float s) else Panicked)
  else int (from_str_radix 10 i64_max s).

(** [parse_regex], value.rs:12-26, which looks for the last [/].  With no [/]
    it takes the last byte for it. (The slices are on byte indices; the literal
    ends with [/] and ASCII flags, see [scan_regex].) *)
Fixpoint last_slash (s : str) (i : nat) (found : option nat) : option nat :=
  match s with
  | [] => found
  | b :: s' => last_slash s' (S i) (if byte_eqb b x2f then Some i else found)
  end.
Definition parse_regex (s : str) : outcome (str * str) :=
  match s with
  | [] => Panicked                                  (* value.len() - 1 *)
  | _ =>
      let e := match last_slash s 0 None with Some i => i | None => List.length s - 1 end in
      if Nat.ltb e 1 then Panicked                  (* value[1..end] with end < 1 *)
      else Done (firstn (e - 1) (skipn 1 s), skipn (e + 1) s)
  end.

(** [SerializeInLoc for Literal], value.rs:170-246. *)
Definition a_literal (st en : N) (l : literal) : outcome json :=
  match l with
  | L_Undefined => obj st en "Literal" [("raw"%string, jstr (bs "undefined"))]
  | L_Null => obj st en "Literal" [("value"%string, jnull); ("raw"%string, jstr (bs "null"))]
  | L_True => obj st en "Literal" [("value"%string, jbool true); ("raw"%string, jstr (bs "true"))]
  | L_False => obj st en "Literal" [("value"%string, jbool false); ("raw"%string, jstr (bs "false"))]
  | L_Number s => obj st en "Literal" [("value"%string, number_value s); ("raw"%string, jstr s)]
  | L_Binary s =>
      obj st en "Literal"
        [("value"%string, match from_str_radix 2 i32_max (skipn 2 s) with
                          | Some v => Done (J_Int v)
                          | None => Panicked
                          end);
         ("raw"%string, jstr s)]
  | L_String s =>
      obj st en "Literal"
        [("value"%string, jstr (firstn (List.length s - 2) (skipn 1 s))); ("raw"%string, jstr s)]
  | L_RegEx s =>
      obj st en "Literal"
        [("regex"%string,
          '(p, f) <~ parse_regex s ;;
          Done (J_Obj [(bs "pattern", J_Str p); (bs "flags", J_Str f)]));
         ("raw"%string, jstr s)]
  end.

(** [SerializeInLoc for &str], value.rs:71-80: an identifier. *)
Definition a_identifier (st en : N) (s : str) : outcome json :=
  obj st en "Identifier" [("name"%string, jstr s)].
Definition a_ident (n : node str) : outcome json := a_identifier (n_start n) (n_end n) (n_item n).

(** [Serialize for TemplateQuasis], value.rs:48-69, and [TemplateElement],
    277-291.  [q.end - 1] on a [u32] panics at 0. *)
Fixpoint a_quasis (qs : list (node str)) : list (outcome json) :=
  match qs with
  | [] => []
  | q :: qs' =>
      (if N.eqb (n_end q) 0 then Panicked
       else
         obj (n_start q + 1) (n_end q - 1) "TemplateElement"
           [("tail"%string, jbool (match qs' with [] => true | _ => false end));
            ("value"%string,
             Done (J_Obj [(bs "raw", J_Str (n_item q)); (bs "cooked", J_Str (n_item q))]))])
      :: a_quasis qs'
  end.

(** Names, function.rs:58-97. *)
Definition a_name (n : fname) : outcome json :=
  match n with
  | Name_Empty => jnull
  | Name_Optional (Some n) => a_ident n
  | Name_Optional None => jnull
  | Name_Mandatory n => a_ident n
  end.
Definition in_class (n : fname) : string :=
  match n with Name_Mandatory _ => "ClassDeclaration" | _ => "ClassExpression" end.
Definition in_function (n : fname) : string :=
  match n with Name_Mandatory _ => "FunctionDeclaration" | _ => "FunctionExpression" end.
Definition a_method_kind (k : methodkind) : outcome json :=
  jstr (match k with
        | MK_Constructor => bs "constructor" | MK_Method => bs "method"
        | MK_Get => bs "get" | MK_Set => bs "set"
        end).
Definition a_decl_kind (k : declkind) : outcome json :=
  jstr (match k with DK_Const => bs "const" | DK_Let => bs "let" | DK_Var => bs "var" end).

(** The elements of an array, expression.rs:214-238: a hole is [null], and
    trailing holes are dropped. *)
Fixpoint drop_trailing (l : list (option (outcome json))) : list (option (outcome json)) :=
  match l with
  | [] => []
  | x :: l' =>
      match drop_trailing l', x with
      | [], None => []
      | r, _ => x :: r
      end
  end.
Definition hole (o : option (outcome json)) : outcome json :=
  match o with Some j => j | None => jnull end.

Definition a_node {A : Set} (f : N -> N -> A -> outcome json) (n : node A) : outcome json :=
  f (n_start n) (n_end n) (n_item n).
Definition a_opt {A : Set} (f : N -> N -> A -> outcome json) (o : option (node A)) : outcome json :=
  match o with Some n => a_node f n | None => jnull end.
Definition a_list {A : Set} (f : N -> N -> A -> outcome json) (l : list (node A)) : outcome json :=
  jarr (map (a_node f) l).

Local Open Scope string_scope.

(** expression.rs:41-298, value.rs, statement.rs:6-304, function.rs:21-129. *)
Fixpoint a_expression (st en : N) (e : expression) {struct e} : outcome json :=
  match e with
  | E_Void => Panicked                                   (* unreachable!(), 266 *)
  | E_This => obj st en "ThisExpression" []
  | E_Identifier s => a_identifier st en s
  | E_Literal l => a_literal st en l
  | E_Sequence b => obj st en "SequenceExpression" [("expressions", a_list a_expression b)]
  | E_Array b =>
      obj st en "ArrayExpression"
        [("elements",
          jarr (map hole (drop_trailing
            (map (fun n => match n_item n with
                           | E_Void => None
                           | _ => Some (a_node a_expression n)
                           end) b))))]
  | E_Member o p =>
      obj st en "MemberExpression"
        [("object", a_node a_expression o); ("property", a_ident p); ("computed", jbool false)]
  | E_ComputedMember o p =>
      obj st en "MemberExpression"
        [("object", a_node a_expression o); ("property", a_node a_expression p);
         ("computed", jbool true)]
  | E_MetaProperty m p =>
      obj st en "MetaProperty" [("meta", a_ident m); ("property", a_ident p)]
  | E_Call c args =>
      obj st en "CallExpression"
        [("callee", a_node a_expression c); ("arguments", a_list a_expression args)]
  | E_Binary op l r =>
      obj st en (expression_type op false)
        [("operator", jstr (operator_str op)); ("left", a_node a_expression l);
         ("right", a_node a_expression r)]
  | E_Prefix O_New x =>                                  (* 152-174 *)
      match n_item x with
      | E_Call c args =>
          obj st en "NewExpression"
            [("callee", a_node a_expression c); ("arguments", a_list a_expression args)]
      | E_Literal _ =>
          obj st en "NewExpression"
            [("callee", a_node a_expression x); ("arguments", jarr [])]
      | _ => Panicked                                    (* unimplemented!() *)
      end
  | E_Prefix op x =>
      obj st en (expression_type op true)
        [("operator", jstr (operator_str op)); ("argument", a_node a_expression x);
         ("prefix", jbool true)]
  | E_Postfix op x =>
      obj st en (expression_type op false)
        [("operator", jstr (operator_str op)); ("argument", a_node a_expression x);
         ("prefix", jbool false)]
  | E_Conditional t c a =>
      obj st en "ConditionalExpression"
        [("test", a_node a_expression t); ("consequent", a_node a_expression c);
         ("alternate", a_node a_expression a)]
  | E_Template t => a_template st en t
  | E_TaggedTemplate t q =>
      obj st en "TaggedTemplateExpression"
        [("tag", a_node a_expression t); ("quasi", a_node a_template q)]
  | E_Spread x => obj st en "SpreadElement" [("argument", a_node a_expression x)]
  | E_Arrow ps b =>
      obj st en "ArrowFunctionExpression"
        [("params", a_list a_pattern ps);
         ("body", match b with
                  | AB_Expression x => a_node a_expression x
                  | AB_Block b =>
                      obj (n_start b) (n_end b) "BlockStatement"
                        [("body", a_list a_statement (b_body (n_item b)))]
                  end)]
  | E_Object b => obj st en "ObjectExpression" [("properties", a_list a_property b)]
  | E_Function f => a_func st en f
  | E_Class c => a_class st en c
  end
with a_template (st en : N) (t : template) {struct t} : outcome json :=
  match t with
  | Template es qs =>
      obj st en "TemplateLiteral"
        [("quasis", jarr (a_quasis qs)); ("expressions", a_list a_expression es)]
  end
(* value.rs:106-145 *)
with a_property (st en : N) (p : property) {struct p} : outcome json :=
  match p with
  | P_Shorthand s => a_identifier st en s
  | P_Literal k v =>
      obj st en "Property"
        [("key", a_node a_key k); ("method", jbool false); ("shorthand", jbool false);
         ("computed", jbool (match n_item k with Key_Computed _ => true | _ => false end));
         ("value", a_node a_expression v); ("kind", jstr (bs "init"))]
  | P_Method k v =>
      obj st en "Property"
        [("key", a_node a_key k); ("method", jbool true); ("shorthand", jbool false);
         ("computed", jbool false); ("value", a_node a_func v); ("kind", jstr (bs "init"))]
  | P_Spread x => obj st en "SpreadProperty" [("argument", a_node a_expression x)]
  end
(* value.rs:147-168 *)
with a_key (st en : N) (k : property_key) {struct k} : outcome json :=
  match k with
  | Key_Computed e => a_node a_expression e
  | Key_Literal s | Key_Binary s => a_identifier st en s
  end
(* value.rs:248-275 *)
with a_pattern (st en : N) (p : pattern) {struct p} : outcome json :=
  match p with
  | Pat_Void => Panicked                                 (* unreachable!() *)
  | Pat_Identifier s => a_identifier st en s
  | Pat_Object ps => obj st en "ObjectPattern" [("keys", a_list a_property ps)]
  | Pat_Array es => obj st en "ArrayPattern" [("elements", a_list a_pattern es)]
  | Pat_Rest x => obj st en "RestElement" [("argument", a_ident x)]
  | Pat_Assign l r =>
      obj st en "AssignmentPattern" [("left", a_node a_pattern l); ("right", a_node a_expression r)]
  end
(* function.rs:115-130 *)
with a_func (st en : N) (f : func) {struct f} : outcome json :=
  match f with
  | Func n g ps b =>
      obj st en (in_function n)
        [("generator", jbool g); ("id", a_name n); ("params", a_list a_pattern ps);
         ("body", obj (n_start b) (n_end b) "BlockStatement"
                    [("body", a_list a_statement (b_body (n_item b)))])]
  end
(* function.rs:99-113, 46-56 *)
with a_class (st en : N) (c : class) {struct c} : outcome json :=
  match c with
  | Class n e b =>
      obj st en (in_class n)
        [("id", a_name n); ("superClass", a_opt a_expression e);
         ("body", obj (n_start b) (n_end b) "ClassBody"
                    [("body", a_list a_member (b_body (n_item b)))])]
  end
(* function.rs:21-44 *)
with a_member (st en : N) (m : class_member) {struct m} : outcome json :=
  match m with
  | CM_Error => Panicked
  | CM_Method is_static k kind v =>
      obj st en "MethodDefinition"
        [("kind", a_method_kind kind); ("static", jbool is_static); ("computed", jbool false);
         ("key", a_node a_key k); ("value", a_node a_func v)]
  | CM_Literal _ _ _ => Panicked                         (* unimplemented!() *)
  end
(* statement.rs:248-304 *)
with a_statement (st en : N) (s : statement) {struct s} : outcome json :=
  match s with
  | St_Empty => obj st en "EmptyStatement" []
  | St_Debugger => obj st en "DebuggerStatement" []
  | St_Expression e => obj st en "ExpressionStatement" [("expression", a_node a_expression e)]
  | St_Declaration k ds =>
      obj st en "VariableDeclaration"
        [("kind", a_decl_kind k); ("declarations", a_list a_declarator ds)]
  | St_Return v => obj st en "ReturnStatement" [("argument", a_opt a_expression v)]
  | St_Break l =>
      obj st en "BreakStatement" [("label", match l with Some l => a_ident l | None => jnull end)]
  | St_Continue l =>
      obj st en "ContinueStatement" [("label", match l with Some l => a_ident l | None => jnull end)]
  | St_Throw v => obj st en "ThrowStatement" [("argument", a_node a_expression v)]
  | St_If t c a =>
      obj st en "IfStatement"
        [("test", a_node a_expression t); ("consequent", a_node a_statement c);
         ("alternate", a_opt a_statement a)]
  | St_While t b =>
      obj st en "WhileStatement" [("test", a_node a_expression t); ("body", a_node a_statement b)]
  | St_Do b t =>
      obj st en "DoWhileStatement" [("body", a_node a_statement b); ("test", a_node a_expression t)]
  | St_For i t u b =>
      obj st en "ForStatement"
        [("init", a_opt a_for_init i); ("test", a_opt a_expression t);
         ("update", a_opt a_expression u); ("body", a_node a_statement b)]
  | St_ForIn l r b =>
      obj st en "ForInStatement"
        [("left", a_node a_for_init l); ("right", a_node a_expression r); ("body", a_node a_statement b)]
  | St_ForOf l r b =>
      obj st en "ForOfStatement"
        [("left", a_node a_for_init l); ("right", a_node a_expression r); ("body", a_node a_statement b)]
  | St_Try b h f =>
      obj st en "TryStatement"
        [("block", obj (n_start b) (n_end b) "BlockStatement"
                     [("body", a_list a_statement (b_body (n_item b)))]);
         ("handler", a_opt a_catch h);
         ("finalizer", match f with
                       | Some f => obj (n_start f) (n_end f) "BlockStatement"
                                     [("body", a_list a_statement (b_body (n_item f)))]
                       | None => jnull
                       end)]
  | St_Block b => obj st en "BlockStatement" [("body", a_list a_statement (b_body b))]
  | St_Labeled l b => obj st en "LabeledStatement" [("label", jstr l); ("body", a_node a_statement b)]
  | St_Function f => a_func st en f
  | St_Class c => a_class st en c
  | St_Switch d c =>
      obj st en "SwitchStatement"
        [("discriminant", a_node a_expression d); ("cases", a_list a_case (b_body (n_item c)))]
  | St_Import ss src =>
      obj st en "ImportDeclaration"
        [("specifiers",
          jarr (map (fun n =>
            match n_item n with
            | IS_Named i l =>
                obj (n_start n) (n_end n) "ImportSpecifier" [("imported", a_ident i); ("local", a_ident l)]
            | IS_Default l => obj (n_start n) (n_end n) "ImportDefaultSpecifier" [("local", a_ident l)]
            | IS_Namespace l => obj (n_start n) (n_end n) "ImportNamespaceSpecifier" [("local", a_ident l)]
            end) ss));
         ("source", jstr src)]
  end
with a_declarator (st en : N) (d : declarator) {struct d} : outcome json :=
  match d with
  | Declarator p i =>
      obj st en "VariableDeclarator" [("id", a_node a_pattern p); ("init", a_opt a_expression i)]
  end
(* statement.rs:138-148 *)
with a_for_init (st en : N) (i : for_init) {struct i} : outcome json :=
  match i with
  | FI_Declaration k ds =>
      obj st en "VariableDeclaration"
        [("kind", a_decl_kind k); ("declarations", a_list a_declarator ds)]
  | FI_Expression e => a_expression st en (n_item e)
  end
with a_case (st en : N) (c : switch_case) {struct c} : outcome json :=
  match c with
  | SwitchCase t b =>
      obj st en "SwitchCase" [("test", a_opt a_expression t); ("consequent", a_list a_statement b)]
  end
with a_catch (st en : N) (c : catch_clause) {struct c} : outcome json :=
  match c with
  | CatchClause p b =>
      obj st en "CatchClause"
        [("param", a_node a_pattern p);
         ("body", obj (n_start b) (n_end b) "BlockStatement"
                    [("body", a_list a_statement (b_body (n_item b)))])]
  end.

(** [Serialize for Module], mod.rs:49-77. *)
Definition a_module (m : module) : outcome json :=
  let st := match m with [] => 0%N | n :: _ => n_start n end in
  let en := match rev m with [] => 0%N | n :: _ => n_end n end in
  obj st en "Program" [("body", a_list a_statement m)].
