(** Specification vocabulary: the source text at which nodes begin and end. *)
From Coq Require Import List NArith String.
From Coq.Strings Require Import Byte.
From Verif Require Import Bytes Token SpecTree SpecPos Ast.
Import ListNotations.
Open Scope list_scope.

(** The source has [w] from position [p] on; it has [w] right before position [p]. *)
Definition text_at (src : str) (p : N) (w : str) : Prop := exists rest, skipn (N.to_nat p) src = w ++ rest.
Definition text_before (src : str) (p : N) (w : str) : Prop := exists q, (N.to_nat q + List.length w = N.to_nat p)%nat /\ text_at src q w.
(** The program ends at position [p]: the source does, or it goes on with a NUL byte. *)
Definition program_end (src : str) (p : N) : Prop := exists rest, skipn (N.to_nat p) (src ++ [x00]) = x00 :: rest.

(** How prefix and postfix operators are written. *)
Definition prefix_word (o : operator) : option str :=
  match o with
  | O_New => Some (bs "new") | O_Increment => Some (bs "++") | O_Decrement => Some (bs "--") | O_LogicalNot => Some (bs "!")
  | O_BitwiseNot => Some (bs "~") | O_Typeof => Some (bs "typeof") | O_Void => Some (bs "void") | O_Delete => Some (bs "delete")
  | O_Addition => Some (bs "+") | O_Subtraction => Some (bs "-")
  | _ => None
  end.
Definition postfix_word (o : operator) : option str :=
  match o with O_Increment => Some (bs "++") | O_Decrement => Some (bs "--") | _ => None end.
Definition declaration_word (k : declkind) : str :=
  match k with DK_Var => bs "var" | DK_Let => bs "let" | DK_Const => bs "const" end.
Definition constant_word (e : expression) : option str :=
  match e with
  | E_This => Some (bs "this")
  | E_Literal L_Undefined => Some (bs "undefined") | E_Literal L_Null => Some (bs "null")
  | E_Literal L_True => Some (bs "true") | E_Literal L_False => Some (bs "false")
  | _ => None
  end.

(** The word or punctuator a node begins with. *)
Definition first_word (a : any) : option str :=
  match a with
  | A_Expr n =>
      match n_item n with
      | E_Array _ => Some (bs "[") | E_Object _ => Some (bs "{") | E_Call _ _ => Some (bs "(")
      | E_MetaProperty _ _ => Some (bs "new") | E_Prefix o _ => prefix_word o | E_Spread _ => Some (bs "...")
      | E_Function _ => Some (bs "function") | E_Class _ => Some (bs "class")
      | E_Arrow [] _ => Some (bs "(")
      | e => constant_word e
      end
  | A_Prop n => match n_item n with P_Spread _ => Some (bs "...") | _ => None end
  | A_Key n => match n_item n with Key_Computed _ => Some (bs "[") | _ => None end
  | A_Pat n => match n_item n with Pat_Object _ => Some (bs "{") | Pat_Array _ => Some (bs "[") | Pat_Rest _ => Some (bs "...") | _ => None end
  | A_Func _ => Some (bs "(")
  | A_Member n => match n_item n with CM_Method true _ _ _ | CM_Literal true _ _ => Some (bs "static")
      | CM_Method false _ MK_Get _ => Some (bs "get") | CM_Method false _ MK_Set _ => Some (bs "set") | _ => None end
  | A_Body _ | A_ClassBody _ | A_Cases _ => Some (bs "{")
  | A_Stmt n =>
      match n_item n with
      | St_Empty => Some (bs ";") | St_Debugger => Some (bs "debugger") | St_Declaration k _ => Some (declaration_word k)
      | St_Return _ => Some (bs "return") | St_Break _ => Some (bs "break") | St_Continue _ => Some (bs "continue")
      | St_Throw _ => Some (bs "throw") | St_If _ _ _ => Some (bs "if") | St_While _ _ => Some (bs "while") | St_Do _ _ => Some (bs "do")
      | St_For _ _ _ _ | St_ForIn _ _ _ | St_ForOf _ _ _ => Some (bs "for") | St_Try _ _ _ => Some (bs "try")
      | St_Block _ => Some (bs "{") | St_Function _ => Some (bs "function") | St_Class _ => Some (bs "class")
      | St_Labeled l _ => Some l | St_Switch _ _ => Some (bs "switch") | St_Import (_ :: _) _ => Some (bs "import")
      | _ => None
      end
  | A_ForInit n => match n_item n with FI_Declaration k _ => Some (declaration_word k) | _ => None end
  | A_Case n => match n_item n with SwitchCase (Some _) _ => Some (bs "case") | SwitchCase None _ => Some (bs "default") end
  | A_Catch _ => Some (bs "catch")
  | A_Spec n => match n_item n with IS_Namespace _ => Some (bs "*") | _ => None end
  | _ => None
  end.
(** The word or punctuator a node ends with. *)
Definition last_word (a : any) : option str :=
  match a with
  | A_Expr n =>
      match n_item n with
      | E_Array _ => Some (bs "]") | E_Object _ => Some (bs "}") | E_Call _ _ => Some (bs ")")
      | E_Postfix o _ => postfix_word o
      | e => constant_word e
      end
  | A_Key n => match n_item n with Key_Computed _ => Some (bs "]") | _ => None end
  | A_Pat n => match n_item n with Pat_Object _ => Some (bs "}") | Pat_Array _ => Some (bs "]") | _ => None end
  | A_Stmt n =>
      match n_item n with
      | St_Empty => Some (bs ";") | St_Debugger => Some (bs "debugger") | St_Do _ _ => Some (bs ")")
      | St_Return None => Some (bs "return") | St_Break None => Some (bs "break") | St_Continue None => Some (bs "continue")
      | _ => None
      end
  | A_Case n => match n_item n with SwitchCase _ [] => Some (bs ":") | _ => None end
  | _ => None
  end.
(** The node ends with a closing brace, which the end of the program can stand for. *)
Definition braced (a : any) : bool :=
  match a with
  | A_Body _ | A_ClassBody _ | A_Cases _ => true
  | A_Stmt n => match n_item n with St_Block _ => true | _ => false end
  | _ => false
  end.
(** The node takes up no room: holes in arrays. *)
Definition hole (a : any) : bool :=
  match a with
  | A_Expr n => match n_item n with E_Void => true | _ => false end
  | A_Pat n => match n_item n with Pat_Void => true | _ => false end
  | _ => false
  end.

(** The part a node begins with. *)
Definition first_part (a : any) : option any :=
  match a with
  | A_Expr n =>
      match n_item n with
      | E_Member o _ | E_ComputedMember o _ => Some (A_Expr o)
      | E_Binary _ l _ => Some (A_Expr l) | E_Postfix _ e => Some (A_Expr e) | E_Conditional t _ _ => Some (A_Expr t)
      | E_TaggedTemplate t _ => Some (A_Expr t)
      | E_Sequence (e :: _) => Some (A_Expr e)
      | E_Arrow (p :: _) _ => Some (A_Pat p)
      | _ => None
      end
  | A_Prop n => match n_item n with P_Literal k _ | P_Method k _ => Some (A_Key k) | _ => None end
  | A_Pat n => match n_item n with Pat_Assign l _ => Some (A_Pat l) | _ => None end
  | A_Member n => match n_item n with CM_Method false k MK_Method _ | CM_Method false k MK_Constructor _ => Some (A_Key k) | _ => None end
  | A_Spec n => match n_item n with IS_Named i _ | IS_Default i => Some (A_Ident i) | _ => None end
  | A_Declarator n => match n_item n with Declarator p _ => Some (A_Pat p) end
  | A_ForInit n => match n_item n with FI_Expression e => Some (A_Expr e) | _ => None end
  | _ => None
  end.
(** The part a node ends with. *)
Definition body_part (f : func) : any := match f with Func _ _ _ b => A_Body b end.
Definition class_part (c : class) : any := match c with Class _ _ b => A_ClassBody b end.
Definition last_part (a : any) : option any :=
  match a with
  | A_Expr n =>
      match n_item n with
      | E_Member _ p | E_MetaProperty _ p => Some (A_Ident p)
      | E_Binary _ _ r => Some (A_Expr r) | E_Conditional _ _ e => Some (A_Expr e)
      | E_TaggedTemplate _ q => Some (A_Tpl q) | E_Spread e => Some (A_Expr e)
      | E_Function f => Some (body_part f) | E_Class c => Some (class_part c)
      | _ => None
      end
  | A_Prop n => match n_item n with P_Literal _ v => Some (A_Expr v) | P_Method _ f => Some (A_Func f) | _ => None end
  | A_Pat n => match n_item n with Pat_Rest i => Some (A_Ident i) | Pat_Assign _ e => Some (A_Expr e) | _ => None end
  | A_Func n => Some (body_part (n_item n))
  | A_Member n => match n_item n with CM_Method _ _ _ f => Some (A_Func f) | CM_Literal _ _ e => Some (A_Expr e) | CM_Error => None end
  | A_Stmt n =>
      match n_item n with
      | St_Expression e | St_Return (Some e) | St_Throw e => Some (A_Expr e)
      | St_Break (Some i) | St_Continue (Some i) => Some (A_Ident i)
      | St_If _ s None | St_If _ _ (Some s) | St_While _ s | St_For _ _ _ s | St_ForIn _ _ s | St_ForOf _ _ s | St_Labeled _ s => Some (A_Stmt s)
      | St_Try _ _ (Some b) => Some (A_Body b) | St_Try _ (Some c) None => Some (A_Catch c) | St_Try b None None => Some (A_Body b)
      | St_Function f => Some (body_part f) | St_Class c => Some (class_part c)
      | St_Switch _ cs => Some (A_Cases cs)
      | _ => None
      end
  | A_Declarator n => match n_item n with Declarator p None => Some (A_Pat p) | Declarator _ (Some e) => Some (A_Expr e) end
  | A_ForInit n => match n_item n with FI_Expression e => Some (A_Expr e) | _ => None end
  | A_Case n => match n_item n with SwitchCase _ (s :: ss) => Some (A_Stmt (List.last ss s)) | _ => None end
  | A_Catch n => match n_item n with CatchClause _ b => Some (A_Body b) end
  | _ => None
  end.

(** The keys of properties and methods, with the text at which they are located: their own text; for a getter or
    setter the word get or set. *)
Definition key_name (k : node property_key) : option (node property_key * str) :=
  match n_item k with Key_Literal s | Key_Binary s => Some (k, s) | Key_Computed _ => None end.
Definition member_key (kind : methodkind) (k : node property_key) : option (node property_key * str) :=
  match kind with MK_Get => Some (k, bs "get") | MK_Set => Some (k, bs "set") | MK_Method | MK_Constructor => key_name k end.
Definition key_word (a : any) : option (node property_key * str) :=
  match a with
  | A_Prop n => match n_item n with P_Literal k _ | P_Method k _ => key_name k | _ => None end
  | A_Member n => match n_item n with CM_Method _ k kind _ => member_key kind k | _ => None end
  | _ => None
  end.

(** The specifiers of an import and the name of the module it imports from. *)
Definition import_of (a : any) : option (list (node import_specifier) * str) :=
  match a with A_Stmt n => match n_item n with St_Import specs source => Some (specs, source) | _ => None end | _ => None end.
Definition quoted_name (q : byte) (source : str) : str := q :: source ++ [q].

(** The node begins and ends where it should. *)
Record edges (src : str) (a : any) : Prop := Edges {
  ed_first : forall w, first_word a = Some w -> text_at src (start_of a) w;
  ed_last : forall w, last_word a = Some w -> text_before src (end_of a) w;
  ed_braced : braced a = true -> text_before src (end_of a) (bs "}") \/ program_end src (end_of a);
  ed_hole : hole a = true -> start_of a = end_of a;
  ed_first_part : forall c, first_part a = Some c -> start_of a = start_of c;
  ed_last_part : forall c, last_part a = Some c -> end_of a = end_of c;
  ed_key : forall k w, key_word a = Some (k, w) -> text_at src (n_start k) w /\ text_before src (n_end k) w;
  (* a sequence has a first part *)
  ed_sequence : forall n, a = A_Expr n -> n_item n <> E_Sequence [];
  (* a template spans its pieces *)
  ed_template : forall es qs, template_of a = Some (Template es qs) ->
    exists q more, qs = q :: more /\ start_of a = n_start q /\ end_of a = n_end (List.last more q);
  (* an import ends with the quoted name of the module; without specifiers, it also begins there *)
  ed_import : forall specs source, import_of a = Some (specs, source) -> exists q, (q = """"%byte \/ q = "'"%byte) /\
    text_before src (end_of a) (quoted_name q source) /\ (specs = [] -> text_at src (start_of a) (quoted_name q source))
}.
