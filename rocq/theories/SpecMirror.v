(** What each object of the JSON of a module says (PropMirror.v).  [slots] is the table of the ESTree
    fields of every kind of node; [mirrors a x] says that the JSON [x] describes the tree below [a].
    Nothing here uses the serialiser: only the type of JSON values is taken from Astgen.v. *)
From Coq Require Import List NArith Bool String.
From Coq.Strings Require Import Byte.
From Verif Require Import Bytes Token Lexer Ast Astgen SpecTree SpecPos SpecJson.
Import ListNotations.
Open Scope list_scope.

(** What a field holds: a node, perhaps a node, nodes in order, the elements of an array literal, the
    chunks of a template, a text, a truth value, or something specified elsewhere (C36, C48). *)
Inductive slot : Type :=
| Child (a : any)
| Optional (o : option any)
| Children (l : list any)
| Elements (l : list (node expression))
| Chunks (l : list (node str))
| Text (s : str)
| Flag (b : bool)
| Null
| Elsewhere.

Local Open Scope string_scope.
Definition name_slot (n : fname) : slot :=
  match n with
  | Name_Empty => Optional None
  | Name_Optional o => Optional (option_map A_Ident o)
  | Name_Mandatory n => Optional (Some (A_Ident n))
  end.
Definition function_slots (f : func) : list (string * slot) :=
  match f with
  | Func n generator ps b =>
      [("id", name_slot n); ("params", Children (map A_Pat ps)); ("body", Child (A_Body b)); ("generator", Flag generator)]
  end.
Definition class_slots (c : class) : list (string * slot) :=
  match c with
  | Class n e b => [("id", name_slot n); ("superClass", Optional (option_map A_Expr e)); ("body", Child (A_ClassBody b))]
  end.
Definition template_slots (t : template) : list (string * slot) :=
  match t with Template es qs => [("quasis", Chunks qs); ("expressions", Children (map A_Expr es))] end.
Definition literal_slots (l : literal) : list (string * slot) :=
  match l with
  | L_Undefined => [("raw", Text (bs "undefined"))]
  | L_Null => [("raw", Text (bs "null")); ("value", Null)]
  | L_True => [("raw", Text (bs "true")); ("value", Flag true)]
  | L_False => [("raw", Text (bs "false")); ("value", Flag false)]
  | L_Number s | L_Binary s | L_String s => [("raw", Text s); ("value", Elsewhere)]
  | L_RegEx s => [("raw", Text s); ("regex", Elsewhere)]
  end.
Definition computed_key (k : node property_key) : bool := match n_item k with Key_Computed _ => true | _ => false end.
Definition expression_slots (e : expression) : list (string * slot) :=
  match e with
  | E_Void | E_This => []
  | E_Identifier s => [("name", Text s)]
  | E_Literal l => literal_slots l
  | E_Sequence es => [("expressions", Children (map A_Expr es))]
  | E_Array es => [("elements", Elements es)]
  | E_Member o p => [("object", Child (A_Expr o)); ("property", Child (A_Ident p)); ("computed", Flag false)]
  | E_ComputedMember o p => [("object", Child (A_Expr o)); ("property", Child (A_Expr p)); ("computed", Flag true)]
  | E_MetaProperty m p => [("meta", Child (A_Ident m)); ("property", Child (A_Ident p))]
  | E_Call f args => [("callee", Child (A_Expr f)); ("arguments", Children (map A_Expr args))]
  | E_Binary op l r => [("operator", Text (operator_str op)); ("left", Child (A_Expr l)); ("right", Child (A_Expr r))]
  | E_Prefix O_New x =>
      (* [new f(args)] and [new f] *)
      match n_item x with
      | E_Call f args => [("callee", Child (A_Expr f)); ("arguments", Children (map A_Expr args))]
      | _ => [("callee", Child (A_Expr x)); ("arguments", Children [])]
      end
  | E_Prefix op x => [("operator", Text (operator_str op)); ("argument", Child (A_Expr x)); ("prefix", Flag true)]
  | E_Postfix op x => [("operator", Text (operator_str op)); ("argument", Child (A_Expr x)); ("prefix", Flag false)]
  | E_Conditional t c a => [("test", Child (A_Expr t)); ("consequent", Child (A_Expr c)); ("alternate", Child (A_Expr a))]
  | E_Template t => template_slots t
  | E_TaggedTemplate t q => [("tag", Child (A_Expr t)); ("quasi", Child (A_Tpl q))]
  | E_Spread x => [("argument", Child (A_Expr x))]
  | E_Arrow ps b =>
      [("params", Children (map A_Pat ps));
       ("body", Child (match b with AB_Expression x => A_Expr x | AB_Block b => A_Body b end))]
  | E_Object ps => [("properties", Children (map A_Prop ps))]
  | E_Function f => function_slots f
  | E_Class c => class_slots c
  end.
Definition declaration_slots (k : declkind) (ds : list (node declarator)) : list (string * slot) :=
  [("kind", Text (match k with DK_Var => bs "var" | DK_Let => bs "let" | DK_Const => bs "const" end));
   ("declarations", Children (map A_Declarator ds))].
Definition statement_slots (s : statement) : list (string * slot) :=
  match s with
  | St_Empty | St_Debugger => []
  | St_Expression e => [("expression", Child (A_Expr e))]
  | St_Declaration k ds => declaration_slots k ds
  | St_Return v => [("argument", Optional (option_map A_Expr v))]
  | St_Break l | St_Continue l => [("label", Optional (option_map A_Ident l))]
  | St_Throw v => [("argument", Child (A_Expr v))]
  | St_If t c a =>
      [("test", Child (A_Expr t)); ("consequent", Child (A_Stmt c)); ("alternate", Optional (option_map A_Stmt a))]
  | St_While t b => [("test", Child (A_Expr t)); ("body", Child (A_Stmt b))]
  | St_Do b t => [("body", Child (A_Stmt b)); ("test", Child (A_Expr t))]
  | St_For i t u b =>
      [("init", Optional (option_map A_ForInit i)); ("test", Optional (option_map A_Expr t));
       ("update", Optional (option_map A_Expr u)); ("body", Child (A_Stmt b))]
  | St_ForIn l r b | St_ForOf l r b =>
      [("left", Child (A_ForInit l)); ("right", Child (A_Expr r)); ("body", Child (A_Stmt b))]
  | St_Try b h f =>
      [("block", Child (A_Body b)); ("handler", Optional (option_map A_Catch h)); ("finalizer", Optional (option_map A_Body f))]
  | St_Block b => [("body", Children (map A_Stmt (b_body b)))]
  | St_Labeled l b => [("label", Text l); ("body", Child (A_Stmt b))]
  | St_Function f => function_slots f
  | St_Class c => class_slots c
  | St_Switch d cs => [("discriminant", Child (A_Expr d)); ("cases", Children (map A_Case (b_body (n_item cs))))]
  | St_Import ss src => [("specifiers", Children (map A_Spec ss)); ("source", Text src)]
  end.
(** The fields of a node besides type, start and end.  Where ratel differs from ESTree the table has what
    ratel writes: a shorthand property is an identifier, the properties of an object pattern are its
    [keys], labels and import sources are texts, and [computed] is false for every method. *)
Definition slots (a : any) : list (string * slot) :=
  match a with
  | A_Ident n => [("name", Text (n_item n))]
  | A_Expr n => expression_slots (n_item n)
  | A_Tpl n => template_slots (n_item n)
  | A_Prop n =>
      match n_item n with
      | P_Shorthand s => [("name", Text s)]
      | P_Literal k v =>
          [("key", Child (A_Key k)); ("value", Child (A_Expr v)); ("computed", Flag (computed_key k));
           ("kind", Text (bs "init")); ("method", Flag false); ("shorthand", Flag false)]
      | P_Method k f =>
          [("key", Child (A_Key k)); ("value", Child (A_Func f)); ("computed", Flag false);
           ("kind", Text (bs "init")); ("method", Flag true); ("shorthand", Flag false)]
      | P_Spread x => [("argument", Child (A_Expr x))]
      end
  | A_Key n => match n_item n with Key_Computed _ => [] | Key_Literal s | Key_Binary s => [("name", Text s)] end
  | A_Pat n =>
      match n_item n with
      | Pat_Void => []
      | Pat_Identifier s => [("name", Text s)]
      | Pat_Object ps => [("keys", Children (map A_Prop ps))]
      | Pat_Array es => [("elements", Children (map A_Pat es))]
      | Pat_Rest x => [("argument", Child (A_Ident x))]
      | Pat_Assign l r => [("left", Child (A_Pat l)); ("right", Child (A_Expr r))]
      end
  | A_Func n => function_slots (n_item n)
  | A_Member n =>
      match n_item n with
      | CM_Method static k kind f =>
          [("key", Child (A_Key k)); ("value", Child (A_Func f)); ("static", Flag static); ("computed", Flag false);
           ("kind", Text (match kind with
                          | MK_Constructor => bs "constructor" | MK_Method => bs "method"
                          | MK_Get => bs "get" | MK_Set => bs "set"
                          end))]
      | CM_Error | CM_Literal _ _ _ => []
      end
  | A_Body n => [("body", Children (map A_Stmt (b_body (n_item n))))]
  | A_ClassBody n => [("body", Children (map A_Member (b_body (n_item n))))]
  | A_Cases _ => []
  | A_Stmt n => statement_slots (n_item n)
  | A_Declarator n =>
      match n_item n with Declarator p i => [("id", Child (A_Pat p)); ("init", Optional (option_map A_Expr i))] end
  | A_ForInit n =>
      match n_item n with FI_Declaration k ds => declaration_slots k ds | FI_Expression _ => [] end
  | A_Case n =>
      match n_item n with
      | SwitchCase t b => [("test", Optional (option_map A_Expr t)); ("consequent", Children (map A_Stmt b))]
      end
  | A_Catch n =>
      match n_item n with CatchClause p b => [("param", Child (A_Pat p)); ("body", Child (A_Body b))] end
  | A_Spec n =>
      match n_item n with
      | IS_Named i l => [("imported", Child (A_Ident i)); ("local", Child (A_Ident l))]
      | IS_Default l | IS_Namespace l => [("local", Child (A_Ident l))]
      end
  end.
Local Close Scope string_scope.

(** The elements of a template: the texts of the chunks in order, the last one a tail.  (Their offsets: C51.) *)
Inductive chunk_objects : list (node str) -> list json -> Prop :=
| chunk_none : chunk_objects [] []
| chunk_more q qs fields x xs :
    estree_node (bs "TemplateElement") fields x ->
    In (bs "tail", J_Bool (match qs with [] => true | _ => false end)) fields ->
    In (bs "value", J_Obj [(bs "raw", J_Str (n_item q)); (bs "cooked", J_Str (n_item q))]) fields ->
    chunk_objects qs xs -> chunk_objects (q :: qs) (x :: xs).

Definition is_hole (n : node expression) : Prop := n_item n = E_Void.

Inductive mirrors : any -> json -> Prop :=
(** An object of the right type with exactly the fields of the table, each once. *)
| mirrors_object a ty fields x :
    estree_type a = Some ty -> estree_node (bs ty) fields x -> NoDup (bs "type" :: map fst fields) ->
    In (bs "start", J_Int (start_of a)) fields -> In (bs "end", J_Int (end_of a)) fields ->
    (forall k v, In (k, v) fields -> k = bs "start" \/ k = bs "end" \/ exists n s, In (n, s) (slots a) /\ k = bs n) ->
    (forall n s, In (n, s) (slots a) -> exists v, In (bs n, v) fields /\ holds s v) ->
    mirrors a x
(** A computed key is written as its expression, *)
| mirrors_key n e x : n_item n = Key_Computed e -> mirrors (A_Expr e) x -> mirrors (A_Key n) x
(** the initialiser of a loop as its expression, at the initialiser's place. *)
| mirrors_init n e x :
    n_item n = FI_Expression e -> mirrors (A_Expr (Node (n_start n) (n_end n) (n_item e))) x -> mirrors (A_ForInit n) x
with holds : slot -> json -> Prop :=
| holds_child a x : mirrors a x -> holds (Child a) x
| holds_none : holds (Optional None) J_Null
| holds_some a x : mirrors a x -> holds (Optional (Some a)) x
| holds_children l xs : Forall2 mirrors l xs -> holds (Children l) (J_Arr xs)
(** Holes are null, trailing holes are left out. *)
| holds_elements kept trailing xs :
    Forall is_hole trailing -> (forall l n, kept = l ++ [n] -> ~ is_hole n) ->
    Forall2 (fun n x => (is_hole n /\ x = J_Null) \/ (~ is_hole n /\ mirrors (A_Expr n) x)) kept xs ->
    holds (Elements (kept ++ trailing)) (J_Arr xs)
| holds_chunks qs xs : chunk_objects qs xs -> holds (Chunks qs) (J_Arr xs)
| holds_text s : holds (Text s) (J_Str s)
| holds_flag b : holds (Flag b) (J_Bool b)
| holds_null : holds Null J_Null
| holds_elsewhere x : holds Elsewhere x.

(** The JSON of a program: its statements in order, and the span from the first to the last. *)
Definition program_json (m : module) (j : json) : Prop :=
  exists xs st en, Forall2 mirrors (map A_Stmt m) xs /\
    j = J_Obj [(bs "type", J_Str (bs "Program")); (bs "body", J_Arr xs); (bs "start", J_Int st); (bs "end", J_Int en)] /\
    match m with [] => st = 0%N | s :: _ => st = n_start s end /\
    (m = [] -> en = 0%N) /\ (forall l s, m = l ++ [s] -> en = n_end s).
