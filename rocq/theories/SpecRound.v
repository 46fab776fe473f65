(** Which trees the code generator prints so that they can be read back: the
    vocabulary of C03.  [fits] is a condition on every node of a tree; it speaks
    about the tree and, for the binding powers, about where the generator puts
    parentheses ([expression_bp], [operator_bp]). *)
From Coq Require Import List NArith Bool String.
From Coq.Strings Require Import Byte.
From Verif Require Import Bytes Token SpecTokens SpecChunks SpecTree SpecUtf8 SpecHazard SpecPrec Ast Codegen Tables Levels.
Import ListNotations.
Open Scope nat_scope.
Open Scope list_scope.

(** ** Open edges

    [ll e]: how tightly [e] holds together when something to its left could take
    its first part: the least level of an operator on its left edge that is not
    inside parentheses or brackets (100 if there is none, 0 for holes and
    spreads, which are no expressions).
    [rl e]: the same for its right edge: a token of a level above [rl e] after
    [e] would be taken by the last part of [e]. *)
Definition closed_level : nat := 100.
(** As an operand the generator puts in parentheses when its binding power is less than [k]. *)
Definition in_parens (k : nat) (e : expression) : bool := Nat.ltb (expression_bp e) k.

Fixpoint ll (e : expression) : nat :=
  match e with
  | E_Void | E_Spread _ => 0
  | E_Sequence _ => 1
  | E_Conditional t _ _ => Nat.min 4 (ll (n_item t))
  | E_Binary op l _ =>
      Nat.min (olevel op) (if in_parens (operator_bp op) (n_item l) then closed_level else ll (n_item l))
  | E_Member o _ | E_ComputedMember o _ => if in_parens 19 (n_item o) then closed_level else ll (n_item o)
  | E_Call x _ | E_Postfix _ x | E_TaggedTemplate x _ => ll (n_item x)
  | _ => closed_level
  end.
Fixpoint rl (e : expression) : nat :=
  match e with
  | E_Sequence _ => 0
  | E_Conditional _ _ a => Nat.min 1 (rl (n_item a))
  | E_Binary op _ r =>
      Nat.min (rlevel op) (if in_parens (operator_bp op + 1) (n_item r) then closed_level else rl (n_item r))
  | E_Prefix _ x => Nat.min 15 (rl (n_item x))
  | E_Arrow _ (AB_Expression x) => Nat.min 1 (rl (n_item x))
  | _ => closed_level
  end.
Definition ll_in (k : nat) (e : expression) : nat := if in_parens k e then closed_level else ll e.
Definition rl_in (k : nat) (e : expression) : nat := if in_parens k e then closed_level else rl e.
(** The expression whose text comes first ([E_This] if that is a parenthesis). *)
Fixpoint leftmost (e : expression) : expression :=
  match e with
  | E_Sequence (x :: _) => leftmost (n_item x)
  | E_Conditional t _ _ => leftmost (n_item t)
  | E_Binary op l _ => if in_parens (operator_bp op) (n_item l) then E_This else leftmost (n_item l)
  | E_Member o _ | E_ComputedMember o _ => if in_parens 19 (n_item o) then E_This else leftmost (n_item o)
  | E_Call x _ | E_Postfix _ x | E_TaggedTemplate x _ => leftmost (n_item x)
  | _ => e
  end.
Definition left_in (k : nat) (e : expression) : expression := if in_parens k e then E_This else leftmost e.
Definition starts_object (e : expression) : bool := match leftmost e with E_Object _ => true | _ => false end.
Definition starts_bare (e : expression) : bool := is_allowed_as_bare_statement (leftmost e).

(** Can stand between commas. *)
Definition element (e : expression) : Prop := 1 < ll e /\ 1 <= rl e.
(** The first character of a text. *)
Definition first (c : code) : option byte := match c with GBytes (b :: _) :: _ => Some b | _ => None end.
(** The operator and the next text would be read as one token. *)
Definition sticks (op : operator) (c : code) : Prop :=
  (operator_str op = bs "+" /\ first c = Some "+"%byte) \/
  (operator_str op = bs "-" /\ first c = Some "-"%byte) \/
  (operator_str op = bs "/" /\ first c = Some "/"%byte).

(** ** Texts *)
(** A word that starts with an ASCII character. *)
Definition ascii_word (s : str) : Prop :=
  Forall (fun b => word_byte b = true) s /\ exists b r, s = b :: r /\ word_first b = true.
Definition literal_fits (l : literal) : Prop :=
  match l with
  | L_Undefined | L_Null | L_True | L_False => True
  | L_Number s => exists more, number s T_LiteralNumber more
  | L_Binary s => exists more, number s T_LiteralBinary more
  | L_String s => quoted s
  | L_RegEx s => exists b body flags, s = "/"%byte :: (b :: body) ++ "/"%byte :: flags /\
      regex_inside false (b :: body) /\ ~ In b ["/"; "*"; "="]%byte /\
      Forall (fun x => one_of regex_flags x = true) flags
  end.
Definition template_fits (t : template) : Prop :=
  match t with
  | Template es qs =>
      List.length qs = S (List.length es) /\ Forall (fun q => template_inside (n_item q)) qs /\
      Forall (fun e => 0 < ll (n_item e)) es
  end.

(** ** Patterns and functions *)
Section Fits.
(** Which characters outside ASCII are alphanumeric. *)
Variable alnum : N -> bool.
Definition base_pattern (p : pattern) : Prop :=
  match p with Pat_Identifier _ | Pat_Object _ | Pat_Array _ => True | _ => False end.
Definition param_pattern (p : pattern) : Prop :=
  base_pattern p \/ match p with Pat_Assign _ _ => True | _ => False end.
Definition rest_pattern (p : pattern) : Prop := match p with Pat_Rest _ => True | _ => False end.
Definition pattern_fits (p : pattern) : Prop :=
  match p with
  | Pat_Void => True
  | Pat_Identifier s => identifier_name alnum s
  | Pat_Object _ => True
  | Pat_Array es => Forall (fun x => n_item x = Pat_Void \/ param_pattern (n_item x)) es /\
                    (forall x, es = [x] -> n_item x <> Pat_Void)
  | Pat_Rest x => identifier_name alnum (n_item x)
  | Pat_Assign l r => base_pattern (n_item l) /\ element (n_item r)
  end.
(** Parameters: a rest parameter comes last. *)
Fixpoint params_fit (ps : list (node pattern)) : Prop :=
  match ps with
  | [] => True
  | p :: ps' => (param_pattern (n_item p) \/ (rest_pattern (n_item p) /\ ps' = [])) /\ params_fit ps'
  end.
(** Parameters of an arrow function, which are read as expressions. *)
Definition arrow_param (p : pattern) : Prop :=
  match p with
  | Pat_Identifier _ => True
  | Pat_Assign l _ => match n_item l with Pat_Identifier _ => True | _ => False end
  | _ => False
  end.
Definition func_fits (f : func) : Prop :=
  match f with Func _ generator ps _ => generator = false /\ params_fit ps end.
Definition declared_name (n : fname) : Prop := exists i, n = Name_Mandatory i /\ identifier_name alnum (n_item i).
Definition optional_name (n : fname) : Prop :=
  n = Name_Optional None \/ exists i, n = Name_Optional (Some i) /\ identifier_name alnum (n_item i).
Definition func_name (f : func) : fname := match f with Func n _ _ _ => n end.
Definition class_name (c : class) : fname := match c with Class n _ _ => n end.
Definition class_fits (c : class) : Prop :=
  match c with Class _ e _ => match e with Some e => 1 < ll (n_item e) | None => True end end.

(** Words that can be keys (the parser does not take the others as keys). *)
Definition not_keys : list str :=
  map bs ["const"; "enum"; "implements"; "in"; "interface"; "let"; "package"; "private"; "protected"; "public"; "var"]%string.
Definition key_word (s : str) : Prop :=
  (ascii_word s \/ (Forall (fun b => word_byte b = true) s /\ foreign_start alnum s)) /\ ~ In s not_keys.
(** Keys of properties, and of class members. *)
Definition property_key_fits (k : property_key) : Prop :=
  match k with
  | Key_Computed e => 0 < ll (n_item e)
  | Key_Literal s => key_word s \/ quoted s \/ (exists more, number s T_LiteralNumber more)
  | Key_Binary s => exists more, number s T_LiteralBinary more
  end.
Definition member_key_fits (k : property_key) : Prop :=
  match k with
  | Key_Computed e => 0 < ll (n_item e)
  | Key_Literal s => key_word s \/ (exists more, number s T_LiteralNumber more)
  | Key_Binary s => exists more, number s T_LiteralBinary more
  end.
Definition is_word_key (k : property_key) : Prop := exists s, k = Key_Literal s /\ key_word s.
Definition plain_kind (is_static : bool) (k : property_key) (kind : methodkind) : Prop :=
  if match k with Key_Literal s => negb is_static && str_eqb s (bs "constructor") | _ => false end
  then kind = MK_Constructor else kind = MK_Method.
Definition member_fits (m : class_member) : Prop :=
  match m with
  | CM_Error => False
  | CM_Method is_static k kind v =>
      func_name (n_item v) = Name_Empty /\ func_fits (n_item v) /\
      match kind with
      | MK_Get | MK_Set => is_word_key (n_item k)
      | _ => member_key_fits (n_item k) /\ plain_kind is_static (n_item k) kind /\
             (is_static = false -> n_item k <> Key_Literal (bs "static"))
      end
  | CM_Literal is_static k v =>
      member_key_fits (n_item k) /\ 1 < ll (n_item v) /\
      (is_static = false -> n_item k <> Key_Literal (bs "static"))
  end.
Definition property_fits (p : property) : Prop :=
  match p with
  | P_Shorthand s => key_word s
  | P_Literal k v => property_key_fits (n_item k) /\ element (n_item v)
  | P_Method k v => property_key_fits (n_item k) /\ func_name (n_item v) = Name_Empty /\ func_fits (n_item v)
  | P_Spread x => element (n_item x)
  end.

(** ** Expressions *)
Definition list_element (e : expression) : Prop :=
  element e \/ match e with E_Spread x => element (n_item x) | _ => False end.
Definition number_literal (e : expression) : Prop :=
  match e with E_Literal (L_Number _) | E_Literal (L_Binary _) => True | _ => False end.
Definition expression_fits (e : expression) : Prop :=
  match e with
  | E_Void | E_This => True
  | E_Identifier s => identifier_name alnum s
  | E_Literal l => literal_fits l
  | E_Sequence es => 2 <= List.length es /\ Forall (fun x => element (n_item x)) es
  | E_Array es => Forall (fun x => n_item x = E_Void \/ list_element (n_item x)) es /\
                  (forall x, es = [x] -> n_item x <> E_Void)
  | E_Member o p =>
      ascii_word (n_item p) /\ 0 < ll (n_item o) /\ rl_in 19 (n_item o) = closed_level /\
      ~ number_literal (n_item o)
  | E_ComputedMember o p =>
      0 < ll (n_item o) /\ rl_in 19 (n_item o) = closed_level /\ 0 < ll (n_item p)
  | E_MetaProperty m p => n_item m = bs "new" /\ n_item p = bs "target"
  | E_Call c args => rl (n_item c) = closed_level /\ Forall (fun x => list_element (n_item x)) args
  | E_Binary op l r =>
      In op binary_operators /\ 0 < ll (n_item l) /\ 0 < ll (n_item r) /\
      olevel op <= rl_in (operator_bp op) (n_item l) /\
      rlevel op < ll_in (operator_bp op + 1) (n_item r) /\
      (In op assignment_operators -> is_lvalue (n_item l) = true) /\
      (spacing_right op (n_item r) = true \/ ~ sticks op (c_bound c_expression r (operator_bp op + 1)))
  | E_Prefix op x =>
      In op prefix_operators /\ 15 < ll (n_item x) /\
      (operator_category op = CatWord \/ ~ sticks op (c_expression (n_item x)))
  | E_Postfix op x => In op postfix_operators /\ is_lvalue (n_item x) = true /\ rl (n_item x) = closed_level
  | E_Conditional t c a => 4 <= rl (n_item t) /\ 1 < ll (n_item c) /\ 1 < ll (n_item a)
  | E_Template t => template_fits t
  | E_TaggedTemplate t _ => rl (n_item t) = closed_level
  | E_Spread _ => True
  | E_Arrow ps b =>
      Forall (fun p => arrow_param (n_item p)) ps /\
      match b with
      | AB_Expression x => 1 < ll (n_item x) /\ starts_object (n_item x) = false
      | AB_Block _ => True
      end
  | E_Object _ => True
  | E_Function f => optional_name (func_name f) /\ func_fits f
  | E_Class c => optional_name (class_name c) /\ class_fits c
  end.

(** ** Statements *)
(** Ends with an [if] without [else]. *)
Fixpoint open_if (s : statement) : bool :=
  match s with
  | St_If _ _ None => true
  | St_If _ _ (Some a) => open_if (n_item a)
  | St_While _ b | St_For _ _ _ b | St_ForIn _ _ b | St_ForOf _ _ b | St_Labeled _ b => open_if (n_item b)
  | _ => false
  end.
Definition is_in (e : expression) : bool := match e with E_Binary O_In _ _ => true | _ => false end.
Definition specifiers_fit (ss : list (node import_specifier)) : Prop :=
  let named := Forall (fun s => is_named_specifier s = true) in
  let default s := exists l, n_item s = IS_Default l in
  let namespace s := exists l, n_item s = IS_Namespace l in
  match ss with
  | [] => True
  | [s] => default s \/ namespace s \/ named [s]
  | s :: ss' => named (s :: ss') \/ (default s /\ (named ss' \/ exists x, ss' = [x] /\ namespace x))
  end.
Definition statement_fits (s : statement) : Prop :=
  match s with
  | St_Empty | St_Debugger => False
  | St_Expression e => 0 < ll (n_item e) /\ (is_allowed_as_bare_statement (n_item e) = true -> starts_bare (n_item e) = true)
  | St_Declaration _ ds => ds <> []
  | St_Return (Some e) | St_Throw e => 0 < ll (n_item e)
  | St_Return None => True
  | St_Break l | St_Continue l => match l with Some l => identifier_name alnum (n_item l) | None => True end
  | St_If t c a => 0 < ll (n_item t) /\ (a <> None -> open_if (n_item c) = false)
  | St_While t _ | St_Do _ t => 0 < ll (n_item t)
  | St_For i t u _ =>
      match i with
      | Some i => match n_item i with FI_Expression e => 0 < ll (n_item e) /\ is_in (n_item e) = false | FI_Declaration _ ds => ds <> [] end
      | None => True
      end /\
      match t with Some e => 0 < ll (n_item e) | None => True end /\
      match u with Some e => 0 < ll (n_item e) | None => True end
  | St_ForIn l r _ =>
      0 < ll (n_item r) /\
      match n_item l with
      | FI_Declaration _ ds => exists d p, ds = [d] /\ n_item d = Declarator p None
      | FI_Expression e => 0 < ll (n_item e) /\ 11 <= rl (n_item e) /\ 11 < ll (n_item r)
      end
  | St_ForOf l r _ =>
      0 < ll (n_item r) /\
      match n_item l with
      | FI_Declaration _ ds => ds <> []
      | FI_Expression e => 0 < ll (n_item e) /\ is_in (n_item e) = false
      end
  | St_Try _ h f => h <> None /\ f = None
  | St_Block _ => True
  | St_Labeled l _ => identifier_name alnum l
  | St_Function f => declared_name (func_name f) /\ func_fits f
  | St_Class c => declared_name (class_name c) /\ class_fits c
  | St_Switch d _ => 0 < ll (n_item d)
  | St_Import ss src => specifiers_fit ss /\ string_inside "'"%byte src
  end.

(** ** Nodes *)
Definition fits_node (a : any) : Prop :=
  match a with
  | A_Expr n => expression_fits (n_item n)
  | A_Tpl n => template_fits (n_item n)
  | A_Prop n => property_fits (n_item n)
  | A_Pat n => pattern_fits (n_item n)
  | A_Member n => member_fits (n_item n)
  | A_Stmt n => statement_fits (n_item n)
  | A_Declarator n =>
      match n_item n with
      | Declarator p i => base_pattern (n_item p) /\ match i with Some e => element (n_item e) | None => True end
      end
  | A_Case n =>
      match n_item n with SwitchCase (Some e) _ => 0 < ll (n_item e) | _ => True end
  | A_Catch n => match n_item n with CatchClause p _ => base_pattern (n_item p) end
  | A_Spec n =>
      match n_item n with
      | IS_Named i l => identifier_name alnum (n_item i) /\ identifier_name alnum (n_item l)
      | IS_Default l | IS_Namespace l => identifier_name alnum (n_item l)
      end
  | A_Ident _ | A_Key _ | A_Func _ | A_Body _ | A_ClassBody _ | A_Cases _ | A_ForInit _ => True
  end.
Definition fits (m : module) : Prop := forall a, in_module a m -> fits_node a.
End Fits.
