(** The visitor, /repo/ratel-visitor/src/{lib,expression,statement,function}.rs,
    and the scope analysis built on it, /repo/ratel-transformer/src/scope.rs.

    A traversal is modelled by the sequence of calls it makes on the [Visitor]
    (lib.rs:26-90).  The traversal borrows the tree, so what a visitor does in a
    call cannot change which calls follow. *)
From Coq Require Import List NArith Bool String.
From Verif Require Import Bytes Token Lexer Ast.
Import ListNotations.
Open Scope nat_scope.

(** [ScopeKind], lib.rs:17-21. *)
Inductive scope_kind : Set := SK_Function | SK_Block.

(** [ParentNode], lib.rs:92-96. *)
Inductive parent_node : Set :=
| PN_Statement (n : node statement)
| PN_Expression (n : node expression).

(** The calls on a [Visitor].  [V_expression n] is the [on_..._expression] call
    that belongs to the kind of expression [n] is ([on_this_expression] up to
    [on_class_expression]), [V_statement n] likewise.  [V_panic] is
    [panic!("Invalid AST")] in function.rs:72. *)
Inductive vcall : Set :=
| V_push_parent (p : parent_node)
| V_pop_parent
| V_statement_list (l : list (node statement))
| V_enter_scope (k : scope_kind)
| V_leave_scope
| V_reference_use (s : str)
| V_reference_declaration (s : str)
| V_expression (n : node expression)
| V_statement (n : node statement)
| V_panic.

Definition visit := list vcall.

Section Lists.
  Context {A : Set} (f : A -> visit).
  Definition v_opt (o : option (node A)) : visit :=
    match o with Some n => f (n_item n) | None => [] end.
  (** [Visitable for NodeList], lib.rs:224-238. *)
  Fixpoint v_list (l : list (node A)) : visit :=
    match l with
    | [] => []
    | n :: l' => f (n_item n) ++ v_list l'
    end.
End Lists.

(** [Visitable for Identifier] (reached through [Deref] from an
    [IdentifierNode]), expression.rs:132-139. *)
Definition v_ident (n : node str) : visit := [V_reference_use (n_item n)].

(** Names, function.rs:7-37. *)
Definition v_name (n : fname) : visit :=
  match n with
  | Name_Empty => []
  | Name_Optional _ => []
  | Name_Mandatory n => [V_reference_declaration (n_item n)]
  end.

(** Import specifiers, statement.rs:400-454. *)
Definition v_specifier (s : import_specifier) : visit :=
  match s with
  | IS_Named i l => v_ident l ++ v_ident i
  | IS_Default l => v_ident l
  | IS_Namespace l => v_ident l
  end.

(** [self.push_parent(..); children; pop_parent()], expression.rs:7-115. *)
Definition v_with_parent (n : node expression) (cs : visit) : visit :=
  [V_expression n; V_push_parent (PN_Expression n)] ++ cs ++ [V_pop_parent].
Definition v_stmt_with_parent (n : node statement) (cs : visit) : visit :=
  [V_statement n; V_push_parent (PN_Statement n)] ++ cs ++ [V_pop_parent].

(** The traversal takes the place of the node apart ([n_start], [n_end] and
    [e]) so that it is structurally recursive; [v_expr n = v_expression
    (n_start n) (n_end n) (n_item n)]. *)
Fixpoint v_expression (st en : N) (e : expression) {struct e} : visit :=
  let n := Node st en e in
  let v_expr (n : node expression) := v_expression (n_start n) (n_end n) (n_item n) in
  let v_stmt (n : node statement) := v_statement (n_start n) (n_end n) (n_item n) in
  match e with
  | E_Void => []
  | E_This => [V_expression n]
  | E_Literal _ => [V_expression n]
  | E_Identifier s => v_with_parent n [V_reference_use s]
  | E_Sequence b | E_Array b => v_with_parent n (flat_map v_expr b)
  | E_Member o _ => v_with_parent n (v_expr o)                      (* 164-174 *)
  | E_ComputedMember o p => v_with_parent n (v_expr o ++ v_expr p)
  | E_MetaProperty m p => v_with_parent n (v_ident m ++ v_ident p)  (* 189-200 *)
  | E_Call c args => v_with_parent n (v_expr c ++ flat_map v_expr args)
  | E_Binary _ l r => v_with_parent n (v_expr l ++ v_expr r)
  | E_Prefix _ x | E_Postfix _ x => v_with_parent n (v_expr x)
  | E_Conditional t c a => v_with_parent n (v_expr t ++ v_expr c ++ v_expr a)
  | E_Template t => v_with_parent n (v_template t)
  | E_TaggedTemplate t q => v_with_parent n (v_expr t ++ v_template (n_item q))
  | E_Spread x => v_with_parent n (v_expr x)
  | E_Arrow ps b =>                                                 (* 311-338: no scope *)
      v_with_parent n
        (v_list v_pattern ps
         ++ (match b with
             | AB_Expression x => v_expr x
             | AB_Block b => [V_statement_list (b_body (n_item b))]
                             ++ flat_map v_stmt (b_body (n_item b))
             end))
  | E_Object b => v_with_parent n (v_list v_property b)
  | E_Function f => v_with_parent n (v_func f)
  | E_Class c => v_with_parent n (v_class c)
  end
(* expression.rs:273-284: only the expressions *)
with v_template (t : template) : visit :=
  match t with
  | Template es _ => flat_map (fun n => v_expression (n_start n) (n_end n) (n_item n)) es
  end
(* lib.rs:171-199 *)
with v_property (p : property) : visit :=
  match p with
  | P_Shorthand s => [V_reference_use s]
  | P_Literal k v => v_key (n_item k) ++ v_expression (n_start v) (n_end v) (n_item v)
  | P_Method k v => v_key (n_item k) ++ v_func (n_item v)
  | P_Spread x => v_expression (n_start x) (n_end x) (n_item x)
  end
(* lib.rs:155-169 *)
with v_key (k : property_key) : visit :=
  match k with
  | Key_Computed e => v_expression (n_start e) (n_end e) (n_item e)
  | Key_Literal _ | Key_Binary _ => []
  end
(* lib.rs:123-153 *)
with v_pattern (p : pattern) : visit :=
  match p with
  | Pat_Void => []
  | Pat_Identifier s => [V_reference_declaration s]
  | Pat_Object ps => v_list v_property ps
  | Pat_Array es => v_list v_pattern es
  | Pat_Rest x => v_ident x
  | Pat_Assign l r => v_pattern (n_item l) ++ v_expression (n_start r) (n_end r) (n_item r)
  end
(* function.rs:39-59 *)
with v_func (f : func) : visit :=
  match f with
  | Func n _ ps b =>
      v_name n ++ [V_enter_scope SK_Function] ++ v_list v_pattern ps
      ++ [V_statement_list (b_body (n_item b))]
      ++ flat_map (fun n => v_statement (n_start n) (n_end n) (n_item n)) (b_body (n_item b))
      ++ [V_leave_scope]
  end
(* function.rs:93-108 *)
with v_class (c : class) : visit :=
  match c with
  | Class n e b =>
      v_name n
      ++ (match e with Some x => v_expression (n_start x) (n_end x) (n_item x) | None => [] end)
      ++ v_list v_member (b_body (n_item b))
  end
(* function.rs:61-91 *)
with v_member (m : class_member) : visit :=
  match m with
  | CM_Error => [V_panic]
  | CM_Method _ k _ v => v_key (n_item k) ++ v_func (n_item v)
  | CM_Literal _ k v => v_key (n_item k) ++ v_expression (n_start v) (n_end v) (n_item v)
  end
(* statement.rs:7-398 *)
with v_statement (st en : N) (s : statement) {struct s} : visit :=
  let n := Node st en s in
  let v_expr (n : node expression) := v_expression (n_start n) (n_end n) (n_item n) in
  let v_stmt (n : node statement) := v_statement (n_start n) (n_end n) (n_item n) in
  let v_oexpr (o : option (node expression)) :=
    match o with Some n => v_expr n | None => [] end in
  match s with
  | St_Empty | St_Debugger => []
  | St_Expression e => v_stmt_with_parent n (v_expr e)
  | St_Declaration _ ds => v_stmt_with_parent n (v_list v_declarator ds)
  | St_Return v => v_stmt_with_parent n (v_oexpr v)
  | St_Break _ | St_Continue _ => v_stmt_with_parent n []
  | St_Throw v => v_stmt_with_parent n (v_expr v)
  | St_If t c a =>
      v_stmt_with_parent n (v_expr t ++ v_stmt c ++ (match a with Some a => v_stmt a | None => [] end))
  | St_While t b => v_stmt_with_parent n (v_expr t ++ v_stmt b)
  | St_Do b t => v_stmt_with_parent n (v_stmt b ++ v_expr t)
  | St_For i t u b =>
      v_stmt_with_parent n
        ((match i with Some i => v_for_init (n_item i) | None => [] end)
         ++ v_oexpr t ++ v_oexpr u ++ v_stmt b)
  | St_ForIn l r b | St_ForOf l r b =>
      v_stmt_with_parent n (v_for_init (n_item l) ++ v_expr r ++ v_stmt b)
  | St_Try b h f =>
      v_stmt_with_parent n
        (([V_enter_scope SK_Block; V_statement_list (b_body (n_item b))]
          ++ flat_map v_stmt (b_body (n_item b)) ++ [V_leave_scope])
         ++ (match h with Some h => v_catch (n_item h) | None => [] end)
         ++ (match f with
             | Some f =>
                 [V_enter_scope SK_Block; V_statement_list (b_body (n_item f))]
                 ++ flat_map v_stmt (b_body (n_item f)) ++ [V_leave_scope]
             | None => []
             end))
  | St_Block b =>                                                   (* 124-136 *)
      v_stmt_with_parent n
        ([V_enter_scope SK_Block; V_statement_list (b_body b)]
         ++ flat_map v_stmt (b_body b) ++ [V_leave_scope])
  | St_Labeled _ b => v_stmt_with_parent n (v_stmt b)
  | St_Function f => v_stmt_with_parent n (v_func f)
  | St_Class c => v_stmt_with_parent n (v_class c)
  | St_Switch d c =>                                                (* 372-385 *)
      v_stmt_with_parent n
        (v_expr d ++ [V_enter_scope SK_Block] ++ v_list v_case (b_body (n_item c)) ++ [V_leave_scope])
  | St_Import ss src =>                                             (* 115-118, 387-398: no push_parent *)
      [V_statement n] ++ [V_reference_use src] ++ v_list v_specifier ss ++ [V_pop_parent]
  end
(* statement.rs:150-161 *)
with v_declarator (d : declarator) : visit :=
  match d with
  | Declarator p i =>
      v_pattern (n_item p)
      ++ (match i with Some x => v_expression (n_start x) (n_end x) (n_item x) | None => [] end)
  end
(* statement.rs:261-274 *)
with v_for_init (i : for_init) : visit :=
  match i with
  | FI_Declaration _ ds => v_list v_declarator ds
  | FI_Expression e => v_expression (n_start e) (n_end e) (n_item e)
  end
(* statement.rs:359-370 *)
with v_case (c : switch_case) : visit :=
  match c with
  | SwitchCase t b =>
      (match t with Some x => v_expression (n_start x) (n_end x) (n_item x) | None => [] end)
      ++ [V_statement_list b]
      ++ flat_map (fun n => v_statement (n_start n) (n_end n) (n_item n)) b
  end
(* statement.rs:319-330; the body is a [Node<BlockStatement>], 124-148 *)
with v_catch (c : catch_clause) : visit :=
  match c with
  | CatchClause p b =>
      v_pattern (n_item p)
      ++ [V_enter_scope SK_Block; V_statement_list (b_body (n_item b))]
      ++ flat_map (fun n => v_statement (n_start n) (n_end n) (n_item n)) (b_body (n_item b))
      ++ [V_leave_scope]
  end.

Definition visit_expression (n : node expression) : visit :=
  v_expression (n_start n) (n_end n) (n_item n).
Definition visit_statement (n : node statement) : visit :=
  v_statement (n_start n) (n_end n) (n_item n).

(** [Visitable for Module], lib.rs:107-121: no [on_statement_list]. *)
Definition visit_module (m : module) : visit := flat_map visit_statement m.

(** ** Scope analysis, /repo/ratel-transformer/src/scope.rs *)

(** [Scope], scope.rs:22-44.  [parent] is the scope below it on the stack of the
    analysis; [BloomMap] (crate toolshed, source not available) is modelled as
    the list of keys inserted, [GrowableList] as a list.  [used_super] is never
    set. *)
Inductive scope : Set :=
| Scope (kind : scope_kind) (used_this : bool) (used_refs declared_refs : list str)
        (children : list scope).

Definition sc_kind (s : scope) := match s with Scope k _ _ _ _ => k end.
Definition sc_used_this (s : scope) := match s with Scope _ t _ _ _ => t end.
Definition sc_used (s : scope) := match s with Scope _ _ u _ _ => u end.
Definition sc_declared (s : scope) := match s with Scope _ _ _ d _ => d end.
Definition sc_children (s : scope) := match s with Scope _ _ _ _ c => c end.

Definition scope_new (k : scope_kind) : scope := Scope k false [] [] [].
Definition sc_use (x : str) (s : scope) : scope :=
  match s with Scope k t u d c => Scope k t (u ++ [x]) d c end.
Definition sc_declare (x : str) (s : scope) : scope :=
  match s with Scope k t u d c => Scope k t u (d ++ [x]) c end.
Definition sc_this (s : scope) : scope :=
  match s with Scope k _ u d c => Scope k true u d c end.
Definition sc_push_child (c : scope) (s : scope) : scope :=
  match s with Scope k t u d cs => Scope k t u d (cs ++ [c]) end.

(** [ScopeAnalyzer], scope.rs:93-142: [current] and its chain of parents.
    [parent.unwrap()] panics on the root. *)
Definition analyzer : Set := scope * list scope.

Definition analyzer_step (st : analyzer) (c : vcall) : outcome analyzer :=
  let '(cur, parents) := st in
  match c with
  | V_enter_scope k => Done (scope_new k, cur :: parents)
  | V_leave_scope =>
      match parents with
      | [] => Panicked
      | p :: ps => Done (sc_push_child cur p, ps)
      end
  | V_reference_use x => Done (sc_use x cur, parents)
  | V_reference_declaration x => Done (sc_declare x cur, parents)
  | V_expression n =>
      match n_item n with E_This => Done (sc_this cur, parents) | _ => Done st end
  | V_panic => Panicked
  | _ => Done st
  end.

Fixpoint analyzer_run (st : analyzer) (v : visit) : outcome analyzer :=
  match v with
  | [] => Done st
  | c :: v' => st' <~ analyzer_step st c ;; analyzer_run st' v'
  end.

(** [analyze], scope.rs:10-18: [visitor.current] at the end, with its parents. *)
Definition analyze (m : module) : outcome analyzer :=
  analyzer_run (scope_new SK_Function, []) (visit_module m).
