(** The vocabulary of the statements about traversals (PropVisit.v). *)
From Coq Require Import List NArith Bool String.
From Verif Require Import Bytes Token Ast Visitor.
Import ListNotations.
Open Scope nat_scope.

(** The nodes of a tree, each before its children, children from left to right. *)
Inductive preorder : any -> list any -> Prop :=
| preorder_node a ls : Forall2 preorder (children a) ls -> preorder a (a :: List.concat ls).
Definition module_preorder (m : module) (l : list any) : Prop :=
  exists ls, Forall2 preorder (map A_Stmt m) ls /\ l = List.concat ls.

(** The calls [on_..._expression] and [on_..._statement] of a traversal. *)
Definition reported_expressions (v : visit) : list (node expression) :=
  flat_map (fun c => match c with V_expression n => [n] | _ => [] end) v.
Definition reported_statements (v : visit) : list (node statement) :=
  flat_map (fun c => match c with V_statement n => [n] | _ => [] end) v.
(** The expressions among nodes: all but the holes of arrays. *)
Definition expressions_of (l : list any) : list (node expression) :=
  flat_map (fun a => match a with
                     | A_Expr n => match n_item n with E_Void => [] | _ => [n] end
                     | _ => [] end) l.
(** The statements among nodes: all but empty and [debugger] statements. *)
Definition statements_of (l : list any) : list (node statement) :=
  flat_map (fun a => match a with
                     | A_Stmt n => match n_item n with St_Empty | St_Debugger => [] | _ => [n] end
                     | _ => [] end) l.

(** Well nested sequences of [on_enter_scope] and [on_leave_scope], other calls
    being anywhere. *)
Inductive scopes_nest : visit -> Prop :=
| sn_nil : scopes_nest []
| sn_other c v : (forall k, c <> V_enter_scope k) -> c <> V_leave_scope -> scopes_nest v -> scopes_nest (c :: v)
| sn_scope k v v' : scopes_nest v -> scopes_nest v' -> scopes_nest (V_enter_scope k :: v ++ V_leave_scope :: v').
(** Likewise for [push_parent] and [pop_parent]. *)
Inductive parents_nest : visit -> Prop :=
| pn_nil : parents_nest []
| pn_other c v : (forall p, c <> V_push_parent p) -> c <> V_pop_parent -> parents_nest v -> parents_nest (c :: v)
| pn_parent p v v' : parents_nest v -> parents_nest v' -> parents_nest (V_push_parent p :: v ++ V_pop_parent :: v').

(** The parent stack at every call of a traversal that starts with stack [st];
    a [pop_parent] of an empty stack leaves it empty. *)
Fixpoint with_parents (st : list parent_node) (v : visit) : list (vcall * list parent_node) :=
  match v with
  | [] => []
  | c :: v' =>
      (c, st) :: with_parents (match c with
                               | V_push_parent p => p :: st
                               | V_pop_parent => tl st
                               | _ => st end) v'
  end.
(** The statements and expressions reported, each with the parent stack at that moment. *)
Definition reports (v : visit) : list (parent_node * list parent_node) :=
  flat_map (fun x => match x with
                     | (V_expression n, st) => [(PN_Expression n, st)]
                     | (V_statement n, st) => [(PN_Statement n, st)]
                     | _ => [] end) (with_parents [] v).
(** The nodes of a tree in preorder, each with the statements and expressions
    around it, innermost first. *)
Definition as_parent (a : any) : list parent_node :=
  match a with
  | A_Expr n => [PN_Expression n]
  | A_Stmt n => [PN_Statement n]
  | _ => []
  end.
Inductive preorder_in : list parent_node -> any -> list (any * list parent_node) -> Prop :=
| preorder_in_node st a ls : Forall2 (preorder_in (as_parent a ++ st)) (children a) ls ->
    preorder_in st a ((a, st) :: List.concat ls).
Definition module_preorder_in (m : module) (l : list (any * list parent_node)) : Prop :=
  exists ls, Forall2 (preorder_in []) (map A_Stmt m) ls /\ l = List.concat ls.
(** Those that are reported: expressions other than holes, statements other than
    empty and [debugger] statements. *)
Definition reportable (l : list (any * list parent_node)) : list (parent_node * list parent_node) :=
  flat_map (fun x => match x with
                     | (A_Expr n, st) => match n_item n with E_Void => [] | _ => [(PN_Expression n, st)] end
                     | (A_Stmt n, st) => match n_item n with St_Empty | St_Debugger => [] | _ => [(PN_Statement n, st)] end
                     | _ => [] end) l.

(** The scopes of a scope tree, outermost first. *)
Inductive scope_in : scope -> scope -> Prop :=
| scope_in_refl s : scope_in s s
| scope_in_child s c t : In c (sc_children t) -> scope_in s c -> scope_in s t.
Fixpoint scope_kinds (s : scope) : list scope_kind :=
  match s with Scope k _ _ _ cs => k :: flat_map scope_kinds cs end.

(** The scopes a node opens: functions, methods, blocks (also those of [try],
    [catch] and [finally]), switches. *)
Definition opens (a : any) : list scope_kind :=
  match a with
  | A_Expr n => match n_item n with E_Function _ => [SK_Function] | _ => [] end
  | A_Func _ => [SK_Function]
  | A_Stmt n =>
      match n_item n with
      | St_Function _ => [SK_Function]
      | St_Block _ | St_Switch _ _ | St_Try _ _ None => [SK_Block]
      | St_Try _ _ (Some _) => [SK_Block; SK_Block]
      | _ => []
      end
  | A_Catch _ => [SK_Block]
  | _ => []
  end.
Definition scope_kind_eqb (a b : scope_kind) : bool :=
  match a, b with SK_Function, SK_Function | SK_Block, SK_Block => true | _, _ => false end.
Definition how_many (k : scope_kind) (l : list scope_kind) : nat :=
  List.length (filter (scope_kind_eqb k) l).

(** The names a parameter or a declared pattern binds. *)
Fixpoint bound_names (p : pattern) : list str :=
  match p with
  | Pat_Void => []
  | Pat_Identifier s => [s]
  | Pat_Object ps => flat_map (fun q => match n_item q with P_Shorthand s => [s] | _ => [] end) ps
  | Pat_Array es =>
      (fix go (l : list (node pattern)) := match l with [] => [] | n :: l' => bound_names (n_item n) ++ go l' end) es
  | Pat_Rest x => [n_item x]
  | Pat_Assign l _ => bound_names (n_item l)
  end.
(** Patterns without object patterns and without rest elements. *)
Fixpoint simple (p : pattern) : Prop :=
  match p with
  | Pat_Void | Pat_Identifier _ => True
  | Pat_Object _ | Pat_Rest _ => False
  | Pat_Array es => (fix go (l : list (node pattern)) := match l with [] => True | n :: l' => simple (n_item n) /\ go l' end) es
  | Pat_Assign l _ => simple (n_item l)
  end.
(** The functions with a body of their own: function expressions and statements,
    methods of objects and classes; arrow functions. *)
Inductive function_params : any -> list (node pattern) -> Prop :=
| fp_method n f g ps b : n_item n = Func f g ps b -> function_params (A_Func n) ps
| fp_expression n f g ps b : n_item n = E_Function (Func f g ps b) -> function_params (A_Expr n) ps
| fp_statement n f g ps b : n_item n = St_Function (Func f g ps b) -> function_params (A_Stmt n) ps.
Inductive arrow_params : any -> list (node pattern) -> Prop :=
| ap_arrow n ps b : n_item n = E_Arrow ps b -> arrow_params (A_Expr n) ps.
(** All names declared, and all names used, in the scopes of a scope tree. *)
Fixpoint all_declared (s : scope) : list str :=
  match s with Scope _ _ _ d cs => d ++ flat_map all_declared cs end.
Fixpoint all_used (s : scope) : list str :=
  match s with Scope _ _ u _ cs => u ++ flat_map all_used cs end.
Definition declarations (v : visit) : list str :=
  flat_map (fun c => match c with V_reference_declaration x => [x] | _ => [] end) v.
Definition uses (v : visit) : list str :=
  flat_map (fun c => match c with V_reference_use x => [x] | _ => [] end) v.
