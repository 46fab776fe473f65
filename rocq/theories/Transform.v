(** The ES2015 preset, /repo/ratel-transformer/src/{lib.rs, es2015/mod.rs, es2015/arrow.rs}.

    The transformer changes a tree by writing to the cells of its nodes: a [Node]
    is a [CopyCell] holding a reference to a [Loc] (/repo/ratel/src/ast/node.rs:9-32).
    The memory here has the cells of the expressions of the module, in the order
    in which they are visited, and those created while the transformer runs.
    Simplification: a cell holds the whole subtree, so a write to a cell does not
    show in the cells around it; arena allocation of a [Loc] leaves no trace. *)
From Coq Require Import List NArith Bool.
From Verif Require Import Bytes Ast Visitor SpecVisit.
Import ListNotations.
Open Scope nat_scope.

Definition memory := list (node expression).
Definition cell := nat.
Definition read (m : memory) (c : cell) : option (node expression) := nth_error m c.
(** A new cell, node.rs:15-20. *)
Definition new_cell (m : memory) (x : node expression) : cell * memory := (List.length m, m ++ [x]).
(** [Node::set], node.rs:22-25. *)
Fixpoint set_cell (m : memory) (c : cell) (x : node expression) : memory :=
  match m, c with
  | [], _ => []
  | _ :: m', 0 => x :: m'
  | y :: m', S c' => y :: set_cell m' c' x
  end.

(** [TransformerCtxt::swap], lib.rs:62-75.  [ptr: Node<'ast, T>] is passed by
    value; [Node] is [Copy] (node.rs:8), so the parameter is a cell of its own
    with the contents of the one given. *)
Definition swap (m : memory) (value : node expression) (item : expression) : memory :=
  let '(ptr, m) := new_cell m value in
  set_cell m ptr (Node (n_start value) (n_end value) item).

(** [on_arrow_expression], es2015/arrow.rs:20-45; [*ptr] reads the cell. *)
Definition on_arrow (m : memory) (ptr : cell) : memory :=
  match read m ptr with
  | Some (Node st en (E_Arrow ps b)) =>
      let body :=
        match b with
        | AB_Block b => b
        | AB_Expression x =>
            Node (n_start x) (n_end x) (Block [Node (n_start x) (n_end x) (St_Return (Some x))])
        end in
      swap m (Node st en (E_Arrow ps b)) (E_Function (Func (Name_Optional None) false ps body))
  | _ => m
  end.

(** [transform], lib.rs:78-87: the expression cells of the module are visited in
    order. *)
Definition transform (m : module) : memory :=
  let cells := reported_expressions (visit_module m) in
  fold_left on_arrow (seq 0 (List.length cells)) cells.
