(** Specification vocabulary: the order of the parts of a node. *)
From Coq Require Import List NArith String.
From Verif Require Import Bytes Token SpecTree SpecPos Ast.
Import ListNotations.
Open Scope list_scope.

(** The pieces of a template and its substitutions take turns. *)
Fixpoint alternate (qs : list (node str)) (es : list (node expression)) : list any :=
  match qs, es with
  | q :: qs', e :: es' => A_Ident q :: A_Expr e :: alternate qs' es'
  | _, _ => map A_Ident qs ++ map A_Expr es
  end.
(** The parts of a node in the order in which they are written. *)
Definition parts_in_order (a : any) : list any :=
  match template_of a with Some (Template es qs) => alternate qs es | None => children a end.
(** They begin in this order in the source. *)
Definition in_source_order (a : any) : Prop := ascending (map start_of (parts_in_order a)).
(** They also end in this order. *)
Definition ends_in_order (a : any) : Prop := ascending (map end_of (parts_in_order a)).
