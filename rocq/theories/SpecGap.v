(** Specification: a gap between two tokens. *)
From Coq Require Import List NArith.
From Coq.Strings Require Import Byte.
From Verif Require Import Bytes Token Lexer Ast Parser SpecLexer SpecTrace.
Import ListNotations.
Open Scope nat_scope.
Open Scope list_scope.

(** A line feed after which, up to the next token, there is only white space. *)
Definition ends_line (g : str) : Prop := exists h w, g = h ++ x0a :: w /\ Forall white w.

(** The tokens [l1] lie in the text [a], up to its end, and the tokens [l2] begin after [a] and [g]. *)
Record cut (a g : str) (l1 l2 : list spot) : Prop := Cut {
  cut_before : Forall (fun x => s_start x < List.length a /\ s_end x <= List.length a) l1;
  cut_end : a = [] \/ (exists l x, l1 = l ++ [x] /\ s_end x = List.length a);
  cut_after : Forall (fun x => List.length (a ++ g) <= s_start x) l2
}.
(** The same result, but for locations. *)
Definition same_error (e e' : error) : Prop := err_token e' = err_token e /\ err_raw e' = err_raw e.
Definition same_result (r r' : parse_result) : Prop :=
  match r, r' with
  | ParseOk m, ParseOk m' => same_tree m m'
  | ParseErr es, ParseErr es' => Forall2 same_error es es'
  | _, _ => False
  end.
