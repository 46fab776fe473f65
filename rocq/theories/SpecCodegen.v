(** The vocabulary of the statements about generated code (PropCodegen.v):
    outputs cut into pieces of program text, each followed by white space, and
    the texts a node of the tree carries. *)
From Coq Require Import List NArith Bool String.
From Coq.Strings Require Import Byte.
From Verif Require Import Bytes Token Ast.
Import ListNotations.
Open Scope nat_scope.

(** White space of the pretty printer: spaces and newlines. *)
Definition blank (b : byte) : Prop := b = x20 \/ b = x0a.
(** An output is cut into pieces [(text, white)]: pretty output has them all,
    minified output only has the texts. *)
Definition pretty_of (pieces : list (str * str)) : str := List.concat (map (fun p => fst p ++ snd p) pieces).
Definition minified_of (pieces : list (str * str)) : str := List.concat (map fst pieces).
Definition blanks (pieces : list (str * str)) : Prop := Forall (fun p => Forall blank (snd p)) pieces.

(** The text a node itself carries: names, literals, labels, import sources,
    the raw parts of templates (which are [A_Ident] children of a template). *)
Definition own_text (a : any) (x : str) : Prop :=
  match a with
  | A_Ident n => x = n_item n
  | A_Expr n =>
      match n_item n with
      | E_Identifier s | E_Literal (L_Number s | L_Binary s | L_String s | L_RegEx s) => x = s
      | _ => False
      end
  | A_Prop n => match n_item n with P_Shorthand s => x = s | _ => False end
  | A_Key n => match n_item n with Key_Literal s | Key_Binary s => x = s | _ => False end
  | A_Pat n => match n_item n with Pat_Identifier s => x = s | _ => False end
  | A_Stmt n => match n_item n with St_Labeled l _ => x = l | St_Import _ s => x = s | _ => False end
  | _ => False
  end.

(** Pieces joined by a separator. *)
Fixpoint join (sep : str) (l : list str) : str :=
  match l with
  | [] => []
  | [x] => x
  | x :: l' => x ++ sep ++ join sep l'
  end.
