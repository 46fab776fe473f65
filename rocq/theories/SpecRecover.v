(** Vocabulary: JSON without its positions, and trees of which it shows everything (PropRecover.v). *)
From Coq Require Import List NArith Bool String.
From Coq.Strings Require Import Byte.
From Verif Require Import Bytes Token Lexer Ast Astgen SpecMirror.
Import ListNotations.
Open Scope list_scope.

(** A JSON value without the fields [start] and [end] of its objects. *)
Definition is_position (k : str) : bool := (str_eqb k (bs "start") || str_eqb k (bs "end"))%bool.
Fixpoint without_positions (j : json) : json :=
  match j with
  | J_Arr l => J_Arr (map without_positions l)
  | J_Obj fields =>
      J_Obj ((fix go (fs : list (str * json)) :=
        match fs with
        | [] => []
        | (k, v) :: r => if is_position k then go r else (k, without_positions v) :: go r
        end) fields)
  | _ => j
  end.

(** The constructs of which the JSON does not show everything: methods with a computed key (the key looks like
    a plain one), [new] of a literal without arguments (looks like one with an empty argument list), array literals
    that end in a hole (the hole is left out). *)
Definition shown (a : any) : Prop :=
  match a with
  | A_Prop n => match n_item n with P_Method k _ => computed_key k = false | _ => True end
  | A_Member n => match n_item n with CM_Method _ k _ _ => computed_key k = false | _ => True end
  | A_Expr n =>
      match n_item n with
      | E_Prefix O_New x => forall l, n_item x <> E_Literal l
      | E_Array es => forall before n, es = before ++ [n] -> n_item n <> E_Void
      | _ => True
      end
  | _ => True
  end.
