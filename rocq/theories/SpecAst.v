(** Vocabulary for the serialisation of trees (PropAst.v): which nodes have a
    serialised form, and the values of literals.  Mentions the tree (Ast.v) and
    the texts of tokens (SpecTokens.v), not the serialiser. *)
From Coq Require Import List NArith Bool String.
From Coq.Strings Require Import Byte.
From Verif Require Import Bytes Token SpecTokens Ast.
Import ListNotations.
Open Scope list_scope.

(** The number a digit stands for, and the number a row of digits stands for. *)
Definition digit_value (b : byte) : N :=
  if digit b then byte_val b - byte_val "0"
  else if byte_in "a" "z" b then byte_val b - byte_val "a" + 10
  else byte_val b - byte_val "A" + 10.
Definition value_of (radix : N) (ds : str) : N :=
  fold_left (fun v d => v * radix + digit_value d)%N ds 0%N.

(** Integer literals in range: [integer s v], the literal [s] has the value [v], which fits in
    32 bits with sign (64 bits for decimal literals). *)
Definition radix_mark_value : list (byte * N * (byte -> bool)) :=
  [("x", 16, fun b => digit b || byte_in "a" "f" b || byte_in "A" "F" b);
   ("X", 16, fun b => digit b || byte_in "a" "f" b || byte_in "A" "F" b);
   ("o", 8, byte_in "0" "7"); ("O", 8, byte_in "0" "7")]%byte%N%bool.
Inductive integer : str -> N -> Prop :=
| int_radix x radix is_digit ds : In (x, radix, is_digit) radix_mark_value ->
    ds <> [] -> Forall (fun b => is_digit b = true) ds ->
    (value_of radix ds < 2 ^ 31)%N -> integer ("0"%byte :: x :: ds) (value_of radix ds)
| int_decimal ds : ds <> [] -> digits ds ->
    (value_of 10 ds < 2 ^ 63)%N -> integer ds (value_of 10 ds).
Definition binary_integer (s : str) (v : N) : Prop :=
  exists x ds, In x ["b"; "B"]%byte /\ s = "0"%byte :: x :: ds /\ ds <> [] /\
    Forall (fun b => one_of ["0"; "1"]%byte b = true) ds /\ (value_of 2 ds < 2 ^ 31)%N /\ v = value_of 2 ds.
(** Literals with a fraction: with a point, and with digits in the exponent if there is one. *)
Inductive decimal_fraction : str -> Prop :=
| df_plain m more : mantissa m more -> In "."%byte m -> decimal_fraction m
| df_exponent m more e d ds : mantissa m more -> In "."%byte m -> In e exponent_mark ->
    digit d = true -> digits ds -> decimal_fraction (m ++ e :: d :: ds)
| df_signed m more e sign d ds : mantissa m more -> In "."%byte m -> In e exponent_mark ->
    In sign ["+"; "-"]%byte -> digit d = true -> digits ds -> decimal_fraction (m ++ e :: sign :: d :: ds).

(** Nodes with a serialised form.  Excluded: integer literals out of range or with an exponent,
    [new X] without an argument list, holes in array patterns, class fields. *)
Definition writable (a : any) : Prop :=
  match a with
  | A_Expr n =>
      match n_item n with
      | E_Literal (L_Number s) => (exists v, integer s v) \/ decimal_fraction s
      | E_Literal (L_Binary s) => exists v, binary_integer s v
      | E_Prefix O_New x =>
          (exists c args, n_item x = E_Call c args) \/ (exists l, n_item x = E_Literal l)
      | _ => True
      end
  | A_Pat n => n_item n <> Pat_Void
  | A_Member n => exists st k kind f, n_item n = CM_Method st k kind f
  | _ => True
  end.
