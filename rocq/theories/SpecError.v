(** Vocabulary: lines and columns of a source, error messages. *)
From Coq Require Import List NArith Bool String Arith.
From Coq.Strings Require Import Byte.
From Verif Require Import Bytes SpecTokens SpecAst SpecUtf8.
Import ListNotations.
Open Scope nat_scope.
Open Scope list_scope.

Definition LF : byte := x0a.
Definition CR : byte := x0d.
(** The lines of a text: what the line feeds end, and what follows the last one unless that is empty. *)
Inductive lines_of : str -> list str -> Prop :=
| lo_nil : lines_of [] []
| lo_last l : l <> [] -> ~ In LF l -> lines_of l [l]
| lo_line l s ls : ~ In LF l -> lines_of s ls -> lines_of (l ++ LF :: s) (l :: ls).
(** Offset [i] of [s] is on line number [line] (from 1), in column [col] (from 1, in characters). *)
Definition place (s : str) (i line col : nat) : Prop :=
  exists before rest chars,
    firstn i s = before ++ rest /\ (before = [] \/ exists p, before = p ++ [LF]) /\ ~ In LF rest /\
    line = S (count_occ Byte.byte_eq_dec before LF) /\ characters chars rest /\ col = S chars.
(** [u] is [t] without the line feed at its end, if there is one, and then without the carriage return at its end. *)
Inductive unbroken (t : str) : str -> Prop :=
| ub_both u : t = u ++ [CR; LF] -> unbroken t u
| ub_feed u : t = u ++ [LF] -> (forall p, u <> p ++ [CR]) -> unbroken t u
| ub_return u : t = u ++ [CR] -> unbroken t u
| ub_none : (forall p, t <> p ++ [LF]) -> (forall p, t <> p ++ [CR]) -> unbroken t t.
(** The decimal notation of a number. *)
Definition decimal (n : nat) (s : str) : Prop :=
  s <> [] /\ digits s /\ value_of 10 s = N.of_nat n /\ (forall r, s = "0"%byte :: r -> r = []).
(** A line without the carriage return at its end. *)
Definition shown_line (l l' : str) : Prop :=
  (l = l' ++ [CR]) \/ (l = l' /\ forall p, l <> p ++ [CR]).
(** A number, right aligned. *)
Definition aligned (width n : nat) (s : str) : Prop :=
  exists d, decimal n d /\ List.length s = width /\ s = repeat " "%byte (width - List.length d) ++ d.
(** Consecutive lines with their numbers, the first of which is [n]. *)
Inductive rows (width : nat) : nat -> list str -> str -> Prop :=
| rows_nil n : rows width n [] []
| rows_cons n l ls num l' s : aligned width n num -> shown_line l l' -> rows width (S n) ls s ->
    rows width n (l :: ls) (num ++ bs " | " ++ l' ++ [LF] ++ s).
(** What is shown of the source [src] for an error at line [line], column [col], of [chars]
    characters: up to two lines before that line, that line, marks below the
    characters, and up to two lines after it. *)
Definition excerpt (src : str) (line col chars : nat) (s : str) : Prop :=
  exists before l after width num l' s1 s2,
    lines_of src (before ++ l :: after) /\ line = S (List.length before) /\ shown_line l l' /\
    aligned width line num /\
    rows (2 + width) (line - List.length (skipn (List.length before - 2) before)) (skipn (List.length before - 2) before) s1 /\
    rows (2 + width) (S line) (firstn 2 after) s2 /\
    s = s1
        ++ (bs "> " ++ num ++ bs " | " ++ l' ++ [LF])
        ++ (repeat " "%byte (List.length (bs "> " ++ num ++ bs " | ") - 2) ++ bs "| " ++ repeat " "%byte (col - 1) ++ repeat "^"%byte chars ++ [LF])
        ++ s2.
Fixpoint join (sep : str) (l : list str) : str :=
  match l with
  | [] => []
  | [x] => x
  | x :: l' => x ++ sep ++ join sep l'
  end.
