(** Specification: a source that holds no token. *)
From Coq Require Import List.
From Coq.Strings Require Import Byte.
From Verif Require Import Bytes SpecLexer.
Import ListNotations.

(** Up to its end, or up to a NUL, the source is white space and complete comments. *)
Definition only_trivia (src : str) : Prop :=
  exists ws rest, src ++ [x00] = ws ++ x00 :: rest /\ gap ws (x00 :: rest).
