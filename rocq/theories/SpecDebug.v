(** Vocabulary: how texts are put between quotes. *)
From Coq Require Import List NArith.
From Coq.Strings Require Import Byte.
From Verif Require Import Bytes SpecUtf8.
Import ListNotations.
Open Scope list_scope.

(** [quote s] starts with a double quote, and from a text that starts with a
    quoted text one can read off which text it is and what follows. *)
Definition unambiguous (quote : str -> str) : Prop :=
  (forall s, hd_error (quote s) = Some x22) /\
  (forall s s' r r', utf8 s -> utf8 s' -> quote s ++ r = quote s' ++ r' -> s = s' /\ r = r').
