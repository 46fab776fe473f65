(** Vocabulary: UTF-8 (RFC 3629). *)
From Coq Require Import List NArith Bool.
From Coq.Strings Require Import Byte.
From Verif Require Import Bytes.
Import ListNotations.
Open Scope list_scope.

Definition between (lo hi : byte) (b : byte) : Prop := (byte_val lo <= byte_val b <= byte_val hi)%N.
Definition tail_byte (b : byte) : Prop := between x80 xbf b.
(** The encoding of one character. *)
Inductive utf8_char : str -> Prop :=
| u1 a : between x00 x7f a -> utf8_char [a]
| u2 a b : between xc2 xdf a -> tail_byte b -> utf8_char [a; b]
| u3_e0 b c : between xa0 xbf b -> tail_byte c -> utf8_char [xe0; b; c]
| u3_ec a b c : between xe1 xec a -> tail_byte b -> tail_byte c -> utf8_char [a; b; c]
| u3_ed b c : between x80 x9f b -> tail_byte c -> utf8_char [xed; b; c]
| u3_ef a b c : between xee xef a -> tail_byte b -> tail_byte c -> utf8_char [a; b; c]
| u4_f0 b c d : between x90 xbf b -> tail_byte c -> tail_byte d -> utf8_char [xf0; b; c; d]
| u4_f3 a b c d : between xf1 xf3 a -> tail_byte b -> tail_byte c -> tail_byte d -> utf8_char [a; b; c; d]
| u4_f4 b c d : between x80 x8f b -> tail_byte c -> tail_byte d -> utf8_char [xf4; b; c; d].
(** A text of [n] characters. *)
Inductive characters : nat -> str -> Prop :=
| ch_nil : characters 0 []
| ch_cons n c s : utf8_char c -> characters n s -> characters (S n) (c ++ s).
Definition utf8 (s : str) : Prop := exists n, characters n s.
(** Position [p] of [s] is not in the middle of a character. *)
Definition boundary (s : str) (p : nat) : Prop := exists a b, s = a ++ b /\ List.length a = p /\ utf8 a /\ utf8 b.
