(** Bytes and byte strings: the [u8] and [&str] of the Rust code. *)
From Coq Require Import List NArith String Lia Bool.
From Coq.Strings Require Import Byte.
Import ListNotations.

(** A Rust [&str] is modelled by its bytes. *)
Definition str := list byte.

(** Byte string of a Coq string literal. *)
Definition bs (s : string) : str := list_byte_of_string s.

Definition byte_eqb (a b : byte) : bool := Byte.eqb a b.

Lemma byte_eqb_eq a b : byte_eqb a b = true <-> a = b.
Proof. split; intros H.
  - now apply Byte.byte_dec_bl.
  - subst. now apply Byte.byte_dec_lb.
Qed.

Lemma byte_eqb_refl a : byte_eqb a a = true.
Proof. now apply byte_eqb_eq. Qed.

Lemma byte_eqb_neq a b : byte_eqb a b = false <-> a <> b.
Proof. rewrite <- byte_eqb_eq. destruct (byte_eqb a b); intuition congruence. Qed.

Definition byte_val (b : byte) : N := Byte.to_N b.

(** [lo ..= hi] patterns on bytes. *)
Definition byte_in (lo hi : byte) (b : byte) : bool :=
  ((byte_val lo <=? byte_val b) && (byte_val b <=? byte_val hi))%N.

Definition is_digit (b : byte) : bool := byte_in "0" "9" b.

(** Equality of byte strings ([==] on [&str]). *)
Fixpoint str_eqb (a b : str) : bool :=
  match a, b with
  | [], [] => true
  | x :: a', y :: b' => byte_eqb x y && str_eqb a' b'
  | _, _ => false
  end.

Lemma str_eqb_eq a b : str_eqb a b = true <-> a = b.
Proof.
  revert b; induction a as [|x a IH]; destruct b as [|y b]; simpl; split; intros H;
    try reflexivity; try discriminate.
  - apply andb_true_iff in H as [H1 H2]. apply byte_eqb_eq in H1. apply IH in H2. congruence.
  - injection H as -> ->. rewrite byte_eqb_refl. simpl. now apply IH.
Qed.

Lemma str_eqb_refl a : str_eqb a a = true.
Proof. now apply str_eqb_eq. Qed.

Lemma str_eqb_neq a b : str_eqb a b = false <-> a <> b.
Proof. rewrite <- str_eqb_eq. destruct (str_eqb a b); intuition congruence. Qed.

(** A list indexed by a byte (the 256-entry lookup tables). *)
Definition byte_index (b : byte) : nat := N.to_nat (byte_val b).
