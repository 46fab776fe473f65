(** Specification: what may lie between two tokens.  Independent of the lexer. *)
From Coq Require Import List NArith.
From Coq.Strings Require Import Byte.
From Verif Require Import Bytes.
Import ListNotations.

(** White space: the bytes 0x01 .. 0x20. *)
Definition white (b : byte) : Prop := (1 <= byte_val b <= 32)%N.

(** [gap s rest]: [s], followed by [rest], is a sequence of white space,
    line comments (which end before a line feed or the end of the program, a
    NUL) and complete block comments (which contain no [*/] and no NUL). *)
Inductive gap : str -> str -> Prop :=
| gap_nil rest : gap [] rest
| gap_white b s rest : white b -> gap s rest -> gap (b :: s) rest
| gap_line body s rest :
    ~ In x0a body -> ~ In x00 body ->
    (exists b r, s ++ rest = b :: r /\ (b = x0a \/ b = x00)) ->
    gap s rest -> gap ("/" :: "/" :: body ++ s)%byte rest
| gap_block body s rest :
    (forall u v, body ++ ["*"%byte] <> u ++ "*"%byte :: "/"%byte :: v) -> ~ In x00 body ->
    gap s rest -> gap ("/" :: "*" :: body ++ "*" :: "/" :: s)%byte rest.
