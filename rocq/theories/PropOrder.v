(** C80: the parts of a node are in source order. *)
From Coq Require Import List NArith Bool Lia Arith String.
From Coq.Strings Require Import Byte.
From Verif Require Import Bytes Token Lexer Ast SpecTree SpecPos SpecOrder Prog Parser OrderFacts.
Import ListNotations.
Open Scope nat_scope.
Open Scope list_scope.

(** The parts of every node begin in the order in which the node has them: the statements of a block, the arguments of a
    call after the callee, the operands of an operator, the clauses of a statement, ... *)
Theorem C80_parts : forall (alnum : N -> bool) (src : str) (m : module) (a : any),
  (N.of_nat (List.length src) < 4294967296)%N ->
  parses_to alnum src (ParseOk m) -> in_module a m -> in_source_order a.
Proof. intros alnum src m a S H I. exact (proj1 (proj1 (parse_ordered alnum src m S H) a I)). Qed.
Print Assumptions C80_parts.

(** They also end in this order. *)
Theorem C80_ends : forall (alnum : N -> bool) (src : str) (m : module) (a : any),
  (N.of_nat (List.length src) < 4294967296)%N ->
  parses_to alnum src (ParseOk m) -> in_module a m -> ends_in_order a.
Proof. intros alnum src m a S H I. exact (proj2 (proj1 (parse_ordered alnum src m S H) a I)). Qed.
Print Assumptions C80_ends.

(** The statements of a program, too. *)
Theorem C80_statements : forall (alnum : N -> bool) (src : str) (m : module),
  (N.of_nat (List.length src) < 4294967296)%N ->
  parses_to alnum src (ParseOk m) ->
  ascending (map (@n_start statement) m) /\ ascending (map (@n_end statement) m).
Proof. intros alnum src m S H. exact (proj2 (parse_ordered alnum src m S H)). Qed.
Print Assumptions C80_statements.

(** They begin and end in this order, but one part can end after the next one has begun, or take in what stands between them: in
    [x=[-y,c]] the element [-y] takes in the comma (C79). *)
Theorem C80_overlap_refuted : forall alnum : N -> bool, exists m n l r,
  parses_to alnum (bs "x=[-y,c]") (ParseOk m) /\ in_module (A_Expr n) m /\ n_item n = E_Array [l; r] /\
  source_of (bs "x=[-y,c]") (A_Expr l) = bs "-y," /\ source_of (bs "x=[-y,c]") (A_Expr r) = bs "c".
Proof.
  intros alnum. do 4 eexists. split; [exists 100; vm_compute; reflexivity|]. split.
  { eexists. split; [left; reflexivity|]. eapply within_child; [left; reflexivity|].
    eapply within_child; [right; left; reflexivity|]. apply within_refl. }
  split; [reflexivity|]. split; vm_compute; reflexivity.
Qed.
Print Assumptions C80_overlap_refuted.

Example C80_nonvacuous : forall alnum : N -> bool, exists m n,
  parses_to alnum (bs "`a${b}c${d}e`; f(x, y)(z)") (ParseOk m) /\ in_module (A_Expr n) m /\
  map start_of (parts_in_order (A_Expr n)) = [0; 4; 5; 9; 10]%N.
Proof.
  intros alnum. do 2 eexists. split; [exists 300; vm_compute; reflexivity|].
  split.
  { eexists. split; [left; reflexivity|]. eapply within_child; [left; reflexivity|]. apply within_refl. }
  vm_compute; reflexivity.
Qed.
