(** Property C67: parsing takes time proportional to the length of the source. *)
From Coq Require Import List NArith Bool Arith String.
From Coq.Strings Require Import Byte.
From Verif Require Import Bytes Token Lexer Ast Prog Parser SpecUtf8 SpecCost CostFacts LexEval.
Import ListNotations.
Open Scope nat_scope.
Open Scope list_scope.

(** ** If [parse] returns, accepting or rejecting, it has made at most 100 calls, looks at a token and
    operations on the lexer for every byte of the source. *)
Theorem C67_linear : forall (alnum : N -> bool) (src : str) (r : parse_result) (c : nat), utf8 src ->
  parse_steps alnum src r c -> c <= 100 * (List.length src + 1) + 1.
Proof. intros alnum src r c U. now apply parse_linear. Qed.
Print Assumptions C67_linear.

(** The counter counts the operations of [parse] and changes nothing. *)
Theorem C67_counted : forall (alnum : N -> bool) (src : str) (r : parse_result),
  parses_to alnum src r <-> exists c, parse_steps alnum src r c.
Proof. exact parse_counted. Qed.
Print Assumptions C67_counted.

(** In particular the list of errors cannot be longer than that. *)
Theorem C67_errors : forall (alnum : N -> bool) (src : str) (errs : list error), utf8 src ->
  parses_to alnum src (ParseErr errs) -> List.length errs <= 100 * (List.length src + 1) + 1.
Proof. intros alnum src errs U. now apply errors_linear. Qed.
Print Assumptions C67_errors.

(** ** A program and how much work it is; unfinished parentheses, which are reported one by one. *)
Definition count (n : nat) (src : str) : option (nat * nat) :=
  match lexer_new (fun _ => false) src with
  | Done lx => match crun (fun _ => false) body n (body _ F_parse) (PState lx []) with
               | Done (_, s, c) => Some (List.length (p_errors s), c) | _ => None end
  | _ => None
  end.
Example count_program : count 100 (bs "var f = (a, b) => a + b * f(1, 2);") = Some (0, 124).
Proof. vm_compute. reflexivity. Qed.
Example count_parens : count 100 (bs "((((((((") = Some (9, 102).
Proof. vm_compute. reflexivity. Qed.
Example counts_are_steps n src e c : count n src = Some (e, c) -> exists r, parse_steps (fun _ => false) src r c.
Proof.
  unfold count. destruct (lexer_new _ src) as [lx| | |] eqn:E; try discriminate.
  destruct (crun _ body n _ _) as [[[m s] d]| | |] eqn:R; try discriminate. intros H. injection H as _ <-.
  eexists. exists n, lx, m, s. split; [exact E|]. split; [exact R|reflexivity].
Qed.
