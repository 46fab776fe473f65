(** C71: the errors inside a common beginning of two sources are the same. *)
From Coq Require Import List NArith Bool Lia Arith String.
From Coq.Strings Require Import Byte.
From Verif Require Import Bytes Token Lexer Ast Prog Parser ParseFacts ErrorFacts ErrLocal SpecSyntax SpecReading CompStream PropSyntax PropGap.
Import ListNotations.
Open Scope nat_scope.
Open Scope list_scope.

(** The errors of a result that end at offset [k] or before. *)
Definition errors_before (k : nat) (r : parse_result) : list error :=
  match r with ParseOk _ => [] | ParseErr es => filter (fun e => err_end e <=? k) es end.

(** C71: two sources that agree up to and including the ASCII character [c] have the same errors before that character. *)
Theorem C71_common_errors : forall (alnum : N -> bool) (a b b' : str) (c : byte) (r r' : parse_result),
  (byte_val c < 128)%N -> parses_to alnum (a ++ c :: b) r -> parses_to alnum (a ++ c :: b') r' ->
  errors_before (List.length a) r = errors_before (List.length a) r'.
Proof.
  intros alnum a b b' c r r' Hc H H'. assert (K := errors_common _ _ _ _ _ _ _ Hc H H'). unfold near in K.
  destruct r, r'; cbn [errors_before errors_of filter] in *; congruence.
Qed.
Print Assumptions C71_common_errors.

Lemma before_not_ok k r e : In e (errors_before k r) -> exists es, r = ParseErr es /\ In e es /\ err_end e <= k.
Proof. destruct r as [m|es]; cbn [errors_before]; [intros []|]. intros H. apply filter_In in H as [H L]. apply Nat.leb_le in L. eauto. Qed.
(** Hence no other continuation repairs an error: the sources that begin like that are rejected, or [parse] does not return on them ... *)
Theorem C71_no_repair : forall (alnum : N -> bool) (a b b' : str) (c : byte) (es : list error) (e : error),
  (byte_val c < 128)%N -> parses_to alnum (a ++ c :: b) (ParseErr es) -> In e es -> err_end e <= List.length a ->
  forall r', parses_to alnum (a ++ c :: b') r' -> exists es', r' = ParseErr es' /\ In e es'.
Proof.
  intros alnum a b b' c es e Hc H I L r' H'. assert (K := C71_common_errors _ _ _ _ _ _ _ Hc H H').
  assert (X : In e (errors_before (List.length a) r')). { rewrite <- K. cbn [errors_before]. apply filter_In. split; [exact I|now apply Nat.leb_le]. }
  destruct (before_not_ok _ _ _ X) as (es' & -> & J & _). eauto.
Qed.
Print Assumptions C71_no_repair.
(** ... and none of them is a program of the grammar (C61). *)
Theorem C71_no_program : forall (alnum : N -> bool) (a b b' : str) (c : byte) (es : list error) (e : error),
  (byte_val c < 128)%N -> parses_to alnum (a ++ c :: b) (ParseErr es) -> In e es -> err_end e <= List.length a ->
  forall lx ls m, lexer_new alnum (a ++ c :: b') = Done lx -> reading alnum lx ls -> ~ program ls m.
Proof.
  intros alnum a b b' c es e Hc H I L lx ls m E R P. destruct (C61_programs_accepted _ _ _ _ _ E R P) as (m' & H' & _).
  destruct (C71_no_repair _ _ _ _ _ _ _ Hc H I L _ H') as (es' & Q & _). discriminate Q.
Qed.
Print Assumptions C71_no_program.
(** The first error is the same one, if it ends before [c]. *)
Theorem C71_first_error : forall (alnum : N -> bool) (a b b' : str) (c : byte) (e e' : error) (es es' : list error),
  (byte_val c < 128)%N -> parses_to alnum (a ++ c :: b) (ParseErr (e :: es)) -> parses_to alnum (a ++ c :: b') (ParseErr (e' :: es')) ->
  err_end e <= List.length a -> e = e'.
Proof.
  intros alnum a b b' c e e' es es' Hc H H' L. assert (K := C71_common_errors _ _ _ _ _ _ _ Hc H H'). cbn [errors_before filter] in K.
  destruct (Nat.leb_spec (err_end e) (List.length a)); [|lia].
  destruct (Nat.leb_spec (err_end e') (List.length a)) as [L'|L']; [congruence|]. exfalso.
  assert (X : In e es'). { assert (Y : In e (filter (fun e0 => err_end e0 <=? List.length a) es')) by (rewrite <- K; now left). apply filter_In in Y. apply Y. }
  assert (O := errors_ordered _ _ _ H'). apply Sorted.StronglySorted_inv in O as [_ O]. rewrite Forall_forall in O. specialize (O _ X).
  destruct (errors_in_source _ _ _ H') as [_ F]. rewrite Forall_forall in F. destruct (F e ltac:(now right)). lia.
Qed.
Print Assumptions C71_first_error.

(** ** Cases *)
(** The error at [)] of [a = );] does not depend on what follows the semicolon: more errors, or none. *)
Example C71_case : exists es es' e, parses_to letters (bs "a = )" ++ ";"%byte :: bs "b") (ParseErr (e :: es)) /\ parses_to letters (bs "a = )" ++ ";"%byte :: bs " = ] (") (ParseErr (e :: es')) /\
  err_end e <= 5 /\ es = [] /\ es' <> [].
Proof. do 3 eexists. split; [exists 60; vm_compute; reflexivity|]. split; [exists 60; vm_compute; reflexivity|]. split; [vm_compute; lia|]. split; [reflexivity|discriminate]. Qed.
(** The common character is needed: after [a = ] the end of the source is an error that [b] repairs. *)
Example C71_end : exists es e m, parses_to letters (bs "a = ") (ParseErr es) /\ In e es /\ err_end e <= 4 /\ parses_to letters (bs "a = " ++ bs "b") (ParseOk m).
Proof. do 3 eexists. split; [exists 60; vm_compute; reflexivity|]. split; [left; reflexivity|]. split; [vm_compute; lia|]. exists 60; vm_compute; reflexivity. Qed.
(** So is that the error ends before it: [+] before [+] is no error before [b]. *)
Example C71_touching : exists es m, parses_to letters (bs "a " ++ bs "+") (ParseErr es) /\ parses_to letters (bs "a " ++ bs "++") (ParseOk m).
Proof. do 2 eexists. split; exists 60; vm_compute; reflexivity. Qed.
