(** Properties of the errors [parse] returns: C12, C13, C38. *)
From Coq Require Import List NArith Bool String Sorted.
From Verif Require Import Bytes Token Lexer SpecRead Parser ErrorFacts.
Import ListNotations.
Open Scope nat_scope.

Theorem C12_errors_in_source : forall (alnum : N -> bool) (src : str) (es : list error),
  parses_to alnum src (ParseErr es) ->
  es <> [] /\
  Forall (fun e => err_start e <= err_end e <= List.length src /\
                   err_raw e = substring src (err_start e) (err_end e)) es.
Proof. exact errors_in_source. Qed.
Print Assumptions C12_errors_in_source.

Theorem C13_errors_ordered : forall (alnum : N -> bool) (src : str) (es : list error),
  parses_to alnum src (ParseErr es) ->
  StronglySorted (fun e e' => err_end e <= err_start e') es.
Proof. exact errors_ordered. Qed.
Print Assumptions C13_errors_ordered.

(** The texts of the errors are disjoint parts of the source; an error without
    text is the end of the program or an unexpected non-ASCII character. *)
Theorem C38_errors_bounded : forall (alnum : N -> bool) (src : str) (es : list error),
  parses_to alnum src (ParseErr es) ->
  list_sum (map (fun e => List.length (err_raw e)) es) <= List.length src.
Proof. exact errors_disjoint_total. Qed.
Print Assumptions C38_errors_bounded.
Theorem C38_empty_errors : forall (alnum : N -> bool) (src : str) (es : list error),
  parses_to alnum src (ParseErr es) ->
  Forall (fun e => err_raw e <> [] \/ err_token e = T_EndOfProgram \/ err_token e = T_UnexpectedToken) es.
Proof. exact empty_errors. Qed.
Print Assumptions C38_empty_errors.

Example errors_nonvacuous : exists es, 2 <= List.length es /\
  parses_to (fun _ => true) (bs "function () { a = ; } if (x") (ParseErr es).
Proof. eexists. split; [|exists 100; vm_compute; reflexivity]. simpl. repeat constructor. Qed.
