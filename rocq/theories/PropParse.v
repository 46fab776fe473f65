(** Whether [parse] returns at all: C14, C15, C16, C17, C18. *)
From Coq Require Import List NArith Bool String Lia.
From Coq.Strings Require Import Byte.
From Verif Require Import Bytes Token Tables Lexer Ast Prog Parser ProgFacts ParseFacts.
Import ListNotations.
Open Scope nat_scope.

(** ** C14: [parse] does not always return *)
(** U+2192, a character that is not alphanumeric: the lexer reports an
    unexpected token without moving, the parser skips it forever, recording an
    error every time. *)
Definition arrow_char : str := [xe2; x86; x92].
Section Diverge.
  Variable alnum : N -> bool.
  Lemma parse_stuck lx : (is T_EndOfProgram (view_of lx) = false) ->
    (forall n errs, run alnum body n (body stmt_node F_statement) (PState lx errs) = OutOfFuel \/
       exists s errs', run alnum body n (body stmt_node F_statement) (PState lx errs) = Done (s, PState lx errs')) ->
    forall n errs, run alnum body n (body module F_parse) (PState lx errs) = OutOfFuel.
  Proof.
    intros E H. induction n as [|n IH]; intros errs; cbn [body]; unfold body_parse, look, call; cbn [bind].
    - rewrite run_Look. cbn [p_lexer]. rewrite E, run_Call0. reflexivity.
    - rewrite run_Look. cbn [p_lexer]. rewrite E, run_CallS.
      destruct (H n errs) as [->|(s & errs' & ->)]; [reflexivity|]. cbn [obind bind].
      rewrite run_CallS. cbn [body] in IH. rewrite IH. reflexivity.
  Qed.
  Lemma arrow_diverges : alnum 8594%N = false -> parse_diverges alnum arrow_char.
  Proof.
    intros A n. unfold parse_fuel.
    pose (lx := Lexer [xe2; x86; x92; x00] T_UnexpectedToken NoSemicolon (Cur 0 [xe2; x86; x92; x00])
                (Cur 0 [xe2; x86; x92; x00]) (Cur 0 [xe2; x86; x92; x00]) []).
    assert (H : consume alnum lx = Done lx) by (vm_compute; rewrite A; reflexivity).
    assert (L : lexer_new alnum arrow_char = Done lx) by exact H.
    rewrite L. cbn [obind]. rewrite (parse_stuck lx); [reflexivity|reflexivity|].
    clear n L. intros n errs. destruct n as [|n]; [left; reflexivity|]. right.
    cbn [body]. unfold body_statement, look, call. cbn [bind]. rewrite run_Look, run_CallS.
    change (statement_handler (view_of (p_lexer (PState lx errs)))) with S_____. cbn [body body_stmt_handler get_start look error_ fail_with bind].
    unfold get_start, look, error_, fail_with. cbn [bind]. rewrite run_Look, run_Error.
    assert (Er : exists e, op_error alnum (PState lx errs) = Done (PState lx (errs ++ [e]))).
    { unfold op_error. cbn [p_lexer]. unfold invalid_token. cbn [lx_token lx]. rewrite H. eexists. reflexivity. }
    destruct Er as (e & ->). cbn [obind]. rewrite run_Ret. cbn [obind]. rewrite run_Ret. eauto.
  Qed.
End Diverge.
Theorem C14_terminates_refuted : forall alnum : N -> bool, alnum 8594%N = false ->
  parse_diverges alnum arrow_char.
Proof. exact arrow_diverges. Qed.
Print Assumptions C14_terminates_refuted.

(** An unfinished [switch]: the loop over the statements of a case does not
    stop at the end of the program. *)
Lemma case_body_div alnum lx : lx_token lx = T_EndOfProgram -> forall e errs, div alnum (body _ (F_case_body e)) (PState lx errs).
Proof.
  intros E e errs n. revert e errs. induction n as [|n IH]; intros e errs; cbn [body]; unfold body_case_body, look, call; cbn [bind];
    rewrite run_Look; unfold is; cbn [p_lexer view_of v_token]; rewrite E; change (token_eqb T_EndOfProgram T_Case || token_eqb T_EndOfProgram T_Default || token_eqb T_EndOfProgram T_BraceClose)%bool with false; cbv iota.
  - reflexivity.
  - rewrite run_CallS.
    destruct n as [|n]; [reflexivity|].
    cbn [body]. unfold body_statement, look, call. cbn [bind]. rewrite run_Look, run_CallS.
    unfold statement_handler. cbn [p_lexer view_of v_token]. rewrite E.
    change (nth (token_index T_EndOfProgram) STMT_HANDLERS S_____) with S_____. cbn [body body_stmt_handler].
    unfold get_start, look, error_, fail_with. cbn [bind]. rewrite run_Look, run_Error.
    unfold op_error, invalid_token. cbn [p_lexer]. rewrite E. cbn [obind p_errors]. rewrite !run_Ret. cbn [obind]. rewrite run_Ret.
    cbn [obind bind]. rewrite run_CallS. rewrite IH. reflexivity.
Qed.
Ltac diverge := 
  lazymatch goal with
  | |- div _ (body ?R ?f) _ => first [apply case_body_div; reflexivity | let b := eval hnf in (body R f) in change (body R f) with b; diverge]
  | |- div _ (Look _) _ => apply div_look; cbv beta; diverge
  | |- div _ (Consume _) _ => eapply div_consume; [vm_compute; reflexivity|]; diverge
  | |- div _ (PushError _) _ => eapply div_error; [vm_compute; reflexivity|]; diverge
  | |- div _ (Call _ _) _ => first [eapply (div_called _ _ 30); [vm_compute; reflexivity|]; cbv beta; diverge | apply div_call; diverge]
  | |- div _ ?p _ => let b := eval hnf in p in change p with b; diverge
  end.
Definition unfinished_switch : str := bs "switch(x){case 1:".
Lemma switch_diverges alnum : parse_diverges alnum unfinished_switch.
Proof. eapply parse_div; [vm_compute; reflexivity|]. diverge. Qed.
Theorem C14_terminates_refuted_ascii : forall alnum : N -> bool, parse_diverges alnum unfinished_switch.
Proof. exact switch_diverges. Qed.
Print Assumptions C14_terminates_refuted_ascii.

(** ** C15: [parse] can read past the end of its buffer *)
Ltac ends := split; [discriminate|exists 40; vm_compute; reflexivity].
Theorem C15_reads_inside_refuted : forall alnum : N -> bool,
  parse_ends alnum (bs "`abc") ReadPastEnd /\
  parse_ends alnum (bs "/abc") ReadPastEnd /\
  parse_ends alnum (bs "foo.") ReadPastEnd.
Proof. intros alnum. split; [ends|split; ends]. Qed.
Print Assumptions C15_reads_inside_refuted.

(** ** C16: [parse] can panic: a non-ASCII character after an accessor dot *)
Theorem C16_no_panic_refuted : forall alnum : N -> bool,
  parse_ends alnum (bs "foo." ++ [xc3; xa9]) Panicked.
Proof. intros alnum. ends. Qed.
Print Assumptions C16_no_panic_refuted.

(** ** C17: a NUL byte ends the program; what follows it is ignored *)
Theorem C17_whole_source_refuted : forall alnum : N -> bool, exists m,
  parses_to alnum (bs "a;") (ParseOk m) /\
  parses_to alnum (bs "a;" ++ [x00] ++ bs "this is ( not a program") (ParseOk m).
Proof. intros alnum. eexists. split; exists 40; vm_compute; reflexivity. Qed.
Print Assumptions C17_whole_source_refuted.

(** ** C18: blocks that are still open at the end of the source are accepted *)
Theorem C18_unterminated_refuted : forall alnum : N -> bool,
  Forall (fun src => exists m, parses_to alnum src (ParseOk m))
    [bs "{a;"; bs "function f(){return 1"; bs "class A {x(){}"; bs "()=>{a"; bs "if (x) {a"; bs "try {} finally {a"].
Proof. intros alnum. repeat (constructor; [eexists; exists 40; vm_compute; reflexivity|]). constructor. Qed.
Print Assumptions C18_unterminated_refuted.
