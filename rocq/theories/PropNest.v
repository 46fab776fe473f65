(** C58, C59 and part of C18: the brackets and the last token of an accepted program. *)
From Coq Require Import List NArith Bool Lia String.
From Coq.Strings Require Import Byte.
From Verif Require Import Bytes Token Lexer Ast Prog Parser SpecTrace SpecNest Nest EndFacts PropGap.
Import ListNotations.
Open Scope nat_scope.
Open Scope list_scope.

(** C58: in an accepted program every closing bracket matches the bracket opened last, and the only brackets
    that may be left open at the end are braces. *)
Theorem C58_brackets_nest : forall (alnum : N -> bool) (src : str) (m : module) (l : list spot),
  parse_tokens alnum src (ParseOk m) l -> exists k, nests [] l (repeat Brace k).
Proof. exact accepted_nest. Qed.
Print Assumptions C58_brackets_nest.

(** C58: so there are as many opening as closing parentheses and square brackets, and no more closing
    braces than opening ones. *)
Theorem C58_bracket_counts : forall (alnum : N -> bool) (src : str) (m : module) (l : list spot),
  parse_tokens alnum src (ParseOk m) l ->
  count T_ParenOpen l = count T_ParenClose l /\ count T_BracketOpen l = count T_BracketClose l /\
  count T_BraceClose l <= count T_BraceOpen l + count T_TemplateOpen l.
Proof. exact accepted_count. Qed.
Print Assumptions C58_bracket_counts.

(** C59: the last token of an accepted program (the one before its end) is one that can end a statement. *)
Theorem C59_last_token : forall (alnum : N -> bool) (src : str) (m : module) (l l0 l1 : list spot) (x y : spot),
  parse_tokens alnum src (ParseOk m) l -> l = l0 ++ x :: y :: l1 -> s_token y = T_EndOfProgram -> In (s_token x) may_end.
Proof. intros alnum src m l l0 l1 x y. apply accepted_end. Qed.
Print Assumptions C59_last_token.

(** C18, the part that holds: a source is rejected if, when its tokens end, a parenthesis, a
    square bracket or the substitution of a template is open, or a brace that was just opened. *)
Theorem C18_unterminated_partial : forall (alnum : N -> bool) (src : str) (r : parse_result) (l : list spot) (st : list bracket),
  parse_tokens alnum src r l -> nests [] l st ->
  In Paren st \/ In Square st \/ In Dollar st \/ (exists l0 l1 x y, l = l0 ++ x :: y :: l1 /\ s_token x = T_BraceOpen /\ s_token y = T_EndOfProgram) ->
  exists es, r = ParseErr es.
Proof.
  assert (D : forall l st s1 s2, nests st l s1 -> nests st l s2 -> s1 = s2).
  { induction l as [|x l IH]; intros st s1 s2 H1 H2; inversion H1; inversion H2; subst; [reflexivity|].
    match goal with A : effect _ _ ?a, B : effect _ _ ?b |- _ => assert (E : a = b) end.
    { match goal with A : effect _ _ ?a, B : effect _ _ ?b |- _ => revert A B end. generalize (s_token x). clear. intros t A B.
      destruct A; inversion B; subst; try reflexivity; exfalso; match goal with H : ~ In _ _ |- _ => apply H; cbn; tauto end. }
    subst. eapply IH; eassumption. }
  intros alnum src r l st H N C. destruct r as [m|es]; [exfalso|now exists es].
  destruct (accepted_nest _ _ _ _ H) as (k & N1). assert (E := D _ _ _ _ N N1).
  assert (X : forall b, In b st -> b = Brace) by (intros b Hb; subst st; exact (repeat_spec _ _ _ Hb)).
  destruct C as [C|[C|[C|(l0 & l1 & x & y & El & Ex & Ey)]]]; try (discriminate (X _ C)).
  assert (Z := accepted_end _ _ _ _ _ _ _ _ H El Ey). rewrite Ex in Z. cbn in Z. repeat (destruct Z as [Z|Z]; [discriminate Z|]). exact Z.
Qed.
Print Assumptions C18_unterminated_partial.

(** ** Cases *)
Ltac traced := eexists; exists 60; eexists _, _, _, _; split; [vm_compute; reflexivity|]; split; [vm_compute; reflexivity|]; split; vm_compute; reflexivity.
Example C58_nonvacuous : exists m, parse_tokens letters (bs "f([a, {b: `x${ {c} }y`}]); function g(d) { if (d) { return [d]") (ParseOk m)
    (trace_of (bs "f([a, {b: `x${ {c} }y`}]); function g(d) { if (d) { return [d]")).
Proof. traced. Qed.
Example C58_open : nests [] (trace_of (bs "f([a, {b: `x${ {c} }y`}]); function g(d) { if (d) { return [d]")) [Brace; Brace].
Proof.
  vm_compute. repeat (eapply ne_cons; [unfold s_token; cbn [fst snd]; first [apply ef_open_paren|apply ef_open_square|apply ef_open_brace|apply ef_open_dollar|apply ef_close_paren|apply ef_close_square|apply ef_close_brace|apply ef_close_dollar|apply ef_other; cbn; intuition discriminate]|]).
  apply ne_nil.
Qed.
(** Every token of the list does end some accepted program. *)
Example C59_all : Forall (fun t => exists src m l0 x y l1, parse_tokens letters src (ParseOk m) (l0 ++ x :: y :: l1) /\ s_token x = t /\ s_token y = T_EndOfProgram) may_end.
Proof.
  assert (G : forall src t, (let l := trace_of src in match result_of src with ParseOk m => True | _ => False end /\ parse_tokens letters src (result_of src) l /\
    exists k, s_token (nth k l (T_Comma, 0, 0)) = t /\ s_token (nth (S k) l (T_Comma, 0, 0)) = T_EndOfProgram /\ S k < List.length l) ->
    exists src m l0 x y l1, parse_tokens letters src (ParseOk m) (l0 ++ x :: y :: l1) /\ s_token x = t /\ s_token y = T_EndOfProgram).
  { intros src t (R & T & k & K1 & K2 & K3). destruct (result_of src) as [m|es]; [|destruct R].
    exists src, m, (firstn k (trace_of src)), (nth k (trace_of src) (T_Comma, 0, 0)), (nth (S k) (trace_of src) (T_Comma, 0, 0)), (skipn (2 + k) (trace_of src)).
    split; [|split; assumption]. replace (_ ++ _ :: _ :: _) with (trace_of src); [exact T|]. clear - K3. revert k K3. generalize (trace_of src) as l. induction l as [|z l IH]; intros k K; [cbn in K; lia|].
    destruct k as [|k]; [destruct l as [|w l]; [cbn in K; lia|reflexivity]|]. cbn [firstn app nth skipn plus]. f_equal. apply IH. cbn [List.length] in K. lia. }
  unfold may_end. repeat (apply Forall_cons; [|]); [..|apply Forall_nil].
  1: apply (G (bs "a;")). 2: apply (G (bs "f()")). 3: apply (G (bs "[]")). 4: apply (G (bs "{}")). 5: apply (G (bs "a++")). 6: apply (G (bs "a--")).
  7: apply (G (bs "break")). 8: apply (G (bs "continue")). 9: apply (G (bs "return")). 10: apply (G (bs "debugger")). 11: apply (G (bs "this")).
  12: apply (G (bs "true")). 13: apply (G (bs "false")). 14: apply (G (bs "null")). 15: apply (G (bs "undefined")). 16: apply (G (bs "'a'")). 17: apply (G (bs "1")). 18: apply (G (bs "0b1")). 19: apply (G (bs "/a/")).
  20: apply (G (bs "a")). 21: apply (G (bs "a.b")). 22: apply (G (bs "`a`")). 23: apply (G (bs "{a")).
  all: cbv zeta; split; [vm_compute; exact I|]; split; [exists 60; eexists _, _, _, _; split; [vm_compute; reflexivity|]; split; [vm_compute; reflexivity|]; split; vm_compute; reflexivity|].
  all: first [exists 0; split; [vm_compute; reflexivity|split; [vm_compute; reflexivity|vm_compute; lia]]|exists 1; split; [vm_compute; reflexivity|split; [vm_compute; reflexivity|vm_compute; lia]]|exists 2; split; [vm_compute; reflexivity|split; [vm_compute; reflexivity|vm_compute; lia]]].
Qed.
Example C18_nonvacuous : exists es, parse_tokens letters (bs "if (a) {") (ParseErr es) (trace_of (bs "if (a) {")) /\
  exists l0 l1 x y, trace_of (bs "if (a) {") = l0 ++ x :: y :: l1 /\ s_token x = T_BraceOpen /\ s_token y = T_EndOfProgram.
Proof.
  eexists. split; [exists 60; eexists _, _, _, _; split; [vm_compute; reflexivity|]; split; [vm_compute; reflexivity|]; split; vm_compute; reflexivity|].
  exists (firstn 4 (trace_of (bs "if (a) {"))). eexists _, _, _. split; [vm_compute; reflexivity|split; reflexivity].
Qed.
Example C18_nonvacuous_paren : exists es, parse_tokens letters (bs "f(a") (ParseErr es) (trace_of (bs "f(a")) /\ nests [] (trace_of (bs "f(a")) [Paren].
Proof.
  eexists. split; [exists 60; eexists _, _, _, _; split; [vm_compute; reflexivity|]; split; [vm_compute; reflexivity|]; split; vm_compute; reflexivity|].
  vm_compute. repeat (eapply ne_cons; [unfold s_token; cbn [fst snd]; first [apply ef_open_paren|apply ef_other; cbn; intuition discriminate]|]). apply ne_nil.
Qed.
