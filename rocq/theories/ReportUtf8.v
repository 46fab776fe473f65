(** The report for a valid UTF-8 source is valid UTF-8. *)
From Coq Require Import List NArith Bool Lia Arith String.
From Coq.Strings Require Import Byte.
From Verif Require Import Bytes Token Lexer SpecUtf8 ErrorFmt ShowInj LexerFacts Boundary Utf8Facts AstFacts JsonUtf8.
Import ListNotations.
Open Scope nat_scope.
Open Scope list_scope.

Lemma split_lines_utf8 s : forall cur, utf8 (cur ++ s) -> Forall utf8 (split_lines cur s).
Proof.
  induction s as [|b s IH]; intros cur U; cbn [split_lines].
  - rewrite app_nil_r in U. destruct cur; constructor; [exact U|constructor].
  - destruct (byte_eqb b x0a) eqn:E.
    + apply byte_eqb_eq in E. subst b. apply utf8_at_ascii in U as [A B]; [|reflexivity]. constructor; [exact A|]. now apply IH.
    + apply IH. rewrite <- app_assoc. exact U.
Qed.
Lemma strip_utf8 l : utf8 l -> utf8 (strip_cr l).
Proof.
  intros U. unfold strip_cr. destruct (rev l) as [|b r] eqn:E; [apply utf8_nil|]. destruct (byte_eqb b x0d) eqn:B; [|exact U].
  apply byte_eqb_eq in B. subst b. apply (f_equal (@rev byte)) in E. rewrite rev_involutive in E. cbn [rev] in E. rewrite E in U. now apply utf8_at_ascii in U as [U _].
Qed.
Lemma lines_utf8 s : utf8 s -> Forall utf8 (lines s).
Proof. intros U. unfold lines. rewrite Forall_map. generalize (split_lines_utf8 s [] U). apply Forall_impl. exact strip_utf8. Qed.
Lemma repeat_utf8 b n : ascii b = true -> utf8 (repeat b n).
Proof. intros A. apply utf8_ascii. induction n as [|n IH]; [reflexivity|]. cbn [repeat forallb]. now rewrite A, IH. Qed.
Lemma uint_utf8 d : utf8 (uint_str d).
Proof. apply utf8_ascii. apply (forallb_imp is_digit); [intros b H; destruct b; try discriminate H; reflexivity|]. induction d; cbn [uint_str forallb]; try exact IHd; reflexivity. Qed.
Lemma pad_utf8 w s : utf8 s -> utf8 (pad w s).
Proof. intros U. apply utf8_app; [now apply repeat_utf8|exact U]. Qed.
Ltac u := repeat (apply utf8_app); first [now apply bs_ascii | apply uint_utf8 | apply pad_utf8; apply uint_utf8 | now apply repeat_utf8 | now apply utf8_ascii | assumption | idtac].
Lemma in_enumerate {A} (l : list A) : forall i k x, In (k, x) (enumerate i l) -> In x l.
Proof. induction l as [|a l IH]; intros i k x H; [destruct H|]. destruct H as [E|H]; [left; congruence|right; eauto]. Qed.
Lemma display_utf8 src a b msg : utf8 src -> display_error src a b = Done msg -> utf8 msg.
Proof.
  intros U H. unfold display_error in H. apply obind_done in H as (x1 & _ & H). apply obind_done in H as (tok & _ & H). destruct (locate src a) as [lineno colno].
  match type of H with Done ?x = Done ?y => assert (Q : x = y) by (injection H as H; exact H) end. subst msg. clear H. set (shown := filter _ _). assert (F : Forall (fun p => utf8 (snd p)) shown).
  { apply Forall_forall. intros [k l] I. apply filter_In in I as [I _]. apply in_enumerate in I. assert (F := lines_utf8 src U). rewrite Forall_forall in F. exact (F l I). }
  clearbody shown. u. induction F as [|[k l] shown V F IH]; cbn [flat_map]; [apply utf8_nil|]. cbn [snd] in V. apply utf8_app; [|exact IH]. destruct (Nat.eqb k lineno); u.
Qed.
Lemma display_all_utf8 es src ds : utf8 src -> display_all es src = Done ds -> Forall utf8 ds.
Proof.
  intros U. revert ds. induction es as [|e es IH]; intros ds H; cbn [display_all] in H; [injection H as <-; constructor|].
  apply obind_done in H as (d & D & H). apply obind_done in H as (r & R & H). injection H as <-. constructor; [now apply display_utf8 in D|auto].
Qed.
Lemma report_utf8 es src s : utf8 src -> format_errors es src = Done s -> utf8 s.
Proof.
  intros U H. unfold format_errors in H. apply obind_done in H as (ds & D & H). 
  match type of H with Done ?x = Done ?y => assert (Q : x = y) by (injection H as H; exact H) end. subst s. apply utf8_app; [now apply bs_ascii|]. apply join_utf8; [now apply utf8_ascii|]. now apply display_all_utf8 with es src.
Qed.
Lemma ffi_report_utf8 es src s : utf8 src -> ffi_format_errors es src = Done s -> utf8 s.
Proof.
  intros U H. unfold ffi_format_errors in H. apply obind_done in H as (ds & D & H). injection H as <-. apply join_utf8; [now apply utf8_ascii|]. now apply display_all_utf8 with es src.
Qed.
