(** Facts about all parser programs at once. *)
From Coq Require Import List NArith Bool Lia.
From Verif Require Import Bytes Token Lexer LexerFacts Prog.
Import ListNotations.
Open Scope nat_scope.

Section Facts.
  Variable F : Set -> Type.
  Variable alnum : N -> bool.
  Variable body : forall R, F R -> prog F R.
  Notation run := (run alnum body).

  (** ** Equations of [run] *)
  Section Eqs.
    Variables (n : nat) (A : Type).
    Lemma run_Ret (a : A) s : run n (Ret a) s = Done (a, s).
    Proof. destruct n; reflexivity. Qed.
    Lemma run_Look (k : view -> prog F A) s : run n (Look k) s = run n (k (view_of (p_lexer s))) s.
    Proof. destruct n; reflexivity. Qed.
    Lemma run_Consume (k : prog F A) s :
      run n (Consume k) s = s' <~ op_consume alnum s ;; run n k s'.
    Proof. destruct n; reflexivity. Qed.
    Lemma run_Template (k : prog F A) s :
      run n (ReadTemplate k) s = s' <~ op_template s ;; run n k s'.
    Proof. destruct n; reflexivity. Qed.
    Lemma run_Regex (k : str -> prog F A) s :
      run n (ReadRegex k) s = '(v, s') <~ op_regex s ;; run n (k v) s'.
    Proof. destruct n; reflexivity. Qed.
    Lemma run_Error (k : prog F A) s :
      run n (PushError k) s = s' <~ op_error alnum s ;; run n k s'.
    Proof. destruct n; reflexivity. Qed.
    Lemma run_Abort s : run n (Abort (A := A)) s = Panicked.
    Proof. destruct n; reflexivity. Qed.
    Lemma run_Call0 (R : Set) (f : F R) (k : R -> prog F A) s : run 0 (Call f k) s = OutOfFuel.
    Proof. reflexivity. Qed.
    Lemma run_CallS (R : Set) (f : F R) (k : R -> prog F A) s :
      run (S n) (Call f k) s = '(r, s') <~ run n (body R f) s ;; run (S n) (k r) s'.
    Proof. reflexivity. Qed.
  End Eqs.
  Ltac run_eqs H :=
    rewrite ?run_Ret, ?run_Look, ?run_Consume, ?run_Template, ?run_Regex, ?run_Error, ?run_Abort,
      ?run_Call0, ?run_CallS in H.

  (** ** Running a sequence of two programs *)
  Lemma run_bind n A B (p : prog F A) (g : A -> prog F B) s :
    run n (bind p g) s = '(a, s') <~ run n p s ;; run n (g a) s'.
  Proof.
    revert s; induction p as [a|k IH|k IH|k IH|k IH|k IH| |R f k IH]; intros s; cbn [bind].
    - now rewrite run_Ret.
    - now rewrite !run_Look, IH.
    - rewrite !run_Consume. destruct (op_consume alnum s); cbn [obind]; auto.
    - rewrite !run_Template. destruct (op_template s); cbn [obind]; auto.
    - rewrite !run_Regex. destruct (op_regex s) as [[v s']| | |]; cbn [obind]; auto.
    - rewrite !run_Error. destruct (op_error alnum s); cbn [obind]; auto.
    - now rewrite !run_Abort.
    - destruct n as [|n]; [reflexivity|]. rewrite !run_CallS.
      destruct (run n (body R f) s) as [[r s']| | |]; cbn [obind]; auto.
  Qed.

  (** ** More fuel, same result *)
  Lemma run_mono n : forall A (p : prog F A) s o,
    run n p s = o -> o <> OutOfFuel -> run (S n) p s = o.
  Proof.
    induction n as [|n IHn]; intros A p;
    induction p as [a|k IH|k IH|k IH|k IH|k IH| |R f k IH]; intros s o H N.
    all: try (rewrite run_CallS in H; rewrite run_CallS;
      destruct (run n (body R f) s) as [[r s']| | |] eqn:E; cbn [obind] in H; try congruence;
      rewrite (IHn _ _ _ _ E) by discriminate; cbn [obind]; auto).
    all: rewrite ?run_Ret, ?run_Look, ?run_Consume, ?run_Template, ?run_Regex, ?run_Error, ?run_Abort in *.
    all: auto.
    all: try (rewrite run_Call0 in H; congruence).
    all: try (destruct (op_consume alnum s); cbn [obind] in *; auto; fail).
    all: try (destruct (op_template s); cbn [obind] in *; auto; fail).
    all: try (destruct (op_regex s) as [[v s']| | |]; cbn [obind] in *; auto; fail).
    all: try (destruct (op_error alnum s); cbn [obind] in *; auto; fail).
  Qed.
  Lemma run_more n m A (p : prog F A) s o :
    n <= m -> run n p s = o -> o <> OutOfFuel -> run m p s = o.
  Proof. induction 1; auto. intros E N. apply run_mono; auto. Qed.

  (** ** Invariants of the state *)
  Section Inv.
    Variable R : pstate -> pstate -> Prop.
    Hypothesis R_refl : forall s, R s s.
    Hypothesis R_trans : forall a b c, R a b -> R b c -> R a c.
    Hypothesis R_consume : forall s s', op_consume alnum s = Done s' -> R s s'.
    Hypothesis R_template : forall s s', op_template s = Done s' -> R s s'.
    Hypothesis R_regex : forall s v s', op_regex s = Done (v, s') -> R s s'.
    Hypothesis R_error : forall s s', op_error alnum s = Done s' -> R s s'.
    Lemma run_rel n : forall A (p : prog F A) s a s', run n p s = Done (a, s') -> R s s'.
    Proof.
      induction n as [|n IHn]; intros A p;
      induction p as [a0|k IH|k IH|k IH|k IH|k IH| |T f k IH]; intros s a s' H; run_eqs H.
      all: try solve [injection H as <- <-; apply R_refl | discriminate | eauto].
      all: odone H; try match goal with x : (_ * _)%type |- _ => destruct x end; eapply R_trans; eauto.
    Qed.
  End Inv.

  (** ** Partial correctness of executions without errors *)
  Section WP.
    Variable spec : forall R, F R -> lexer -> R -> lexer -> Prop.

    Fixpoint wpe {A} (p : prog F A) (Q : A -> lexer -> Prop) (lx : lexer) : Prop :=
      match p with
      | Ret a => Q a lx
      | Look k => wpe (k (view_of lx)) Q lx
      | Consume k => forall lx', consume alnum lx = Done lx' -> wpe k Q lx'
      | ReadTemplate k => forall lx', read_template_kind lx = Done lx' -> wpe k Q lx'
      | ReadRegex k => forall v lx', read_regular_expression lx = Done (v, lx') -> wpe (k v) Q lx'
      | PushError _ => True
      | Abort => True
      | Call f k => forall r lx', spec _ f lx r lx' -> wpe (k r) Q lx'
      end.

    Lemma wpe_bind {A B} (p : prog F A) (g : A -> prog F B) Q lx :
      wpe p (fun a lx' => wpe (g a) Q lx') lx -> wpe (bind p g) Q lx.
    Proof.
      revert lx; induction p as [a|k IH|k IH|k IH|k IH|k IH| |R f k IH]; simpl; intros lx H; auto.
    Qed.
    Lemma wpe_mono {A} (p : prog F A) (Q Q' : A -> lexer -> Prop) lx :
      (forall a lx', Q a lx' -> Q' a lx') -> wpe p Q lx -> wpe p Q' lx.
    Proof.
      intros HQ; revert lx; induction p as [a|k IH|k IH|k IH|k IH|k IH| |R f k IH]; simpl; intros lx H; eauto.
    Qed.

    Hypothesis spec_ok : forall R (f : F R) lx, wpe (body R f) (spec R f lx) lx.

    Lemma errors_grow n A (p : prog F A) s a s' :
      run n p s = Done (a, s') -> exists l, p_errors s' = p_errors s ++ l.
    Proof.
      intros H.
      refine (run_rel (fun s s' => exists l, p_errors s' = p_errors s ++ l) _ _ _ _ _ _ n A p s a s' H).
      - intros x. exists []. now rewrite app_nil_r.
      - intros x y z [l Hl] [l' Hl']. exists (l ++ l'). now rewrite Hl', Hl, app_assoc.
      - unfold op_consume. intros x y E. oinv. exists []. simpl. now rewrite app_nil_r.
      - unfold op_template. intros x y E. oinv. exists []. simpl. now rewrite app_nil_r.
      - unfold op_regex. intros x v y E. oinv. exists []. simpl. now rewrite app_nil_r.
      - unfold op_error. intros x y E. oinv. simpl. eauto.
    Qed.

    Lemma run_wpe n : forall A (p : prog F A) s a s' Q,
      run n p s = Done (a, s') -> p_errors s' = [] -> wpe p Q (p_lexer s) -> Q a (p_lexer s').
    Proof.
      induction n as [|n IHn]; intros A p;
      induction p as [a0|k IH|k IH|k IH|k IH|k IH| |T f k IH]; intros s a s' Q H HE W.
      all: assert (H0 := H); run_eqs H; cbn [wpe] in W; try discriminate.
      all: try solve [injection H as <- <-; auto | eapply IH; eauto].
      all: odone H.
      all: try (unfold op_consume in H1; oinv; eapply IH; eauto; fail).
      all: try (unfold op_template in H1; oinv; eapply IH; eauto; fail).
      all: try (unfold op_regex in H1; oinv; eapply IH; eauto; fail).
      - exfalso. apply (errors_grow 0) in H2 as [l El]. rewrite HE in El.
        unfold op_error in H1. oinv. simpl in El. destruct (p_errors s); discriminate.
      - exfalso. apply (errors_grow (S n)) in H2 as [l El]. rewrite HE in El.
        unfold op_error in H1. oinv. simpl in El. destruct (p_errors s); discriminate.
      - destruct a0 as [r s1]. cbv beta iota in H2.
        assert (E1 : p_errors s1 = []).
        { apply (errors_grow (S n)) in H2 as [l El]. rewrite HE in El. destruct (p_errors s1); [auto|discriminate]. }
        eapply IH; eauto. apply W. eapply IHn; eauto.
    Qed.
  End WP.
End Facts.
