(** The trace of tokens, and the parser run without positions. *)
From Coq Require Import List NArith Bool Lia Arith.
From Verif Require Import Bytes Token Lexer Ast Prog Parser ProgFacts TokenText SpecTrace Erase.
Import ListNotations.
Open Scope nat_scope.
Open Scope list_scope.

Definition omap {A B} (f : A -> B) (m : outcome A) : outcome B :=
  match m with Done a => Done (f a) | ReadPastEnd => ReadPastEnd | Panicked => Panicked | OutOfFuel => OutOfFuel end.
Lemma omap_bind {A B C} (f : B -> C) (m : outcome A) k : omap f (obind m k) = obind m (fun a => omap f (k a)).
Proof. destruct m; reflexivity. Qed.
Lemma bind_omap {A B C} (f : A -> B) (m : outcome A) (k : B -> outcome C) : obind (omap f m) k = obind m (fun a => k (f a)).
Proof. destruct m; reflexivity. Qed.
Lemma obind_ext {A B} (m : outcome A) (k k' : A -> outcome B) : (forall a, k a = k' a) -> obind m k = obind m k'.
Proof. intros H. destruct m; cbn; auto. Qed.

Section Trace.
  Variable alnum : N -> bool.
  Notation note m s := (obind m (fun x => match x with (a, s1, l) => Done (a, s1, spot_of (p_lexer s) :: l) end)).
  Section Gen.
    Variable F : Set -> Type.
    Variable body : forall R, F R -> prog F R.
    Notation trun := (trun alnum body).
    Notation run := (run alnum body).
    Section Eqs.
      Variables (n : nat) (A : Type).
      Lemma trun_Ret (a : A) s : trun n (Ret a) s = Done (a, s, []).
      Proof. destruct n; reflexivity. Qed.
      Lemma trun_Look (k : view -> prog F A) s : trun n (Look k) s = trun n (k (view_of (p_lexer s))) s.
      Proof. destruct n; reflexivity. Qed.
      Lemma trun_Consume (k : prog F A) s : trun n (Consume k) s = s' <~ op_consume alnum s ;; note (trun n k s') s'.
      Proof. destruct n; reflexivity. Qed.
      Lemma trun_Template (k : prog F A) s : trun n (ReadTemplate k) s = s' <~ op_template s ;; note (trun n k s') s'.
      Proof. destruct n; reflexivity. Qed.
      Lemma trun_Regex (k : str -> prog F A) s : trun n (ReadRegex k) s = '(v, s') <~ op_regex s ;; note (trun n (k v) s') s'.
      Proof. destruct n; reflexivity. Qed.
      Lemma trun_Error (k : prog F A) s : trun n (PushError k) s = s' <~ op_error alnum s ;; note (trun n k s') s'.
      Proof. destruct n; reflexivity. Qed.
      Lemma trun_Abort s : trun n (Abort (A := A)) s = Panicked.
      Proof. destruct n; reflexivity. Qed.
      Lemma trun_Call0 (R : Set) (f : F R) (k : R -> prog F A) s : trun 0 (Call f k) s = OutOfFuel.
      Proof. reflexivity. Qed.
      Lemma trun_CallS (R : Set) (f : F R) (k : R -> prog F A) s :
        trun (S n) (Call f k) s = '(r, s', l1) <~ trun n (body R f) s ;; '(a, s1, l2) <~ trun (S n) (k r) s' ;; Done (a, s1, l1 ++ l2).
      Proof. reflexivity. Qed.
    End Eqs.
    (** The record changes nothing. *)
    Lemma trun_run n : forall A (p : prog F A) s, run n p s = omap fst (trun n p s).
    Proof.
      induction n as [|n IHn]; intros A p;
      induction p as [a0|k IH|k IH|k IH|k IH|k IH| |T f k IH]; intros s.
      all: rewrite ?run_Ret, ?run_Look, ?run_Consume, ?run_Template, ?run_Regex, ?run_Error, ?run_Abort, ?run_Call0, ?run_CallS,
        ?trun_Ret, ?trun_Look, ?trun_Consume, ?trun_Template, ?trun_Regex, ?trun_Error, ?trun_Abort, ?trun_Call0, ?trun_CallS, ?omap_bind; try reflexivity; auto.
      all: try (apply obind_ext; intros s'; rewrite ?omap_bind, IH; destruct (trun _ _ _) as [[[? ?] ?]| | |]; reflexivity).
      all: try (apply obind_ext; intros [v s']; rewrite ?omap_bind, IH; destruct (trun _ _ _) as [[[? ?] ?]| | |]; reflexivity).
      rewrite IHn, bind_omap. apply obind_ext. intros [[r s'] l]. cbn [fst]. rewrite IH, omap_bind. destruct (trun _ _ _) as [[[? ?] ?]| | |]; reflexivity.
    Qed.
  End Gen.
End Trace.

(** The interpreter that sees less. *)
Section Trace0.
  Variable z : view -> view.
  Variable guard : token -> bool.
  Variable alnum : N -> bool.
  Notation note m s := (obind m (fun x => match x with (a, s1, l) => Done (a, s1, spot_of (p_lexer s) :: l) end)).
  Fixpoint trun0 (n : nat) {A : Type} {struct n} : P A -> pstate -> outcome (A * pstate * list spot) :=
    fix go (p : P A) (s : pstate) {struct p} : outcome (A * pstate * list spot) :=
      match p with
      | Ret a => Done (a, s, [])
      | Look k => go (k (z (view_of (p_lexer s)))) s
      | Consume k => s' <~ op_consume alnum s ;; note (go k s') s'
      | ReadTemplate k => s' <~ op_template s ;; note (go k s') s'
      | ReadRegex k => if guard (lx_token (p_lexer s)) then '(v, s') <~ op_regex s ;; note (go (k v) s') s' else Panicked
      | PushError k => s' <~ op_error alnum s ;; note (go k s') s'
      | Abort => Panicked
      | Call f k =>
          match n with
          | 0 => OutOfFuel
          | S n' => '(r, s', l1) <~ trun0 n' (body _ f) s ;; '(a, s1, l2) <~ go (k r) s' ;; Done (a, s1, l1 ++ l2)
          end
      end.
  Section Eqs0.
    Variables (n : nat) (A : Type).
    Lemma trun0_Ret (a : A) s : trun0 n (Ret a) s = Done (a, s, []).
    Proof. destruct n; reflexivity. Qed.
    Lemma trun0_Look (k : view -> P A) s : trun0 n (Look k) s = trun0 n (k (z (view_of (p_lexer s)))) s.
    Proof. destruct n; reflexivity. Qed.
    Lemma trun0_Consume (k : P A) s : trun0 n (Consume k) s = s' <~ op_consume alnum s ;; note (trun0 n k s') s'.
    Proof. destruct n; reflexivity. Qed.
    Lemma trun0_Template (k : P A) s : trun0 n (ReadTemplate k) s = s' <~ op_template s ;; note (trun0 n k s') s'.
    Proof. destruct n; reflexivity. Qed.
    Lemma trun0_Regex (k : str -> P A) s : trun0 n (ReadRegex k) s = if guard (lx_token (p_lexer s)) then '(v, s') <~ op_regex s ;; note (trun0 n (k v) s') s' else Panicked.
    Proof. destruct n; reflexivity. Qed.
    Lemma trun0_Error (k : P A) s : trun0 n (PushError k) s = s' <~ op_error alnum s ;; note (trun0 n k s') s'.
    Proof. destruct n; reflexivity. Qed.
    Lemma trun0_Abort s : trun0 n (Abort (A := A)) s = Panicked.
    Proof. destruct n; reflexivity. Qed.
    Lemma trun0_Call0 (R : Set) (f : fn R) (k : R -> P A) s : trun0 0 (Call f k) s = OutOfFuel.
    Proof. reflexivity. Qed.
    Lemma trun0_CallS (R : Set) (f : fn R) (k : R -> P A) s :
      trun0 (S n) (Call f k) s = '(r, s', l1) <~ trun0 n (body R f) s ;; '(a, s1, l2) <~ trun0 (S n) (k r) s' ;; Done (a, s1, l1 ++ l2).
    Proof. reflexivity. Qed.
  End Eqs0.
End Trace0.
Definition slash (t : token) : bool := token_eqb t T_OperatorDivision.
Definition erased {A} (E : A -> A) (x : A * pstate * list spot) : A * pstate * list spot := match x with (a, s, l) => (E a, s, l) end.
Lemma erase_sound alnum n : forall A (E : A -> A) v (p p0 : P A), J E v p p0 -> forall s, v = view_of (p_lexer s) -> trun0 zero slash alnum n p0 s = omap (erased E) (trun alnum body n p s).
Proof.
  induction n as [|n IHn]; intros A E v p p0 Jp;
  induction Jp as [v a a0 ->|v k k0 Jk IH|v k k0 Jk IH|v k k0 Jk IH|v k k0 Ht Jk IH|v k k0 Jk IH|v|v R f f0 k k0 -> Hp Jk IH]; intros s ->.
  all: rewrite ?trun_Ret, ?trun_Look, ?trun_Consume, ?trun_Template, ?trun_Regex, ?trun_Error, ?trun_Abort, ?trun_Call0, ?trun_CallS,
      ?trun0_Ret, ?trun0_Look, ?trun0_Consume, ?trun0_Template, ?trun0_Regex, ?trun0_Error, ?trun0_Abort, ?trun0_Call0, ?trun0_CallS, ?omap_bind; try reflexivity; auto.
  all: try (apply obind_ext; intros s'; rewrite ?omap_bind, (IH _ s' eq_refl); destruct (trun _ _ _ _ _) as [[[? ?] ?]| | |]; reflexivity).
  all: try (cbn in Ht; rewrite Ht; cbv iota; change (slash T_OperatorDivision) with true; cbv iota; apply obind_ext; intros [x s']; rewrite ?omap_bind, (IH x _ s' eq_refl); destruct (trun _ _ _ _ _) as [[[? ?] ?]| | |]; reflexivity).
  rewrite (IHn _ _ _ _ _ (body_erased R f _ Hp) s eq_refl), bind_omap. apply obind_ext. intros [[r s'] l]. cbn [erased]. rewrite (IH r _ s' eq_refl), omap_bind. destruct (trun _ _ _ _ _) as [[[? ?] ?]| | |]; reflexivity.
Qed.
Lemma full_sound alnum n : forall A (p : P A) s, trun0 (fun v => v) (fun _ => true) alnum n p s = trun alnum body n p s.
Proof.
  induction n as [|n IHn]; intros A p;
  induction p as [a0|k IH|k IH|k IH|k IH|k IH| |T f k IH]; intros s.
  all: rewrite ?trun_Ret, ?trun_Look, ?trun_Consume, ?trun_Template, ?trun_Regex, ?trun_Error, ?trun_Abort, ?trun_Call0, ?trun_CallS,
      ?trun0_Ret, ?trun0_Look, ?trun0_Consume, ?trun0_Template, ?trun0_Regex, ?trun0_Error, ?trun0_Abort, ?trun0_Call0, ?trun0_CallS; try reflexivity; auto.
  all: try (apply obind_ext; intros s'; rewrite IH; reflexivity).
  all: try (apply obind_ext; intros [v s']; rewrite IH; reflexivity).
Qed.

(** ** Two runs side by side *)
Fixpoint chain (st : spot -> spot -> Prop) (x : spot) (l : list spot) : Prop :=
  match l with [] => True | y :: r => st x y /\ chain st y r end.
Lemma chain_app st l1 : forall x l2, chain st x (l1 ++ l2) -> chain st x l1 /\ chain st (last l1 x) l2.
Proof.
  induction l1 as [|y l1 IH]; intros x l2 H; [split; [exact I|exact H]|]. destruct H as [H1 H2]. destruct (IH _ _ H2) as [H3 H4]. split; [split; auto|].
  replace (last (y :: l1) x) with (last l1 y); [exact H4|]. destruct l1 as [|w l1]; [reflexivity|]. cbn [last]. clear. revert w. induction l1 as [|v l1 IH]; intros w; [reflexivity|]. cbn [last]. apply (IH v).
Qed.
Lemma last_app_eq {A} l1 : forall (x : A) l2, last (l1 ++ l2) x = last l2 (last l1 x).
Proof.
  induction l1 as [|y l1 IH]; intros x l2; [reflexivity|]. cbn [app]. assert (G : forall l (w : A) d, last (w :: l) d = last l w).
  { induction l as [|v l IHl]; intros w d; [reflexivity|]. change (last (w :: v :: l) d) with (last (v :: l) d). rewrite IHl. symmetry. apply IHl. }
  rewrite !G. apply IH.
Qed.
Lemma last_cons {A} l : forall (w d : A), last (w :: l) d = last l w.
Proof. intros w d. exact (last_app_eq [w] d l). Qed.
Section Last.
  Variables (z : view -> view) (guard : token -> bool) (alnum : N -> bool).
  Notation trun0 := (trun0 z guard alnum).
  Lemma trun0_last n : forall A (p : P A) s a s1 l, trun0 n p s = Done (a, s1, l) -> last l (spot_of (p_lexer s)) = spot_of (p_lexer s1).
  Proof.
    induction n as [|n IHn]; intros A p;
    induction p as [a0|k IH|k IH|k IH|k IH|k IH| |T f k IH]; intros s a s1 l H.
    all: rewrite ?trun0_Ret, ?trun0_Look, ?trun0_Consume, ?trun0_Template, ?trun0_Regex, ?trun0_Error, ?trun0_Abort, ?trun0_Call0, ?trun0_CallS in H; try discriminate H.
    all: try (injection H as <- <- <-; reflexivity).
    all: try (eapply IH; exact H).
    all: try (destruct (guard _); [|discriminate H]).
    all: try (ob H as s' H1 H2; ob H2 as [[b s2] l2] H3 H4; injection H4 as <- <- <-; rewrite last_cons; eapply IH; exact H3).
    all: try (ob H as [v s'] H1 H2; ob H2 as [[b s2] l2] H3 H4; injection H4 as <- <- <-; rewrite last_cons; eapply IH; exact H3).
    ob H as [[r s'] l1] H1 H2. ob H2 as [[b s2] l2] H3 H4. injection H4 as <- <- <-. rewrite last_app_eq, (IHn _ _ _ _ _ _ H1). exact (IH _ _ _ _ _ H3).
  Qed.
  Section Sim.
    Variable St : lexer -> lexer -> Prop.
    Variable st : spot -> spot -> Prop.
    Variable Er : error -> error -> Prop.
    Hypothesis S_view : forall lx lx', St lx lx' -> z (view_of lx') = z (view_of lx).
    Hypothesis S_token : forall lx lx', St lx lx' -> lx_token lx' = lx_token lx.
    Hypothesis S_error : forall lx lx', St lx lx' -> Er (Error (lx_token lx) (token_as_str lx) (pos (lx_tok lx)) (pos (lx_cur lx))) (Error (lx_token lx') (token_as_str lx') (pos (lx_tok lx')) (pos (lx_cur lx'))).
    Hypothesis S_consume : forall lx lx' lx1, St lx lx' -> consume alnum lx = Done lx1 -> st (spot_of lx) (spot_of lx1) -> exists lx1', consume alnum lx' = Done lx1' /\ St lx1 lx1'.
    Hypothesis S_template : forall lx lx' lx1, St lx lx' -> read_template_kind lx = Done lx1 -> st (spot_of lx) (spot_of lx1) -> exists lx1', read_template_kind lx' = Done lx1' /\ St lx1 lx1'.
    Hypothesis S_regex : forall lx lx' v lx1, St lx lx' -> guard (lx_token lx) = true -> read_regular_expression lx = Done (v, lx1) -> st (spot_of lx) (spot_of lx1) ->
      exists lx1', read_regular_expression lx' = Done (v, lx1') /\ St lx1 lx1'.
    Definition both (s s' : pstate) : Prop := St (p_lexer s) (p_lexer s') /\ Forall2 Er (p_errors s) (p_errors s').
    Lemma both_consume s s' s1 : both s s' -> op_consume alnum s = Done s1 -> st (spot_of (p_lexer s)) (spot_of (p_lexer s1)) -> exists s1', op_consume alnum s' = Done s1' /\ both s1 s1'.
    Proof.
      intros [H1 H2] E X. unfold op_consume in *. ob E as lx1 E1 E2. injection E2 as <-. destruct (S_consume _ _ _ H1 E1 X) as (lx1' & E' & H3). rewrite E'. cbn [obind]. eexists. split; [reflexivity|]. split; auto.
    Qed.
    Lemma both_template s s' s1 : both s s' -> op_template s = Done s1 -> st (spot_of (p_lexer s)) (spot_of (p_lexer s1)) -> exists s1', op_template s' = Done s1' /\ both s1 s1'.
    Proof.
      intros [H1 H2] E X. unfold op_template in *. ob E as lx1 E1 E2. injection E2 as <-. destruct (S_template _ _ _ H1 E1 X) as (lx1' & E' & H3). rewrite E'. cbn [obind]. eexists. split; [reflexivity|]. split; auto.
    Qed.
    Lemma both_regex s s' v s1 : both s s' -> guard (lx_token (p_lexer s)) = true -> op_regex s = Done (v, s1) -> st (spot_of (p_lexer s)) (spot_of (p_lexer s1)) -> exists s1', op_regex s' = Done (v, s1') /\ both s1 s1'.
    Proof.
      intros [H1 H2] G E X. unfold op_regex in *. ob E as [w lx1] E1 E2. injection E2 as <- <-. destruct (S_regex _ _ _ _ H1 G E1 X) as (lx1' & E' & H3). rewrite E'. cbn [obind]. eexists. split; [reflexivity|]. split; auto.
    Qed.
    Lemma both_error s s' s1 : both s s' -> op_error alnum s = Done s1 -> st (spot_of (p_lexer s)) (spot_of (p_lexer s1)) -> exists s1', op_error alnum s' = Done s1' /\ both s1 s1'.
    Proof.
      intros [H1 H2] E X. unfold op_error, invalid_token in *. rewrite (S_token _ _ H1). ob E as [e lx1] E1 E2. injection E2 as <-. cbn [p_lexer] in X.
      assert (G : exists lx1', (match lx_token (p_lexer s) with T_EndOfProgram => Done (p_lexer s') | _ => consume alnum (p_lexer s') end) = Done lx1' /\ St lx1 lx1' /\ e = Error (lx_token (p_lexer s)) (token_as_str (p_lexer s)) (pos (lx_tok (p_lexer s))) (pos (lx_cur (p_lexer s)))).
      { destruct (lx_token (p_lexer s)); try (ob E1 as lx2 E3 E4; injection E4 as <- <-; destruct (S_consume _ _ _ H1 E3 X) as (lx1' & E' & H3); exists lx1'; auto; fail). injection E1 as <- <-. exists (p_lexer s'). auto. }
      destruct G as (lx1' & G1 & G2 & ->). assert (V := S_error _ _ H1). rewrite (S_token _ _ H1) in V.
      exists (PState lx1' (p_errors s' ++ [Error (lx_token (p_lexer s)) (token_as_str (p_lexer s')) (pos (lx_tok (p_lexer s'))) (pos (lx_cur (p_lexer s')))])). split; [destruct (lx_token (p_lexer s)); try (rewrite G1; reflexivity); injection G1 as ->; reflexivity|]. split; [exact G2|]. cbn [p_errors]. apply Forall2_app; [exact H2|]. constructor; [exact V|constructor].
    Qed.
    Lemma both_run n : forall A (p : P A) s s' a s1 l, both s s' -> trun0 n p s = Done (a, s1, l) -> chain st (spot_of (p_lexer s)) l ->
      exists s1' l', trun0 n p s' = Done (a, s1', l') /\ both s1 s1'.
    Proof.
      induction n as [|n IHn]; intros A p;
      induction p as [a0|k IH|k IH|k IH|k IH|k IH| |T f k IH]; intros s s' a s1 l B H C.
      all: rewrite ?trun0_Ret, ?trun0_Look, ?trun0_Consume, ?trun0_Template, ?trun0_Regex, ?trun0_Error, ?trun0_Abort, ?trun0_Call0, ?trun0_CallS in *; try discriminate H.
      all: try (injection H as <- <- <-; eauto; fail).
      all: try (rewrite (S_view _ _ (proj1 B)); eapply IH; eauto; fail).
      all: try (rewrite (S_token _ _ (proj1 B)); destruct (guard _) eqn:G; [|discriminate H]; ob H as [v s2] H1 H2; ob H2 as [[b s3] l2] H3 H4; injection H4 as <- <- <-; destruct C as [C1 C2];
        destruct (both_regex _ _ _ _ B G H1 C1) as (s2' & E' & B2); destruct (IH _ _ _ _ _ _ B2 H3 C2) as (s1' & l' & E2 & B3); rewrite E'; cbn [obind]; rewrite E2; cbn [obind]; eauto; fail).
      all: try (ob H as s2 H1 H2; ob H2 as [[b s3] l2] H3 H4; injection H4 as <- <- <-; destruct C as [C1 C2];
        first [destruct (both_consume _ _ _ B H1 C1) as (s2' & E' & B2) | destruct (both_template _ _ _ B H1 C1) as (s2' & E' & B2) | destruct (both_error _ _ _ B H1 C1) as (s2' & E' & B2)];
        destruct (IH _ _ _ _ _ B2 H3 C2) as (s1' & l' & E2 & B3); rewrite E'; cbn [obind]; rewrite E2; cbn [obind]; eauto; fail).
      ob H as [[r s2] l1] H1 H2. ob H2 as [[b s3] l2] H3 H4. injection H4 as <- <- <-. apply chain_app in C as [C1 C2]. rewrite (trun0_last _ _ _ _ _ _ _ H1) in C2.
      destruct (IHn _ _ _ _ _ _ _ B H1 C1) as (s2' & l1' & E1 & B2). destruct (IH _ _ _ _ _ _ B2 H3 C2) as (s1' & l' & E2 & B3). rewrite E1. cbn [obind]. rewrite E2. cbn [obind]. eauto.
    Qed.
  End Sim.
End Last.
