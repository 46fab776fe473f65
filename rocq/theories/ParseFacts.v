(** [parse] as a relation: results do not depend on the fuel. *)
From Coq Require Import List NArith PeanoNat Bool String Lia.
From Coq.Strings Require Import Byte.
From Verif Require Import Bytes Token Lexer Ast Prog Parser ProgFacts.
Import ListNotations.
Open Scope nat_scope.

(** The ways a call of [parse] can end. *)
Definition parse_ends (alnum : N -> bool) (src : str) (o : outcome parse_result) : Prop :=
  o <> OutOfFuel /\ exists n, parse_fuel alnum n src = o.
Definition parse_diverges (alnum : N -> bool) (src : str) : Prop :=
  forall n, parse_fuel alnum n src = OutOfFuel.

Lemma parse_more alnum src n m o : n <= m -> parse_fuel alnum n src = o -> o <> OutOfFuel -> parse_fuel alnum m src = o.
Proof.
  unfold parse_fuel. intros L E N. destruct (lexer_new alnum src) as [lx| | |]; cbn [obind] in *; auto.
  set (x := run alnum body n (body module F_parse) (PState lx [])) in *.
  assert (K : x <> OutOfFuel -> run alnum body m (body module F_parse) (PState lx []) = x).
  { intros K. apply (run_more fn alnum body n m); auto. }
  rewrite K; auto. intros ->. apply N. symmetry. exact E.
Qed.
Lemma parse_ends_det alnum src o1 o2 : parse_ends alnum src o1 -> parse_ends alnum src o2 -> o1 = o2.
Proof.
  intros (N1 & n & E1) (N2 & m & E2). destruct (Nat.le_ge_cases n m) as [L|L].
  - rewrite <- E2. symmetry. eapply parse_more; eauto.
  - rewrite <- E1. eapply parse_more; eauto.
Qed.
Lemma parses_ends alnum src r : parses_to alnum src r <-> parse_ends alnum src (Done r).
Proof. split; [intros (n & E); split; [discriminate|eauto]|intros (_ & n & E); exists n; auto]. Qed.
Lemma parses_det alnum src r1 r2 : parses_to alnum src r1 -> parses_to alnum src r2 -> r1 = r2.
Proof. rewrite !parses_ends. intros H1 H2. generalize (parse_ends_det _ _ _ _ H1 H2). congruence. Qed.

(** ** Divergence of parts of a program *)
Definition div alnum {A} (p : P A) (s : pstate) : Prop := forall n, run alnum body n p s = OutOfFuel.
Section Div.
  Variable alnum : N -> bool.
  Context {A : Type}.
  Lemma div_look (k : view -> P A) s : div alnum (k (view_of (p_lexer s))) s -> div alnum (Look k) s.
  Proof. intros H n. rewrite run_Look. apply H. Qed.
  Lemma div_consume (k : P A) s s' : op_consume alnum s = Done s' -> div alnum k s' -> div alnum (Consume k) s.
  Proof. intros E H n. rewrite run_Consume, E. apply H. Qed.
  Lemma div_error (k : P A) s s' : op_error alnum s = Done s' -> div alnum k s' -> div alnum (PushError k) s.
  Proof. intros E H n. rewrite run_Error, E. apply H. Qed.
  Lemma div_call (R : Set) (f : fn R) (k : R -> P A) s : div alnum (body R f) s -> div alnum (Call f k) s.
  Proof. intros H [|n]; [reflexivity|]. now rewrite run_CallS, H. Qed.
  Lemma div_called (R : Set) m (f : fn R) (k : R -> P A) s r s' :
    run alnum body m (body R f) s = Done (r, s') -> div alnum (k r) s' -> div alnum (Call f k) s.
  Proof.
    intros E H [|n]; [reflexivity|]. rewrite run_CallS.
    destruct (run alnum body n (body R f) s) as [[r1 s1]| | |] eqn:E1; auto; cbn [obind].
    all: destruct (Nat.le_ge_cases n m) as [L|L];
      [generalize (run_more fn alnum body n m _ _ _ _ L E1)|generalize (run_more fn alnum body m n _ _ _ _ L E)];
      intros Q; assert (Q' := Q ltac:(discriminate)); rewrite ?E, ?E1 in Q'; try discriminate Q'.
    all: injection Q' as -> ->; apply H.
  Qed.
  Lemma div_bind {B} (p : P B) (k : B -> P A) s : div alnum p s -> div alnum (bind p k) s.
  Proof. intros H n. now rewrite run_bind, H. Qed.
End Div.
Lemma parse_div alnum src lx : lexer_new alnum src = Done lx -> div alnum (body module F_parse) (PState lx []) ->
  parse_diverges alnum src.
Proof. intros E H n. unfold parse_fuel. rewrite E. cbn [obind]. now rewrite H. Qed.
