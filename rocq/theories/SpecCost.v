(** Specification vocabulary: how much work [parse] does.

    [crun] is the interpreter [Prog.run] with a counter: every call of a method,
    every look at the current token, and every operation on the lexer or on the
    list of errors counts one.  [CostFacts.crun_run] says that the counter changes
    nothing else. *)
From Coq Require Import List NArith Bool.
From Coq.Strings Require Import Byte.
From Verif Require Import Bytes Token Lexer Ast Prog Parser.
Import ListNotations.
Open Scope nat_scope.

Section Count.
  Variable F : Set -> Type.
  Variable alnum : N -> bool.
  Variable body : forall R, F R -> prog F R.
  Fixpoint crun (n : nat) {A : Type} {struct n} : prog F A -> pstate -> outcome (A * pstate * nat) :=
    fix go (p : prog F A) (s : pstate) {struct p} : outcome (A * pstate * nat) :=
      let tick (m : outcome (A * pstate * nat)) := '(a, s1, c) <~ m ;; Done (a, s1, S c) in
      match p with
      | Ret a => Done (a, s, 0)
      | Look k => tick (go (k (view_of (p_lexer s))) s)
      | Consume k => s' <~ op_consume alnum s ;; tick (go k s')
      | ReadTemplate k => s' <~ op_template s ;; tick (go k s')
      | ReadRegex k => '(v, s') <~ op_regex s ;; tick (go (k v) s')
      | PushError k => s' <~ op_error alnum s ;; tick (go k s')
      | Abort => Panicked
      | Call f k =>
          match n with
          | 0 => OutOfFuel
          | S n' => '(r, s', c1) <~ crun n' (body _ f) s ;; '(a, s1, c2) <~ go (k r) s' ;; Done (a, s1, S (c1 + c2))
          end
      end.
End Count.
Arguments crun {F} alnum body n {A} p s.

(** [parse src] returns [r] after [c] operations. *)
Definition parse_steps (alnum : N -> bool) (src : str) (r : parse_result) (c : nat) : Prop :=
  exists n lx m s, lexer_new alnum src = Done lx /\ crun alnum body n (body _ F_parse) (PState lx []) = Done (m, s, c) /\
    r = (match p_errors s with [] => ParseOk m | errs => ParseErr errs end).
