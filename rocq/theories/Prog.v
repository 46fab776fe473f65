(** Parser programs.

    A method of [Parser] (/repo/ratel/src/parser/mod.rs:26-39) is modelled by a
    program of type [prog]: a tree of the operations it performs on its state.
    The state is touched only through these operations, as in the Rust code:
    the lexer is read ([Look]), advanced ([Consume], [ReadTemplate],
    [ReadRegex]), an error is recorded ([PushError], [Parser::error],
    mod.rs:50-55), and other methods are called ([Call]).  [run] executes a
    program; its first argument bounds the depth of calls, and running into the
    bound is the outcome [OutOfFuel].  A Rust loop is a method that calls
    itself. *)
From Coq Require Import List NArith Bool.
From Verif Require Import Bytes Token Lexer.
Import ListNotations.
Open Scope nat_scope.

(** What a method can see of the lexer: [token], [asi()], [start()], [end()],
    [token_as_str()], [accessor_as_str()], [quasi]. *)
Record view : Set := View {
  v_token : token;
  v_asi : asi;
  v_start : N;
  v_end : N;
  v_text : str;
  v_accessor : str;
  v_quasi : str
}.

Definition view_of (lx : lexer) : view :=
  View (lx_token lx) (lx_asi lx) (lx_start lx) (lx_end lx)
       (token_as_str lx) (accessor_as_str lx) (lx_quasi lx).

(** [Parser], mod.rs:26-39: the lexer and the errors, oldest first. *)
Record pstate : Set := PState { p_lexer : lexer; p_errors : list error }.

Section Prog.
  (** [F R]: the methods that return an [R]. *)
  Variable F : Set -> Type.

  Inductive prog (A : Type) : Type :=
  | Ret (a : A)
  | Look (k : view -> prog A)
  | Consume (k : prog A)
  | ReadTemplate (k : prog A)
  | ReadRegex (k : str -> prog A)
  | PushError (k : prog A)
  | Abort
  | Call (R : Set) (f : F R) (k : R -> prog A).

  Fixpoint bind {A B} (p : prog A) (g : A -> prog B) : prog B :=
    match p with
    | Ret _ a => g a
    | Look _ k => Look _ (fun v => bind (k v) g)
    | Consume _ k => Consume _ (bind k g)
    | ReadTemplate _ k => ReadTemplate _ (bind k g)
    | ReadRegex _ k => ReadRegex _ (fun s => bind (k s) g)
    | PushError _ k => PushError _ (bind k g)
    | Abort _ => Abort _
    | Call _ R f k => Call _ R f (fun r => bind (k r) g)
    end.

  Variable alnum : N -> bool.
  Variable body : forall R, F R -> prog R.

  (** The primitive operations on the state. *)
  Definition op_consume (s : pstate) : outcome pstate :=
    lx <~ consume alnum (p_lexer s) ;; Done (PState lx (p_errors s)).
  Definition op_template (s : pstate) : outcome pstate :=
    lx <~ read_template_kind (p_lexer s) ;; Done (PState lx (p_errors s)).
  Definition op_regex (s : pstate) : outcome (str * pstate) :=
    '(v, lx) <~ read_regular_expression (p_lexer s) ;; Done (v, PState lx (p_errors s)).
  (** [Parser::error], mod.rs:50-55. *)
  Definition op_error (s : pstate) : outcome pstate :=
    '(e, lx) <~ invalid_token alnum (p_lexer s) ;; Done (PState lx (p_errors s ++ [e])).

  Fixpoint run (n : nat) {A : Type} {struct n} : prog A -> pstate -> outcome (A * pstate) :=
    fix go (p : prog A) (s : pstate) {struct p} : outcome (A * pstate) :=
      match p with
      | Ret _ a => Done (a, s)
      | Look _ k => go (k (view_of (p_lexer s))) s
      | Consume _ k => s' <~ op_consume s ;; go k s'
      | ReadTemplate _ k => s' <~ op_template s ;; go k s'
      | ReadRegex _ k => '(v, s') <~ op_regex s ;; go (k v) s'
      | PushError _ k => s' <~ op_error s ;; go k s'
      | Abort _ => Panicked
      | Call _ R f k =>
          match n with
          | 0 => OutOfFuel
          | S n' => '(r, s') <~ run n' (body R f) s ;; go (k r) s'
          end
      end.
End Prog.

Arguments Ret {F A} a.
Arguments Look {F A} k.
Arguments Consume {F A} k.
Arguments ReadTemplate {F A} k.
Arguments ReadRegex {F A} k.
Arguments PushError {F A} k.
Arguments Abort {F A}.
Arguments Call {F A R} f k.
Arguments bind {F A B} p g.
Arguments run {F} alnum body n {A} p s.
