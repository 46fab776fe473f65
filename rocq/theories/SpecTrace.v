(** Specification vocabulary: the tokens [parse] goes through.

    [trun] is the interpreter [Prog.run] with a record of the lexer: after every
    operation that moves it (consuming a token, reading the rest of a template
    or of a regular expression, recording an error) the current token, where it
    starts and where it ends are noted.  So a regular expression is noted twice:
    as the slash it begins with, and then whole.  [TraceFacts.trun_run] says that
    the record changes nothing else. *)
From Coq Require Import List NArith Bool.
From Coq.Strings Require Import Byte.
From Verif Require Import Bytes Token Lexer SpecLexer SpecRead Ast Prog Parser.
Import ListNotations.
Open Scope nat_scope.

Definition spot : Set := token * nat * nat.
Definition spot_of (lx : lexer) : spot := (lx_token lx, pos (lx_tok lx), pos (lx_cur lx)).
Definition s_token (x : spot) : token := fst (fst x).
Definition s_start (x : spot) : nat := snd (fst x).
Definition s_end (x : spot) : nat := snd x.

Section Trace.
  Variable F : Set -> Type.
  Variable alnum : N -> bool.
  Variable body : forall R, F R -> prog F R.
  Fixpoint trun (n : nat) {A : Type} {struct n} : prog F A -> pstate -> outcome (A * pstate * list spot) :=
    fix go (p : prog F A) (s : pstate) {struct p} : outcome (A * pstate * list spot) :=
      let note (m : outcome (A * pstate * list spot)) (s : pstate) := '(a, s1, l) <~ m ;; Done (a, s1, spot_of (p_lexer s) :: l) in
      match p with
      | Ret a => Done (a, s, [])
      | Look k => go (k (view_of (p_lexer s))) s
      | Consume k => s' <~ op_consume alnum s ;; note (go k s') s'
      | ReadTemplate k => s' <~ op_template s ;; note (go k s') s'
      | ReadRegex k => '(v, s') <~ op_regex s ;; note (go (k v) s') s'
      | PushError k => s' <~ op_error alnum s ;; note (go k s') s'
      | Abort => Panicked
      | Call f k =>
          match n with
          | 0 => OutOfFuel
          | S n' => '(r, s', l1) <~ trun n' (body _ f) s ;; '(a, s1, l2) <~ go (k r) s' ;; Done (a, s1, l1 ++ l2)
          end
      end.
End Trace.
Arguments trun {F} alnum body n {A} p s.

(** [parse src] returns [r] and goes through the tokens [l]. *)
Definition parse_tokens (alnum : N -> bool) (src : str) (r : parse_result) (l : list spot) : Prop :=
  exists n lx m s l1, lexer_new alnum src = Done lx /\ trun alnum body n (body _ F_parse) (PState lx []) = Done (m, s, l1) /\
    r = (match p_errors s with [] => ParseOk m | errs => ParseErr errs end) /\ l = spot_of lx :: l1.

(** [y] comes after [x] in [src]: it is the same token, read further (the rest of a template or of a
    regular expression), or there are only white space and comments between them. *)
Definition follows (src : str) (x y : spot) : Prop :=
  s_start y <= s_end y <= List.length src /\
  ((s_start y = s_start x /\ s_end x <= s_end y) \/
   (s_end x <= s_start y /\ gap (substring src (s_end x) (s_start y)) (skipn (s_start y) (src ++ [x00])))).
Inductive adjacent (src : str) : list spot -> Prop :=
| ad_one x : adjacent src [x]
| ad_more x y l : follows src x y -> adjacent src (y :: l) -> adjacent src (x :: y :: l).
(** [src], up to its end or a NUL, is made of the tokens [l] and of white space and comments. *)
Record accounts (src : str) (l : list spot) : Prop := Accounts {
  ac_first : exists x r, l = x :: r /\ gap (substring src 0 (s_start x)) (skipn (s_start x) (src ++ [x00]));
  ac_adjacent : adjacent src l;
  ac_last : exists r y, l = r ++ [y] /\ s_token y = T_EndOfProgram /\ s_end y = s_start y /\ s_start y <= List.length src /\
    exists t, skipn (s_start y) (src ++ [x00]) = x00 :: t
}.
