(** Binding powers: which tokens continue an expression. *)
From Coq Require Import List NArith PeanoNat Bool String Lia.
From Coq.Strings Require Import Byte.
From Verif Require Import Bytes Token Tables Lexer SpecTree SpecPrec Ast Prog Parser Structure.
Import ListNotations.
Open Scope nat_scope.
Open Scope list_scope.

(** The level of a binding power: tokens of a greater level continue the expression. *)
Definition level (b : bp) : nat :=
  match b with
  | BP_ANY => 0 | BP_B0 => 1 | BP_B1 => 1
  | BP_B5 => 5 | BP_B6 => 6 | BP_B7 => 7 | BP_B8 => 8 | BP_B9 => 9 | BP_B10 => 10
  | BP_B11 => 11 | BP_B12 => 12 | BP_B13 => 13 | BP_B14 => 14 | BP_B15 => 15
  end.
Definition all_bps : list bp :=
  [BP_ANY; BP_B0; BP_B1; BP_B5; BP_B6; BP_B7; BP_B8; BP_B9; BP_B10; BP_B11; BP_B12; BP_B13; BP_B14; BP_B15].
Lemma in_all_bps b : In b all_bps.
Proof. destruct b; cbn; tauto. Qed.
(** The level of a binary operator. *)
Definition olevel (op : operator) : nat := match op with O_Exponent => 15 | _ => operator_bp op end.
(** What the right operand is parsed with. *)
Definition right_bp (op : operator) : bp :=
  match olevel op with
  | 5 => BP_B5 | 6 => BP_B6 | 7 => BP_B7 | 8 => BP_B8 | 9 => BP_B9 | 10 => BP_B10 | 11 => BP_B11
  | 12 => BP_B12 | 13 => BP_B13 | 14 => BP_B14 | 15 => BP_B15 | _ => BP_B1
  end.
Definition rlevel (op : operator) : nat := level (right_bp op).
(** The level of a token. *)
Definition tlevel (t : token) : nat :=
  match t with
  | T_Comma => 1
  | T_ParenOpen | T_BracketOpen | T_OperatorFatArrow | T_OperatorIncrement | T_OperatorDecrement
  | T_Accessor | T_TemplateOpen | T_TemplateClosed => 100
  | _ => match operator_from_token t with
         | Some op => if operator_infix op then olevel op else 0
         | None => 0
         end
  end.

Lemma nested_table :
  forallb (fun t => forallb (fun b =>
    match nth (token_index t) (LUT b) None with
    | Some _ => Nat.ltb (level b) (tlevel t)
    | None => Nat.leb (tlevel t) (level b)
    end) all_bps) all_tokens = true.
Proof. vm_compute. reflexivity. Qed.
Lemma nested_none b t : tlevel t <= level b -> nth (token_index t) (LUT b) None = None.
Proof.
  intros H. assert (G := nested_table). rewrite forallb_forall in G. specialize (G t (in_all_tokens t)).
  rewrite forallb_forall in G. specialize (G b (in_all_bps b)).
  destruct (nth (token_index t) (LUT b) None); auto. apply Nat.ltb_lt in G. lia.
Qed.
Lemma handler_none b lx : tlevel (lx_token lx) <= level b -> handler b (view_of lx) = None.
Proof.
  intros H. unfold handler. cbn [view_of v_token v_asi]. rewrite nested_none by auto.
  destruct (lx_asi lx); auto. destruct (_ || _); auto.
Qed.
Lemma handler_some b lx h :
  nth (token_index (lx_token lx)) (LUT b) None = Some h ->
  lx_asi lx <> ImplicitSemicolon \/ (lx_token lx <> T_OperatorIncrement /\ lx_token lx <> T_OperatorDecrement) ->
  handler b (view_of lx) = Some h.
Proof.
  intros H N. unfold handler. cbn [view_of v_token v_asi]. rewrite H.
  destruct (lx_asi lx) eqn:A; auto. unfold is. cbn [view_of v_token].
  destruct N as [N|[N1 N2]]; [congruence|].
  destruct (token_eqb (lx_token lx) T_OperatorIncrement) eqn:E1; [apply LexEval.token_eqb_eq in E1; congruence|].
  destruct (token_eqb (lx_token lx) T_OperatorDecrement) eqn:E2; [apply LexEval.token_eqb_eq in E2; congruence|]. reflexivity.
Qed.

Definition plain_binary : list operator :=
  [O_Multiplication; O_Division; O_Remainder; O_Exponent; O_Addition; O_Subtraction;
   O_BitShiftLeft; O_BitShiftRight; O_UBitShiftRight; O_Lesser; O_LesserEquals; O_Greater; O_GreaterEquals;
   O_Instanceof; O_In; O_StrictEquality; O_StrictInequality; O_Equality; O_Inequality;
   O_BitwiseAnd; O_BitwiseXor; O_BitwiseOr; O_LogicalAnd; O_LogicalOr].
Lemma binary_nested op t b :
  operator_from_token t = Some op -> In op plain_binary -> level b < olevel op ->
  exists h, nth (token_index t) (LUT b) None = Some h /\
    forall left, body_nested_handler h left = binary_handler (right_bp op) op left.
Proof.
  intros Ht Hop Hb.
  destruct t; try discriminate Ht; injection Ht as <-; cbn in Hop;
    try (exfalso; repeat (destruct Hop as [Hop|Hop]; [discriminate Hop|]); exact Hop).
  all: destruct b; cbn in Hb; try lia; eexists; (split; [reflexivity|intros left; reflexivity]).
Qed.
Lemma assign_nested op t b :
  operator_from_token t = Some op -> In op assignment_operators -> level b < olevel op ->
  exists h, nth (token_index t) (LUT b) None = Some h /\
    forall left, body_nested_handler h left = assign_handler op left.
Proof.
  intros Ht Hop Hb.
  destruct t; try discriminate Ht; injection Ht as <-; cbn in Hop;
    try (exfalso; repeat (destruct Hop as [Hop|Hop]; [discriminate Hop|]); exact Hop).
  all: destruct b; cbn in Hb; try lia; eexists; (split; [reflexivity|intros left; reflexivity]).
Qed.
