(** Every program of the grammar is accepted: the parser on a list of tokens. *)
From Coq Require Import List NArith Bool Lia Arith String.
From Coq.Strings Require Import Byte.
From Verif Require Import Bytes Token Tables Lexer Ast Prog Parser Structure SpecSyntax Erase.
Import ListNotations.
Open Scope nat_scope.
Open Scope list_scope.

(** ** Tokens as the parser meets them; a slash or brace may be read again, as [w]. *)
Inductive tok : Set := Plain (v : view) | Regex (v w : view) | Piece (v w : view).
Definition tv (t : tok) : view := match t with Plain v | Regex v _ | Piece v _ => v end.
Definition breaks (v : view) : bool := match v_asi v with ImplicitSemicolon => true | _ => false end.
Definition lexeme_of (v : view) : lexeme :=
  (v_token v, Word (match v_token v with T_Accessor => v_accessor v | _ => v_text v end) (breaks v)).
Definition closing (t : token) : str := match t with T_TemplateOpen => bs "${" | _ => bs "`" end.
Definition piece (opening : str) (v : view) : Prop := v_text v = opening ++ v_quasi v ++ closing (v_token v).
Definition is_template (t : token) : bool := match t with T_TemplateOpen | T_TemplateClosed => true | _ => false end.
Inductive spells : tok -> lexeme -> Prop :=
| sp_plain v : (v_asi v = ExplicitSemicolon <-> v_token v = T_Semicolon) -> v_token v <> T_LiteralRegEx ->
    (is_template (v_token v) = true -> piece (bs "`") v) -> spells (Plain v) (lexeme_of v)
| sp_regex v w : v_token v = T_OperatorDivision -> v_token w = T_LiteralRegEx -> breaks w = breaks v -> v_asi v <> ExplicitSemicolon -> spells (Regex v w) (lexeme_of w)
| sp_piece v w : v_token v = T_BraceClose -> is_template (v_token w) = true -> piece (bs "}") w -> breaks w = breaks v -> spells (Piece v w) (lexeme_of w).
Notation feeds := (Forall2 spells).

(** ** Runs without errors *)
Inductive X : forall {A : Type}, P A -> list tok -> A -> list tok -> Prop :=
| X_ret A (a : A) s : X (Ret a) s a s
| X_look A (k : view -> P A) t s a s' : X (k (tv t)) (t :: s) a s' -> X (Look k) (t :: s) a s'
| X_consume A (k : P A) v s a s' : X k s a s' -> X (Consume k) (Plain v :: s) a s'
| X_template A (k : P A) v w s a s' : X k (Plain w :: s) a s' -> X (ReadTemplate k) (Piece v w :: s) a s'
| X_regex A (k : str -> P A) v w s a s' : X (k (v_text w)) (Plain w :: s) a s' -> X (ReadRegex k) (Regex v w :: s) a s'
| X_call A (R : Set) (f : fn R) (k : R -> P A) s r s1 a s' : X (body R f) s r s1 -> X (k r) s1 a s' -> X (Call f k) s a s'.
Definition X_inv {A} (p : P A) s a s' (H : X p s a s') :
  match p with
  | Ret b => b = a /\ s = s'
  | Look k => exists t s0, s = t :: s0 /\ X (k (tv t)) s a s'
  | Consume k => exists v s0, s = Plain v :: s0 /\ X k s0 a s'
  | ReadTemplate k => exists v w s0, s = Piece v w :: s0 /\ X k (Plain w :: s0) a s'
  | ReadRegex k => exists v w s0, s = Regex v w :: s0 /\ X (k (v_text w)) (Plain w :: s0) a s'
  | PushError _ => False
  | Abort => False
  | Call f k => exists r s1, X (body _ f) s r s1 /\ X (k r) s1 a s'
  end.
Proof. destruct H; eauto 8. Qed.
Lemma X_length A (p : P A) s a s' : X p s a s' -> List.length s' <= List.length s.
Proof. induction 1; cbn [List.length] in *; lia. Qed.
Lemma X_bind A B (p : P A) (g : A -> P B) s a s1 b s2 : X p s a s1 -> X (g a) s1 b s2 -> X (bind p g) s b s2.
Proof. induction 1; intros H'; cbn [bind]; auto; econstructor; eauto. Qed.

(** ** Levels *)
Definition num (b : bp) : nat :=
  match b with
  | BP_ANY => 0 | BP_B0 | BP_B1 => 1 | BP_B5 => 5 | BP_B6 => 6 | BP_B7 => 7 | BP_B8 => 8 | BP_B9 => 9 | BP_B10 => 10 | BP_B11 => 11 | BP_B12 => 12 | BP_B13 => 13 | BP_B14 => 14 | BP_B15 => 15
  end.
Definition need (b : bp) : nat := match b with BP_ANY => 0 | BP_B0 | BP_B1 => 1 | _ => S (num b) end.
Definition all_bps : list bp := [BP_ANY; BP_B0; BP_B1; BP_B5; BP_B6; BP_B7; BP_B8; BP_B9; BP_B10; BP_B11; BP_B12; BP_B13; BP_B14; BP_B15].
Lemma in_all_bps b : In b all_bps.
Proof. destruct b; cbn; tauto. Qed.
(** What can come after an expression of level [n]. *)
Definition follow (n : nat) (v : view) : Prop := n <= 16 -> forall b, min n 15 <= num b -> handler b v = None.
Lemma follow_mono n m v : n <= m -> follow n v -> follow m v.
Proof. intros L H Lm b Hb. apply H; lia. Qed.
Lemma follow_17 v : follow 17 v.
Proof. intros L. exfalso. lia. Qed.
Lemma handler_below b b' v : num b <= num b' -> handler b v = None -> handler b' v = None.
Proof.
  assert (G : forallb (fun b => forallb (fun b' => forallb (fun t => match nth (token_index t) (LUT b) None with None => match nth (token_index t) (LUT b') None with None => true | _ => negb (Nat.leb (num b) (num b')) end | Some _ => true end) all_tokens) all_bps) all_bps = true) by (vm_compute; reflexivity).
  rewrite forallb_forall in G. specialize (G b (in_all_bps b)). cbv beta in G. rewrite forallb_forall in G. specialize (G b' (in_all_bps b')). cbv beta in G. rewrite forallb_forall in G. specialize (G (v_token v) (in_all_tokens _)). cbv beta in G.
  intros L. apply Nat.leb_le in L. rewrite L in G. cbn in G. unfold handler. destruct (v_asi v); try (destruct (_ || _)%bool; [reflexivity|]); destruct (nth _ (LUT b) None); try discriminate; destruct (nth _ (LUT b') None); auto; discriminate G.
Qed.
Lemma follow_any v : handler BP_ANY v = None -> follow 0 v.
Proof. intros H _ b _. apply (handler_below BP_ANY); [cbn; lia|exact H]. Qed.
Lemma follow_b0 v : handler BP_B0 v = None -> follow 1 v.
Proof. intros H _ b L. apply (handler_below BP_B0); [cbn in *; lia|exact H]. Qed.
Lemma follow_0 v b : follow 0 v -> handler b v = None.
Proof. intros H. apply H; cbn; lia. Qed.
Lemma follow_1 v b : follow 1 v -> 1 <= num b -> handler b v = None.
Proof. intros H L. apply H; cbn; lia. Qed.
(** Tokens after which an expression has ended. *)
Definition stops (t : token) : bool := forallb (fun b => match nth (token_index t) (LUT b) None with None => true | _ => false end) all_bps.
Lemma stops_follow n v : stops (v_token v) = true -> follow n v.
Proof.
  intros H. apply (follow_mono 0); [lia|]. apply follow_any. unfold stops in H. rewrite forallb_forall in H. specialize (H BP_ANY (in_all_bps _)). unfold handler. destruct (v_asi v); try (destruct (_ || _)%bool; [reflexivity|]); destruct (nth _ _ None); auto; discriminate H.
Qed.
Lemma comma_follow v : v_token v = T_Comma -> follow 1 v.
Proof. intros H. apply follow_b0. unfold handler, is. rewrite H. destruct (v_asi v); reflexivity. Qed.
Lemma memb_in t ts : existsb (token_eqb t) ts = true -> In t ts.
Proof. intros H. apply existsb_exists in H as (x & Hx & E). apply LexEval.token_eqb_eq in E. now subst. Qed.
Lemma ends_any tk nx : spells tk nx -> ends 0 nx -> follow 0 (tv tk).
Proof.
  assert (G : forallb (fun t => existsb (token_eqb t) continuing || match nth (token_index t) (LUT BP_ANY) None with None => true | _ => false end)%bool all_tokens = true) by (vm_compute; reflexivity).
  rewrite forallb_forall in G. intros S E. apply follow_any.
  assert (K : forall v, ends 0 (lexeme_of v) -> handler BP_ANY v = None).
  { intros v [N|[[N B]|[N _]]]; cbn [lexeme_of fst snd w_break] in *; [| |discriminate N].
    - specialize (G (v_token v) (in_all_tokens _)). apply orb_true_iff in G as [G|G]; [exfalso; apply N, memb_in, G|]. unfold handler. destruct (v_asi v); try (destruct (_ || _)%bool; [reflexivity|]); destruct (nth _ _ None); auto; discriminate G.
    - unfold breaks in B. unfold handler, is. destruct (v_asi v); try discriminate B. destruct N as [<-|[<-|[]]]; reflexivity. }
  destruct S as [v|v w H1 H2|v w H1 H2].
  - exact (K v E).
  - exfalso. destruct E as [N|[[N B]|[N _]]]; cbn [lexeme_of fst snd w_break] in *; rewrite ?H2 in N; [|cbn in N; intuition discriminate|discriminate N]. apply N, memb_in. reflexivity.
  - cbn [tv]. unfold handler, is. rewrite H1. destruct (v_asi v); reflexivity.
Qed.
Lemma ends_b0 tk nx : spells tk nx -> ends 1 nx -> follow 1 (tv tk).
Proof.
  intros S [N|[N|[_ N]]].
  - apply (follow_mono 0); [lia|]. apply (ends_any _ nx S). now left.
  - apply (follow_mono 0); [lia|]. apply (ends_any _ nx S). right. now left.
  - destruct S as [v|v w H1 H2|v w H1 H2]; cbn [lexeme_of fst tv] in *.
    + now apply comma_follow.
    + congruence.
    + rewrite N in H2. discriminate H2.
Qed.

(** ** First tokens *)
Definition starters : list token :=
  [T_Identifier; T_This; T_LiteralTrue; T_LiteralFalse; T_LiteralNull; T_LiteralUndefined; T_LiteralString; T_LiteralNumber; T_LiteralBinary; T_LiteralRegEx;
   T_ParenOpen; T_BracketOpen; T_BraceOpen; T_TemplateOpen; T_TemplateClosed; T_Function; T_Class;
   T_OperatorIncrement; T_OperatorDecrement; T_OperatorLogicalNot; T_OperatorBitwiseNot; T_OperatorTypeof; T_OperatorVoid; T_OperatorDelete; T_OperatorAddition; T_OperatorSubtraction; T_OperatorNew].
Definition begins (ts : list token) (l : list lexeme) : Prop := exists t s r, l = (t, s) :: r /\ In t ts.
Lemma begins_cons ts t s r : existsb (token_eqb t) ts = true -> begins ts ((t, s) :: r).
Proof. intros H. exists t, s, r. split; [reflexivity|now apply memb_in]. Qed.
Lemma begins_app ts l r : begins ts l -> begins ts (l ++ r).
Proof. intros (t & s & q & -> & H). exists t, s, (q ++ r). auto. Qed.
Lemma begins_more ts ts' l : (forall t, In t ts -> In t ts') -> begins ts l -> begins ts' l.
Proof. intros I (t & s & q & -> & H). exists t, s, q. auto. Qed.
Lemma template_begins d l t : template_of d l t -> begins [T_TemplateOpen; T_TemplateClosed] l.
Proof. intros H. destruct H; apply begins_cons; reflexivity. Qed.
Lemma expr_begins n o l e : expr n o l e -> begins starters l.
Proof.
  induction 1; auto using begins_app; try (apply begins_cons; reflexivity).
  - match goal with H : atom _ _ _ |- _ => destruct H; apply begins_cons; reflexivity end.
  - match goal with H : In _ _ |- _ => cbn in H; repeat (destruct H as [H|H]; [injection H as <- <-; apply begins_cons; reflexivity|]); destruct H end.
  - match goal with H : template_of _ _ _ |- _ => apply template_begins in H; revert H end. apply begins_more. intros t0 [<-|[<-|[]]]; apply memb_in; reflexivity.
Qed.
Definition stmt_starters : list token :=
  starters ++ [T_Semicolon; T_Debugger; T_Import; T_DeclarationVar; T_DeclarationLet; T_DeclarationConst; T_Return; T_Break; T_Continue; T_Throw; T_If; T_While; T_Do; T_For; T_Try; T_Switch].
Lemma body_begins l b : body_of l b -> begins [T_BraceOpen] l.
Proof. intros H. destruct H. apply begins_cons; reflexivity. Qed.
Lemma stmt_begins nx l x : stmt nx l x -> begins stmt_starters l.
Proof.
  intros H; destruct H; try (apply begins_cons; reflexivity).
  - match goal with H : body_of _ _ |- _ => apply body_begins in H; revert H end. apply begins_more. intros t0 [<-|[]]; apply memb_in; reflexivity.
  - apply begins_app. match goal with H : expr _ _ _ _ |- _ => apply expr_begins in H; revert H end. apply begins_more. intros t0 Ht. unfold stmt_starters. apply in_or_app. now left.
  - match goal with H : In _ declarations |- _ => cbn in H; repeat (destruct H as [H|H]; [injection H as <- <-; apply begins_cons; reflexivity|]); destruct H end.
Qed.
Definition member_starters : list token := filter is_word all_tokens ++ [T_Static; T_LiteralNumber; T_LiteralBinary; T_BracketOpen].
Lemma word_starts t : is_word t = true -> In t member_starters.
Proof. intros H. unfold member_starters. apply in_or_app. left. apply filter_In. auto using in_all_tokens. Qed.
Lemma member_begins nx l m : member nx l m -> begins member_starters l.
Proof.
  assert (K : forall l st kind k, member_key l st kind k -> begins member_starters l).
  { intros l0 st kind k H. destruct H; try (eexists _, _, _; split; [reflexivity|apply word_starts; assumption]); apply begins_cons; reflexivity. }
  assert (N : forall l st kind k, member_name l st kind k -> begins member_starters l).
  { intros l0 st kind k H. destruct H; [apply begins_cons; reflexivity|eauto]. }
  intros H. destruct H; apply begins_app; eauto.
Qed.
Lemma case_begins nx l c : case_of nx l c -> begins [T_Case; T_Default] l.
Proof. intros H. destruct H; apply begins_cons; reflexivity. Qed.
(** The view at the beginning of a list. *)
Lemma feeds_begins ts s l : feeds s l -> begins ts l -> exists tk s', s = tk :: s' /\
  (In (v_token (tv tk)) ts \/ (In T_LiteralRegEx ts /\ v_token (tv tk) = T_OperatorDivision) \/ (exists t, In t ts /\ is_template t = true /\ v_token (tv tk) = T_BraceClose)).
Proof.
  intros F (t & w & r & -> & H). inversion F as [|tk x s' l' S F']; subst. exists tk, s'. split; [reflexivity|].
  remember (t, w) as a eqn:E. destruct S as [v A1 A2 A3|v w' A1 A2 A3 A4|v w' A1 A2 A3]; injection E as E1 E2; cbn [tv] in *.
  - left. now rewrite E1.
  - right; left. rewrite <- A2, E1. auto.
  - right; right. exists t. rewrite E1 in A2. auto.
Qed.
