(** [consume] as a whole. *)
From Coq Require Import List NArith Bool String Lia Arith.
From Coq.Strings Require Import Byte.
From Verif Require Import Bytes Token Tables Lexer SpecLexer LexerFacts.
Import ListNotations.
Open Scope nat_scope.

(** ** Fuel *)

Lemma obind_ext {A B} (m : outcome A) (f g : A -> outcome B) :
  (forall a, m = Done a -> f a = g a) -> obind m f = obind m g.
Proof. destruct m; simpl; auto. Qed.

Lemma scan_while_rem f p r c : scan_while f p r = Done c -> List.length (rem c) <= List.length r.
Proof. intros H. apply scan_while_adv in H as [s H]. apply adv_length in H. simpl in H. lia. Qed.

Lemma scan_block_comment_rem p r k c :
  scan_block_comment p r = Done (k, c) -> List.length (rem c) <= List.length r.
Proof.
  revert p; induction r as [|b r IH]; simpl; intros p H; [discriminate|].
  destruct (byte_eqb b "*").
  - destruct r as [|c0 r]; [discriminate|].
    destruct (byte_eqb c0 "/"); [injection H as <- <-; simpl; lia|].
    destruct (byte_eqb c0 x00); [injection H as <- <-; simpl; lia|].
    apply IH in H. simpl in *; lia.
  - destruct (byte_eqb b x00); [injection H as <- <-; simpl; lia|].
    apply IH in H. lia.
Qed.

Lemma SLH_ext f g lx :
  (forall lx', List.length (rem (lx_cur lx')) < List.length (rem (lx_cur lx)) -> f lx' = g lx') ->
  h_SLH f lx = h_SLH g lx.
Proof.
  intros H. unfold h_SLH. apply obind_ext. intros [b lx1] H1.
  assert (L1 : List.length (rem (lx_cur lx1)) < List.length (rem (lx_cur lx)) /\ rem (lx_cur lx1) <> []).
  { unfold next_byte in H1. oinv. apply read_byte_nonempty in H0.
    destruct lx as [? ? ? [p r] ? ? ?]; simpl in *. destruct r; simpl in *; [congruence|].
    split; [lia|auto]. }
  destruct L1 as [L1 L2].
  assert (L3 : List.length (rem (lx_cur (bump lx1))) < List.length (rem (lx_cur lx1))).
  { destruct lx1 as [? ? ? [p r] ? ? ?]; simpl in *. destruct r; simpl in *; [congruence|lia]. }
  destruct (byte_eqb b "/").
  - apply obind_ext. intros lx2 H2. apply H. unfold skip_while in H2. oinv. simpl.
    apply scan_while_rem in H0. lia.
  - destruct (byte_eqb b "*"); auto.
    apply obind_ext. intros [k c] H2. destruct k; auto. apply H. simpl.
    apply scan_block_comment_rem in H2. lia.
Qed.

Lemma consume_once_ext alnum f g lx :
  (forall lx', List.length (rem (lx_cur lx')) < List.length (rem (lx_cur lx)) -> f lx' = g lx') ->
  consume_once alnum f lx = consume_once alnum g lx.
Proof.
  intros H. unfold consume_once. apply obind_ext. intros [[h a] c] H1.
  destruct h; try reflexivity. simpl. apply SLH_ext. simpl. intros lx' L. apply H.
  apply scan_token_start_spec in H1 as (s & b & r' & E & _ & _ & -> & _). simpl in L.
  rewrite E, app_length. simpl. lia.
Qed.

Lemma consume_fuel_enough alnum n m lx :
  List.length (rem (lx_cur lx)) < n -> List.length (rem (lx_cur lx)) < m ->
  consume_fuel alnum n lx = consume_fuel alnum m lx.
Proof.
  revert m lx; induction n as [|n IH]; intros m lx Hn Hm; [lia|].
  destruct m as [|m]; [lia|]. simpl. apply consume_once_ext. intros lx' L. apply IH; lia.
Qed.

Lemma consume_unfold alnum lx : consume alnum lx = consume_once alnum (consume alnum) lx.
Proof.
  unfold consume at 1. simpl. apply consume_once_ext. intros lx' L.
  unfold consume. apply consume_fuel_enough; lia.
Qed.

(** [consume] is never out of fuel. *)
Lemma obind_fuel {A B} (m : outcome A) (f : A -> outcome B) :
  m <> OutOfFuel -> (forall a, m = Done a -> f a <> OutOfFuel) -> obind m f <> OutOfFuel.
Proof. destruct m; simpl; auto; congruence. Qed.
Lemma read_byte_fuel lx : read_byte lx <> OutOfFuel.
Proof. unfold read_byte. destruct (rem (lx_cur lx)); discriminate. Qed.
Lemma next_byte_fuel lx : next_byte lx <> OutOfFuel.
Proof. apply obind_fuel; [apply read_byte_fuel|discriminate]. Qed.
Lemma scan_while_fuel f p r : scan_while f p r <> OutOfFuel.
Proof. revert p; induction r; simpl; intros p; [discriminate|]. destruct (f a); auto; discriminate. Qed.
Lemma skip_while_fuel f lx : skip_while f lx <> OutOfFuel.
Proof. apply obind_fuel; [apply scan_while_fuel|discriminate]. Qed.
Lemma match_seq_fuel l lx : match_seq l lx <> OutOfFuel.
Proof.
  revert lx; induction l; simpl; intros lx.
  - apply obind_fuel; [apply read_byte_fuel|discriminate].
  - apply obind_fuel; [apply next_byte_fuel|]. intros [b lx'] _. destruct (byte_eqb b a); auto; discriminate.
Qed.
Fixpoint match_label_fuel (k : ktrie) : forall lx, match_label k lx <> OutOfFuel.
Proof.
  destruct k as [l t|d l]; simpl; intros lx.
  - apply obind_fuel; [apply match_seq_fuel|]. intros [b lx'] _. discriminate.
  - apply obind_fuel; [apply next_byte_fuel|]. intros [b lx'] _.
    induction l as [|[m k'] l IH]; [discriminate|]. destruct (byte_eqb b m); auto.
Qed.
Lemma scan_block_comment_fuel p r : scan_block_comment p r <> OutOfFuel.
Proof.
  revert p; induction r as [|b r IH]; simpl; intros p; [discriminate|].
  destruct (byte_eqb b "*").
  - destruct r as [|c r]; [discriminate|].
    destruct (byte_eqb c "/"); [discriminate|]. destruct (byte_eqb c x00); [discriminate|]. apply IH.
  - destruct (byte_eqb b x00); [discriminate|]. apply IH.
Qed.
Lemma length_ind {A} (P : list A -> Prop) :
  (forall l, (forall l', List.length l' < List.length l -> P l') -> P l) -> forall l, P l.
Proof.
  intros H l. remember (List.length l) as n eqn:E. revert l E.
  induction n as [n IH] using lt_wf_ind. intros l E. apply H. intros l' L. eapply IH; [|reflexivity]. lia.
Qed.
Lemma scan_string_fuel q r : forall p, scan_string q p r <> OutOfFuel.
Proof.
  induction r as [r IH] using length_ind. intros p. destruct r as [|b r]; simpl; [discriminate|].
  destruct (byte_eqb b q); [discriminate|]. destruct (byte_eqb b "\").
  - destruct r as [|c r]; [discriminate|]. destruct (byte_eqb c x00); [discriminate|]. apply IH; simpl; lia.
  - destruct (byte_eqb b x00); [discriminate|]. apply IH; simpl; lia.
Qed.
Lemma scan_template_fuel r : forall p, scan_template p r <> OutOfFuel.
Proof.
  induction r as [r IH] using length_ind. intros p. destruct r as [|b r]; simpl; [discriminate|].
  destruct (byte_eqb b "`"); [discriminate|]. destruct (byte_eqb b "$").
  - destruct r as [|c r]; [discriminate|]. destruct (byte_eqb c "{"); [discriminate|]. apply IH; simpl; lia.
  - destruct (byte_eqb b "\").
    + destruct r as [|c r]; [discriminate|]. destruct (byte_eqb c x00); [discriminate|]. apply IH; simpl; lia.
    + apply IH; simpl; lia.
Qed.
Lemma scan_regex_fuel r : forall ic p, scan_regex ic p r <> OutOfFuel.
Proof.
  induction r as [r IH] using length_ind. intros ic p. destruct r as [|b r]; simpl; [discriminate|].
  repeat match goal with |- (if ?x then _ else _) <> _ => destruct x end;
    try discriminate; try (apply IH; simpl; lia).
  destruct r as [|c r]; [discriminate|]. destruct (byte_eqb c x00); [discriminate|]. apply IH; simpl; lia.
Qed.
Lemma scan_token_start_fuel r : forall a p, scan_token_start a p r <> OutOfFuel.
Proof.
  induction r as [|b r IH]; simpl; intros a p; [discriminate|].
  destruct (handler_from_byte b); [discriminate|]. apply IH.
Qed.
Ltac fuel_tac :=
  repeat match goal with
  | |- obind _ _ <> OutOfFuel => apply obind_fuel; [|intros ? _]
  | |- Done _ <> OutOfFuel => discriminate
  | |- Panicked <> OutOfFuel => discriminate
  | |- next_byte _ <> _ => apply next_byte_fuel
  | |- read_byte _ <> _ => apply read_byte_fuel
  | |- skip_while _ _ <> _ => apply skip_while_fuel
  | |- read_label _ <> _ => apply skip_while_fuel
  | |- match_label _ _ <> _ => apply match_label_fuel
  | |- scan_string _ _ _ <> _ => apply scan_string_fuel
  | |- scan_template _ _ <> _ => apply scan_template_fuel
  | |- scan_block_comment _ _ <> _ => apply scan_block_comment_fuel
  | |- (let '(_, _) := ?x in _) <> _ => destruct x
  | |- match ?x with _ => _ end <> _ => destruct x
  end.
Lemma read_float_fuel lx : read_float lx <> OutOfFuel.
Proof. unfold read_float, read_scientific. fuel_tac. Qed.
Lemma read_decimal_fuel lx : read_decimal lx <> OutOfFuel.
Proof. unfold read_decimal. fuel_tac; try apply read_float_fuel; unfold read_scientific; fuel_tac. Qed.
Lemma template_fuel lx : read_template_kind lx <> OutOfFuel.
Proof. unfold read_template_kind. fuel_tac. Qed.
Lemma regex_fuel lx : read_regular_expression lx <> OutOfFuel.
Proof. unfold read_regular_expression. apply obind_fuel; [apply scan_regex_fuel|]. intros [k c] _. destruct k; fuel_tac. Qed.
Lemma run_handler_fuel alnum again h lx :
  (forall lx', List.length (rem (lx_cur lx')) < List.length (rem (lx_cur lx)) -> again lx' <> OutOfFuel) ->
  run_handler alnum again h lx <> OutOfFuel.
Proof.
  intros Ha. destruct h; simpl;
  try solve [unfold h_EOF, h_single, h_closing, h_SEM, h_EQL, h_EXL, h_LSS, h_MOR, h_op_assign, h_op_double, h_ATR,
    h_IDT, label_or_keyword, h_QOT, h_UNI, h_PRD, h_DIG, h_ZER, read_radix, read_accessor; fuel_tac;
    try apply read_float_fuel; try apply read_decimal_fuel].
  - (* SLH *) intros E.
    set (again' := fun l => if Nat.ltb (List.length (rem (lx_cur l))) (List.length (rem (lx_cur lx))) then again l else Panicked).
    rewrite (SLH_ext again again' lx) in E.
    + revert E. assert (A : forall l, again' l <> OutOfFuel).
      { intros l. unfold again'. destruct (Nat.ltb_spec (List.length (rem (lx_cur l))) (List.length (rem (lx_cur lx)))); [auto|discriminate]. }
      change (h_SLH again' lx <> OutOfFuel). unfold h_SLH. fuel_tac; apply A.
    + intros l L. unfold again'. apply Nat.ltb_lt in L. now rewrite L.
  - apply template_fuel.
Qed.
Lemma consume_fuel_ok alnum lx : consume alnum lx <> OutOfFuel.
Proof.
  remember (List.length (rem (lx_cur lx))) as n eqn:E. revert lx E.
  induction n as [n IH] using lt_wf_ind. intros lx E. rewrite consume_unfold. unfold consume_once.
  apply obind_fuel; [apply scan_token_start_fuel|]. intros [[h a] c] H.
  apply run_handler_fuel. simpl. intros lx' L. eapply IH; [|reflexivity].
  apply scan_token_start_spec in H as (s & b & r' & Er & _ & _ & -> & _). simpl in L.
  subst n. rewrite Er, app_length. simpl. lia.
Qed.

(** ** What [consume] does *)

(** A cursor of the buffer. *)
Definition on (buf : str) (c : cursor) : Prop :=
  exists pre, buf = pre ++ rem c /\ List.length pre = pos c.
Lemma on_fwd buf c c' : on buf c -> fwd c c' -> on buf c'.
Proof.
  intros [pre [E L]] [s [E' L']]. exists (pre ++ s). rewrite app_length.
  split; [|lia]. rewrite E, E'. now rewrite app_assoc.
Qed.
Lemma on_fwd_le buf c c' : on buf c -> on buf c' -> pos c <= pos c' -> fwd c c'.
Proof.
  intros [pre [E L]] [pre' [E' L']] H.
  exists (skipn (List.length pre) pre'). split.
  - apply (f_equal (skipn (List.length pre))) in E'.
    rewrite E in E'. rewrite skipn_app, Nat.sub_diag, skipn_all in E'. simpl in E'.
    rewrite skipn_app in E'. replace (List.length pre - List.length pre') with 0 in E' by lia. exact E'.
  - rewrite skipn_length. lia.
Qed.
Lemma on_pos buf c : on buf c -> pos c <= List.length buf.
Proof. intros [pre [-> L]]. rewrite app_length. lia. Qed.
Lemma on_slice buf c c' : on buf c -> fwd c c' -> slice c c' = firstn (pos c' - pos c) (skipn (pos c) buf).
Proof.
  intros [pre [-> L]] F. unfold slice. rewrite <- L. now rewrite skipn_app, Nat.sub_diag, skipn_all.
Qed.

(** How the token at the cursor came to be. *)
Inductive token_end (alnum : N -> bool) (lx : lexer) : Prop :=
| te_token : pos (lx_tok lx) < pos (lx_cur lx) -> lx_token lx <> T_EndOfProgram -> token_end alnum lx
| te_eof : (exists r, rem (lx_tok lx) = x00 :: r) -> lx_cur lx = lx_tok lx ->
    lx_token lx = T_EndOfProgram -> lx_asi lx = ImplicitSemicolon -> token_end alnum lx
| te_uni b r c n : rem (lx_tok lx) = b :: r -> (127 < byte_val b)%N ->
    decode_char (b :: r) = Some (c, n) -> alnum c = false ->
    lx_cur lx = lx_tok lx -> lx_token lx = T_UnexpectedToken -> token_end alnum lx.

Record consumed (alnum : N -> bool) (lx lx' : lexer) : Prop := Consumed {
  c_buf : lx_buf lx' = lx_buf lx;
  c_gap : exists s, adv (lx_cur lx) s (lx_tok lx') /\ gap s (rem (lx_tok lx'));
  c_fwd : fwd (lx_tok lx') (lx_cur lx');
  c_ok : ok lx';
  c_acc : lx_acc lx' = lx_acc lx \/ (fwd (lx_tok lx') (lx_acc lx') /\ fwd (lx_acc lx') (lx_cur lx'));
  c_end : token_end alnum lx'
}.

Lemma adv_cat c s c' s' c'' : adv c s c' -> adv c' s' c'' -> adv c (s ++ s') c''.
Proof. apply adv_trans. Qed.

Lemma consume_consumed alnum lx lx' : ok lx -> consume alnum lx = Done lx' -> consumed alnum lx lx'.
Proof.
  remember (List.length (rem (lx_cur lx))) as n eqn:En. revert lx En lx'.
  induction n as [n IH] using lt_wf_ind. intros lx En lx' O H.
  rewrite consume_unfold in H. unfold consume_once in H. odone H. destruct a as [[h a] c].
  apply scan_token_start_spec in H0 as (s & b & r' & Er & W & Hh & Ec & Ea).
  set (lx0 := set_tok c (set_cur c (set_asi a lx))) in *.
  assert (A0 : adv (lx_cur lx) s (lx_cur lx0)).
  { subst c. split; simpl; auto. }
  assert (O0 : ok lx0).
  { unfold ok in *. destruct A0 as [A0 _]. rewrite A0 in O. apply ends_suffix in O; auto.
    subst lx0; subst c; simpl; discriminate. }
  assert (Hd : head lx0 b) by (exists r'; subst lx0; subst c; reflexivity).
  assert (Et : lx_tok lx0 = lx_cur lx0) by reflexivity.
  assert (Ek : lx_acc lx0 = lx_acc lx) by reflexivity.
  assert (Eb : lx_buf lx0 = lx_buf lx) by reflexivity.
  apply (handler_handled alnum _ b) in H1; auto.
  clearbody lx0. destruct H1.
  - destruct H as (K & O' & L). destruct K as [K1 K2 K3 K4]. constructor; auto.
    + congruence.
    + exists s. rewrite K2, Et. split; auto.
      replace s with (s ++ []) by apply app_nil_r. apply gap_whites; auto. constructor.
    + rewrite K2, Et. auto.
    + rewrite K2, Et, <- Ek. auto.
    + apply te_token; auto. rewrite K2, Et. auto.
  - subst lx'. constructor; simpl; auto.
    + exists s. rewrite Et. split; auto. replace s with (s ++ []) by apply app_nil_r. apply gap_whites; auto. constructor.
    + rewrite Et. apply fwd_refl.
    + destruct H as [r Hr]. apply te_eof; simpl; auto. rewrite Et. eauto.
  - subst lx'. constructor; simpl; auto.
    + exists s. rewrite Et. split; auto. replace s with (s ++ []) by apply app_nil_r. apply gap_whites; auto. constructor.
    + rewrite Et. apply fwd_refl.
    + eapply te_uni; simpl; eauto. rewrite Et. eauto.
  - assert (L2 : List.length (rem (lx_cur lx2)) < n).
    { apply adv_length in H. apply adv_length in A0. simpl in H. lia. }
    assert (O2 : ok lx2).
    { unfold ok in *. destruct H as [H _]. rewrite H in O0. apply ends_suffix in O0; auto.
      destruct H2 as (x & [r Hx] & _). rewrite Hx. discriminate. }
    destruct (IH _ L2 lx2 eq_refl lx' O2 H4) as [C1 (s2 & C2 & G2) C3 C4 C5 C6].
    constructor; auto.
    + rewrite C1, H3. simpl. auto.
    + exists (s ++ ("/" :: "/" :: body)%byte ++ s2). split.
      * eapply adv_trans; [exact A0|]. eapply adv_trans; [exact H|exact C2].
      * apply gap_whites; auto. simpl. apply gap_line; auto.
        destruct H2 as (x & [r Hx] & D). exists x, r. destruct C2 as [C2 _]. rewrite <- C2. auto.
    + rewrite H3 in C5. simpl in C5. rewrite Ek in C5. auto.
  - assert (L2 : List.length (rem (lx_cur lx2)) < n).
    { apply adv_length in H. apply adv_length in A0. simpl in H. lia. }
    assert (O2 : ok lx2).
    { unfold ok in *. assert (H' := H). destruct H as [H _]. rewrite H in O0.
      assert (E2 : exists t, rem (lx_cur lx0) = t ++ "/"%byte :: rem (lx_cur lx2)).
      { exists ("/" :: "*" :: body ++ ["*"])%byte. rewrite H. simpl. rewrite <- !app_assoc. reflexivity. }
      destruct E2 as [t E2]. rewrite <- H, E2 in O0. apply ends_suffix in O0; [|discriminate].
      now apply ends_cons in O0. }
    destruct (IH _ L2 lx2 eq_refl lx' O2 H3) as [C1 (s2 & C2 & G2) C3 C4 C5 C6].
    constructor; auto.
    + rewrite C1, H2. simpl. auto.
    + exists (s ++ ("/" :: "*" :: body ++ ["*"; "/"])%byte ++ s2). split.
      * eapply adv_trans; [exact A0|]. eapply adv_trans; [exact H|exact C2].
      * apply gap_whites; auto. simpl. rewrite <- app_assoc. simpl. apply gap_block; auto.
    + rewrite H2 in C5. simpl in C5. rewrite Ek in C5. auto.
Qed.
