(** Identifiers that start with a character outside ASCII, read back. *)
From Coq Require Import List NArith Bool Lia Arith.
From Coq.Strings Require Import Byte.
From Verif Require Import Bytes Token Tables Lexer SpecLexer SpecTokens SpecUtf8 SpecHazard SpecPrec Ast Prog Parser Codegen
  LexerFacts ConsumeFacts LexEval HazardFacts Gets.
Import ListNotations.
Open Scope nat_scope.
Open Scope list_scope.

Lemma code_point_det s c c' : code_point s c -> code_point s c' -> c = c'.
Proof.
  assert (D : forall a lo hi lo' hi', between lo hi a -> between lo' hi' a -> (byte_val hi < byte_val lo')%N \/ (byte_val hi' < byte_val lo)%N -> False).
  { unfold between. intros a lo hi lo' hi' [H1 H2] [H3 H4] [L|L]; lia. }
  intros H H'. destruct H as [a b r H|a b d r H|a b d e r H]; inversion H'; subst; try reflexivity; exfalso;
    match goal with A : between ?l ?h ?a, B : between ?l' ?h' ?a |- _ => apply (D _ _ _ _ _ A B); vm_compute; auto end.
Qed.
Lemma decode_char_more s t c n : decode_char s = Some (c, n) -> decode_char (s ++ t) = Some (c, n).
Proof.
  unfold decode_char. destruct s as [|b [|b1 [|b2 [|b3 s]]]]; cbn [app]; try discriminate;
    repeat match goal with |- context [if ?x then _ else _] => destruct x end; try discriminate; auto.
Qed.
Lemma foreign_decodes alnum s : foreign_start alnum s ->
  exists b r c n, s = b :: r /\ not_ascii b /\ alnum c = true /\ 1 <= n <= List.length s /\ forall t, decode_char (s ++ t) = Some (c, n).
Proof.
  intros (U & b & r & c & -> & N & C & A). destruct (first_char _ _ U N) as (c' & n & D & C').
  rewrite (code_point_det _ _ _ C' C) in D. exists b, r, c, n. destruct (decode_char_length _ _ _ D) as [L1 L2].
  split; [reflexivity|]. split; [exact N|]. split; [exact A|]. split; [lia|]. intros t. now apply decode_char_more.
Qed.
Lemma foreign_byte b : not_ascii b -> handler_from_byte b = Some H_UNI /\ word_byte b = true.
Proof. unfold not_ascii. destruct b; vm_compute; intros H; try discriminate H; auto. Qed.
Lemma foreign_keyword alnum s : foreign_start alnum s -> keyword_or_identifier s = T_Identifier.
Proof.
  intros (U & b & r & c & -> & N & _). unfold keyword_or_identifier.
  assert (A : forall l, forallb (fun x => match fst x with y :: _ => negb (127 <? byte_val y)%N | [] => false end) l = true -> assoc (b :: r) l = None).
  { induction l as [|[x t] l IH]; cbn [forallb assoc fst]; [auto|]. intros H. apply andb_true_iff in H as [H1 H2].
    destruct x as [|y x]; [discriminate|]. destruct (str_eqb (b :: r) (y :: x)) eqn:E; [|auto].
    apply str_eqb_eq in E. injection E as <- <-. unfold not_ascii in N. apply N.ltb_lt in N. rewrite N in H1. discriminate. }
  rewrite A; [reflexivity|]. vm_compute. reflexivity.
Qed.

Section Foreign.
  Variable alnum : N -> bool.
  Notation pend := (pend alnum).

  Lemma lex_foreign buf t0 a0 p ws x c0 r tok0 acc q :
    Forall white ws -> foreign_start alnum x -> forallb legal_in_label x = true -> legal_in_label c0 = false ->
    consume alnum (Lexer buf t0 a0 (Cur p (ws ++ x ++ c0 :: r)) tok0 acc q)
    = Done (lexed buf T_Identifier (asi_of ws T_Identifier) (p + List.length ws) x (c0 :: r) acc q).
  Proof.
    intros W F L C. destruct (foreign_decodes _ _ F) as (b & y & c & n & -> & N & A & L1 & D).
    destruct (foreign_byte _ N) as [Hh _]. cbn [app]. rewrite (consume_at alnum _ _ _ _ _ _ _ _ _ _ H_UNI W Hh).
    cbn [run_handler]. unfold h_UNI. cbn [lx_cur rem]. specialize (D (c0 :: r)). cbn [app] in D. rewrite D, A.
    unfold read_label, skip_while, set_cur, cur_advance. cbn [lx_cur pos rem].
    assert (T : skipn (n - 1) (b :: y ++ c0 :: r) = skipn (n - 1) (b :: y) ++ c0 :: r).
    { change (b :: y ++ c0 :: r) with ((b :: y) ++ c0 :: r). rewrite skipn_app. replace (n - 1 - List.length (b :: y)) with 0 by lia. reflexivity. }
    rewrite T.
    assert (G : forallb legal_in_label (skipn (n - 1) (b :: y)) = true).
    { rewrite <- (firstn_skipn (n - 1) (b :: y)), forallb_app in L. now apply andb_true_iff in L as [_ L]. }
    rewrite (scan_while_intro _ _ _ _ _ G C). cbn [obind]. unfold lexed, set_token. cbn [lx_cur rem tl pos lx_buf lx_token lx_asi lx_tok lx_acc lx_quasi].
    rewrite skipn_length. f_equal. f_equal. f_equal. lia.
  Qed.

  (** Words. *)
  Definition word_start_ok (x : str) : Prop := (exists b r, x = b :: r /\ word_first b = true) \/ foreign_start alnum x.
  Lemma pend_any_word nl x c (K : lexer -> Prop) :
    Forall (fun b => word_byte b = true) x -> word_start_ok x -> heads (fun b => negb (word_byte b)) c ->
    (forall lx, on nl (keyword_or_identifier x) x c lx -> K lx) -> pend nl (GBytes x :: c) K.
  Proof.
    intros HA [F|F] H HK; [now apply pend_word|]. rewrite (foreign_keyword _ _ F) in HK.
    eapply pend_lex; [|exact H|exact HK]. intros buf t0 a0 p ws b r tok0 acc q W G. exists acc, q.
    apply lex_foreign; auto using word_bytes_legal. rewrite <- word_byte_legal. now apply negb_true_iff.
  Qed.
End Foreign.
