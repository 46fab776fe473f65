(** Invariants of the parser state: the lexer stays inside the source, the
    errors are where they should be. *)
From Coq Require Import List NArith Bool Lia Arith.
From Coq.Strings Require Import Byte.
From Verif Require Import Bytes Token Lexer SpecLexer LexerFacts ConsumeFacts Prog ProgFacts Parser.
Import ListNotations.
Open Scope nat_scope.

Record lex_inv (src : str) (lx : lexer) : Prop := LexInv {
  li_buf : lx_buf lx = src ++ [x00];
  li_cur : on (lx_buf lx) (lx_cur lx);
  li_tok : on (lx_buf lx) (lx_tok lx);
  li_acc : on (lx_buf lx) (lx_acc lx);
  li_fwd : fwd (lx_tok lx) (lx_cur lx);
  li_afwd : fwd (lx_acc lx) (lx_cur lx);
  li_ok : ok lx;
  li_eop : lx_token lx = T_EndOfProgram -> lx_cur lx = lx_tok lx
}.

Lemma lex_inv_pos src lx : lex_inv src lx -> pos (lx_cur lx) <= List.length src.
Proof.
  intros [B C _ _ _ _ O _]. destruct C as [pre [E L]]. rewrite B in E.
  apply ends_nonempty in O. apply (f_equal (@List.length _)) in E. rewrite !app_length in E.
  destruct (rem (lx_cur lx)); [congruence|]. simpl in E. lia.
Qed.
Lemma lex_inv_tok_pos src lx : lex_inv src lx -> pos (lx_tok lx) <= pos (lx_cur lx).
Proof. intros I. apply fwd_pos, I. Qed.

Lemma consume_inv alnum src lx lx' : lex_inv src lx -> consume alnum lx = Done lx' ->
  lex_inv src lx' /\ fwd (lx_cur lx) (lx_tok lx') /\ token_end alnum lx'.
Proof.
  intros [B C T A TC AC O Z] H. apply consume_consumed in H; auto.
  destruct H as [B' (s & G & _) F' O' A' E'].
  assert (CT : fwd (lx_cur lx) (lx_tok lx')) by (exists s; auto).
  split; [|split; auto].
  assert (T' : on (lx_buf lx') (lx_tok lx')) by (rewrite B'; exact (on_fwd _ _ _ C CT)).
  assert (C' : on (lx_buf lx') (lx_cur lx')) by exact (on_fwd _ _ _ T' F').
  assert (Z' : lx_token lx' = T_EndOfProgram -> lx_cur lx' = lx_tok lx') by (destruct E'; congruence).
  destruct A' as [A'|[A1 A2]].
  - constructor; auto; try congruence.
    rewrite A'. eapply fwd_trans; [exact AC|]. eapply fwd_trans; eauto.
  - constructor; auto; try congruence. exact (on_fwd _ _ _ T' A1).
Qed.

Lemma step_inv src lx lx' : lex_inv src lx -> step lx lx' -> lx_token lx' <> T_EndOfProgram -> lex_inv src lx'.
Proof.
  intros [B C T A TC AC O Z] [[KB KT KF KA] O'] Z'.
  assert (C' : on (lx_buf lx') (lx_cur lx')) by (rewrite KB; exact (on_fwd _ _ _ C KF)).
  assert (TC' : fwd (lx_tok lx') (lx_cur lx')) by (rewrite KT; eapply fwd_trans; eauto).
  assert (T' : on (lx_buf lx') (lx_tok lx')) by (rewrite KT, KB; exact T).
  assert (A' : on (lx_buf lx') (lx_acc lx') /\ fwd (lx_acc lx') (lx_cur lx')).
  { destruct KA as [KA|[K1 K2]].
    - rewrite KA, KB. split; auto. eapply fwd_trans; eauto.
    - rewrite KB. split; auto. exact (on_fwd _ _ _ C K1). }
  destruct A'. constructor; auto; congruence.
Qed.

Lemma init_inv src : lex_inv src (lexer_init (nul_terminated src)).
Proof.
  assert (O : on (src ++ [x00]) (Cur 0 (src ++ [x00]))) by (exists []; split; reflexivity).
  constructor; simpl; auto; try apply fwd_refl; try discriminate. exists src. reflexivity.
Qed.

Lemma regex_token lx v lx' : read_regular_expression lx = Done (v, lx') -> lx_token lx' <> T_EndOfProgram.
Proof. unfold read_regular_expression; intros H. odone H. destruct a as [[| |] c]; oinv; discriminate. Qed.

(** The text of a token, of an accessor. *)
Lemma slice_source src lx c : lex_inv src lx -> on (lx_buf lx) c -> fwd c (lx_cur lx) ->
  slice c (lx_cur lx) = firstn (pos (lx_cur lx) - pos c) (skipn (pos c) src).
Proof.
  intros I O F. rewrite (on_slice _ _ _ O F), (li_buf _ _ I).
  assert (L := lex_inv_pos _ _ I). assert (L' := fwd_pos _ _ F).
  rewrite skipn_app. rewrite firstn_app.
  replace (pos (lx_cur lx) - pos c - List.length (skipn (pos c) src)) with 0 by (rewrite skipn_length; lia).
  simpl. now rewrite app_nil_r.
Qed.
Lemma token_text src lx : lex_inv src lx ->
  token_as_str lx = firstn (pos (lx_cur lx) - pos (lx_tok lx)) (skipn (pos (lx_tok lx)) src).
Proof. intros I. apply slice_source; auto; apply I. Qed.

(** ** Errors *)

(** Errors of [src], in order, all before position [p]. *)
Definition error_ok (src : str) (e : error) : Prop :=
  err_start e <= err_end e <= List.length src /\
  err_raw e = firstn (err_end e - err_start e) (skipn (err_start e) src).
Inductive errors_before (src : str) : nat -> list error -> Prop :=
| eb_nil p : errors_before src p []
| eb_snoc p es e : errors_before src (err_start e) es -> error_ok src e -> err_end e <= p ->
    errors_before src p (es ++ [e]).
Lemma errors_before_le src p q es : errors_before src p es -> p <= q -> errors_before src q es.
Proof. intros H L. inversion H; subst; constructor; auto; lia. Qed.

Record st_inv (src : str) (s : pstate) : Prop := StInv {
  si_lex : lex_inv src (p_lexer s);
  si_err : errors_before src (pos (lx_tok (p_lexer s))) (p_errors s)
}.

(** In a state reached from a state of [src], *)
Definition st_rel (src : str) (s s' : pstate) : Prop :=
  st_inv src s -> st_inv src s' /\ pos (lx_tok (p_lexer s)) <= pos (lx_tok (p_lexer s'))
                  /\ pos (lx_cur (p_lexer s)) <= pos (lx_cur (p_lexer s')).

Lemma run_st_rel alnum src n A (p : prog fn A) s a s' :
  run alnum body n p s = Done (a, s') -> st_rel src s s'.
Proof.
  apply run_rel.
  - intros x I. auto.
  - intros x y z H1 H2 I. destruct (H1 I) as (I1 & L1 & L2). destruct (H2 I1) as (I2 & L3 & L4).
    split; [auto|lia].
  - unfold op_consume. intros x y H [IL IE]. oinv. simpl.
    destruct (consume_inv _ _ _ _ IL H0) as (I' & F & _).
    assert (L1 := fwd_pos _ _ F). assert (L2 := lex_inv_tok_pos _ _ IL). assert (L3 := lex_inv_tok_pos _ _ I').
    split; [split; simpl; auto|lia]. eapply errors_before_le; eauto. lia.
  - unfold op_template. intros x y H [IL IE]. oinv. simpl.
    assert (Z := template_token _ _ H0). apply template_step in H0; [|apply IL].
    assert (I' := step_inv _ _ _ IL H0 ltac:(intuition congruence)). destruct H0 as [[KB KT KF KA] _].
    apply fwd_pos in KF. split; [split; simpl; auto|]; rewrite KT; auto.
  - unfold op_regex. intros x v y H [IL IE]. oinv. simpl.
    assert (Z := regex_token _ _ _ H0). apply regex_step in H0; [|apply IL].
    assert (I' := step_inv _ _ _ IL H0 Z). destruct H0 as [[KB KT KF KA] _].
    apply fwd_pos in KF. split; [split; simpl; auto|]; rewrite KT; auto.
  - unfold op_error, invalid_token. intros x y H [IL IE]. odone H. destruct a0 as [e lx']. simpl in H1. oinv.
    set (e0 := Error _ _ _ _) in *.
    assert (L2 := lex_inv_tok_pos _ _ IL). assert (L4 := lex_inv_pos _ _ IL).
    assert (E0 : error_ok src e0) by (split; simpl; [lia|apply token_text; auto]).
    assert (D : (lx_token (p_lexer x) = T_EndOfProgram /\ e = e0 /\ lx' = p_lexer x) \/
                (e = e0 /\ consume alnum (p_lexer x) = Done lx')).
    { destruct (lx_token (p_lexer x)); oinv; auto. }
    simpl. destruct D as [(Et & -> & ->)|[-> Hc]].
    + split; [split; simpl; auto|lia]. constructor; auto. simpl. rewrite (li_eop _ _ IL Et). auto.
    + destruct (consume_inv _ _ _ _ IL Hc) as (I' & F & _).
      assert (L1 := fwd_pos _ _ F). assert (L3 := lex_inv_tok_pos _ _ I').
      split; [split; simpl; auto|lia]. constructor; auto.
Qed.
