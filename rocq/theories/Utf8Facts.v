(** The texts the parser takes from valid UTF-8 sources are valid UTF-8. *)
From Coq Require Import List NArith Bool Lia Arith String.
From Coq.Strings Require Import Byte.
From Verif Require Import Bytes Token Tables Lexer SpecLexer SpecTokens SpecRead SpecChunks SpecUtf8 LexerFacts ConsumeFacts LexEval TokenText
  StateFacts LexProps ChunkText Boundary Prog ProgFacts Parser ErrorFacts.
Import ListNotations.
Open Scope nat_scope.
Open Scope list_scope.

Lemma utf8_app a b : utf8 a -> utf8 b -> utf8 (a ++ b).
Proof. intros [n A] [m B]. exists (n + m). now apply characters_app. Qed.
Lemma utf8_nil : utf8 [].
Proof. exists 0. constructor. Qed.
Lemma ascii_between x : ascii x = true -> between x00 x7f x.
Proof. unfold ascii, byte_in, between. intros H. apply andb_true_iff in H as [H1 H2]. apply N.leb_le in H1, H2. auto. Qed.
Lemma utf8_ascii1 x : ascii x = true -> utf8 [x].
Proof. intros H. exists 1. apply (ch_cons 0 [x] []); [|constructor]. apply u1. now apply ascii_between. Qed.
Lemma utf8_ascii s : forallb ascii s = true -> utf8 s.
Proof.
  induction s as [|x s IH]; cbn; intros H; [apply utf8_nil|]. apply andb_true_iff in H as [H1 H2].
  apply (utf8_app [x]); [now apply utf8_ascii1|auto].
Qed.
Lemma utf8_start s : utf8 s -> start s.
Proof. intros [n H]. apply (utf8_bd _ _ H). Qed.
Lemma utf8_split a b : utf8 (a ++ b) -> start b -> utf8 a /\ utf8 b.
Proof. intros [n H] S. destruct (split_utf8 n _ H a b eq_refl S) as (n1 & n2 & A & B & _). split; [exists n1|exists n2]; auto. Qed.
Lemma start_app a b : a <> [] -> start (a ++ b) -> start a.
Proof. destruct a; [congruence|auto]. Qed.

Section Source.
  Variable alnum : N -> bool.
  Variable src : str.
  Hypothesis valid : utf8 src.

  Lemma buf_utf8 : utf8 (src ++ [x00]).
  Proof. apply utf8_app; [exact valid|]. now apply utf8_ascii1. Qed.
  Lemma cut_utf8 c : on (src ++ [x00]) c -> start (rem c) -> utf8 (rem c).
  Proof. intros (pre & E & _) S. assert (U := buf_utf8). rewrite E in U. now apply utf8_split in U. Qed.
  Lemma slice_utf8 c c' : on (src ++ [x00]) c -> fwd c c' -> start (rem c) -> start (rem c') -> utf8 (slice c c').
  Proof.
    intros O [s F] S S'. rewrite (adv_slice _ _ _ F). apply (cut_utf8 _ O) in S. destruct F as [F _]. rewrite F in S. now apply utf8_split in S.
  Qed.
  Lemma cut_boundary c : on (src ++ [x00]) c -> pos c <= List.length src -> start (rem c) -> boundary src (pos c).
  Proof.
    intros (pre & E & L) P S. assert (G : exists b, src = pre ++ b /\ rem c = b ++ [x00]).
    { exists (skipn (pos c) src). assert (E1 : pre = firstn (pos c) src).
      { apply (f_equal (firstn (pos c))) in E. rewrite !firstn_app in E. rewrite L, Nat.sub_diag in E. rewrite (firstn_all2 pre) in E by lia.
        replace (pos c - List.length src) with 0 in E by lia. cbn [firstn] in E. rewrite !app_nil_r in E. now symmetry. }
      split; [rewrite E1; symmetry; apply firstn_skipn|].
      rewrite E1 in E. rewrite <- (firstn_skipn (pos c) src) in E at 1. rewrite <- app_assoc in E. now apply app_inv_head in E. }
    destruct G as (b & E1 & E2). rewrite E2 in S. exists pre, b. split; [exact E1|]. split; [exact L|].
    assert (V := valid). rewrite E1 in V. apply utf8_split in V; [exact V|]. destruct b; [exact I|exact S].
  Qed.

  Record uinv (lx : lexer) : Prop := UInv {
    u_inv : lex_inv src lx;
    u_text : text_ok lx;
    u_cur : Bd lx;
    u_tok : bd (rem (lx_tok lx));
    u_quasi : lx_token lx = T_TemplateOpen \/ lx_token lx = T_TemplateClosed -> utf8 (lx_quasi lx);
    u_acc : lx_token lx = T_Accessor -> utf8 (accessor_as_str lx)
  }.
  Lemma text_utf8 lx : uinv lx -> utf8 (token_as_str lx).
  Proof.
    intros [I _ B T _ _]. apply slice_utf8; [rewrite <- (li_buf _ _ I); apply I|apply I|apply T|apply B].
  Qed.
  Lemma chunk_utf8 t o q s : t = T_TemplateOpen \/ t = T_TemplateClosed -> utf8 s -> chunk t o q s -> (forall r, s = o ++ r -> start r) -> utf8 q.
  Proof.
    intros Ht U [_ C] S. destruct Ht as [-> | ->]; subst s.
    - apply utf8_split in U as [_ U]; [|now apply S]. apply utf8_split in U; [apply U|reflexivity].
    - apply utf8_split in U as [_ U]; [|now apply S]. apply utf8_split in U; [apply U|reflexivity].
  Qed.
  Lemma backquote_start r : utf8 (bs "`" ++ r) -> start r.
  Proof. intros [n U]. apply utf8_bd in U. eapply bd_cons; [apply U|reflexivity]. Qed.
  Lemma accessor_utf8 n s : utf8 s -> accessor n s -> utf8 n.
  Proof.
    intros U (_ & ws & -> & F). assert (S : start n).
    { destruct U as [k U]. apply utf8_bd in U. cbn [app] in U. apply bd_asc, bd_cons in U; [|reflexivity].
      clear - U F. induction F as [|b ws Fb F IH]; [apply U|]. apply IH. eapply bd_cons; [apply U|]. clear - Fb.
      unfold ascii, byte_in. apply andb_true_iff. split; apply N.leb_le; [change (byte_val x00) with 0%N; lia|change (byte_val x7f) with 127%N; lia]. }
    rewrite app_comm_cons in U. now apply utf8_split in U.
  Qed.
  Lemma uinv_consume lx lx' : lex_inv src lx -> Bd lx -> consume alnum lx = Done lx' -> uinv lx'.
  Proof.
    intros I B H. assert (O := li_ok _ _ I). destruct (consume_inv _ _ _ _ I H) as (I' & _ & _).
    destruct (consume_bd _ _ _ O B H) as [B' T']. assert (C := consume_chunk _ _ _ O H). assert (X := consume_text _ _ _ O H).
    assert (U : utf8 (token_as_str lx')) by (apply slice_utf8; [rewrite <- (li_buf _ _ I'); apply I'|apply I'|apply T'|apply B']).
    constructor; auto.
    - intros E. assert (K : chunk (lx_token lx') (bs "`") (lx_quasi lx') (token_as_str lx')) by (destruct E as [E|E]; rewrite E; now apply C).
      eapply chunk_utf8; [exact E|exact U|exact K|]. intros r Er. apply backquote_start. now rewrite <- Er.
    - intros E. eapply accessor_utf8; [exact U|]. now apply C.
  Qed.
  Lemma uinv_template lx lx' : uinv lx -> read_template_kind lx = Done lx' -> uinv lx'.
  Proof.
    intros [I X B T _ _] H. assert (Z := template_token _ _ H). assert (St := template_step _ _ (li_ok _ _ I) H).
    assert (I' := step_inv _ _ _ I St ltac:(intuition congruence)). destruct St as [[KB KT KF KA] O'].
    assert (B' := template_bd _ _ (Bd_As _ B) H). assert (C := template_chunk _ _ (li_fwd _ _ I) H). assert (X' := template_text _ _ H).
    assert (T' : bd (rem (lx_tok lx'))) by (rewrite KT; exact T).
    assert (U : utf8 (token_as_str lx')) by (apply slice_utf8; [rewrite <- (li_buf _ _ I'); apply I'|apply I'|apply T'|apply B']).
    constructor; auto.
    - intros E. destruct C as [C|C]; [intuition congruence|]. eapply chunk_utf8; [exact E|exact U|exact C|]. intros r Er.
      destruct (li_fwd _ _ I) as [s F]. destruct (li_fwd _ _ I') as [s' F']. unfold token_as_str in Er. rewrite (adv_slice _ _ _ F), (adv_slice _ _ _ F') in Er.
      destruct F as [F _], F' as [F' _]. rewrite KT, F, Er, <- app_assoc in F'. apply app_inv_head in F'.
      assert (S := proj1 B). unfold Bd in *. rewrite F' in S. destruct r; [exact Logic.I|exact S].
    - intuition congruence.
  Qed.
  Lemma uinv_regex lx v lx' : uinv lx -> read_regular_expression lx = Done (v, lx') -> uinv lx'.
  Proof.
    intros [I X B T _ _] H. assert (Z := regex_token _ _ _ H). assert (St := regex_step _ _ _ (li_ok _ _ I) H).
    assert (I' := step_inv _ _ _ I St Z). destruct St as [[KB KT KF KA] O'].
    assert (B' := regex_bd _ _ _ (Bd_As _ B) H). assert (X' := regex_text _ _ _ H).
    assert (N : other_token (lx_token lx') = true).
    { clear - H. unfold read_regular_expression in H. odone H. destruct a as [[| |] c]; oinv; reflexivity. }
    constructor; auto.
    - rewrite KT. exact T.
    - intros [E|E]; rewrite E in N; discriminate.
    - intros E; rewrite E in N; discriminate.
  Qed.
  Lemma regex_utf8 lx v lx' : uinv lx -> lx_token lx = T_OperatorDivision -> read_regular_expression lx = Done (v, lx') ->
    lx_token lx' = T_LiteralRegEx -> utf8 v.
  Proof.
    intros U Et H Er. assert (U' := uinv_regex _ _ _ U H). assert (W := text_utf8 _ U').
    replace v with (token_as_str lx'); [exact W|]. clear W.
    assert (I := u_inv _ U). assert (I' := u_inv _ U').
    assert (St := regex_step _ _ _ (li_ok _ _ I) H). destruct St as [[KB KT KF KA] _].
    assert (Tx := tx_div _ (u_text _ U) Et). rewrite (token_text _ _ I').
    unfold read_regular_expression in H. ob H as [k c] Hk Hr. destruct k.
    2,3: injection Hr as <- <-; discriminate Er.
    ob Hr as lx2 Hs Hv. injection Hv as <- <-.
    cbn [set_token lx_buf lx_cur lx_tok] in *.
    unfold token_as_str, slice in Tx. apply (f_equal (@List.length _)) in Tx. rewrite firstn_length in Tx. cbn [List.length] in Tx.
    assert (F := fwd_pos _ _ (li_fwd _ _ I)). assert (F' := fwd_pos _ _ KF).
    assert (A' := lex_inv_pos _ _ I'). cbn [set_token lx_cur] in A'.
    destruct (li_fwd _ _ I) as [s [F1 F2]]. assert (List.length s = 1).
    { rewrite F1, app_length in Tx. lia. }
    rewrite KT. replace (pos (lx_cur lx) - 1) with (pos (lx_tok lx)) by lia.
    rewrite KB, (li_buf _ _ I). rewrite skipn_app, firstn_app.
    replace (pos (lx_cur lx2) - pos (lx_tok lx) - List.length (skipn (pos (lx_tok lx)) src)) with 0 by (rewrite skipn_length; lia).
    cbn [firstn]. now rewrite app_nil_r.
  Qed.
  Lemma init_bd : Bd (lexer_init (nul_terminated src)).
  Proof. destruct buf_utf8 as [n U]. exact (utf8_bd _ _ U). Qed.
  Lemma new_uinv lx : lexer_new alnum src = Done lx -> uinv lx.
  Proof. intros H. eapply uinv_consume; [apply init_inv|apply init_bd|exact H]. Qed.
  Lemma reach_uinv lx : lexer_reach alnum src lx -> uinv lx.
  Proof.
    induction 1 as [lx H|lx lx' R IH H|lx lx' R IH H|lx v lx' R IH H].
    - now apply new_uinv.
    - eapply uinv_consume; [apply IH|apply IH|exact H].
    - eapply uinv_template; eauto.
    - eapply uinv_regex; eauto.
  Qed.
  Lemma uinv_boundaries lx : uinv lx -> boundary src (pos (lx_tok lx)) /\ boundary src (pos (lx_cur lx)).
  Proof.
    intros [I _ B T _ _]. assert (P := lex_inv_pos _ _ I). assert (Q := lex_inv_tok_pos _ _ I).
    split; apply cut_boundary; try lia.
    - rewrite <- (li_buf _ _ I). apply I. - apply T. - rewrite <- (li_buf _ _ I). apply I. - apply B.
  Qed.

  (** ** Errors *)
  Definition err_bd (e : error) : Prop := boundary src (err_start e) /\ boundary src (err_end e) /\ utf8 (err_raw e).
  Definition ust (s : pstate) : Prop := uinv (p_lexer s) /\ Forall err_bd (p_errors s).
  Lemma run_ust n A (p : prog fn A) s a s' : run alnum body n p s = Done (a, s') -> ust s -> ust s'.
  Proof.
    apply (run_rel _ _ _ (fun s s' => ust s -> ust s')); auto.
    - unfold op_consume. intros x y H (U & E). ob H as lx' H1 H2. injection H2 as <-. split; [|exact E]. eapply uinv_consume; [apply U|apply U|exact H1].
    - unfold op_template. intros x y H (U & E). ob H as lx' H1 H2. injection H2 as <-. split; [|exact E]. eapply uinv_template; eauto.
    - unfold op_regex. intros x v y H (U & E). ob H as [v' lx'] H1 H2. injection H2 as <- <-. split; [|exact E]. eapply uinv_regex; eauto.
    - unfold op_error, invalid_token. intros x y H (U & E). ob H as [e lx'] H1 H2. injection H2 as <-.
      set (e0 := Error _ _ _ _) in *.
      assert (E0 : err_bd e0).
      { destruct (uinv_boundaries _ U). split; [assumption|]. split; [assumption|]. now apply text_utf8. }
      assert (D : (lx_token (p_lexer x) = T_EndOfProgram /\ e = e0 /\ lx' = p_lexer x) \/
                  (e = e0 /\ consume alnum (p_lexer x) = Done lx')).
      { destruct (lx_token (p_lexer x)); oinv; auto. }
      destruct D as [(Et & -> & ->)|[-> Hc]]; (split; [|apply Forall_app; auto]); cbn [p_lexer]; [exact U|].
      eapply uinv_consume; [apply U|apply U|exact Hc].
  Qed.
  Lemma errors_bd es : parses_to alnum src (ParseErr es) -> Forall err_bd es.
  Proof.
    intros H. apply parse_state in H as (n & lx & m & s & H1 & H2 & H3).
    assert (E : es = p_errors s) by (destruct (p_errors s); congruence). rewrite E.
    apply run_ust in H2; [apply H2|]. split; [now apply new_uinv|constructor].
  Qed.
End Source.
