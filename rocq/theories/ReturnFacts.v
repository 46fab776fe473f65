(** Parsing comes to an end, or the source explains why it does not. *)
From Coq Require Import List NArith Bool Lia Arith String.
From Coq.Strings Require Import Byte.
From Verif Require Import Bytes Token Tables Lexer Prog Parser ProgFacts SpecLexer SpecTokens SpecRead LexerFacts ConsumeFacts LexEval TokenText
  LexProps StateFacts ChunkText SpecUtf8 Boundary Utf8Facts SpecChunks SpecHazard HazardFacts Returns.
Import ListNotations.
Open Scope nat_scope.
Open Scope list_scope.

Section Source.
  Variable alnum : N -> bool.
  Variable src : str.
  Hypothesis valid : utf8 src.
  Notation tp := (has_template src).
  Notation outcome_ok := (outcome_ok src).

  Record hv (lx : lexer) : Prop := Hv {
    h_reach : lexer_reach alnum src lx;
    h_tinv : tinv tp (view_of lx);
    h_brace : lx_token lx = T_BraceClose -> token_as_str lx = bs "}";
    h_visited : visited alnum src lx
  }.
  Definition meas (lx : lexer) : nat :=
    (List.length src - pos (lx_cur lx)) + match lx_token lx with T_EndOfProgram => 0 | _ => 1 end.
  Lemma meas_live lx : lx_token lx <> T_EndOfProgram -> meas lx = S (List.length src - pos (lx_cur lx)).
  Proof. unfold meas. destruct (lx_token lx); intros N; try (now destruct N); lia. Qed.
  Lemma meas_end lx : lx_token lx = T_EndOfProgram -> meas lx = List.length src - pos (lx_cur lx).
  Proof. unfold meas. intros ->. lia. Qed.

  Lemma quoted_two s : quoted s -> 2 <= List.length s.
  Proof. intros H. destruct H as (q & b & _ & _ & ->). cbn [List.length]. rewrite app_length. cbn. lia. Qed.

  Lemma token_in lx b r : lex_inv src lx -> token_as_str lx = b :: r -> In b src.
  Proof.
    intros Iv E. rewrite (token_text _ _ Iv) in E. rewrite <- (firstn_skipn (pos (lx_tok lx)) src). apply in_or_app. right.
    rewrite <- (firstn_skipn (pos (lx_cur lx) - pos (lx_tok lx)) (skipn _ src)). apply in_or_app. left. rewrite E. now left.
  Qed.
  Lemma consume_tinv lx lx' : lex_inv src lx -> consume alnum lx = Done lx' -> tinv tp (view_of lx').
  Proof.
    intros Iv H. assert (O := li_ok _ _ Iv). assert (X := consume_text _ _ _ O H). assert (C := consume_chunk _ _ _ O H).
    destruct (consume_inv _ _ _ _ Iv H) as (Iv' & _). constructor; cbn [view_of v_token v_text].
    - intros E. apply quoted_two. now apply (tx_string _ X).
    - intros E. assert (N : ~ In "`"%byte src) by (intros I; apply has_template_in in I; congruence). split; intros Et; apply N.
      + destruct (ck_open _ C Et) as [_ K]. eapply token_in; [exact Iv'|]. rewrite K. reflexivity.
      + destruct (ck_closed _ C Et) as [_ K]. eapply token_in; [exact Iv'|]. rewrite K. reflexivity.
  Qed.
  Lemma hv_consumed lx lx' : lex_inv src lx -> consume alnum lx = Done lx' -> lexer_reach alnum src lx' -> visited alnum src lx' -> hv lx'.
  Proof.
    intros Iv H R V. assert (O := li_ok _ _ Iv). constructor; [exact R|eapply consume_tinv; eauto| |exact V].
    apply (ck_brace _ (consume_chunk _ _ _ O H)).
  Qed.
  Definition smaller (lx lx' : lexer) : Prop :=
    may_loop alnum src \/ (meas lx' <= meas lx /\ (live (view_of lx) -> meas lx' < meas lx)).

  Lemma stuck_loops (lx : lexer) b r c n : skipn (pos (lx_cur lx)) src = b :: r -> boundary src (pos (lx_cur lx)) -> (127 < byte_val b)%N ->
    decode_char (b :: r ++ [x00]) = Some (c, n) -> alnum c = false -> may_loop alnum src.
  Proof.
    intros E (x & y & Ex & L & _ & U) Nb D A. right. exists x, y, c. split; [exact Ex|]. split; [|exact A].
    assert (y = b :: r) by (rewrite <- E, Ex, <- L, skipn_app, skipn_all, Nat.sub_diag; reflexivity). subst y.
    destruct (first_char _ _ U Nb) as (c' & n' & D' & C'). replace c with c'; [exact C'|].
    clear - D D'. change (b :: r ++ [x00]) with ((b :: r) ++ [x00]) in D. unfold decode_char in *. cbn [app] in D.
    repeat match type of D' with
    | (if ?x then _ else _) = _ => destruct x; try discriminate D'
    | match ?x with _ => _ end = _ => is_var x; destruct x as [|? x]; cbn [app] in D; try discriminate D'
    end; congruence.
  Qed.
  Lemma consume_hv lx : hv lx -> outcome_ok (fun lx' => hv lx' /\ smaller lx lx') (consume alnum lx).
  Proof.
    intros [R _ _ V]. assert (U := reach_uinv alnum src valid _ R). assert (Iv := u_inv _ _ U).
    assert (G := consume_outcome alnum src valid lx Iv (u_cur _ _ U)). revert G. apply outcome_mono. intros lx' H _.
    assert (R' : lexer_reach alnum src lx') by (eapply lr_consume; eauto).
    split; [eapply hv_consumed; eauto; eapply vi_next; eauto|].
    assert (U' := reach_uinv alnum src valid _ R'). assert (Iv' := u_inv _ _ U').
    assert (L := lex_inv_pos _ _ Iv). assert (L' := lex_inv_pos _ _ Iv').
    assert (Le : pos (lx_cur lx) <= pos (lx_cur lx')) by (destruct (consume_inv _ _ _ _ Iv H) as (_ & F & _); apply fwd_pos in F; assert (T := lex_inv_tok_pos _ _ Iv'); lia).
    destruct (token_eq_dec (lx_token lx) T_EndOfProgram) as [E|N].
    - right. destruct (eop_forever _ _ _ R E) as (lx2 & H2 & E2 & _ & P2). rewrite H in H2. injection H2 as <-.
      split; [rewrite !meas_end by assumption; lia|]. intros Lv. now destruct Lv.
    - destruct (consume_progress _ _ _ _ R H) as [P|[E|(Et & Ep & b & r & c & n & Es & Nb & D & A)]].
      + right. rewrite (meas_live lx N). destruct (token_eq_dec (lx_token lx') T_EndOfProgram) as [E|N']; [rewrite meas_end by assumption|rewrite meas_live by assumption]; split; lia.
      + right. rewrite (meas_live lx N), (meas_end lx' E). split; lia.
      + left. eapply (stuck_loops lx'); eauto. apply (uinv_boundaries _ valid _ U').
  Qed.
  Lemma brace_suffix lx b : lex_inv src lx -> ok lx -> token_as_str lx = [b] -> exists a s, rem (lx_cur lx) = s ++ [x00] /\ src = a ++ b :: s.
  Proof.
    intros Iv O E. destruct (li_fwd _ _ Iv) as [t F]. unfold token_as_str in E. rewrite (adv_slice _ _ _ F) in E. subst t. destruct F as [F _]. destruct O as [s Es].
    assert (On := li_tok _ _ Iv). rewrite (li_buf _ _ Iv) in On. rewrite Es in F. destruct (suffix_of src _ (b :: s) On F) as [a Ea]. now exists a, s.
  Qed.
  Lemma template_moves lx lx' : read_template_kind lx = Done lx' -> pos (lx_cur lx) < pos (lx_cur lx').
  Proof.
    unfold read_template_kind. intros H. ob H as [[k e] c] Hk Hr.
    assert (G : forall r p k e c, scan_template p r = Done (k, e, c) -> p < pos c).
    { clear. intros r. induction r as [r IH] using length_ind. intros p k e c H. destruct r as [|b r]; [discriminate|]. cbn [scan_template] in H.
      destruct (byte_eqb b "`"); [injection H as <- <- <-; cbn; lia|]. destruct (byte_eqb b "$").
      - destruct r as [|c1 r]; [discriminate|]. destruct (byte_eqb c1 "{"); [injection H as <- <- <-; cbn; lia|]. apply IH in H; [lia|cbn; lia].
      - destruct (byte_eqb b "\").
        + destruct r as [|c1 r]; [discriminate|]. destruct (byte_eqb c1 x00); [injection H as <- <- <-; cbn; lia|]. apply IH in H; [lia|cbn; lia].
        + apply IH in H; [lia|cbn; lia]. }
    apply G in Hk. destruct k; injection Hr as <-; exact Hk.
  Qed.
  Lemma template_hv lx : hv lx -> tp = true -> lx_token lx = T_BraceClose ->
    outcome_ok (fun lx' => hv lx' /\ meas lx' < meas lx) (read_template_kind lx).
  Proof.
    intros [R Ti Hb Hs] Et Ek. assert (U := reach_uinv alnum src valid _ R). assert (Iv := u_inv _ _ U). assert (O := li_ok _ _ Iv).
    destruct (outcome_cases (read_template_kind lx)) as [[lx' H]|N].
    - rewrite H. cbn. assert (R' : lexer_reach alnum src lx') by (eapply lr_template; eauto).
      assert (Z := template_token _ _ H). assert (P := template_moves _ _ H). assert (Iv' := lexer_reach_inv _ _ _ R'). assert (L' := lex_inv_pos _ _ Iv').
      split.
      + constructor; [exact R'| |intuition congruence|eapply vi_piece; eauto]. constructor; cbn [view_of v_token v_text]; [intuition congruence|congruence].
      + rewrite !meas_live by (intuition congruence). lia.
    - destruct (brace_suffix lx _ Iv O (Hb Ek)) as (a & s & Er & Es). unfold read_template_kind in N |- *. cbv zeta in N |- *. rewrite Er in N |- *.
      destruct (outcome_cases (scan_template (pos (lx_cur lx)) (s ++ [x00]))) as [[[[k e] c] E]|E].
      { rewrite E in N. cbn [obind] in N. destruct N. destruct k; apply fine_done. }
      destruct (template_bad _ _ E) as [T ->]. cbn. exists a, ("}"%byte :: s). split; [exact Es|]. apply rp_continued; [exact T|now apply has_template_in].
  Qed.
  Lemma regex_moves lx v lx' : read_regular_expression lx = Done (v, lx') -> pos (lx_cur lx) < pos (lx_cur lx').
  Proof.
    unfold read_regular_expression. intros H. ob H as [k c] Hk Hr.
    assert (G : forall r i p k c, scan_regex i p r = Done (k, c) -> p < pos c).
    { clear. intros r. induction r as [r IH] using length_ind. intros i p k c H. destruct r as [|b r]; [discriminate|]. cbn [scan_regex] in H.
      destruct (byte_eqb b "["); [apply IH in H; [lia|cbn; lia]|]. destruct (byte_eqb b "]"); [apply IH in H; [lia|cbn; lia]|].
      destruct (byte_eqb b "/"); [destruct i; [apply IH in H; [lia|cbn; lia]|injection H as <- <-; cbn; lia]|].
      destruct (byte_eqb b "\").
      - destruct r as [|c1 r]; [discriminate|]. destruct (byte_eqb c1 x00); [injection H as <- <-; cbn; lia|]. apply IH in H; [lia|cbn; lia].
      - destruct (byte_eqb b x0a); [injection H as <- <-; cbn; lia|]. apply IH in H; [lia|cbn; lia]. }
    apply G in Hk. destruct k.
    - ob Hr as lx2 Hs Hv. injection Hv as <- <-. unfold skip_while in Hs. ob Hs as c2 Hc Hz. injection Hz as <-. apply scan_while_adv, fwd_pos in Hc. cbn in *. lia.
    - injection Hr as <- <-. exact Hk.
    - injection Hr as <- <-. exact Hk.
  Qed.
  Lemma regex_hv lx : hv lx -> lx_token lx = T_OperatorDivision ->
    outcome_ok (fun r => hv (snd r) /\ meas (snd r) < meas lx) (read_regular_expression lx).
  Proof.
    intros [R Ti Hb Hs] Ek. assert (U := reach_uinv alnum src valid _ R). assert (Iv := u_inv _ _ U). assert (O := li_ok _ _ Iv).
    destruct (outcome_cases (read_regular_expression lx)) as [[[v lx'] H]|N].
    - rewrite H. cbn. assert (R' : lexer_reach alnum src lx') by (eapply lr_regex; eauto).
      assert (Z := regex_token _ _ _ H). assert (P := regex_moves _ _ _ H). assert (Iv' := lexer_reach_inv _ _ _ R'). assert (L' := lex_inv_pos _ _ Iv').
      assert (K : lx_token lx' = T_UnexpectedEndOfProgram \/ lx_token lx' = T_UnexpectedToken \/ lx_token lx' = T_LiteralRegEx).
      { clear - H. unfold read_regular_expression in H. odone H. destruct a as [[| |] c]; oinv; auto. }
      split.
      + constructor; [exact R'| |intuition congruence|eapply vi_regex; eauto]. constructor; cbn [view_of v_token v_text]; intros E; [intuition congruence|split; intuition congruence].
      + rewrite !meas_live by (intuition congruence). lia.
    - destruct (brace_suffix lx _ Iv O (tx_div _ (u_text _ _ U) Ek)) as (a & s & Er & Es). unfold read_regular_expression in N |- *. cbv zeta in N |- *. rewrite Er in N |- *.
      destruct (outcome_cases (scan_regex false (pos (lx_cur lx)) (s ++ [x00]))) as [[[k c] E]|E].
      { rewrite E in N. cbn [obind] in N. destruct N. destruct k; try apply fine_done.
        assert (F : fine (skip_while is_regex_flag (set_cur c lx))).
        { apply skip_fine; [reflexivity|]. assert (O' : ends (s ++ [x00])) by (exists s; reflexivity). destruct (scan_regex_fwd _ _ _ _ _ O' E) as [[s1 [F _]] Nn]. unfold ok. cbn [set_cur lx_cur].
          cbn [rem] in F. rewrite F in O'. now apply ends_suffix in O'. }
        destruct F as [lx2 ->]. apply fine_done. }
      destruct (regex_bad _ _ _ E) as [T ->]. cbn. exists a, ("/"%byte :: s). split; [exact Es|]. now apply rp_regex.
  Qed.
  Lemma error_hv s : hv (p_lexer s) -> outcome_ok (fun s' => hv (p_lexer s') /\ smaller (p_lexer s) (p_lexer s')) (op_error alnum s).
  Proof.
    intros H. unfold op_error, invalid_token. destruct (token_eq_dec (lx_token (p_lexer s)) T_EndOfProgram) as [E|N].
    - rewrite E. cbn. split; [exact H|]. right. split; [lia|]. intros L. now destruct L.
    - assert (G : outcome_ok (fun s' => hv (p_lexer s') /\ smaller (p_lexer s) (p_lexer s'))
        ('(e, lx) <~ (lx' <~ consume alnum (p_lexer s) ;; Done (Error (lx_token (p_lexer s)) (token_as_str (p_lexer s)) (pos (lx_tok (p_lexer s))) (pos (lx_cur (p_lexer s))), lx')) ;; Done (PState lx (p_errors s ++ [e])))).
      { assert (C := consume_hv _ H). destruct (consume alnum (p_lexer s)); cbn in *; exact C. }
      destruct (lx_token (p_lexer s)); try exact G. now destruct N.
  Qed.
  Lemma consume_op s : hv (p_lexer s) -> outcome_ok (fun s' => hv (p_lexer s') /\ smaller (p_lexer s) (p_lexer s')) (op_consume alnum s).
  Proof. intros H. unfold op_consume. assert (C := consume_hv _ H). destruct (consume alnum (p_lexer s)); cbn in *; exact C. Qed.
  Lemma template_op s : hv (p_lexer s) -> tp = true -> lx_token (p_lexer s) = T_BraceClose ->
    outcome_ok (fun s' => hv (p_lexer s') /\ meas (p_lexer s') < meas (p_lexer s)) (op_template s).
  Proof. intros H Et E. unfold op_template. assert (C := template_hv _ H Et E). destruct (read_template_kind (p_lexer s)); cbn in *; exact C. Qed.
  Lemma regex_op s : hv (p_lexer s) -> lx_token (p_lexer s) = T_OperatorDivision ->
    outcome_ok (fun r => hv (p_lexer (snd r)) /\ meas (p_lexer (snd r)) < meas (p_lexer s)) (op_regex s).
  Proof. intros H E. unfold op_regex. assert (C := regex_hv _ H E). destruct (read_regular_expression (p_lexer s)) as [[v lx]| | |]; cbn in *; exact C. Qed.

  (** ** Runs *)
  Definition run_ok {A} (o : outcome (A * pstate)) : Prop :=
    match o with Done (_, s) => hv (p_lexer s) | ReadPastEnd => may_read_past src | Panicked => may_panic src | OutOfFuel => True end.
  Lemma safe_run n : forall A v (p : P A), U tp v p -> forall s, hv (p_lexer s) -> view_of (p_lexer s) = v -> run_ok (run alnum body n p s).
  Proof.
    induction n as [n IHn] using lt_wf_ind. intros A v p Hu.
    induction Hu as [v a|v p Hp IH|v p Hp IH|v p Ht Hv Hp IH|v p Hv Hp IH|v p Hp IH|v R f p Hf Hp IH]; intros s Hs E.
    - rewrite run_Ret. exact Hs.
    - rewrite run_Look, E. now apply IH.
    - rewrite run_Consume. assert (G := consume_op s Hs). destruct (op_consume alnum s) as [s'| | |]; cbn [obind run_ok] in *; try exact G; try exact I.
      destruct G as [G _]. apply (IH _ (h_tinv _ G)); auto.
    - rewrite run_Template. subst v. assert (G := template_op s Hs Ht Hv). destruct (op_template s) as [s'| | |]; cbn [obind run_ok] in *; try exact G; try exact I.
      destruct G as [G _]. apply (IH _ (h_tinv _ G)); auto.
    - rewrite run_Regex. subst v. assert (G := regex_op s Hs Hv). destruct (op_regex s) as [[w s']| | |]; cbn [obind run_ok snd] in *; try exact G; try exact I.
      destruct G as [G _]. apply (IH w _ (h_tinv _ G)); auto.
    - rewrite run_Error. assert (G := error_hv s Hs). destruct (op_error alnum s) as [s'| | |]; cbn [obind run_ok] in *; try exact G; try exact I.
      destruct G as [G _]. apply (IH _ (h_tinv _ G)); auto.
    - destruct n as [|n]; [rewrite run_Call0; exact I|]. rewrite run_CallS.
      assert (Hi : tinv tp v) by (subst v; apply Hs).
      assert (G := IHn n (Nat.lt_succ_diag_r n) R v (body R f) (body_safe tp R f v Hi Hf) s Hs E).
      destruct (run alnum body n (body R f) s) as [[r s']| | |]; cbn [obind run_ok] in *; try exact G; try exact I.
      apply (IH r _ (h_tinv _ G)); auto.
  Qed.

  Definition ends_ok {A} (Q : nat -> Prop) (o : outcome (A * pstate)) : Prop :=
    match o with Done (_, s) => hv (p_lexer s) /\ Q (meas (p_lexer s)) | OutOfFuel => False | _ => True end.
  Definition tot {A} (p : P A) (s : pstate) (Q : nat -> Prop) : Prop :=
    may_loop alnum src \/ exists n, ends_ok Q (run alnum body n p s).
  Definition method_ends (R : Set) (f : fn R) (k r : nat) : Prop :=
    forall s, hv (p_lexer s) -> meas (p_lexer s) <= k -> rank f <= r -> tpre tp f (view_of (p_lexer s)) ->
      tot (body R f) s (tpost f (view_of (p_lexer s)) (meas (p_lexer s))).

  Lemma ends_ok_fuel {A} Q (o : outcome (A * pstate)) : ends_ok Q o -> o <> OutOfFuel.
  Proof. intros H ->. exact H. Qed.
  Lemma switch_loops lx : hv lx -> lx_token lx = T_Switch -> may_loop alnum src.
  Proof.
    intros H E. left. exists lx. split; [apply (h_visited _ H)|exact E].
  Qed.
  Lemma visited_reach lx : visited alnum src lx -> lexer_reach alnum src lx.
  Proof. induction 1; [now apply lr_new|eapply lr_consume; eauto|eapply lr_template; eauto|eapply lr_regex; eauto]. Qed.
  Lemma switch_text lx : lexer_reach alnum src lx -> lx_token lx = T_Switch -> exists a r, src = a ++ bs "switch" ++ r.
  Proof.
    intros R E. assert (Iv := lexer_reach_inv _ _ _ R). assert (T : token_as_str lx = bs "switch").
    { induction R as [lx C|lx lx1 R IH C|lx lx1 R IH C|lx v lx1 R IH C].
      - eapply consume_switch; [|exact C|exact E]. apply (li_ok _ _ (init_inv src)).
      - eapply consume_switch; [|exact C|exact E]. apply (li_ok _ _ (lexer_reach_inv _ _ _ R)).
      - exfalso. assert (Z := template_token _ _ C). intuition congruence.
      - exfalso. clear - C E. unfold read_regular_expression in C. odone C. destruct a as [[| |] c]; oinv; discriminate. }
    rewrite (token_text _ _ Iv) in T.
    exists (firstn (pos (lx_tok lx)) src), (skipn (pos (lx_cur lx) - pos (lx_tok lx)) (skipn (pos (lx_tok lx)) src)).
    rewrite <- T, firstn_skipn, firstn_skipn. reflexivity.
  Qed.
  Lemma T_run k0 r0 :
    (forall (R : Set) (f : fn R) s, before (meas (p_lexer s)) (rank f) k0 r0 -> hv (p_lexer s) -> tpre tp f (view_of (p_lexer s)) ->
       tot (body R f) s (tpost f (view_of (p_lexer s)) (meas (p_lexer s)))) ->
    forall A (Q : nat -> Prop) v k (p : P A), T tp k0 r0 Q v k p ->
    forall s, hv (p_lexer s) -> view_of (p_lexer s) = v -> meas (p_lexer s) = k -> tot p s Q.
  Proof.
    intros Hm A Q v k p Ht.
    induction Ht as [v k p Hs|v k a Hq|v k p Hp IH|v k p Hp IH|v k p Htp Hv Hp IH|v k p Hv Hp IH|v k p Hp IH|v k R f p Hf Hb Hp IH]; intros s Hs' Ev Ek.
    - left. subst v. eapply switch_loops; eauto.
    - right. exists 0. rewrite run_Ret. cbn. subst k. auto.
    - destruct (IH s Hs' Ev Ek) as [L|[n G]]; [now left|]. right. exists n. now rewrite run_Look, Ev.
    - assert (G := consume_op s Hs'). destruct (op_consume alnum s) as [s'| | |] eqn:E.
      2,3: right; exists 0; rewrite run_Consume, E; exact I. 2: destruct G.
      destruct G as [G [L|[L1 L2]]]; [now left|]. subst v k.
      destruct (IH _ _ (h_tinv _ G) L1 L2 s' G eq_refl eq_refl) as [L|[n X]]; [now left|]. right. exists n. rewrite run_Consume, E. exact X.
    - subst v k. assert (G := template_op s Hs' Htp Hv). destruct (op_template s) as [s'| | |] eqn:E.
      2,3: right; exists 0; rewrite run_Template, E; exact I. 2: destruct G.
      destruct G as [G L1].
      destruct (IH _ _ (h_tinv _ G) L1 s' G eq_refl eq_refl) as [L|[n X]]; [now left|]. right. exists n. rewrite run_Template, E. exact X.
    - subst v k. assert (G := regex_op s Hs' Hv). destruct (op_regex s) as [[w s']| | |] eqn:E.
      2,3: right; exists 0; rewrite run_Regex, E; exact I. 2: destruct G.
      destruct G as [G L1]. cbn [snd] in *.
      destruct (IH w _ _ (h_tinv _ G) L1 s' G eq_refl eq_refl) as [L|[n X]]; [now left|]. right. exists n. rewrite run_Regex, E. exact X.
    - assert (G := error_hv s Hs'). destruct (op_error alnum s) as [s'| | |] eqn:E.
      2,3: right; exists 0; rewrite run_Error, E; exact I. 2: destruct G.
      destruct G as [G [L|[L1 L2]]]; [now left|]. subst v k.
      destruct (IH _ _ (h_tinv _ G) L1 L2 s' G eq_refl eq_refl) as [L|[n X]]; [now left|]. right. exists n. rewrite run_Error, E. exact X.
    - subst v k. destruct (Hm R f s Hb Hs' Hf) as [L|[n X]]; [now left|].
      destruct (run alnum body n (body R f) s) as [[r s']| | |] eqn:E; cbn [ends_ok] in X.
      4: destruct X.
      2,3: right; exists (S n); rewrite run_CallS, E; exact I.
      destruct X as [G Pq]. destruct (IH r _ _ (h_tinv _ G) Pq s' G eq_refl eq_refl) as [L|[n2 X]]; [now left|]. right. exists (S (n + n2)). rewrite run_CallS.
      assert (E1 : run alnum body (n + n2) (body R f) s = Done (r, s')) by (eapply run_more; [|exact E|discriminate]; lia). rewrite E1. cbn [obind].
      assert (E2 : run alnum body (S (n + n2)) (p r) s' = run alnum body n2 (p r) s') by (eapply run_more; [|reflexivity|exact (ends_ok_fuel _ _ X)]; lia). rewrite E2. exact X.
  Qed.
  Lemma methods_end k : forall r (R : Set) (f : fn R) s, hv (p_lexer s) -> meas (p_lexer s) <= k -> rank f <= r -> tpre tp f (view_of (p_lexer s)) ->
      tot (body R f) s (tpost f (view_of (p_lexer s)) (meas (p_lexer s))).
  Proof.
    induction k as [k IHk] using lt_wf_ind. induction r as [r IHr] using lt_wf_ind. intros R f s Hs Hk Hr Hp.
    eapply (T_run (meas (p_lexer s)) (rank f)); [|exact (body_returns tp R f _ (meas (p_lexer s)) (h_tinv _ Hs) Hp)|exact Hs|reflexivity|reflexivity].
    intros R1 f1 s1 Hb Hs1 Hp1. destruct Hb as [L|[L1 L2]].
    - apply (IHk (meas (p_lexer s1))) with (r := rank f1); auto; lia.
    - apply (IHr (rank f1)); auto; lia.
  Qed.

  Lemma parse_outcomes n : match parse_fuel alnum n src with ReadPastEnd => may_read_past src | Panicked => may_panic src | _ => True end.
  Proof.
    unfold parse_fuel. assert (N := consume_outcome alnum src valid _ (init_inv src) (init_bd src valid)). fold (lexer_new alnum src) in N.
    destruct (lexer_new alnum src) as [lx| | |] eqn:E; cbn [obind HazardFacts.outcome_ok] in *; try exact N; try exact I.
    assert (H : hv lx) by (eapply hv_consumed; [apply init_inv|exact E|now apply lr_new|now apply vi_new]).
    assert (G := safe_run n _ _ _ (body_safe tp _ F_parse _ (h_tinv _ H) I) (PState lx []) H eq_refl).
    destruct (run alnum body n (body _ F_parse) (PState lx [])) as [[m s]| | |]; cbn [obind run_ok] in *; try exact G; exact I.
  Qed.
  Lemma parse_ends : may_loop alnum src \/ exists n, parse_fuel alnum n src <> OutOfFuel.
  Proof.
    unfold parse_fuel. assert (N := consume_outcome alnum src valid _ (init_inv src) (init_bd src valid)). fold (lexer_new alnum src) in N.
    destruct (lexer_new alnum src) as [lx| | |] eqn:E; cbn [obind HazardFacts.outcome_ok] in *.
    2,3: right; exists 0; discriminate. 2: destruct N.
    assert (H : hv lx) by (eapply hv_consumed; [apply init_inv|exact E|now apply lr_new|now apply vi_new]).
    destruct (methods_end (meas lx) (rank F_parse) _ F_parse (PState lx []) H (le_n _) (le_n _) I) as [L|[n G]]; [now left|].
    right. exists n. destruct (run alnum body n (body _ F_parse) (PState lx [])) as [[m s]| | |]; cbn [obind ends_ok] in *; try discriminate. destruct G.
  Qed.
  Lemma parse_returns : (exists r, parses_to alnum src r) \/ may_loop alnum src \/ may_read_past src \/ may_panic src.
  Proof.
    destruct parse_ends as [L|[n N]]; [auto|]. assert (G := parse_outcomes n). destruct (parse_fuel alnum n src) as [r| | |] eqn:E; try tauto.
    left. exists r, n. exact E.
  Qed.
End Source.
