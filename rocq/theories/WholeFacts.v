(** [parse] reads the whole source, up to a NUL; and what follows a NUL does not matter. *)
From Coq Require Import List NArith Bool Lia Arith String.
From Coq.Strings Require Import Byte.
From Verif Require Import Bytes Token Tables Lexer Ast Prog Parser SpecLexer SpecRead SpecTrace LexerFacts ConsumeFacts ProgFacts LexEval StateFacts LexProps TokenText Local LocalLex LocalConsume Erase TraceFacts GapSim.
Import ListNotations.
Open Scope nat_scope.
Open Scope list_scope.

Section Whole.
  Variables (alnum : N -> bool) (src : str).
  Notation trun := (trun alnum body).
  Definition winv (lx : lexer) : Prop := lex_inv src lx /\ (lx_token lx = T_EndOfProgram -> exists r, rem (lx_cur lx) = x00 :: r).
  Lemma winv_consume lx lx1 : lex_inv src lx -> consume alnum lx = Done lx1 -> winv lx1.
  Proof.
    intros I E. destruct (consume_inv _ _ _ _ I E) as (I1 & _ & D). split; [exact I1|]. intros T. destruct D as [D1 D2|[r D1] D2 D3 D4|b r c n D1 D2 D3 D4 D5 D6]; try congruence. exists r. rewrite (li_eop _ _ I1 T). exact D1.
  Qed.
  Lemma follows_consume lx lx1 : lex_inv src lx -> consume alnum lx = Done lx1 -> follows src (spot_of lx) (spot_of lx1) /\ winv lx1.
  Proof.
    intros I E. destruct (consume_inv _ _ _ _ I E) as (I1 & _). destruct (consume_gap _ _ _ _ I E) as [L G]. assert (L1 := lex_inv_tok_pos _ _ I1). assert (L2 := lex_inv_pos _ _ I1). split; [|exact (winv_consume _ _ I E)].
    split; [cbn; lia|]. right. split; [exact L|exact G].
  Qed.
  Lemma follows_step lx lx1 : lex_inv src lx -> step lx lx1 -> lx_token lx1 <> T_EndOfProgram -> follows src (spot_of lx) (spot_of lx1) /\ winv lx1.
  Proof.
    intros I E N. assert (I1 := step_inv _ _ _ I E N). destruct E as [[KB KT KF KA] _]. assert (L1 := lex_inv_tok_pos _ _ I1). assert (L2 := lex_inv_pos _ _ I1). split; [|split; [exact I1|congruence]]. split; [cbn; lia|]. left.
    apply fwd_pos in KF. unfold s_start, s_end, spot_of. cbn [fst snd]. rewrite KT. auto.
  Qed.
  Lemma follows_refl lx : lex_inv src lx -> follows src (spot_of lx) (spot_of lx).
  Proof. intros I. assert (L1 := lex_inv_tok_pos _ _ I). assert (L2 := lex_inv_pos _ _ I). split; [cbn; lia|]. left. auto. Qed.
  Lemma run_follows n : forall A (p : P A) s a s1 l, trun n p s = Done (a, s1, l) -> winv (p_lexer s) -> chain (follows src) (spot_of (p_lexer s)) l /\ winv (p_lexer s1).
  Proof.
    induction n as [|n IHn]; intros A p;
    induction p as [a0|k IH|k IH|k IH|k IH|k IH| |T f k IH]; intros s a s1 l H I.
    all: rewrite ?trun_Ret, ?trun_Look, ?trun_Consume, ?trun_Template, ?trun_Regex, ?trun_Error, ?trun_Abort, ?trun_Call0, ?trun_CallS in H; try discriminate H.
    all: try (injection H as <- <- <-; split; [exact Logic.I|exact I]).
    all: try (eapply IH; eauto; fail).
    all: try (ob H as s2 H1 H2; ob H2 as [[b s3] l2] H3 H4; injection H4 as <- <- <-; unfold op_consume in H1; ob H1 as lx1 H5 H6; injection H6 as <-; destruct (follows_consume _ _ (proj1 I) H5) as [X1 X2];
      destruct (IH _ _ _ _ H3 X2) as [X3 X4]; split; [split; [exact X1|exact X3]|exact X4]).
    all: try (ob H as s2 H1 H2; ob H2 as [[b s3] l2] H3 H4; injection H4 as <- <- <-; unfold op_template in H1; ob H1 as lx1 H5 H6; injection H6 as <-; assert (Z := template_token _ _ H5); apply template_step in H5; [|apply (proj1 I)];
      destruct (follows_step _ _ (proj1 I) H5 ltac:(intuition congruence)) as [X1 X2]; destruct (IH _ _ _ _ H3 X2) as [X3 X4]; split; [split; [exact X1|exact X3]|exact X4]).
    all: try (ob H as [w s2] H1 H2; ob H2 as [[b s3] l2] H3 H4; injection H4 as <- <- <-; unfold op_regex in H1; ob H1 as [w1 lx1] H5 H6; injection H6 as <- <-; assert (Z := regex_token _ _ _ H5); apply regex_step in H5; [|apply (proj1 I)];
      destruct (follows_step _ _ (proj1 I) H5 Z) as [X1 X2]; destruct (IH _ _ _ _ _ H3 X2) as [X3 X4]; split; [split; [exact X1|exact X3]|exact X4]).
    all: try (ob H as s2 H1 H2; ob H2 as [[b s3] l2] H3 H4; injection H4 as <- <- <-; unfold op_error, invalid_token in H1; ob H1 as [e lx1] H5 H6; injection H6 as <-;
      assert (X : follows src (spot_of (p_lexer s)) (spot_of lx1) /\ winv lx1)
        by (destruct (lx_token (p_lexer s)); try (ob H5 as lx2 H7 H8; injection H8 as _ <-; exact (follows_consume _ _ (proj1 I) H7)); injection H5 as _ <-; split; [apply follows_refl, I|exact I]);
      destruct X as [X1 X2]; destruct (IH _ _ _ _ H3 X2) as [X3 X4]; split; [split; [exact X1|exact X3]|exact X4]).
    ob H as [[r s2] l1] H1 H2. ob H2 as [[b s3] l2] H3 H4. injection H4 as <- <- <-. destruct (IHn _ _ _ _ _ _ H1 I) as [X1 X2]. destruct (IH _ _ _ _ _ H3 X2) as [X3 X4]. split; [|exact X4].
    assert (La : last l1 (spot_of (p_lexer s)) = spot_of (p_lexer s2)). { rewrite <- full_sound in H1. exact (trun0_last _ _ _ _ _ _ _ _ _ _ H1). }
    rewrite <- La in X3. clear - X1 X3. revert X1 X3. generalize (spot_of (p_lexer s)). induction l1 as [|y l1 IHl]; intros x X1 X3; [exact X3|]. destruct X1 as [X1 X2]. split; [exact X1|]. apply IHl; [exact X2|]. now rewrite last_cons in X3.
  Qed.
  Lemma parse_ends n : forall s m s1, run alnum body n (body _ F_parse) s = Done (m, s1) -> lx_token (p_lexer s1) = T_EndOfProgram.
  Proof.
    induction n as [|n IH]; intros s m s1 H; cbn [body] in H; unfold body_parse, look, call in H; cbn [bind] in H; rewrite run_Look in H;
      destruct (is T_EndOfProgram (view_of (p_lexer s))) eqn:E; try (rewrite run_Ret in H; injection H as _ <-; exact (is_eq _ _ E)).
    - discriminate H.
    - rewrite run_CallS in H. ob H as [x s2] H1 H2. rewrite run_CallS in H2. ob H2 as [y s3] H3 H4. rewrite run_Ret in H4. injection H4 as _ <-. exact (IH _ _ _ H3).
  Qed.
  Lemma chain_adjacent l : forall x, chain (follows src) x l -> adjacent src (x :: l).
  Proof. induction l as [|y l IH]; intros x H; [constructor|]. destruct H as [H1 H2]. constructor; auto. Qed.
  Lemma whole r l : parse_tokens alnum src r l -> accounts src l.
  Proof.
    intros (n & lx & m & s & l1 & E & T & _ & ->). unfold lexer_new in E. destruct (consume_gap _ _ _ _ (init_inv src) E) as [_ G]. assert (I := winv_consume _ _ (init_inv src) E).
    destruct (run_follows n _ _ _ _ _ _ T I) as [C [I1 N1]]. cbn [p_lexer] in *. constructor.
    - exists (spot_of lx), l1. split; [reflexivity|exact G].
    - now apply chain_adjacent.
    - destruct (exists_last (l := spot_of lx :: l1) ltac:(discriminate)) as (l0 & x & X). exists l0, x. split; [exact X|].
      assert (La : last l1 (spot_of lx) = spot_of (p_lexer s)). { rewrite <- full_sound in T. exact (trun0_last _ _ _ _ _ _ _ _ _ _ T). }
      rewrite <- (last_cons l1 (spot_of lx) (spot_of lx)), X, last_last in La. subst x. assert (Te : lx_token (p_lexer s) = T_EndOfProgram). { apply (parse_ends n (PState lx []) m). rewrite trun_run, T. reflexivity. }
      assert (Z := li_eop _ _ I1 Te). unfold s_token, s_start, s_end, spot_of. cbn [fst snd]. rewrite Z. split; [exact Te|]. split; [reflexivity|]. split; [rewrite <- Z; exact (lex_inv_pos _ _ I1)|].
      destruct (N1 Te) as (t & Et). exists t. rewrite <- Et, <- Z, <- (li_buf _ _ I1). symmetry. apply on_skip, I1.
  Qed.
End Whole.

(** ** What follows a NUL *)
Section Nul.
  Variables (alnum : N -> bool) (a b : str).
  Notation u := [x00].
  Notation u' := (x00 :: b ++ [x00]).
  Notation src' := (a ++ x00 :: b).
  Record Same (lx lx' : lexer) : Prop := { sm_l : lex_inv a lx; sm_r : lex_inv src' lx'; sm_rel : erel (True, True, True) u u' 0 0 lx lx' }.
  Lemma crel_pos c c' : crel u u' 0 0 c c' -> pos c' = pos c.
  Proof. intros (t & _ & _ & Q). lia. Qed.
  Lemma Same_view lx lx' : Same lx lx' -> view_of lx' = view_of lx.
  Proof.
    intros [I I' [[R1 R2 R3 R4 R5] Rt _]]. assert (R := ERel (True, True, True) u u' 0 0 lx lx' (HRel _ _ _ _ _ _ _ R1 R2 R3 R4 R5) Rt (fun _ => R5 Logic.I)). unfold view_of, lx_start, lx_end. rewrite Rt, (R3 Logic.I), (R4 Logic.I), (crel_pos _ _ R1), (crel_pos _ _ R2), (rel_text _ _ _ _ _ _ _ _ I R). f_equal.
    destruct (fwd_size _ _ (li_afwd _ _ I)) as [Q1 Q2]. exact (slice_rel u u' 0 0 _ _ _ _ (R5 Logic.I) R1 Q1 Q2).
  Qed.
  Lemma heads_u : heads u u'. Proof. left. now apply looks_same. Qed.
  Lemma calm_u t : calm u u' t. Proof. left. now apply looks_same. Qed.
  Lemma u_size lx : lex_inv a lx -> List.length u <= size lx.
  Proof. intros I. destruct (li_ok _ _ I) as (s & Es). rewrite Es, app_length. cbn. lia. Qed.
  Lemma Same_consume lx lx' lx1 : lex_inv a lx -> lex_inv src' lx' -> hrel (True, True, True) u u' 0 0 lx lx' -> consume alnum lx = Done lx1 -> exists lx1', consume alnum lx' = Done lx1' /\ Same lx1 lx1'.
  Proof.
    intros I I' R E. destruct (consume_inv _ _ _ _ I E) as (J1 & _). destruct (loc_consume alnum _ _ E) as [_ K]. destruct (K (True, True, True) u u' 0 0 lx' heads_u R (u_size _ J1) (fun _ => calm_u _)) as (lx1' & E' & R1).
    exists lx1'. split; [exact E'|]. split; [exact J1|exact (proj1 (consume_inv _ _ _ _ I' E'))|exact R1].
  Qed.
  Lemma slice_prefix k q (x y : str) : q <= List.length a -> firstn (q - k) (skipn k (a ++ x)) = firstn (q - k) (skipn k (a ++ y)).
  Proof. intros L. rewrite !skipn_app, !firstn_app, !skipn_length. replace (q - k - (List.length a - k)) with 0 by lia. reflexivity. Qed.
  Lemma nul_ignored r l : parse_tokens alnum a r l -> parses_to alnum src' r.
  Proof.
    intros (n & lx & m & s & l1 & E & T & -> & ->). unfold lexer_new in E.
    destruct (Same_consume (lexer_init (nul_terminated a)) (lexer_init (nul_terminated src')) lx (init_inv _) (init_inv _)) as (lx' & E' & S1); [|exact E|].
    { assert (X : crel u u' 0 0 (Cur 0 (nul_terminated a)) (Cur 0 (nul_terminated src'))). { exists a. unfold nul_terminated. cbn [rem pos]. rewrite <- app_assoc. auto. } constructor; cbn [lexer_init lx_cur lx_tok lx_acc]; auto. }
    rewrite <- full_sound in T.
    destruct (both_run (fun v => v) (fun _ => true) alnum Same (fun _ _ => True) eq Same_view) with (n := n) (A := module) (p := body _ F_parse) (s := PState lx []) (s' := PState lx' []) (a := m) (s1 := s) (l := l1) as (s' & l' & T' & B1 & B2).
    - intros x x' H. exact (f_equal v_token (Same_view _ _ H)).
    - intros x x' H. assert (V := Same_view _ _ H). rewrite (f_equal v_token V : lx_token x' = lx_token x), (f_equal v_text V : token_as_str x' = token_as_str x). destruct H as [_ _ [[R1 R2 _ _ _] _ _]]. now rewrite (crel_pos _ _ R1), (crel_pos _ _ R2).
    - intros x x' x1 [I I' R] Ex _. apply (Same_consume x x' x1 I I' (er_rel _ _ _ _ _ _ _ R) Ex).
    - intros x x' x1 [I I' R] Ex _. destruct (template_inv _ _ _ I Ex) as (J1 & _). destruct (loc_template _ _ Ex) as [_ K]. destruct (K (True, True, True) u u' 0 0 x' heads_u (er_rel _ _ _ _ _ _ _ R) (u_size _ J1) (fun _ => calm_u _)) as (x1' & Ex' & R1).
      exists x1'. split; [exact Ex'|]. split; [exact J1|exact (proj1 (template_inv _ _ _ I' Ex'))|exact R1].
    - intros x x' v x1 [I I' R] _ Ex _. destruct (regex_inv _ _ _ _ I Ex) as (J1 & _). destruct (loc_regex _ _ _ Ex) as [_ K]. destruct (K (True, True, True) u u' 0 0 x' heads_u (er_rel _ _ _ _ _ _ _ R)) as (x1' & Ex' & R1).
      + intros q q' Q1 Q2 Q3. assert (Z := inv_size _ _ I). cbn [List.length] in Q3. assert (q' = q) as -> by lia. rewrite (crel_pos _ _ (hr_cur _ _ _ _ _ _ _ (er_rel _ _ _ _ _ _ _ R))), (li_buf _ _ I), (li_buf _ _ I'), <- app_assoc. apply slice_prefix. lia.
      + exact (u_size _ J1).
      + intros _. apply calm_u.
      + exists x1'. split; [exact Ex'|]. split; [exact J1|exact (proj1 (regex_inv _ _ _ _ I' Ex'))|exact R1].
    - split; [exact S1|constructor].
    - exact T.
    - clear. cbn [p_lexer]. generalize (spot_of lx). induction l1 as [|y l1 IH]; intros x; [exact Logic.I|]. split; [exact Logic.I|]. apply IH.
    - rewrite full_sound in T'. exists n. unfold parse_fuel, lexer_new. rewrite E'. cbn [obind]. rewrite trun_run, T'. cbn [omap fst obind]. assert (Ee : p_errors s' = p_errors s). { clear - B2. induction B2 as [|x y l l' E F IH]; [reflexivity|]. now rewrite IH, E. } rewrite Ee. reflexivity.
  Qed.
End Nul.
