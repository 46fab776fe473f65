(** The parser on two sources with a common beginning. *)
From Coq Require Import List NArith Bool Lia Arith String.
From Coq.Strings Require Import Byte.
From Verif Require Import Bytes Token Tables Lexer Ast Prog Parser SpecLexer SpecGap LexerFacts ConsumeFacts LexEval TokenText StateFacts LexProps ProgFacts ParseFacts Local LocalLex LocalConsume Cross GapSim Erase SpecSyntax SpecReading ConcatGram ConcatLex.
Import ListNotations.
Open Scope nat_scope.
Open Scope list_scope.

Lemma crel_sym u u' c c' : crel u u' 0 0 c c' -> crel u' u 0 0 c' c.
Proof. intros (t & A & B & C). exists t. split; [exact B|]. split; [exact A|lia]. Qed.
Lemma hrel_sym u u' lx lx' : hrel (True, True, True) u u' 0 0 lx lx' -> hrel (True, True, True) u' u 0 0 lx' lx.
Proof. intros [A B C D E]. constructor; [now apply crel_sym|now apply crel_sym|intros _; symmetry; now apply C|intros _; symmetry; now apply D|intros _; apply crel_sym; now apply E]. Qed.
Lemma crel_pos u u' c c' : crel u u' 0 0 c c' -> pos c' = pos c.
Proof. intros (t & _ & _ & C). lia. Qed.

(** Errors that end before [k]. *)
Definition near (k : nat) (es : list error) : list error := filter (fun e => Nat.leb (err_end e) k) es.
Lemma near_app k a b : near k (a ++ b) = near k a ++ near k b.
Proof. apply filter_app. Qed.

(** A run that has passed [k] adds no errors before it. *)
Lemma passed_run alnum src k n A (p : prog fn A) s x t : run alnum body n p s = Done (x, t) -> lex_inv src (p_lexer s) -> k < pos (lx_cur (p_lexer s)) ->
  lex_inv src (p_lexer t) /\ k < pos (lx_cur (p_lexer t)) /\ near k (p_errors t) = near k (p_errors s).
Proof.
  pose (R := fun s t : pstate => lex_inv src (p_lexer s) -> k < pos (lx_cur (p_lexer s)) -> lex_inv src (p_lexer t) /\ k < pos (lx_cur (p_lexer t)) /\ near k (p_errors t) = near k (p_errors s)).
  change (run alnum body n p s = Done (x, t) -> R s t). apply run_rel; unfold R; clear.
  - auto.
  - intros a b c H1 H2 I L. destruct (H1 I L) as (I1 & L1 & E1). destruct (H2 I1 L1) as (I2 & L2 & E2). split; [exact I2|]. split; [exact L2|congruence].
  - unfold op_consume. intros s t H I L. ob H as lx E Er. injection Er as <-. cbn [p_lexer p_errors]. destruct (consume_inv _ _ _ _ I E) as (J & F & _). apply fwd_pos in F. assert (Q := lex_inv_tok_pos _ _ J). split; [exact J|]. split; [lia|reflexivity].
  - unfold op_template. intros s t H I L. ob H as lx E Er. injection Er as <-. cbn [p_lexer p_errors]. destruct (template_inv _ _ _ I E) as (J & _). apply template_step in E; [|apply I]. destruct E as [[_ _ KF _] _]. apply fwd_pos in KF. split; [exact J|]. split; [lia|reflexivity].
  - unfold op_regex. intros s v t H I L. ob H as [w lx] E Er. injection Er as <- <-. cbn [p_lexer p_errors]. destruct (regex_inv _ _ _ _ I E) as (J & _). apply regex_step in E; [|apply I]. destruct E as [[_ _ KF _] _]. apply fwd_pos in KF. split; [exact J|]. split; [lia|reflexivity].
  - unfold op_error, invalid_token. intros s t H I L. ob H as [e lx] E Er. injection Er as <-. cbn [p_lexer p_errors].
    assert (G : e = Error (lx_token (p_lexer s)) (token_as_str (p_lexer s)) (pos (lx_tok (p_lexer s))) (pos (lx_cur (p_lexer s))) /\ (lx = p_lexer s \/ consume alnum (p_lexer s) = Done lx)).
    { cbv zeta in E. destruct (lx_token (p_lexer s)); try (ob E as l2 E1 E2; injection E2 as <- <-; auto). injection E as <- <-. auto. }
    destruct G as [-> G]. rewrite near_app. unfold near at 2. cbn [filter err_end]. destruct (Nat.leb_spec (pos (lx_cur (p_lexer s))) k); [lia|]. rewrite app_nil_r.
    destruct G as [-> |G]; [auto|]. destruct (consume_inv _ _ _ _ I G) as (J & F & _). apply fwd_pos in F. assert (Q := lex_inv_tok_pos _ _ J). split; [exact J|]. split; [lia|reflexivity].
Qed.

Section Common.
  Variables (alnum : N -> bool) (a : str) (c : byte) (b b' : str).
  Hypothesis Hc : (byte_val c < 128)%N.
  Notation u := (c :: b ++ [x00]).
  Notation u' := (c :: b' ++ [x00]).
  Notation src := (a ++ c :: b).
  Notation src' := (a ++ c :: b').
  Notation k := (List.length a).
  Definition Rel (lx lx' : lexer) : Prop := lex_inv src lx /\ lex_inv src' lx' /\ erel (True, True, True) u u' 0 0 lx lx'.
  Definition Out (lx lx' : lexer) : Prop := lex_inv src lx /\ lex_inv src' lx' /\ k < pos (lx_cur lx) /\ k < pos (lx_cur lx').
  Lemma same_heads : heads u u' /\ heads u' u.
  Proof. split; left; apply looks_same; exact Hc. Qed.
  Lemma calm_same t : calm u u' t /\ calm u' u t.
  Proof. split; left; apply looks_same; exact Hc. Qed.
  Lemma near_size lx : lex_inv src lx -> pos (lx_cur lx) <= k -> List.length u <= size lx.
  Proof. intros I L. apply inv_size in I. rewrite app_length in I. cbn [List.length] in *. rewrite app_length. cbn. lia. Qed.
  Lemma near_size' lx : lex_inv src' lx -> pos (lx_cur lx) <= k -> List.length u' <= size lx.
  Proof. intros I L. apply inv_size in I. rewrite app_length in I. cbn [List.length] in *. rewrite app_length. cbn. lia. Qed.
  Lemma step_both (F : lexer -> outcome lexer) lx lx' lx1 lx1' : loc F -> hrel (True, True, True) u u' 0 0 lx lx' -> F lx = Done lx1 -> F lx' = Done lx1' -> lex_inv src lx1 -> lex_inv src' lx1' ->
    Rel lx1 lx1' \/ Out lx1 lx1'.
  Proof.
    intros L R E E' I I'. destruct (Nat.le_gt_cases (pos (lx_cur lx1)) k) as [Q|Q].
    - destruct (L _ _ E) as [_ K]. destruct (K (True, True, True) u u' 0 0 lx' (proj1 same_heads) R (near_size _ I Q) (fun _ => proj1 (calm_same _))) as (x & Ex & Rx). rewrite E' in Ex. injection Ex as <-. left. split; [exact I|]. split; [exact I'|exact Rx].
    - destruct (Nat.le_gt_cases (pos (lx_cur lx1')) k) as [Q'|Q'].
      + destruct (L _ _ E') as [_ K]. destruct (K (True, True, True) u' u 0 0 lx (proj2 same_heads) (hrel_sym _ _ _ _ R) (near_size' _ I' Q') (fun _ => proj2 (calm_same _))) as (x & Ex & Rx). rewrite E in Ex. injection Ex as <-.
        assert (X := crel_pos _ _ _ _ (hr_cur _ _ _ _ _ _ _ (er_rel _ _ _ _ _ _ _ Rx))). lia.
      + right. repeat split; assumption || apply I || apply I'.
  Qed.
  Lemma buf_slice lx lx' q : lex_inv src lx -> lex_inv src' lx' -> q <= k -> forall i, firstn (q - i) (skipn i (lx_buf lx')) = firstn (q - i) (skipn i (lx_buf lx)).
  Proof.
    intros I I' Q i. rewrite (li_buf _ _ I), (li_buf _ _ I'), <- !app_assoc, !skipn_app, !firstn_app, skipn_length. replace (q - i - (k - i)) with 0 by lia. reflexivity.
  Qed.
  Lemma regex_both lx lx' v v' lx1 lx1' : Rel lx lx' -> read_regular_expression lx = Done (v, lx1) -> read_regular_expression lx' = Done (v', lx1') -> (v = v' /\ Rel lx1 lx1') \/ Out lx1 lx1'.
  Proof.
    intros (I & I' & [R _ _]) E E'. destruct (regex_inv _ _ _ _ I E) as (J & _). destruct (regex_inv _ _ _ _ I' E') as (J' & _). assert (P := crel_pos _ _ _ _ (hr_cur _ _ _ _ _ _ _ R)).
    assert (Bs := inv_size _ _ I). assert (Bs' := inv_size _ _ I'). rewrite app_length in Bs, Bs'. cbn [List.length] in Bs, Bs'.
    destruct (Nat.le_gt_cases (pos (lx_cur lx1)) k) as [Q|Q].
    - destruct (loc_regex _ _ _ E) as [_ K]. destruct (K (True, True, True) u u' 0 0 lx' (proj1 same_heads) R) as (x & Ex & Rx); [|apply near_size; auto|intros _; apply calm_same|].
      + intros q q' L1 L2 L3. assert (q' = q) by lia. subst q'. rewrite P. cbn [List.length] in L3. rewrite app_length in L3. cbn in L3. apply buf_slice; auto. lia.
      + rewrite E' in Ex. injection Ex as <- <-. left. split; [reflexivity|]. split; [exact J|]. split; [exact J'|exact Rx].
    - destruct (Nat.le_gt_cases (pos (lx_cur lx1')) k) as [Q'|Q'].
      + destruct (loc_regex _ _ _ E') as [_ K]. destruct (K (True, True, True) u' u 0 0 lx (proj2 same_heads) (hrel_sym _ _ _ _ R)) as (x & Ex & Rx); [|apply near_size'; auto|intros _; apply calm_same|].
        * intros q q' L1 L2 L3. assert (q' = q) by lia. subst q'. rewrite P. cbn [List.length] in L3. rewrite app_length in L3. cbn in L3. symmetry. apply buf_slice; auto. lia.
        * rewrite E in Ex. injection Ex as _ <-. assert (X := crel_pos _ _ _ _ (hr_cur _ _ _ _ _ _ _ (er_rel _ _ _ _ _ _ _ Rx))). lia.
      + right. split; [exact J|]. split; [exact J'|]. auto.
  Qed.
  Lemma Rel_view lx lx' : Rel lx lx' -> view_of lx' = view_of lx.
  Proof.
    intros (I & I' & R). assert (H := er_rel _ _ _ _ _ _ _ R). assert (P1 := crel_pos _ _ _ _ (hr_cur _ _ _ _ _ _ _ H)). assert (P2 := crel_pos _ _ _ _ (hr_tok _ _ _ _ _ _ _ H)).
    unfold view_of, lx_start, lx_end. rewrite P1, P2, (er_token _ _ _ _ _ _ _ R), (hr_asi _ _ _ _ _ _ _ H Logic.I), (hr_quasi _ _ _ _ _ _ _ H Logic.I), (rel_text _ _ _ _ _ _ _ _ I R). f_equal.
    destruct (fwd_size _ _ (li_afwd _ _ I)). eapply slice_rel; eauto; [apply (hr_acc _ _ _ _ _ _ _ H Logic.I)|apply H].
  Qed.
  Definition here (lx : lexer) : error := Error (lx_token lx) (token_as_str lx) (pos (lx_tok lx)) (pos (lx_cur lx)).
  Lemma Rel_here lx lx' : Rel lx lx' -> here lx' = here lx.
  Proof.
    intros H. assert (V := Rel_view _ _ H). destruct H as (I & I' & R). assert (H := er_rel _ _ _ _ _ _ _ R). assert (P1 := crel_pos _ _ _ _ (hr_cur _ _ _ _ _ _ _ H)). assert (P2 := crel_pos _ _ _ _ (hr_tok _ _ _ _ _ _ _ H)).
    unfold here. rewrite P1, P2. f_equal; [exact (f_equal v_token V)|exact (f_equal v_text V)].
  Qed.
  Definition RS (s s' : pstate) : Prop := Rel (p_lexer s) (p_lexer s') /\ p_errors s' = p_errors s.
  Definition OS (s s' : pstate) : Prop := Out (p_lexer s) (p_lexer s') /\ near k (p_errors s') = near k (p_errors s).
  Lemma RS_consume s s' t t' : RS s s' -> op_consume alnum s = Done t -> op_consume alnum s' = Done t' -> RS t t' \/ OS t t'.
  Proof.
    intros [(I & I' & R) Er] E E'. unfold op_consume in *. ob E as lx E1 E2. injection E2 as <-. ob E' as lx' E1' E2'. injection E2' as <-. unfold RS, OS. cbn [p_lexer p_errors].
    destruct (consume_inv _ _ _ _ I E1) as (J & _). destruct (consume_inv _ _ _ _ I' E1') as (J' & _).
    destruct (step_both _ _ _ _ _ (loc_consume alnum) (er_rel _ _ _ _ _ _ _ R) E1 E1' J J') as [X|X]; [left|right]; (split; [exact X|]); now rewrite Er.
  Qed.
  Lemma RS_template s s' t t' : RS s s' -> op_template s = Done t -> op_template s' = Done t' -> RS t t' \/ OS t t'.
  Proof.
    intros [(I & I' & R) Er] E E'. unfold op_template in *. ob E as lx E1 E2. injection E2 as <-. ob E' as lx' E1' E2'. injection E2' as <-. unfold RS, OS. cbn [p_lexer p_errors].
    destruct (template_inv _ _ _ I E1) as (J & _). destruct (template_inv _ _ _ I' E1') as (J' & _).
    destruct (step_both _ _ _ _ _ loc_template (er_rel _ _ _ _ _ _ _ R) E1 E1' J J') as [X|X]; [left|right]; (split; [exact X|]); now rewrite Er.
  Qed.
  Lemma RS_regex s s' v v' t t' : RS s s' -> op_regex s = Done (v, t) -> op_regex s' = Done (v', t') -> (v = v' /\ RS t t') \/ OS t t'.
  Proof.
    intros [R Er] E E'. unfold op_regex in *. ob E as [w lx] E1 E2. injection E2 as <- <-. ob E' as [w' lx'] E1' E2'. injection E2' as <- <-. unfold RS, OS. cbn [p_lexer p_errors].
    destruct (regex_both _ _ _ _ _ _ R E1 E1') as [[V X]|X]; [left; split; [exact V|]|right]; (split; [exact X|]); now rewrite Er.
  Qed.
  Lemma error_op s t : op_error alnum s = Done t -> p_errors t = p_errors s ++ [here (p_lexer s)] /\
    ((lx_token (p_lexer s) = T_EndOfProgram /\ p_lexer t = p_lexer s) \/ (lx_token (p_lexer s) <> T_EndOfProgram /\ consume alnum (p_lexer s) = Done (p_lexer t))).
  Proof.
    unfold op_error, invalid_token. intros H. ob H as [e lx] E Er. injection Er as <-. cbn [p_lexer p_errors]. cbv zeta in E. fold (here (p_lexer s)) in E.
    destruct (lx_token (p_lexer s)) eqn:T; try (ob E as l2 E1 E2; injection E2 as <- <-; split; [reflexivity|right; split; [discriminate|exact E1]]). injection E as <- <-. auto.
  Qed.
  Lemma RS_error s s' t t' : RS s s' -> op_error alnum s = Done t -> op_error alnum s' = Done t' -> RS t t' \/ OS t t'.
  Proof.
    intros [R Er] E E'. apply error_op in E as [Q D], E' as [Q' D']. assert (Et : p_errors t' = p_errors t) by (rewrite Q, Q', Er, (Rel_here _ _ R); reflexivity).
    assert (Tk : lx_token (p_lexer s') = lx_token (p_lexer s)) by exact (f_equal v_token (Rel_view _ _ R)). rewrite Tk in D'.
    destruct D as [[D1 D2]|[D1 D2]], D' as [[D3 D4]|[D3 D4]]; try congruence.
    - left. split; [now rewrite D2, D4|exact Et].
    - destruct R as (I & I' & R). destruct (consume_inv _ _ _ _ I D2) as (J & _). destruct (consume_inv _ _ _ _ I' D4) as (J' & _).
      destruct (step_both _ _ _ _ _ (loc_consume alnum) (er_rel _ _ _ _ _ _ _ R) D2 D4 J J') as [X|X]; [left|right]; (split; [exact X|]); now rewrite Et.
  Qed.
  Lemma OS_runs n A (p : prog fn A) s x t m B (q : prog fn B) s' y t' : OS s s' -> run alnum body n p s = Done (x, t) -> run alnum body m q s' = Done (y, t') -> OS t t'.
  Proof.
    intros [(I & I' & L & L') E] H H'. destruct (passed_run _ _ _ _ _ _ _ _ _ H I L) as (J & M & F). destruct (passed_run _ _ _ _ _ _ _ _ _ H' I' L') as (J' & M' & F').
    split; [split; [exact J|split; [exact J'|auto]]|congruence].
  Qed.
  Ltac eqs H := rewrite ?run_Ret, ?run_Look, ?run_Consume, ?run_Template, ?run_Regex, ?run_Error, ?run_Abort, ?run_Call0, ?run_CallS in H.
  Lemma common_run n : forall A (p : prog fn A) s s' x y t t', RS s s' -> run alnum body n p s = Done (x, t) -> run alnum body n p s' = Done (y, t') -> (x = y /\ RS t t') \/ OS t t'.
  Proof.
    induction n as [|n IHn]; intros A p; induction p as [a0|k0 IH|k0 IH|k0 IH|k0 IH|k0 IH| |T f k0 IH]; intros s s' x y t t' R H H'; eqs H; eqs H'.
    all: try discriminate H.
    all: try solve [injection H as <- <-; injection H' as <- <-; left; auto].
    all: try solve [rewrite (Rel_view _ _ (proj1 R)) in H'; eapply IH; eauto].
    all: ob H as u E1 E2; ob H' as u' E1' E2'.
    all: try solve [destruct (RS_consume _ _ _ _ R E1 E1') as [X|X]; [eapply IH; eauto|right; eapply OS_runs; eauto]].
    all: try solve [destruct (RS_template _ _ _ _ R E1 E1') as [X|X]; [eapply IH; eauto|right; eapply OS_runs; eauto]].
    all: try solve [destruct (RS_error _ _ _ _ R E1 E1') as [X|X]; [eapply IH; eauto|right; eapply OS_runs; eauto]].
    all: try solve [destruct u as [v u], u' as [v' u']; destruct (RS_regex _ _ _ _ _ _ R E1 E1') as [[-> X]|X]; [eapply IH; eauto|right; eapply OS_runs; eauto]].
    destruct u as [v u], u' as [v' u']. destruct (IHn _ _ _ _ _ _ _ _ R E1 E1') as [[-> X]|X]; [eapply IH; eauto|right; eapply OS_runs; eauto].
  Qed.
  Lemma init_rel : hrel (True, True, True) u u' 0 0 (lexer_init (nul_terminated src)) (lexer_init (nul_terminated src')).
  Proof.
    assert (X : crel u u' 0 0 (Cur 0 (nul_terminated src)) (Cur 0 (nul_terminated src'))).
    { exists a. unfold nul_terminated. cbn [rem pos]. rewrite <- !app_assoc. auto. }
    constructor; cbn [lexer_init lx_cur lx_tok lx_acc]; auto.
  Qed.
  Lemma common_parse n lx lx' m m' t t' : lexer_new alnum src = Done lx -> lexer_new alnum src' = Done lx' ->
    run alnum body n (body _ F_parse) (PState lx []) = Done (m, t) -> run alnum body n (body _ F_parse) (PState lx' []) = Done (m', t') -> near k (p_errors t') = near k (p_errors t).
  Proof.
    intros E E' H H'. unfold lexer_new in *. destruct (consume_inv _ _ _ _ (init_inv _) E) as (J & _). destruct (consume_inv _ _ _ _ (init_inv _) E') as (J' & _).
    destruct (step_both _ _ _ _ _ (loc_consume alnum) init_rel E E' J J') as [X|X].
    - destruct (common_run n _ _ (PState lx []) (PState lx' []) _ _ _ _ ltac:(split; [exact X|reflexivity]) H H') as [[_ [_ Q]]|[_ Q]]; [now rewrite Q|exact Q].
    - destruct (OS_runs _ _ _ (PState lx []) _ _ _ _ _ (PState lx' []) _ _ ltac:(split; [exact X|reflexivity]) H H') as [_ Q]. exact Q.
  Qed.
End Common.
Definition errors_of (r : parse_result) : list error := match r with ParseOk _ => [] | ParseErr es => es end.
Lemma errors_common alnum a c b b' r r' : (byte_val c < 128)%N -> parses_to alnum (a ++ c :: b) r -> parses_to alnum (a ++ c :: b') r' ->
  near (List.length a) (errors_of r') = near (List.length a) (errors_of r).
Proof.
  intros Hc [n1 H1] [n2 H2]. assert (G1 := parse_more _ _ _ _ _ (Nat.le_max_l n1 n2) H1 ltac:(discriminate)). assert (G2 := parse_more _ _ _ _ _ (Nat.le_max_r n1 n2) H2 ltac:(discriminate)).
  unfold parse_fuel in G1, G2. ob G1 as lx E1 F1. ob F1 as [m t] R1 Q1. ob G2 as lx' E2 F2. ob F2 as [m' t'] R2 Q2.
  assert (K := common_parse _ _ _ _ _ Hc _ _ _ _ _ _ _ E1 E2 R1 R2). injection Q1 as <-. injection Q2 as <-.
  destruct (p_errors t), (p_errors t'); exact K.
Qed.
