(** Two sources that differ in one gap are parsed alike. *)
From Coq Require Import List NArith Bool Lia Arith String.
From Coq.Strings Require Import Byte.
From Verif Require Import Bytes Token Tables Lexer Ast Prog Parser SpecLexer SpecGap SpecTrace LexerFacts ConsumeFacts LexEval StateFacts TokenText Local LocalLex LocalConsume Cross Erase TraceFacts.
Import ListNotations.
Open Scope nat_scope.
Open Scope list_scope.

Lemma inv_size src lx : lex_inv src lx -> pos (lx_cur lx) + size lx = S (List.length src).
Proof. intros I. destruct (li_cur _ _ I) as (pre & E & Q). apply (f_equal (@List.length _)) in E. rewrite (li_buf _ _ I), !app_length in E. cbn in E. lia. Qed.
Lemma slice_rel u u' d d' c e c' e' : crel u u' d d' c c' -> crel u u' d d' e e' -> pos c <= pos e -> pos e + List.length (rem e) = pos c + List.length (rem c) -> slice c' e' = slice c e.
Proof.
  intros (t & E1 & E2 & Q) (t2 & F1 & F2 & Q2) L H. unfold slice. rewrite E1, E2. rewrite E1, F1, !app_length in H. replace (pos e' - pos c') with (pos e - pos c) by lia.
  rewrite !firstn_app. replace (pos e - pos c - List.length t) with 0 by lia. reflexivity.
Qed.
Lemma fwd_size c e : fwd c e -> pos c <= pos e /\ pos e + List.length (rem e) = pos c + List.length (rem c).
Proof. intros (s & E & Q). rewrite E, app_length. lia. Qed.
Lemma rel_text P u u' d d' src lx lx' : lex_inv src lx -> erel P u u' d d' lx lx' -> token_as_str lx' = token_as_str lx.
Proof. intros I R. destruct (fwd_size _ _ (li_fwd _ _ I)). eapply slice_rel; eauto; apply (er_rel _ _ _ _ _ _ _ R). Qed.
Lemma rel_accessor P u u' d d' src lx lx' : lex_inv src lx -> erel P u u' d d' lx lx' -> lx_token lx = T_Accessor -> accessor_as_str lx' = accessor_as_str lx.
Proof. intros I R E. destruct (fwd_size _ _ (li_afwd _ _ I)). eapply slice_rel; eauto; [apply (er_acc _ _ _ _ _ _ _ R E)|apply (er_rel _ _ _ _ _ _ _ R)]. Qed.
Lemma rel_view (P : Prop * Prop * Prop) u u' d d' src lx lx' : snd (fst P) -> snd P -> lex_inv src lx -> erel P u u' d d' lx lx' -> zero (view_of lx') = zero (view_of lx).
Proof.
  intros HP HA I R. unfold zero, view_of. cbn [v_token v_asi v_text v_accessor v_quasi]. rewrite (er_token _ _ _ _ _ _ _ R), (hr_asi _ _ _ _ _ _ _ (er_rel _ _ _ _ _ _ _ R) HA), (hr_quasi _ _ _ _ _ _ _ (er_rel _ _ _ _ _ _ _ R) HP), (rel_text _ _ _ _ _ _ _ _ I R).
  f_equal. destruct (token_eqb (lx_token lx) T_Accessor) eqn:E; [|reflexivity]. apply token_eqb_eq in E. eapply rel_accessor; eauto.
Qed.
(** At a slash, the token is just the slash. *)
Definition sl (lx : lexer) : Prop := lx_token lx = T_OperatorDivision -> slashed lx.
Lemma on_skip buf c : on buf c -> rem c = skipn (pos c) buf.
Proof. intros (p & E & <-). rewrite E, skipn_app, skipn_all, Nat.sub_diag. reflexivity. Qed.
Lemma text_slash src lx : lex_inv src lx -> text_ok lx -> sl lx.
Proof.
  intros I T E. apply (tx_div _ T) in E. unfold token_as_str, slice in E. destruct (li_fwd _ _ I) as (s & Es & Q). rewrite Q, Es in E. replace (pos (lx_tok lx) + List.length s - pos (lx_tok lx)) with (List.length s + 0) in E by lia.
  rewrite firstn_app_2 in E. cbn [firstn] in E. rewrite app_nil_r in E. subst s. split; [|split; [apply on_skip, I|rewrite Es; discriminate]].
  destruct (lx_cur lx) as [p r], (lx_tok lx) as [p2 r2]. cbn in *. unfold cur_bump. cbn. rewrite Es, Q. cbn. f_equal. lia.
Qed.
Definition one (lx : lexer) : Prop := exists src, lex_inv src lx.

  Lemma template_inv s lx lx1 : lex_inv s lx -> read_template_kind lx = Done lx1 -> lex_inv s lx1 /\ lx_tok lx1 = lx_tok lx /\ sl lx1.
  Proof.
    intros I E. assert (Z := template_token _ _ E). assert (T := template_text _ _ E). apply template_step in E; [|apply I]. assert (I' := step_inv _ _ _ I E ltac:(intuition congruence)). destruct E as [[KB KT KF KA] _]. split; [exact I'|]. split; [exact KT|].
    eapply text_slash; eauto.
  Qed.
  Lemma regex_inv s lx v lx1 : lex_inv s lx -> read_regular_expression lx = Done (v, lx1) -> lex_inv s lx1 /\ lx_tok lx1 = lx_tok lx /\ sl lx1.
  Proof.
    intros I E. assert (Z := regex_token _ _ _ E). assert (T := regex_text _ _ _ E). apply regex_step in E; [|apply I]. assert (I' := step_inv _ _ _ I E Z). destruct E as [[KB KT KF KA] _]. split; [exact I'|]. split; [exact KT|].
    eapply text_slash; eauto.
  Qed.
Section Gap.
  Variables (alnum : N -> bool) (a g g' b : str).
  Notation b0 := (b ++ [x00]).
  Notation u := (g ++ b0).
  Notation u' := (g' ++ b0).
  Notation src := (a ++ g ++ b).
  Notation src' := (a ++ g' ++ b).
  Hypothesis G : gap g b0.
  Hypothesis G' : gap g' b0.
  Hypothesis L : ends_line g <-> ends_line g'.
  Hypothesis Hh : heads u u'.
  Definition fine (t : token) : Prop := t <> T_UnexpectedToken /\ t <> T_UnexpectedEndOfProgram /\ (forall r, g' = "/"%byte :: r -> t <> T_OperatorDivision).
  Hypothesis Hne : g' <> [].
  Definition inB (y : spot) : Prop := s_start y < List.length a /\ s_end y <= List.length a /\ (s_end y = List.length a -> fine (s_token y)).
  Definition inA (y : spot) : Prop := List.length (a ++ g) <= s_start y.
  Definition st (x y : spot) : Prop := inB x -> inB y \/ (inA y /\ s_end x = List.length a).
  Record pair (lx lx' : lexer) : Prop := Pair { pr_l : lex_inv src lx; pr_r : lex_inv src' lx'; pr_sl : sl lx; pr_sr : sl lx' }.
  Definition Before (lx lx' : lexer) : Prop := pair lx lx' /\ inB (spot_of lx) /\ erel (True, True, True) u u' 0 0 lx lx'.
  Definition After (lx lx' : lexer) : Prop := pair lx lx' /\ erel (False, True, True) [x00] [x00] (List.length g) (List.length g') lx lx'.
  Definition St (lx lx' : lexer) : Prop := Before lx lx' \/ After lx lx'.

  Lemma src_u : src ++ [x00] = a ++ u. Proof. now rewrite <- !app_assoc. Qed.
  Lemma src_u' : src' ++ [x00] = a ++ u'. Proof. now rewrite <- !app_assoc. Qed.
  Lemma in_size lx : lex_inv src lx -> pos (lx_cur lx) <= List.length a -> List.length u <= size lx.
  Proof. intros I Q. apply inv_size in I. assert (X := f_equal (@List.length _) src_u). rewrite (app_length _ [x00]), (app_length a u) in X. cbn [List.length] in X. lia. Qed.
  Lemma at_size lx : lex_inv src lx -> List.length u = size lx -> pos (lx_cur lx) = List.length a.
  Proof. intros I Q. apply inv_size in I. assert (X := f_equal (@List.length _) src_u). rewrite (app_length _ [x00]), (app_length a u) in X. cbn [List.length] in X. lia. Qed.
  Lemma slash_u r : u' = "/"%byte :: r -> exists r, g' = "/"%byte :: r.
  Proof. intros E. destruct g' as [|x y]; [now destruct Hne|]. cbn in E. injection E as -> _. eauto. Qed.
  Lemma in_calm lx : lex_inv src lx -> inB (spot_of lx) -> List.length u = size lx -> calm u u' (lx_token lx).
  Proof.
    intros I (Q1 & Q2 & Q3) E. apply (at_size _ I) in E. right. destruct (Q3 E) as (F1 & F2 & F3). split; [exact F1|]. split; [exact F2|]. split.
    - intros X. apply (li_eop _ _ I) in X. unfold s_start, s_end, spot_of in *. cbn in *. rewrite X in E. lia.
    - intros r X. destruct (slash_u _ X) as (r' & Y). exact (F3 _ Y).
  Qed.
  Lemma pair_consume lx lx' lx1 lx1' : lex_inv src lx -> lex_inv src' lx' -> consume alnum lx = Done lx1 -> consume alnum lx' = Done lx1' -> pair lx1 lx1'.
  Proof.
    intros I I' E E'. destruct (consume_inv _ _ _ _ I E) as (J1 & _). destruct (consume_inv _ _ _ _ I' E') as (J2 & _). split; auto.
    - eapply text_slash; [exact J1|]. eapply consume_text; [apply (li_ok _ _ I)|exact E].
    - eapply text_slash; [exact J2|]. eapply consume_text; [apply (li_ok _ _ I')|exact E'].
  Qed.
  Lemma carries_same x x' : carries g NoSemicolon x -> carries g' NoSemicolon x' -> x' = x.
  Proof.
    intros [A1 A2] [B1 B2]. destruct (ends_line_dec g) as [D|D].
    - rewrite (A1 D), (B1 (proj1 L D)). reflexivity.
    - assert (D' : ~ ends_line g') by tauto. destruct (A2 D) as [A3 A4], (B2 D') as [B3 B4]. destruct (whites_dec g), (whites_dec g'); rewrite ?A3, ?A4, ?B3, ?B4 by assumption; reflexivity.
  Qed.
  Lemma skip_len {A} (x y : list A) : skipn (List.length x) (x ++ y) = y.
  Proof. rewrite skipn_app, skipn_all, Nat.sub_diag. reflexivity. Qed.
  Lemma cons_step lx lx' lx1 : lex_inv src lx -> lex_inv src' lx' -> hrel (True, True, True) u u' 0 0 lx lx' -> consume alnum lx = Done lx1 ->
    inB (spot_of lx1) \/ (inA (spot_of lx1) /\ pos (lx_cur lx) = List.length a) -> exists lx1', consume alnum lx' = Done lx1' /\ St lx1 lx1'.
  Proof.
    intros I I' R E [B|[A Q]].
    - destruct (consume_inv _ _ _ _ I E) as (J1 & _). destruct (loc_consume alnum _ _ E) as [_ K]. destruct (K (True, True, True) u u' 0 0 lx' Hh R) as (lx1' & E' & R1).
      + apply in_size; [exact J1|apply B].
      + apply in_calm; auto.
      + exists lx1'. split; [exact E'|]. left. split; [apply (pair_consume lx lx'); assumption|]. split; [exact B|]. exact R1.
    - assert (Eu : rem (lx_cur lx) = u). { rewrite (on_skip _ _ (li_cur _ _ I)), (li_buf _ _ I), src_u, Q. apply skip_len. }
      destruct (hr_cur _ _ _ _ _ _ _ R) as (t & T1 & T2 & T3). assert (Et : t = []). { rewrite Eu in T1. apply (f_equal (@List.length _)) in T1. rewrite (app_length t) in T1. destruct t; [reflexivity|cbn [List.length] in T1; lia]. }
      subst t. cbn [app] in T2. rewrite consume_from in E. destruct (gap_from alnum g b0 G NoSemicolon lx Eu) as (x & E1 & C). destruct (gap_from alnum g' b0 G' NoSemicolon lx' T2) as (x' & E1' & C').
      rewrite (carries_same _ _ C C') in E1'. rewrite E1 in E. set (c := cur_advance (List.length g) (lx_cur lx)) in *. set (c' := cur_advance (List.length g') (lx_cur lx')) in *.
      rewrite <- (from_forget alnum x c NoSemicolon) in E. assert (E0 := E1'). rewrite <- (from_forget alnum x c' NoSemicolon) in E1'.
      destruct (loc_from_consume alnum x _ _ E) as [_ K].
      assert (Cr : crel [x00] [x00] (List.length g) (List.length g') c c').
      { exists b. unfold c, c', cur_advance. cbn [rem pos]. rewrite Eu, T2, !skip_len. split; [reflexivity|]. split; [reflexivity|lia]. }
      destruct (K (False, True, True) [x00] [x00] (List.length g) (List.length g') (set_tok c' (set_asi NoSemicolon (after (List.length g') lx')))) as (lx1' & E' & R1).
      + left. apply looks_same. cbn. reflexivity.
      + unfold after. constructor; cbn [set_tok set_asi set_cur lx_cur lx_tok lx_asi lx_quasi]; auto; [apply R|cbn; tauto].
      + rewrite <- consume_from in E1. assert (Ec : consume alnum lx = Done lx1) by (rewrite E1; rewrite from_forget in E; exact E). destruct (consume_inv _ _ _ _ I Ec) as (J1 & _). destruct (li_ok _ _ J1) as (s & Es). rewrite Es, app_length. cbn. lia.
      + intros _. left. apply looks_same. reflexivity.
      + exists lx1'. assert (Ec' : consume alnum lx' = Done lx1') by (rewrite consume_from, E1'; exact E'). assert (Ec : consume alnum lx = Done lx1) by (rewrite consume_from, E1; rewrite from_forget in E; exact E).
        split; [exact Ec'|]. right. split; [apply (pair_consume lx lx'); assumption|exact R1].
  Qed.
  Lemma after_size lx : lex_inv src lx -> List.length [x00] <= size lx.
  Proof. intros I. destruct (li_ok _ _ I) as (s & Es). rewrite Es, app_length. cbn. lia. Qed.
  Lemma heads_nul : heads [x00] [x00].
  Proof. left. now apply looks_same. Qed.
  Lemma calm_nul t : calm [x00] [x00] t.
  Proof. left. now apply looks_same. Qed.
  Lemma St_consume lx lx' lx1 : St lx lx' -> consume alnum lx = Done lx1 -> st (spot_of lx) (spot_of lx1) -> exists lx1', consume alnum lx' = Done lx1' /\ St lx1 lx1'.
  Proof.
    intros [([I I' _ _] & B & R)|([I I' _ _] & R)] E X.
    - apply (cons_step lx lx' lx1 I I' (er_rel _ _ _ _ _ _ _ R) E). destruct (X B) as [Y|[Y Z]]; [left|right]; auto.
    - destruct (loc_consume alnum _ _ E) as [_ K]. destruct (consume_inv _ _ _ _ I E) as (J1 & _).
      destruct (K (False, True, True) [x00] [x00] (List.length g) (List.length g') lx' heads_nul (er_rel _ _ _ _ _ _ _ R) (after_size _ J1) (fun _ => calm_nul _)) as (lx1' & E' & R1).
      exists lx1'. split; [exact E'|]. right. split; [apply (pair_consume lx lx'); assumption|exact R1].
  Qed.
  Lemma stays lx lx1 : lx_tok lx1 = lx_tok lx -> inB (spot_of lx) -> st (spot_of lx) (spot_of lx1) -> inB (spot_of lx1).
  Proof.
    intros E B X. destruct (X B) as [Y|[Y _]]; [exact Y|]. exfalso. destruct B as (B & _). unfold inA, s_start, spot_of in *. cbn [fst snd] in *. rewrite E, app_length in Y. lia.
  Qed.
  Lemma St_template lx lx' lx1 : St lx lx' -> read_template_kind lx = Done lx1 -> st (spot_of lx) (spot_of lx1) -> exists lx1', read_template_kind lx' = Done lx1' /\ St lx1 lx1'.
  Proof.
    intros H E X. destruct (loc_template _ _ E) as [_ K]. destruct H as [([I I' _ _] & B & R)|([I I' _ _] & R)]; destruct (template_inv _ _ _ I E) as (J1 & Et & S1).
    - assert (B1 := stays _ _ Et B X). destruct (K (True, True, True) u u' 0 0 lx' Hh (er_rel _ _ _ _ _ _ _ R)) as (lx1' & E' & R1); [apply in_size; [exact J1|apply B1]|apply in_calm; auto|].
      exists lx1'. split; [exact E'|]. destruct (template_inv _ _ _ I' E') as (J2 & Et2 & S2). left. split; [split; auto|]. auto.
    - destruct (K (False, True, True) [x00] [x00] (List.length g) (List.length g') lx' heads_nul (er_rel _ _ _ _ _ _ _ R) (after_size _ J1) (fun _ => calm_nul _)) as (lx1' & E' & R1).
      exists lx1'. split; [exact E'|]. destruct (template_inv _ _ _ I' E') as (J2 & Et2 & S2). right. split; [split; auto|exact R1].
  Qed.
  Lemma St_regex lx lx' v lx1 : St lx lx' -> slash (lx_token lx) = true -> read_regular_expression lx = Done (v, lx1) -> st (spot_of lx) (spot_of lx1) ->
      exists lx1', read_regular_expression lx' = Done (v, lx1') /\ St lx1 lx1'.
  Proof.
    intros H Ts E X. apply token_eqb_eq in Ts. destruct (loc_regex _ _ _ E) as [_ K]. destruct H as [([I I' Sl Sr] & B & R)|([I I' Sl Sr] & R)]; destruct (regex_inv _ _ _ _ I E) as (J1 & Et & S1).
    - assert (Ts' : lx_token lx' = T_OperatorDivision) by (rewrite (er_token _ _ _ _ _ _ _ R); exact Ts).
      assert (B1 := stays _ _ Et B X). destruct (K (True, True, True) u u' 0 0 lx' Hh (er_rel _ _ _ _ _ _ _ R)) as (lx1' & E' & R1); [apply (slashed_slice _ _ _ _ _ _ _ (er_rel _ _ _ _ _ _ _ R)); auto|apply in_size; [exact J1|apply B1]|apply in_calm; auto|].
      exists lx1'. split; [exact E'|]. destruct (regex_inv _ _ _ _ I' E') as (J2 & Et2 & S2). left. split; [split; auto|]. auto.
    - assert (Ts' : lx_token lx' = T_OperatorDivision) by (rewrite (er_token _ _ _ _ _ _ _ R); exact Ts).
      destruct (K (False, True, True) [x00] [x00] (List.length g) (List.length g') lx' heads_nul (er_rel _ _ _ _ _ _ _ R)) as (lx1' & E' & R1); [apply (slashed_slice _ _ _ _ _ _ _ (er_rel _ _ _ _ _ _ _ R)); auto|apply (after_size _ J1)|intros _; apply calm_nul|].
      exists lx1'. split; [exact E'|]. destruct (regex_inv _ _ _ _ I' E') as (J2 & Et2 & S2). right. split; [split; auto|exact R1].
  Qed.
  Lemma St_view lx lx' : St lx lx' -> zero (view_of lx') = zero (view_of lx).
  Proof. intros [([I _ _ _] & _ & R)|([I _ _ _] & R)]; eapply rel_view; eauto; exact Logic.I. Qed.
  Lemma St_token lx lx' : St lx lx' -> lx_token lx' = lx_token lx.
  Proof. intros H. exact (f_equal v_token (St_view _ _ H)). Qed.
  Lemma St_error lx lx' : St lx lx' -> same_error (Error (lx_token lx) (token_as_str lx) (pos (lx_tok lx)) (pos (lx_cur lx))) (Error (lx_token lx') (token_as_str lx') (pos (lx_tok lx')) (pos (lx_cur lx'))).
  Proof. intros H. split; cbn [err_token err_raw]; [exact (St_token _ _ H)|exact (f_equal v_text (St_view _ _ H))]. Qed.

  (** The whole run. *)
  Lemma gap_run n lx m s l : lexer_new alnum src = Done lx -> trun alnum body n (body _ F_parse) (PState lx []) = Done (m, s, l) ->
    (inB (spot_of lx) \/ (inA (spot_of lx) /\ a = [])) -> chain st (spot_of lx) l ->
    exists lx' m' s' l', lexer_new alnum src' = Done lx' /\ trun alnum body n (body _ F_parse) (PState lx' []) = Done (m', s', l') /\ same_tree m m' /\ Forall2 same_error (p_errors s) (p_errors s').
  Proof.
    intros E T H C. unfold lexer_new in *.
    destruct (cons_step (lexer_init (nul_terminated src)) (lexer_init (nul_terminated src')) lx (init_inv _) (init_inv _)) as (lx' & E' & S1); [|exact E| |].
    - assert (X : crel u u' 0 0 (Cur 0 (nul_terminated src)) (Cur 0 (nul_terminated src'))). { exists a. unfold nul_terminated. cbn [rem pos]. rewrite src_u, src_u'. auto. }
      constructor; cbn [lexer_init lx_cur lx_tok lx_acc]; auto.
    - destruct H as [H|[H1 H2]]; [left; exact H|right]. split; [exact H1|]. rewrite H2. reflexivity.
    - exists lx'. assert (Z := erase_sound alnum n _ _ _ _ _ (body_erased _ F_parse (view_of lx) I) (PState lx []) eq_refl). rewrite T in Z. cbn [omap erased era] in Z.
      destruct (both_run zero slash alnum St st same_error St_view St_token St_error St_consume St_template St_regex n _ _ (PState lx []) (PState lx' []) _ _ _ ltac:(split; [exact S1|constructor]) Z C) as (s' & l' & Z' & B).
      rewrite (erase_sound alnum n _ _ _ _ _ (body_erased _ F_parse (view_of lx') I) (PState lx' []) eq_refl) in Z'. destruct (trun alnum body n (body _ F_parse) (PState lx' [])) as [[[m' s1] l1]| | |]; try discriminate Z'.
      cbn [omap erased era] in Z'. injection Z' as Z1 Z2 _. subst s1. exists m', s', l1. split; [exact E'|]. split; [reflexivity|]. split; [|apply B]. unfold same_tree, strip_module. symmetry. exact Z1.
  Qed.
End Gap.
