(** The lexer on two sources with a line feed between them. *)
From Coq Require Import List NArith Bool Lia Arith String.
From Coq.Strings Require Import Byte.
From Verif Require Import Bytes Token Tables Lexer Ast Prog SpecLexer SpecGap LexerFacts ConsumeFacts LexEval TokenText StateFacts LexProps Local LocalLex LocalConsume Cross GapSim Erase SpecSyntax SpecReading ConcatGram.
Import ListNotations.
Open Scope nat_scope.
Open Scope list_scope.

(** ** The same text at another place *)
Record both (src src' : str) (lx lx' : lexer) : Prop := Both { bo_l : lex_inv src lx; bo_r : lex_inv src' lx'; bo_sl : sl lx; bo_sr : sl lx' }.
Lemma both_consume alnum src src' lx lx' lx1 lx1' : lex_inv src lx -> lex_inv src' lx' -> consume alnum lx = Done lx1 -> consume alnum lx' = Done lx1' -> both src src' lx1 lx1'.
Proof.
  intros I I' E E'. destruct (consume_inv _ _ _ _ I E) as (J1 & _). destruct (consume_inv _ _ _ _ I' E') as (J2 & _). split; auto.
  - eapply text_slash; [exact J1|]. eapply consume_text; [apply (li_ok _ _ I)|exact E].
  - eapply text_slash; [exact J2|]. eapply consume_text; [apply (li_ok _ _ I')|exact E'].
Qed.
Lemma both_current (P : Prop * Prop * Prop) u u' d d' src src' lx lx' : both src src' lx lx' -> erel P u u' d d' lx lx' -> snd P -> current lx' = current lx.
Proof.
  intros [I _ _ _] R HA. unfold current. rewrite (er_token _ _ _ _ _ _ _ R), (hr_asi _ _ _ _ _ _ _ (er_rel _ _ _ _ _ _ _ R) HA), (rel_text _ _ _ _ _ _ _ _ I R).
  destruct (lx_token lx) eqn:T; auto. now rewrite (rel_accessor _ _ _ _ _ _ _ _ I R T).
Qed.
Lemma reading_shift alnum src src' d d' lx ls : reading alnum lx ls -> forall lx', both src src' lx lx' -> erel (False, False, True) [x00] [x00] d d' lx lx' -> reading alnum lx' ls.
Proof.
  assert (Z : forall lx, lex_inv src lx -> List.length [x00] <= size lx). { intros l I. destruct (li_ok _ _ I) as (s & Es). rewrite Es, app_length. cbn. lia. }
  induction 1 as [lx E|lx lx1 ls C H IH|lx v lx1 lx2 ls E Rx E1 C H IH|lx lx1 lx2 ls E Rt E1 C H IH]; intros lx' B R.
  - rewrite <- (both_current _ _ _ _ _ _ _ _ _ B R Logic.I). apply rd_end. now rewrite (er_token _ _ _ _ _ _ _ R).
  - rewrite <- (both_current _ _ _ _ _ _ _ _ _ B R Logic.I). destruct B as [I I' _ _]. destruct (loc_consume alnum _ _ C) as [_ K]. destruct (consume_inv _ _ _ _ I C) as (J1 & _).
    destruct (K (False, False, True) [x00] [x00] d d' lx' heads_nul (er_rel _ _ _ _ _ _ _ R) (Z _ J1) (fun _ => calm_nul _)) as (lx1' & C' & R1).
    apply rd_next with lx1'; [exact C'|]. apply IH; [|exact R1]. exact (both_consume _ _ _ _ _ _ _ I I' C C').
  - destruct B as [I I' Sl Sr]. destruct (regex_inv _ _ _ _ I Rx) as (J1 & Et & S1). destruct (loc_regex _ _ _ Rx) as [_ K].
    assert (Ts' : lx_token lx' = T_OperatorDivision) by (rewrite (er_token _ _ _ _ _ _ _ R); exact E).
    destruct (K (False, False, True) [x00] [x00] d d' lx' heads_nul (er_rel _ _ _ _ _ _ _ R)) as (lx1' & Rx' & R1); [apply (slashed_slice _ _ _ _ _ _ _ (er_rel _ _ _ _ _ _ _ R)); auto|apply (Z _ J1)|intros _; apply calm_nul|].
    destruct (regex_inv _ _ _ _ I' Rx') as (J1' & Et' & S1'). assert (B1 : both src src' lx1 lx1') by (split; assumption).
    destruct (loc_consume alnum _ _ C) as [_ K2]. destruct (consume_inv _ _ _ _ J1 C) as (J2 & _).
    destruct (K2 (False, False, True) [x00] [x00] d d' lx1' heads_nul (er_rel _ _ _ _ _ _ _ R1) (Z _ J2) (fun _ => calm_nul _)) as (lx2' & C' & R2).
    rewrite <- (both_current _ _ _ _ _ _ _ _ _ B1 R1 Logic.I). apply rd_regex with v lx2'; auto; [now rewrite (er_token _ _ _ _ _ _ _ R1)|]. apply IH; [|exact R2]. exact (both_consume _ _ _ _ _ _ _ J1 J1' C C').
  - destruct B as [I I' Sl Sr]. destruct (template_inv _ _ _ I Rt) as (J1 & Et & S1). destruct (loc_template _ _ Rt) as [_ K].
    destruct (K (False, False, True) [x00] [x00] d d' lx' heads_nul (er_rel _ _ _ _ _ _ _ R)) as (lx1' & Rt' & R1); [apply (Z _ J1)|intros _; apply calm_nul|].
    destruct (template_inv _ _ _ I' Rt') as (J1' & Et' & S1'). assert (B1 : both src src' lx1 lx1') by (split; assumption).
    destruct (loc_consume alnum _ _ C) as [_ K2]. destruct (consume_inv _ _ _ _ J1 C) as (J2 & _).
    destruct (K2 (False, False, True) [x00] [x00] d d' lx1' heads_nul (er_rel _ _ _ _ _ _ _ R1) (Z _ J2) (fun _ => calm_nul _)) as (lx2' & C' & R2).
    rewrite <- (both_current _ _ _ _ _ _ _ _ _ B1 R1 Logic.I). apply rd_piece with lx2'; auto; [now rewrite (er_token _ _ _ _ _ _ _ R)|now rewrite (er_token _ _ _ _ _ _ _ R1)|]. apply IH; [|exact R2]. exact (both_consume _ _ _ _ _ _ _ J1 J1' C C').
Qed.

(** ** Up to the end of the first source *)
Section Concat.
  Variables (alnum : N -> bool) (a b : str).
  Notation u := [x00].
  Notation u' := (x0a :: b ++ [x00]).
  Notation src' := (a ++ x0a :: b).
  Hypothesis NN : ~ In x00 a.
  Lemma heads_uu : heads u u'.
  Proof. right. exists x00, [], x0a, (b ++ [x00]). split; [reflexivity|]. split; [reflexivity|]. split; [reflexivity|]. left. split; cbn; lia. Qed.
  Definition Pre (lx lx' : lexer) : Prop := lex_inv a lx /\ lex_inv src' lx' /\ hrel (True, True, True) u u' 0 0 lx lx'.
  Definition In_ (lx lx' : lexer) : Prop := both a src' lx lx' /\ erel (True, True, True) u u' 0 0 lx lx'.
  Lemma in_pre lx lx' : In_ lx lx' -> Pre lx lx'.
  Proof. intros [[I I' _ _] R]. split; [exact I|]. split; [exact I'|]. apply R. Qed.
  Lemma ok_size src lx : lex_inv src lx -> List.length u <= size lx.
  Proof. intros I. destruct (li_ok _ _ I) as (s & Es). rewrite Es, app_length. cbn. lia. Qed.
  Definition inner (t : token) : Prop := t <> T_UnexpectedToken /\ t <> T_UnexpectedEndOfProgram /\ t <> T_EndOfProgram.
  Lemma calm_inner t : inner t -> calm u u' t.
  Proof. intros (A & B & C). right. split; [exact A|]. split; [exact B|]. split; [exact C|]. intros r E. discriminate E. Qed.
  Lemma step_inner lx lx' lx1 : Pre lx lx' -> consume alnum lx = Done lx1 -> inner (lx_token lx1) -> exists lx1', consume alnum lx' = Done lx1' /\ In_ lx1 lx1'.
  Proof.
    intros (I & I' & R) E T. destruct (loc_consume alnum _ _ E) as [_ K]. destruct (consume_inv _ _ _ _ I E) as (J1 & _).
    destruct (K (True, True, True) u u' 0 0 lx' heads_uu R (ok_size _ _ J1) (fun _ => calm_inner _ T)) as (lx1' & E' & R1).
    exists lx1'. split; [exact E'|]. split; [|exact R1]. exact (both_consume _ _ _ _ _ _ _ I I' E E').
  Qed.
  Lemma gap_more s : gap s [x00] -> gap (s ++ [x0a]) (b ++ [x00]).
  Proof.
    intros G. remember [x00] as rest eqn:Er. induction G as [rest|c s rest W G IH|body s rest N1 N2 (c & r & Eb & Hb) G IH|body s rest B N G IH]; subst; cbn [app].
    - apply gap_white; [split; cbn; lia|constructor].
    - apply gap_white; auto.
    - rewrite <- app_assoc. apply gap_line; auto. destruct s as [|c' s]; cbn [app] in *; [eexists; eexists; split; [reflexivity|now left]|].
      injection Eb as -> _. eexists. eexists. split; [reflexivity|exact Hb].
    - rewrite <- app_assoc. cbn [app]. apply gap_block; auto.
  Qed.
  Lemma nul_last lx : lex_inv a lx -> forall s r, rem (lx_cur lx) = s ++ x00 :: r -> r = [] .
  Proof.
    intros I s r E. destruct (li_cur _ _ I) as (p & Ep & _). rewrite (li_buf _ _ I), E, app_assoc in Ep. clear - Ep NN.
    revert Ep. generalize (p ++ s). intros q Ep. revert a NN Ep. induction q as [|x q IH]; intros a0 N Ep.
    - destruct a0 as [|y a0]; [now injection Ep as <-|]. cbn in Ep. injection Ep as -> _. destruct N. now left.
    - destruct a0 as [|y a0]; cbn in Ep; injection Ep; intros E1 E2; [destruct q; discriminate E1|]. apply (IH a0); [|exact E1]. intros X. apply N. now right.
  Qed.
  Lemma step_cross lx lx' lx1 lxb : Pre lx lx' -> consume alnum lx = Done lx1 -> lx_token lx1 = T_EndOfProgram -> lexer_new alnum (x0a :: b) = Done lxb ->
    exists lx1' d d', consume alnum lx' = Done lx1' /\ both (x0a :: b) src' lxb lx1' /\ erel (False, False, True) u u d d' lxb lx1'.
  Proof.
    intros (I & I' & R) E T Eb. assert (C := consume_consumed _ _ _ (li_ok _ _ I) E).
    destruct (consume_inv _ _ _ _ I E) as (J1 & _). destruct (c_gap _ _ _ C) as (s & (A1 & A2) & G).
    destruct (c_end _ _ _ C) as [_ N|(r & Er) _ _ _|? ? ? ? _ _ _ _ _ N]; [contradiction| |rewrite T in N; discriminate N].
    rewrite Er in *. assert (r = []) by exact (nul_last _ I _ _ A1). subst r.
    assert (G2 := gap_more _ G). destruct (hr_cur _ _ _ _ _ _ _ R) as (t & T1 & T2 & T3).
    assert (Et : t = s). { rewrite A1 in T1. now apply app_inj_tail in T1 as [-> _]. } subst t.
    assert (Er' : rem (lx_cur lx') = (s ++ [x0a]) ++ b ++ [x00]) by (rewrite T2, <- app_assoc; reflexivity).
    destruct (gap_from alnum _ _ G2 NoSemicolon lx' Er') as (x' & E1' & C').
    assert (Gb : gap [x0a] (b ++ [x00])) by (apply gap_white; [split; cbn; lia|constructor]).
    unfold lexer_new in Eb. set (lb := lexer_init (nul_terminated (x0a :: b))) in *. assert (Erb : rem (lx_cur lb) = [x0a] ++ b ++ [x00]) by reflexivity.
    destruct (gap_from alnum _ _ Gb NoSemicolon lb Erb) as (x & E1 & Cb).
    assert (X : x = ImplicitSemicolon). { apply Cb. exists [], []. split; [reflexivity|constructor]. }
    assert (X' : x' = ImplicitSemicolon). { apply C'. exists s, []. split; [reflexivity|constructor]. }
    subst x x'. assert (Eb0 := Eb). rewrite consume_from, E1 in Eb.
    set (c := cur_advance (List.length [x0a]) (lx_cur lb)) in *. set (c' := cur_advance (List.length (s ++ [x0a])) (lx_cur lx')) in *.
    rewrite <- (from_forget alnum ImplicitSemicolon c NoSemicolon) in Eb. rewrite <- (from_forget alnum ImplicitSemicolon c' NoSemicolon) in E1'.
    destruct (loc_from_consume alnum ImplicitSemicolon _ _ Eb) as [_ K].
    assert (Cr : crel u u 1 (pos (lx_cur lx') + List.length (s ++ [x0a])) c c').
    { exists b. unfold c, c', cur_advance. cbn [rem pos]. rewrite Er'. rewrite skipn_app, skipn_all, Nat.sub_diag. cbn [app skipn]. split; [reflexivity|]. split; [reflexivity|]. cbn. lia. }
    assert (Ib : lex_inv (x0a :: b) lb) by apply init_inv. destruct (consume_inv _ _ _ _ Ib Eb0) as (Jb & _).
    destruct (K (False, False, True) u u 1 (pos (lx_cur lx') + List.length (s ++ [x0a])) (set_tok c' (set_asi NoSemicolon (after (List.length (s ++ [x0a])) lx')))) as (lx1' & E' & R1).
    - apply heads_nul.
    - unfold after. constructor; cbn [set_tok set_asi set_cur lx_cur lx_tok lx_asi lx_quasi fst snd]; auto; intros [].
    - exact (ok_size _ _ Jb).
    - intros _. apply calm_nul.
    - assert (Ec' : consume alnum lx' = Done lx1') by (rewrite consume_from, E1'; exact E'). exists lx1', 1, (pos (lx_cur lx') + List.length (s ++ [x0a])). split; [exact Ec'|]. split; [|exact R1].
      eapply both_consume; [exact Ib|exact I'|exact Eb0|exact Ec'].
  Qed.

  (** The lexemes of both sources. *)
  Lemma reading_token lx x ls : reading alnum lx (x :: ls) -> inner (fst x) -> inner (lx_token lx).
  Proof.
    intros H N. inversion H as [lx0 E|lx0 lx1 l0 C H1|lx0 v lx1 lx2 l0 E Rx E1 C H1|lx0 lx1 lx2 l0 E Rt E1 C H1]; subst.
    - exact N.
    - exact N.
    - rewrite E. split; [discriminate|split; discriminate].
    - rewrite E. split; [discriminate|split; discriminate].
  Qed.
  Lemma reading_some lx : ~ reading alnum lx [].
  Proof. intros H. inversion H. Qed.
  Lemma reading_one lx x : reading alnum lx [x] -> lx_token lx = T_EndOfProgram.
  Proof. intros H. inversion H as [lx0 E|lx0 lx1 l0 C H1|lx0 v lx1 lx2 l0 E Rx E1 C H1|lx0 lx1 lx2 l0 E Rt E1 C H1]; subst; [exact E|exfalso; eapply reading_some; eassumption..]. Qed.
  Variables (lxb : lexer) (lb : list lexeme).
  Hypothesis Eb : lexer_new alnum (x0a :: b) = Done lxb.
  Hypothesis Rb : reading alnum lxb lb.
  Lemma reading_cross lx lx' lx1 : Pre lx lx' -> consume alnum lx = Done lx1 -> lx_token lx1 = T_EndOfProgram -> exists lx1', consume alnum lx' = Done lx1' /\ reading alnum lx1' lb.
  Proof.
    intros H C T. destruct (step_cross _ _ _ _ H C T Eb) as (lx1' & d & d' & C' & B & R). exists lx1'. split; [exact C'|]. eapply reading_shift; eassumption.
  Qed.
  Lemma reading_next lx lx' lx1 l e : Pre lx lx' -> consume alnum lx = Done lx1 -> reading alnum lx1 (l ++ [e]) -> Forall (fun x => inner (fst x)) l ->
    (forall lx1' x l1, l = x :: l1 -> In_ lx1 lx1' -> reading alnum lx1' (x :: l1 ++ lb)) -> exists lx1', consume alnum lx' = Done lx1' /\ reading alnum lx1' (l ++ lb).
  Proof.
    intros H C Rd F IH. destruct l as [|x l].
    - apply (reading_cross _ _ _ H C). eapply reading_one; eassumption.
    - destruct (step_inner _ _ _ H C) as (lx1' & C' & B). { eapply reading_token; [exact Rd|]. exact (Forall_inv F). }
      exists lx1'. split; [exact C'|]. eapply IH; [reflexivity|eassumption].
  Qed.
  Lemma current_inner lx x : current lx = x -> inner (fst x) -> inner (lx_token lx).
  Proof. now intros <-. Qed.
  Lemma reading_app ls lx : reading alnum lx ls -> forall lx' x l e, ls = x :: l ++ [e] -> Forall (fun x => inner (fst x)) (x :: l) -> In_ lx lx' -> reading alnum lx' (x :: l ++ lb).
  Proof.
    induction 1 as [lx E|lx lx1 ls C H IH|lx v lx1 lx2 ls E Rx E1 C H IH|lx lx1 lx2 ls E Rt E1 C H IH]; intros lx' x l e El F B.
    - destruct l; discriminate El.
    - injection El as <- ->. destruct (reading_next lx lx' lx1 l e (in_pre _ _ B) C H (Forall_inv_tail F)) as (lx1' & C' & R').
      + intros lx1' x l1 -> B1. eapply IH; [reflexivity|exact (Forall_inv_tail F)|exact B1].
      + rewrite <- (both_current _ _ _ _ _ _ _ _ _ (proj1 B) (proj2 B) Logic.I). now apply rd_next with lx1'.
    - injection El as <- ->. destruct B as [[I I' Sl Sr] R]. destruct (regex_inv _ _ _ _ I Rx) as (J1 & Et & S1). destruct (loc_regex _ _ _ Rx) as [_ K].
      assert (Ts' : lx_token lx' = T_OperatorDivision) by (rewrite (er_token _ _ _ _ _ _ _ R); exact E).
      destruct (K (True, True, True) u u' 0 0 lx' heads_uu (er_rel _ _ _ _ _ _ _ R)) as (lx1' & Rx' & R1); [apply (slashed_slice _ _ _ _ _ _ _ (er_rel _ _ _ _ _ _ _ R)); auto|apply (ok_size _ _ J1)|intros _; apply calm_inner, (current_inner _ _ eq_refl (Forall_inv F))|].
      destruct (regex_inv _ _ _ _ I' Rx') as (J1' & Et' & S1'). assert (B1 : both a src' lx1 lx1') by (split; assumption).
      destruct (reading_next lx1 lx1' lx2 l e (in_pre _ _ (conj B1 R1)) C H (Forall_inv_tail F)) as (lx2' & C' & R').
      + intros lx2' x l1 -> B2. eapply IH; [reflexivity|exact (Forall_inv_tail F)|exact B2].
      + rewrite <- (both_current _ _ _ _ _ _ _ _ _ B1 R1 Logic.I). apply rd_regex with v lx2'; auto. now rewrite (er_token _ _ _ _ _ _ _ R1).
    - injection El as <- ->. destruct B as [[I I' Sl Sr] R]. destruct (template_inv _ _ _ I Rt) as (J1 & Et & S1). destruct (loc_template _ _ Rt) as [_ K].
      destruct (K (True, True, True) u u' 0 0 lx' heads_uu (er_rel _ _ _ _ _ _ _ R)) as (lx1' & Rt' & R1); [apply (ok_size _ _ J1)|intros _; apply calm_inner, (current_inner _ _ eq_refl (Forall_inv F))|].
      destruct (template_inv _ _ _ I' Rt') as (J1' & Et' & S1'). assert (B1 : both a src' lx1 lx1') by (split; assumption).
      destruct (reading_next lx1 lx1' lx2 l e (in_pre _ _ (conj B1 R1)) C H (Forall_inv_tail F)) as (lx2' & C' & R').
      + intros lx2' x l1 -> B2. eapply IH; [reflexivity|exact (Forall_inv_tail F)|exact B2].
      + rewrite <- (both_current _ _ _ _ _ _ _ _ _ B1 R1 Logic.I). apply rd_piece with lx2'; auto; [now rewrite (er_token _ _ _ _ _ _ _ R)|now rewrite (er_token _ _ _ _ _ _ _ R1)].
  Qed.
  Lemma new_app lxa l e : lexer_new alnum a = Done lxa -> reading alnum lxa (l ++ [e]) -> Forall (fun x => inner (fst x)) l ->
    exists lx, lexer_new alnum src' = Done lx /\ reading alnum lx (l ++ lb).
  Proof.
    intros Ea Ra F. unfold lexer_new in *. apply (reading_next (lexer_init (nul_terminated a)) (lexer_init (nul_terminated src')) lxa l e); auto.
    - split; [apply init_inv|]. split; [apply init_inv|].
      assert (X : crel u u' 0 0 (Cur 0 (nul_terminated a)) (Cur 0 (nul_terminated src'))). { exists a. unfold nul_terminated. cbn [rem pos]. rewrite <- app_assoc. auto. }
      constructor; cbn [lexer_init lx_cur lx_tok lx_acc]; auto.
    - intros lx1' x l1 -> B. eapply reading_app; [exact Ra|reflexivity|exact F|exact B].
  Qed.
End Concat.

(** ** A line feed in front *)
Definition marks : Prop * Prop * Prop := (False, False, False).
Lemma start_any a a' p r h x c : scan_token_start a p r = Done (h, x, c) -> exists x', scan_token_start a' p r = Done (h, x', c).
Proof.
  revert a a' p. induction r as [|b r IH]; intros a a' p E; cbn [scan_token_start] in *; [discriminate|]. destruct (handler_from_byte b) as [k|].
  - injection E as <- <- <-. eauto.
  - eapply IH. exact E.
Qed.
Lemma from_marks alnum a a' d d' lx lx1 lx' : from alnum a lx = Done lx1 -> hrel marks [x00] [x00] d d' lx lx' -> 1 <= size lx1 ->
  exists lx1', from alnum a' lx' = Done lx1' /\ erel marks [x00] [x00] d d' lx1 lx1'.
Proof.
  intros E R Z. unfold from in *. destruct (once_run _ _ _ _ _ E) as (h & x & c & b & s & E1 & Er & Hh & E2).
  destruct (loc_handler alnum _ h (loc_consume alnum) (drops_consume alnum) _ _ E2) as [S K]. cbn [set_tok set_cur lx_cur] in S.
  destruct (start_any _ a' _ _ _ _ _ E1) as (x' & E3). destruct (start_loc _ _ _ _ _ E3) as [L K1].
  destruct (hr_cur _ _ _ _ _ _ _ R) as (t & Et & Et' & Q). destruct (K1 [x00] [x00] d d' t (pos (lx_cur lx')) Et Q) as (c' & E1' & C); [cbn; lia|left; now apply looks_same|].
  destruct (K marks [x00] [x00] d d' (set_tok c' (set_cur c' (set_asi x' lx')))) as (lx1' & E2' & R1).
  - apply heads_nul.
  - destruct R as [A1 A2 A3 A4 A5]. constructor; auto. intros [].
  - exact Z.
  - intros _. apply calm_nul.
  - exists lx1'. split; [|exact R1]. unfold once_from. rewrite Et', E1'. cbn [obind]. destruct (start_head _ _ _ _ _ _ E1') as (b' & s' & Er' & Hh'). rewrite <- (guard_run alnum (consume alnum) b'); [exact E2'| |exact Hh']. exists s'. exact Er'.
Qed.
(** The same but for the mark on the first lexeme. *)
Inductive remarked : list lexeme -> list lexeme -> Prop :=
| re_marked t s x x' l : remarked ((t, Word s x) :: l) ((t, Word s x') :: l).
Lemma current_marks src src' d d' lx lx' : both src src' lx lx' -> erel marks [x00] [x00] d d' lx lx' -> exists t s x x', current lx = (t, Word s x) /\ current lx' = (t, Word s x').
Proof.
  intros [I _ _ _] R. unfold current. rewrite (er_token _ _ _ _ _ _ _ R), (rel_text _ _ _ _ _ _ _ _ I R).
  destruct (lx_token lx) eqn:T; try (do 4 eexists; split; reflexivity). rewrite (rel_accessor _ _ _ _ _ _ _ _ I R T). do 4 eexists; split; reflexivity.
Qed.
Lemma consume_marks alnum src src' d d' lx lx' lx1 : both src src' lx lx' -> erel marks [x00] [x00] d d' lx lx' -> consume alnum lx = Done lx1 ->
  exists lx1', consume alnum lx' = Done lx1' /\ both src src' lx1 lx1' /\ erel (False, False, True) [x00] [x00] d d' lx1 lx1'.
Proof.
  intros [I I' _ _] R C. destruct (consume_inv _ _ _ _ I C) as (J1 & _). assert (C0 := C). rewrite consume_from, <- (from_forget alnum NoSemicolon (lx_tok lx) NoSemicolon) in C0.
  destruct (loc_from_consume alnum NoSemicolon _ _ C0) as [_ K].
  destruct (K (False, False, True) [x00] [x00] d d' (set_tok (lx_tok lx') (set_asi NoSemicolon lx'))) as (lx1' & C' & R1).
  - apply heads_nul.
  - destruct R as [[A1 A2 A3 A4 A5] _ _]. constructor; cbn [set_tok set_asi lx_cur lx_tok lx_asi lx_quasi fst snd]; auto; intros [].
  - exact (ok_size _ _ J1).
  - intros _. apply calm_nul.
  - rewrite from_forget in C'. rewrite <- consume_from in C'. exists lx1'. split; [exact C'|]. split; [exact (both_consume _ _ _ _ _ _ _ I I' C C')|exact R1].
Qed.
Lemma reading_marks alnum src src' d d' lx ls lx' : reading alnum lx ls -> both src src' lx lx' -> erel marks [x00] [x00] d d' lx lx' -> exists ls', reading alnum lx' ls' /\ remarked ls ls'.
Proof.
  intros H B R. destruct H as [lx E|lx lx1 ls C H|lx v lx1 lx2 ls E Rx E1 C H|lx lx1 lx2 ls E Rt E1 C H].
  - exists [current lx']. split; [apply rd_end; now rewrite (er_token _ _ _ _ _ _ _ R)|]. destruct (current_marks _ _ _ _ _ _ B R) as (t & s & x & x' & -> & ->). constructor.
  - destruct (consume_marks _ _ _ _ _ _ _ _ B R C) as (lx1' & C' & B1 & R1). exists (current lx' :: ls). split; [apply rd_next with lx1'; [exact C'|]; eapply reading_shift; eassumption|].
    destruct (current_marks _ _ _ _ _ _ B R) as (t & s & x & x' & -> & ->). constructor.
  - destruct B as [I I' Sl Sr]. destruct (regex_inv _ _ _ _ I Rx) as (J1 & Et & S1). destruct (loc_regex _ _ _ Rx) as [_ K].
    assert (Ts' : lx_token lx' = T_OperatorDivision) by (rewrite (er_token _ _ _ _ _ _ _ R); exact E).
    destruct (K marks [x00] [x00] d d' lx' heads_nul (er_rel _ _ _ _ _ _ _ R)) as (lx1' & Rx' & R1); [apply (slashed_slice _ _ _ _ _ _ _ (er_rel _ _ _ _ _ _ _ R)); auto|apply (ok_size _ _ J1)|intros _; apply calm_nul|].
    destruct (regex_inv _ _ _ _ I' Rx') as (J1' & Et' & S1'). assert (B1 : both src src' lx1 lx1') by (split; assumption).
    destruct (consume_marks _ _ _ _ _ _ _ _ B1 R1 C) as (lx2' & C' & B2 & R2). exists (current lx1' :: ls).
    split; [apply rd_regex with v lx2'; auto; [now rewrite (er_token _ _ _ _ _ _ _ R1)|]; eapply reading_shift; eassumption|].
    destruct (current_marks _ _ _ _ _ _ B1 R1) as (t & s & x & x' & -> & ->). constructor.
  - destruct B as [I I' Sl Sr]. destruct (template_inv _ _ _ I Rt) as (J1 & Et & S1). destruct (loc_template _ _ Rt) as [_ K].
    destruct (K marks [x00] [x00] d d' lx' heads_nul (er_rel _ _ _ _ _ _ _ R)) as (lx1' & Rt' & R1); [apply (ok_size _ _ J1)|intros _; apply calm_nul|].
    destruct (template_inv _ _ _ I' Rt') as (J1' & Et' & S1'). assert (B1 : both src src' lx1 lx1') by (split; assumption).
    destruct (consume_marks _ _ _ _ _ _ _ _ B1 R1 C) as (lx2' & C' & B2 & R2). exists (current lx1' :: ls).
    split; [apply rd_piece with lx2'; auto; [now rewrite (er_token _ _ _ _ _ _ _ R)|now rewrite (er_token _ _ _ _ _ _ _ R1)|]; eapply reading_shift; eassumption|].
    destruct (current_marks _ _ _ _ _ _ B1 R1) as (t & s & x & x' & -> & ->). constructor.
Qed.
Lemma new_line alnum b lx ls : lexer_new alnum b = Done lx -> reading alnum lx ls -> exists lx' ls', lexer_new alnum (x0a :: b) = Done lx' /\ reading alnum lx' ls' /\ remarked ls ls'.
Proof.
  intros E H. unfold lexer_new in *. set (l1 := lexer_init (nul_terminated b)) in *. set (l2 := lexer_init (nul_terminated (x0a :: b))).
  assert (I1 : lex_inv b l1) by apply init_inv. assert (I2 : lex_inv (x0a :: b) l2) by apply init_inv. destruct (consume_inv _ _ _ _ I1 E) as (J1 & _).
  assert (Gb : gap [x0a] (b ++ [x00])) by (apply gap_white; [split; cbn; lia|constructor]). destruct (gap_from alnum _ _ Gb NoSemicolon l2 eq_refl) as (x & E2 & _).
  assert (E0 := E). rewrite consume_from, <- (from_forget alnum NoSemicolon (lx_cur l1) NoSemicolon) in E.
  destruct (from_marks alnum NoSemicolon x 0 1 _ lx (set_tok (cur_advance 1 (lx_cur l2)) (set_asi NoSemicolon (after 1 l2))) E) as (lx' & E' & R).
  - assert (X : crel [x00] [x00] 0 1 (lx_cur l1) (cur_advance 1 (lx_cur l2))) by (exists b; split; [reflexivity|]; split; reflexivity).
    constructor; cbn [set_tok set_asi after set_cur lx_cur lx_tok lx_asi lx_quasi marks fst snd]; auto; intros [].
  - exact (ok_size _ _ J1).
  - rewrite from_forget in E'. cbn [List.length] in E2. rewrite <- E2, <- consume_from in E'.
    destruct (reading_marks _ _ _ _ _ _ _ _ H (both_consume _ _ _ _ _ _ _ I1 I2 E0 E') R) as (ls' & H' & M). eauto.
Qed.
