(** Locality of [consume] and of the two other lexer calls. *)
From Coq Require Import List NArith Bool Lia Arith String.
From Coq.Strings Require Import Byte.
From Verif Require Import Bytes Token Tables Lexer SpecLexer LexerFacts ConsumeFacts LexEval TokenText Local LocalLex.
Import ListNotations.
Open Scope nat_scope.
Open Scope list_scope.

(** ** Every handler but two takes at least one byte *)
Lemma skip_size f lx lx1 : skip_while f lx = Done lx1 -> size lx1 <= size lx.
Proof. unfold skip_while. intros E. ob E as c E1 E2. injection E2 as <-. cbn. exact (proj1 (scan_while_loc _ _ _ _ E1)). Qed.
Lemma next_size lx b lx1 : next_byte lx = Done (b, lx1) -> size lx1 = size lx - 1.
Proof. unfold next_byte. intros E. ob E as c E1 E2. injection E2 as _ <-. cbn. apply tl_length. Qed.
Lemma bump_size lx : size (bump lx) = size lx - 1.
Proof. cbn. apply tl_length. Qed.
Ltac shrink E :=
  match type of E with
  | Done _ = Done _ => injection E as <-; cbn; rewrite ?tl_length; lia
  | Panicked = Done _ => discriminate E
  | obind (next_byte ?l) _ = _ => let p := fresh "p" in let E1 := fresh "E" in let E2 := fresh "E" in let b := fresh "b" in let l1 := fresh "l" in
      ob E as p E1 E2; destruct p as [b l1]; apply next_size in E1; rewrite ?bump_size in E1; shrink E2
  | obind (read_byte ?l) _ = _ => let b := fresh "b" in let E1 := fresh "E" in let E2 := fresh "E" in ob E as b E1 E2; clear E1; shrink E2
  | obind (skip_while ?f ?l) _ = _ => let b := fresh "b" in let E1 := fresh "E" in let E2 := fresh "E" in ob E as b E1 E2; apply skip_size in E1; rewrite ?bump_size in E1; shrink E2
  | (if ?c then _ else _) = _ => destruct c; shrink E
  | _ => idtac
  end.
Lemma keyword_eats k lx lx1 : 1 <= size lx -> label_or_keyword k lx = Done lx1 -> size lx1 < size lx.
Proof.
  intros L E. destruct (rem (lx_cur lx)) as [|x r] eqn:Er; [cbn in L; lia|]. unfold label_or_keyword in E. ob E as [o lx2] E1 E2.
  assert (X := match_label_mono k lx o lx2 x ltac:(exists r; exact Er) E1). rewrite Er in X. cbn [List.length] in X |- *. unfold read_label in E2; destruct o; [shrink E2|]. ob E2 as lx3 E3 E4. apply skip_size in E3. shrink E4.
Qed.
Lemma handler_eats alnum again h b : mono again -> h <> H_EOF -> h <> H_UNI -> eats b (run_handler alnum again h).
Proof.
  intros M N1 N2 lx lx1 (r & Er) E. assert (L : 1 <= size lx) by (rewrite Er; cbn; lia). clear Er.
  destruct h; try congruence; cbn [run_handler] in E;
    try (unfold h_single, h_SEM, h_closing, h_EQL, h_EXL, h_LSS, h_MOR, h_op_assign, h_op_double, h_ATR, h_IDT, read_label in E; shrink E; fail).
  all: try (eapply keyword_eats; [exact L|exact E]).
  - unfold h_QOT in E. ob E as b1 E1 E2. cbv zeta in E2. apply (loc_mono _ (loc_quoted b1)) in E2. rewrite bump_size in E2. lia.
  - unfold h_PRD in E. ob E as [b1 lx2] E1 E2. apply next_size in E1. destruct (is_digit b1); [apply (loc_mono _ loc_float) in E2; rewrite bump_size in E2; lia|]. destruct (byte_eqb b1 "."); [shrink E2|].
    apply (loc_mono _ loc_accessor) in E2. lia.
  - unfold h_SLH in E. ob E as [b1 lx2] E1 E2. apply next_size in E1. destruct (byte_eqb b1 "/"). { ob E2 as lx3 E3 E4. apply skip_size in E3. rewrite bump_size in E3. apply M in E4. lia. }
    destruct (byte_eqb b1 "*"); [|shrink E2]. cbv zeta in E2. ob E2 as [k c] E3 E4. destruct (sloc_block _ _ _ _ E3) as (X & _). change (rem (lx_cur (bump lx2))) with (rem (lx_cur (bump lx2))) in X. rewrite bump_size in X. destruct k; [apply M in E4; cbn in E4; lia|shrink E4].
  - unfold h_ZER in E. ob E as [b1 lx2] E1 E2. apply next_size in E1. unfold read_radix in E2. repeat (match type of E2 with (if ?c then _ else _) = _ => destruct c end); try (shrink E2; fail). apply (loc_mono _ loc_decimal) in E2. lia.
  - unfold h_DIG in E. apply (loc_mono _ loc_decimal) in E. rewrite bump_size in E. lia.
  - unfold h_TPL in E. apply (loc_mono _ loc_template) in E. rewrite bump_size in E. lia.
Qed.
Lemma start_head a p r h a1 c : scan_token_start a p r = Done (h, a1, c) -> exists b s, rem c = b :: s /\ handler_from_byte b = Some h.
Proof. intros E. apply scan_token_start_spec in E as (s & b & r' & _ & _ & Hh & -> & _). exists b, r'. auto. Qed.
(** One activation of [consume] that starts with a given knowledge of line breaks. *)
Definition once_from (alnum : N -> bool) (again : lexer -> outcome lexer) (a0 : asi) (lx : lexer) : outcome lexer :=
  obind (scan_token_start a0 (pos (lx_cur lx)) (rem (lx_cur lx))) (fun x => match x with (h, a, c) => run_handler alnum again h (set_tok c (set_cur c (set_asi a lx))) end).
Lemma once_run alnum again a0 lx lx1 : once_from alnum again a0 lx = Done lx1 -> exists h a c b s, scan_token_start a0 (pos (lx_cur lx)) (rem (lx_cur lx)) = Done (h, a, c) /\
  rem c = b :: s /\ handler_from_byte b = Some h /\ guarded alnum again h (set_tok c (set_cur c (set_asi a lx))) = Done lx1.
Proof.
  unfold once_from. intros E. ob E as [[h a] c] E1 E2. destruct (start_head _ _ _ _ _ _ E1) as (b & s & Er & Hh). exists h, a, c, b, s. split; [exact E1|]. split; [exact Er|]. split; [exact Hh|].
  rewrite (guard_run alnum again b); [exact E2| |exact Hh]. exists s. exact Er.
Qed.
Lemma loc_from alnum again a0 : loc again -> drops again -> loc (once_from alnum again a0).
Proof.
  intros LA D lx lx1 E. destruct (once_run _ _ _ _ _ E) as (h & a & c & b & s & E1 & Er & Hh & E2). destruct (loc_handler alnum again h LA D _ _ E2) as [S K]. destruct (start_loc _ _ _ _ _ E1) as [L K1].
  cbn [set_tok set_cur lx_cur] in S. split; [lia|]. intros P u u' d d' lx' H R Z Ca.
  assert (X : looks u u' \/ List.length u < List.length (rem c)).
  { destruct (Nat.eq_dec (List.length u) (List.length (rem c))) as [Q|]; [|right; lia]. destruct (Ca ltac:(lia)) as [Y|(N1 & N2 & N3 & _)]; [left; exact Y|]. exfalso.
    assert (G : h = H_EOF \/ h = H_UNI \/ (h <> H_EOF /\ h <> H_UNI)) by (destruct h; try (left; reflexivity); try (right; left; reflexivity); right; right; split; discriminate).
    destruct G as [->|[->|[G1 G2]]].
    - cbn in E2. injection E2 as <-. now apply N3.
    - cbn [guarded] in E2. unfold at_byte in E2. ob E2 as b1 E3 E4. destruct (127 <? byte_val b1)%N; [|discriminate]. unfold h_UNI in E4. destruct (decode_char _) as [[ch n]|] eqn:Ed; [|discriminate].
      cbn [set_tok set_cur lx_cur] in Ed. apply handler_high, N.ltb_lt in Hh. rewrite Er in Ed. assert (M := decode_char_multi _ _ _ _ Hh Ed).
      destruct (alnum ch); [|injection E4 as <-; now apply N1]. ob E4 as lx3 E5 E6. apply skip_size in E5. injection E6 as <-. cbn in *. rewrite skipn_length, Er in E5. rewrite Er in *. cbn [List.length] in *. lia.
    - assert (Y := handler_eats alnum again h b (loc_mono _ LA) G1 G2 (set_tok c (set_cur c (set_asi a lx))) lx1 ltac:(exists s; exact Er)). rewrite (guard_run alnum again b) in E2; [|exists s; exact Er|exact Hh]. specialize (Y E2). cbn [set_tok set_cur lx_cur] in Y. lia. }
  destruct (hr_cur _ _ _ _ _ _ _ R) as (t & Et & Et' & Q). destruct (K1 u u' d d' t (pos (lx_cur lx')) Et Q ltac:(lia) X) as (c' & E1' & C).
  destruct (K P u u' d d' (set_tok c' (set_cur c' (set_asi a lx'))) H) as (lx1' & E2' & R1); [|exact Z|exact Ca|].
  { destruct R as [A1 A2 A3 A4 A5]. constructor; auto. }
  exists lx1'. split; [|exact R1]. unfold once_from. rewrite Et', E1'. cbn [obind]. destruct (start_head _ _ _ _ _ _ E1') as (b' & s' & Er' & Hh'). rewrite <- (guard_run alnum again b'); [exact E2'| |exact Hh']. exists s'. exact Er'.
Qed.
Lemma loc_once alnum again : loc again -> drops again -> loc (consume_once alnum again).
Proof. apply (loc_from alnum again NoSemicolon). Qed.
Lemma drops_once alnum again : loc again -> drops again -> drops (consume_once alnum again).
Proof.
  intros LA D. split.
  - intros lx lx1 b r E Er W. destruct (once_run _ _ NoSemicolon _ _ E) as (h & a & c & b1 & s & E1 & Ec & Hh & E2). apply (loc_mono _ (loc_handler alnum again h LA D)) in E2. cbn [set_tok set_cur lx_cur] in E2.
    rewrite Er in *. cbn [scan_token_start] in E1. apply handler_None in W. rewrite W in E1. apply start_loc in E1 as [L _]. cbn. lia.
  - intros lx lx1 r E Er. destruct (once_run _ _ NoSemicolon _ _ E) as (h & a & c & b1 & s & E1 & Ec & Hh & E2). rewrite Er in E1. cbn [scan_token_start] in E1. change (handler_from_byte x00) with (Some H_EOF) in E1. cbv iota in E1. injection E1 as <- _ <-.
    cbn in E2. injection E2 as <-. reflexivity.
Qed.
Lemma loc_fuel alnum n : loc (consume_fuel alnum n) /\ drops (consume_fuel alnum n).
Proof.
  induction n as [|n [L D]].
  - split; [intros lx lx1 E; discriminate|]. split; intros; discriminate.
  - split; [now apply loc_once|now apply drops_once].
Qed.
Lemma loc_consume alnum : loc (consume alnum).
Proof.
  intros lx lx1 E. split; [exact (proj1 (proj1 (loc_fuel alnum _) _ _ E))|]. intros P u u' d d' lx' Hh R Z Ca.
  assert (E2 : consume_fuel alnum (S (size lx + size lx')) lx = Done lx1) by (rewrite <- E; apply consume_fuel_enough; lia).
  destruct (proj2 (proj1 (loc_fuel alnum _) _ _ E2) P u u' d d' lx' Hh R Z Ca) as (lx1' & E' & R1). exists lx1'. split; [|exact R1]. rewrite <- E'. apply consume_fuel_enough; lia.
Qed.
Lemma drops_consume alnum : drops (consume alnum).
Proof.
  split.
  - intros lx lx1 b r E. exact (proj1 (proj2 (loc_fuel alnum _)) lx lx1 b r E).
  - intros lx lx1 r E. exact (proj2 (proj2 (loc_fuel alnum _)) lx lx1 r E).
Qed.
(** ** Regular expressions *)
Lemma regex_size i p r k c : scan_regex i p r = Done (k, c) -> pos c + List.length (rem c) = p + List.length r.
Proof.
  remember (List.length r) as n eqn:En. revert i p r En. induction n as [n IH] using lt_wf_ind. intros i p r En E. destruct r as [|b r]; cbn [scan_regex] in E; [discriminate|]. cbn [List.length] in En.
  assert (Step : forall j, scan_regex j (S p) r = Done (k, c) -> pos c + List.length (rem c) = p + n). { intros j E1. rewrite (IH (List.length r) ltac:(lia) j (S p) r eq_refl E1). lia. }
  destruct (byte_eqb b "["); [exact (Step _ E)|]. destruct (byte_eqb b "]"); [exact (Step _ E)|]. destruct (byte_eqb b "/"). { destruct i; [exact (Step _ E)|]. injection E as <- <-. cbn. lia. }
  destruct (byte_eqb b "\"). { destruct r as [|x r]; [discriminate|]. cbn [List.length] in En. destruct (byte_eqb x x00). { injection E as <- <-. cbn. lia. } rewrite (IH (List.length r) ltac:(lia) i (S (S p)) r eq_refl E). lia. }
  destruct (byte_eqb b x0a); [injection E as <- <-; cbn; lia|exact (Step _ E)].
Qed.
Lemma while_size f p r c : scan_while f p r = Done c -> pos c + List.length (rem c) = p + List.length r.
Proof. intros E. apply scan_while_adv in E as (s & E1 & E2). cbn in *. rewrite E1, app_length. lia. Qed.
(** The text from the slash on is the same in both sources. *)
Definition same_slice (u : str) (d d' : nat) (lx lx' : lexer) : Prop := forall q q', pos (lx_cur lx) <= q -> q + d' = q' + d -> q + List.length u <= pos (lx_cur lx) + size lx ->
  firstn (q' - (pos (lx_cur lx') - 1)) (skipn (pos (lx_cur lx') - 1) (lx_buf lx')) = firstn (q - (pos (lx_cur lx) - 1)) (skipn (pos (lx_cur lx) - 1) (lx_buf lx)).
Lemma loc_regex lx v lx1 : read_regular_expression lx = Done (v, lx1) ->
  size lx1 <= size lx /\
  forall P u u' d d' lx', heads u u' -> hrel P u u' d d' lx lx' -> same_slice u d d' lx lx' -> List.length u <= size lx1 -> (List.length u = size lx1 -> calm u u' (lx_token lx1)) ->
  exists lx1', read_regular_expression lx' = Done (v, lx1') /\ erel P u u' d d' lx1 lx1'.
Proof.
  intros E. unfold read_regular_expression in E. cbv zeta in E. ob E as [k c] E1 E2. destruct (sloc_regex _ _ _ _ _ E1) as (L & _ & K). assert (Q1 := regex_size _ _ _ _ _ E1).
  pose (F := fun lx => obind (skip_while is_regex_flag lx) (fun lx2 => Done (set_token T_LiteralRegEx lx2))).
  assert (LF : loc F) by (apply loc_skip; [halt|apply loc_done; discriminate]).
  assert (S1 : size lx1 <= List.length (rem c)). { destruct k; [|injection E2 as _ <-; cbn; lia..]. ob E2 as lx2 E3 E4. injection E4 as _ <-. apply skip_size in E3. exact E3. }
  split; [lia|]. intros P u u' d d' lx' Hh R V Z Ca.
  destruct (hr_cur _ _ _ _ _ _ _ R) as (t & Et & Et' & Q). destruct (K u u' d d' t (pos (lx_cur lx')) Hh Et Q ltac:(lia)) as (c' & E' & C).
  { destruct (Nat.eq_dec (List.length u) (List.length (rem c))) as [X|]; [|right; right; lia]. destruct (Ca ltac:(lia)) as [Y|(N1 & N2 & _)]; [left; exact Y|]. right; left. destruct k; [reflexivity|reflexivity|]. injection E2 as _ <-. now destruct N2. }
  assert (R1 : hrel P u u' d d' (set_cur c lx) (set_cur c' lx')) by now apply hrel_cur.
  unfold read_regular_expression. cbv zeta. rewrite Et', E'. cbn [obind].
  destruct k.
  - ob E2 as lx2 E3 E4. injection E4 as <- <-. destruct (LF (set_cur c lx) (set_token T_LiteralRegEx lx2)) as [_ K2]; [unfold F; rewrite E3; reflexivity|].
    destruct (K2 P u u' d d' _ Hh R1 Z Ca) as (lx1' & E5 & R2). unfold F in E5. ob E5 as lx2' E6 E7. injection E7 as <-. rewrite E6. cbn [obind]. eexists. split; [|exact R2]. f_equal. f_equal.
    unfold skip_while in E3, E6. ob E3 as c2 E8 E9. injection E9 as <-. ob E6 as c2' E8' E9'. injection E9' as <-. cbn [set_cur lx_cur lx_buf pos rem] in *.
    assert (Q2 := while_size _ _ _ _ E8). destruct (er_rel _ _ _ _ _ _ _ R2) as [(t2 & U1 & U2 & U3) _ _ _ _]. cbn in U1, U2, U3. cbn in Z.
    cbn in S1. apply V; [|exact U3|]; lia.
  - injection E2 as <- <-. eexists. split; [reflexivity|]. apply erel_token; [discriminate|exact R1].
  - injection E2 as <- <-. eexists. split; [reflexivity|]. apply erel_token; [discriminate|exact R1].
Qed.
(** The current token is a single slash. *)
Definition slashed (lx : lexer) : Prop := lx_cur lx = cur_bump (lx_tok lx) /\ rem (lx_tok lx) = skipn (pos (lx_tok lx)) (lx_buf lx) /\ rem (lx_tok lx) <> [].
Lemma slashed_slice P u u' d d' lx lx' : hrel P u u' d d' lx lx' -> slashed lx -> slashed lx' -> same_slice u d d' lx lx'.
Proof.
  intros R (Hc & Hb & Hn) (Hc' & Hb' & Hn') q q' L Q1 Q2. destruct (hr_tok _ _ _ _ _ _ _ R) as (t1 & T1 & T2 & T3).
  rewrite Hc in *. rewrite Hc' in *. cbn [cur_bump pos rem] in *. rewrite tl_length in Q2. replace (S (pos (lx_tok lx)) - 1) with (pos (lx_tok lx)) by lia. replace (S (pos (lx_tok lx')) - 1) with (pos (lx_tok lx')) by lia.
  rewrite <- Hb, <- Hb', T1, T2. assert (N : 0 < List.length (rem (lx_tok lx))) by (destruct (rem (lx_tok lx)); [congruence|cbn; lia]). rewrite T1, app_length in N, Q2.
  replace (q' - pos (lx_tok lx')) with (q - pos (lx_tok lx)) by lia. rewrite !firstn_app. replace (q - pos (lx_tok lx) - List.length t1) with 0 by lia. reflexivity.
Qed.
