(** Locality of the remaining scanners, and of [consume]. *)
From Coq Require Import List NArith Bool Lia Arith String.
From Coq.Strings Require Import Byte.
From Verif Require Import Bytes Token Tables Lexer SpecLexer LexerFacts ConsumeFacts LexEval TokenText Local.
Import ListNotations.
Open Scope nat_scope.
Open Scope list_scope.

(** ** Scanners that also say how they ended *)
Definition sloc {A} (good : A -> bool) (s : nat -> str -> outcome (A * cursor)) : Prop :=
  forall p r k c, s p r = Done (k, c) -> List.length (rem c) <= List.length r /\ (good k = true -> List.length (rem c) < List.length r) /\
  forall u u' d d' t p', heads u u' -> r = t ++ u -> p + d' = p' + d -> List.length u <= List.length (rem c) ->
  looks u u' \/ good k = true \/ List.length u < List.length (rem c) ->
  exists c', s p' (t ++ u') = Done (k, c') /\ crel u u' d d' c c'.
(** The first byte of [t ++ u']. *)
Lemma head_same u u' t b r : b :: r = t ++ u -> looks u u' \/ List.length u < List.length (b :: r) -> exists r', t ++ u' = b :: r'.
Proof.
  intros E H. destruct t as [|x t].
  - cbn in *. destruct H as [H|H]; [|rewrite <- E in H; cbn in H; lia]. destruct (looks_cons _ _ H) as (y & s & s' & E1 & ->). rewrite E1 in E. injection E as <- <-. eauto.
  - injection E as <- ->. cbn. eauto.
Qed.
Ltac same H := match goal with X : looks _ _ \/ _ |- _ => destruct X as [X|[X|X]]; [left; exact X|discriminate X|right; exact X] end.

Lemma sloc_string q : sloc (fun k => k) (scan_string q).
Proof.
  intros p r. remember (List.length r) as n eqn:En. revert p r En. induction n as [n IH] using lt_wf_ind. intros p r En k c E.
  destruct r as [|b r]; cbn [scan_string] in E; [discriminate|]. cbn [List.length] in *.
  destruct (byte_eqb b q) eqn:Eq.
  { injection E as <- <-. cbn [rem]. split; [lia|]. split; [lia|]. intros u u' d d' t p' Hh Er Q Z X. destruct (past _ _ _ _ Er Z) as (t1 & -> & ->). cbn [app scan_string]. rewrite Eq.
    eexists. split; [reflexivity|]. apply crel_at. lia. }
  destruct (byte_eqb b "\") eqn:Es.
  { destruct r as [|c0 r]; [discriminate|]. cbn [List.length] in *. destruct (byte_eqb c0 x00) eqn:Ez.
    - injection E as <- <-. cbn [rem List.length]. split; [lia|]. split; [discriminate|]. intros u u' d d' t p' Hh Er Q Z X. destruct (past _ _ _ _ Er Z) as (t1 & -> & E2). cbn [app scan_string]. rewrite Eq, Es.
      destruct (head_same u u' t1 c0 r E2) as (r' & E'); [same X|]. rewrite E', Ez. eexists. split; [reflexivity|]. rewrite E2, <- E'. apply crel_at. lia.
    - destruct (IH (List.length r) ltac:(lia) (S (S p)) r eq_refl k c E) as (L & L1 & K). split; [lia|]. split; [lia|]. intros u u' d d' t p' Hh Er Q Z X.
      destruct (past _ _ _ _ Er) as (t1 & -> & E2); [cbn; lia|]. destruct (past _ _ _ _ E2) as (t2 & -> & E3); [cbn; lia|]. cbn [app scan_string]. rewrite Eq, Es, Ez. apply K; auto. lia. }
  destruct (byte_eqb b x00) eqn:Ez.
  { injection E as <- <-. cbn [rem List.length]. split; [lia|]. split; [discriminate|]. intros u u' d d' t p' Hh Er Q Z X.
    destruct (head_same u u' t b r Er) as (r' & E'); [same X|]. rewrite E'. cbn [scan_string]. rewrite Eq, Es, Ez. eexists. split; [reflexivity|]. rewrite Er, <- E'. now apply crel_at. }
  destruct (IH (List.length r) ltac:(lia) (S p) r eq_refl k c E) as (L & L1 & K). split; [lia|]. split; [lia|]. intros u u' d d' t p' Hh Er Q Z X.
  destruct (past _ _ _ _ Er) as (t1 & -> & E2); [cbn; lia|]. cbn [app scan_string]. rewrite Eq, Es, Ez. apply K; auto. lia.
Qed.
(** The byte after the first one of [c0 :: r], seen from the other source. *)
Lemma next_same u u' t c0 r : c0 :: r = t ++ u -> looks u u' \/ List.length u < List.length (c0 :: r) -> exists r2, t ++ u' = c0 :: r2.
Proof. intros E H. exact (head_same u u' t c0 r E H). Qed.
Lemma sloc_block : sloc (fun k => k) scan_block_comment.
Proof.
  intros p r. remember (List.length r) as n eqn:En. revert p r En. induction n as [n IH] using lt_wf_ind. intros p r En k c E.
  destruct r as [|b r]; cbn [scan_block_comment] in E; [discriminate|]. cbn [List.length] in *.
  destruct (byte_eqb b "*") eqn:Eq.
  { destruct r as [|c0 r]; [discriminate|]. cbn [List.length] in *. destruct (byte_eqb c0 "/") eqn:Es; [|destruct (byte_eqb c0 x00) eqn:Ez].
    - injection E as <- <-. cbn [rem]. split; [lia|]. split; [lia|]. intros u u' d d' t p' Hh Er Q Z X. destruct (past _ _ _ _ Er) as (t1 & -> & E2); [cbn; lia|]. destruct (past _ _ _ _ E2) as (t2 & -> & ->); [cbn; lia|].
      cbn [app scan_block_comment]. rewrite Eq, Es. eexists. split; [reflexivity|]. apply crel_at. lia.
    - injection E as <- <-. cbn [rem List.length]. split; [lia|]. split; [discriminate|]. intros u u' d d' t p' Hh Er Q Z X. destruct (past _ _ _ _ Er Z) as (t1 & -> & E2). cbn [app scan_block_comment]. rewrite Eq.
      destruct (head_same u u' t1 c0 r E2) as (r' & E'); [same X|]. rewrite E', Es, Ez. eexists. split; [reflexivity|]. rewrite E2, <- E'. apply crel_at. lia.
    - destruct (IH (S (List.length r)) ltac:(lia) (S p) (c0 :: r) eq_refl k c E) as (L & L1 & K). split; [cbn in *; lia|]. split; [cbn in *; lia|]. intros u u' d d' t p' Hh Er Q Z X.
      destruct (past _ _ _ _ Er) as (t1 & -> & E2); [cbn in *; lia|].
      destruct (head_same u u' t1 c0 r E2) as (r2 & E'). { destruct X as [X|[X|X]]; [left; exact X|right; specialize (L1 X); cbn in *; lia|right; cbn in *; lia]. }
      destruct (K u u' d d' t1 (S p') Hh E2 ltac:(lia) Z X) as (c' & E1 & C). exists c'. split; [|exact C].
      cbn [app scan_block_comment]. rewrite Eq. rewrite E' in *. rewrite Es, Ez. exact E1. }
  destruct (byte_eqb b x00) eqn:Ez.
  { injection E as <- <-. cbn [rem List.length]. split; [lia|]. split; [discriminate|]. intros u u' d d' t p' Hh Er Q Z X.
    destruct (head_same u u' t b r Er) as (r' & E'); [same X|]. rewrite E'. cbn [scan_block_comment]. rewrite Eq, Ez. eexists. split; [reflexivity|]. rewrite Er, <- E'. now apply crel_at. }
  destruct (IH (List.length r) ltac:(lia) (S p) r eq_refl k c E) as (L & L1 & K). split; [lia|]. split; [lia|]. intros u u' d d' t p' Hh Er Q Z X.
  destruct (past _ _ _ _ Er) as (t1 & -> & E2); [cbn; lia|]. cbn [app scan_block_comment]. rewrite Eq, Ez. apply K; auto. lia.
Qed.
Definition regex_good (k : regex_end) : bool := match k with RegexEof => false | _ => true end.
Lemma sloc_regex i : sloc regex_good (scan_regex i).
Proof.
  intros p r. remember (List.length r) as n eqn:En. revert i p r En. induction n as [n IH] using lt_wf_ind. intros i p r En k c E.
  destruct r as [|b r]; cbn [scan_regex] in E; [discriminate|]. cbn [List.length] in *.
  assert (Step : forall j, scan_regex j (S p) r = Done (k, c) -> (forall p' s, scan_regex i p' (b :: s) = scan_regex j (S p') s) ->
    List.length (rem c) <= n /\ (regex_good k = true -> List.length (rem c) < n) /\ (forall u u' d d' t p', heads u u' -> b :: r = t ++ u -> p + d' = p' + d -> List.length u <= List.length (rem c) ->
       looks u u' \/ regex_good k = true \/ List.length u < List.length (rem c) ->
       exists c', scan_regex i p' (t ++ u') = Done (k, c') /\ crel u u' d d' c c')).
  { intros j E1 X. destruct (IH (List.length r) ltac:(lia) j (S p) r eq_refl k c E1) as (L & L1 & K). split; [lia|]. split; [lia|]. intros u u' d d' t p' Hh Er Q Z Y.
    destruct (past _ _ _ _ Er) as (t1 & -> & E2); [cbn; lia|]. cbn [app]. rewrite X. apply K; auto. lia. }
  destruct (byte_eqb b "[") eqn:E1; [apply (Step true E); intros; cbn [scan_regex]; now rewrite E1|].
  destruct (byte_eqb b "]") eqn:E2; [apply (Step false E); intros; cbn [scan_regex]; now rewrite E1, E2|].
  destruct (byte_eqb b "/") eqn:E3.
  { destruct i; [apply (Step true E); intros; cbn [scan_regex]; now rewrite E1, E2, E3|].
    injection E as <- <-. cbn [rem]. split; [lia|]. split; [lia|]. intros u u' d d' t p' Hh Er Q Z X. destruct (past _ _ _ _ Er Z) as (t1 & -> & ->). cbn [app scan_regex]. rewrite E1, E2, E3.
    eexists. split; [reflexivity|]. apply crel_at. lia. }
  destruct (byte_eqb b "\") eqn:Es.
  { destruct r as [|c0 r]; [discriminate|]. cbn [List.length] in *. destruct (byte_eqb c0 x00) eqn:Ez.
    - injection E as <- <-. cbn [rem List.length]. split; [lia|]. split; [discriminate|]. intros u u' d d' t p' Hh Er Q Z X. destruct (past _ _ _ _ Er Z) as (t1 & -> & E4). cbn [app scan_regex]. rewrite E1, E2, E3, Es.
      destruct (head_same u u' t1 c0 r E4) as (r' & E'); [same X|]. rewrite E', Ez. eexists. split; [reflexivity|]. rewrite E4, <- E'. apply crel_at. lia.
    - destruct (IH (List.length r) ltac:(lia) i (S (S p)) r eq_refl k c E) as (L & L1 & K). split; [lia|]. split; [lia|]. intros u u' d d' t p' Hh Er Q Z X.
      destruct (past _ _ _ _ Er) as (t1 & -> & E4); [cbn; lia|]. destruct (past _ _ _ _ E4) as (t2 & -> & E5); [cbn; lia|]. cbn [app scan_regex]. rewrite E1, E2, E3, Es, Ez. apply K; auto. lia. }
  destruct (byte_eqb b x0a) eqn:Ez; [|apply (Step i E); intros; cbn [scan_regex]; now rewrite E1, E2, E3, Es, Ez].
  injection E as <- <-. cbn [rem]. split; [lia|]. split; [lia|]. intros u u' d d' t p' Hh Er Q Z X. destruct (past _ _ _ _ Er Z) as (t1 & -> & ->). cbn [app scan_regex]. rewrite E1, E2, E3, Es, Ez.
  eexists. split; [reflexivity|]. apply crel_at. lia.
Qed.
(** Templates: also where the quasi ends. *)
Definition template_good (k : template_end) : bool := match k with TplEof => false | _ => true end.
Lemma template_loc p r k e c : scan_template p r = Done (k, e, c) -> List.length (rem c) <= List.length r /\ (template_good k = true -> List.length (rem c) < List.length r) /\
  (p <= e /\ e <= pos c /\ pos c + List.length (rem c) = p + List.length r) /\
  forall u u' d d' t p', heads u u' -> r = t ++ u -> p + d' = p' + d -> List.length u <= List.length (rem c) ->
  looks u u' \/ template_good k = true \/ List.length u < List.length (rem c) ->
  exists e' c', scan_template p' (t ++ u') = Done (k, e', c') /\ e + d' = e' + d /\ crel u u' d d' c c'.
Proof.
  remember (List.length r) as n eqn:En. revert p r En. induction n as [n IH] using lt_wf_ind. intros p r En E.
  destruct r as [|b r]; cbn [scan_template] in E; [discriminate|]. cbn [List.length] in *.
  destruct (byte_eqb b "`") eqn:Eq.
  { injection E as <- <- <-. cbn [rem pos]. split; [lia|]. split; [lia|]. split; [lia|]. intros u u' d d' t p' Hh Er Q Z X. destruct (past _ _ _ _ Er Z) as (t1 & -> & ->). cbn [app scan_template]. rewrite Eq.
    do 2 eexists. split; [reflexivity|]. split; [lia|]. apply crel_at. lia. }
  destruct (byte_eqb b "$") eqn:Ed.
  { destruct r as [|c0 r]; [discriminate|]. cbn [List.length] in *. destruct (byte_eqb c0 "{") eqn:Es.
    - injection E as <- <- <-. cbn [rem pos]. split; [lia|]. split; [lia|]. split; [lia|]. intros u u' d d' t p' Hh Er Q Z X. destruct (past _ _ _ _ Er) as (t1 & -> & E2); [cbn; lia|]. destruct (past _ _ _ _ E2) as (t2 & -> & ->); [cbn; lia|].
      cbn [app scan_template]. rewrite Eq, Ed, Es. do 2 eexists. split; [reflexivity|]. split; [lia|]. apply crel_at. lia.
    - destruct (IH (S (List.length r)) ltac:(lia) (S p) (c0 :: r) eq_refl E) as (L & L1 & L2 & K). split; [cbn in *; lia|]. split; [cbn in *; lia|]. split; [lia|]. intros u u' d d' t p' Hh Er Q Z X.
      destruct (past _ _ _ _ Er) as (t1 & -> & E2); [cbn in *; lia|].
      destruct (head_same u u' t1 c0 r E2) as (r2 & E'). { destruct X as [X|[X|X]]; [left; exact X|right; specialize (L1 X); cbn in *; lia|right; cbn in *; lia]. }
      destruct (K u u' d d' t1 (S p') Hh E2 ltac:(lia) Z X) as (e' & c' & E1 & Qe & C). exists e', c'. split; [|split; [exact Qe|exact C]].
      cbn [app scan_template]. rewrite Eq, Ed. rewrite E' in *. rewrite Es. exact E1. }
  destruct (byte_eqb b "\") eqn:Es.
  { destruct r as [|c0 r]; [discriminate|]. cbn [List.length] in *. destruct (byte_eqb c0 x00) eqn:Ez.
    - injection E as <- <- <-. cbn [rem pos List.length]. split; [lia|]. split; [discriminate|]. split; [lia|]. intros u u' d d' t p' Hh Er Q Z X. destruct (past _ _ _ _ Er Z) as (t1 & -> & E2). cbn [app scan_template]. rewrite Eq, Ed, Es.
      destruct (head_same u u' t1 c0 r E2) as (r' & E'); [same X|]. rewrite E', Ez. do 2 eexists. split; [reflexivity|]. split; [lia|]. rewrite E2, <- E'. apply crel_at. lia.
    - destruct (IH (List.length r) ltac:(lia) (S (S p)) r eq_refl E) as (L & L1 & L2 & K). split; [lia|]. split; [lia|]. split; [lia|]. intros u u' d d' t p' Hh Er Q Z X.
      destruct (past _ _ _ _ Er) as (t1 & -> & E2); [cbn; lia|]. destruct (past _ _ _ _ E2) as (t2 & -> & E3); [cbn; lia|]. cbn [app scan_template]. rewrite Eq, Ed, Es, Ez. apply K; auto. lia. }
  destruct (IH (List.length r) ltac:(lia) (S p) r eq_refl E) as (L & L1 & L2 & K). split; [lia|]. split; [lia|]. split; [lia|]. intros u u' d d' t p' Hh Er Q Z X.
  destruct (past _ _ _ _ Er) as (t1 & -> & E2); [cbn; lia|]. cbn [app scan_template]. rewrite Eq, Ed, Es. apply K; auto. lia.
Qed.

(** ** Strings, templates, comments *)
(** What is known at the end of a token. *)
Lemma calm_cond u u' t (g : bool) (n : nat) : (List.length u = n -> calm u u' t) -> List.length u <= n -> (g = false -> t = T_UnexpectedEndOfProgram) ->
  looks u u' \/ g = true \/ List.length u < n.
Proof.
  intros C L G. destruct (Nat.eq_dec (List.length u) n) as [E|]; [|right; right; lia]. destruct (C E) as [H|(_ & N & _)]; [left; exact H|]. right; left. destruct g; [reflexivity|]. now rewrite G in N.
Qed.
Lemma loc_template : loc read_template_kind.
Proof.
  intros lx lx1 E. unfold read_template_kind in E. cbv zeta in E. ob E as [[k e] c] E1 E2. destruct (template_loc _ _ _ _ _ E1) as (L & _ & (L1 & L2 & L3) & K).
  assert (Ec : lx_cur lx1 = c) by (destruct k; injection E2 as <-; reflexivity). rewrite Ec. split; [exact L|]. intros P u u' d d' lx' Hh R Z Ca.
  destruct (hr_cur _ _ _ _ _ _ _ R) as (t & Et & Et' & Q). destruct (K u u' d d' t (pos (lx_cur lx')) Hh Et Q Z) as (e' & c' & E' & Qe & C).
  { apply (calm_cond u u' (lx_token lx1)); auto. destruct k; try discriminate. injection E2 as <-. reflexivity. }
  unfold read_template_kind. cbv zeta. rewrite Et', E'. cbn [obind]. rewrite Et in E2.
  assert (F : firstn (e' - pos (lx_cur lx')) (t ++ u') = firstn (e - pos (lx_cur lx)) (t ++ u)).
  { rewrite Et, app_length in L3. replace (e' - pos (lx_cur lx')) with (e - pos (lx_cur lx)) by lia. rewrite !firstn_app. replace (e - pos (lx_cur lx) - List.length t) with 0 by lia. reflexivity. }
  destruct k; injection E2 as <-; (eexists; split; [reflexivity|]); (apply erel_token; [discriminate|]); rewrite ?F; try apply hrel_quasi; now apply hrel_cur.
Qed.
Lemma loc_TPL : loc h_TPL.
Proof. apply (loc_bump read_template_kind), loc_template. Qed.
Lemma loc_quoted q : loc (fun lx => obind (scan_string q (pos (lx_cur lx)) (rem (lx_cur lx))) (fun x => match x with (closed, c) => Done (set_token (if (closed : bool) then T_LiteralString else T_UnexpectedEndOfProgram) (set_cur c lx)) end)).
Proof.
  intros lx lx1 E. ob E as [k c] E1 E2. injection E2 as <-. destruct (sloc_string q _ _ _ _ E1) as (L & _ & K). split; [exact L|]. intros P u u' d d' lx' Hh R Z Ca. cbn in Z, Ca.
  destruct (hr_cur _ _ _ _ _ _ _ R) as (t & Et & Et' & Q). destruct (K u u' d d' t (pos (lx_cur lx')) Hh Et Q Z) as (c' & E' & C).
  { eapply calm_cond; [exact Ca|exact Z|]. now intros ->. }
  rewrite Et', E'. cbn [obind]. eexists. split; [reflexivity|]. apply erel_token; [destruct k; discriminate|]. now apply hrel_cur.
Qed.
(** The handlers that are only entered at certain bytes. *)
Definition at_byte (f : byte -> bool) (F : lexer -> outcome lexer) (lx : lexer) : outcome lexer :=
  obind (read_byte lx) (fun b => if f b then F lx else Panicked).
Lemma loc_QOT : loc h_QOT.
Proof.
  intros lx lx1 E. unfold h_QOT in E. ob E as b Eb E1. cbv zeta in E1. assert (L := loc_bump _ (loc_quoted b)). destruct (L lx lx1 E1) as [S K]. split; [exact S|]. intros P u u' d d' lx' Hh R Z Ca.
  destruct (K P u u' d d' lx' Hh R Z Ca) as (lx1' & E' & R1). exists lx1'. split; [|exact R1].
  unfold h_QOT. unfold read_byte in *. destruct (rem (lx_cur lx)) as [|x r] eqn:Er; [discriminate|]. injection Eb as ->.
  destruct (read_rel _ _ _ _ _ _ _ _ Hh (hr_cur _ _ _ _ _ _ _ R) Er) as (b' & r' & Er' & C). rewrite Er'. cbn [obind].
  assert (b' = b) as ->; [|exact E']. destruct C as [->|(X & _)]; [reflexivity|]. exfalso.
  assert (M := eats_bump b _ (loc_mono _ (loc_quoted b)) lx lx1 ltac:(exists r; exact Er) E1). rewrite X in M. lia.
Qed.
Lemma decode_split r c n : decode_char r = Some (c, n) -> exists s r1, r = s ++ r1 /\ List.length s = n /\ 1 <= n /\ Forall (fun b => is_continuation b = true) (tl s) /\ forall r2, decode_char (s ++ r2) = Some (c, n).
Proof.
  destruct r as [|b r]; [discriminate|]. unfold decode_char. intros E.
  destruct (byte_in x00 x7f b) eqn:A0. { injection E as <- <-. exists [b], r. do 3 (split; [cbn; auto; fail|]). split; [constructor|]. intros r2. cbn [app]. now rewrite A0. }
  destruct (byte_in xc2 xdf b) eqn:A1.
  { destruct r as [|c1 r]; [discriminate|]. destruct (is_continuation c1) eqn:I1; [|discriminate]. injection E as <- <-. exists [b; c1], r. do 3 (split; [cbn; auto; fail|]). split; [repeat constructor; auto|]. intros r2. cbn [app]. now rewrite A0, A1, I1. }
  destruct (byte_in xe0 xef b) eqn:A2.
  { destruct r as [|c1 [|c2 r]]; try discriminate. destruct (is_continuation c1) eqn:I1; [|discriminate]. destruct (is_continuation c2) eqn:I2; [|discriminate]. injection E as <- <-.
    exists [b; c1; c2], r. do 3 (split; [cbn; auto; fail|]). split; [repeat constructor; auto|]. intros r2. cbn [app]. now rewrite A0, A1, A2, I1, I2. }
  destruct (byte_in xf0 xf4 b) eqn:A3; [|discriminate].
  destruct r as [|c1 [|c2 [|c3 r]]]; try discriminate. destruct (is_continuation c1) eqn:I1; [|discriminate]. destruct (is_continuation c2) eqn:I2; [|discriminate]. destruct (is_continuation c3) eqn:I3; [|discriminate]. injection E as <- <-.
  exists [b; c1; c2; c3], r. split; [reflexivity|]. split; [reflexivity|]. split; [lia|]. split; [repeat constructor; auto|]. intros r2. cbn [app]. now rewrite A0, A1, A2, A3, I1, I2, I3.
Qed.
Lemma continuation_high c : is_continuation c = true -> (127 < byte_val c)%N.
Proof. unfold is_continuation, byte_in. intros I. apply andb_true_iff in I as [I _]. apply N.leb_le in I. change (byte_val x80) with 128%N in I. lia. Qed.
Lemma continuation_legal c : is_continuation c = true -> legal_in_label c = true.
Proof. destruct c; intros E; vm_compute in E; try discriminate E; reflexivity. Qed.
(** The same character is decoded. *)
Lemma decode_looks s r1 r' : looks (s ++ r1) r' -> (forall b, In b s -> (127 < byte_val b)%N) -> exists r2, r' = s ++ r2.
Proof.
  revert r'. induction s as [|b s IH]; intros r' H A; [exists r'; reflexivity|]. destruct r' as [|b' r']; [cbn in H; contradiction|]. destruct H as [<- [H|H]].
  - specialize (A b (or_introl eq_refl)). lia.
  - destruct (IH r' H) as (r2 & ->); [intros x I; apply A; now right|]. exists r2. reflexivity.
Qed.
Lemma decode_rel u u' t b r c n : heads u u' -> (127 < byte_val b)%N -> b :: r = t ++ u -> looks u u' \/ t <> [] -> decode_char (b :: r) = Some (c, n) ->
  decode_char (t ++ u') = Some (c, n) /\ (exists r', t ++ u' = b :: r').
Proof.
  intros Hh Hb Er X Ed. destruct (decode_split _ _ _ Ed) as (s & r1 & Es & Ls & N1 & Cs & D).
  assert (A : forall x, In x s -> (127 < byte_val x)%N).
  { destruct s as [|y s]; [cbn in Ls; lia|]. injection Es as <- _. cbn [tl] in Cs. rewrite Forall_forall in Cs. intros x [<-|I]; [exact Hb|]. apply continuation_high, Cs, I. }
  assert (Y : exists r2, t ++ u' = s ++ r2).
  { destruct (le_lt_dec (List.length s) (List.length t)) as [Le|Gt].
    - exists (skipn (List.length s) t ++ u'). rewrite app_assoc. f_equal. rewrite <- (firstn_skipn (List.length s) t) at 1. f_equal. rewrite Er in Es. apply (f_equal (firstn (List.length s))) in Es. rewrite !firstn_app, Nat.sub_diag, firstn_all, app_nil_r in Es.
      replace (List.length s - List.length t) with 0 in Es by lia. cbn in Es. rewrite app_nil_r in Es. exact Es.
    - assert (L : looks u u').
      { destruct X as [X|X]; [exact X|]. destruct Hh as [H|(b0 & r0 & c0 & r0' & -> & -> & Ic & _)]; [exact H|]. exfalso. rewrite Er in Es. clear - Es Gt X Cs Ic.
        destruct t as [|y t]; [exfalso; apply X; reflexivity|]. destruct s as [|y' s]; [cbn in Gt; lia|]. injection Es as _ Es. cbn [tl List.length] in *. assert (Gt' : List.length t < List.length s) by lia. clear Gt X y y'.
        revert t Es Gt'. induction s as [|z s IH]; intros t Es Gt; [cbn in Gt; lia|]. destruct t as [|w t].
        - injection Es as <- _. apply Forall_inv in Cs. congruence.
        - injection Es as _ Es. apply (IH (Forall_inv_tail Cs) t Es). cbn in Gt. lia. }
      apply (decode_looks s r1); [|exact A]. rewrite <- Es, Er. now apply looks_app. }
  destruct Y as (r2 & Y). rewrite Y. split; [apply D|]. destruct s as [|y s]; [cbn in Ls; lia|]. injection Es as <- _. cbn. eauto.
Qed.
Lemma crel_advance n u u' d d' c c' : crel u u' d d' c c' -> n + List.length u <= List.length (rem c) -> crel u u' d d' (cur_advance n c) (cur_advance n c').
Proof.
  intros (t & E & E' & Q) L. rewrite E, app_length in L. exists (skipn n t). unfold cur_advance. cbn [rem pos]. rewrite E, E', !skipn_app. replace (n - List.length t) with 0 by lia. cbn [skipn]. split; [reflexivity|]. split; [reflexivity|lia].
Qed.
Lemma loc_UNI alnum : loc (at_byte (fun b => (127 <? byte_val b)%N) (h_UNI alnum)).
Proof.
  intros lx lx1 E. unfold at_byte in E. ob E as b Eb E1. destruct (127 <? byte_val b)%N eqn:Wb; [|discriminate]. assert (Hb := proj1 (N.ltb_lt _ _) Wb).
  unfold read_byte in Eb. destruct (rem (lx_cur lx)) as [|x r] eqn:Er; [discriminate|]. injection Eb as ->. unfold h_UNI in E1. rewrite Er in E1.
  destruct (decode_char (b :: r)) as [[c n]|] eqn:Ed; [|discriminate]. assert (N1 := decode_char_multi _ _ _ _ Hb Ed). assert (N2 := proj2 (decode_char_length _ _ _ Ed)). cbn [List.length] in N2.
  set (F := fun lx => obind (read_label lx) (fun lx1 => Done (set_token T_Identifier lx1))).
  assert (LF : loc F) by (apply loc_skip; [exact halt_label|apply loc_done; discriminate]).
  assert (D : forall P u u' d d' lx', heads u u' -> hrel P u u' d d' lx lx' -> looks u u' \/ List.length u < S (List.length r) -> exists r', rem (lx_cur lx') = b :: r' /\ decode_char (b :: r') = Some (c, n)).
  { intros P u u' d d' lx' Hh R X. destruct (hr_cur _ _ _ _ _ _ _ R) as (t & Et & Et' & Q). rewrite Er in Et. destruct (decode_rel u u' t b r c n Hh Hb Et) as (D1 & r' & D2); [|exact Ed|].
    - destruct X as [X|X]; [left; exact X|right; intros ->; cbn in Et; rewrite <- Et in X; cbn in X; lia].
    - exists r'. rewrite Et'. split; [exact D2|]. rewrite <- D2. exact D1. }
  destruct (alnum c) eqn:Ea.
  - destruct (LF _ _ E1) as [S K]. cbn [set_cur lx_cur cur_advance rem] in S. rewrite skipn_length, Er in S. cbn [List.length] in S. split; [cbn [List.length]; lia|].
    intros P u u' d d' lx' Hh R Z Ca. destruct (D P u u' d d' lx' Hh R) as (r' & Er' & Ed'); [right; lia|].
    destruct (K P u u' d d' (set_cur (cur_advance (n - 1) (lx_cur lx')) lx') Hh) as (lx1' & E' & R1); [|exact Z|exact Ca|].
    { apply hrel_cur; [exact R|]. apply crel_advance; [apply R|]. rewrite Er. cbn [List.length]. lia. }
    exists lx1'. split; [|exact R1]. unfold at_byte, read_byte. rewrite Er'. cbn [obind]. rewrite Wb. unfold h_UNI. rewrite Er', Ed', Ea. exact E'.
  - injection E1 as <-. split; [cbn; rewrite ?Er; cbn; lia|]. intros P u u' d d' lx' Hh R Z Ca. cbn in Z, Ca. rewrite Er in Z, Ca. cbn in Z, Ca.
    destruct (D P u u' d d' lx' Hh R) as (r' & Er' & Ed').
    { destruct (Nat.eq_dec (List.length u) (S (List.length r))) as [X|]; [|right; lia]. destruct (Ca X) as [Y|(Y & _)]; [left; exact Y|congruence]. }
    exists (set_token T_UnexpectedToken lx'). split; [|now apply erel_token]. unfold at_byte, read_byte. rewrite Er'. cbn [obind]. rewrite Wb. unfold h_UNI. now rewrite Er', Ed', Ea.
Qed.
(** ** Keywords *)
Definition mloc {A} (Q : A -> Prop) (none : A) (M : lexer -> outcome (A * lexer)) : Prop :=
  forall K : A -> lexer -> outcome lexer, (forall a, Q a -> loc (K a)) -> (forall a, mono (K a)) -> (forall b, legal_in_label b = true -> eats b (K none)) ->
  loc (fun lx => obind (M lx) (fun p => match p with (a, lx1) => K a lx1 end)).
Lemma loc_read_split f F (G : byte -> lexer -> outcome lexer) : halts f -> (forall b, f b = true -> eats b F) -> loc F -> loc (fun lx => obind (read_byte lx) (fun b => G b lx)) ->
  loc (fun lx => obind (read_byte lx) (fun b => if f b : bool then F lx else G b lx)).
Proof.
  intros W EF LF LG lx lx1 E. ob E as b Eb E1. unfold read_byte in Eb. destruct (rem (lx_cur lx)) as [|x r] eqn:Er; [discriminate|]. injection Eb as ->. destruct (f b) eqn:Fb.
  - destruct (LF _ _ E1) as [S K]. rewrite Er in S. split; [exact S|]. intros P u u' d d' lx' Hh R Z Ca. destruct (K P u u' d d' lx' Hh R Z Ca) as (lx1' & E' & R1). exists lx1'. split; [|exact R1].
    unfold read_byte. destruct (read_rel _ _ _ _ _ _ _ _ Hh (hr_cur _ _ _ _ _ _ _ R) Er) as (b' & r' & Er' & C). rewrite Er'. cbn [obind].
    assert (b' = b) as ->; [|now rewrite Fb]. destruct C as [->|(X & _)]; [reflexivity|]. exfalso. assert (Y := EF b Fb lx lx1 ltac:(exists r; exact Er) E1). rewrite X in Y. lia.
  - destruct (LG lx lx1) as [S K]; [unfold read_byte; rewrite Er; exact E1|]. rewrite Er in S. split; [exact S|]. intros P u u' d d' lx' Hh R Z Ca. destruct (K P u u' d d' lx' Hh R Z Ca) as (lx1' & E' & R1). exists lx1'. split; [|exact R1].
    unfold read_byte in *. destruct (read_rel _ _ _ _ _ _ _ _ Hh (hr_cur _ _ _ _ _ _ _ R) Er) as (b' & r' & Er' & C). rewrite Er' in *. cbn [obind] in *.
    assert (f b' = false) as ->; [|exact E']. destruct C as [->|(_ & _ & St & _)]; [exact Fb|exact (W b' St)].
Qed.
Definition fine (x : byte) : bool := negb (at_most_space x || byte_eqb x "/").
Lemma halt_eq x : fine x = true -> halts (fun b => byte_eqb b x).
Proof.
  unfold fine. rewrite negb_true_iff, orb_false_iff. intros [E1 E2] c [W| ->].
  - destruct (byte_eqb c x) eqn:E; [|reflexivity]. apply byte_eqb_eq in E. subst c. unfold at_most_space in E1. apply N.leb_gt in E1. unfold white in W. lia.
  - destruct (byte_eqb "/" x) eqn:E; [|reflexivity]. apply byte_eqb_eq in E. subst x. discriminate E2.
Qed.
Lemma match_seq_mono bs lx k lx1 b : head lx b -> match_seq bs lx = Done (k, lx1) -> size lx1 < size lx.
Proof.
  revert lx b. induction bs as [|x bs IH]; intros lx b (r & Er) E; cbn [match_seq] in E; cbv zeta in E; ob E as c E1 E2.
  - injection E2 as <- <-. cbn. rewrite Er. cbn. lia.
  - destruct c as [c lx2]. unfold next_byte in E1. ob E1 as c2 E3 E4. injection E4 as -> <-.
    destruct (byte_eqb c x); [|injection E2 as <- <-; cbn; rewrite Er; cbn; lia]. apply read_byte_head in E3. specialize (IH _ _ E3 E2). cbn in IH. rewrite Er in *. cbn in *. lia.
Qed.
Lemma eats_seq b bs K : (forall a, mono (K a)) -> eats b (fun lx => obind (match_seq bs lx) (fun p => match p with (a, lx1) => K a lx1 end)).
Proof. intros M lx lx1 H E. ob E as [k lx2] E1 E2. apply M in E2. apply (match_seq_mono _ _ _ _ _ H) in E1. lia. Qed.
Lemma mloc_seq bs : forallb fine bs = true -> mloc (fun _ => True) false (match_seq bs).
Proof.
  induction bs as [|x bs IH]; intros N K L M Ea.
  - eapply loc_ext; [|apply (loc_bump (fun lx => obind (read_byte lx) (fun b => K (negb (legal_in_label b)) lx)))].
    + intros lx. unfold match_seq. cbv zeta. destruct (read_byte (bump lx)); reflexivity.
    + apply (loc_read (fun b => negb (legal_in_label b)) K); [|intros a; now apply L]. intros b c S. rewrite (halt_label c S). destruct (legal_in_label b) eqn:Lb; [right; now apply Ea|left; reflexivity].
  - cbn [forallb] in N. apply andb_true_iff in N as [N1 N2].
    eapply loc_ext; [|apply (loc_next_if (fun b => byte_eqb b x) (fun lx1 => obind (match_seq bs lx1) (fun p => match p with (a, lx2) => K a lx2 end)) (fun lx1 => K false lx1))].
    + intros lx. cbn [match_seq]. destruct (next_byte lx) as [[b lx1]| | |]; [|reflexivity..]. cbn [obind]. destruct (byte_eqb b x); reflexivity.
    + now apply halt_eq.
    + intros b _. apply eats_seq. exact M.
    + apply IH; assumption.
    + now apply L.
Qed.
Fixpoint kok (k : ktrie) : bool :=
  match k with
  | KSeq bs t => (forallb fine bs && negb (token_eqb t T_Accessor))%bool
  | KBranch d l => (match d with Some t => negb (token_eqb t T_Accessor) | None => true end && (fix go (l : list (byte * ktrie)) : bool := match l with [] => true | (m, k') :: l' => (fine m && kok k' && go l')%bool end) l)%bool
  end.
Lemma ktrie_nested (P : ktrie -> Prop) : (forall bs t, P (KSeq bs t)) -> (forall d l, Forall (fun x => P (snd x)) l -> P (KBranch d l)) -> forall k, P k.
Proof.
  intros HS HB. fix IH 1. intros [bs t|d l]; [apply HS|]. apply HB. induction l as [|[m k] l IHl]; constructor; [apply IH|exact IHl].
Qed.
Lemma match_label_mono k : forall lx o lx1 b, head lx b -> match_label k lx = Done (o, lx1) -> size lx1 < size lx.
Proof.
  induction k as [bs t|d l IH] using ktrie_nested; intros lx o lx1 b H E; cbn [match_label] in E.
  - ob E as [k lx2] E1 E2. injection E2 as <- <-. exact (match_seq_mono _ _ _ _ _ H E1).
  - ob E as [c lx2] E1 E2. unfold next_byte in E1. ob E1 as c2 E3 E4. injection E4 as -> <-. destruct H as (r & Er). apply read_byte_head in E3.
    revert E2. induction IH as [|[m k] l IH _ IHl]; intros E2.
    + injection E2 as _ <-. cbn. rewrite Er. cbn. lia.
    + destruct (byte_eqb c m); [|exact (IHl E2)]. specialize (IH _ _ _ _ E3 E2). cbn in IH. rewrite Er in *. cbn in *. lia.
Qed.
Lemma mloc_label : forall k, kok k = true -> mloc (fun o => o <> Some T_Accessor) None (match_label k).
Proof.
  intros k. induction k as [bs t|d l IH] using ktrie_nested; intros Ok K L M Ea.
  - cbn [kok] in Ok. apply andb_true_iff in Ok as [O1 O2]. eapply loc_ext; [|apply (mloc_seq bs O1) with (K := fun ok lx1 => K (if ok : bool then Some t else None) lx1)].
    + intros lx. cbn [match_label]. destruct (match_seq bs lx) as [[ok lx1]| | |]; reflexivity.
    + intros a _. apply L. destruct a; [|discriminate]. intros [= ->]. discriminate O2.
    + intros a. apply M.
    + exact Ea.
  - pose (G := fun l b lx => obind ((fix go (l : list (byte * ktrie)) : outcome (option token * lexer) :=
         match l with
         | [] => Done (match d with Some t => if legal_in_label b then None else Some t | None => None end, lx)
         | (m, k') :: l' => if byte_eqb b m then match_label k' lx else go l'
         end) l) (fun p => match p with (a, lx1) => K a lx1 end)).
    eapply loc_ext; [|apply (loc_bump (fun lx => obind (read_byte lx) (fun b => G l b lx)))].
    + intros lx. unfold G. cbn [match_label]. unfold next_byte. destruct (read_byte (bump lx)); reflexivity.
    + cbn [kok] in Ok. apply andb_true_iff in Ok as [Od Ok].
      pose (K' := fun a : option token => match a with Some t => if token_eqb t T_Accessor then fun _ => Panicked else K a | None => K a end).
      assert (LK : forall a, loc (K' a)). { intros [t|]; unfold K'; [|now apply L]. destruct (token_eqb t T_Accessor) eqn:Et; [exact loc_fail|]. apply L. intros [= ->]. discriminate Et. }
      revert Ok. induction IH as [|[m k] l IH _ IHl]; intros Ok.
      * unfold G. cbn [obind]. eapply loc_ext; [|apply (loc_read (fun b => match d with Some t => if legal_in_label b then None else Some t | None => None end) K')].
        -- intros lx. cbv beta. destruct (read_byte lx) as [b| | |]; [|reflexivity..]. unfold K'. cbn [obind]. destruct d as [t|]; [|reflexivity]. destruct (legal_in_label b); [reflexivity|]. apply negb_true_iff in Od. now rewrite Od.
        -- intros b c S. rewrite (halt_label c S). destruct d as [t|]; [|left; reflexivity]. destruct (legal_in_label b) eqn:Lb; [right; exact (Ea b Lb)|left; reflexivity].
        -- exact LK.
      * apply andb_true_iff in Ok as [Ok O3]. apply andb_true_iff in Ok as [O1 O2].
        eapply loc_ext; [|apply (loc_read_split (fun b => byte_eqb b m) (fun lx => obind (match_label k lx) (fun p => match p with (a, lx1) => K a lx1 end)) (G l))].
        -- intros lx. cbv beta. destruct (read_byte lx) as [b| | |]; [|reflexivity..]. unfold G. cbn [obind]. destruct (byte_eqb b m); reflexivity.
        -- apply halt_eq, O1.
        -- intros b _ lx lx1 H E. ob E as [o lx2] E1 E2. apply M in E2. apply (match_label_mono k _ _ _ _ H) in E1. lia.
        -- apply (IH O2 K L M Ea).
        -- exact (IHl O3).
Qed.
Lemma loc_keyword k : kok k = true -> loc (label_or_keyword k).
Proof.
  intros Ok. apply (mloc_label k Ok (fun o lx1 => match o with Some t => Done (set_token t lx1) | None => obind (read_label lx1) (fun lx2 => Done (set_token T_Identifier lx2)) end)).
  - intros [t|] N.
    + apply loc_done. congruence.
    + apply loc_skip; [exact halt_label|apply loc_done; discriminate].
  - intros [t|]; [apply mono_done|apply mono_skip, mono_done].
  - intros b Lb. apply eats_skip; [exact Lb|apply mono_done].
Qed.
(** ** The division sign, or a comment *)
Lemma loc_comment again : loc again -> loc (fun lx => obind (scan_block_comment (pos (lx_cur lx)) (rem (lx_cur lx)))
  (fun x => match x with (closed, c) => if (closed : bool) then again (set_cur c lx) else Done (set_token T_UnexpectedEndOfProgram (set_cur c lx)) end)).
Proof.
  intros LA lx lx1 E. ob E as [k c] E1 E2. destruct (sloc_block _ _ _ _ E1) as (L & _ & K). destruct k.
  - destruct (LA _ _ E2) as [L2 K2]. cbn in L2. split; [lia|]. intros P u u' d d' lx' Hh R Z Ca.
    destruct (hr_cur _ _ _ _ _ _ _ R) as (t & Et & Et' & Q). destruct (K u u' d d' t (pos (lx_cur lx')) Hh Et Q ltac:(lia) (or_intror (or_introl eq_refl))) as (c' & E' & C).
    rewrite Et', E'. cbn [obind]. apply (K2 P u u' d d'); auto. now apply hrel_cur.
  - injection E2 as <-. split; [exact L|]. intros P u u' d d' lx' Hh R Z Ca. cbn in Z, Ca.
    destruct (hr_cur _ _ _ _ _ _ _ R) as (t & Et & Et' & Q). destruct (K u u' d d' t (pos (lx_cur lx')) Hh Et Q ltac:(lia)) as (c' & E' & C).
    { eapply calm_cond; [exact Ca|exact Z|reflexivity]. }
    rewrite Et', E'. cbn [obind]. eexists. split; [reflexivity|]. apply erel_token; [discriminate|]. now apply hrel_cur.
Qed.
Definition drops (F : lexer -> outcome lexer) : Prop :=
  (forall lx lx1 b r, F lx = Done lx1 -> rem (lx_cur lx) = b :: r -> white b -> size lx1 < size lx) /\
  (forall lx lx1 r, F lx = Done lx1 -> rem (lx_cur lx) = x00 :: r -> lx_token lx1 = T_EndOfProgram).
(** A line comment ends at a line break or at the end; the next call reads from there. *)
Lemma line_stop p r c : scan_while not_line_end p r = Done c -> exists b s, rem c = b :: s /\ (b = x0a \/ b = x00).
Proof.
  intros E. apply scan_while_spec in E as (s & b & r' & _ & -> & _ & Fb). exists b, r'. split; [reflexivity|].
  unfold not_line_end in Fb. apply negb_false_iff, orb_true_iff in Fb as [Fb|Fb]; apply byte_eqb_eq in Fb; auto.
Qed.
Lemma loc_line again : loc again -> drops again -> loc (fun lx => obind (skip_while not_line_end lx) again).
Proof.
  intros LA [D1 D2] lx lx1 E. ob E as lx2 E1 E2. unfold skip_while in E1. ob E1 as c E3 E4. injection E4 as <-. destruct (LA _ _ E2) as [L2 K2]. cbn in L2.
  destruct (scan_while_loc _ _ _ _ E3) as [L K]. destruct (line_stop _ _ _ E3) as (b & s & Ec & Hb). split; [lia|]. intros P u u' d d' lx' Hh R Z Ca.
  destruct (hr_cur _ _ _ _ _ _ _ R) as (t & Et & Et' & Q). destruct (K u u' d d' t (pos (lx_cur lx')) Hh Et Q) as (c' & E' & C).
  - lia.
  - right. destruct (Nat.eq_dec (List.length u) (List.length (rem c))) as [Eu|]; [|right; lia]. left.
    destruct Hb as [-> | ->].
    + assert (X := D1 _ _ x0a s E2 Ec). cbn in X. specialize (X ltac:(unfold white; cbn; lia)). lia.
    + assert (X := D2 _ _ s E2 Ec). destruct (Ca ltac:(lia)) as [Y|(_ & _ & Y & _)]; [exact Y|contradiction].
  - unfold skip_while. rewrite Et', E'. cbn [obind]. apply (K2 P u u' d d'); auto. now apply hrel_cur.
Qed.
Lemma loc_SLH again : loc again -> drops again -> loc (h_SLH again).
Proof.
  intros LA D. assert (Lc := loc_comment again LA). assert (Ll := loc_line again LA D).
  intros lx lx1 E. unfold h_SLH in E. cbv zeta in E. ob E as [b lx2] E1 E2. unfold next_byte in E1. ob E1 as b1 E3 E4. injection E4 as -> <-. assert (Hd := read_byte_head _ _ E3). destruct Hd as (r & Er).
  pose (G := fun (a : bool * bool * bool) lx1 => if fst (fst a) then obind (skip_while not_line_end (bump lx1)) again else if snd (fst a) then
      obind (scan_block_comment (pos (lx_cur (bump lx1))) (rem (lx_cur (bump lx1)))) (fun x => match x with (closed, c) => if (closed : bool) then again (set_cur c (bump lx1)) else Done (set_token T_UnexpectedEndOfProgram (set_cur c (bump lx1))) end)
      else if snd a then Done (set_token T_OperatorDivideAssign (bump lx1)) else Done (set_token T_OperatorDivision lx1)).
  assert (LG : forall a, loc (G a)).
  { intros [[[|] [|]] [|]]; unfold G; cbn [fst snd]; first [exact (loc_bump _ Ll)|exact (loc_bump _ Lc)|apply (loc_bump (fun lx => Done (set_token _ lx))), loc_done; discriminate|apply loc_done; discriminate]. }
  assert (EG : forall a b, a <> (false, false, false) -> eats b (G a)).
  { intros [[[|] [|]] [|]] b0 N; unfold G; cbn [fst snd]; try (now destruct N);
      first [apply (eats_bump b0 (fun lx => obind (skip_while not_line_end lx) again)), loc_mono, Ll|apply (eats_bump b0 _ (loc_mono _ Lc))|apply eats_tok]. }
  pose (f := fun b => (byte_eqb b "/", byte_eqb b "*", byte_eqb b "=")).
  assert (Eq : forall lx, h_SLH again lx = obind (read_byte (bump lx)) (fun b => G (f b) (bump lx))).
  { intros lx0. unfold h_SLH, next_byte, G, f. cbv zeta. destruct (read_byte (bump lx0)); reflexivity. }
  assert (E5 : G (f b) (bump lx) = Done lx1) by exact E2.
  destruct (LG _ _ _ E5) as [S K]. cbn in S. rewrite tl_length in S. split; [lia|]. intros P u u' d d' lx' Hh R Z Ca.
  assert (Rb : hrel P u u' d d' (bump lx) (bump lx')). { apply hrel_cur; [exact R|]. apply crel_bump; [apply R|]. apply heads_len in Hh. lia. }
  destruct (read_rel _ _ _ _ _ _ _ _ Hh (hr_cur _ _ _ _ _ _ _ Rb) Er) as (b' & r' & Er' & C).
  destruct (K P u u' d d' _ Hh Rb Z Ca) as (lx1' & E' & R1). exists lx1'. split; [|exact R1].
  rewrite (Eq lx'). unfold read_byte. rewrite Er'. cbn [obind].
  assert (f b' = f b) as ->; [|exact E']. destruct C as [->|(X & X' & St & NL)]; [reflexivity|].
  assert (Fb : f b = (false, false, false)).
  { destruct (f b) as [[f1 f2] f3] eqn:Fb. destruct f1, f2, f3; try reflexivity; exfalso;
      (match type of Fb with _ = ?a => assert (Y := EG a b ltac:(discriminate) (bump lx) lx1 ltac:(exists r; exact Er) E5) end); rewrite X in Y; lia. }
  rewrite Fb in *. injection E5 as <-. assert (Sz : List.length u = size (bump lx)) by (rewrite X; reflexivity).
  destruct (Ca Sz) as [Y|(_ & _ & _ & Y)]; [contradiction|].
  assert (b' <> "/"%byte). { intros ->. apply (Y r'); [rewrite <- X'; exact Er'|reflexivity]. }
  destruct St as [W| ->]; [|congruence]. unfold f. rewrite (halt_eq "*" ltac:(reflexivity) b' (or_introl W)), (halt_eq "=" ltac:(reflexivity) b' (or_introl W)). apply byte_eqb_neq in H. now rewrite H.
Qed.
(** ** A handler, and [consume] *)
Definition guarded (alnum : N -> bool) (again : lexer -> outcome lexer) (h : byte_handler) : lexer -> outcome lexer :=
  match h with
  | H_UNI => at_byte (fun b => (127 <? byte_val b)%N) (h_UNI alnum)
  | _ => run_handler alnum again h
  end.
Lemma loc_handler alnum again h : loc again -> drops again -> loc (guarded alnum again h).
Proof.
  intros LA D. destruct h; cbn [guarded run_handler];
    first [ apply loc_single; discriminate | apply loc_closing; discriminate | exact loc_EOF | exact loc_SEM | exact loc_EQL | exact loc_EXL | exact loc_LSS | exact loc_MOR
          | apply loc_op_assign; discriminate | apply loc_op_double; [apply halt_eq; reflexivity|discriminate..] | exact loc_ATR | now apply loc_SLH | apply loc_UNI | exact loc_ZER
          | exact loc_DIG | exact loc_PRD | exact loc_QOT | exact loc_TPL | exact loc_IDT | apply loc_keyword; vm_compute; reflexivity ].
Qed.
Lemma handler_high b : handler_from_byte b = Some H_UNI -> (127 <? byte_val b)%N = true.
Proof. destruct b; intros E; vm_compute in E; try discriminate E; reflexivity. Qed.
Lemma guard_run alnum again b h lx : head lx b -> handler_from_byte b = Some h -> guarded alnum again h lx = run_handler alnum again h lx.
Proof.
  intros (r & Er) Hh. destruct h; try reflexivity; cbn [guarded run_handler]; unfold at_byte, read_byte; rewrite Er; cbn [obind]. now rewrite (handler_high b Hh).
Qed.
(** Where the token starts. *)
Lemma start_loc a p r k c : scan_token_start a p r = Done (k, c) -> List.length (rem c) <= List.length r /\
  forall u u' d d' t p', r = t ++ u -> p + d' = p' + d -> List.length u <= List.length (rem c) -> looks u u' \/ List.length u < List.length (rem c) ->
  exists c', scan_token_start a p' (t ++ u') = Done (k, c') /\ crel u u' d d' c c'.
Proof.
  revert a p. induction r as [|b r IH]; intros a p E; cbn [scan_token_start] in E; [discriminate|].
  destruct (handler_from_byte b) as [h|] eqn:Hh.
  - injection E as <- <-. cbn [rem]. split; [lia|]. intros u u' d d' t p' Er Q Z X.
    destruct (head_same u u' t b r Er X) as (r' & E'). rewrite E'. cbn [scan_token_start]. rewrite Hh. eexists. split; [reflexivity|]. rewrite Er, <- E'. now apply crel_at.
  - destruct (IH _ _ E) as [L K]. split; [cbn; lia|]. intros u u' d d' t p' Er Q Z X.
    destruct (past _ _ _ _ Er) as (t1 & -> & E2); [lia|]. cbn [app scan_token_start]. rewrite Hh. apply K; auto. lia.
Qed.
