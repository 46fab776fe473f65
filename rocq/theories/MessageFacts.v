(** How errors are shown: lemmas behind PropMessage.v. *)
From Coq Require Decimal DecimalFacts DecimalNat.
From Coq Require Import List NArith Bool String Arith Lia.
From Coq.Strings Require Import Byte.
From Verif Require Import Bytes Token Lexer SpecTokens SpecAst SpecUtf8 SpecError ErrorFmt Boundary Utf8Facts.
Import ListNotations.
Open Scope nat_scope.
Open Scope list_scope.

(** ** Numbers *)
Lemma digits_cons b s : digit b = true -> digits s -> digits (b :: s).
Proof. intros H K. constructor; auto. Qed.
Lemma uint_digits d : digits (uint_str d).
Proof. induction d; cbn [uint_str]; [constructor|..]; apply digits_cons; auto. Qed.
Lemma value_fold d : forall v, fold_left (fun v d => v * 10 + digit_value d)%N (uint_str d) v = N.of_nat (Nat.of_uint_acc d (N.to_nat v)).
Proof.
  induction d; intros v; cbn [uint_str fold_left Nat.of_uint_acc]; [now rewrite N2Nat.id|..]; rewrite IHd; f_equal; f_equal;
    cbn [digit_value]; rewrite ?Nat.tail_mul_spec; 
    match goal with |- context [digit_value ?b] => let x := eval vm_compute in (digit_value b) in change (digit_value b) with x end; lia.
Qed.
Lemma value_dec n : value_of 10 (dec n) = N.of_nat n.
Proof.
  unfold value_of, dec. rewrite value_fold. f_equal. change (N.to_nat 0) with 0.
  exact (DecimalNat.Unsigned.of_to n).
Qed.
Lemma dec_norm n : Nat.to_uint n = Decimal.unorm (Nat.to_uint n).
Proof. rewrite <- DecimalNat.Unsigned.to_of. now rewrite DecimalNat.Unsigned.of_to. Qed.
Lemma nzhead_head d r : Decimal.nzhead d <> Decimal.D0 r.
Proof. induction d; cbn [Decimal.nzhead]; try discriminate. exact IHd. Qed.
Lemma dec_decimal n : decimal n (dec n).
Proof.
  split; [|split; [|split]].
  - unfold dec. rewrite dec_norm. unfold Decimal.unorm. destruct (Decimal.nzhead _); discriminate.
  - apply uint_digits.
  - apply value_dec.
  - unfold dec. rewrite dec_norm. unfold Decimal.unorm. destruct (Decimal.nzhead (Nat.to_uint n)) eqn:E; cbn [uint_str]; intros r F; try discriminate F.
    + now injection F as <-.
    + exfalso. exact (nzhead_head _ _ E).
Qed.
Lemma value_app a b : value_of 10 (a ++ [b]) = (value_of 10 a * 10 + digit_value b)%N.
Proof. unfold value_of. now rewrite fold_left_app. Qed.
Lemma digit_small b : digit b = true -> (digit_value b < 10)%N.
Proof. destruct b; vm_compute; congruence. Qed.
Lemma digits_bound s : digits s -> (value_of 10 s < 10 ^ N.of_nat (List.length s))%N.
Proof.
  induction s as [|b s IH] using rev_ind; intros H; [reflexivity|].
  apply Forall_app in H as [H1 H2]. apply Forall_inv, digit_small in H2. rewrite value_app, app_length. cbn [List.length].
  replace (N.of_nat (List.length s + 1)) with (N.succ (N.of_nat (List.length s))) by lia. rewrite N.pow_succ_r'. specialize (IH H1). lia.
Qed.
Lemma digits_lower b s : digits (b :: s) -> b <> "0"%byte -> (10 ^ N.of_nat (List.length s) <= value_of 10 (b :: s))%N.
Proof.
  intros H N0. induction s as [|c s IH] using rev_ind.
  - apply Forall_inv in H. clear - H N0. destruct b; vm_compute in H; try discriminate H; vm_compute; congruence.
  - rewrite app_comm_cons, value_app, app_length. cbn [List.length].
    replace (N.of_nat (List.length s + 1)) with (N.succ (N.of_nat (List.length s))) by lia. rewrite N.pow_succ_r'.
    rewrite app_comm_cons in H. apply Forall_app in H as [H1 _]. specialize (IH H1). lia.
Qed.
Lemma log10_spec fuel : forall n, n <= fuel -> n < 10 ^ (log10_fuel fuel n) /\ (0 < n -> 10 ^ (log10_fuel fuel n - 1) <= n).
Proof.
  induction fuel as [|f IH]; intros n L; cbn [log10_fuel].
  - cbn. lia.
  - destruct (Nat.ltb 0 n) eqn:E; [|apply Nat.ltb_ge in E; cbn; lia]. apply Nat.ltb_lt in E.
    assert (D := Nat.div_mod n 10 ltac:(lia)). assert (M := Nat.mod_upper_bound n 10 ltac:(lia)).
    destruct (IH (n / 10)) as [U W]. { lia. }
    rewrite Nat.pow_succ_r'. split; [lia|]. intros _. replace (S (log10_fuel f (n / 10)) - 1) with (log10_fuel f (n / 10)) by lia.
    destruct (Nat.eq_dec (n / 10) 0) as [Z|Z].
    + rewrite Z. replace (log10_fuel f 0) with 0 by (destruct f; reflexivity). exact E.
    + specialize (W ltac:(lia)). destruct (log10_fuel f (n / 10)) as [|k]; [change (10 ^ 0) with 1 in U; lia|]. replace (S k - 1) with k in W by lia. rewrite Nat.pow_succ_r'. lia.
Qed.
Lemma dec_width n m : 1 <= n <= m -> List.length (dec n) <= log10 m.
Proof.
  intros [L U]. destruct (dec_decimal n) as (N0 & D & V & Z). destruct (dec n) as [|b s] eqn:E; [cbn; lia|].
  destruct (byte_eqb b "0") eqn:B.
  { apply byte_eqb_eq in B. subst. rewrite (Z _ eq_refl) in V. vm_compute in V. destruct n; [lia|discriminate]. }
  apply byte_eqb_neq in B. assert (G := digits_lower _ _ D B). rewrite V in G.
  destruct (log10_spec m m (Nat.le_refl m)) as [W _]. fold (log10 m) in W. cbn [List.length].
  assert (G' : 10 ^ List.length s <= n) by (assert (Q := Nat2N.inj_pow 10 (List.length s)); change (N.of_nat 10) with 10%N in Q; lia).
  assert (X : List.length s < log10 m); [|lia].
  apply (Nat.pow_lt_mono_r_iff 10); lia.
Qed.
Lemma pad_aligned w n : 1 <= n -> List.length (dec n) <= w -> aligned w n (pad w (dec n)).
Proof.
  intros L W. exists (dec n). split; [apply dec_decimal|]. unfold pad. rewrite app_length, repeat_length. split; [lia|reflexivity].
Qed.

(** ** Lines *)
Lemma not_lf b : b <> LF -> byte_eqb b x0a = false.
Proof. intros H. apply byte_eqb_neq. exact H. Qed.
Lemma split_no_lf l : ~ In LF l -> forall cur, split_lines cur l = match cur ++ l with [] => [] | x => [x] end.
Proof.
  induction l as [|b l IH]; intros N cur; cbn [split_lines].
  - rewrite app_nil_r. destruct cur; reflexivity.
  - rewrite not_lf by (intros ->; apply N; now left). rewrite IH by (intros K; apply N; now right). now rewrite <- app_assoc.
Qed.
Lemma split_line l : ~ In LF l -> forall cur s, split_lines cur (l ++ LF :: s) = (cur ++ l) :: split_lines [] s.
Proof.
  induction l as [|b l IH]; intros N cur s; cbn [split_lines app].
  - change (byte_eqb LF x0a) with true. now rewrite app_nil_r.
  - rewrite not_lf by (intros ->; apply N; now left). rewrite IH by (intros K; apply N; now right). now rewrite <- app_assoc.
Qed.
Lemma find_lf s : ~ In LF s \/ exists l s', s = l ++ LF :: s' /\ ~ In LF l.
Proof.
  induction s as [|b s IH]; [left; intros []|]. destruct (byte_eqb b LF) eqn:E.
  - apply byte_eqb_eq in E. subst. right. exists [], s. split; [reflexivity|intros []].
  - apply byte_eqb_neq in E. destruct IH as [IH|(l & s' & -> & N)].
    + left. intros [K|K]; [congruence|auto].
    + right. exists (b :: l), s'. split; [reflexivity|]. intros [K|K]; [congruence|auto].
Qed.
Lemma split_lines_of s : lines_of s (split_lines [] s).
Proof.
  remember (List.length s) as n eqn:E. revert s E. induction n as [n IH] using lt_wf_ind. intros s ->.
  destruct (find_lf s) as [N|(l & s' & -> & N)].
  - rewrite split_no_lf by auto. cbn [app]. destruct s; [constructor|]. constructor; [discriminate|auto].
  - rewrite split_line by auto. cbn [app]. constructor; [auto|]. eapply IH; [|reflexivity]. rewrite app_length. cbn. lia.
Qed.
Lemma lines_of_det s ls : lines_of s ls -> ls = split_lines [] s.
Proof.
  induction 1 as [|l N0 N|l s ls N H IH]; [reflexivity| |].
  - rewrite split_no_lf by auto. cbn. destruct l; [congruence|reflexivity].
  - rewrite split_line by auto. cbn. now rewrite IH.
Qed.
Lemma lines_of_length s ls : lines_of s ls -> (s = [] \/ exists p, s = p ++ [LF]) -> List.length ls = count_occ Byte.byte_eq_dec s LF.
Proof.
  assert (Z : forall l, ~ In LF l -> count_occ Byte.byte_eq_dec l LF = 0) by (intros; now apply count_occ_not_In).
  induction 1 as [|l N0 N|l s ls N H IH]; intros E.
  - reflexivity.
  - destruct E as [E|[p E]]; [congruence|]. destruct N. rewrite E. apply in_or_app. right. now left.
  - cbn [List.length]. rewrite count_occ_app. rewrite (Z l N). cbn [Nat.add]. rewrite count_occ_cons_eq by reflexivity. f_equal. apply IH.
    destruct E as [E|[p E]]; [destruct l; discriminate|]. destruct s as [|b s] using rev_ind; [left; reflexivity|]. right.
    exists s. rewrite app_comm_cons, app_assoc in E. apply app_inj_tail in E as [_ ->]. reflexivity.
Qed.
Lemma lines_of_app a b la lb : (a = [] \/ exists p, a = p ++ [LF]) -> lines_of a la -> lines_of b lb -> lines_of (a ++ b) (la ++ lb).
Proof.
  intros E H K. revert E. induction H as [|l N0 N|l s ls N H IH]; intros E.
  - exact K.
  - destruct E as [E|[p E]]; [congruence|]. destruct N. rewrite E. apply in_or_app. right. now left.
  - rewrite <- app_assoc. cbn [app]. constructor; [exact N|]. apply IH.
    destruct E as [E|[p E]]; [destruct l; discriminate|]. destruct s as [|x s] using rev_ind; [left; reflexivity|]. right.
    exists s. rewrite app_comm_cons, app_assoc in E. apply app_inj_tail in E as [_ ->]. reflexivity.
Qed.
(** Every text is some complete lines and an incomplete one. *)
Lemma last_line s : exists before rest, s = before ++ rest /\ (before = [] \/ exists p, before = p ++ [LF]) /\ ~ In LF rest.
Proof.
  induction s as [|b s IH] using rev_ind; [exists [], []; split; [reflexivity|split; [auto|intros []]]|].
  destruct (byte_eqb b LF) eqn:E.
  - apply byte_eqb_eq in E. subst. exists (s ++ [LF]), []. split; [now rewrite app_nil_r|]. split; [right; exists s; reflexivity|intros []].
  - apply byte_eqb_neq in E. destruct IH as (p & r & -> & P & N). exists p, (r ++ [b]). split; [now rewrite app_assoc|]. split; [exact P|].
    intros K. apply in_app_iff in K as [K|[K|[]]]; congruence.
Qed.

(** ** Characters *)
Lemma char_count_app a b : char_count (a ++ b) = char_count a + char_count b.
Proof. unfold char_count. now rewrite filter_app, app_length. Qed.
Lemma same_continuation b : ErrorFmt.is_continuation b = Lexer.is_continuation b.
Proof. reflexivity. Qed.
Lemma char_count_characters n s : characters n s -> char_count s = n.
Proof.
  induction 1 as [|n c s C K IH]; [reflexivity|]. rewrite char_count_app, IH. destruct (char_shape _ C) as (a & t & -> & L & _ & F).
  change (a :: t) with ([a] ++ t). rewrite char_count_app.
  replace (char_count [a]) with 1 by (unfold char_count; cbn [filter]; rewrite same_continuation, L; reflexivity).
  replace (char_count t) with 0; [lia|]. clear - F. unfold char_count. induction F as [|b t [Fb _] F IH]; [reflexivity|]. cbn [filter]. rewrite same_continuation, Fb. exact IH.
Qed.
Lemma boundary_char s i : boundary s i -> is_char_boundary s i = true.
Proof.
  intros (a & b & -> & <- & A & B). unfold is_char_boundary. rewrite app_length. destruct b as [|x b].
  - cbn [List.length]. rewrite Nat.add_0_r, Nat.compare_refl. reflexivity.
  - replace (Nat.compare _ _) with Lt by (symmetry; apply Nat.compare_lt_iff; cbn; lia).
    rewrite nth_error_app2 by lia. rewrite Nat.sub_diag. cbn [nth_error]. apply utf8_start in B. cbn in B.
    rewrite same_continuation, B. now rewrite orb_true_r.
Qed.
Lemma boundary_le s i : boundary s i -> i <= List.length s.
Proof. intros (a & b & -> & <- & _). rewrite app_length. lia. Qed.
Lemma boundary_zero s : utf8 s -> boundary s 0.
Proof. intros U. exists [], s. split; [reflexivity|]. split; [reflexivity|]. split; [apply utf8_nil|exact U]. Qed.
Lemma boundary_firstn s i : boundary s i -> utf8 (firstn i s).
Proof. intros (a & b & -> & <- & A & _). now rewrite firstn_app, Nat.sub_diag, firstn_all, app_nil_r. Qed.
Lemma slice_done s i j : boundary s i -> boundary s j -> i <= j -> str_slice s i j = Done (firstn (j - i) (skipn i s)).
Proof.
  intros A B L. unfold str_slice. rewrite (boundary_char _ _ A), (boundary_char _ _ B). apply Nat.leb_le in L. now rewrite L.
Qed.
Lemma utf8_lf_split a b : utf8 (a ++ b) -> (a = [] \/ exists p, a = p ++ [LF]) -> utf8 a /\ utf8 b.
Proof.
  intros U [->|[p ->]]; [split; [apply utf8_nil|exact U]|]. apply utf8_split; [exact U|].
  rewrite <- app_assoc in U. cbn [app] in U. destruct U as [n U]. apply utf8_bd in U as [_ U].
  assert (G : asc (LF :: b)). { clear - U. induction p as [|x p IH]; [exact U|]. apply IH, U. }
  eapply bd_cons; [exact G|reflexivity].
Qed.
Lemma boundary_sub s i j : boundary s i -> boundary s j -> i <= j -> utf8 (firstn (j - i) (skipn i s)).
Proof.
  intros (a & b & -> & <- & A & B) (a' & b' & E & <- & A' & B') L.
  rewrite skipn_app, skipn_all, Nat.sub_diag. cbn [skipn app].
  assert (G : exists c, a' = a ++ c /\ b = c ++ b').
  { clear - E L. revert a' E L. induction a as [|x a IH]; intros a' E L; [exists a'; auto|]. destruct a' as [|y a']; [cbn in L; lia|].
    injection E as <- E. destruct (IH a' E) as (c & -> & ->); [cbn in L; lia|]. exists c. auto. }
  destruct G as (c & -> & ->). rewrite app_length. replace (List.length a + List.length c - List.length a) with (List.length c) by lia.
  rewrite firstn_app, Nat.sub_diag, firstn_all. cbn [firstn]. rewrite app_nil_r.
  apply utf8_split in B; [apply B|]. now apply utf8_start.
Qed.

(** ** Carriage returns *)
Lemma strip_shown l : shown_line l (strip_cr l).
Proof.
  unfold strip_cr. destruct (rev l) as [|b r] eqn:E.
  - apply (f_equal (@rev _)) in E. rewrite rev_involutive in E. subst. right. split; [reflexivity|]. intros [|]; discriminate.
  - apply (f_equal (@rev _)) in E. rewrite rev_involutive in E. cbn [rev] in E. subst.
    destruct (byte_eqb b x0d) eqn:B.
    + apply byte_eqb_eq in B. subst. left. reflexivity.
    + apply byte_eqb_neq in B. right. split; [reflexivity|]. intros p K. apply app_inj_tail in K as [_ K]. exact (B K).
Qed.
Lemma strip_same l : (forall p, l <> p ++ [CR]) -> strip_cr l = l.
Proof. intros N. destruct (strip_shown l) as [E|[E _]]; [destruct (N _ E)|now symmetry]. Qed.

(** ** The place of an offset *)
Lemma lines_last before rest la : (before = [] \/ exists p, before = p ++ [LF]) -> ~ In LF rest -> rest <> [] -> lines_of before la ->
  split_lines [] (before ++ rest) = la ++ [rest].
Proof.
  intros B N Z H. symmetry. apply lines_of_det. apply lines_of_app; auto. now constructor.
Qed.
Lemma locate_place s i : boundary s i -> (forall p, firstn i s <> p ++ [LF]) -> (forall p, firstn i s <> p ++ [CR]) ->
  place s i (S (fst (locate s i))) (S (snd (locate s i))).
Proof.
  intros B N1 N2. assert (U := boundary_firstn _ _ B). unfold locate, lines. destruct (last_line (firstn i s)) as (p & r & E & P & N). rewrite E in *.
  destruct (utf8_lf_split _ _ U P) as [_ [n Un]].
  exists p, r, n. split; [exact E|]. split; [exact P|]. split; [exact N|].
  destruct r as [|x r].
  - rewrite app_nil_r in *. destruct P as [->|[q ->]]; [|destruct (N1 q eq_refl)]. cbn. split; [reflexivity|].
    inversion Un as [K|n' c t C K E1]; subst; [repeat split; constructor|]. destruct (char_shape _ C) as (a & t' & -> & _). discriminate.
  - assert (H := split_lines_of p). rewrite (lines_last p (x :: r) _ P N ltac:(discriminate) H). rewrite map_app. cbn [map].
    destruct (map strip_cr (split_lines [] p) ++ [strip_cr (x :: r)]) as [|y ys] eqn:Ey; [destruct (map strip_cr (split_lines [] p)); discriminate|].
    rewrite <- Ey. cbn [fst snd]. rewrite last_last, app_length, map_length. cbn [List.length].
    rewrite <- (lines_of_length _ _ H P). split; [lia|]. split; [exact Un|].
    rewrite strip_same by (intros q Eq; rewrite Eq in N2; apply (N2 (p ++ q)); now rewrite app_assoc).
    now rewrite (char_count_characters _ _ Un).
Qed.
(** An offset at the beginning of a line other than the first one: one line too low. *)
Lemma locate_line_start s i p : firstn i s = p ++ [LF] -> utf8 (firstn i s) ->
  place s i (S (S (fst (locate s i)))) 1.
Proof.
  intros E U. unfold locate, lines. exists (p ++ [LF]), [], 0. rewrite app_nil_r. split; [exact E|]. split; [right; exists p; reflexivity|].
  split; [intros []|]. split; [|split; [constructor|reflexivity]]. rewrite E.
  assert (H := split_lines_of (p ++ [LF])). assert (L := lines_of_length _ _ H ltac:(right; exists p; reflexivity)).
  destruct (map strip_cr (split_lines [] (p ++ [LF]))) as [|y ys] eqn:Ey.
  - apply (f_equal (@List.length _)) in Ey. rewrite map_length, L, count_occ_app in Ey. cbn in Ey. lia.
  - rewrite <- Ey. cbn [fst]. rewrite map_length, L. rewrite count_occ_app. cbn. lia.
Qed.

(** ** The rows *)
Lemma enumerate_app {A} (a b : list A) : forall i, enumerate i (a ++ b) = enumerate i a ++ enumerate (i + List.length a) b.
Proof. induction a as [|x a IH]; intros i; cbn [enumerate app List.length]; [now rewrite Nat.add_0_r|]. rewrite IH. cbn [app]. do 2 f_equal. f_equal. lia. Qed.
Definition inside (lo hi : nat) (p : nat * str) : bool := (Nat.leb lo (fst p) && Nat.ltb (fst p) hi)%bool.
Lemma filter_all_in lo hi l : forall i, lo <= i -> i + List.length l <= hi -> filter (inside lo hi) (enumerate i l) = enumerate i l.
Proof.
  induction l as [|x l IH]; intros i L U; cbn [enumerate filter List.length] in *; [reflexivity|].
  unfold inside at 1. cbn [fst]. replace (Nat.leb lo i) with true by (symmetry; apply Nat.leb_le; lia).
  replace (Nat.ltb i hi) with true by (symmetry; apply Nat.ltb_lt; lia). cbn [andb]. now rewrite IH by lia.
Qed.
Lemma filter_none lo hi l : forall i, (i + List.length l <= lo \/ hi <= i) -> filter (inside lo hi) (enumerate i l) = [].
Proof.
  induction l as [|x l IH]; intros i L; cbn [enumerate filter List.length] in *; [reflexivity|].
  replace (inside lo hi (i, x)) with false; [apply IH; lia|]. symmetry. unfold inside. cbn [fst]. apply andb_false_iff.
  destruct L as [L|L]; [left; apply Nat.leb_gt; lia|right; apply Nat.ltb_ge; lia].
Qed.
Lemma filter_rows before l after : let n := List.length before in
  filter (inside (n - 2) (n + 3)) (enumerate 0 (before ++ l :: after)) =
  enumerate (n - 2) (skipn (n - 2) before) ++ (n, l) :: enumerate (S n) (firstn 2 after).
Proof.
  intros n. assert (E := firstn_skipn (n - 2) before). rewrite <- E at 1. rewrite <- app_assoc, !enumerate_app, filter_app.
  assert (Lf : List.length (firstn (n - 2) before) = n - 2) by (rewrite firstn_length; lia).
  assert (Ls : List.length (skipn (n - 2) before) = n - (n - 2)) by (rewrite skipn_length; reflexivity).
  rewrite filter_none by lia. rewrite Lf. cbn [app Nat.add]. rewrite filter_app. rewrite filter_all_in by lia. f_equal.
  rewrite Ls. replace (n - 2 + (n - (n - 2))) with n by lia. cbn [enumerate filter].
  replace (inside (n - 2) (n + 3) (n, l)) with true.
  2:{ symmetry. unfold inside. cbn [fst]. apply andb_true_iff. split; [apply Nat.leb_le; lia|apply Nat.ltb_lt; lia]. }
  f_equal. assert (E2 := firstn_skipn 2 after). rewrite <- E2 at 1. rewrite enumerate_app, filter_app.
  assert (L2 : List.length (firstn 2 after) <= 2) by (rewrite firstn_length; lia).
  rewrite filter_all_in by lia. destruct (Nat.eq_dec (List.length (firstn 2 after)) 2) as [Q|Q].
  - rewrite filter_none by lia. now rewrite app_nil_r.
  - rewrite firstn_length in Q. rewrite (skipn_all2 after) by lia. cbn. now rewrite app_nil_r.
Qed.
Lemma rows_done width (show : nat * str -> str) ls : forall n,
  (forall k l, n <= k < n + List.length ls -> show (k, l) = pad width (dec (k + 1)) ++ bs " | " ++ l ++ [LF]) ->
  (forall k, k < List.length ls -> List.length (dec (n + k + 1)) <= width) ->
  rows width (S n) ls (flat_map show (enumerate n (map strip_cr ls))).
Proof.
  induction ls as [|l ls IH]; intros n Sh W; cbn [map enumerate flat_map List.length] in *; [constructor|].
  rewrite Sh by lia. rewrite <- !app_assoc. constructor.
  - replace (S n) with (n + 1) by lia. apply pad_aligned; [lia|]. specialize (W 0 ltac:(lia)). now rewrite Nat.add_0_r in W.
  - apply strip_shown.
  - apply IH; [intros k x Hk; apply Sh; lia|]. intros k Hk. replace (S n + k + 1) with (n + S k + 1) by lia. apply W. lia.
Qed.
(** ** Messages *)
Definition header (line col : nat) : str := bs "Unexpected token at " ++ dec line ++ bs ":" ++ dec col ++ [LF; LF].
Lemma display_done s i j : utf8 s -> boundary s i -> boundary s j -> i <= j ->
  exists body, display_error s i j = Done (header (S (fst (locate s i))) (S (snd (locate s i))) ++ body).
Proof.
  intros U A B L. unfold display_error. rewrite (slice_done s 0 i) by (auto using boundary_zero; lia). cbn [obind].
  rewrite (slice_done s i j) by auto. cbn [obind]. destruct (locate s i) as [lineno colno]. cbn [fst snd].
  eexists. unfold header. rewrite <- !app_assoc. replace (S lineno) with (lineno + 1) by lia. replace (S colno) with (colno + 1) by lia. reflexivity.
Qed.
Lemma place_line s i line col : place s i line col -> s <> [] -> (firstn i s = [] \/ forall p, firstn i s <> p ++ [LF]) -> i <= List.length s ->
  exists before l after, lines_of s (before ++ l :: after) /\ line = S (List.length before).
Proof.
  intros (p & r & n & E & P & N & -> & _) Z Q L.
  assert (H := split_lines_of p). rewrite <- (lines_of_length _ _ H P).
  assert (Es : s = p ++ r ++ skipn i s). { rewrite app_assoc, <- E. symmetry. apply firstn_skipn. }
  set (t := r ++ skipn i s) in *. assert (T : t <> []).
  { intros T. rewrite T, app_nil_r in Es. unfold t in T. apply app_eq_nil in T as [-> T]. rewrite app_nil_r in E. destruct Q as [Q|Q].
    - rewrite Q in E. subst p. exact (Z Es).
    - destruct P as [->|[q ->]]; [exact (Z Es)|]. destruct (Q q E). }
  assert (K := split_lines_of t). destruct (split_lines [] t) as [|l ls] eqn:Et; [inversion K; congruence|].
  exists (split_lines [] p), l, ls. split; [|reflexivity]. rewrite Es. now apply lines_of_app.
Qed.
Lemma display_excerpt_at s i j chars line col : utf8 s -> boundary s i -> boundary s j -> i <= j ->
  (exists before l after, lines_of s (before ++ l :: after) /\ line = S (List.length before)) ->
  characters chars (firstn (j - i) (skipn i s)) -> line = S (fst (locate s i)) -> col = S (snd (locate s i)) ->
  exists body, display_error s i j = Done (header line col ++ body) /\ excerpt s line col chars body.
Proof.
  intros U A B L (before & l & after & Ls & Eb) C El Ec.
  unfold display_error. rewrite (slice_done s 0 i) by (auto using boundary_zero; lia). cbn [obind].
  rewrite (slice_done s i j) by auto. cbn [obind]. rewrite (char_count_characters _ _ C). destruct (locate s i) as [lineno colno]. cbn [fst snd] in *. rewrite El in Eb. subst line col. injection Eb as En.
  unfold lines. rewrite <- (lines_of_det _ _ Ls). rewrite map_app. cbn [map].
  set (width := log10 (lineno + 3)).
  assert (W : forall k, k < lineno + 3 -> List.length (dec (k + 1)) <= width) by (intros k Hk; apply dec_width; lia).
  assert (Fr := filter_rows (map strip_cr before) (strip_cr l) (map strip_cr after)). cbv zeta in Fr. rewrite map_length, <- En in Fr.
  change (fun p : nat * str => (lineno - 2 <=? fst p) && (fst p <? lineno + 3)) with (inside (lineno - 2) (lineno + 3)). rewrite Fr.
  rewrite flat_map_app. cbn [flat_map]. rewrite Nat.eqb_refl.
  set (show := fun p : nat * str => _).
  eexists. split.
  { unfold header. rewrite <- !app_assoc. replace (S lineno) with (lineno + 1) by lia. replace (S colno) with (colno + 1) by lia. reflexivity. }
  exists before, l, after, width, (pad width (dec (lineno + 1))), (strip_cr l).
  exists (flat_map show (enumerate (lineno - 2) (skipn (lineno - 2) (map strip_cr before)))), (flat_map show (enumerate (S lineno) (firstn 2 (map strip_cr after)))).
  split; [exact Ls|]. split; [now f_equal|]. split; [apply strip_shown|].
  split; [replace (S lineno) with (lineno + 1) by lia; apply pad_aligned; [lia|apply W; lia]|].
  assert (Sh : forall k x, k <> lineno -> show (k, x) = pad (2 + width) (dec (k + 1)) ++ bs " | " ++ x ++ [LF]).
  { intros k x Hk. unfold show. apply Nat.eqb_neq in Hk. rewrite Hk. now rewrite (Nat.add_comm width 2). }
  assert (Lb : List.length (skipn (lineno - 2) before) = lineno - (lineno - 2)) by (rewrite skipn_length; lia).
  split; [|split].
  - rewrite <- En. replace (S lineno - List.length (skipn (lineno - 2) before)) with (S (lineno - 2)) by lia.
    rewrite skipn_map. apply rows_done.
    + intros k x Hk. apply Sh. lia.
    + intros k Hk. specialize (W (lineno - 2 + k) ltac:(lia)). lia.
  - rewrite firstn_map. assert (L2 : List.length (firstn 2 after) <= 2) by (rewrite firstn_length; lia). apply rows_done.
    + intros k x Hk. apply Sh. lia.
    + intros k Hk. specialize (W (S lineno + k) ltac:(lia)). lia.
  - replace (S colno - 1) with colno by lia.
    assert (Lp : List.length (pad width (dec (lineno + 1))) = width).
    { unfold pad. rewrite app_length, repeat_length. specialize (W lineno ltac:(lia)). lia. }
    replace (List.length (bs "> " ++ pad width (dec (lineno + 1)) ++ bs " | ") - 2) with (width + 3) by (rewrite !app_length, Lp; cbn; lia).
    rewrite repeat_app. change (bs "   | ") with (repeat " "%byte 3 ++ bs "| "). change x20 with " "%byte. change x5e with "^"%byte.
    rewrite <- !app_assoc. replace (lineno + 1) with (S lineno) by lia. reflexivity.
Qed.
Lemma display_excerpt s i j chars line col : utf8 s -> boundary s i -> boundary s j -> i <= j ->
  (forall p, firstn i s <> p ++ [LF]) -> (forall p, firstn i s <> p ++ [CR]) -> s <> [] ->
  characters chars (firstn (j - i) (skipn i s)) -> line = S (fst (locate s i)) -> col = S (snd (locate s i)) ->
  exists body, display_error s i j = Done (header line col ++ body) /\ excerpt s line col chars body.
Proof.
  intros U A B L N1 N2 Z C El Ec.
  assert (Pl := locate_place s i A N1 N2). rewrite <- El, <- Ec in Pl.
  exact (display_excerpt_at s i j chars line col U A B L (place_line _ _ _ _ Pl Z (or_intror N1) (boundary_le _ _ A)) C El Ec).
Qed.

(** ** Any offset *)
Lemma end_dec x (t : str) : (exists p, t = p ++ [x]) \/ (forall p, t <> p ++ [x]).
Proof.
  induction t as [|b t _] using rev_ind; [right; intros [|]; discriminate|]. destruct (byte_eqb b x) eqn:E.
  - apply byte_eqb_eq in E as ->. left. eauto.
  - apply byte_eqb_neq in E. right. intros p K. apply app_inj_tail in K as [_ K]. exact (E K).
Qed.
Lemma unbroken_some t : exists u, unbroken t u.
Proof.
  destruct (end_dec LF t) as [[p ->]|N].
  - destruct (end_dec CR p) as [[q ->]|N]; [|exists p; now apply ub_feed]. exists q. apply ub_both. now rewrite <- app_assoc.
  - destruct (end_dec CR t) as [[p ->]|N2]; [exists p; now apply ub_return|]. exists t. now apply ub_none.
Qed.
Lemma unbroken_ends t u : unbroken t u -> exists e, t = u ++ e /\ start e /\ (e = [] -> (forall p, t <> p ++ [LF]) /\ (forall p, t <> p ++ [CR])).
Proof.
  intros [u' E|u' E N|u' E|N1 N2]; [exists [CR; LF]|exists [LF]|exists [CR]|exists []]; (split; [auto; now rewrite app_nil_r|split; [try reflexivity; exact I|try discriminate; auto]]).
Qed.
(** The lines of a text that ends in the middle of a line or after it. *)
Lemma unbroken_lines t u p r : unbroken t u -> u = p ++ r -> (p = [] \/ exists q, p = q ++ [LF]) -> ~ In LF r ->
  (t = [] /\ p = [] /\ r = []) \/ lines t = map strip_cr (split_lines [] p) ++ [r].
Proof.
  intros Ub Eu P N. assert (H := split_lines_of p).
  assert (Line : forall l, ~ In LF l -> split_lines [] (p ++ l ++ [LF]) = split_lines [] p ++ [l]).
  { intros l Nl. symmetry. apply lines_of_det. apply lines_of_app; auto. constructor; [exact Nl|constructor]. }
  assert (Cr : strip_cr (r ++ [CR]) = r). { unfold strip_cr. rewrite rev_app_distr. cbn [rev app]. change (byte_eqb CR x0d) with true. now rewrite rev_involutive. }
  assert (Nc : ~ In LF (r ++ [CR])) by (rewrite in_app_iff; intros [K|[K|[]]]; [auto|discriminate]).
  unfold lines. destruct Ub as [u' E|u' E Nu|u' E|N1 N2]; [subst t|subst t|subst t|].
  - right. rewrite Eu, <- app_assoc. change [CR; LF] with ([CR] ++ [LF]). rewrite (app_assoc r), Line by exact Nc. rewrite map_app. cbn [map]. now rewrite Cr.
  - right. rewrite Eu, <- app_assoc, Line by exact N. rewrite map_app. cbn [map]. rewrite strip_same; [reflexivity|]. intros q ->. apply (Nu (p ++ q)). now rewrite Eu, app_assoc.
  - right. rewrite Eu, <- app_assoc. rewrite (lines_last p (r ++ [CR]) _ P Nc ltac:(destruct r; discriminate) H). rewrite map_app. cbn [map]. now rewrite Cr.
  - destruct r as [|x r].
    + rewrite app_nil_r in Eu. destruct P as [->|[q ->]]; [now left|]. exfalso. exact (N1 q Eu).
    + right. rewrite Eu. rewrite (lines_last p (x :: r) _ P N ltac:(discriminate) H). rewrite map_app. cbn [map]. rewrite strip_same; [reflexivity|].
      intros q K. apply (N2 (p ++ q)). now rewrite Eu, K, app_assoc.
Qed.
Lemma locate_unbroken s i u : boundary s i -> unbroken (firstn i s) u -> place s (List.length u) (S (fst (locate s i))) (S (snd (locate s i))).
Proof.
  intros B Ub. assert (U := boundary_firstn _ _ B). destruct (unbroken_ends _ _ Ub) as (e & E & Se & _).
  assert (Uu : utf8 u) by (rewrite E in U; now apply utf8_split in U). destruct (last_line u) as (p & r & Eu & P & N).
  assert (Eu' : firstn (List.length u) s = u).
  { rewrite <- (firstn_skipn i s), E, <- app_assoc, firstn_app, Nat.sub_diag, firstn_all. cbn [firstn]. apply app_nil_r. }
  rewrite Eu in Uu. destruct (utf8_lf_split _ _ Uu P) as [_ [n Un]].
  exists p, r, n. rewrite Eu'. split; [exact Eu|]. split; [exact P|]. split; [exact N|]. unfold locate.
  destruct (unbroken_lines _ _ _ _ Ub Eu P N) as [(Et & -> & ->)|El].
  - rewrite Et. cbn. split; [reflexivity|]. split; [exact Un|]. inversion Un as [K|n' c t C K E1]; subst; [reflexivity|]. destruct (char_shape _ C) as (a & t' & -> & _). discriminate.
  - rewrite El. destruct (map strip_cr (split_lines [] p) ++ [r]) as [|y ys] eqn:Ey; [destruct (map strip_cr (split_lines [] p)); discriminate|].
    rewrite <- Ey. cbn [fst snd]. rewrite last_last, app_length, map_length. cbn [List.length].
    rewrite <- (lines_of_length _ _ (split_lines_of p) P). split; [lia|]. split; [exact Un|]. now rewrite (char_count_characters _ _ Un).
Qed.
Lemma place_line_unbroken s i u line col : boundary s i -> unbroken (firstn i s) u -> place s (List.length u) line col -> s <> [] ->
  exists before l after, lines_of s (before ++ l :: after) /\ line = S (List.length before).
Proof.
  intros B Ub (p & r & n & E & P & N & -> & _) Z. destruct (unbroken_ends _ _ Ub) as (e & Ee & _ & Ne).
  assert (Eu' : firstn (List.length u) s = u).
  { rewrite <- (firstn_skipn i s), Ee, <- app_assoc, firstn_app, Nat.sub_diag, firstn_all. cbn [firstn]. apply app_nil_r. }
  rewrite Eu' in E. assert (H := split_lines_of p). rewrite <- (lines_of_length _ _ H P).
  assert (Es : s = p ++ (r ++ e ++ skipn i s)). { rewrite <- (firstn_skipn i s) at 1. rewrite Ee, E, <- !app_assoc. reflexivity. }
  set (t := r ++ e ++ skipn i s) in *. assert (T : t <> []).
  { intros T. unfold t in T. apply app_eq_nil in T as [-> T]. apply app_eq_nil in T as [Te T]. destruct (Ne Te) as [N1 _]. rewrite Te, app_nil_r in *. subst u.
    destruct P as [->|[q ->]]; [|exact (N1 q Ee)]. apply Z. rewrite Es. unfold t. now rewrite Te, T. }
  assert (K := split_lines_of t). destruct (split_lines [] t) as [|l ls] eqn:Et; [inversion K; congruence|].
  exists (split_lines [] p), l, ls. split; [|reflexivity]. rewrite Es. now apply lines_of_app.
Qed.
