(** Basic facts about the lexer: how [consume] recurses, that it only moves
    forward, and what it leaves unchanged. *)
From Coq Require Import List NArith Bool String Lia Arith.
From Coq.Strings Require Import Byte.
From Verif Require Import Bytes Token Tables Lexer SpecLexer.
Import ListNotations.
Open Scope nat_scope.

Lemma obind_done {A B} (m : outcome A) (f : A -> outcome B) b :
  obind m f = Done b -> exists a, m = Done a /\ f a = Done b.
Proof. destruct m; simpl; intros H; try discriminate. eauto. Qed.

(** Inversion of [_ <~ _ ;; _ = Done _]. *)
Ltac odone H :=
  let a := fresh "a" in let H1 := fresh "H" in let H2 := fresh "H" in
  apply obind_done in H; destruct H as (a & H1 & H2).
Ltac oinv :=
  repeat match goal with
  | H : obind _ _ = Done _ |- _ => odone H
  | H : Done _ = Done _ |- _ => injection H; clear H; intros; subst
  | H : false = true |- _ => discriminate H
  | H : true = false |- _ => discriminate H
  | H : Panicked = Done _ |- _ => discriminate H
  | H : ReadPastEnd = Done _ |- _ => discriminate H
  | H : OutOfFuel = Done _ |- _ => discriminate H
  | H : (_, _) = (_, _) |- _ => injection H; clear H; intros; subst
  | H : (let '(_, _) := ?x in _) = Done _ |- _ => destruct x eqn:?
  | H : match ?x with (_, _) => _ end = Done _ |- _ => destruct x
  | H : (if ?b then _ else _) = Done _ |- _ => destruct b eqn:?
  end.

(** ** Moving forward *)

(** [adv c s c']: the cursor went from [c] to [c'] over the bytes [s]. *)
Definition adv (c : cursor) (s : str) (c' : cursor) : Prop :=
  rem c = s ++ rem c' /\ pos c' = pos c + List.length s.

Lemma adv_refl c : adv c [] c.
Proof. split; simpl; [reflexivity | lia]. Qed.
Lemma adv_trans c s c' s' c'' : adv c s c' -> adv c' s' c'' -> adv c (s ++ s') c''.
Proof.
  intros [H1 H2] [H3 H4]; split.
  - rewrite H1, H3. now rewrite app_assoc.
  - rewrite H4, H2, app_length. lia.
Qed.
Lemma adv_length c s c' : adv c s c' -> List.length (rem c) = List.length s + List.length (rem c').
Proof. intros [H _]. rewrite H, app_length. reflexivity. Qed.

Definition fwd (c c' : cursor) : Prop := exists s, adv c s c'.
Lemma fwd_refl c : fwd c c.
Proof. exists []. apply adv_refl. Qed.
Lemma fwd_trans c c' c'' : fwd c c' -> fwd c' c'' -> fwd c c''.
Proof. intros [s H] [s' H']. exists (s ++ s'). eapply adv_trans; eauto. Qed.
Lemma fwd_pos c c' : fwd c c' -> pos c <= pos c'.
Proof. intros [s [_ H]]. lia. Qed.
Lemma fwd_slice c c' : fwd c c' -> rem c = slice c c' ++ rem c'.
Proof.
  intros [s [H1 H2]]. unfold slice. rewrite H1, H2.
  replace (pos c + List.length s - pos c) with (List.length s) by lia.
  rewrite firstn_app, Nat.sub_diag, firstn_all. simpl. now rewrite app_nil_r.
Qed.
Lemma adv_slice c s c' : adv c s c' -> slice c c' = s.
Proof.
  intros [H1 H2]. unfold slice. rewrite H1, H2.
  replace (pos c + List.length s - pos c) with (List.length s) by lia.
  rewrite firstn_app, Nat.sub_diag, firstn_all. simpl. now rewrite app_nil_r.
Qed.

Lemma scan_while_spec f p r c :
  scan_while f p r = Done c ->
  exists s b r', r = s ++ b :: r' /\ c = Cur (p + List.length s) (b :: r')
                 /\ forallb f s = true /\ f b = false.
Proof.
  revert p c; induction r as [|b r IH]; simpl; intros p c H; [discriminate|].
  destruct (f b) eqn:E.
  - apply IH in H as (s & b' & r' & -> & -> & Hs & Hb).
    exists (b :: s), b', r'. simpl. rewrite E, Hs. repeat split; auto. f_equal. lia.
  - injection H as <-. exists [], b, r. simpl. repeat split; auto. f_equal. lia.
Qed.
Lemma scan_while_intro f p s b r' :
  forallb f s = true -> f b = false ->
  scan_while f p (s ++ b :: r') = Done (Cur (p + List.length s) (b :: r')).
Proof.
  revert p; induction s as [|x s IH]; simpl; intros p Hs Hb.
  - rewrite Hb. f_equal. f_equal. lia.
  - apply andb_true_iff in Hs as [Hx Hs]. rewrite Hx, IH by assumption.
    f_equal. f_equal. lia.
Qed.

Lemma scan_while_adv f p r c : scan_while f p r = Done c -> fwd (Cur p r) c.
Proof.
  intros H. apply scan_while_spec in H as (s & b & r' & -> & -> & _).
  exists s. split; reflexivity.
Qed.

(** The invariants every lexer operation keeps. *)
Record keeps (lx lx' : lexer) : Prop := Keeps {
  k_buf : lx_buf lx' = lx_buf lx;
  k_tok : lx_tok lx' = lx_tok lx;
  k_fwd : fwd (lx_cur lx) (lx_cur lx');
  k_acc : lx_acc lx' = lx_acc lx \/ (fwd (lx_cur lx) (lx_acc lx') /\ fwd (lx_acc lx') (lx_cur lx'))
}.

Lemma keeps_refl lx : keeps lx lx.
Proof. constructor; auto. apply fwd_refl. Qed.
Lemma keeps_trans a b c : keeps a b -> keeps b c -> keeps a c.
Proof.
  intros [B1 T1 F1 A1] [B2 T2 F2 A2]. constructor; try congruence.
  - eapply fwd_trans; eauto.
  - destruct A2 as [A2|[A2 A3]].
    + destruct A1 as [A1|[A1 A1']]; [left; congruence|].
      right. rewrite A2. split; auto. eapply fwd_trans; eauto.
    + right. split; auto. eapply fwd_trans; eauto.
Qed.

Lemma keeps_bump lx : rem (lx_cur lx) <> [] -> keeps lx (bump lx).
Proof.
  destruct lx as [buf t a [p r] tok acc q]; simpl. destruct r as [|b r]; [congruence|].
  intros _. constructor; simpl; auto. exists [b]. split; simpl; [reflexivity | lia].
Qed.
Lemma keeps_set_token t lx : keeps lx (set_token t lx).
Proof. destruct lx; constructor; simpl; auto. apply fwd_refl. Qed.
Lemma keeps_set_asi t lx : keeps lx (set_asi t lx).
Proof. destruct lx; constructor; simpl; auto. apply fwd_refl. Qed.
Lemma keeps_set_quasi t lx : keeps lx (set_quasi t lx).
Proof. destruct lx; constructor; simpl; auto. apply fwd_refl. Qed.
Lemma keeps_set_acc lx : keeps lx (set_acc (lx_cur lx) lx).
Proof. destruct lx; constructor; simpl; auto. apply fwd_refl. right; split; apply fwd_refl. Qed.
Lemma keeps_set_cur c lx : fwd (lx_cur lx) c -> keeps lx (set_cur c lx).
Proof. destruct lx; constructor; simpl; auto. Qed.
Lemma keeps_skip f lx lx' : skip_while f lx = Done lx' -> keeps lx lx' /\ rem (lx_cur lx') <> [].
Proof.
  unfold skip_while. intros H. oinv. split.
  - apply keeps_set_cur. apply scan_while_adv in H0. destruct lx as [? ? ? [] ? ? ?]; exact H0.
  - apply scan_while_spec in H0 as (s & b & r' & _ & -> & _). destruct lx; simpl. discriminate.
Qed.
Lemma read_byte_nonempty lx b : read_byte lx = Done b -> rem (lx_cur lx) <> [].
Proof. unfold read_byte. destruct (rem (lx_cur lx)); discriminate. Qed.
Lemma keeps_next lx b lx' :
  rem (lx_cur lx) <> [] -> next_byte lx = Done (b, lx') -> keeps lx lx' /\ rem (lx_cur lx') <> [].
Proof.
  unfold next_byte. intros Hn H. oinv. apply read_byte_nonempty in H0.
  split; auto. now apply keeps_bump.
Qed.

(** ** Every handler moves forward and stays inside the buffer *)

(** The remaining bytes end with the terminating NUL. *)
Definition ends (r : str) : Prop := exists s, r = s ++ [x00].
Definition ok (lx : lexer) : Prop := ends (rem (lx_cur lx)).
Definition head (lx : lexer) (b : byte) : Prop := exists r, rem (lx_cur lx) = b :: r.

Lemma ends_suffix s r : ends (s ++ r) -> r <> [] -> ends r.
Proof.
  intros [t H] Hr. destruct (exists_last Hr) as (r' & x & ->).
  rewrite app_assoc in H. apply app_inj_tail in H as [_ ->]. now exists r'.
Qed.
Lemma ends_cons b r : ends (b :: r) -> b <> x00 -> ends r.
Proof.
  intros [s H] Hb. destruct s as [|x s]; simpl in H.
  - injection H as H1 H2. congruence.
  - injection H as -> ->. now exists s.
Qed.
Lemma ends_cons' b r : ends (b :: r) -> r <> [] -> ends r.
Proof. intros H. now apply (ends_suffix [b]). Qed.
Lemma ends_nonempty r : ends r -> r <> [].
Proof. intros [s ->]. destruct s; discriminate. Qed.

(** [step lx lx']: forward, inside the buffer; [sstep]: by at least one byte. *)
Definition step (lx lx' : lexer) : Prop := keeps lx lx' /\ ok lx'.
Definition sstep (lx lx' : lexer) : Prop := keeps lx lx' /\ ok lx' /\ pos (lx_cur lx) < pos (lx_cur lx').
Lemma step_trans a b c : step a b -> step b c -> step a c.
Proof. intros [K1 _] [K2 O]. split; auto. eapply keeps_trans; eauto. Qed.
Lemma sstep_step a b : sstep a b -> step a b.
Proof. intros (K & O & _). now split. Qed.
Lemma sstep_step_trans a b c : sstep a b -> step b c -> sstep a c.
Proof.
  intros (K1 & _ & L) [K2 O]. split; [eapply keeps_trans; eauto|split; [exact O|]].
  apply k_fwd in K2. apply fwd_pos in K2. lia.
Qed.
Lemma step_set_token lx t : ok lx -> step lx (set_token t lx).
Proof. intros; split; [apply keeps_set_token | assumption]. Qed.
Lemma step_set_asi lx t : ok lx -> step lx (set_asi t lx).
Proof. intros; split; [apply keeps_set_asi | assumption]. Qed.
Lemma step_set_quasi lx t : ok lx -> step lx (set_quasi t lx).
Proof. intros; split; [apply keeps_set_quasi | assumption]. Qed.
Lemma step_set_acc lx : ok lx -> step lx (set_acc (lx_cur lx) lx).
Proof. intros; split; [apply keeps_set_acc | assumption]. Qed.
Lemma step_refl lx : ok lx -> step lx lx.
Proof. split; auto. apply keeps_refl. Qed.
Lemma sstep_bump lx b : ok lx -> head lx b -> b <> x00 -> sstep lx (bump lx).
Proof.
  intros O [r E] Hb. assert (Hn : rem (lx_cur lx) <> []) by (rewrite E; discriminate).
  split; [|split].
  - now apply keeps_bump.
  - unfold ok in *. destruct lx as [? ? ? [p rr] ? ? ?]; simpl in *. subst. simpl.
    now apply ends_cons in O.
  - destruct lx as [? ? ? [p rr] ? ? ?]; simpl. lia.
Qed.
Lemma sstep_next lx b lx' : ok lx -> next_byte lx = Done (b, lx') -> sstep lx lx' /\ head lx' b.
Proof.
  intros O H. assert (Hn := ends_nonempty _ O).
  destruct (keeps_next _ _ _ Hn H) as [K N]. unfold next_byte in H. oinv.
  split; [split; [exact K|split]|].
  - unfold ok in *. destruct (k_fwd _ _ K) as [s [E _]]. rewrite E in O. now apply ends_suffix in O.
  - destruct lx as [? ? ? [p rr] ? ? ?]; simpl. lia.
  - unfold read_byte, head in *. destruct (rem (lx_cur (bump lx))) as [|x r]; [discriminate|].
    injection H0 as <-. eauto.
Qed.
Lemma step_skip f lx lx' : ok lx -> skip_while f lx = Done lx' -> step lx lx'.
Proof.
  intros O H. destruct (keeps_skip _ _ _ H) as [K N]. split; auto.
  unfold ok in *. destruct (k_fwd _ _ K) as [s [E _]]. rewrite E in O. now apply ends_suffix in O.
Qed.
Lemma read_byte_head lx b : read_byte lx = Done b -> head lx b.
Proof. unfold read_byte, head. destruct (rem (lx_cur lx)); intros H; inversion H; eauto. Qed.

Ltac byte_cases :=
  repeat match goal with
  | H : byte_eqb ?a ?b = true |- _ => apply byte_eqb_eq in H; try subst a
  | H : (_ || _)%bool = true |- _ => apply orb_true_iff in H; destruct H
  end.

Ltac neqs := repeat match goal with H : byte_eqb _ _ = false |- _ => apply byte_eqb_neq in H end.

(** Forward reasoning along a straight-line handler. *)
Lemma sstep_bump_step lx b : ok lx -> head lx b -> b <> x00 -> step lx (bump lx).
Proof. intros. apply sstep_step. eapply sstep_bump; eauto. Qed.
Lemma ok_bump lx b : ok lx -> head lx b -> b <> x00 -> ok (bump lx).
Proof. intros O H N. exact (proj1 (proj2 (sstep_bump lx b O H N))). Qed.
Ltac ok_of :=
  match goal with
  | H : sstep _ ?l |- ok ?l => exact (proj1 (proj2 H))
  | H : step _ ?l |- ok ?l => exact (proj2 H)
  | H : ok ?l |- ok ?l => exact H
  | |- ok (set_token _ ?l) => change (ok l); ok_of
  | |- ok (set_asi _ ?l) => change (ok l); ok_of
  | |- ok (set_quasi _ ?l) => change (ok l); ok_of
  | |- ok (set_acc _ ?l) => change (ok l); ok_of
  | |- ok (bump _) =>
      eapply ok_bump; [ok_of | eassumption | solve [discriminate | assumption]]
  end.
Ltac step_tac :=
  match goal with
  | H : sstep ?l ?m |- sstep ?l ?m => exact H
  | H : step ?l ?m |- step ?l ?m => exact H
  | H : sstep ?l ?m |- step ?l ?m => apply sstep_step; exact H
  | H : sstep ?l ?m |- sstep ?l _ => apply (sstep_step_trans _ _ _ H); step_tac
  | H : sstep ?l ?m |- step ?l _ => apply (step_trans _ _ _ (sstep_step _ _ H)); step_tac
  | H : step ?l ?m |- step ?l _ => apply (step_trans _ _ _ H); step_tac
  | |- step ?l ?l => apply step_refl; ok_of
  | H : step (bump ?l) ?m |- step ?l ?m => apply (step_trans _ (bump l)); [step_tac | exact H]
  | H : step (bump ?l) ?m |- sstep ?l ?m => apply (sstep_step_trans _ (bump l)); [step_tac | exact H]
  | |- step ?l (set_token _ ?l) => apply step_set_token; ok_of
  | |- sstep ?l (set_token _ ?m) => apply (sstep_step_trans _ m); [step_tac | apply step_set_token; ok_of]
  | |- step ?l (set_token _ ?m) => apply (step_trans _ m); [step_tac | apply step_set_token; ok_of]
  | |- step ?l (set_asi _ ?l) => apply step_set_asi; ok_of
  | |- sstep ?l (set_asi _ ?m) => apply (sstep_step_trans _ m); [step_tac | apply step_set_asi; ok_of]
  | |- step ?l (set_asi _ ?m) => apply (step_trans _ m); [step_tac | apply step_set_asi; ok_of]
  | |- step ?l (bump ?l) =>
      eapply sstep_bump_step; [ok_of | eassumption | solve [discriminate | assumption]]
  | |- sstep ?l (bump ?l) =>
      eapply sstep_bump; [ok_of | eassumption | solve [discriminate | assumption]]
  end.
Ltac next_tac :=
  repeat match goal with
  | H : next_byte ?l = Done (?b, ?m) |- _ =>
      apply sstep_next in H; [destruct H | ok_of]
  | H : next_byte ?l = Done ?p |- _ => destruct p
  end.
Ltac handler_tac := oinv; next_tac; byte_cases; step_tac.

Lemma single_sstep t lx lx' b0 : ok lx -> head lx b0 -> b0 <> x00 -> h_single t lx = Done lx' -> sstep lx lx'.
Proof. unfold h_single; intros O Hd Hb H; handler_tac. Qed.
Lemma SEM_sstep lx lx' b0 : ok lx -> head lx b0 -> b0 <> x00 -> h_SEM lx = Done lx' -> sstep lx lx'.
Proof. unfold h_SEM; intros O Hd Hb H; oinv. step_tac. Qed.
Lemma closing_sstep t lx lx' b0 : ok lx -> head lx b0 -> b0 <> x00 -> h_closing t lx = Done lx' -> sstep lx lx'.
Proof. unfold h_closing; intros O Hd Hb H; handler_tac. Qed.
Lemma EQL_sstep lx lx' b0 : ok lx -> head lx b0 -> b0 <> x00 -> h_EQL lx = Done lx' -> sstep lx lx'.
Proof. unfold h_EQL; intros O Hd Hb H; handler_tac. Qed.
Lemma EXL_sstep lx lx' b0 : ok lx -> head lx b0 -> b0 <> x00 -> h_EXL lx = Done lx' -> sstep lx lx'.
Proof. unfold h_EXL; intros O Hd Hb H; handler_tac. Qed.
Lemma LSS_sstep lx lx' b0 : ok lx -> head lx b0 -> b0 <> x00 -> h_LSS lx = Done lx' -> sstep lx lx'.
Proof. unfold h_LSS; intros O Hd Hb H; handler_tac. Qed.
Lemma MOR_sstep lx lx' b0 : ok lx -> head lx b0 -> b0 <> x00 -> h_MOR lx = Done lx' -> sstep lx lx'.
Proof. unfold h_MOR; intros O Hd Hb H; handler_tac. Qed.
Lemma op_assign_sstep t1 t2 lx lx' b0 : ok lx -> head lx b0 -> b0 <> x00 -> h_op_assign t1 t2 lx = Done lx' -> sstep lx lx'.
Proof. unfold h_op_assign; intros O Hd Hb H; handler_tac. Qed.
Lemma op_double_sstep c t1 t2 t3 lx lx' b0 : ok lx -> head lx b0 -> b0 <> x00 -> c <> x00 -> h_op_double c t1 t2 t3 lx = Done lx' -> sstep lx lx'.
Proof. unfold h_op_double; intros O Hd Hb Hc H; handler_tac. Qed.
Lemma ATR_sstep lx lx' b0 : ok lx -> head lx b0 -> b0 <> x00 -> h_ATR lx = Done lx' -> sstep lx lx'.
Proof. unfold h_ATR; intros O Hd Hb H; handler_tac. Qed.

Lemma step_set_cur lx c : ok lx -> fwd (lx_cur lx) c -> rem c <> [] -> step lx (set_cur c lx).
Proof.
  intros O F N. split; [now apply keeps_set_cur|].
  destruct F as [s [E _]]. unfold ok in *. rewrite E in O. destruct lx; simpl.
  now apply ends_suffix in O.
Qed.

(** ** Numbers *)
Lemma scientific_step lx lx' : ok lx -> read_scientific lx = Done lx' -> step lx lx'.
Proof.
  unfold read_scientific; intros O H. odone H. apply read_byte_head in H0.
  assert (S1 : step lx (if (byte_eqb a "-" || byte_eqb a "+")%bool then bump lx else lx)).
  { destruct (byte_eqb a "-" || byte_eqb a "+")%bool eqn:E.
    - byte_cases; step_tac.
    - step_tac. }
  odone H1. apply step_skip in H; [|ok_of]. oinv. step_tac.
Qed.
Lemma float_step lx lx' : ok lx -> read_float lx = Done lx' -> step lx lx'.
Proof.
  unfold read_float; intros O H. odone H. apply step_skip in H0; [|ok_of].
  odone H1. apply read_byte_head in H. oinv.
  - byte_cases; (apply scientific_step in H2; [step_tac|ok_of]).
  - step_tac.
Qed.
Lemma decimal_step lx lx' : ok lx -> read_decimal lx = Done lx' -> step lx lx'.
Proof.
  unfold read_decimal; intros O H. odone H. apply step_skip in H0; [|ok_of].
  odone H1. apply read_byte_head in H. oinv.
  - byte_cases. apply float_step in H2; [step_tac|ok_of].
  - byte_cases; (apply scientific_step in H2; [step_tac|ok_of]).
  - step_tac.
Qed.
Lemma radix_step f t lx lx' : ok lx -> read_radix f t lx = Done lx' -> step lx lx'.
Proof. unfold read_radix; intros O H. odone H. apply step_skip in H0; [|ok_of]. oinv. step_tac. Qed.
Lemma DIG_sstep lx lx' b0 : ok lx -> head lx b0 -> b0 <> x00 -> h_DIG lx = Done lx' -> sstep lx lx'.
Proof.
  unfold h_DIG; intros O Hd Hb H. assert (S0 : sstep lx (bump lx)) by step_tac.
  apply decimal_step in H; [step_tac|ok_of].
Qed.
Lemma ZER_sstep lx lx' b0 : ok lx -> head lx b0 -> b0 <> x00 -> h_ZER lx = Done lx' -> sstep lx lx'.
Proof.
  unfold h_ZER; intros O Hd Hb H. odone H. destruct a as [b lx1]. next_tac. oinv.
  1-3: byte_cases; (apply radix_step in H1; [step_tac|ok_of]).
  apply decimal_step in H1; [step_tac|ok_of].
Qed.

(** ** Accessors *)
Lemma accessor_step lx lx' : ok lx -> read_accessor lx = Done lx' -> step lx lx'.
Proof.
  unfold read_accessor; intros O H. odone H. apply step_skip in H0; [|ok_of].
  assert (S1 : step a (set_acc (lx_cur a) a)) by (apply step_set_acc; ok_of).
  odone H1. oinv.
  - apply step_skip in H1; [|ok_of]. step_tac.
  - step_tac.
Qed.
Lemma is_digit_not_nul b : is_digit b = true -> b <> x00.
Proof. intros H ->. discriminate. Qed.
Lemma PRD_sstep lx lx' b0 : ok lx -> head lx b0 -> b0 <> x00 -> h_PRD lx = Done lx' -> sstep lx lx'.
Proof.
  unfold h_PRD; intros O Hd Hb H. odone H. destruct a as [b lx1]. next_tac.
  destruct (is_digit b) eqn:Ed.
  - apply is_digit_not_nul in Ed. apply float_step in H1; [step_tac|ok_of].
  - oinv; next_tac; byte_cases; try step_tac.
    apply accessor_step in H1; [step_tac|ok_of].
Qed.

(** ** Strings, templates, regular expressions *)
Lemma scan_string_fwd q p r k c : q <> x00 -> ends r ->
  scan_string q p r = Done (k, c) -> fwd (Cur p r) c /\ rem c <> [].
Proof.
  intros Hq. revert p. remember (List.length r) as n eqn:En.
  revert r En. induction n as [n IH] using lt_wf_ind. intros r En p E H. destruct r as [|b r]; [discriminate|].
  simpl in H. oinv; byte_cases.
  - split. exists [q]. split; simpl; [reflexivity|lia]. simpl.
    apply ends_nonempty. now apply ends_cons in E.
  - destruct r as [|c0 r]; [discriminate|]. oinv; byte_cases.
    + split; [|simpl; discriminate]. exists ["\"%byte]. split; simpl; [reflexivity|lia].
    + assert (E1 : ends r). { apply ends_cons in E; [|discriminate]. neqs. now apply ends_cons in E. }
      apply (IH (List.length r)) in H; simpl in *; auto; [|lia]. destruct H as [F N]. split; auto.
      eapply fwd_trans; [|exact F]. exists ["\"%byte; c0]. split; simpl; [reflexivity|lia].
  - split; [apply fwd_refl|simpl; discriminate].
  - neqs. assert (E1 : ends r) by (eapply ends_cons; eauto).
    apply (IH (List.length r)) in H; simpl in *; auto; [|lia]. destruct H as [F N]. split; auto.
    eapply fwd_trans; [|exact F]. exists [b]. split; simpl; [reflexivity|lia].
Qed.
Lemma QOT_sstep lx lx' b0 : ok lx -> head lx b0 -> b0 <> x00 -> h_QOT lx = Done lx' -> sstep lx lx'.
Proof.
  unfold h_QOT; intros O Hd Hb H. assert (S0 : sstep lx (bump lx)) by step_tac.
  odone H. odone H1. destruct a0 as [k c]. oinv.
  apply read_byte_head in H0. destruct Hd as [r E]. destruct H0 as [r' E']. rewrite E in E'. injection E' as <- <-.
  apply scan_string_fwd in H; auto.
  - destruct H as [F N].
    assert (S1 : step (bump lx) (set_cur c (bump lx))).
    { apply step_set_cur; auto; try ok_of; destruct lx as [? ? ? [? ?] ? ? ?]; exact F. }
    step_tac.
  - assert (O1 : ok (bump lx)) by ok_of. exact O1.
Qed.

Lemma scan_template_fwd p r k e c : ends r ->
  scan_template p r = Done (k, e, c) -> fwd (Cur p r) c /\ rem c <> [] /\ p <= e <= pos c.
Proof.
  revert p. remember (List.length r) as n eqn:En.
  revert r En. induction n as [n IH] using lt_wf_ind. intros r En p E H. destruct r as [|b r]; [discriminate|].
  simpl in H. oinv; byte_cases.
  - split; [|split]. exists ["`"%byte]. split; simpl; [reflexivity|lia]. simpl.
    apply ends_nonempty. now apply ends_cons in E. simpl; lia.
  - destruct r as [|c0 r]; [discriminate|]. oinv; byte_cases.
    + split; [|split]. exists ["$"%byte; "{"%byte]. split; simpl; [reflexivity|lia].
      apply ends_cons in E; [|discriminate]. apply ends_cons in E; [|discriminate]. now apply ends_nonempty.
      simpl; lia.
    + assert (E1 : ends (c0 :: r)). { now apply ends_cons in E. }
      apply (IH (List.length (c0 :: r))) in H; simpl in *; auto; [|lia]. destruct H as [F [N L]].
      split; [|split; auto; lia].
      eapply fwd_trans; [|exact F]. exists ["$"%byte]. split; simpl; [reflexivity|lia].
  - destruct r as [|c0 r]; [discriminate|]. oinv; byte_cases.
    + split; [|split; [simpl; discriminate|simpl; lia]]. exists ["\"%byte]. split; simpl; [reflexivity|lia].
    + assert (E1 : ends r). { apply ends_cons in E; [|discriminate]. neqs. now apply ends_cons in E. }
      apply (IH (List.length r)) in H; simpl in *; auto; [|lia]. destruct H as [F [N L]]. split; [|split; auto; lia].
      eapply fwd_trans; [|exact F]. exists ["\"%byte; c0]. split; simpl; [reflexivity|lia].
  - destruct r as [|b' r]; [discriminate|].
    assert (E1 : ends (b' :: r)) by (apply ends_cons' in E; [auto|discriminate]).
    apply (IH (List.length (b' :: r))) in H; simpl in *; auto; [|lia]. destruct H as [F [N L]].
    split; [|split; auto; lia].
    eapply fwd_trans; [|exact F]. exists [b]. split; simpl; [reflexivity|lia].
Qed.
Lemma template_step lx lx' : ok lx -> read_template_kind lx = Done lx' -> step lx lx'.
Proof.
  unfold read_template_kind; intros O H. odone H. destruct a as [[k e] c].
  apply scan_template_fwd in H0; [|exact O]. destruct H0 as [F [N L]].
  assert (S1 : step lx (set_cur c lx)).
  { apply step_set_cur; auto; destruct lx as [? ? ? [? ?] ? ? ?]; exact F. }
  destruct k; oinv; try step_tac.
  - apply (step_trans _ _ _ S1). eapply step_trans; [apply step_set_quasi; ok_of|apply step_set_token; ok_of].
  - apply (step_trans _ _ _ S1). eapply step_trans; [apply step_set_quasi; ok_of|apply step_set_token; ok_of].
Qed.
Lemma TPL_sstep lx lx' b0 : ok lx -> head lx b0 -> b0 <> x00 -> h_TPL lx = Done lx' -> sstep lx lx'.
Proof.
  unfold h_TPL; intros O Hd Hb H. assert (S0 : sstep lx (bump lx)) by step_tac.
  apply template_step in H; [step_tac|ok_of].
Qed.

Lemma scan_regex_fwd ic p r k c : ends r ->
  scan_regex ic p r = Done (k, c) -> fwd (Cur p r) c /\ rem c <> [].
Proof.
  revert p ic. remember (List.length r) as n eqn:En.
  revert r En. induction n as [n IH] using lt_wf_ind. intros r En p ic E H. destruct r as [|b r]; [discriminate|].
  assert (Step : forall ic', scan_regex ic' (S p) r = Done (k, c) -> fwd (Cur p (b :: r)) c /\ rem c <> []).
  { intros ic' H'. destruct r as [|b' r]; [discriminate|].
    assert (E1 : ends (b' :: r)) by (apply ends_cons' in E; [auto|discriminate]).
    apply (IH (List.length (b' :: r))) in H'; simpl in *; auto; [|lia]. destruct H' as [F N].
    split; auto. eapply fwd_trans; [|exact F]. exists [b]. split; simpl; [reflexivity|lia]. }
  simpl in H. oinv; byte_cases; eauto.
  - split. exists ["/"%byte]. split; simpl; [reflexivity|lia]. simpl.
    apply ends_nonempty. now apply ends_cons in E.
  - destruct r as [|c0 r]; [discriminate|]. oinv; byte_cases.
    + split; [|simpl; discriminate]. exists ["\"%byte]. split; simpl; [reflexivity|lia].
    + assert (E1 : ends r). { apply ends_cons in E; [|discriminate]. neqs. now apply ends_cons in E. }
      apply (IH (List.length r)) in H; simpl in *; auto; [|lia]. destruct H as [F N]. split; auto.
      eapply fwd_trans; [|exact F]. exists ["\"%byte; c0]. split; simpl; [reflexivity|lia].
  - split. exists [x0a]. split; simpl; [reflexivity|lia]. simpl.
    apply ends_nonempty. now apply ends_cons in E.
Qed.
Lemma regex_step lx v lx' : ok lx -> read_regular_expression lx = Done (v, lx') -> step lx lx'.
Proof.
  unfold read_regular_expression; intros O H. odone H. destruct a as [k c].
  apply scan_regex_fwd in H0; [|exact O]. destruct H0 as [F N].
  assert (S1 : step lx (set_cur c lx)).
  { apply step_set_cur; auto; destruct lx as [? ? ? [? ?] ? ? ?]; exact F. }
  destruct k; oinv; try step_tac.
  match goal with H : skip_while _ _ = Done _ |- _ => apply step_skip in H; [|ok_of] end.
  step_tac.
Qed.

(** ** Words *)
Lemma match_seq_step bs lx k lx' : ok lx -> match_seq bs lx = Done (k, lx') -> sstep lx lx'.
Proof.
  revert lx; induction bs as [|x bs IH]; simpl; intros lx O H.
  - odone H. assert (Hn : next_byte lx = Done (a, bump lx)) by (unfold next_byte; rewrite H0; reflexivity).
    apply sstep_next in Hn; auto. destruct Hn. oinv. auto.
  - odone H. destruct a as [b lx1]. next_tac. oinv; auto.
    apply IH in H1; [|ok_of]. step_tac.
Qed.
Fixpoint match_label_step (k : ktrie) : forall lx t lx', ok lx ->
  match_label k lx = Done (t, lx') -> sstep lx lx'.
Proof.
  destruct k as [bs t0|d branches]; intros lx t lx' O H; simpl in H.
  - odone H. destruct a as [x lx1]. apply match_seq_step in H0; auto. oinv; auto.
  - odone H. destruct a as [b lx1]. next_tac.
    revert H1. induction branches as [|[m k'] l IH].
    + intros H1. oinv; auto.
    + intros H1. destruct (byte_eqb b m).
      * apply match_label_step in H1; [|ok_of]. step_tac.
      * auto.
Qed.
Lemma label_sstep k lx lx' : ok lx -> label_or_keyword k lx = Done lx' -> sstep lx lx'.
Proof.
  unfold label_or_keyword; intros O H. odone H. destruct a as [t lx1].
  apply match_label_step in H0; auto. destruct t; oinv; [step_tac|].
  match goal with H : read_label _ = Done _ |- _ => apply step_skip in H; [|ok_of] end.
  step_tac.
Qed.
Lemma IDT_sstep lx lx' b0 : ok lx -> head lx b0 -> b0 <> x00 -> h_IDT lx = Done lx' -> sstep lx lx'.
Proof.
  unfold h_IDT; intros O Hd Hb H. assert (S0 : sstep lx (bump lx)) by step_tac.
  odone H. apply step_skip in H0; [|ok_of]. oinv. step_tac.
Qed.

(** ** Non-ASCII characters *)
Lemma decode_char_length r c n : decode_char r = Some (c, n) -> 1 <= n <= 4 /\ n <= List.length r.
Proof.
  unfold decode_char. intros H.
  repeat match type of H with
  | match ?x with _ => _ end = Some _ => destruct x; try discriminate
  end; injection H as _ <-; simpl; lia.
Qed.
Lemma decode_char_multi b r c n : (127 < byte_val b)%N -> decode_char (b :: r) = Some (c, n) -> 2 <= n.
Proof.
  unfold decode_char. intros Hb H.
  assert (E : byte_in x00 x7f b = false).
  { unfold byte_in. change (byte_val x00) with 0%N. change (byte_val x7f) with 127%N.
    apply andb_false_iff. right. apply N.leb_gt. lia. }
  rewrite E in H.
  repeat match type of H with
  | match ?x with _ => _ end = Some _ => destruct x; try discriminate
  end; injection H as _ <-; lia.
Qed.
Lemma UNI_step alnum lx lx' : ok lx -> h_UNI alnum lx = Done lx' ->
  step lx lx' /\ (forall b r, rem (lx_cur lx) = b :: r -> (127 < byte_val b)%N ->
     sstep lx lx' \/ (lx' = set_token T_UnexpectedToken lx /\
       exists c n, decode_char (rem (lx_cur lx)) = Some (c, n) /\ alnum c = false)).
Proof.
  unfold h_UNI; intros O H. destruct (decode_char (rem (lx_cur lx))) as [[c n]|] eqn:E; [|discriminate].
  destruct (alnum c) eqn:Ea.
  - odone H. oinv. destruct (decode_char_length _ _ _ E) as [L1 L2].
    assert (F : fwd (lx_cur lx) (cur_advance (n - 1) (lx_cur lx))).
    { exists (firstn (n - 1) (rem (lx_cur lx))). split; simpl.
      - now rewrite firstn_skipn.
      - rewrite firstn_length. lia. }
    assert (S1 : step lx (set_cur (cur_advance (n - 1) (lx_cur lx)) lx)).
    { apply step_set_cur; auto. simpl. intros Z. apply (f_equal (@List.length _)) in Z.
      rewrite skipn_length in Z. simpl in Z. lia. }
    apply step_skip in H0; [|ok_of].
    split; [step_tac|]. intros b r Er Hb. left. rewrite Er in E.
    apply decode_char_multi in E; auto.
    assert (S2 : sstep lx (set_cur (cur_advance (n - 1) (lx_cur lx)) lx)).
    { split; [apply S1|split; [apply S1|]]. simpl. lia. }
    step_tac.
  - oinv. split; [step_tac|]. intros b r Er Hb. right. split; auto. exists c, n. auto.
Qed.

(** ** Comments *)
Lemma scan_block_comment_fwd p r k c : ends r ->
  scan_block_comment p r = Done (k, c) -> fwd (Cur p r) c /\ rem c <> [].
Proof.
  revert p. induction r as [|b r IH]; simpl; intros p E H; [discriminate|].
  oinv; byte_cases.
  - destruct r as [|c0 r]; [discriminate|]. oinv; byte_cases.
    + split. exists ["*"%byte; "/"%byte]. split; simpl; [reflexivity|lia].
      apply ends_cons in E; [|discriminate]. apply ends_cons in E; [|discriminate]. now apply ends_nonempty.
    + split; [|simpl; discriminate]. exists ["*"%byte]. split; simpl; [reflexivity|lia].
    + assert (E1 : ends (c0 :: r)) by now apply ends_cons in E.
      apply IH in H; auto. destruct H as [F N]. split; auto.
      eapply fwd_trans; [|exact F]. exists ["*"%byte]. split; simpl; [reflexivity|lia].
  - split; [apply fwd_refl|discriminate].
  - neqs. assert (E1 : ends r) by (eapply ends_cons; eauto).
    apply IH in H; auto. destruct H as [F N]. split; auto.
    eapply fwd_trans; [|exact F]. exists [b]. split; simpl; [reflexivity|lia].
Qed.

Lemma scan_block_comment_body p r c : scan_block_comment p r = Done (true, c) ->
  exists body, r = body ++ ["*"; "/"]%byte ++ rem c /\ pos c = p + List.length body + 2 /\
    (forall u v, body ++ ["*"%byte] <> u ++ "*"%byte :: "/"%byte :: v) /\ ~ In x00 body.
Proof.
  revert p. induction r as [|b r IH]; simpl; intros p H; [discriminate|].
  oinv; byte_cases.
  - destruct r as [|c0 r]; [discriminate|]. oinv; byte_cases.
    + exists []. simpl. split; [reflexivity|split; [lia|split; [|tauto]]].
      intros [|u0 [|u1 u]] v E; simpl in E; discriminate.
    + neqs. apply IH in H as (body & E & Hp & Hb & Hn).
      exists ("*"%byte :: body). rewrite E. simpl. split; [reflexivity|split; [lia|split]].
      * intros [|u0 u] v Eu; simpl in Eu.
        -- injection Eu as Eu. destruct body as [|x body]; simpl in *; [discriminate|].
           injection Eu as -> _. injection E as -> _. congruence.
        -- injection Eu as _ Eu. now apply Hb in Eu.
      * intros [Z|Z]; [discriminate|auto].
  - neqs. apply IH in H as (body & E & Hp & Hb & Hn).
    exists (b :: body). rewrite E. simpl. split; [reflexivity|split; [lia|split]].
    + intros [|u0 u] v Eu; simpl in Eu.
      * injection Eu as -> _. congruence.
      * injection Eu as _ Eu. now apply Hb in Eu.
    + intros [Z|Z]; [congruence|auto].
Qed.

Lemma handler_not_nul b h : handler_from_byte b = Some h -> h <> H_EOF -> b <> x00.
Proof. intros H N ->. apply N. now injection H. Qed.
Lemma handler_EOF b : handler_from_byte b = Some H_EOF -> b = x00.
Proof. destruct b; intros H; try discriminate H; reflexivity. Qed.
Lemma handler_UNI b : handler_from_byte b = Some H_UNI -> (127 < byte_val b)%N.
Proof. destruct b; intros H; try discriminate H; reflexivity. Qed.
Lemma handler_SLH b : handler_from_byte b = Some H_SLH -> b = "/"%byte.
Proof. destruct b; intros H; try discriminate H; reflexivity. Qed.
Lemma handler_None b : handler_from_byte b = None <-> white b.
Proof. unfold white. destruct b; split; intros H; try discriminate H; try reflexivity;
  try (vm_compute; split; discriminate); exfalso; vm_compute in H; destruct H as [H1 H2]; congruence. Qed.

Lemma scan_token_start_spec a p r h a' c : scan_token_start a p r = Done (h, a', c) ->
  exists s b r', r = s ++ b :: r' /\ Forall white s /\ handler_from_byte b = Some h
    /\ c = Cur (p + List.length s) (b :: r')
    /\ a' = if existsb (byte_eqb x0a) s then ImplicitSemicolon else a.
Proof.
  revert a p; induction r as [|b r IH]; simpl; intros a p H; [discriminate|].
  destruct (handler_from_byte b) as [h0|] eqn:E.
  - oinv. exists [], b, r. simpl. repeat split; auto. f_equal; lia.
  - apply IH in H as (s & b' & r' & -> & W & Hh & -> & ->).
    exists (b :: s), b', r'. simpl. repeat split; auto.
    + constructor; auto. now apply handler_None.
    + f_equal; lia.
    + destruct (existsb (byte_eqb x0a) s); [now rewrite orb_true_r|rewrite orb_false_r].
      unfold byte_eqb. destruct b; reflexivity.
Qed.
Lemma scan_token_start_intro a p s b r' h : Forall white s -> handler_from_byte b = Some h ->
  scan_token_start a p (s ++ b :: r') = Done (h, (if existsb (byte_eqb x0a) s then ImplicitSemicolon else a), Cur (p + List.length s) (b :: r')).
Proof.
  intros W Hh. revert a p; induction s as [|x s IH]; simpl; intros a p.
  - rewrite Hh. do 3 f_equal. lia.
  - inversion W as [|x' s' W1 W2]; subst. apply handler_None in W1. rewrite W1, IH by auto.
    replace (S p + List.length s) with (p + S (List.length s)) by lia. do 3 f_equal.
    destruct (existsb (byte_eqb x0a) s); [now rewrite orb_true_r|rewrite orb_false_r].
    unfold byte_eqb. destruct x; reflexivity.
Qed.

Lemma gap_whites s t rest : Forall white s -> gap t rest -> gap (s ++ t) rest.
Proof. induction 1; simpl; auto. intros. constructor; auto. Qed.

(** ** One call of a handler *)

Inductive handled (alnum : N -> bool) (again : lexer -> outcome lexer) (lx lx' : lexer) : Prop :=
| hd_token : sstep lx lx' -> lx_token lx' <> T_EndOfProgram -> handled alnum again lx lx'
| hd_eof : head lx x00 -> lx' = set_token T_EndOfProgram (set_asi ImplicitSemicolon lx) ->
    handled alnum again lx lx'
| hd_uni b r c n : rem (lx_cur lx) = b :: r -> (127 < byte_val b)%N ->
    decode_char (b :: r) = Some (c, n) -> alnum c = false ->
    lx' = set_token T_UnexpectedToken lx -> handled alnum again lx lx'
| hd_line body lx2 : adv (lx_cur lx) ("/" :: "/" :: body)%byte (lx_cur lx2) ->
    ~ In x0a body -> ~ In x00 body -> (exists b, head lx2 b /\ (b = x0a \/ b = x00)) ->
    lx2 = set_cur (lx_cur lx2) lx ->
    again lx2 = Done lx' -> handled alnum again lx lx'
| hd_block body lx2 : adv (lx_cur lx) ("/" :: "*" :: body ++ ["*"; "/"])%byte (lx_cur lx2) ->
    (forall u v, body ++ ["*"%byte] <> u ++ "*"%byte :: "/"%byte :: v) -> ~ In x00 body ->
    lx2 = set_cur (lx_cur lx2) lx ->
    again lx2 = Done lx' -> handled alnum again lx lx'.

Lemma set_cur_cur c lx : lx_cur (set_cur c lx) = c.
Proof. reflexivity. Qed.

Lemma SLH_handled alnum again lx lx' : ok lx -> head lx "/"%byte ->
  h_SLH again lx = Done lx' -> handled alnum again lx lx'.
Proof.
  unfold h_SLH; intros O Hd H. odone H. destruct a as [b lx1].
  assert (E1 : lx1 = bump lx). { clear H1. unfold next_byte in H0. oinv. reflexivity. }
  assert (S1 := H0). apply sstep_next in S1; auto. destruct S1 as [S1 Hd1].
  destruct (byte_eqb b "/") eqn:B1; [|destruct (byte_eqb b "*") eqn:B2; [|destruct (byte_eqb b "=") eqn:B3]]; byte_cases.
  - odone H1. unfold skip_while in H. odone H. oinv.
    apply scan_while_spec in H1 as (s & b & r' & E & -> & Hs & Hb).
    destruct lx as [buf t a [p r] tok acc q]. destruct Hd as [r1 Er]. simpl in Er; subst r.
    destruct Hd1 as [r2 Er2]. simpl in Er2. subst r1. simpl in E. subst r2.
    eapply hd_line with (body := s); [| | | | |exact H2]; [| | | |reflexivity]; simpl.
    + split; simpl; [reflexivity|lia].
    + intros I. rewrite forallb_forall in Hs. apply Hs in I. discriminate.
    + intros I. rewrite forallb_forall in Hs. apply Hs in I. discriminate.
    + exists b. split; [eexists; reflexivity|]. unfold not_line_end in Hb.
      apply negb_false_iff in Hb. byte_cases; auto.
  - odone H1. destruct a as [k c]. destruct k.
    + apply scan_block_comment_body in H as (body & E & Hp & Hb & Hn).
      destruct lx as [buf t a [p r] tok acc q]. destruct Hd as [r1 Er]. simpl in Er; subst r.
      subst lx1. destruct Hd1 as [r2 Er2]. simpl in Er2. subst r1. simpl in E. subst r2.
      eapply hd_block with (body := body); [|exact Hb|exact Hn| |exact H2]; [|reflexivity].
      simpl. split; simpl; [rewrite <- app_assoc; reflexivity|].
      rewrite app_length; simpl in *. lia.
    + oinv. assert (O2 : ok (bump (bump lx))) by ok_of.
      apply scan_block_comment_fwd in H; [|exact O2]. destruct H as [F N].
      assert (S2 : step (bump (bump lx)) (set_cur c (bump (bump lx)))).
      { apply step_set_cur; auto. }
      assert (S3 : sstep (bump lx) (bump (bump lx))) by step_tac.
      apply hd_token; [|discriminate].
      apply (sstep_step_trans _ _ _ S1), (step_trans _ _ _ (sstep_step _ _ S3)), (step_trans _ _ _ S2).
      apply step_set_token. ok_of.
  - oinv. apply hd_token; [|discriminate]. step_tac.
  - oinv. apply hd_token; [|discriminate]. step_tac.
Qed.

Fixpoint ktrie_tokens (k : ktrie) : list token :=
  match k with
  | KSeq _ t => [t]
  | KBranch d l => (match d with Some t => [t] | None => [] end)
                   ++ flat_map (fun p => ktrie_tokens (snd p)) l
  end.
Fixpoint match_label_token (k : ktrie) : forall lx t lx',
  match_label k lx = Done (Some t, lx') -> In t (ktrie_tokens k).
Proof.
  destruct k as [bs t0|d branches]; intros lx t lx' H; simpl in H.
  - odone H. destruct a as [[|] lx1]; injection H1; intros; subst; try discriminate. simpl; auto.
  - odone H. destruct a as [b lx1]. simpl.
    assert (G : In t (match d with Some t => [t] | None => [] end)
                \/ In t (flat_map (fun p => ktrie_tokens (snd p)) branches)).
    { clear H0. revert H1. induction branches as [|[m k'] l IH]; intros H1.
      - left. destruct d; [destruct (legal_in_label b)|]; injection H1; intros; subst; try discriminate.
        simpl; auto.
      - destruct (byte_eqb b m).
        + right. simpl. apply in_app_iff. left. eapply match_label_token; eauto.
        + destruct (IH H1) as [G|G]; auto. right. simpl. apply in_app_iff. auto. }
    apply in_app_iff. exact G.
Qed.
Lemma label_token k lx lx' : label_or_keyword k lx = Done lx' ->
  In (lx_token lx') (T_Identifier :: ktrie_tokens k).
Proof.
  unfold label_or_keyword; intros H. odone H. destruct a as [[t|] lx1].
  - apply match_label_token in H0. oinv. simpl. auto.
  - oinv. left. reflexivity.
Qed.

Ltac not_eop := oinv; try discriminate; simpl; try discriminate.
Lemma scientific_token lx lx' : read_scientific lx = Done lx' -> lx_token lx' = T_LiteralNumber.
Proof. unfold read_scientific; intros H. odone H. odone H1. oinv. reflexivity. Qed.
Lemma float_token lx lx' : read_float lx = Done lx' -> lx_token lx' = T_LiteralNumber.
Proof.
  unfold read_float; intros H. odone H. odone H1.
  destruct (byte_eqb a0 "e" || byte_eqb a0 "E")%bool; [now apply scientific_token in H2|].
  oinv. reflexivity.
Qed.
Lemma decimal_token lx lx' : read_decimal lx = Done lx' -> lx_token lx' = T_LiteralNumber.
Proof.
  unfold read_decimal; intros H. odone H. odone H1.
  destruct (byte_eqb a0 "."); [now apply float_token in H2|].
  destruct (byte_eqb a0 "e" || byte_eqb a0 "E")%bool; [now apply scientific_token in H2|].
  oinv. reflexivity.
Qed.
Lemma template_token lx lx' : read_template_kind lx = Done lx' ->
  lx_token lx' = T_TemplateClosed \/ lx_token lx' = T_TemplateOpen \/ lx_token lx' = T_UnexpectedEndOfProgram.
Proof. unfold read_template_kind; intros H. odone H. destruct a as [[[| |] e] c]; oinv; simpl; auto. Qed.

Lemma handler_handled alnum again b h lx lx' :
  ok lx -> head lx b -> handler_from_byte b = Some h ->
  run_handler alnum again h lx = Done lx' -> handled alnum again lx lx'.
Proof.
  intros O Hd Hh H.
  assert (N : h <> H_EOF -> b <> x00) by (eapply handler_not_nul; eauto).
  destruct h; simpl in H;
  try (assert (Nb : b <> x00) by (apply N; discriminate); clear N);
  try (apply hd_token;
       [ solve [ eapply single_sstep; eauto | eapply closing_sstep; eauto | eapply SEM_sstep; eauto
               | eapply EQL_sstep; eauto | eapply EXL_sstep; eauto | eapply LSS_sstep; eauto
               | eapply MOR_sstep; eauto | eapply op_assign_sstep; eauto
               | eapply op_double_sstep; [| | | |exact H]; [eauto|eauto|eauto|discriminate]
               | eapply ATR_sstep; eauto
               | eapply ZER_sstep; eauto | eapply DIG_sstep; eauto | eapply PRD_sstep; eauto
               | eapply QOT_sstep; eauto | eapply TPL_sstep; eauto | eapply IDT_sstep; eauto
               | eapply label_sstep; eauto ]
       | ]);
  try (match goal with H : label_or_keyword ?k _ = Done _ |- _ =>
         apply label_token in H; intros Z; rewrite Z in H; simpl in H; intuition discriminate end).
  all: try solve [unfold h_single, h_closing, h_SEM, h_EQL, h_EXL, h_LSS, h_MOR, h_op_assign, h_op_double, h_ATR, h_IDT in H; not_eop].
  - (* EOF *) apply hd_eof. apply handler_EOF in Hh. now subst. unfold h_EOF in H. now oinv.
  - (* QOT *) unfold h_QOT in H. odone H. odone H1. destruct a0 as [[|] c]; not_eop.
  - (* PRD *) unfold h_PRD in H. odone H. destruct a as [x y].
    destruct (is_digit x); [apply float_token in H1; congruence|].
    destruct (byte_eqb x "."). { not_eop. }
    unfold read_accessor in H1. not_eop.
  - (* SLH *) eapply SLH_handled; eauto. apply handler_SLH in Hh. now subst.
  - (* ZER *) unfold h_ZER in H. odone H. destruct a as [x y].
    destruct (byte_eqb x "b" || byte_eqb x "B")%bool; [unfold read_radix in H1; not_eop|].
    destruct (byte_eqb x "o" || byte_eqb x "O")%bool; [unfold read_radix in H1; not_eop|].
    destruct (byte_eqb x "x" || byte_eqb x "X")%bool; [unfold read_radix in H1; not_eop|].
    apply decimal_token in H1. congruence.
  - (* DIG *) unfold h_DIG in H. apply decimal_token in H. congruence.
  - (* TPL *) unfold h_TPL in H. apply template_token in H. intuition congruence.
  - (* UNI *) apply handler_UNI in Hh. destruct Hd as [r E]. assert (H0 := H).
    apply UNI_step in H; auto. destruct H as [_ H]. destruct (H _ _ E Hh) as [S|(E2 & c & n & D & A)].
    + apply hd_token; auto. unfold h_UNI in H0. destruct (decode_char (rem (lx_cur lx))) as [[c n]|]; [|discriminate].
      destruct (alnum c); not_eop.
    + rewrite E in D. eapply hd_uni; eauto.
Qed.
