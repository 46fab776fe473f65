(** When an operation of the lexer does not return: what the source looks like. *)
From Coq Require Import List NArith Bool Lia Arith String.
From Coq.Strings Require Import Byte.
From Verif Require Import Bytes Token Tables Lexer SpecLexer SpecTokens LexerFacts ConsumeFacts LexEval TokenText StateFacts ChunkText
  SpecUtf8 Boundary Utf8Facts SpecChunks SpecHazard.
Import ListNotations.
Open Scope nat_scope.
Open Scope list_scope.

Definition fine {A} (o : outcome A) : Prop := exists a, o = Done a.
Lemma fine_done {A} (a : A) : fine (Done a).
Proof. now exists a. Qed.
Lemma fine_bind {A B} (m : outcome A) (f : A -> outcome B) : fine m -> (forall a, m = Done a -> fine (f a)) -> fine (obind m f).
Proof. intros [a ->] H. cbn [obind]. now apply H. Qed.

Lemma read_fine lx : ok lx -> fine (read_byte lx).
Proof. intros [s E]. unfold read_byte. rewrite E. destruct s; cbn [app]; apply fine_done. Qed.
Lemma next_fine lx b : ok lx -> head lx b -> b <> x00 -> fine (next_byte lx).
Proof.
  intros O H N. unfold next_byte. apply fine_bind; [|intros; apply fine_done]. apply read_fine. eapply ok_bump; eauto.
Qed.
Lemma scan_fine f r : f x00 = false -> ends r -> forall p, fine (scan_while f p r).
Proof.
  intros F [s ->]. induction s as [|b s IH]; intros p; cbn [app scan_while].
  - rewrite F. apply fine_done.
  - destruct (f b); [apply IH|apply fine_done].
Qed.
Lemma skip_fine f lx : f x00 = false -> ok lx -> fine (skip_while f lx).
Proof. intros F O. unfold skip_while. apply fine_bind; [now apply scan_fine|intros; apply fine_done]. Qed.

Lemma string_fine q r : q <> x00 -> ends r -> forall p, fine (scan_string q p r).
Proof.
  intros Q. induction r as [r IH] using length_ind. intros O p. destruct r as [|b r]; [destruct (ends_nonempty _ O eq_refl)|]. cbn [scan_string].
  destruct (byte_eqb b q) eqn:Eq; [apply fine_done|].
  destruct (byte_eqb b "\") eqn:Eb.
  - apply byte_eqb_eq in Eb. subst b. apply ends_cons in O; [|discriminate]. destruct r as [|c r]; [destruct (ends_nonempty _ O eq_refl)|].
    destruct (byte_eqb c x00) eqn:Ec; [apply fine_done|]. apply byte_eqb_neq in Ec. apply IH; [cbn; lia|]. eapply ends_cons; eauto.
  - destruct (byte_eqb b x00) eqn:E0; [apply fine_done|]. apply byte_eqb_neq in E0. apply IH; [cbn; lia|]. eapply ends_cons; eauto.
Qed.
Lemma comment_fine r : ends r -> forall p, fine (scan_block_comment p r).
Proof.
  induction r as [r IH] using length_ind. intros O p. destruct r as [|b r]; [destruct (ends_nonempty _ O eq_refl)|]. cbn [scan_block_comment].
  destruct (byte_eqb b "*") eqn:Eb.
  - apply byte_eqb_eq in Eb. subst b. apply ends_cons in O; [|discriminate]. destruct r as [|c r]; [destruct (ends_nonempty _ O eq_refl)|].
    destruct (byte_eqb c "/"); [apply fine_done|]. destruct (byte_eqb c x00); [apply fine_done|]. apply IH; [cbn; lia|exact O].
  - destruct (byte_eqb b x00) eqn:E0; [apply fine_done|]. apply byte_eqb_neq in E0. apply IH; [cbn; lia|]. eapply ends_cons; eauto.
Qed.

(** Outcomes other than [Done] of the three loops that a NUL does not stop. *)
Lemma nul_end {A} (l : list A) x r : l ++ [x] = r -> r <> [].
Proof. intros <-. destruct l; discriminate. Qed.
Lemma template_bad s : forall p, ~ fine (scan_template p (s ++ [x00])) -> template_inside s /\ scan_template p (s ++ [x00]) = ReadPastEnd.
Proof.
  induction s as [s IH] using length_ind. intros p H. destruct s as [|b s].
  { split; [constructor|reflexivity]. }
  cbn [app scan_template] in *. destruct (byte_eqb b "`") eqn:E1; [destruct H; apply fine_done|].
  destruct (byte_eqb b "$") eqn:E2.
  - destruct (s ++ [x00]) as [|c r] eqn:Es; [destruct s; discriminate Es|].
    destruct (byte_eqb c "{") eqn:E3; [destruct H; apply fine_done|].
    rewrite <- Es in *. apply IH in H as [T ->]; [|cbn; lia]. split; [|reflexivity]. apply byte_eqb_eq in E2. subst b.
    apply ti_dollar; [|exact T]. intros r' ->. cbn [app] in Es. injection Es as <- _. discriminate E3.
  - destruct (byte_eqb b "\") eqn:E3.
    + destruct s as [|c s]; cbn [app] in *; [destruct H; apply fine_done|].
      destruct (byte_eqb c x00) eqn:E4; [destruct H; apply fine_done|].
      apply IH in H as [T ->]; [|cbn; lia]. split; [|reflexivity]. apply byte_eqb_eq in E3. subst b. apply ti_escape; [|exact T]. now apply byte_eqb_neq.
    + apply IH in H as [T ->]; [|cbn; lia]. split; [|reflexivity]. apply ti_plain; auto; now apply byte_eqb_neq.
Qed.
Lemma regex_bad s : forall k p, ~ fine (scan_regex k p (s ++ [x00])) -> regex_open k s /\ scan_regex k p (s ++ [x00]) = ReadPastEnd.
Proof.
  induction s as [s IH] using length_ind. intros k p H. destruct s as [|b s].
  { split; [constructor|reflexivity]. }
  cbn [app scan_regex] in *. destruct (byte_eqb b "[") eqn:E1.
  { apply byte_eqb_eq in E1. subst b. apply IH in H as [T ->]; [|cbn; lia]. split; [now constructor|reflexivity]. }
  destruct (byte_eqb b "]") eqn:E2.
  { apply byte_eqb_eq in E2. subst b. apply IH in H as [T ->]; [|cbn; lia]. split; [now constructor|reflexivity]. }
  destruct (byte_eqb b "/") eqn:E3.
  { apply byte_eqb_eq in E3. subst b. destruct k; [|destruct H; apply fine_done]. apply IH in H as [T ->]; [|cbn; lia]. split; [now constructor|reflexivity]. }
  destruct (byte_eqb b "\") eqn:E4.
  { apply byte_eqb_eq in E4. subst b. destruct s as [|c s]; cbn [app] in *; [destruct H; apply fine_done|].
    destruct (byte_eqb c x00) eqn:E5; [destruct H; apply fine_done|].
    apply IH in H as [T ->]; [|cbn; lia]. split; [|reflexivity]. apply ro_escape; [|exact T]. now apply byte_eqb_neq. }
  destruct (byte_eqb b x0a) eqn:E5; [destruct H; apply fine_done|].
  apply IH in H as [T ->]; [|cbn; lia]. split; [|reflexivity]. apply ro_plain; [|exact T]. neqs. cbn. intuition congruence.
Qed.
Lemma at_most_blank b : at_most_space b = true -> blank b.
Proof. unfold at_most_space, blank. apply N.leb_le. Qed.
Lemma blanks_bad s : forall p, ~ fine (scan_while at_most_space p (s ++ [x00])) -> Forall blank s /\ scan_while at_most_space p (s ++ [x00]) = ReadPastEnd.
Proof.
  induction s as [|b s IH]; intros p H.
  - split; [constructor|reflexivity].
  - cbn [app scan_while] in *. destruct (at_most_space b) eqn:E; [|destruct H; apply fine_done].
    apply IH in H as [T ->]. split; [|reflexivity]. constructor; [now apply at_most_blank|exact T].
Qed.

(** ** Handlers *)
Section Handlers.
  Variable alnum : N -> bool.

  Lemma scientific_fine lx : ok lx -> fine (read_scientific lx).
  Proof.
    intros O. unfold read_scientific. apply fine_bind; [now apply read_fine|]. intros b Hb. apply fine_bind; [|intros; apply fine_done].
    apply skip_fine; [reflexivity|]. apply read_byte_head in Hb. destruct (byte_eqb b "-" || byte_eqb b "+")%bool eqn:E; [|exact O].
    eapply ok_bump; eauto. intros ->. discriminate E.
  Qed.
  Lemma float_fine lx : ok lx -> fine (read_float lx).
  Proof.
    intros O. unfold read_float. apply fine_bind; [now apply skip_fine|]. intros lx1 H1. apply step_skip in H1; [|exact O]. destruct H1 as [_ O1].
    apply fine_bind; [now apply read_fine|]. intros b Hb. apply read_byte_head in Hb. destruct (byte_eqb b "e" || byte_eqb b "E")%bool eqn:E; [|apply fine_done].
    apply scientific_fine. eapply ok_bump; eauto. intros ->. discriminate E.
  Qed.
  Lemma decimal_fine lx : ok lx -> fine (read_decimal lx).
  Proof.
    intros O. unfold read_decimal. apply fine_bind; [now apply skip_fine|]. intros lx1 H1. apply step_skip in H1; [|exact O]. destruct H1 as [_ O1].
    apply fine_bind; [now apply read_fine|]. intros b Hb. apply read_byte_head in Hb. destruct (byte_eqb b ".") eqn:E1.
    { apply float_fine. eapply ok_bump; eauto. intros ->. discriminate E1. }
    destruct (byte_eqb b "e" || byte_eqb b "E")%bool eqn:E; [|apply fine_done].
    apply scientific_fine. eapply ok_bump; eauto. intros ->. discriminate E.
  Qed.
  Lemma radix_fine f t lx : f x00 = false -> ok lx -> fine (read_radix f t lx).
  Proof. intros F O. unfold read_radix. apply fine_bind; [now apply skip_fine|intros; apply fine_done]. Qed.

  Ltac fnext :=
    match goal with
    | |- fine (obind (next_byte ?l) _) =>
        apply fine_bind; [eapply next_fine; [ok_of|eassumption|solve [assumption|discriminate]] |
          let b := fresh "b" in let l' := fresh "l" in let N := fresh "N" in intros [b l'] N; apply sstep_next in N; [|ok_of]; destruct N as [?S ?Hd]]
    | |- fine (if ?c then _ else _) => let E := fresh "E" in destruct c eqn:E; try (apply byte_eqb_eq in E; subst)
    | |- fine (Done _) => apply fine_done
    end.

  Definition risky (h : byte_handler) : bool :=
    match h with H_PRD | H_TPL | H_UNI | H_SLH => true | _ => false end.
  Lemma handler_fine again lx b h : ok lx -> head lx b -> lx_tok lx = lx_cur lx -> handler_from_byte b = Some h -> risky h = false ->
    fine (run_handler alnum again h lx).
  Proof.
    intros O Hd Ht Hh Hr. destruct (trie_of h) as [k|] eqn:Ek.
    { destruct lx as [buf t a [p r0] tok acc q]. simpl in Ht. subst tok. destruct Hd as [r Er]. simpl in Er. subst r0.
      assert (Hs : word_start b = true) by (unfold word_start; rewrite Hh, Ek; reflexivity).
      assert (O1 : ends r).
      { apply (ends_cons b); [exact O|]. intros ->. vm_compute in Hs. discriminate. }
      destruct (split_word r O1) as (w & c0 & r' & -> & Hw & Hc).
      rewrite (word_handler alnum h k) by auto. apply fine_done. }
    assert (Hb : b <> x00 \/ h = H_EOF).
    { destruct (byte_eqb b x00) eqn:E; [byte_cases; right; vm_compute in Hh; congruence|left; now apply byte_eqb_neq]. }
    destruct Hb as [Hb| ->]; [|apply fine_done].
    destruct h; try discriminate Ek; try discriminate Hr; cbn [run_handler];
      unfold h_EOF, h_single, h_closing, h_SEM, h_EQL, h_EXL, h_LSS, h_MOR, h_op_assign, h_op_double, h_ATR;
      try solve [repeat fnext].
    - (* QOT *) unfold h_QOT. apply fine_bind; [now apply read_fine|]. intros q Hq. apply read_byte_head in Hq.
      assert (q = b) by (destruct Hq as [r1 E1], Hd as [r2 E2]; congruence). subst q.
      cbv zeta. apply fine_bind; [|intros [? ?] _; apply fine_done]. apply string_fine; [exact Hb|].
      assert (O2 : ok (bump lx)) by ok_of. exact O2.
    - (* ZER *) unfold h_ZER. fnext. destruct (byte_eqb b0 "b" || byte_eqb b0 "B")%bool eqn:E1.
      { apply radix_fine; [reflexivity|]. eapply ok_bump; [ok_of|eassumption|]. intros ->. discriminate E1. }
      destruct (byte_eqb b0 "o" || byte_eqb b0 "O")%bool eqn:E2.
      { apply radix_fine; [reflexivity|]. eapply ok_bump; [ok_of|eassumption|]. intros ->. discriminate E2. }
      destruct (byte_eqb b0 "x" || byte_eqb b0 "X")%bool eqn:E3.
      { apply radix_fine; [reflexivity|]. eapply ok_bump; [ok_of|eassumption|]. intros ->. discriminate E3. }
      apply decimal_fine. ok_of.
    - (* DIG *) unfold h_DIG. apply decimal_fine. ok_of.
  Qed.

  Lemma white_start a p r h a' c : ends r -> scan_token_start a p r = Done (h, a', c) -> ends (rem c).
  Proof.
    intros O H. apply scan_token_start_spec in H as (s & b & r' & Er & _ & _ & Ec & _). rewrite Ec. cbn [rem]. rewrite Er in O. apply ends_suffix in O; [exact O|discriminate].
  Qed.
  Lemma start_fine a p r : ends r -> fine (scan_token_start a p r).
  Proof.
    intros [s ->]. revert a p. induction s as [|b s IH]; intros a p; cbn [app scan_token_start].
    - cbn. apply fine_done.
    - destruct (handler_from_byte b); [apply fine_done|apply IH].
  Qed.
  Lemma bind_bad {A B} (m : outcome A) (f : A -> outcome B) a : m = Done a -> obind m f = f a.
  Proof. intros ->. reflexivity. Qed.

  Lemma consume_bad lx : ok lx -> Bd lx -> ~ fine (consume alnum lx) ->
    exists lx0 b h, fwd (lx_cur lx) (lx_cur lx0) /\ ok lx0 /\ Bd lx0 /\ head lx0 b /\ lx_tok lx0 = lx_cur lx0 /\ handler_from_byte b = Some h /\
      (h = H_PRD \/ h = H_TPL \/ h = H_UNI) /\ run_handler alnum (fun _ => Panicked) h lx0 = consume alnum lx.
  Proof.
    remember (List.length (rem (lx_cur lx))) as n eqn:En. revert lx En. induction n as [n IH] using lt_wf_ind. intros lx En O B H.
    rewrite consume_unfold in H |- *. unfold consume_once in H |- *.
    destruct (start_fine NoSemicolon (pos (lx_cur lx)) _ O) as [[[h a] c] E]. rewrite E in H |- *. cbn [obind] in H |- *.
    assert (Sp := E). apply scan_token_start_spec in Sp as (s & b & r & Er & _ & Hh & Ec & _).
    assert (Oc := white_start _ _ _ _ _ _ O E). apply scan_start_bd in E as (Bc & _); [|exact B].
    set (lx0 := set_tok c (set_cur c (set_asi a lx))) in *.
    assert (A0 : adv (lx_cur lx) s (lx_cur lx0)) by (subst c; split; [exact Er|reflexivity]).
    assert (Hd0 : head lx0 b) by (exists r; subst lx0 c; reflexivity).
    assert (O0 : ok lx0) by exact Oc. assert (B0 : Bd lx0) by exact Bc. assert (T0 : lx_tok lx0 = lx_cur lx0) by reflexivity. clearbody lx0.
    destruct (risky h) eqn:Rh.
    2:{ destruct H. eapply handler_fine; eauto. }
    destruct (match h with H_SLH => true | _ => false end) eqn:Es.
    2:{ exists lx0, b, h. split; [exists s; exact A0|]. do 5 (split; [assumption|]). destruct h; try discriminate Rh; try discriminate Es; (split; [tauto|reflexivity]). }
    destruct h; try discriminate Es. assert (Eb := handler_SLH _ Hh). subst b. cbn [run_handler] in H |- *.
    unfold h_SLH in H |- *. destruct (next_fine lx0 _ O0 Hd0 ltac:(discriminate)) as [[x lx1] N]. rewrite N in H |- *. cbn [obind] in H |- *.
    assert (Av1 : adv (lx_cur lx0) ["/"%byte] (lx_cur lx1)).
    { clear - N Hd0. unfold next_byte in N. oinv. destruct Hd0 as [r E]. split; [rewrite E; cbn; now rewrite E|cbn; lia]. }
    assert (Hx : Bd lx1 /\ head lx1 x) by (eapply next_Bd; [|exact N]; eapply head_Hd; [apply Bd_As; exact B0|exact Hd0|reflexivity]). destruct Hx as [B1 Hx].
    assert (Sx := sstep_next _ _ _ O0 N). destruct Sx as [S1 _]. assert (O1 : ok lx1) by ok_of. clear S1 N.
    destruct (byte_eqb x "/") eqn:E1; [|destruct (byte_eqb x "*") eqn:E2].
    - apply byte_eqb_eq in E1. subst x. assert (O2 : ok (bump lx1)) by ok_of.
      assert (B2 : Bd (bump lx1)) by (apply bump_Bd; eapply head_Hd; [now apply Bd_As|exact Hx|reflexivity]).
      destruct (skip_fine not_line_end _ eq_refl O2) as [lx2 F]. rewrite F in H |- *. cbn [obind] in H |- *.
      destruct (skip_As _ _ _ (Bd_As _ B2) F) as (A3 & y & Hy & Fy).
      assert (Fs := step_skip _ _ _ O2 F). destruct Fs as [K2 O3]. destruct K2 as [_ _ F2 _].
      assert (L2 : fwd (lx_cur lx1) (lx_cur lx2)) by (eapply fwd_trans; [|exact F2]; exists ["/"%byte]; destruct Hx as [z Ez]; split; [rewrite Ez; cbn; now rewrite Ez|cbn; lia]).
      assert (L0 : fwd (lx_cur lx) (lx_cur lx2)) by (eapply fwd_trans; [exists s; exact A0|]; eapply fwd_trans; [exists ["/"%byte]; exact Av1|exact L2]).
      destruct (IH (List.length (rem (lx_cur lx2)))) with (lx := lx2) as (lx5 & b5 & h5 & F5 & R5); auto.
      + apply adv_length in A0. apply adv_length in Av1. destruct L2 as [s2 L2]. apply adv_length in L2. cbn in Av1. lia.
      + apply Hd_Bd. eapply head_Hd; [exact A3|exact Hy|]. clear - Fy. destruct y; vm_compute in Fy |- *; congruence.
      + exists lx5, b5, h5. split; [eapply fwd_trans; [exact L0|exact F5]|exact R5].
    - apply byte_eqb_eq in E2. subst x. assert (O2 : ok (bump lx1)) by ok_of. cbv zeta in H |- *.
      assert (B2 : Bd (bump lx1)) by (apply bump_Bd; eapply head_Hd; [now apply Bd_As|exact Hx|reflexivity]).
      destruct (comment_fine _ O2 (pos (lx_cur (bump lx1)))) as [[k c2] F]. rewrite F in H |- *. cbn [obind] in H |- *.
      destruct k; [|destruct H; apply fine_done].
      assert (F' := F). apply scan_comment_bd in F'; [|apply Bd_As; exact B2].
      destruct (scan_block_comment_fwd _ _ _ _ O2 F) as [F2 Nn].
      assert (L2 : fwd (lx_cur lx1) c2) by (apply (fwd_trans _ (lx_cur (bump lx1))); [exists ["*"%byte]; destruct Hx as [z Ez]; split; [rewrite Ez; cbn; now rewrite Ez|cbn; lia]|exact F2]).
      assert (L0 : fwd (lx_cur lx) c2) by (eapply fwd_trans; [exists s; exact A0|]; eapply fwd_trans; [exists ["/"%byte]; exact Av1|exact L2]).
      destruct (IH (List.length (rem c2))) with (lx := set_cur c2 (bump lx1)) as (lx5 & b5 & h5 & F5 & R5); auto.
      + apply adv_length in A0. apply adv_length in Av1. destruct L2 as [s2 L2]. apply adv_length in L2. cbn in Av1. lia.
      + destruct F2 as [s1 [F2 _]]. unfold ok in *. cbn [lx_cur set_cur]. change (rem (lx_cur (bump lx1)) = s1 ++ rem c2) in F2. rewrite F2 in O2. apply ends_suffix in O2; auto.
      + exists lx5, b5, h5. split; [eapply fwd_trans; [exact L0|exact F5]|exact R5].
    - destruct H. destruct (byte_eqb x "="); apply fine_done.
  Qed.
End Handlers.

(** The texts of [switch] and of template tokens. *)
Section Switch.
  Variable alnum : N -> bool.
  Lemma switch_word s : keyword_or_identifier s = T_Switch -> s = bs "switch".
  Proof.
    unfold keyword_or_identifier. intros H. destruct (assoc s KEYWORDS) as [t|] eqn:E; [|discriminate]. subst t.
    assert (G : forall l, (forall x, In (x, T_Switch) l -> x = bs "switch") -> assoc s l = Some T_Switch -> s = bs "switch").
    { clear E. induction l as [|[x t] l IH]; simpl; intros Hl E; [discriminate|].
      destruct (str_eqb s x) eqn:Ex; [|apply IH; auto].
      injection E as ->. apply str_eqb_eq in Ex. subst. apply Hl. auto. }
    apply (G KEYWORDS); auto. intros x Hx. vm_compute in Hx.
    repeat (destruct Hx as [Hx|Hx]; [try discriminate Hx; injection Hx as <-; reflexivity|]). destruct Hx.
  Qed.
  Lemma final_switch lx0 b h lx' : ok lx0 -> head lx0 b -> lx_tok lx0 = lx_cur lx0 -> handler_from_byte b = Some h ->
    run_handler alnum (fun _ => Panicked) h lx0 = Done lx' -> lx_token lx' = T_Switch -> token_as_str lx' = bs "switch".
  Proof.
    intros O Hd Ht Hh H Es. destruct (trie_of h) as [k|] eqn:Ek.
    { destruct lx0 as [buf t a [p r0] tok acc q]. simpl in Ht. subst tok.
      destruct Hd as [r Er]. simpl in Er. subst r0.
      assert (Hs : word_start b = true) by (unfold word_start; rewrite Hh, Ek; reflexivity).
      assert (O1 : ends r).
      { apply (ends_cons b); [exact O|]. intros ->. vm_compute in Hs. discriminate. }
      destruct (split_word r O1) as (w & c0 & r' & -> & Hw & Hc).
      rewrite (word_handler alnum h k) in H by auto. injection H as <-. rewrite lexed_text. cbn [lexed lx_token] in Es.
      apply switch_word. now rewrite <- word_token_spec. }
    exfalso. destruct h; try discriminate Ek; simpl in H.
    all: try solve [unfold h_EOF, h_single, h_closing, h_SEM, h_EQL, h_EXL, h_LSS, h_MOR, h_op_assign, h_op_double, h_ATR in H; oinv; discriminate Es].
    - unfold h_QOT in H. ob H as q Hq H1. ob H1 as [closed c] Hk Hr. destruct closed; injection Hr as <-; discriminate Es.
    - unfold h_PRD in H. ob H as [x lx1] Hn H2. destruct (is_digit x); [apply float_token in H2; congruence|].
      unfold read_accessor in H2. oinv; discriminate Es.
    - unfold h_SLH in H. oinv; discriminate Es.
    - unfold h_ZER, read_radix in H. ob H as [x lx1] Hn H1.
      destruct (byte_eqb x "b" || byte_eqb x "B")%bool; [oinv; discriminate Es|].
      destruct (byte_eqb x "o" || byte_eqb x "O")%bool; [oinv; discriminate Es|].
      destruct (byte_eqb x "x" || byte_eqb x "X")%bool; [oinv; discriminate Es|]. apply decimal_token in H1. congruence.
    - unfold h_DIG in H. apply decimal_token in H. congruence.
    - unfold h_TPL in H. apply template_token in H. intuition congruence.
    - unfold h_UNI in H. destruct (decode_char (rem (lx_cur lx0))) as [[c len]|] eqn:Ed; [|discriminate].
      destruct (alnum c); oinv; discriminate Es.
  Qed.
  Lemma consume_switch lx lx' : ok lx -> consume alnum lx = Done lx' -> lx_token lx' = T_Switch -> token_as_str lx' = bs "switch".
  Proof.
    intros O H. destruct (consume_final _ _ _ O H) as (lx0 & b & h & O0 & Hd & Ht & Hh & R). eapply final_switch; eauto.
  Qed.
End Switch.

(** ** Operations, from a state of a parse *)
Section Ops.
  Variable alnum : N -> bool.
  Variable src : str.
  Hypothesis valid : utf8 src.
  Definition has_template : bool := existsb (fun b => byte_eqb b "`") src.
  Lemma has_template_in : has_template = true <-> In "`"%byte src.
  Proof.
    unfold has_template. rewrite existsb_exists. split; [intros (x & I & E); apply byte_eqb_eq in E; now subst|]. intros I. exists "`"%byte. split; [exact I|reflexivity].
  Qed.

  (** An outcome that is explained. *)
  Definition outcome_ok {A} (Q : A -> Prop) (o : outcome A) : Prop :=
    match o with Done a => Q a | ReadPastEnd => may_read_past src | Panicked => may_panic src | OutOfFuel => False end.
  Lemma outcome_mono {A} (Q Q' : A -> Prop) o : (forall a, o = Done a -> Q a -> Q' a) -> outcome_ok Q o -> outcome_ok Q' o.
  Proof. destruct o; cbn; auto. Qed.
  Lemma outcome_bind {A B} (m : outcome A) (f : A -> outcome B) Q Q' :
    outcome_ok Q m -> (forall a, m = Done a -> Q a -> outcome_ok Q' (f a)) -> outcome_ok Q' (obind m f).
  Proof. destruct m; cbn; auto. Qed.

  Lemma suffix_of c s : on (src ++ [x00]) c -> rem c = s ++ [x00] -> exists a, src = a ++ s.
  Proof. intros (pre & E & _) Er. rewrite Er, app_assoc in E. apply app_inj_tail in E as [E _]. now exists pre. Qed.

  Lemma first_char b r : utf8 (b :: r) -> not_ascii b -> exists c n, decode_char (b :: r) = Some (c, n) /\ code_point (b :: r) c.
  Proof.
    intros [n U] N. inversion U as [|m c s Hc Hs E1 E2]; subst.
    destruct Hc as [a Ha|a x Ha Hx|x y Hx Hy|a x y Ha Hx Hy|x y Hx Hy|a x y Ha Hx Hy|x y z Hx Hy Hz|a x y z Ha Hx Hy Hz|x y z Hx Hy Hz];
      cbn [app] in E2 |- *; injection E2; intros Er Eb; clear E2; subst r; first [subst a|subst b]; cbn [app].
    - exfalso. unfold not_ascii, between in *. destruct b; vm_compute in N, Ha; destruct Ha; try discriminate; congruence.
    - assert (E : byte_in x00 x7f b = false) by (clear - N; destruct b; vm_compute in N |- *; congruence).
      assert (E3 : byte_in xc2 xdf b = true) by now apply between_in. assert (E4 : is_continuation x = true) by now apply between_in.
      unfold decode_char. rewrite E, E3, E4. eexists _, _. split; [reflexivity|]. constructor. exact Ha.
    - assert (E4 : is_continuation x = true) by (apply between_in; clear - Hx; unfold between in *; change (byte_val xa0) with 160%N in Hx; change (byte_val x80) with 128%N; lia).
      assert (E5 : is_continuation y = true) by now apply between_in.
      unfold decode_char. rewrite E4, E5. cbn. eexists _, _. split; [reflexivity|]. apply (cp3 xe0 x y). split; discriminate.
    - assert (Hb : between xe0 xef b) by (clear - Ha; unfold between in *; change (byte_val xe1) with 225%N in Ha; change (byte_val xec) with 236%N in Ha; change (byte_val xe0) with 224%N; change (byte_val xef) with 239%N; lia).
      assert (E : byte_in x00 x7f b = false) by (clear - N; destruct b; vm_compute in N |- *; congruence).
      assert (E2 : byte_in xc2 xdf b = false) by (clear - Hb; destruct b; vm_compute; try reflexivity; exfalso; destruct Hb as [H1 H2]; vm_compute in H1, H2; congruence).
      assert (E3 : byte_in xe0 xef b = true) by now apply between_in. assert (E4 : is_continuation x = true) by now apply between_in. assert (E5 : is_continuation y = true) by now apply between_in.
      unfold decode_char. rewrite E, E2, E3, E4, E5. cbn [andb]. eexists _, _. split; [reflexivity|]. apply (cp3 b x y). exact Hb.
    - assert (E4 : is_continuation x = true) by (apply between_in; clear - Hx; unfold between in *; change (byte_val x9f) with 159%N in Hx; change (byte_val xbf) with 191%N; lia).
      assert (E5 : is_continuation y = true) by now apply between_in.
      unfold decode_char. rewrite E4, E5. cbn. eexists _, _. split; [reflexivity|]. apply (cp3 xed x y). split; discriminate.
    - assert (Hb : between xe0 xef b) by (clear - Ha; unfold between in *; change (byte_val xee) with 238%N in Ha; change (byte_val xe0) with 224%N; lia).
      assert (E : byte_in x00 x7f b = false) by (clear - N; destruct b; vm_compute in N |- *; congruence).
      assert (E2 : byte_in xc2 xdf b = false) by (clear - Hb; destruct b; vm_compute; try reflexivity; exfalso; destruct Hb as [H1 H2]; vm_compute in H1, H2; congruence).
      assert (E3 : byte_in xe0 xef b = true) by now apply between_in. assert (E4 : is_continuation x = true) by now apply between_in. assert (E5 : is_continuation y = true) by now apply between_in.
      unfold decode_char. rewrite E, E2, E3, E4, E5. cbn [andb]. eexists _, _. split; [reflexivity|]. apply (cp3 b x y). exact Hb.
    - assert (E4 : is_continuation x = true) by (apply between_in; clear - Hx; unfold between in *; change (byte_val x90) with 144%N in Hx; change (byte_val x80) with 128%N; lia).
      assert (E5 : is_continuation y = true) by now apply between_in. assert (E6 : is_continuation z = true) by now apply between_in.
      unfold decode_char. rewrite E4, E5, E6. cbn. eexists _, _. split; [reflexivity|]. apply (cp4 xf0 x y z). split; discriminate.
    - assert (Hb : between xf0 xf4 b) by (clear - Ha; unfold between in *; change (byte_val xf1) with 241%N in Ha; change (byte_val xf0) with 240%N; change (byte_val xf3) with 243%N in Ha; change (byte_val xf4) with 244%N; lia).
      assert (E : byte_in x00 x7f b = false) by (clear - N; destruct b; vm_compute in N |- *; congruence).
      assert (E2 : byte_in xc2 xdf b = false) by (clear - Hb; destruct b; vm_compute; try reflexivity; exfalso; destruct Hb as [H1 H2]; vm_compute in H1, H2; congruence).
      assert (E3' : byte_in xe0 xef b = false) by (clear - Hb; destruct b; vm_compute; try reflexivity; exfalso; destruct Hb as [H1 H2]; vm_compute in H1, H2; congruence).
      assert (E3 : byte_in xf0 xf4 b = true) by now apply between_in. assert (E4 : is_continuation x = true) by now apply between_in. assert (E5 : is_continuation y = true) by now apply between_in.
      assert (E6 : is_continuation z = true) by now apply between_in.
      unfold decode_char. rewrite E, E2, E3', E3, E4, E5, E6. cbn [andb]. eexists _, _. split; [reflexivity|]. apply (cp4 b x y z). exact Hb.
    - assert (E4 : is_continuation x = true) by (apply between_in; clear - Hx; unfold between in *; change (byte_val x8f) with 143%N in Hx; change (byte_val xbf) with 191%N; lia).
      assert (E5 : is_continuation y = true) by now apply between_in. assert (E6 : is_continuation z = true) by now apply between_in.
      unfold decode_char. rewrite E4, E5, E6. cbn. eexists _, _. split; [reflexivity|]. apply (cp4 xf4 x y z). split; discriminate.
  Qed.

  Lemma outcome_cases {A} (o : outcome A) : fine o \/ ~ fine o.
  Proof. destruct o; [left; apply fine_done|right; intros [? [=]]..]. Qed.

  Lemma accessor_outcome lx a : on (src ++ [x00]) (lx_cur lx) -> ok lx ->
    (exists s, rem (lx_cur lx) = s ++ [x00] /\ src = a ++ "."%byte :: s) -> outcome_ok (fun _ => True) (read_accessor lx).
  Proof.
    intros O K (s & Er & Es). unfold read_accessor, skip_while.
    destruct (outcome_cases (scan_while at_most_space (pos (lx_cur lx)) (rem (lx_cur lx)))) as [[c E]|E].
    2:{ rewrite Er in E |- *. destruct (blanks_bad _ _ E) as [F ->]. cbn. exists a, ("."%byte :: s). split; [exact Es|]. now apply rp_period. }
    rewrite E. cbn [obind]. apply scan_while_spec in E as (ws & b & r & E1 & -> & F & Fb). unfold read_byte. cbn [set_cur set_acc lx_cur rem obind].
    destruct (127 <? byte_val b)%N eqn:Eb.
    - cbn. apply N.ltb_lt in Eb. exists a, ws, b, (removelast r). split; [|split; [|exact Eb]].
      + rewrite Es. f_equal. f_equal. destruct r as [|x r].
        { exfalso. rewrite Er in E1. apply app_inj_tail in E1 as [_ <-]. vm_compute in Eb. discriminate Eb. }
        destruct (exists_last (l := x :: r)) as (r' & z & Ez); [discriminate|]. rewrite Ez in E1 |- *. rewrite removelast_last. rewrite Er in E1.
        replace (ws ++ b :: r' ++ [z]) with ((ws ++ b :: r') ++ [z]) in E1 by (rewrite <- app_assoc; reflexivity). apply app_inj_tail in E1 as [E1 _]. exact E1.
      + apply Forall_forall. intros x I. rewrite forallb_forall in F. apply at_most_blank, F, I.
    - destruct (nth (byte_index b) ACCESSOR_TABLE false) eqn:Ea; [|exact I].
      match goal with |- context [read_label ?l] => assert (F3 : fine (read_label l)); [apply skip_fine; [reflexivity|]|destruct F3 as [lx3 ->]; exact I] end.
      unfold ok in *. cbn [set_acc set_cur lx_cur rem]. rewrite E1 in K. apply ends_suffix in K; [exact K|discriminate].
  Qed.

  Lemma consume_outcome lx : lex_inv src lx -> Bd lx -> outcome_ok (fun _ => True) (consume alnum lx).
  Proof.
    intros Iv B. destruct (outcome_cases (consume alnum lx)) as [[lx' ->]|N]; [exact I|].
    destruct (consume_bad alnum lx (li_ok _ _ Iv) B N) as (lx0 & b & h & Fw & O0 & B0 & Hd & Ht & Hh & Hc & E). rewrite <- E in N |- *. clear E.
    assert (On : on (src ++ [x00]) (lx_cur lx0)) by (rewrite <- (li_buf _ _ Iv); eapply on_fwd; [apply Iv|exact Fw]).
    clear Fw Iv B lx. assert (K := O0). destruct K as [s Es]. destruct (suffix_of _ _ On Es) as [a Ea]. destruct Hd as [r Er].
    destruct Hc as [->|[->| ->]]; cbn [run_handler] in N |- *.
    - assert (b = "."%byte) by (clear - Hh; destruct b; vm_compute in Hh; congruence). subst b.
      assert (Hd : head lx0 "."%byte) by (exists r; exact Er). unfold h_PRD.
      destruct (next_fine lx0 _ O0 Hd ltac:(discriminate)) as [[x lx1] Nx]. rewrite Nx. cbn [obind].
      assert (S1 := sstep_next _ _ _ O0 Nx). destruct S1 as [S1 Hx]. assert (O1 : ok lx1) by ok_of. clear S1.
      assert (E1 : rem (lx_cur lx1) = r) by (clear - Nx Er; unfold next_byte in Nx; oinv; cbn; now rewrite Er).
      assert (On1 : on (src ++ [x00]) (lx_cur lx1)).
      { eapply on_fwd; [exact On|]. exists ["."%byte]. split; [now rewrite E1|]. unfold next_byte in Nx. oinv. cbn. lia. }
      destruct (is_digit x) eqn:Edx.
      { assert (O2 : ok (bump lx1)) by (eapply ok_bump; eauto; intros ->; discriminate Edx). destruct (float_fine _ O2) as [? ->]. exact I. }
      destruct (byte_eqb x ".") eqn:Ed.
      { apply byte_eqb_eq in Ed. subst x. destruct (next_fine lx1 _ O1 Hx ltac:(discriminate)) as [[y lx2] N2]. rewrite N2. cbn [obind]. destruct (byte_eqb y "."); exact I. }
      apply (accessor_outcome _ a On1 O1). destruct s as [|z s]; rewrite Er in Es; cbn [app] in Es; [discriminate Es|]. injection Es as <- Es. exists s. split; [now rewrite E1|exact Ea].
    - assert (b = "`"%byte) by (clear - Hh; destruct b; vm_compute in Hh; congruence). subst b.
      destruct s as [|z s]; rewrite Er in Es; cbn [app] in Es; [discriminate Es|]. injection Es as <- Es. subst r.
      unfold h_TPL, read_template_kind in N |- *. cbv zeta in N |- *. cbn [bump set_cur lx_cur cur_bump pos rem] in N |- *. rewrite Er in N |- *. cbn [tl] in N |- *.
      destruct (outcome_cases (scan_template (S (pos (lx_cur lx0))) (s ++ [x00]))) as [[[[k e] c] E]|E].
      { rewrite E. cbn [obind]. destruct k; exact I. }
      destruct (template_bad _ _ E) as [T ->]. cbn. exists a, ("`"%byte :: s). split; [exact Ea|now apply rp_template].
    - assert (Nb := handler_UNI _ Hh). unfold h_UNI in N |- *.
      assert (U : utf8 (rem (lx_cur lx0))) by (apply (cut_utf8 src valid); [exact On|apply B0]). rewrite Er in U, N |- *.
      destruct (first_char _ _ U Nb) as (c & n & E & _). rewrite E in N |- *. destruct (alnum c); [|exact I].
      destruct (skip_fine legal_in_label (set_cur (cur_advance (n - 1) (lx_cur lx0)) lx0) eq_refl) as [lx3 E3]; [|unfold read_label; rewrite E3; exact I].
      assert (L := decode_char_length _ _ _ E). unfold ok in *. cbn [set_cur lx_cur cur_advance rem].
      rewrite <- (firstn_skipn (n - 1) (rem (lx_cur lx0))) in O0. apply ends_suffix in O0; [exact O0|]. rewrite Er. intros Z.
      apply (f_equal (@List.length _)) in Z. rewrite skipn_length in Z. cbn [List.length] in Z, L. lia.
  Qed.
End Ops.
