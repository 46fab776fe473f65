(** The text of a token, by kind: what the lexer can have read. *)
From Coq Require Import List NArith Bool Lia Arith String.
From Coq.Strings Require Import Byte.
From Verif Require Import Bytes Token Tables Lexer SpecLexer SpecTokens LexerFacts ConsumeFacts LexEval.
Import ListNotations.
Open Scope nat_scope.

(** Inversion of a bind, with names. *)
Tactic Notation "ob" ident(H) "as" simple_intropattern(a) ident(E1) ident(E2) :=
  apply obind_done in H; destruct H as (a & E1 & E2).

(** ** The handler that ended a call of [consume] *)
Lemma consume_final alnum lx lx' : ok lx -> consume alnum lx = Done lx' ->
  exists lx0 b h, ok lx0 /\ head lx0 b /\ lx_tok lx0 = lx_cur lx0 /\ handler_from_byte b = Some h /\
    run_handler alnum (fun _ => Panicked) h lx0 = Done lx'.
Proof.
  remember (List.length (rem (lx_cur lx))) as n eqn:En. revert lx En lx'.
  induction n as [n IH] using lt_wf_ind. intros lx En lx' O H.
  rewrite consume_unfold in H. unfold consume_once in H. odone H. destruct a as [[h a] c].
  apply scan_token_start_spec in H0 as (s & b & r' & Er & W & Hh & Ec & Ea).
  set (lx0 := set_tok c (set_cur c (set_asi a lx))) in *.
  assert (A0 : adv (lx_cur lx) s (lx_cur lx0)).
  { subst c. split; simpl; auto. }
  assert (O0 : ok lx0).
  { unfold ok in *. destruct A0 as [A0 _]. rewrite A0 in O. apply ends_suffix in O; auto.
    subst lx0; subst c; simpl; discriminate. }
  assert (Hd : head lx0 b) by (exists r'; subst lx0; subst c; reflexivity).
  destruct (byte_eqb b "/") eqn:Eb.
  2:{ exists lx0, b, h. do 4 (split; [auto; fail|]).
      destruct h; try exact H1. apply handler_SLH in Hh. subst. discriminate. }
  apply byte_eqb_eq in Eb. subst b. vm_compute in Hh. injection Hh as <-. simpl in H1.
  unfold h_SLH in H1. ob H1 as [b lx1] Hn H2.
  destruct (byte_eqb b "/") eqn:B1; [|destruct (byte_eqb b "*") eqn:B2].
  3:{ exists lx0, "/"%byte, H_SLH. do 4 (split; [auto; fail|]). simpl. unfold h_SLH. rewrite Hn. simpl. rewrite B1, B2. exact H2. }
  - ob H2 as lx2 Hk Hr. assert (S1 := sstep_next _ _ _ O0 Hn). destruct S1 as [S1 Hd1].
    apply byte_eqb_eq in B1. subst b.
    assert (O2 : ok (bump lx1)) by ok_of.
    apply step_skip in Hk; [|exact O2]. destruct Hk as [K O3]. destruct S1 as (K1 & _ & L1).
    refine (IH _ _ _ eq_refl _ O3 Hr).
    assert (F := fwd_trans _ _ _ (k_fwd _ _ K1) (fwd_trans _ _ _ (k_fwd _ _ (keeps_bump lx1 ltac:(destruct Hd1 as [z Ez]; rewrite Ez; discriminate))) (k_fwd _ _ K))).
    destruct F as [s1 F]. assert (P := fwd_pos _ _ (k_fwd _ _ K)). assert (P1 : pos (lx_cur lx1) < pos (lx_cur (bump lx1))) by (destruct lx1 as [? ? ? [] ? ? ?]; simpl; lia).
    assert (L := adv_length _ _ _ F). destruct F as [_ F]. apply adv_length in A0. lia.
  - cbv zeta in H2. ob H2 as [closed c1] Hk Hr.
    assert (S1 := sstep_next _ _ _ O0 Hn). destruct S1 as [S1 Hd1].
    apply byte_eqb_eq in B2. subst b.
    assert (O2 : ok (bump lx1)) by ok_of. destruct S1 as (K1 & _ & L1).
    assert (E1 : lx1 = bump lx0) by (clear - Hn; unfold next_byte in Hn; oinv; reflexivity).
    destruct closed.
    + destruct (scan_block_comment_fwd _ _ _ _ O2 Hk) as [F N].
      refine (IH _ _ _ eq_refl _ _ Hr).
      * apply scan_block_comment_rem in Hk. cbn [lx_cur set_cur].
        assert (L : List.length (rem (lx_cur (bump lx1))) < List.length (rem (lx_cur lx0))).
        { subst lx1. destruct Hd as [z Ez]. destruct lx0 as [? ? ? [pp rr] ? ? ?]. simpl in *. subst rr. simpl.
          destruct z; simpl in *; lia. }
        apply adv_length in A0. simpl in *. lia.
      * destruct F as [s1 [F _]]. unfold ok in *. cbn [lx_cur set_cur].
        change (rem (lx_cur (bump lx1)) = s1 ++ rem c1) in F. rewrite F in O2. now apply ends_suffix in O2.
    + exists lx0, "/"%byte, H_SLH. do 4 (split; [auto; fail|]). simpl. unfold h_SLH. rewrite Hn. simpl. simpl in Hk. rewrite Hk. exact Hr.
Qed.

(** ** Words *)
Section Text.
  Variable alnum : N -> bool.

  Lemma word_handler h k buf t a p x w c0 r acc q again :
    handler_from_byte x = Some h -> trie_of h = Some k ->
    forallb legal_in_label w = true -> legal_in_label c0 = false ->
    run_handler alnum again h (Lexer buf t a (Cur p (x :: w ++ c0 :: r)) (Cur p (x :: w ++ c0 :: r)) acc q)
    = Done (lexed buf (word_token x w) a p (x :: w) (c0 :: r) acc q).
  Proof.
    intros Eh Ek Hw Hc.
    destruct h; try discriminate Ek; injection Ek as <-.
    { (* H_IDT *)
      unfold run_handler, h_IDT, read_label, skip_while, bump, set_cur, cur_bump. cbn [lx_cur pos rem tl].
      rewrite (scan_while_intro _ _ _ _ _ Hw Hc). unfold word_token. rewrite Eh. cbn. unfold lexed, set_token, set_cur. cbn.
      do 3 f_equal. lia. }
    all: unfold run_handler; rewrite label_eval by (auto; reflexivity);
      unfold word_token; rewrite Eh; reflexivity.
  Qed.

  Lemma split_word r : ends r -> exists w c0 r', r = w ++ c0 :: r' /\ forallb legal_in_label w = true /\ legal_in_label c0 = false.
  Proof.
    intros [s ->]. induction s as [|x s IH].
    - exists [], x00, []. auto.
    - destruct (legal_in_label x) eqn:E.
      + destruct IH as (w & c0 & r' & E1 & E2 & E3). exists (x :: w), c0, r'. simpl. rewrite E1, E, E2. auto.
      + exists [], x, (s ++ [x00]). auto.
  Qed.

  Lemma lexed_text buf t a p text rest acc q : token_as_str (lexed buf t a p text rest acc q) = text.
  Proof.
    unfold token_as_str, slice, lexed. simpl. replace (p + List.length text - p) with (List.length text) by lia.
    rewrite firstn_app, Nat.sub_diag, firstn_all. simpl. apply app_nil_r.
  Qed.

  Lemma legal_words w : forallb legal_in_label w = true -> Forall (fun x => word_byte x = true) w.
  Proof. intros H. rewrite forallb_forall in H. apply Forall_forall. intros x I. rewrite word_byte_legal. auto. Qed.

  (** What is known of the text of the current token. *)
  Record text_ok (lx : lexer) : Prop := TextOk {
    tx_ident : lx_token lx = T_Identifier ->
      word_text (token_as_str lx) /\ keyword_or_identifier (token_as_str lx) = T_Identifier;
    tx_word : is_word (lx_token lx) = true -> word_text (token_as_str lx);
    tx_string : lx_token lx = T_LiteralString -> quoted (token_as_str lx);
    tx_number : lx_token lx = T_LiteralNumber \/ lx_token lx = T_LiteralBinary ->
      number_text (token_as_str lx) (lx_token lx);
    tx_acc : lx_token lx = T_Accessor -> word_text (accessor_as_str lx);
    tx_div : lx_token lx = T_OperatorDivision -> token_as_str lx = ["/"%byte];
    tx_import : lx_token lx = T_Import -> token_as_str lx = bs "import"
  }.
  Lemma import_text s : keyword_or_identifier s = T_Import -> s = bs "import".
  Proof.
    assert (G : forall l, (forall x, In (x, T_Import) l -> x = bs "import") -> assoc s l = Some T_Import -> s = bs "import").
    { induction l as [|[x t] l IH]; simpl; intros Hl E; [discriminate|].
      destruct (str_eqb s x) eqn:Ex; [|apply IH; auto].
      injection E as ->. apply str_eqb_eq in Ex. subst. apply Hl. auto. }
    unfold keyword_or_identifier. intros H. destruct (assoc s KEYWORDS) eqn:E; [|discriminate]. subst.
    apply (G KEYWORDS); auto. intros x Hx. vm_compute in Hx.
    repeat (destruct Hx as [Hx|Hx]; [try discriminate Hx; injection Hx as <-; reflexivity|]). destruct Hx.
  Qed.

  Definition plain_token (t : token) : bool :=
    negb (token_eqb t T_LiteralString || token_eqb t T_LiteralNumber || token_eqb t T_LiteralBinary
          || token_eqb t T_Accessor || token_eqb t T_OperatorDivision || is_word t).
  Lemma plain_text lx : plain_token (lx_token lx) = true -> text_ok lx.
  Proof.
    unfold plain_token. intros H.
    constructor; intros E; try (rewrite E in H; discriminate H).
    - rewrite E in H. rewrite orb_true_r in H. discriminate.
    - destruct E as [E|E]; rewrite E in H; discriminate.
  Qed.
  Lemma trie_token_word x w : word_start x = true ->
    forallb legal_in_label w = true -> word_text (x :: w).
  Proof.
    intros Hx Hw. exists x, w. split; [auto|]. split.
    - constructor; [|now apply legal_words]. clear - Hx. destruct x; vm_compute in *; congruence.
    - clear - Hx. destruct x; vm_compute in *; congruence.
  Qed.
  Lemma word_token_plain x w : ~ (word_token x w = T_LiteralString \/ word_token x w = T_LiteralNumber
     \/ word_token x w = T_LiteralBinary \/ word_token x w = T_Accessor \/ word_token x w = T_OperatorDivision).
  Proof.
    assert (G : In (word_token x w) (T_Identifier :: flat_map (fun h => match trie_of h with Some k => map snd (trie_words k) | None => [] end)
        [H_IDT; H_L_B; H_L_C; H_L_D; H_L_E; H_L_F; H_L_I; H_L_L; H_L_N; H_L_P; H_L_R; H_L_S; H_L_T; H_L_U; H_L_V; H_L_W; H_L_Y])).
      { unfold word_token. destruct (handler_from_byte x) as [h|] eqn:Eh; [|left; auto].
        destruct (trie_of h) as [k|] eqn:Ek; [|left; auto].
        destruct (lookup w (trie_words k)) as [t|] eqn:El; [|left; auto].
        right. apply in_flat_map. exists h. split; [destruct h; try discriminate Ek; simpl; tauto|].
        rewrite Ek. clear - El. induction (trie_words k) as [|[y t'] l IH]; simpl in *; [discriminate|].
        destruct (str_eqb w y); [injection El as ->; auto|auto]. }
      set (l := _ :: _) in G. vm_compute in l. subst l. simpl in G.
      repeat (destruct G as [<-|G]; [intuition discriminate|]). destruct G.
  Qed.

  Lemma numeric_text lx lx' s : lx_tok lx' = lx_tok lx -> lx_tok lx = lx_cur lx ->
    adv (lx_cur lx) s (lx_cur lx') ->
    (lx_token lx' = T_LiteralNumber \/ lx_token lx' = T_LiteralBinary) ->
    number_text s (lx_token lx') -> text_ok lx'.
  Proof.
    intros KT Ht KF Hk Hs.
    constructor; intros E; try (destruct Hk as [Hk|Hk]; rewrite Hk in E; discriminate E).
    unfold token_as_str. rewrite KT, Ht, (adv_slice _ _ _ KF). exact Hs.
  Qed.

  (** What the number readers pass over. *)
  Lemma skip_over f lx lx' : skip_while f lx = Done lx' ->
    exists s b, adv (lx_cur lx) s (lx_cur lx') /\ Forall (fun x => f x = true) s /\ head lx' b /\ f b = false /\
      lx_tok lx' = lx_tok lx.
  Proof.
    unfold skip_while. intros H. ob H as c Hk Hr. injection Hr as <-.
    apply scan_while_spec in Hk as (s & b & r' & E & -> & Hs & Hb). exists s, b.
    destruct lx as [buf t a [p r] tok acc q]. simpl in *. split; [split; simpl; auto|].
    split; [now apply Forall_forall, forallb_forall|]. split; [exists r'; auto|auto].
  Qed.
  Lemma bump_over lx b : head lx b -> adv (lx_cur lx) [b] (lx_cur (bump lx)) /\ lx_tok (bump lx) = lx_tok lx.
  Proof.
    destruct lx as [buf t a [p r] tok acc q]. intros [r' E]. simpl in E. subst. simpl. split; [split; simpl; auto; lia|auto].
  Qed.
  Lemma is_digits s : Forall (fun x => is_digit x = true) s -> digits s.
  Proof. apply Forall_impl. intros a H. exact H. Qed.
  (** What is left of an exponent after its mark. *)
  Definition exponent_rest (s : str) : Prop := digits s \/ exists sign ds, In sign ["+"; "-"]%byte /\ digits ds /\ s = sign :: ds.
  Lemma scientific_over lx lx' : read_scientific lx = Done lx' ->
    exists s, adv (lx_cur lx) s (lx_cur lx') /\ exponent_rest s /\ lx_tok lx' = lx_tok lx /\ lx_token lx' = T_LiteralNumber.
  Proof.
    unfold read_scientific. intros H. ob H as b Hb Hr. cbv zeta in Hr. apply read_byte_head in Hb.
    ob Hr as lx2 Hk Hr. injection Hr as <-. apply skip_over in Hk as (s & b2 & A & D & Hd & Hb2 & T).
    destruct (byte_eqb b "-" || byte_eqb b "+")%bool eqn:E.
    - destruct (bump_over _ _ Hb) as [A1 T1]. exists (b :: s). split; [exact (adv_trans _ [b] _ _ _ A1 A)|].
      split; [right|split; [simpl; congruence|reflexivity]]. exists b, s. split; [|split; auto; now apply is_digits].
      apply orb_true_iff in E as [E|E]; byte_cases; simpl; auto.
    - exists s. split; [exact A|]. split; [left; now apply is_digits|]. split; auto.
  Qed.
  Lemma exponent_number m more e s : mantissa m more -> In e exponent_mark -> exponent_rest s ->
    number_text (m ++ e :: s) T_LiteralNumber.
  Proof.
    intros M He [D|(sign & ds & Hs & D & ->)].
    - destruct s as [|d ds]; [right; split; [reflexivity|]; exists m, more, e; auto|].
      left. exists digit. apply (n_exponent m more e d ds); auto; [exact (Forall_inv D)|exact (Forall_inv_tail D)].
    - left. exists digit. apply (n_signed_exponent m more e sign ds); auto.
  Qed.
  Lemma mark_in b : (byte_eqb b "e" || byte_eqb b "E")%bool = true -> In b exponent_mark.
  Proof. intros E. apply orb_true_iff in E as [E|E]; byte_cases; simpl; auto. Qed.
  (** An optional exponent. *)
  Definition exponent_part (s : str) : Prop := s = [] \/ exists e r, In e exponent_mark /\ exponent_rest r /\ s = e :: r.
  Lemma with_exponent m more s : mantissa m more -> exponent_part s -> number_text (m ++ s) T_LiteralNumber.
  Proof.
    intros M [->|(e & r & He & Hr & ->)]; [|eapply exponent_number; eauto].
    rewrite app_nil_r. left. eexists. apply (n_plain m more M).
  Qed.
  Lemma float_over lx lx' : read_float lx = Done lx' ->
    exists f s, adv (lx_cur lx) (f ++ s) (lx_cur lx') /\ digits f /\ exponent_part s /\
      lx_tok lx' = lx_tok lx /\ lx_token lx' = T_LiteralNumber.
  Proof.
    unfold read_float. intros H. ob H as lx1 Hk Hr. apply skip_over in Hk as (f & b & A & D & Hd & Hb & T).
    ob Hr as b1 Hk Hr. apply read_byte_head in Hk.
    destruct (byte_eqb b1 "e" || byte_eqb b1 "E")%bool eqn:E.
    - apply scientific_over in Hr as (s & A1 & R & T1 & K). destruct (bump_over _ _ Hk) as [A2 T2].
      exists f, (b1 :: s). split; [exact (adv_trans _ _ _ _ _ A (adv_trans _ [b1] _ _ _ A2 A1))|].
      split; [now apply is_digits|]. split; [right; exists b1, s; auto using mark_in|].  split; [congruence|exact K].
    - injection Hr as <-. exists f, []. rewrite app_nil_r. split; [exact A|]. split; [now apply is_digits|].
      split; [now left|].  split; [exact T|reflexivity].
  Qed.
  Lemma decimal_over lx lx' : read_decimal lx = Done lx' ->
    exists ds p s, adv (lx_cur lx) (ds ++ p ++ s) (lx_cur lx') /\ digits ds /\
      (p = [] \/ exists f, digits f /\ p = "."%byte :: f) /\ exponent_part s /\
      lx_tok lx' = lx_tok lx /\ lx_token lx' = T_LiteralNumber.
  Proof.
    unfold read_decimal. intros H. ob H as lx1 Hk Hr. apply skip_over in Hk as (ds & b & A & D & Hd & Hb & T).
    apply is_digits in D.
    ob Hr as b1 Hk Hr. apply read_byte_head in Hk. destruct (bump_over _ _ Hk) as [A2 T2].
    destruct (byte_eqb b1 ".") eqn:Ep.
    - byte_cases. apply float_over in Hr as (f & s & A1 & Df & R & T1 & K).
      exists ds, ("."%byte :: f), s.
      split; [exact (adv_trans _ _ _ _ _ A (adv_trans _ ["."%byte] _ _ _ A2 A1))|].
      split; [exact D|]. split; [right; exists f; auto|]. split; [exact R|]. split; [congruence|exact K].
    - destruct (byte_eqb b1 "e" || byte_eqb b1 "E")%bool eqn:E.
      + apply scientific_over in Hr as (s & A1 & R & T1 & K).
        exists ds, [], (b1 :: s). split; [exact (adv_trans _ _ _ _ _ A (adv_trans _ [b1] _ _ _ A2 A1))|].
        split; [exact D|]. split; [now left|]. split; [right; exists b1, s; auto using mark_in|]. split; [congruence|exact K].
      + injection Hr as <-. exists ds, [], []. simpl. rewrite app_nil_r. split; [exact A|]. split; [exact D|].
        split; [now left|]. split; [now left|]. split; [exact T|reflexivity].
  Qed.
  (** [d] and then what [decimal_over] says. *)
  Lemma decimal_number d ds p s : digit d = true -> digits ds -> (p = [] \/ exists f, digits f /\ p = "."%byte :: f) ->
    exponent_part s -> number_text (d :: ds ++ p ++ s) T_LiteralNumber.
  Proof.
    intros Hd D Hp Hs. change (d :: ds ++ p ++ s) with ((d :: ds) ++ p ++ s). rewrite app_assoc.
    assert (M : exists more, mantissa ((d :: ds) ++ p) more).
    { destruct Hp as [->|(f & Df & ->)]; [|eexists; now apply m_point].
      rewrite app_nil_r. destruct (byte_eqb d "0") eqn:E0.
      - byte_cases. destruct ds as [|x ds]; eexists; [apply m_zero|apply m_zeros; [exact (Forall_inv D)|exact (Forall_inv_tail D)]].
      - eexists. apply m_int; [|exact D]. clear - Hd E0. destruct d; vm_compute in *; congruence. }
    destruct M as [more M]. eapply with_exponent; eauto.
  Qed.

  Lemma scan_string_text q r : forall p c, scan_string q p r = Done (true, c) -> q <> x00 -> q <> "\"%byte ->
    exists s, r = s ++ q :: rem c /\ string_inside q s /\ pos c = p + S (List.length s).
  Proof.
    induction r as [r IH] using length_ind. intros p c H N0 N1. destruct r as [|b r]; simpl in H; [discriminate|].
    destruct (byte_eqb b q) eqn:Eq.
    { byte_cases. injection H as <-. exists []. simpl. split; [auto|split; [constructor|lia]]. }
    destruct (byte_eqb b "\") eqn:Es.
    - byte_cases. destruct r as [|x r]; [discriminate|]. destruct (byte_eqb x x00) eqn:E0; [discriminate|].
      apply IH in H as (s & -> & Hs & Hp); auto; [|simpl; lia]. neqs.
      exists ("\"%byte :: x :: s). simpl. split; [auto|split; [constructor; auto|lia]].
    - destruct (byte_eqb b x00) eqn:E0; [discriminate|]. neqs.
      apply IH in H as (s & -> & Hs & Hp); auto.
      exists (b :: s). simpl. split; [auto|split; [constructor; auto|lia]].
  Qed.

  Lemma final_text lx0 b h lx' : ok lx0 -> head lx0 b -> lx_tok lx0 = lx_cur lx0 -> handler_from_byte b = Some h ->
    run_handler alnum (fun _ => Panicked) h lx0 = Done lx' -> text_ok lx'.
  Proof.
    intros O Hd Ht Hh H.
    destruct (trie_of h) as [k|] eqn:Ek.
    { (* words *)
      destruct lx0 as [buf t a [p r0] tok acc q]. simpl in Ht. subst tok.
      destruct Hd as [r Er]. simpl in Er. subst r0.
      assert (Hs : word_start b = true) by (unfold word_start; rewrite Hh, Ek; reflexivity).
      assert (O1 : ends r).
      { apply (ends_cons b); [exact O|]. intros ->. vm_compute in Hs. discriminate. }
      destruct (split_word r O1) as (w & c0 & r' & -> & Hw & Hc).
      rewrite (word_handler h k) in H by auto. injection H as <-.
      assert (N := word_token_plain b w). assert (W := trie_token_word b w Hs Hw).
      constructor; rewrite ?lexed_text; cbn [lexed lx_token]; auto; intros E; try tauto.
      - rewrite <- word_token_spec by auto. auto.
      - apply import_text. rewrite <- word_token_spec by auto. auto. }
    assert (Hb : b <> x00 \/ h = H_EOF).
    { destruct (byte_eqb b x00) eqn:E; [byte_cases; right; vm_compute in Hh; congruence|left; now apply byte_eqb_neq]. }
    destruct Hb as [Hb| ->].
    2:{ simpl in H. unfold h_EOF in H. oinv. now apply plain_text. }
    destruct h; try discriminate Ek; simpl in H;
    try solve [unfold h_EOF, h_single, h_closing, h_SEM, h_EQL, h_EXL, h_LSS, h_MOR, h_op_assign, h_op_double, h_ATR in H;
      oinv; now apply plain_text].
    - (* QOT *) assert (Hq : b = """"%byte \/ b = "'"%byte).
      { clear - Hh. destruct b; try discriminate Hh; auto. }
      destruct Hd as [r Er]. destruct lx0 as [buf t a [p r0] tok acc q]. simpl in Ht, Er. subst r0 tok.
      unfold h_QOT, read_byte in H. cbn [lx_cur rem obind bump set_cur cur_bump pos tl] in H.
      ob H as [closed c] Hk Hr.
      destruct closed; [|injection Hr as <-; now apply plain_text]. injection Hr as <-.
      apply scan_string_text in Hk as (s & -> & Hs & Hp).
      2,3: destruct Hq; subst; discriminate.
      constructor; intros E; try discriminate E; try solve [destruct E as [E|E]; discriminate E].
      exists b, s. split; auto. split; auto. unfold token_as_str, slice. cbn [set_token set_cur bump lx_tok lx_cur pos rem]. rewrite Hp.
      assert (El : S p + S (List.length s) - p = S (List.length (s ++ [b]))) by (rewrite app_length; cbn [List.length]; lia).
      rewrite El.
      simpl. f_equal. replace (s ++ b :: rem c) with ((s ++ [b]) ++ rem c) by (rewrite <- app_assoc; reflexivity).
      rewrite firstn_app, Nat.sub_diag, firstn_all. simpl. apply app_nil_r.
    - (* PRD *) assert (S := PRD_sstep _ _ _ O Hd Hb H). assert (H0 := H). unfold h_PRD in H. odone H. destruct a as [x lx1].
      destruct (is_digit x) eqn:Ex.
      { assert (Eb : b = "."%byte) by (clear - Hh; destruct b; try discriminate Hh; auto). subst b.
        assert (Hx := proj2 (sstep_next _ _ _ O H1)). assert (E1 : lx1 = bump lx0) by (clear - H1; unfold next_byte in H1; oinv; reflexivity). subst lx1.
        apply float_over in H2 as (f & s & A & D & R & T4 & K). destruct (bump_over _ _ Hd) as [A2 T2].
        destruct (bump_over _ _ Hx) as [A3 T3].
        refine (numeric_text lx0 lx' ("."%byte :: x :: f ++ s) (eq_trans T4 (eq_trans T3 T2)) Ht (adv_trans _ ["."%byte] _ _ _ A2 (adv_trans _ [x] _ _ _ A3 A)) _ _); [rewrite K; auto|].
        rewrite K. apply (with_exponent ("."%byte :: x :: f) digit); [|exact R].
        now apply m_fraction. }
      destruct (byte_eqb x "."). { oinv; now apply plain_text. }
      unfold read_accessor in H2. odone H2. odone H3. cbv zeta in H4.
      destruct (127 <? byte_val a0)%N eqn:E7; [discriminate|].
      destruct (nth (byte_index a0) ACCESSOR_TABLE false) eqn:Ea; [|oinv; now apply plain_text].
      odone H4. injection H5 as <-.
      apply read_byte_head in H2. destruct H2 as [r2 E2]. unfold read_label, skip_while in H3. odone H3.
      injection H4 as <-. apply scan_while_spec in H2 as (s & b1 & r' & E3 & -> & Hs & Hb1).
      cbn [lx_cur set_acc] in E3, E2. rewrite E2 in E3.
      constructor; intros E; try discriminate E; try solve [destruct E as [E|E]; discriminate E].
      assert (A1 : adv (lx_cur a) s (Cur (pos (lx_cur a) + List.length s) (b1 :: r'))) by (split; [rewrite E2; exact E3|reflexivity]).
      unfold accessor_as_str. cbn [set_token set_cur set_acc lx_acc lx_cur]. rewrite (adv_slice _ _ _ A1).
      destruct s as [|x0 s].
      { simpl in E3. injection E3 as -> _. exfalso. clear - Ea E7 Hb1. destruct b1; vm_compute in *; congruence. }
      injection E3 as <- _. exists a0, s. split; auto. split; [now apply legal_words|].
      clear - Ea E7. destruct a0; vm_compute in *; congruence.
    - (* SLH *) unfold h_SLH in H. ob H as [x lx1] Hn Hr.
      destruct (byte_eqb x "/"); [oinv|]. destruct (byte_eqb x "*").
      { cbv zeta in Hr. ob Hr as [closed c] Hk Hz. destruct closed; [discriminate|]. injection Hz as <-. now apply plain_text. }
      destruct (byte_eqb x "="); injection Hr as <-; [now apply plain_text|].
      constructor; intros E; try discriminate E; try solve [destruct E as [E|E]; discriminate E].
      unfold next_byte in Hn. ob Hn as x1 Hn1 Hn2. injection Hn2 as <- <-.
      destruct Hd as [r Er]. apply handler_SLH in Hh. subst b. destruct lx0 as [buf t a [p r0] tok acc q]. simpl in Ht, Er. subst.
      unfold token_as_str, slice. cbn [set_token set_cur bump cur_bump lx_tok lx_cur pos rem tl].
      replace (S p - p) with 1 by lia. reflexivity.
    - (* ZER *) assert (Eb : b = "0"%byte) by (clear - Hh; destruct b; try discriminate Hh; auto). subst b.
      unfold h_ZER in H. ob H as [x lx1] Hn Hr.
      assert (Hx := proj2 (sstep_next _ _ _ O Hn)). assert (E1 : lx1 = bump lx0) by (clear - Hn; unfold next_byte in Hn; oinv; reflexivity). subst lx1.
      destruct (bump_over _ _ Hd) as [A2 T2]. destruct (bump_over _ _ Hx) as [A3 T3].
      assert (G : forall f t, read_radix f t (bump (bump lx0)) = Done lx' ->
        exists ds, adv (lx_cur lx0) ("0"%byte :: x :: ds) (lx_cur lx') /\ Forall (fun y => f y = true) ds /\
          lx_tok lx' = lx_tok lx0 /\ lx_token lx' = t).
      { intros f t G. unfold read_radix in G. ob G as lx2 Gk Gr. injection Gr as <-.
        apply skip_over in Gk as (ds & c & A & D & _ & _ & T4). exists ds.
        split; [exact (adv_trans _ ["0"%byte] _ _ _ A2 (adv_trans _ [x] _ _ _ A3 A))|]. split; [exact D|].
        split; [simpl; congruence|reflexivity]. }
      destruct (byte_eqb x "b" || byte_eqb x "B")%bool eqn:Eb;
        [|destruct (byte_eqb x "o" || byte_eqb x "O")%bool eqn:Eo;
          [|destruct (byte_eqb x "x" || byte_eqb x "X")%bool eqn:Ex]].
      1-3: apply G in Hr as (ds & A & D & T4 & K); apply (numeric_text lx0 lx' ("0"%byte :: x :: ds)); auto;
        rewrite K; left; eexists.
      + apply n_binary; [apply orb_true_iff in Eb as [E|E]; byte_cases; simpl; auto|].
        revert D. apply Forall_impl. intros y. destruct y; auto.
      + apply n_octal; [apply orb_true_iff in Eo as [E|E]; byte_cases; simpl; auto|exact D].
      + apply n_hex; [apply orb_true_iff in Ex as [E|E]; byte_cases; simpl; auto|exact D].
      + apply decimal_over in Hr as (ds & p & s & A & D & Hp & R & T4 & K).
        refine (numeric_text lx0 lx' ("0"%byte :: ds ++ p ++ s) (eq_trans T4 T2) Ht (adv_trans _ ["0"%byte] _ _ _ A2 A) _ _); [rewrite K; auto|].
        rewrite K. now apply decimal_number.
    - (* DIG *) assert (Eb : digit b = true) by (clear - Hh; destruct b; try discriminate Hh; auto).
      unfold h_DIG in H. destruct (bump_over _ _ Hd) as [A2 T2].
      apply decimal_over in H as (ds & p & s & A & D & Hp & R & T4 & K).
      refine (numeric_text lx0 lx' (b :: ds ++ p ++ s) (eq_trans T4 T2) Ht (adv_trans _ [b] _ _ _ A2 A) _ _); [rewrite K; auto|].
      rewrite K. now apply decimal_number.
    - (* TPL *) unfold h_TPL in H. apply template_token in H. apply plain_text.
      destruct H as [E|[E|E]]; rewrite E; reflexivity.
    - (* UNI *) unfold h_UNI in H. destruct (decode_char (rem (lx_cur lx0))) as [[c len]|] eqn:Ed; [|discriminate].
      destruct (alnum c); [|oinv; now apply plain_text].
      odone H. injection H1 as <-.
      assert (Hpre : exists u, (exists u', u = b :: u') /\ Forall (fun x => word_byte x = true) u /\
          adv (lx_cur lx0) u (cur_advance (len - 1) (lx_cur lx0)) \/ u = [] /\ len = 1).
      { destruct Hd as [r Er]. rewrite Er in Ed. unfold decode_char in Ed.
        assert (Hw : word_byte b = true) by (clear - Hh; destruct b; vm_compute in Hh; try discriminate Hh; reflexivity).
        assert (Hcont : forall x, is_continuation x = true -> word_byte x = true) by (clear; intros x; destruct x; vm_compute; intros Z; try discriminate Z; reflexivity).
        destruct (byte_in x00 x7f b) eqn:E0; [exists []; right; injection Ed; auto|].
        destruct (lx_cur lx0) as [p0 r0]; simpl in Er; subst r0. unfold cur_advance, adv. simpl.
        destruct (byte_in xc2 xdf b).
        { destruct r as [|c1 r]; [discriminate|]. destruct (is_continuation c1) eqn:E1; [|discriminate].
          injection Ed as _ <-. exists [b]. left. split; [eauto|]. split; [auto|]. simpl. split; [auto|lia]. }
        destruct (byte_in xe0 xef b).
        { destruct r as [|c1 [|c2 r]]; try discriminate. destruct (is_continuation c1) eqn:E1; [|discriminate].
          destruct (is_continuation c2) eqn:E2; [|discriminate].
          injection Ed as _ <-. exists [b; c1]. left. split; [eauto|]. split; [auto|]. simpl. split; [auto|lia]. }
        destruct (byte_in xf0 xf4 b).
        { destruct r as [|c1 [|c2 [|c3 r]]]; try discriminate. destruct (is_continuation c1) eqn:E1; [|discriminate].
          destruct (is_continuation c2) eqn:E2; [|discriminate]. destruct (is_continuation c3) eqn:E3; [|discriminate].
          injection Ed as _ <-. exists [b; c1; c2]. left. split; [eauto|]. split; [auto|]. simpl. split; [auto|lia]. }
        discriminate. }
      unfold read_label, skip_while in H0. odone H0. injection H1 as <-.
      apply scan_while_spec in H as (s & b1 & r' & E3 & -> & Hs & Hb1). cbn [lx_cur set_cur] in E3.
      assert (Ht1 : word_text (slice (lx_tok lx0) (Cur (pos (lx_cur (set_cur (cur_advance (len - 1) (lx_cur lx0)) lx0)) + List.length s) (b1 :: r'))) /\
         exists z, slice (lx_tok lx0) (Cur (pos (lx_cur (set_cur (cur_advance (len - 1) (lx_cur lx0)) lx0)) + List.length s) (b1 :: r')) = b :: z).
      { rewrite Ht. cbn [lx_cur set_cur].
        assert (A2 : adv (cur_advance (len - 1) (lx_cur lx0)) s (Cur (pos (cur_advance (len - 1) (lx_cur lx0)) + List.length s) (b1 :: r'))).
        { split; simpl; auto. }
        assert (Hdig : digit b = false) by (clear - Hh; destruct b; vm_compute in Hh; try discriminate Hh; reflexivity).
        destruct Hpre as [u [((u' & ->) & Hu & A1)|(-> & ->)]].
        - rewrite (adv_slice _ _ _ (adv_trans _ _ _ _ _ A1 A2)). split; [|simpl; eauto]. exists b, (u' ++ s).
          split; [auto|]. split; [|auto]. change (Forall (fun x => word_byte x = true) ((b :: u') ++ s)). apply Forall_app. split; auto. now apply legal_words.
        - assert (A1 : cur_advance (1 - 1) (lx_cur lx0) = lx_cur lx0) by (destruct (lx_cur lx0); reflexivity).
          rewrite A1 in *. rewrite (adv_slice _ _ _ A2). destruct Hd as [r Er]. rewrite Er in E3.
          assert (Hw : word_byte b = true) by (clear - Hh; destruct b; vm_compute in Hh; try discriminate Hh; reflexivity).
          destruct s as [|x s]; simpl in E3; injection E3; intros; subst.
          { rewrite <- word_byte_legal in Hb1. congruence. }
          split; [|eauto]. exists x, s. split; auto. split; auto. now apply legal_words. }
      destruct Ht1 as [Ht1 [z Ez]].
      constructor; intros E; try discriminate E; try solve [destruct E as [E|E]; discriminate E]; try exact Ht1.
      split; [exact Ht1|]. unfold token_as_str. cbn [set_token set_cur lx_tok lx_cur]. cbn [lx_cur set_cur] in Ez. rewrite Ez.
      unfold keyword_or_identifier. rewrite assoc_lookup, lookup_tails.
      replace (tails b KEYWORDS) with (@nil (str * token)); [reflexivity|].
      clear - Hh. destruct b; vm_compute in Hh; try discriminate Hh; reflexivity.
  Qed.

  Lemma consume_text lx lx' : ok lx -> consume alnum lx = Done lx' -> text_ok lx'.
  Proof.
    intros O H. destruct (consume_final _ _ _ O H) as (lx0 & b & h & O0 & Hd & Ht & Hh & R).
    eapply final_text; eauto.
  Qed.
  Lemma template_text lx lx' : read_template_kind lx = Done lx' -> text_ok lx'.
  Proof. intros H. apply template_token in H. apply plain_text. destruct H as [E|[E|E]]; rewrite E; reflexivity. Qed.
  Lemma regex_text lx v lx' : read_regular_expression lx = Done (v, lx') -> text_ok lx'.
  Proof.
    unfold read_regular_expression; intros H. odone H. destruct a as [[| |] c]; oinv; now apply plain_text.
  Qed.
End Text.
