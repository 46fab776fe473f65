(** The text of template chunks and accessors. *)
From Coq Require Import List NArith Bool Lia Arith String.
From Coq.Strings Require Import Byte.
From Verif Require Import Bytes Token Tables Lexer SpecLexer SpecTokens SpecChunks SpecRead
  LexerFacts ConsumeFacts LexEval TokenText StateFacts LexProps.
Import ListNotations.
Open Scope nat_scope.

Lemma scan_template_text r : forall p k e c, scan_template p r = Done (k, e, c) ->
  exists q, e = p + List.length q /\ p <= e /\ firstn (e - p) r = q /\
    match k with
    | TplClosed => template_inside q /\ r = q ++ bs "`" ++ rem c /\ pos c = e + 1
    | TplOpen => template_inside q /\ r = q ++ bs "${" ++ rem c /\ pos c = e + 2
    | TplEof => True
    end.
Proof.
  induction r as [r IH] using length_ind. intros p k e c H.
  destruct r as [|b r]; [discriminate|]. cbn [scan_template] in H.
  assert (One : forall b0 r0 (P : str -> Prop), b :: r = b0 :: r0 -> True) by auto. clear One.
  destruct (byte_eqb b "`") eqn:B1.
  { injection H as <- <- <-. byte_cases. exists []. rewrite Nat.sub_diag. cbn. repeat split; try lia. constructor. }
  destruct (byte_eqb b "$") eqn:B2.
  { byte_cases. destruct r as [|b1 r1]; [discriminate|]. destruct (byte_eqb b1 "{") eqn:B3.
    { injection H as <- <- <-. byte_cases. exists []. rewrite Nat.sub_diag. cbn. repeat split; try lia. constructor. }
    apply IH in H as (q & -> & L & E & K); [|cbn; lia].
    exists ("$"%byte :: q). split; [cbn; lia|]. split; [lia|].
    assert (F : S p + List.length q - p = S (List.length q)) by lia. rewrite F.
    replace (S p + List.length q - S p) with (List.length q) in E by lia.
    split; [cbn [firstn]; now rewrite E|].
    assert (Hd : forall z, q <> "{"%byte :: z).
    { intros z ->. cbn in E. injection E as -> _. vm_compute in B3. discriminate. }
    destruct k; auto; destruct K as (K1 & K2 & K3); (split; [now constructor|]); (split; [cbn [app]; now rewrite <- K2|lia]). }
  destruct (byte_eqb b "\") eqn:B3.
  { byte_cases. destruct r as [|b1 r1]; [discriminate|]. destruct (byte_eqb b1 x00) eqn:B4.
    { injection H as <- <- <-. exists []. rewrite Nat.sub_diag. cbn. repeat split; lia. }
    apply byte_eqb_neq in B4.
    apply IH in H as (q & -> & L & E & K); [|cbn; lia].
    exists ("\"%byte :: b1 :: q). split; [cbn; lia|]. split; [lia|].
    replace (S (S p) + List.length q - p) with (S (S (List.length q))) by lia.
    replace (S (S p) + List.length q - S (S p)) with (List.length q) in E by lia.
    split; [cbn [firstn]; now rewrite E|].
    destruct k; auto; destruct K as (K1 & K2 & K3); (split; [now constructor|]); (split; [cbn [app]; now rewrite <- K2|lia]). }
  apply byte_eqb_neq in B1, B2, B3.
  apply IH in H as (q & -> & L & E & K); [|cbn; lia].
  exists (b :: q). split; [cbn; lia|]. split; [lia|].
  replace (S p + List.length q - p) with (S (List.length q)) by lia.
  replace (S p + List.length q - S p) with (List.length q) in E by lia.
  split; [cbn [firstn]; now rewrite E|].
  destruct k; auto; destruct K as (K1 & K2 & K3); (split; [now constructor|]); (split; [cbn [app]; now rewrite <- K2|lia]).
Qed.

Lemma template_chunk lx lx' : fwd (lx_tok lx) (lx_cur lx) -> read_template_kind lx = Done lx' ->
  lx_token lx' = T_UnexpectedEndOfProgram \/
  chunk (lx_token lx') (token_as_str lx) (lx_quasi lx') (token_as_str lx').
Proof.
  intros [s F] H. unfold read_template_kind in H. ob H as [[k e] c] Hk Hr.
  apply scan_template_text in Hk as (q & -> & L & E & K). 
  assert (T := adv_slice _ _ _ F). destruct F as [F1 F2].
  destruct k; [| |injection Hr as <-; left; reflexivity]; injection Hr as <-; right; destruct K as (K1 & K2 & K3);
    unfold chunk, token_as_str; cbn [set_token set_quasi set_cur lx_token lx_tok lx_cur lx_quasi]; rewrite E; (split; [exact K1|]).
  - assert (A : adv (lx_tok lx) (s ++ q ++ bs "`") c).
    { split; [rewrite F1, K2, <- !app_assoc; reflexivity|]. rewrite !app_length. change (List.length (bs "`")) with 1. lia. }
    rewrite (adv_slice _ _ _ A), T. reflexivity.
  - assert (A : adv (lx_tok lx) (s ++ q ++ bs "${") c).
    { split; [rewrite F1, K2, <- !app_assoc; reflexivity|]. rewrite !app_length. change (List.length (bs "${")) with 2. lia. }
    rewrite (adv_slice _ _ _ A), T. reflexivity.
Qed.

Record chunk_ok (lx : lexer) : Prop := ChunkOk {
  ck_open : lx_token lx = T_TemplateOpen -> chunk T_TemplateOpen (bs "`") (lx_quasi lx) (token_as_str lx);
  ck_closed : lx_token lx = T_TemplateClosed -> chunk T_TemplateClosed (bs "`") (lx_quasi lx) (token_as_str lx);
  ck_brace : lx_token lx = T_BraceClose -> token_as_str lx = bs "}";
  ck_accessor : lx_token lx = T_Accessor -> accessor (accessor_as_str lx) (token_as_str lx)
}.
Definition other_token (t : token) : bool :=
  negb (token_eqb t T_TemplateOpen || token_eqb t T_TemplateClosed || token_eqb t T_BraceClose || token_eqb t T_Accessor).
Lemma chunk_other lx : other_token (lx_token lx) = true -> chunk_ok lx.
Proof. unfold other_token. intros H. constructor; intros E; rewrite E in H; discriminate H. Qed.

Lemma word_token_other x w : other_token (word_token x w) = true.
Proof.
  assert (G : In (word_token x w) (T_Identifier :: flat_map (fun h => match trie_of h with Some k => map snd (trie_words k) | None => [] end)
      [H_IDT; H_L_B; H_L_C; H_L_D; H_L_E; H_L_F; H_L_I; H_L_L; H_L_N; H_L_P; H_L_R; H_L_S; H_L_T; H_L_U; H_L_V; H_L_W; H_L_Y])).
  { unfold word_token. destruct (handler_from_byte x) as [h|] eqn:Eh; [|left; auto].
    destruct (trie_of h) as [k|] eqn:Ek; [|left; auto].
    destruct (lookup w (trie_words k)) as [t|] eqn:El; [|left; auto].
    right. apply in_flat_map. exists h. split; [destruct h; try discriminate Ek; simpl; tauto|].
    rewrite Ek. clear - El. induction (trie_words k) as [|[y t'] l IH]; simpl in *; [discriminate|].
    destruct (str_eqb w y); [injection El as ->; auto|auto]. }
  set (l := _ :: _) in G.
  assert (A : forallb other_token l = true) by (vm_compute; reflexivity).
  rewrite forallb_forall in A. now apply A.
Qed.

Lemma final_chunk alnum lx0 b h lx' : ok lx0 -> head lx0 b -> lx_tok lx0 = lx_cur lx0 -> handler_from_byte b = Some h ->
  run_handler alnum (fun _ => Panicked) h lx0 = Done lx' -> chunk_ok lx'.
Proof.
  intros O Hd Ht Hh H.
  destruct (trie_of h) as [k|] eqn:Ek.
  { destruct lx0 as [buf t a [p r0] tok acc q]. simpl in Ht. subst tok.
    destruct Hd as [r Er]. simpl in Er. subst r0.
    assert (Hs : word_start b = true) by (unfold word_start; rewrite Hh, Ek; reflexivity).
    assert (O1 : ends r).
    { apply (ends_cons b); [exact O|]. intros ->. vm_compute in Hs. discriminate. }
    destruct (split_word r O1) as (w & c0 & r' & -> & Hw & Hc).
    rewrite (word_handler alnum h k) in H by auto. injection H as <-.
    apply chunk_other. cbn [lexed lx_token]. apply word_token_other. }
  assert (Hb : b <> x00 \/ h = H_EOF).
  { destruct (byte_eqb b x00) eqn:E; [byte_cases; right; vm_compute in Hh; congruence|left; now apply byte_eqb_neq]. }
  destruct Hb as [Hb| ->].
  2:{ simpl in H. unfold h_EOF in H. oinv. now apply chunk_other. }
  destruct (match h with H_BEC => true | _ => false end) eqn:Eb.
  { destruct h; try discriminate Eb. simpl in H. unfold h_closing in H. injection H as <-.
    assert (b = "}"%byte) by (clear - Hh; destruct b; vm_compute in Hh; congruence). subst b.
    constructor; intros E; try discriminate E.
    destruct Hd as [r Er]. destruct lx0 as [buf t a [p r0] tok acc q]. simpl in Ht, Er. subst.
    unfold token_as_str, slice. cbn [set_token set_asi set_cur bump cur_bump lx_tok lx_cur pos rem tl].
    replace (S p - p) with 1 by lia. reflexivity. }
  destruct h; try discriminate Ek; try discriminate Eb; simpl in H;
  try solve [unfold h_EOF, h_single, h_closing, h_SEM, h_EQL, h_EXL, h_LSS, h_MOR, h_op_assign, h_op_double, h_ATR in H;
    oinv; now apply chunk_other].
  - (* QOT *) unfold h_QOT in H. ob H as q Hq H1. ob H1 as [closed c] Hk Hr.
    destruct closed; injection Hr as <-; now apply chunk_other.
  - (* PRD *) assert (b = "."%byte) by (clear - Hh; destruct b; vm_compute in Hh; congruence). subst b.
    unfold h_PRD in H. ob H as [x lx1] Hn H2.
    destruct (is_digit x) eqn:Ex.
    { apply float_token in H2. apply chunk_other. now rewrite H2. }
    destruct (byte_eqb x "."). { oinv; now apply chunk_other. }
    unfold read_accessor in H2. ob H2 as lx2 Hw H3. cbv zeta in H3. ob H3 as a0 Hb0 H4.
    destruct (127 <? byte_val a0)%N eqn:E7; [discriminate|].
    destruct (nth (byte_index a0) ACCESSOR_TABLE false) eqn:Ea; [|injection H4 as <-; now apply chunk_other].
    assert (X : text_ok lx').
    { apply (final_text alnum lx0 "."%byte H_PRD); auto. simpl. unfold h_PRD. rewrite Hn. simpl. rewrite Ex.
      destruct (byte_eqb x ".") eqn:E.
      - exfalso. clear - Hw Hb0 Ea E Hn. byte_cases.
        unfold skip_while in Hw. ob Hw as c Hc Hz. injection Hz as <-.
        apply scan_while_spec in Hc as (s & b1 & r' & E3 & -> & Hs & Hb1).
        apply read_byte_head in Hb0 as [r2 E2]. cbn [set_cur set_acc lx_cur rem] in E2. injection E2 as -> ->.
        unfold next_byte in Hn. ob Hn as y Hy Hz. injection Hz as -> <-. apply read_byte_head in Hy as [ry Ey].
        rewrite Ey in E3. destruct s as [|z s]; [|injection E3 as <- _; vm_compute in Hs; discriminate].
        injection E3 as <- _. vm_compute in Ea. discriminate.
      - unfold read_accessor. rewrite Hw. cbn [obind]. rewrite Hb0. cbn [obind]. rewrite E7, Ea. exact H4. }
    ob H4 as lx3 Hl H5. injection H5 as <-.
    unfold next_byte in Hn. ob Hn as y Hy Hz. injection Hz as <- <-.
    unfold skip_while in Hw. ob Hw as c Hc Hz. injection Hz as <-.
    apply scan_while_spec in Hc as (s & b1 & r' & E3 & -> & Hs & Hb1).
    unfold read_label, skip_while in Hl. ob Hl as c2 Hc2 Hz2. injection Hz2 as <-.
    apply scan_while_spec in Hc2 as (w & b2 & r2 & E4 & -> & Hs2 & Hb2).
    constructor; intros E; try discriminate E. clear E.
    assert (W := tx_acc _ X eq_refl). split; [exact W|].
    destruct Hd as [r Er]. destruct lx0 as [buf t a [p r0] tok acc q]. simpl in Ht, Er. subst r0 tok.
    cbn [bump set_cur set_acc cur_bump lx_cur lx_acc lx_tok rem pos tl] in *.
    subst r. exists s.
    assert (A1 : adv (Cur (S p + List.length s) (b1 :: r')) w (Cur (S p + List.length s + List.length w) (b2 :: r2))) by (split; auto).
    assert (A2 : adv (Cur p ("."%byte :: s ++ b1 :: r')) ("."%byte :: s ++ w) (Cur (S p + List.length s + List.length w) (b2 :: r2))).
    { split; cbn [rem pos app List.length]; [now rewrite E4, <- app_assoc|]. rewrite app_length. lia. }
    match goal with |- token_as_str ?l = _ /\ _ =>
      assert (T1 : accessor_as_str l = w) by exact (adv_slice _ _ _ A1);
      assert (T2 : token_as_str l = "."%byte :: s ++ w) by exact (adv_slice _ _ _ A2) end.
    rewrite T1, T2. split; [reflexivity|].
    apply Forall_forall. intros z Hz. rewrite forallb_forall in Hs. apply Hs in Hz.
    clear - Hz. destruct z; vm_compute in Hz |- *; congruence.
  - (* SLH *) unfold h_SLH in H. ob H as [x lx1] Hn Hr.
    destruct (byte_eqb x "/"); [oinv|]. destruct (byte_eqb x "*").
    { cbv zeta in Hr. ob Hr as [closed c] Hk Hz. destruct closed; [discriminate|]. injection Hz as <-. now apply chunk_other. }
    destruct (byte_eqb x "="); injection Hr as <-; now apply chunk_other.
  - (* ZER *) unfold h_ZER in H. ob H as [x lx1] Hn H1. unfold read_radix in H1.
    destruct (byte_eqb x "b" || byte_eqb x "B")%bool; [oinv; now apply chunk_other|].
    destruct (byte_eqb x "o" || byte_eqb x "O")%bool; [oinv; now apply chunk_other|].
    destruct (byte_eqb x "x" || byte_eqb x "X")%bool; [oinv; now apply chunk_other|].
    apply decimal_token in H1. apply chunk_other. now rewrite H1.
  - (* DIG *) unfold h_DIG in H. apply decimal_token in H. apply chunk_other. now rewrite H.
  - (* TPL *) assert (b = "`"%byte) by (clear - Hh; destruct b; vm_compute in Hh; congruence). subst b.
    destruct Hd as [r Er]. unfold h_TPL in H.
    assert (T : token_as_str (bump lx0) = bs "`" /\ fwd (lx_tok (bump lx0)) (lx_cur (bump lx0))).
    { destruct lx0 as [buf t a [p r0] tok acc q]. simpl in Ht, Er. subst. split.
      - unfold token_as_str, slice. cbn [bump set_cur cur_bump lx_tok lx_cur pos rem tl]. replace (S p - p) with 1 by lia. reflexivity.
      - exists (bs "`"). split; cbn; [reflexivity|lia]. }
    destruct T as [T F]. apply template_chunk in H as [H|H]; auto.
    { apply chunk_other. now rewrite H. }
    rewrite T in H. constructor; intros E; rewrite E in *; auto; destruct H as [_ []].
  - (* UNI *) unfold h_UNI in H. destruct (decode_char (rem (lx_cur lx0))) as [[c len]|] eqn:Ed; [|discriminate].
    destruct (alnum c); oinv; now apply chunk_other.
Qed.
Lemma consume_chunk alnum lx lx' : ok lx -> consume alnum lx = Done lx' -> chunk_ok lx'.
Proof.
  intros O H. destruct (consume_final _ _ _ O H) as (lx0 & b & h & O0 & Hd & Ht & Hh & R).
  eapply final_chunk; eauto.
Qed.
