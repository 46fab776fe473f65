(** Every program of the grammar is accepted: facts of the lexer. *)
From Coq Require Import List NArith Bool Lia Arith String.
From Coq.Strings Require Import Byte.
From Verif Require Import Bytes Token Tables Lexer SpecLexer SpecTokens SpecChunks SpecRead LexerFacts ConsumeFacts LexEval TokenText StateFacts LexProps.
Import ListNotations.
Open Scope nat_scope.

(** ** The lexer does not deliver regular expressions on its own *)
Lemma word_token_regex x w : word_token x w <> T_LiteralRegEx.
Proof.
  assert (G : In (word_token x w) (T_Identifier :: flat_map (fun h => match trie_of h with Some k => map snd (trie_words k) | None => [] end)
      [H_IDT; H_L_B; H_L_C; H_L_D; H_L_E; H_L_F; H_L_I; H_L_L; H_L_N; H_L_P; H_L_R; H_L_S; H_L_T; H_L_U; H_L_V; H_L_W; H_L_Y])).
  { unfold word_token. destruct (handler_from_byte x) as [h|] eqn:Eh; [|left; auto].
    destruct (trie_of h) as [k|] eqn:Ek; [|left; auto].
    destruct (lookup w (trie_words k)) as [t|] eqn:El; [|left; auto].
    right. apply in_flat_map. exists h. split; [destruct h; try discriminate Ek; simpl; tauto|].
    rewrite Ek. clear - El. induction (trie_words k) as [|[y t'] l IH]; simpl in *; [discriminate|].
    destruct (str_eqb w y); [injection El as ->; auto|auto]. }
  set (l := _ :: _) in G.
  assert (A : forallb (fun t => negb (token_eqb t T_LiteralRegEx)) l = true) by (vm_compute; reflexivity).
  rewrite forallb_forall in A. apply A in G. intros E. rewrite E in G. discriminate G.
Qed.
Lemma final_regex alnum lx0 b h lx' : ok lx0 -> head lx0 b -> lx_tok lx0 = lx_cur lx0 -> handler_from_byte b = Some h ->
  run_handler alnum (fun _ => Panicked) h lx0 = Done lx' -> lx_token lx' <> T_LiteralRegEx.
Proof.
  intros O Hd Ht Hh H.
  destruct (trie_of h) as [k|] eqn:Ek.
  { destruct lx0 as [buf t a [p r0] tok acc q]. simpl in Ht. subst tok.
    destruct Hd as [r Er]. simpl in Er. subst r0.
    assert (Hs : word_start b = true) by (unfold word_start; rewrite Hh, Ek; reflexivity).
    assert (O1 : ends r).
    { apply (ends_cons b); [exact O|]. intros ->. vm_compute in Hs. discriminate. }
    destruct (split_word r O1) as (w & c0 & r' & -> & Hw & Hc).
    rewrite (word_handler alnum h k) in H by auto. injection H as <-. cbn [lexed lx_token]. apply word_token_regex. }
  destruct h; try discriminate Ek; simpl in H;
  try solve [unfold h_EOF, h_single, h_closing, h_SEM, h_EQL, h_EXL, h_LSS, h_MOR, h_op_assign, h_op_double, h_ATR in H;
    oinv; discriminate].
  - unfold h_QOT in H. ob H as q Hq H1. ob H1 as [closed c] Hk Hr.
    destruct closed; injection Hr as <-; discriminate.
  - unfold h_PRD in H. ob H as [x lx1] Hn H2.
    destruct (is_digit x) eqn:Ex.
    { apply float_token in H2. rewrite H2. discriminate. }
    destruct (byte_eqb x "."). { oinv; discriminate. }
    unfold read_accessor in H2. ob H2 as lx2 Hw H3. cbv zeta in H3. ob H3 as a0 Hb0 H4.
    destruct (127 <? byte_val a0)%N eqn:E7; [discriminate|].
    destruct (nth (byte_index a0) ACCESSOR_TABLE false) eqn:Ea; [|injection H4 as <-; discriminate].
    ob H4 as lx3 Hl H5. injection H5 as <-. discriminate.
  - unfold h_SLH in H. ob H as [x lx1] Hn Hr.
    destruct (byte_eqb x "/"); [oinv|]. destruct (byte_eqb x "*").
    { cbv zeta in Hr. ob Hr as [closed c] Hk Hz. destruct closed; [discriminate|]. injection Hz as <-. discriminate. }
    destruct (byte_eqb x "="); injection Hr as <-; discriminate.
  - unfold h_ZER in H. ob H as [x lx1] Hn H1. unfold read_radix in H1.
    destruct (byte_eqb x "b" || byte_eqb x "B")%bool; [oinv; discriminate|].
    destruct (byte_eqb x "o" || byte_eqb x "O")%bool; [oinv; discriminate|].
    destruct (byte_eqb x "x" || byte_eqb x "X")%bool; [oinv; discriminate|].
    apply decimal_token in H1. rewrite H1. discriminate.
  - unfold h_DIG in H. apply decimal_token in H. rewrite H. discriminate.
  - unfold h_TPL in H. unfold read_template_kind in H. ob H as [[k e] c] H1 H2. destruct k; injection H2 as <-; discriminate.
  - unfold h_UNI in H. destruct (decode_char (rem (lx_cur lx0))) as [[c len]|] eqn:Ed; [|discriminate].
    destruct (alnum c); oinv; discriminate.
Qed.
Lemma consume_regex alnum lx lx' : ok lx -> consume alnum lx = Done lx' -> lx_token lx' <> T_LiteralRegEx.
Proof.
  intros O H. destruct (consume_final _ _ _ O H) as (lx0 & b & h & O0 & Hd & Ht & Hh & R).
  eapply final_regex; eauto.
Qed.
Lemma consume_semicolon alnum lx lx' : ok lx -> consume alnum lx = Done lx' -> lx_asi lx' = ExplicitSemicolon <-> lx_token lx' = T_Semicolon.
Proof.
  intros O H. destruct (consume_asi _ _ _ O H) as (g1 & ws & A & W & C & ->).
  unfold asi_ws. destruct (newline_in ws), (lx_token lx'); split; intros E; try discriminate E; reflexivity.
Qed.

