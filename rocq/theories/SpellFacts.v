(** Tokens with one spelling: the text of such a token is that spelling. *)
From Coq Require Import List NArith Bool Lia Arith String.
From Coq.Strings Require Import Byte.
From Verif Require Import Bytes Token Tables Lexer SpecLexer SpecTokens LexerFacts ConsumeFacts LexEval TokenText.
Import ListNotations.
Open Scope nat_scope.
Open Scope list_scope.

Definition SPELLINGS : list (str * token) := KEYWORDS ++ PUNCTUATORS.
Definition spelled_b (t : token) : bool := existsb (fun p => token_eqb (snd p) t) SPELLINGS.
Lemma spelled_in s t : In (s, t) SPELLINGS -> spelled_b t = true.
Proof. intros I. unfold spelled_b. apply existsb_exists. exists (s, t). split; [exact I|]. cbn [snd]. destruct t; reflexivity. Qed.
Lemma spelling_one s s' t : In (s, t) SPELLINGS -> In (s', t) SPELLINGS -> s = s'.
Proof.
  intros I J. assert (G : forallb (fun p => forallb (fun q => negb (token_eqb (snd p) (snd q)) || str_eqb (fst p) (fst q)) SPELLINGS) SPELLINGS = true) by (vm_compute; reflexivity).
  rewrite forallb_forall in G. specialize (G _ I). rewrite forallb_forall in G. specialize (G _ J). cbn [fst snd] in G. replace (token_eqb t t) with true in G by (destruct t; reflexivity). now apply str_eqb_eq.
Qed.
Lemma not_spelled s t : In (s, t) SPELLINGS -> spelled_b t = false -> False.
Proof. intros I E. rewrite (spelled_in _ _ I) in E. discriminate E. Qed.
Lemma keyword_spelling w s : In (s, keyword_or_identifier w) SPELLINGS -> s = w.
Proof.
  unfold keyword_or_identifier. destruct (assoc w KEYWORDS) as [t|] eqn:E.
  - intros I. apply (spelling_one s w t I). apply in_or_app. left. revert E. generalize KEYWORDS. induction l as [|[x u] l IH]; cbn [assoc]; [discriminate|].
    destruct (str_eqb w x) eqn:X; intros E; [injection E as ->; apply str_eqb_eq in X; subst; now left|right; auto].
  - intros I. exfalso. apply (not_spelled _ _ I). reflexivity.
Qed.
Definition first_of (h : byte_handler) : byte :=
  match h with
  | H_SEM => ";" | H_COL => ":" | H_COM => "," | H_PNO => "(" | H_PNC => ")" | H_BTO => "[" | H_BTC => "]" | H_BEO => "{" | H_BEC => "}"
  | H_EQL => "=" | H_EXL => "!" | H_LSS => "<" | H_MOR => ">" | H_QST => "?" | H_TLD => "~" | H_CRT => "^" | H_PRC => "%" | H_AMP => "&" | H_PIP => "|"
  | H_PLS => "+" | H_MIN => "-" | H_ATR => "*" | H_SLH => "/" | H_PRD => "." | _ => x00
  end%byte.
Lemma first_byte b h : handler_from_byte b = Some h -> first_of h <> x00 -> b = first_of h.
Proof. intros E N. destruct b; vm_compute in E; try discriminate E; injection E as <-; solve [reflexivity|exfalso; apply N; reflexivity]. Qed.
Section Final.
  Variable alnum : N -> bool.
  Ltac known := match goal with
    | J : In (?s, ?t) SPELLINGS |- ?x = ?s => apply (spelling_one x s t); [|exact J] end;
    unfold token_as_str, slice; cbn [set_token set_asi set_cur bump cur_bump lx_tok lx_cur pos rem tl];
    match goal with |- In (firstn (?a - ?p) _, _) _ => first [replace (a - p) with 1 by lia | replace (a - p) with 2 by lia | replace (a - p) with 3 by lia | replace (a - p) with 4 by lia] end;
    cbn [firstn]; vm_compute; tauto.
  Ltac scan H := repeat (cbn [bump set_cur cur_bump lx_cur rem tl pos obind] in H; match type of H with
    | obind (match ?r with [] => _ | _ => _ end) _ = _ => is_var r; destruct r; [discriminate H|]
    | obind (obind (match ?r with [] => _ | _ => _ end) _) _ = _ => is_var r; destruct r; [discriminate H|]
    | (if byte_eqb ?x ?c then _ else _) = _ => let E := fresh "E" in destruct (byte_eqb x c) eqn:E; [apply byte_eqb_eq in E; subst x|]
    | Done _ = Done _ => injection H as <-
    end).
  Lemma final_spelled lx0 b h lx' s : ok lx0 -> head lx0 b -> lx_tok lx0 = lx_cur lx0 -> handler_from_byte b = Some h ->
    run_handler alnum (fun _ => Panicked) h lx0 = Done lx' -> In (s, lx_token lx') SPELLINGS -> token_as_str lx' = s.
  Proof.
    intros O Hd Ht Hh H I.
    destruct (trie_of h) as [k|] eqn:Ek.
    { destruct lx0 as [buf t a [p r0] tok acc q]. simpl in Ht. subst tok. destruct Hd as [r Er]. simpl in Er. subst r0.
      assert (Hs : word_start b = true) by (unfold word_start; rewrite Hh, Ek; reflexivity).
      assert (O1 : ends r) by (apply (ends_cons b); [exact O|]; intros ->; vm_compute in Hs; discriminate).
      destruct (split_word r O1) as (w & c0 & r' & -> & Hw & Hc).
      rewrite (word_handler alnum h k) in H by auto. injection H as <-.
      rewrite lexed_text. cbn [lexed lx_token] in I. rewrite word_token_spec in I by auto. symmetry. now apply keyword_spelling. }
    destruct lx0 as [buf t a [p r0] tok acc q]. simpl in Ht. subst tok. destruct Hd as [r Er]. simpl in Er. subst r0.
    destruct h; try discriminate Ek; cbn [run_handler] in H;
    try solve [unfold h_EOF, h_single in H; injection H as <-; exfalso; apply (not_spelled _ _ I); reflexivity].
    all: try (assert (Eb := first_byte _ _ Hh ltac:(discriminate)); cbn [first_of] in Eb; subst b).
    all: try solve [unfold h_single, h_closing, h_SEM in H; injection H as <-; cbn [set_token set_asi bump set_cur lx_token] in I; known].
    all: try solve [unfold h_EQL, h_EXL, h_LSS, h_MOR, h_op_assign, h_op_double, h_ATR, next_byte, read_byte in H; scan H;
      cbn [set_token set_asi bump set_cur lx_token] in I; known].
    - (* QOT *) unfold h_QOT in H. oinv; try match goal with x : bool |- _ => destruct x end; exfalso; apply (not_spelled _ _ I); reflexivity.
    - (* PRD *) unfold h_PRD, next_byte, read_byte in H. cbn [bump set_cur cur_bump lx_cur rem tl pos obind] in H. destruct r as [|x r]; [discriminate H|]. cbn [obind] in H.
      destruct (is_digit x) eqn:Ex.
      { apply float_over in H as (f & z & _ & _ & _ & _ & K). rewrite K in I. exfalso. apply (not_spelled _ _ I). reflexivity. }
      destruct (byte_eqb x ".") eqn:E2.
      + apply byte_eqb_eq in E2. subst x. cbn [bump set_cur cur_bump lx_cur rem tl pos obind] in H. destruct r as [|x r]; [discriminate H|]. cbn [obind] in H.
        destruct (byte_eqb x ".") eqn:E3; injection H as <-; [|exfalso; apply (not_spelled _ _ I); reflexivity].
        apply byte_eqb_eq in E3. subst x. cbn [set_token set_asi bump set_cur lx_token] in I. known.
      + unfold read_accessor in H. oinv; exfalso; apply (not_spelled _ _ I); reflexivity.
    - (* SLH *) unfold h_SLH, next_byte, read_byte in H. cbn [bump set_cur cur_bump lx_cur rem tl pos obind] in H. destruct r as [|x r]; [discriminate H|]. cbn [obind] in H.
      destruct (byte_eqb x "/"); [oinv|]. destruct (byte_eqb x "*").
      { cbv zeta in H. ob H as [closed c] Hk Hz. destruct closed; [discriminate|]. injection Hz as <-. exfalso. apply (not_spelled _ _ I). reflexivity. }
      destruct (byte_eqb x "=") eqn:E; injection H as <-; cbn [set_token set_asi bump set_cur lx_token] in I; [apply byte_eqb_eq in E; subst x|]; known.
    - (* ZER *) unfold h_ZER in H. ob H as [x lx1] Hn Hr. destruct (_ || _)%bool; [|destruct (_ || _)%bool; [|destruct (_ || _)%bool]].
      1-3: unfold read_radix in Hr; oinv; exfalso; apply (not_spelled _ _ I); reflexivity.
      apply decimal_over in Hr as (ds & p0 & z & _ & _ & _ & _ & _ & K). rewrite K in I. exfalso. apply (not_spelled _ _ I). reflexivity.
    - (* DIG *) unfold h_DIG in H. apply decimal_over in H as (ds & p0 & z & _ & _ & _ & _ & _ & K). rewrite K in I. exfalso. apply (not_spelled _ _ I). reflexivity.
    - (* TPL *) unfold h_TPL in H. apply template_token in H. exfalso. apply (not_spelled _ _ I). destruct H as [E|[E|E]]; rewrite E; reflexivity.
    - (* UNI *) unfold h_UNI in H. destruct (decode_char _) as [[c len]|]; [|discriminate]. destruct (alnum c); oinv; exfalso; apply (not_spelled _ _ I); reflexivity.
  Qed.
  Lemma consume_spelled lx lx' s : ok lx -> consume alnum lx = Done lx' -> In (s, lx_token lx') SPELLINGS -> token_as_str lx' = s.
  Proof.
    intros O H. destruct (consume_final _ _ _ O H) as (lx0 & b & h & O0 & Hd & Ht & Hh & R). eapply final_spelled; eauto.
  Qed.
End Final.
