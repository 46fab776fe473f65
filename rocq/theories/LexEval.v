(** What [consume] returns on a given text: white space, then a token. *)
From Coq Require Import List NArith Bool Lia Arith String.
From Coq.Strings Require Import Byte.
From Verif Require Import Bytes Token Tables Lexer SpecLexer SpecTokens LexerFacts ConsumeFacts.
Import ListNotations.
Open Scope nat_scope.

(** The lexer after reading the token [t] with text [text] at position [p]. *)
Definition lexed (buf : str) (t : token) (a : asi) (p : nat) (text rest : str) (acc : cursor) (q : str) : lexer :=
  Lexer buf t a (Cur (p + List.length text) rest) (Cur p (text ++ rest)) acc q.

Definition newline_in (ws : str) : bool := existsb (byte_eqb x0a) ws.
(** [asi] after white space [ws] and the token [t]. *)
Definition asi_of (ws : str) (t : token) : asi :=
  match t with
  | T_Semicolon => ExplicitSemicolon
  | T_ParenClose | T_BraceClose | T_EndOfProgram => ImplicitSemicolon
  | _ => if newline_in ws then ImplicitSemicolon else NoSemicolon
  end.

Section Eval.
  Variable alnum : N -> bool.

  Lemma consume_at buf t0 a0 p ws b r tok0 acc q h :
    Forall white ws -> handler_from_byte b = Some h ->
    consume alnum (Lexer buf t0 a0 (Cur p (ws ++ b :: r)) tok0 acc q)
    = run_handler alnum (consume alnum) h
        (Lexer buf t0 (if newline_in ws then ImplicitSemicolon else NoSemicolon)
           (Cur (p + List.length ws) (b :: r)) (Cur (p + List.length ws) (b :: r)) acc q).
  Proof.
    intros W Hh. rewrite consume_unfold. unfold consume_once. simpl.
    rewrite (scan_token_start_intro _ _ _ _ _ h W Hh). reflexivity.
  Qed.

  (** ** Words *)

  Fixpoint trie_words (k : ktrie) : list (str * token) :=
    match k with
    | KSeq bs t => [(bs, t)]
    | KBranch d l =>
        (match d with Some t => [([], t)] | None => [] end)
        ++ flat_map (fun p => map (fun w => (fst p :: fst w, snd w)) (trie_words (snd p))) l
    end.
  Fixpoint lookup (w : str) (l : list (str * token)) : option token :=
    match l with
    | [] => None
    | (x, t) :: l' => if str_eqb w x then Some t else lookup w l'
    end.
  (** Branches are distinct and all letters can occur in a label. *)
  Fixpoint trie_ok (k : ktrie) : bool :=
    match k with
    | KSeq bs _ => forallb legal_in_label bs
    | KBranch _ l =>
        forallb (fun p => legal_in_label (fst p) && trie_ok (snd p)) l &&
        (fix distinct (l : list byte) : bool :=
           match l with [] => true | x :: l' => negb (existsb (byte_eqb x) l') && distinct l' end) (map fst l)
    end.

  (** The cursor [c] is inside or at the end of the label [w ++ c0 :: r]. *)
  Definition in_label (p : nat) (w : str) (c0 : byte) (r : str) (c : cursor) : Prop :=
    exists u v, w = u ++ v /\ c = Cur (p + List.length u) (v ++ c0 :: r).

  Lemma match_seq_eval bs0 : forall buf t a p x w c0 r tok acc q,
    forallb legal_in_label bs0 = true -> forallb legal_in_label w = true -> legal_in_label c0 = false ->
    exists c, match_seq bs0 (Lexer buf t a (Cur p (x :: w ++ c0 :: r)) tok acc q)
              = Done (str_eqb w bs0, Lexer buf t a c tok acc q)
              /\ in_label (S p) w c0 r c /\ (str_eqb w bs0 = true -> c = Cur (S p + List.length w) (c0 :: r)).
  Proof.
    induction bs0 as [|y bs0 IH]; intros buf t a p x w c0 r tok acc q Hk Hw Hc.
    - unfold match_seq. destruct w as [|z w].
      + unfold read_byte, bump, set_cur, cur_bump. simpl. rewrite Hc. simpl.
        exists (Cur (S p) (c0 :: r)). split; [reflexivity|]. split; [|intros _; f_equal; lia].
        exists [], []. simpl. split; auto. f_equal; lia.
      + simpl in Hw. apply andb_true_iff in Hw as [Hz Hw].
        unfold read_byte, bump, set_cur, cur_bump. simpl. rewrite Hz. simpl.
        exists (Cur (S p) (z :: w ++ c0 :: r)). split; [reflexivity|]. split; [|discriminate].
        exists [], (z :: w). simpl. split; auto. f_equal; lia.
    - simpl in Hk. apply andb_true_iff in Hk as [Hy Hk]. destruct w as [|z w].
      + cbn. assert (E : byte_eqb c0 y = false) by (apply byte_eqb_neq; intros ->; congruence).
        rewrite E. exists (Cur (S p) (c0 :: r)). split; [reflexivity|]. split; [|discriminate].
        exists [], []. simpl. split; auto. f_equal; lia.
      + simpl in Hw. apply andb_true_iff in Hw as [Hz Hw].
        unfold match_seq; fold match_seq. unfold next_byte, bump, set_cur, cur_bump, read_byte. simpl.
        destruct (byte_eqb z y) eqn:E.
        * destruct (IH buf t a (S p) z w c0 r tok acc q Hk Hw Hc) as (c & E1 & (u & v & E2 & E3) & E4).
          exists c. rewrite E1. split; [reflexivity|]. split.
          -- exists (z :: u), v. rewrite E2. simpl. split; auto. rewrite E3. f_equal; lia.
          -- intros Z. apply E4 in Z. rewrite Z. f_equal; simpl; lia.
        * exists (Cur (S p) (z :: w ++ c0 :: r)). split; [reflexivity|]. split; [|discriminate].
          exists [], (z :: w). simpl. split; auto. f_equal; lia.
  Qed.

  Lemma lookup_app w l l' : lookup w (l ++ l') = match lookup w l with Some t => Some t | None => lookup w l' end.
  Proof. induction l as [|[x t] l IH]; simpl; auto. destruct (str_eqb w x); auto. Qed.
  Lemma lookup_cons z w m l : lookup (z :: w) (map (fun x => (m :: fst x, snd x)) l)
    = if byte_eqb z m then lookup w l else None.
  Proof.
    induction l as [|[x t] l IH]; simpl; [now destruct (byte_eqb z m)|].
    rewrite IH. destruct (byte_eqb z m); simpl; auto.
  Qed.
  Lemma lookup_nil m l : lookup [] (map (fun x : str * token => (m :: fst x, snd x)) l) = None.
  Proof. induction l as [|[x t] l IH]; simpl; auto. Qed.

  Lemma match_label_eval (k : ktrie) : forall buf t a p x w c0 r tok acc q,
    trie_ok k = true -> forallb legal_in_label w = true -> legal_in_label c0 = false ->
    exists c, match_label k (Lexer buf t a (Cur p (x :: w ++ c0 :: r)) tok acc q)
              = Done (lookup w (trie_words k), Lexer buf t a c tok acc q)
              /\ in_label (S p) w c0 r c
              /\ (lookup w (trie_words k) <> None -> c = Cur (S p + List.length w) (c0 :: r)).
  Proof.
    revert k. fix IHk 1. intros k buf t a p x w c0 r tok acc q Hk Hw Hc.
    destruct k as [bs0 t0|d l].
    - destruct (match_seq_eval bs0 buf t a p x w c0 r tok acc q Hk Hw Hc) as (c & E1 & E2 & E3).
      exists c. simpl. rewrite E1. simpl. split; [|split; [auto|]].
      + destruct (str_eqb w bs0); reflexivity.
      + intros N. apply E3. destruct (str_eqb w bs0); congruence.
    - cbn [trie_ok] in Hk. apply andb_true_iff in Hk as [Hk Hd]. simpl.
      unfold next_byte, bump, set_cur, cur_bump, read_byte. simpl.
      rewrite lookup_app.
      destruct w as [|z w].
      + simpl. (* the label ends here *)
        assert (G : lookup [] (flat_map (fun p0 => map (fun w => (fst p0 :: fst w, snd w)) (trie_words (snd p0))) l) = None).
        { clear. induction l as [|[m k'] l IH]; simpl; auto. rewrite lookup_app, lookup_nil. auto. }
        rewrite G.
        assert (G2 : forall l', forallb (fun p => legal_in_label (fst p) && trie_ok (snd p)) l' = true ->
          (fix go (l0 : list (byte * ktrie)) : outcome (option token * lexer) :=
            match l0 with
            | [] => Done (match d with Some t1 => if legal_in_label c0 then None else Some t1 | None => None end,
                          Lexer buf t a (Cur (S p) (c0 :: r)) tok acc q)
            | (m, k') :: l'0 => if byte_eqb c0 m then match_label k' (Lexer buf t a (Cur (S p) (c0 :: r)) tok acc q) else go l'0
            end) l' = Done (match d with Some t1 => Some t1 | None => None end, Lexer buf t a (Cur (S p) (c0 :: r)) tok acc q)).
        { induction l' as [|[m k'] l' IH]; intros Hl.
          - rewrite Hc. reflexivity.
          - simpl in Hl. apply andb_true_iff in Hl as [Hm Hl]. apply andb_true_iff in Hm as [Hm _].
            assert (E : byte_eqb c0 m = false) by (apply byte_eqb_neq; intros ->; congruence).
            rewrite E. auto. }
        rewrite G2 by auto. exists (Cur (S p) (c0 :: r)). split; [|split].
        * destruct d; reflexivity.
        * exists [], []. simpl. split; auto. f_equal; lia.
        * intros _. f_equal; lia.
      + change ((z :: w) ++ c0 :: r) with (z :: w ++ c0 :: r). cbn [obind].
        simpl in Hw. apply andb_true_iff in Hw as [Hz Hw].
        assert (D0 : lookup (z :: w) (match d return list (list byte * token) with Some t1 => [([], t1)] | None => [] end) = None) by (destruct d; reflexivity).
        rewrite D0.
        set (go := fix go (l0 : list (byte * ktrie)) : outcome (option token * lexer) :=
            match l0 with
            | [] => Done (match d with Some t1 => if legal_in_label z then None else Some t1 | None => None end,
                          Lexer buf t a (Cur (S p) (z :: w ++ c0 :: r)) tok acc q)
            | (m, k') :: l'0 => if byte_eqb z m then match_label k' (Lexer buf t a (Cur (S p) (z :: w ++ c0 :: r)) tok acc q) else go l'0
            end).
        assert (G : exists c, go l = Done (lookup (z :: w) (flat_map (fun p0 => map (fun w => (fst p0 :: fst w, snd w)) (trie_words (snd p0))) l), Lexer buf t a c tok acc q)
                 /\ in_label (S p) (z :: w) c0 r c
                 /\ (lookup (z :: w) (flat_map (fun p0 => map (fun w => (fst p0 :: fst w, snd w)) (trie_words (snd p0))) l) <> None ->
                     c = Cur (S p + List.length (z :: w)) (c0 :: r))).
        { clear D0. revert Hk Hd. induction l as [|[m k'] l IH]; intros Hk Hd.
          - simpl. rewrite Hz. exists (Cur (S p) (z :: w ++ c0 :: r)).
            split; [destruct d; reflexivity|]. split; [|congruence].
            exists [], (z :: w). simpl. split; auto. f_equal; lia.
          - cbn [forallb fst snd map] in Hk, Hd. apply andb_true_iff in Hk as [Hm Hk]. apply andb_true_iff in Hm as [Hm Hk'].
            apply andb_true_iff in Hd as [Hn Hd].
            cbn [go flat_map fst snd]. rewrite lookup_app, lookup_cons.
            destruct (byte_eqb z m) eqn:E.
            + apply byte_eqb_eq in E. subst m.
              assert (G : lookup (z :: w) (flat_map (fun p0 => map (fun w => (fst p0 :: fst w, snd w)) (trie_words (snd p0))) l) = None).
              { clear - Hn. revert Hn. induction l as [|[m k'] l IH]; simpl; auto. intros Hn.
                apply negb_true_iff, orb_false_iff in Hn as [Hn1 Hn2].
                rewrite lookup_app, lookup_cons, Hn1. apply IH. now rewrite Hn2. }
              rewrite G.
              destruct (IHk k' buf t a (S p) z w c0 r tok acc q Hk' Hw Hc) as (c & E1 & (u & v & E2 & E3) & E4).
              exists c. fold go. rewrite E1. split; [|split].
              * destruct (lookup w (trie_words k')); reflexivity.
              * exists (z :: u), v. rewrite E2. simpl. split; auto. rewrite E3. f_equal; lia.
              * intros N. rewrite E4; [simpl; f_equal; lia|]. destruct (lookup w (trie_words k')); congruence.
            + destruct (IH Hk Hd) as (c & E1 & E2 & E3). exists c. auto. }
        exact G.
  Qed.

  Lemma label_eval k buf t a p x w c0 r acc q :
    trie_ok k = true -> forallb legal_in_label w = true -> legal_in_label c0 = false ->
    label_or_keyword k (Lexer buf t a (Cur p (x :: w ++ c0 :: r)) (Cur p (x :: w ++ c0 :: r)) acc q)
    = Done (lexed buf (match lookup w (trie_words k) with Some t => t | None => T_Identifier end)
              a p (x :: w) (c0 :: r) acc q).
  Proof.
    intros Hk Hw Hc. unfold label_or_keyword.
    destruct (match_label_eval k buf t a p x w c0 r (Cur p (x :: w ++ c0 :: r)) acc q Hk Hw Hc) as (c & -> & (u & v & E2 & E3) & E4).
    cbn [obind]. destruct (lookup w (trie_words k)) as [t1|].
    - rewrite E4 by discriminate. unfold lexed, set_token. simpl. do 3 f_equal. lia.
    - unfold read_label, skip_while. simpl. rewrite E3. simpl.
      subst w. rewrite forallb_app in Hw. apply andb_true_iff in Hw as [_ Hv].
      rewrite (scan_while_intro _ _ _ _ _ Hv Hc). simpl. unfold lexed, set_token, set_cur. simpl.
      do 3 f_equal. rewrite app_length. lia.
  Qed.

  (** First letters, and what the handler of a first letter does. *)
  Definition trie_of (h : byte_handler) : option ktrie :=
    match h with
    | H_IDT => Some (KBranch None [])
    | H_L_B => Some K_B | H_L_C => Some K_C | H_L_D => Some K_D | H_L_E => Some K_E
    | H_L_F => Some K_F | H_L_I => Some K_I | H_L_L => Some K_L | H_L_N => Some K_N
    | H_L_P => Some K_P | H_L_R => Some K_R | H_L_S => Some K_S | H_L_T => Some K_T
    | H_L_U => Some K_U | H_L_V => Some K_V | H_L_W => Some K_W | H_L_Y => Some K_Y
    | _ => None
    end.
  (** The token of the word [x :: w]. *)
  Definition word_token (x : byte) (w : str) : token :=
    match handler_from_byte x with
    | Some h => match trie_of h with
                | Some k => match lookup w (trie_words k) with Some t => t | None => T_Identifier end
                | None => T_Identifier
                end
    | None => T_Identifier
    end.
  (** An ASCII letter, [$], [_] or [\]. *)
  Definition word_start (x : byte) : bool :=
    match handler_from_byte x with
    | Some h => match trie_of h with Some _ => true | None => false end
    | None => false
    end.

  Lemma lex_word buf t0 a0 p ws x w c0 r tok0 acc q :
    Forall white ws -> word_start x = true -> forallb legal_in_label w = true -> legal_in_label c0 = false ->
    consume alnum (Lexer buf t0 a0 (Cur p (ws ++ (x :: w) ++ c0 :: r)) tok0 acc q)
    = Done (lexed buf (word_token x w) (asi_of ws (word_token x w)) (p + List.length ws) (x :: w) (c0 :: r) acc q).
  Proof.
    intros W Hx Hw Hc. unfold word_start in Hx.
    destruct (handler_from_byte x) as [h|] eqn:Eh; [|discriminate].
    destruct (trie_of h) as [k|] eqn:Ek; [|discriminate].
    assert (Ea : asi_of ws (word_token x w) = if newline_in ws then ImplicitSemicolon else NoSemicolon).
    { assert (G : In (word_token x w) (T_Identifier :: flat_map (fun h => match trie_of h with Some k => map snd (trie_words k) | None => [] end)
        [H_IDT; H_L_B; H_L_C; H_L_D; H_L_E; H_L_F; H_L_I; H_L_L; H_L_N; H_L_P; H_L_R; H_L_S; H_L_T; H_L_U; H_L_V; H_L_W; H_L_Y])).
      { unfold word_token. rewrite Eh, Ek. destruct (lookup w (trie_words k)) as [t|] eqn:El; [|left; auto].
        right. apply in_flat_map. exists h. split; [destruct h; try discriminate Ek; simpl; tauto|].
        rewrite Ek. clear - El. induction (trie_words k) as [|[y t'] l IH]; simpl in *; [discriminate|].
        destruct (str_eqb w y); [injection El as ->; auto|auto]. }
      set (l := _ :: _) in G. vm_compute in l. subst l. simpl in G.
      repeat (destruct G as [<-|G]; [reflexivity|]). destruct G. }
    rewrite Ea. change ((x :: w) ++ c0 :: r) with (x :: w ++ c0 :: r).
    rewrite (consume_at _ _ _ _ _ _ _ _ _ _ h W Eh).
    destruct h; try discriminate Ek; injection Ek as <-.
    { (* H_IDT *)
      unfold run_handler, h_IDT, read_label, skip_while, bump, set_cur, cur_bump. cbn [lx_cur pos rem tl].
      rewrite (scan_while_intro _ _ _ _ _ Hw Hc). unfold word_token. rewrite Eh. cbn. unfold lexed, set_token, set_cur. cbn.
      do 3 f_equal. lia. }
    all: unfold run_handler; rewrite label_eval by (auto; reflexivity);
      unfold word_token; rewrite Eh; reflexivity.
  Qed.

  (** The tries hold exactly the keywords. *)
  Lemma assoc_lookup w l : assoc w l = lookup w l.
  Proof. induction l as [|[x t] l IH]; simpl; [|rewrite IH]; reflexivity. Qed.
  Definition tails (x : byte) (l : list (str * token)) : list (str * token) :=
    flat_map (fun p => match fst p with y :: w => if byte_eqb x y then [(w, snd p)] else [] | [] => [] end) l.
  Lemma lookup_tails x w l : lookup (x :: w) l = lookup w (tails x l).
  Proof.
    induction l as [|[[|y v] t] l IH]; simpl; auto.
    destruct (byte_eqb x y) eqn:E; simpl; rewrite ?E; simpl; rewrite ?IH; auto.
  Qed.
  Definition same_lookup (l l' : list (str * token)) : bool :=
    let sub l l' := forallb (fun p => match lookup (fst p) l' with Some t => token_eqb t (snd p) | None => false end) l in
    sub l l' && sub l' l.
  Lemma token_eqb_eq a b : token_eqb a b = true -> a = b.
  Proof.
    unfold token_eqb. intros H. apply Nat.eqb_eq in H.
    assert (G : forall t, nth (token_index t) all_tokens T_Semicolon = t) by (destruct t; reflexivity).
    rewrite <- (G a), <- (G b), H. reflexivity.
  Qed.
  Lemma lookup_In w l t : lookup w l = Some t -> In (w, t) l.
  Proof.
    induction l as [|[x t'] l IH]; simpl; [discriminate|]. destruct (str_eqb w x) eqn:E.
    - apply str_eqb_eq in E. injection 1 as ->. subst. auto.
    - auto.
  Qed.
  Lemma same_lookup_spec l l' w : same_lookup l l' = true -> lookup w l = lookup w l'.
  Proof.
    unfold same_lookup. intros H. apply andb_true_iff in H as [H1 H2]. rewrite forallb_forall in H1, H2.
    destruct (lookup w l) as [t|] eqn:E.
    - apply lookup_In, H1 in E. simpl in E. destruct (lookup w l') as [t'|]; [|discriminate].
      apply token_eqb_eq in E. congruence.
    - destruct (lookup w l') as [t'|] eqn:E'; auto. apply lookup_In, H2 in E'. simpl in E'. rewrite E in E'. discriminate.
  Qed.
  Lemma word_token_spec x w : word_start x = true -> word_token x w = keyword_or_identifier (x :: w).
  Proof.
    intros H. unfold word_token, keyword_or_identifier. rewrite assoc_lookup, lookup_tails.
    unfold word_start in H. destruct (handler_from_byte x) as [h|] eqn:Eh; [|discriminate].
    destruct (trie_of h) as [k|] eqn:Ek; [|discriminate].
    enough (lookup w (trie_words k) = lookup w (tails x KEYWORDS)) as -> by reflexivity.
    apply same_lookup_spec.
    destruct x; vm_compute in Eh; try discriminate Eh; injection Eh as <-; vm_compute in Ek; try discriminate Ek;
      injection Ek as <-; vm_compute; reflexivity.
  Qed.
  Lemma word_first_start x : word_first x = true -> word_start x = true.
  Proof. destruct x; vm_compute; auto. Qed.
  Lemma word_byte_legal x : word_byte x = legal_in_label x.
  Proof. destruct x; vm_compute; reflexivity. Qed.
  Lemma word_bytes_legal w : Forall (fun b => word_byte b = true) w -> forallb legal_in_label w = true.
  Proof. intros H. apply forallb_forall. intros b I. rewrite Forall_forall in H. rewrite <- word_byte_legal. auto. Qed.

  (** ** Punctuators *)
  Definition extends (x : str) (c : byte) : bool :=
    existsb (fun y => str_eqb (firstn (S (List.length x)) y) (x ++ [c])) (map fst PUNCTUATORS ++ COMMENT_OPENERS).

  Lemma lex_punct buf t0 a0 p ws x t c r tok0 acc q :
    Forall white ws -> In (x, t) PUNCTUATORS -> extends x c = false ->
    consume alnum (Lexer buf t0 a0 (Cur p (ws ++ x ++ c :: r)) tok0 acc q)
    = Done (lexed buf t (asi_of ws t) (p + List.length ws) x (c :: r) acc q).
  Proof.
    intros W I X. unfold lexed, asi_of.
    assert (G : forallb (fun y => match fst y with b :: _ => match handler_from_byte b with Some _ => true | None => false end | [] => false end) PUNCTUATORS = true) by reflexivity.
    rewrite forallb_forall in G. assert (G' := G _ I). clear G. simpl fst in G'.
    destruct x as [|b x]; [discriminate|]. destruct (handler_from_byte b) as [h|] eqn:Eh; [|discriminate].
    change ((b :: x) ++ c :: r) with (b :: x ++ c :: r).
    rewrite (consume_at _ _ _ _ _ _ _ _ _ _ _ W Eh). clear G'.
    generalize (if newline_in ws then ImplicitSemicolon else NoSemicolon), (p + List.length ws). clear W.
    intros a n. cbn in I.
    repeat destruct I as [I|I]; try contradiction.
    all: injection I as <- <- <-; vm_compute in Eh; injection Eh as <-;
      cbn [run_handler];
      unfold h_single, h_SEM, h_closing, h_EQL, h_EXL, h_LSS, h_MOR, h_op_assign, h_op_double, h_ATR, h_SLH, h_PRD, next_byte, read_byte, bump, set_cur, set_token, set_asi, cur_bump.
    all: cbn -[byte_eqb]; change (byte_eqb "="%byte "="%byte) with true.
    all: repeat match goal with |- context[byte_eqb ?c ?k] => is_var c;
           let E := fresh "E" in destruct (byte_eqb c k) eqn:E;
           [apply byte_eqb_eq in E; subst c; vm_compute in X; discriminate X|] end.
    all: cbn; do 3 f_equal; lia.
  Qed.

  Lemma extends_longest x c r : In x (map fst PUNCTUATORS) -> longest x (x ++ c :: r) -> extends x c = false.
  Proof.
    intros I [_ M]. destruct (extends x c) eqn:E; auto. exfalso.
    unfold extends in E. apply existsb_exists in E as (y & Iy & Ey). apply str_eqb_eq in Ey.
    assert (G : forall y, In y (map fst PUNCTUATORS ++ COMMENT_OPENERS) -> firstn (S (List.length x)) y = x ++ [c] ->
      exists z, In z (map fst PUNCTUATORS ++ COMMENT_OPENERS) /\ z = x ++ [c]).
    { clear - I. intros y Iy Ey. exists (firstn (S (List.length x)) y). split; auto.
      (* punctuators are closed under prefixes that prolong a punctuator *)
      assert (G : forallb (fun x => forallb (fun y => Nat.ltb (List.length y) (S (List.length x)) ||
          negb (str_eqb (firstn (List.length x) y) x) ||
          existsb (str_eqb (firstn (S (List.length x)) y)) (map fst PUNCTUATORS ++ COMMENT_OPENERS))
          (map fst PUNCTUATORS ++ COMMENT_OPENERS)) (map fst PUNCTUATORS) = true) by (vm_compute; reflexivity).
      rewrite forallb_forall in G. assert (G1 := G x I). rewrite forallb_forall in G1. specialize (G1 y Iy).
      assert (L := f_equal (@List.length _) Ey). rewrite app_length, firstn_length in L. change (List.length [c]) with 1 in L.
      assert (L2 : S (List.length x) <= List.length y) by lia.
      apply orb_true_iff in G1 as [G1|G1].
      - apply orb_true_iff in G1 as [G1|G1]; [apply Nat.ltb_lt in G1; lia|].
        apply negb_true_iff, str_eqb_neq in G1. exfalso. apply G1.
        apply (f_equal (firstn (List.length x))) in Ey. rewrite firstn_firstn, Nat.min_l in Ey by lia.
        rewrite Ey. rewrite firstn_app, Nat.sub_diag. simpl. rewrite app_nil_r. apply firstn_all.
      - apply existsb_exists in G1 as (z & Iz & Ez). apply str_eqb_eq in Ez. rewrite Ez. auto. }
    destruct (G y Iy Ey) as (z & Iz & ->).
    specialize (M _ Iz). rewrite app_length in M. simpl in M.
    assert (starts (x ++ [c]) (x ++ c :: r)) by (exists r; now rewrite <- app_assoc).
    specialize (M H). lia.
  Qed.

  (** ** Strings *)
  Lemma scan_string_eval q s : string_inside q s -> q <> "\"%byte -> forall p r,
    scan_string q p (s ++ q :: r) = Done (true, Cur (S (p + List.length s)) r).
  Proof.
    intros I Q. induction I as [|c s Hc I IH|b s H1 H2 H3 I IH]; intros p r; simpl.
    - rewrite byte_eqb_refl. do 3 f_equal. lia.
    - assert (E : byte_eqb "\" q = false) by (apply byte_eqb_neq; congruence). rewrite E.
      apply byte_eqb_neq in Hc. rewrite Hc, IH. do 3 f_equal. lia.
    - apply byte_eqb_neq in H1, H2, H3. rewrite H1, H2, H3, IH. do 3 f_equal. lia.
  Qed.
  Lemma scan_string_open q s : string_inside q s -> q <> "\"%byte -> q <> x00 -> forall p r,
    scan_string q p (s ++ x00 :: r) = Done (false, Cur (p + List.length s) (x00 :: r)) /\
    scan_string q p (s ++ "\"%byte :: x00 :: r) = Done (false, Cur (S (p + List.length s)) (x00 :: r)).
  Proof.
    intros I Q Q0. assert (E : byte_eqb "\" q = false) by (apply byte_eqb_neq; congruence).
    assert (E0 : byte_eqb x00 q = false) by (apply byte_eqb_neq; congruence).
    induction I as [|c s Hc I IH|b s H1 H2 H3 I IH]; intros p r; cbn -[byte_eqb].
    - rewrite E, E0. change (byte_eqb x00 x00) with true. cbn. split; do 3 f_equal; lia.
    - rewrite E. apply byte_eqb_neq in Hc. rewrite Hc. cbn. destruct (IH (S (S p)) r) as [-> ->].
      split; do 3 f_equal; lia.
    - apply byte_eqb_neq in H1, H2, H3. rewrite H1, H2, H3. destruct (IH (S p) r) as [-> ->].
      split; do 3 f_equal; lia.
  Qed.
  Lemma quote_handler q : q = """"%byte \/ q = "'"%byte -> handler_from_byte q = Some H_QOT.
  Proof. intros [->| ->]; reflexivity. Qed.
  Lemma lex_string buf t0 a0 p ws q0 s r tok0 acc q :
    Forall white ws -> q0 = """"%byte \/ q0 = "'"%byte -> string_inside q0 s ->
    consume alnum (Lexer buf t0 a0 (Cur p (ws ++ (q0 :: s ++ [q0]) ++ r)) tok0 acc q)
    = Done (lexed buf T_LiteralString (asi_of ws T_LiteralString) (p + List.length ws) (q0 :: s ++ [q0]) r acc q).
  Proof.
    intros W Q I.
    replace ((q0 :: s ++ [q0]) ++ r) with (q0 :: s ++ q0 :: r) by (simpl; now rewrite <- app_assoc).
    rewrite (consume_at _ _ _ _ _ _ _ _ _ _ _ W (quote_handler _ Q)).
    cbn -[scan_string]. unfold h_QOT, read_byte. cbn -[scan_string].
    rewrite (scan_string_eval _ _ I) by (destruct Q; congruence).
    cbn. unfold lexed, set_token, set_cur. cbn. rewrite <- app_assoc. do 3 f_equal. rewrite app_length. simpl. lia.
  Qed.
  Lemma lex_string_open buf t0 a0 p ws q0 s e r tok0 acc q :
    Forall white ws -> q0 = """"%byte \/ q0 = "'"%byte -> string_inside q0 s -> e = [] \/ e = ["\"%byte] ->
    consume alnum (Lexer buf t0 a0 (Cur p (ws ++ (q0 :: s ++ e) ++ x00 :: r)) tok0 acc q)
    = Done (lexed buf T_UnexpectedEndOfProgram (asi_of ws T_UnexpectedEndOfProgram) (p + List.length ws)
              (q0 :: s ++ e) (x00 :: r) acc q).
  Proof.
    intros W Q I He.
    replace ((q0 :: s ++ e) ++ x00 :: r) with (q0 :: s ++ e ++ x00 :: r) by (simpl; now rewrite <- app_assoc).
    rewrite (consume_at _ _ _ _ _ _ _ _ _ _ _ W (quote_handler _ Q)).
    cbn -[scan_string]. unfold h_QOT, read_byte. cbn -[scan_string].
    set (n := p + List.length ws).
    assert (S1 := scan_string_open _ _ I ltac:(destruct Q; congruence) ltac:(destruct Q; congruence) (S n) r).
    destruct S1 as [S1 S2].
    destruct He as [->| ->]; cbn [app]; rewrite ?S1, ?S2; cbn; unfold lexed, set_token, set_cur; cbn;
      rewrite ?app_nil_r, <- ?app_assoc; do 3 f_equal; rewrite ?app_length; simpl; lia.
  Qed.

  (** ** Numbers *)
  Lemma skip_eval f buf t a p s c r tok acc q :
    forallb f s = true -> f c = false ->
    skip_while f (Lexer buf t a (Cur p (s ++ c :: r)) tok acc q)
    = Done (Lexer buf t a (Cur (p + List.length s) (c :: r)) tok acc q).
  Proof. intros H1 H2. unfold skip_while. cbn. now rewrite (scan_while_intro _ _ _ _ _ H1 H2). Qed.
  Lemma digits_forallb ds : digits ds -> forallb is_digit ds = true.
  Proof. intros H. apply forallb_forall. apply Forall_forall, H. Qed.

  (** What follows a mantissa. *)
  Definition after_mantissa (c0 : byte) (lx1 : lexer) : outcome lexer :=
    if (byte_eqb c0 "e" || byte_eqb c0 "E")%bool then read_scientific (bump lx1)
    else Done (set_token T_LiteralNumber lx1).
  Lemma read_float_eval buf t a p f c r tok acc q :
    digits f -> digit c = false ->
    read_float (Lexer buf t a (Cur p (f ++ c :: r)) tok acc q)
    = after_mantissa c (Lexer buf t a (Cur (p + List.length f) (c :: r)) tok acc q).
  Proof.
    intros H1 H2. unfold read_float. rewrite skip_eval by (auto using digits_forallb). reflexivity.
  Qed.
  Lemma read_decimal_eval buf t a p f c r tok acc q :
    digits f -> digit c = false -> byte_eqb c "." = false ->
    read_decimal (Lexer buf t a (Cur p (f ++ c :: r)) tok acc q)
    = after_mantissa c (Lexer buf t a (Cur (p + List.length f) (c :: r)) tok acc q).
  Proof.
    intros H1 H2 H3. unfold read_decimal. rewrite skip_eval by (auto using digits_forallb). cbn. rewrite H3. reflexivity.
  Qed.
  Lemma read_decimal_point buf t a p ds f c r tok acc q :
    digits ds -> digits f -> digit c = false ->
    read_decimal (Lexer buf t a (Cur p (ds ++ "."%byte :: f ++ c :: r)) tok acc q)
    = after_mantissa c (Lexer buf t a (Cur (p + List.length ds + 1 + List.length f) (c :: r)) tok acc q).
  Proof.
    intros H0 H1 H2. unfold read_decimal. rewrite skip_eval by (auto using digits_forallb).
    cbn -[read_float]. unfold bump, set_cur, cur_bump. cbn -[read_float]. rewrite read_float_eval by auto.
    do 3 f_equal. lia.
  Qed.

  Lemma zer_eval buf t a p c r tok acc q :
    one_of radix_mark c = false ->
    h_ZER (Lexer buf t a (Cur p ("0"%byte :: c :: r)) tok acc q)
    = read_decimal (Lexer buf t a (Cur (S p) (c :: r)) tok acc q).
  Proof.
    intros H. unfold h_ZER, next_byte, bump, set_cur, cur_bump, read_byte.
    cbn [lx_cur rem tl obind pos lx_buf lx_token lx_asi lx_tok lx_acc lx_quasi].
    unfold one_of, radix_mark in H. cbn [existsb] in H.
    repeat (apply orb_false_iff in H as [?E H]).
    repeat match goal with H : byte_eqb c _ = false |- _ => rewrite H; clear H end. reflexivity.
  Qed.
  Lemma digit_not_mark d : digit d = true -> one_of radix_mark d = false.
  Proof. destruct d; vm_compute; congruence. Qed.
  Lemma digit_handler d : digit d = true -> d = "0"%byte \/ byte_in "1"%byte "9"%byte d = true.
  Proof. destruct d; vm_compute; auto. Qed.
  Lemma nonzero_handler d : byte_in "1"%byte "9"%byte d = true -> handler_from_byte d = Some H_DIG /\ digit d = true.
  Proof. destruct d; vm_compute; try discriminate; auto. Qed.

  Lemma mantissa_first m more : mantissa m more ->
    exists b m' h, m = b :: m' /\ handler_from_byte b = Some h /\
    forall buf t a p c r tok acc q, more c = false ->
      run_handler alnum (consume alnum) h (Lexer buf t a (Cur p (m ++ c :: r)) tok acc q)
      = after_mantissa c (Lexer buf t a (Cur (p + List.length m) (c :: r)) tok acc q).
  Proof.
    intros M. destruct M as [|d ds Hd Hds|d ds Hd Hds|d ds f Hd Hds Hf|d f Hd Hf].
    - exists "0"%byte, [], H_ZER. split; [reflexivity|]. split; [reflexivity|]. intros buf t a p c r tok acc q Hc.
      apply orb_false_iff in Hc as [Hc Hc']. unfold one_of in Hc'. cbn [existsb] in Hc'.
      apply orb_false_iff in Hc' as [Hp Hr].
      cbn [run_handler app]. rewrite zer_eval by exact Hr.
      rewrite (read_decimal_eval _ _ _ _ [] c r) by (auto; constructor). do 3 f_equal. simpl. lia.
    - exists "0"%byte, (d :: ds), H_ZER. split; [reflexivity|]. split; [reflexivity|]. intros buf t a p c r tok acc q Hc.
      apply orb_false_iff in Hc as [Hc Hp].
      cbn [run_handler app]. rewrite zer_eval by (apply digit_not_mark, Hd).
      rewrite (read_decimal_eval _ _ _ _ (d :: ds) c r) by (auto; constructor; auto). do 3 f_equal. simpl. lia.
    - destruct (nonzero_handler d Hd) as [Eh Hd'].
      exists d, ds, H_DIG. split; [reflexivity|]. split; [assumption|]. intros buf t a p c r tok acc q Hc.
      apply orb_false_iff in Hc as [Hc Hp].
      cbn [run_handler app]. unfold h_DIG, bump, set_cur, cur_bump.
      cbn [lx_cur rem tl pos lx_buf lx_token lx_asi lx_tok lx_acc lx_quasi].
      rewrite (read_decimal_eval _ _ _ _ ds c r) by auto. do 3 f_equal. simpl. lia.
    - destruct (digit_handler d Hd) as [->|Hd'].
      + exists "0"%byte, (ds ++ "."%byte :: f), H_ZER. split; [reflexivity|]. split; [reflexivity|]. intros buf t a p c r tok acc q Hc.
        cbn [run_handler]. change (("0"%byte :: ds ++ "."%byte :: f) ++ c :: r) with ("0"%byte :: (ds ++ "."%byte :: f) ++ c :: r).
        rewrite <- app_assoc. destruct ds as [|d ds].
        * cbn [app]. rewrite zer_eval by reflexivity.
          rewrite (read_decimal_point _ _ _ _ [] f c r) by auto. do 3 f_equal. simpl. lia.
        * assert (Hx := Forall_inv Hds). cbn [app]. rewrite zer_eval by (apply digit_not_mark, Hx).
          rewrite (read_decimal_point _ _ _ _ (d :: ds) f c r) by auto. do 3 f_equal. simpl. rewrite app_length. simpl. lia.
      + destruct (nonzero_handler d Hd') as [Eh _].
        exists d, (ds ++ "."%byte :: f), H_DIG. split; [reflexivity|]. split; [assumption|]. intros buf t a p c r tok acc q Hc.
        cbn [run_handler]. change ((d :: ds ++ "."%byte :: f) ++ c :: r) with (d :: (ds ++ "."%byte :: f) ++ c :: r).
        rewrite <- app_assoc. unfold h_DIG, bump, set_cur, cur_bump.
        cbn [lx_cur rem tl pos lx_buf lx_token lx_asi lx_tok lx_acc lx_quasi].
        cbn [app]. rewrite (read_decimal_point _ _ _ _ ds f c r) by auto. do 3 f_equal. simpl. rewrite app_length. simpl. lia.
    - exists "."%byte, (d :: f), H_PRD. split; [reflexivity|]. split; [reflexivity|]. intros buf t a p c r tok acc q Hc.
      cbn [run_handler]. unfold h_PRD, next_byte, bump, set_cur, cur_bump, read_byte.
      cbn [lx_cur rem tl obind pos lx_buf lx_token lx_asi lx_tok lx_acc lx_quasi app].
      change (is_digit d) with (digit d). rewrite Hd.
      rewrite (read_float_eval _ _ _ _ f c r) by auto. do 3 f_equal. simpl. lia.
  Qed.

  Lemma read_scientific_digits buf t a p d ds c r tok acc q :
    digit d = true -> digits ds -> digit c = false ->
    read_scientific (Lexer buf t a (Cur p (d :: ds ++ c :: r)) tok acc q)
    = Done (Lexer buf T_LiteralNumber a (Cur (p + S (List.length ds)) (c :: r)) tok acc q).
  Proof.
    intros Hd Hds Hc. unfold read_scientific, read_byte. cbn [lx_cur rem obind].
    assert (E : (byte_eqb d "-" || byte_eqb d "+")%bool = false) by (destruct d; vm_compute in Hd |- *; congruence).
    rewrite E. rewrite (skip_eval _ _ _ _ _ (d :: ds) c r) by (auto; apply digits_forallb; constructor; auto).
    reflexivity.
  Qed.
  Lemma read_scientific_sign buf t a p s ds c r tok acc q :
    In s ["+"; "-"]%byte -> digits ds -> digit c = false ->
    read_scientific (Lexer buf t a (Cur p (s :: ds ++ c :: r)) tok acc q)
    = Done (Lexer buf T_LiteralNumber a (Cur (p + S (List.length ds)) (c :: r)) tok acc q).
  Proof.
    intros Hs Hds Hc. unfold read_scientific, read_byte. cbn [lx_cur rem obind].
    assert (E : (byte_eqb s "-" || byte_eqb s "+")%bool = true) by (destruct Hs as [<-|[<-|[]]]; reflexivity).
    rewrite E. unfold bump, set_cur, cur_bump. cbn [lx_cur rem tl pos lx_buf lx_token lx_asi lx_tok lx_acc lx_quasi].
    rewrite skip_eval by (auto; apply digits_forallb; auto). cbn. unfold set_token. cbn. do 3 f_equal. lia.
  Qed.
  Lemma mark_more m more e : mantissa m more -> In e exponent_mark -> more e = false.
  Proof. intros M [<-|[<-|[]]]; destruct M; reflexivity. Qed.

  Lemma lex_number buf t0 a0 p ws x t more c r tok0 acc q :
    Forall white ws -> number x t more -> more c = false ->
    consume alnum (Lexer buf t0 a0 (Cur p (ws ++ x ++ c :: r)) tok0 acc q)
    = Done (lexed buf t (asi_of ws t) (p + List.length ws) x (c :: r) acc q).
  Proof.
    intros W N Hc.
    assert (A : asi_of ws t = if newline_in ws then ImplicitSemicolon else NoSemicolon) by (destruct N; reflexivity).
    rewrite A. clear A.
    assert (G : exists b x' h, x = b :: x' /\ handler_from_byte b = Some h /\
      forall a p tok, run_handler alnum (consume alnum) h (Lexer buf t0 a (Cur p (x ++ c :: r)) tok acc q)
      = Done (Lexer buf t a (Cur (p + List.length x) (c :: r)) tok acc q)).
    { destruct N as [m more M|m more e d ds M He Hd Hds|m more e s ds M He Hs Hds|z ds Hz Hds|z ds Hz Hds|z ds Hz Hds].
      - destruct (mantissa_first _ _ M) as (b & m' & h & Em & Eh & R).
        exists b, m', h. split; [auto|]. split; [auto|]. intros a p0 tok.
        apply orb_false_iff in Hc as [Hm He]. rewrite R by auto.
        unfold after_mantissa. unfold one_of, exponent_mark in He. cbn [existsb] in He.
        rewrite orb_false_r in He. rewrite He. reflexivity.
      - destruct (mantissa_first _ _ M) as (b & m' & h & Em & Eh & R).
        exists b, (m' ++ e :: d :: ds), h. split; [rewrite Em; reflexivity|]. split; [auto|]. intros a p0 tok.
        rewrite <- app_assoc. cbn [app]. rewrite R by eauto using mark_more.
        unfold after_mantissa. assert (E : (byte_eqb e "e" || byte_eqb e "E")%bool = true) by (destruct He as [<-|[<-|[]]]; reflexivity).
        rewrite E. unfold bump, set_cur, cur_bump. cbn [lx_cur rem tl pos lx_buf lx_token lx_asi lx_tok lx_acc lx_quasi].
        rewrite read_scientific_digits by auto. do 3 f_equal. rewrite app_length. simpl. lia.
      - destruct (mantissa_first _ _ M) as (b & m' & h & Em & Eh & R).
        exists b, (m' ++ e :: s :: ds), h. split; [rewrite Em; reflexivity|]. split; [auto|]. intros a p0 tok.
        rewrite <- app_assoc. cbn [app]. rewrite R by eauto using mark_more.
        unfold after_mantissa. assert (E : (byte_eqb e "e" || byte_eqb e "E")%bool = true) by (destruct He as [<-|[<-|[]]]; reflexivity).
        rewrite E. unfold bump, set_cur, cur_bump. cbn [lx_cur rem tl pos lx_buf lx_token lx_asi lx_tok lx_acc lx_quasi].
        rewrite read_scientific_sign by auto. do 3 f_equal. rewrite app_length. simpl. lia.
      - exists "0"%byte, (z :: ds), H_ZER. split; [reflexivity|]. split; [reflexivity|]. intros a p0 tok.
        cbn [run_handler app]. unfold h_ZER, next_byte, bump, set_cur, cur_bump, read_byte.
        cbn [lx_cur rem tl obind pos lx_buf lx_token lx_asi lx_tok lx_acc lx_quasi].
        assert (E : (byte_eqb z "b" || byte_eqb z "B")%bool = true) by (destruct Hz as [<-|[<-|[]]]; reflexivity).
        rewrite E. unfold read_radix. rewrite skip_eval.
        + cbn. unfold set_token. cbn. do 3 f_equal. lia.
        + apply forallb_forall. intros d Hd. rewrite Forall_forall in Hds. apply Hds in Hd. unfold one_of in Hd. cbn in Hd.
          now rewrite orb_false_r in Hd.
        + unfold one_of in Hc. cbn in Hc. now rewrite orb_false_r in Hc.
      - exists "0"%byte, (z :: ds), H_ZER. split; [reflexivity|]. split; [reflexivity|]. intros a p0 tok.
        cbn [run_handler app]. unfold h_ZER, next_byte, bump, set_cur, cur_bump, read_byte.
        cbn [lx_cur rem tl obind pos lx_buf lx_token lx_asi lx_tok lx_acc lx_quasi].
        assert (E : (byte_eqb z "b" || byte_eqb z "B")%bool = false /\ (byte_eqb z "o" || byte_eqb z "O")%bool = true)
          by (destruct Hz as [<-|[<-|[]]]; split; reflexivity).
        destruct E as [-> ->]. unfold read_radix. rewrite skip_eval.
        + cbn. unfold set_token. cbn. do 3 f_equal. lia.
        + apply forallb_forall. intros d Hd. rewrite Forall_forall in Hds. now apply Hds in Hd.
        + exact Hc.
      - exists "0"%byte, (z :: ds), H_ZER. split; [reflexivity|]. split; [reflexivity|]. intros a p0 tok.
        cbn [run_handler app]. unfold h_ZER, next_byte, bump, set_cur, cur_bump, read_byte.
        cbn [lx_cur rem tl obind pos lx_buf lx_token lx_asi lx_tok lx_acc lx_quasi].
        assert (E : (byte_eqb z "b" || byte_eqb z "B")%bool = false /\ (byte_eqb z "o" || byte_eqb z "O")%bool = false
                    /\ (byte_eqb z "x" || byte_eqb z "X")%bool = true)
          by (destruct Hz as [<-|[<-|[]]]; repeat split; reflexivity).
        destruct E as (-> & -> & ->). unfold read_radix. rewrite skip_eval.
        + cbn. unfold set_token. cbn. do 3 f_equal. lia.
        + apply forallb_forall. intros d Hd. rewrite Forall_forall in Hds. now apply Hds in Hd.
        + exact Hc. }
    destruct G as (b & x' & h & E & Eh & R).
    replace (ws ++ x ++ c :: r) with (ws ++ b :: x' ++ c :: r) by now rewrite E.
    rewrite (consume_at _ _ _ _ _ _ _ _ _ _ _ W Eh).
    replace (b :: x' ++ c :: r) with (x ++ c :: r) by now rewrite E.
    apply R.
  Qed.

  (** ** The end of the program *)
  Lemma lex_eof buf t0 a0 p ws r tok0 acc q :
    Forall white ws ->
    consume alnum (Lexer buf t0 a0 (Cur p (ws ++ x00 :: r)) tok0 acc q)
    = Done (lexed buf T_EndOfProgram ImplicitSemicolon (p + List.length ws) [] (x00 :: r) acc q).
  Proof.
    intros W. rewrite (consume_at _ _ _ _ ws x00 _ _ _ _ H_EOF W eq_refl).
    cbn. unfold h_EOF, lexed, set_token, set_asi. cbn. do 3 f_equal. lia.
  Qed.
End Eval.
