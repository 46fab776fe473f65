(** Chains of binary operators: the proof of C01. *)
From Coq Require Import List NArith PeanoNat Bool String Lia.
From Coq.Strings Require Import Byte.
From Verif Require Import Bytes Token Tables Lexer SpecLexer SpecTokens SpecTree SpecHazard SpecPrec Ast Prog Parser Codegen
  LexerFacts ConsumeFacts LexEval ProgFacts ParseFacts Structure Gets Foreign Levels.
Import ListNotations.
Open Scope nat_scope.
Open Scope list_scope.

(** ** Operators *)
Definition op_token (op : operator) : token :=
  match op with
  | O_LogicalOr => T_OperatorLogicalOr | O_LogicalAnd => T_OperatorLogicalAnd
  | O_BitwiseOr => T_OperatorBitwiseOr | O_BitwiseXor => T_OperatorBitwiseXor | O_BitwiseAnd => T_OperatorBitwiseAnd
  | O_Equality => T_OperatorEquality | O_Inequality => T_OperatorInequality
  | O_StrictEquality => T_OperatorStrictEquality | O_StrictInequality => T_OperatorStrictInequality
  | O_Lesser => T_OperatorLesser | O_LesserEquals => T_OperatorLesserEquals
  | O_Greater => T_OperatorGreater | O_GreaterEquals => T_OperatorGreaterEquals
  | O_Instanceof => T_OperatorInstanceof | O_In => T_OperatorIn
  | O_BitShiftLeft => T_OperatorBitShiftLeft | O_BitShiftRight => T_OperatorBitShiftRight
  | O_UBitShiftRight => T_OperatorUBitShiftRight
  | O_Addition => T_OperatorAddition | O_Subtraction => T_OperatorSubtraction
  | O_Multiplication => T_OperatorMultiplication | O_Division => T_OperatorDivision
  | O_Remainder => T_OperatorRemainder | O_Exponent => T_OperatorExponent
  | _ => T_EndOfProgram
  end.
Definition punctuator_b (s : str) (t : token) : bool := existsb (fun p => str_eqb (fst p) s && token_eqb (snd p) t) PUNCTUATORS.
Lemma punctuator_in s t : punctuator_b s t = true -> In (s, t) PUNCTUATORS.
Proof.
  intros H. apply existsb_exists in H as ([s' t'] & H & E). cbn [fst snd] in E.
  apply andb_true_iff in E as [E1 E2]. apply str_eqb_eq in E1. apply token_eqb_eq in E2. now subst.
Qed.
(** Bytes a word or white space can start with do not extend these operators. *)
Definition not_extended (s : str) : Prop := forall b, white b \/ word_first b = true \/ not_ascii b -> extends s b = false.
Definition starts_b (b : byte) : bool := word_first b || (127 <? byte_val b)%N || ((1 <=? byte_val b)%N && (byte_val b <=? 32)%N).
Lemma starts_b_true b : white b \/ word_first b = true \/ not_ascii b -> starts_b b = true.
Proof.
  unfold starts_b. intros [[H1 H2]|[H|H]].
  2: now rewrite H.
  2: { unfold not_ascii in H. apply N.ltb_lt in H. now rewrite H, orb_true_r. }
  apply orb_true_iff. right. apply andb_true_iff. split; apply N.leb_le; lia.
Qed.
Definition all_bytes : list byte := flat_map (fun n => match Byte.of_N (N.of_nat n) with Some b => [b] | None => [] end) (seq 0 256).
Lemma in_all_bytes b : In b all_bytes.
Proof.
  assert (G : existsb (byte_eqb b) all_bytes = true) by (destruct b; vm_compute; reflexivity).
  apply existsb_exists in G as (b' & I & E). apply byte_eqb_eq in E. now subst.
Qed.
Lemma not_extended_b s : forallb (fun b => negb (starts_b b) || negb (extends s b)) all_bytes = true -> not_extended s.
Proof.
  intros F b Hb. rewrite forallb_forall in F. specialize (F b (in_all_bytes b)).
  rewrite (starts_b_true b Hb) in F. cbn in F. now apply negb_true_iff.
Qed.
Definition infix_b (op : operator) : bool := existsb (operator_eqb op) plain_binary.
Definition row (x : str * operator * nat) : bool :=
  let '(s, op, n) := x in
  match operator_from_token (op_token op) with Some op' => operator_eqb op op' | None => false end
  && infix_b op && (olevel op =? n + 4) && (rlevel op =? n + 4) &&
  ((punctuator_b s (op_token op) && forallb (fun b => negb (starts_b b) || negb (extends s b)) all_bytes)
   || (token_eqb (op_token op) T_OperatorIn && str_eqb s (bs "in"))
   || (token_eqb (op_token op) T_OperatorInstanceof && str_eqb s (bs "instanceof"))).
Lemma rows : forallb row BINARY = true.
Proof. vm_compute. reflexivity. Qed.
Lemma operator_eqb_eq a b : operator_eqb a b = true -> a = b.
Proof. destruct (operator_eq_dec a b) as [|N]; auto. intros H. destruct a, b; vm_compute in H; congruence. Qed.
Lemma binary_op s op n : In (s, op, n) BINARY ->
  let t := op_token op in
  operator_from_token t = Some op /\ In op plain_binary /\ olevel op = n + 4 /\ rlevel op = n + 4 /\
    ((In (s, t) PUNCTUATORS /\ not_extended s) \/
     (word_text s /\ Forall (fun b => word_byte b = true) s /\ (exists b r, s = b :: r /\ word_first b = true) /\
      keyword_or_identifier s = t)).
Proof.
  intros H t. assert (G := rows). rewrite forallb_forall in G. specialize (G _ H). unfold row in G.
  apply andb_true_iff in G as [G G5]. apply andb_true_iff in G as [G G4]. apply andb_true_iff in G as [G G3].
  apply andb_true_iff in G as [G1 G2]. apply Nat.eqb_eq in G3, G4. fold t in G1.
  split. { destruct (operator_from_token t) as [o|]; [|discriminate]. apply operator_eqb_eq in G1. now subst. }
  split. { apply existsb_exists in G2 as (o & I & E). apply operator_eqb_eq in E. now subst. }
  split; [assumption|]. split; [assumption|].
  apply orb_true_iff in G5 as [G5|G5]; [apply orb_true_iff in G5 as [G5|G5]|].
  - left. apply andb_true_iff in G5 as [P X]. split; [now apply punctuator_in|now apply not_extended_b].
  - right. apply andb_true_iff in G5 as [P X]. apply str_eqb_eq in X. apply token_eqb_eq in P. fold t in P. rewrite P, X.
    split; [eexists _, _; split; [reflexivity|]; split; [repeat constructor|reflexivity]|].
    split; [repeat constructor|]; split; [eexists _, _; split; reflexivity|reflexivity].
  - right. apply andb_true_iff in G5 as [P X]. apply str_eqb_eq in X. apply token_eqb_eq in P. fold t in P. rewrite P, X.
    split; [eexists _, _; split; [reflexivity|]; split; [repeat constructor|reflexivity]|].
    split; [repeat constructor|]; split; [eexists _, _; split; reflexivity|reflexivity].
Qed.
Lemma op_token_facts op : In op plain_binary ->
  tlevel (op_token op) = olevel op /\ op_token op <> T_OperatorIncrement /\ op_token op <> T_OperatorDecrement /\ op_token op <> T_Colon.
Proof.
  intros H. cbn in H. repeat (destruct H as [<-|H]; [repeat split; discriminate|]). destruct H.
Qed.

(** ** White space *)
Definition gapc (ws : str) : code := map (fun b => GBytes [b]) ws.
Section Chain.
  Variable alnum : N -> bool.
  Notation gets := (gets alnum).
  Notation pend := (pend alnum).
  Notation link_ok := (link_ok alnum).

  Lemma pend_gap ws nl c K : Forall white ws -> pend true c K -> pend nl (gapc ws ++ c) K.
  Proof.
    intros W H lx0 us s U N R PL E.
    assert (G : forall ws s, render (gapc ws ++ c) s -> exists s', render c s' /\ s = ws ++ s').
    { clear. induction ws as [|b ws IH]; intros s R; [exists s; auto|].
      apply render_bytes_inv in R as (s1 & R & ->). apply IH in R as (s' & R & ->). exists s'. auto. }
    apply G in R as (s' & R & ->). apply (H lx0 (us ++ ws) s'); auto.
    - apply Forall_app; auto.
    - discriminate.
    - rewrite E, <- !app_assoc. reflexivity.
  Qed.
  Lemma heads_gap (f : byte -> bool) ws c : Forall white ws -> (forall b, white b -> f b = true) ->
    ws <> [] \/ heads f c -> heads f (gapc ws ++ c).
  Proof.
    intros W F H. destruct ws as [|b ws]; [destruct H; [congruence|auto]|].
    apply heads_bytes. apply F. inversion W; auto.
  Qed.
  Definition link_code (l : link) : code :=
    gapc (l_before l) ++ GBytes (l_op l) :: gapc (l_after l) ++ [GBytes (l_name l)].
  Fixpoint links_code (ls : list link) (c : code) : code :=
    match ls with
    | [] => c
    | l :: ls' => gapc (l_before l) ++ GBytes (l_op l) :: gapc (l_after l) ++ GBytes (l_name l) :: links_code ls' c
    end.

  Lemma white_not_word b : white b -> word_byte b = false.
  Proof. unfold white. destruct b; vm_compute; intros [H1 H2]; congruence. Qed.
  Lemma links_heads ls e : Forall white e -> Forall link_ok ls -> heads (fun b => negb (word_byte b)) (links_code ls (gapc e)).
  Proof.
    intros W H. destruct H as [|l ls L H].
    - rewrite <- (app_nil_r (gapc e)). apply heads_gap; auto; [intros b Hb; now rewrite white_not_word|].
      right. apply heads_nil. reflexivity.
    - destruct L as (W1 & W2 & HI & HB & HW). cbn [links_code].
      apply heads_gap; auto; [intros b Hb; now rewrite white_not_word|].
      destruct (binary_op _ _ _ HB) as (_ & _ & _ & _ & [[HP _]|[HT _]]).
      + right. assert (G : forallb (fun p => match fst p with b :: _ => negb (word_byte b) | [] => false end) PUNCTUATORS = true) by reflexivity.
        rewrite forallb_forall in G. specialize (G _ HP). cbn [fst] in G. destruct (l_op l); [discriminate|]. now apply heads_bytes.
      + left. apply HW, HT.
  Qed.
  Lemma pend_ident nl x c (K : lexer -> Prop) : identifier_name alnum x -> heads (fun b => negb (word_byte b)) c ->
    (forall lx, on nl T_Identifier x c lx -> K lx) -> pend nl (GBytes x :: c) K.
  Proof.
    intros [[(b & w & E & HA & _) HK] HF] H G. apply pend_any_word; auto. rewrite HK. exact G.
  Qed.
  Lemma pend_operator l c (K : lexer -> Prop) t : link_ok l -> op_token (l_operator l) = t ->
    (forall lx, on true t (l_op l) (gapc (l_after l) ++ GBytes (l_name l) :: c) lx -> K lx) ->
    pend true (gapc (l_before l) ++ GBytes (l_op l) :: gapc (l_after l) ++ GBytes (l_name l) :: c) K.
  Proof.
    intros (W1 & W2 & HI & HB & HW) Ht HK. apply pend_gap; auto.
    destruct (binary_op _ _ _ HB) as (Ht' & Ho & _ & _ & HT). rewrite Ht in *.
    destruct HI as [_ HI].
    assert (HI' : exists b0 r0, l_name l = b0 :: r0 /\ (white b0 \/ word_first b0 = true \/ not_ascii b0)).
    { destruct HI as [(b0 & r0 & E0 & F0)|(_ & b0 & r0 & _ & E0 & F0 & _)]; exists b0, r0; auto. }
    destruct HI' as (b0 & r0 & E0 & F0).
    destruct HT as [[HP HX]|(HT & HA & HF & HK')].
    - apply pend_punct with (t := t); auto. apply heads_gap; auto.
      + intros b Hb. rewrite HX; auto.
      + right. rewrite E0. apply heads_bytes. rewrite HX; auto.
    - subst t. apply pend_word; auto.
      { apply heads_gap; auto; [intros b Hb; now rewrite white_not_word|]. left. apply HW, HT. }
      rewrite HK'. exact HK.
  Qed.

  (** ** What is left to parse *)
  Definition plevel (ls : list link) : nat := match ls with [] => 0 | l :: _ => olevel (l_operator l) end.
  Lemma pend_level ls e : Forall white e -> Forall link_ok ls ->
    pend true (links_code ls (gapc e)) (fun lx => tlevel (lx_token lx) = plevel ls /\ lx_token lx <> T_Colon).
  Proof.
    intros W [|l ls' L H].
    - cbn [links_code]. rewrite <- (app_nil_r (gapc e)). apply pend_gap; auto. apply pend_eof. intros lx -> _. split; [reflexivity|discriminate].
    - assert (L' := L). destruct L as (W1 & W2 & HI & HB & HW).
      destruct (binary_op _ _ _ HB) as (Ht & Ho & _). destruct (op_token_facts _ Ho) as (TL & N1 & N2 & N3).
      cbn [links_code]. apply (pend_operator _ _ _ _ L' eq_refl). intros lx O. rewrite (on_token _ _ _ _ _ O). split; assumption.
  Qed.

  (** The operator at the top of a tree. *)
  Definition top (e : expression) (n : nat) : Prop := match e with E_Binary op _ _ => olevel op = n | _ => False end.
  Notation names := chain_reading.

  Lemma grouped_binary op l r : In op plain_binary ->
    grouped (n_item l) -> grouped (n_item r) ->
    (forall n, top (n_item l) n -> olevel op <= n) -> (forall n, top (n_item r) n -> olevel op < n) ->
    grouped (E_Binary op l r).
  Proof.
    intros Ho Gl Gr Hl Hr. constructor; auto.
    - destruct (n_item l); cbn [binds]; auto. intros s s' n n' I I'. specialize (Hl _ eq_refl).
      destruct (binary_op _ _ _ I) as (_ & _ & E & _). destruct (binary_op _ _ _ I') as (_ & _ & E' & _). lia.
    - destruct (n_item r); cbn [binds]; auto. intros s s' n n' I I'. specialize (Hr _ eq_refl).
      destruct (binary_op _ _ _ I) as (_ & _ & E & _). destruct (binary_op _ _ _ I') as (_ & _ & E' & _). lia.
  Qed.

  (** [nested_expression] takes the operators that bind more tightly than [b]. *)
  Lemma nested_chain e n : Forall white e -> forall ls b, List.length ls <= n -> Forall link_ok ls ->
    exists taken rest, ls = taken ++ rest /\ plevel rest <= level b /\
      forall left x xs (Q : expr_node -> lexer -> Prop),
        reads_as (n_item left) x xs -> grouped (n_item left) ->
        (forall n, top (n_item left) n -> plevel ls <= n) ->
        (forall e', reads_as (n_item e') x (xs ++ names taken) -> grouped (n_item e') ->
           (taken = [] -> e' = left) -> (taken <> [] -> forall n, top (n_item e') n -> level b < n) ->
           pend true (links_code rest (gapc e)) (Q e')) ->
        pend true (links_code ls (gapc e)) (fun lx => gets (body_nested b left) lx Q).
  Proof.
    intros W. induction n as [|n IH]; intros ls b Len OK.
    - destruct ls; [|cbn in Len; lia]. exists [], []. split; [reflexivity|]. split; [cbn; lia|].
      intros left x xs Q HR HG HT HQ. eapply pend_mono; [|apply pend_and; [apply (pend_level [] e W OK)|apply (HQ left)]].
      + intros lx [[T _] HQ']. unfold body_nested, look. cbn [bind]. apply gets_look.
        rewrite handler_none by (rewrite T; cbn; lia). apply gets_ret. exact HQ'.
      + cbn. now rewrite app_nil_r.
      + assumption.
      + reflexivity.
      + congruence.
    - destruct (Nat.le_gt_cases (plevel ls) (level b)) as [Hb|Hb].
      { exists [], ls. split; [reflexivity|]. split; [assumption|].
        intros left x xs Q HR HG HT HQ. eapply pend_mono; [|apply pend_and; [apply (pend_level ls e W OK)|apply (HQ left)]].
        - intros lx [[T _] HQ']. unfold body_nested, look. cbn [bind]. apply gets_look.
          rewrite handler_none by (rewrite T; lia). apply gets_ret. exact HQ'.
        - cbn. now rewrite app_nil_r.
        - assumption.
        - reflexivity.
        - congruence. }
      destruct ls as [|l ls]; [cbn in Hb; lia|]. cbn [plevel] in Hb. cbn [List.length] in Len.
      inversion OK as [|? ? L OK']; subst. assert (L' := L). destruct L as (W1 & W2 & HI & HB & HW).
      destruct (binary_op _ _ _ HB) as (Ht & Ho & EO & ER & _). destruct (op_token_facts _ Ho) as (TL & N1 & N2 & N3).
      destruct (IH ls (right_bp (l_operator l)) ltac:(lia) OK') as (m1 & r1 & E1 & S1 & H1).
      assert (Len1 : List.length r1 <= n) by (subst ls; rewrite app_length in Len; lia).
      assert (OK1 : Forall link_ok r1) by (subst ls; apply Forall_app in OK'; tauto).
      destruct (IH r1 b Len1 OK1) as (m2 & r2 & E2 & S2 & H2).
      exists (l :: m1 ++ m2), r2. split; [cbn; rewrite <- app_assoc; congruence|]. split; [assumption|].
      intros left x xs Q HR HG HT HQ. cbn [links_code].
      apply (pend_operator _ _ _ _ L' eq_refl). intros lx O.
      destruct (binary_nested _ _ b Ht Ho Hb) as (h & Eh & Bh).
      unfold body_nested, look. cbn [bind]. apply gets_look.
      rewrite (handler_some b lx h) by (rewrite ?(on_token _ _ _ _ _ O); auto).
      cbn [call bind]. apply gets_call. cbn [body]. rewrite Bh. unfold binary_handler, consume_. cbn [bind].
      eapply on_next; [exact O|]. apply pend_gap; auto. apply pend_ident; auto.
      { subst ls. apply links_heads; auto. }
      intros lx1 O1. apply gets_call. cbn [body]. unfold body_expression, look. cbn [bind]. apply gets_look.
      assert (Bh1 : bound_handler CtxDefault (view_of lx1) = X_IDEN).
      { unfold bound_handler. cbn [view_of v_token]. rewrite (on_token _ _ _ _ _ O1). reflexivity. }
      rewrite Bh1. cbn [call bind]. apply gets_call. cbn [body body_expr_handler]. unfold token_expression, look, consume_. cbn [bind].
      apply gets_look. eapply on_next; [exact O1|]. eapply pend_mono; [intros lx2 G; apply gets_ret; exact G|].
      cbn [call]. apply (pend_less alnum true).
      eapply pend_mono; [intros lx2 G; apply gets_call; exact G|]. cbn [body].
      assert (Ex : v_text (view_of lx1) = l_name l) by apply (on_text _ _ _ _ _ O1).
      apply (H1 (in_loc (view_of lx1) (E_Identifier (v_text (view_of lx1)))) (l_name l) []).
      + rewrite Ex. cbn. constructor.
      + cbn. constructor.
      + cbn. intros k [].
      + cbn [app]. intros e' R1 G1 T0 T1.
        set (nb := Node (n_start left) (n_end e') (E_Binary (l_operator l) left e')).
        eapply pend_mono; [intros lx2 G; apply gets_ret, gets_ret, gets_call; exact G|].
        cbn [body].
        apply (H2 nb x (xs ++ (l_operator l, l_name l) :: names m1)).
        * cbn. constructor; auto.
        * cbn. apply grouped_binary; auto.
          intros k Tk. destruct m1 as [|l1 m1].
          -- rewrite T0 in Tk by reflexivity. destruct Tk.
          -- specialize (T1 ltac:(discriminate) k Tk). unfold rlevel in ER. lia.
        * cbn. intros k <-. unfold rlevel in ER. lia.
        * intros e'' R2 G2 T2 T3. eapply pend_mono; [intros lx2 G; apply gets_ret; exact G|].
          apply HQ; auto.
          -- cbn [chain_reading map]. unfold chain_reading in *. rewrite map_app. cbn. rewrite <- app_assoc in R2. exact R2.
          -- discriminate.
          -- intros _ k Tk. destruct m2 as [|l2 m2].
             ++ rewrite T2 in Tk by reflexivity. cbn in Tk. lia.
             ++ apply T3; [discriminate|assumption].
  Qed.

  (** ** Whole programs *)
  Lemma parse_code c s (Q : module -> Prop) : render c s ->
    pend true c (fun lx => gets (body _ F_parse) lx (fun m _ => Q m)) ->
    exists m, parses_to alnum s (ParseOk m) /\ Q m.
  Proof.
    intros R H. destruct (H (lexer_init (nul_terminated s)) [] s) as (lx & E & n & m & lx' & RN & HQ); auto.
    - exists []. split; reflexivity.
    - exists m. split; [|exact HQ]. exists n. unfold parse_fuel, lexer_new. rewrite E. cbn [obind].
      rewrite RN. reflexivity.
  Qed.
  Lemma render_gap ws c s : render c s -> render (gapc ws ++ c) (ws ++ s).
  Proof. intros H. induction ws as [|b ws IH]; [exact H|]. cbn. apply (r_bytes [b]). exact IH. Qed.
  Lemma render_links ls c s : render c s -> render (links_code ls c) (flat_map link_text ls ++ s).
  Proof.
    intros H. induction ls as [|l ls IH]; [exact H|]. cbn [links_code flat_map]. unfold link_text at 1.
    rewrite <- !app_assoc. apply render_gap. apply r_bytes. apply render_gap. apply r_bytes. exact IH.
  Qed.
  Lemma chain_parses ws0 wsn x0 ls : Forall white ws0 -> Forall white wsn -> identifier_name alnum x0 -> Forall link_ok ls ->
    exists a b e, parses_to alnum (ws0 ++ chain_text x0 ls ++ wsn) (ParseOk [Node a b (St_Expression e)]) /\
      reads_as (n_item e) x0 (names ls) /\ grouped (n_item e).
  Proof.
    intros W0 Wn HI OK.
    destruct (parse_code (gapc ws0 ++ GBytes x0 :: links_code ls (gapc wsn)) (ws0 ++ chain_text x0 ls ++ wsn)
      (fun m => exists a b e, m = [Node a b (St_Expression e)] /\ reads_as (n_item e) x0 (names ls) /\ grouped (n_item e)))
      as (m & H1 & a & b & e & -> & H2).
    - apply render_gap. unfold chain_text. rewrite <- app_assoc. apply r_bytes. apply render_links.
      rewrite <- (app_nil_r (gapc wsn)). rewrite <- (app_nil_r wsn) at 2. apply render_gap. constructor.
    - apply pend_gap; auto. apply pend_ident; auto; [apply links_heads; auto|]. intros lx O.
      cbn [body]. unfold body_parse, look. cbn [bind]. apply gets_look. unfold is. cbn [view_of v_token].
      rewrite (on_token _ _ _ _ _ O). cbn [token_eqb token_index Nat.eqb].
      cbn [call bind]. apply gets_call. cbn [body]. unfold body_statement, look. cbn [bind]. apply gets_look.
      unfold statement_handler. cbn [view_of v_token]. rewrite (on_token _ _ _ _ _ O).
      change (nth (token_index T_Identifier) STMT_HANDLERS S_____) with S_LABL.
      cbn [call]. apply gets_call. cbn [body body_stmt_handler call]. apply gets_call. cbn [body].
      unfold body_labeled_or_expression, look, consume_. cbn [bind]. apply gets_look.
      eapply on_next; [exact O|]. apply (pend_less alnum true).
      destruct (nested_chain wsn (List.length ls) Wn ls BP_ANY (Nat.le_refl _) OK) as (taken & rest & E & S & H).
      assert (OKr : Forall link_ok rest) by (subst ls; apply Forall_app in OK; tauto).
      assert (rest = []).
      { destruct rest as [|l r]; [reflexivity|]. cbn in S. inversion OKr as [|? ? (_ & _ & _ & HB & _) _]; subst.
        destruct (binary_op _ _ _ HB) as (_ & _ & EO & _). lia. }
      subst rest. rewrite app_nil_r in E. subst taken.
      eapply pend_mono; [|apply pend_and; [apply pend_level; eauto|]].
      { intros lx1 [[_ NC] HK]. cbn beta in HK. apply gets_look. unfold is. cbn [view_of v_token].
        replace (token_eqb (lx_token lx1) T_Colon) with false.
        2:{ destruct (token_eqb (lx_token lx1) T_Colon) eqn:ET; auto. apply token_eqb_eq in ET. congruence. }
        cbn [call bind]. apply gets_call. cbn [body]. exact HK. }
      assert (Ex : v_text (view_of lx) = x0) by apply (on_text _ _ _ _ _ O).
      apply (H (in_loc (view_of lx) (E_Identifier (v_text (view_of lx)))) x0 []).
      + rewrite Ex. cbn. constructor.
      + cbn. constructor.
      + cbn. intros k [].
      + cbn [app links_code]. intros e R G _ _. rewrite <- (app_nil_r (gapc wsn)). apply pend_gap; auto.
        apply pend_eof. intros lx2 T A. apply gets_call. cbn [body]. unfold body_expect_semicolon, look. cbn [bind].
        apply gets_look. cbn [view_of v_asi]. rewrite A. do 4 apply gets_ret.
        cbn [call bind]. apply gets_call. cbn [body]. unfold body_parse, look. cbn [bind]. apply gets_look.
        unfold is. cbn [view_of v_token]. rewrite T. cbn [token_eqb token_index Nat.eqb]. do 2 apply gets_ret.
        eexists _, _, e. split; [reflexivity|]. split; assumption.
    - exists a, b, e. split; assumption.
  Qed.
End Chain.

(** ** There is one such tree *)
Definition precs (p : nat -> Prop) (xs : list (operator * str)) : Prop :=
  forall op x s n, In (op, x) xs -> In (s, op, n) BINARY -> p n.
Lemma binary_prec s s' op n n' : In (s, op, n) BINARY -> In (s', op, n') BINARY -> n = n'.
Proof.
  intros I I'. destruct (binary_op _ _ _ I) as (_ & _ & E & _). destruct (binary_op _ _ _ I') as (_ & _ & E' & _). lia.
Qed.
Definition known (xs : list (operator * str)) : Prop := forall op x, In (op, x) xs -> exists s n, In (s, op, n) BINARY.
Lemma known_app xs ys : known (xs ++ ys) -> known xs /\ known ys.
Proof. intros H. split; intros op x I; apply (H op x), in_or_app; auto. Qed.
(** In a grouped tree, the top operator binds least. *)
Lemma grouped_top e : grouped e -> forall x xs, reads_as e x xs -> known xs ->
  match e with
  | E_Binary op _ _ => forall s n, In (s, op, n) BINARY -> precs (fun m => n <= m) xs
  | _ => True
  end.
Proof.
  induction 1 as [y|op l r Gl IHl Gr IHr Bl Br]; intros x xs R K; auto. intros s n I.
  inversion R as [|? ? ? ? xl y xr Rl Rr]; subst. apply known_app in K as [Kl Kr].
  assert (Kr' : known xr) by (intros o z Iz; apply (Kr o z); right; exact Iz).
  specialize (IHl _ _ Rl Kl). specialize (IHr _ _ Rr Kr').
  intros o z s' m Iz Im. apply in_app_or in Iz as [Iz|[Iz|Iz]].
  - destruct (n_item l); try (inversion Rl; subst; destruct Iz). cbn [binds] in Bl.
    inversion Rl as [|? ? ? ? xa w xb Ra Rb]; subst.
    destruct (Kl op0 w ltac:(apply in_or_app; right; left; reflexivity)) as (s2 & n2 & I2).
    specialize (IHl _ _ I2 _ _ _ _ Iz Im). specialize (Bl _ _ _ _ I I2). cbn beta in *. lia.
  - injection Iz as <- <-. rewrite (binary_prec _ _ _ _ _ I Im). lia.
  - destruct (n_item r); try (inversion Rr; subst; destruct Iz). cbn [binds] in Br.
    inversion Rr as [|? ? ? ? xa w xb Ra Rb]; subst.
    destruct (Kr' op0 w ltac:(apply in_or_app; right; left; reflexivity)) as (s2 & n2 & I2).
    specialize (IHr _ _ I2 _ _ _ _ Iz Im). specialize (Br _ _ _ _ I I2). cbn beta in *. lia.
Qed.
Lemma grouped_sides op l r x xs y ys s n : grouped (E_Binary op l r) -> reads_as (n_item l) x xs -> reads_as (n_item r) y ys ->
  known xs -> known ys -> In (s, op, n) BINARY -> precs (fun m => n <= m) xs /\ precs (fun m => n < m) ys.
Proof.
  intros G Rl Rr Kl Kr I. inversion G as [|? ? ? Gl Gr Bl Br]; subst.
  assert (Tl := grouped_top _ Gl _ _ Rl Kl). assert (Tr := grouped_top _ Gr _ _ Rr Kr). split.
  - intros o z s' m Iz Im. destruct (n_item l); try (inversion Rl; subst; destruct Iz). cbn [binds] in Bl.
    inversion Rl as [|? ? ? ? xa w xb Ra Rb]; subst.
    destruct (Kl op0 w ltac:(apply in_or_app; right; left; reflexivity)) as (s2 & n2 & I2).
    specialize (Tl _ _ I2 _ _ _ _ Iz Im). specialize (Bl _ _ _ _ I I2). cbn beta in *. lia.
  - intros o z s' m Iz Im. destruct (n_item r); try (inversion Rr; subst; destruct Iz). cbn [binds] in Br.
    inversion Rr as [|? ? ? ? xa w xb Ra Rb]; subst.
    destruct (Kr op0 w ltac:(apply in_or_app; right; left; reflexivity)) as (s2 & n2 & I2).
    specialize (Tr _ _ I2 _ _ _ _ Iz Im). specialize (Br _ _ _ _ I I2). cbn beta in *. lia.
Qed.
Lemma same_split {A} (xs xs' ys ys' : list A) a a' : xs ++ a :: ys = xs' ++ a' :: ys' ->
  (xs = xs' /\ a = a' /\ ys = ys') \/ (In a' ys /\ In a xs') \/ (In a ys' /\ In a' xs).
Proof.
  revert xs'. induction xs as [|z xs IH]; intros [|z' xs'] E; cbn in E; injection E as E1 E.
  - auto.
  - subst. right. left. split; [apply in_or_app; right; left; reflexivity|left; reflexivity].
  - subst. right. right. split; [apply in_or_app; right; left; reflexivity|left; reflexivity].
  - subst. destruct (IH _ E) as [(-> & H)|[(H1 & H2)|(H1 & H2)]]; [left; auto|right; left|right; right]; split; auto; right; auto.
Qed.
Lemma grouped_unique e : grouped e -> forall e' x xs, grouped e' -> reads_as e x xs -> reads_as e' x xs -> known xs ->
  strip_expression e = strip_expression e'.
Proof.
  induction 1 as [y|op l r Gl IHl Gr IHr Bl Br]; intros e' x xs G' R R' K.
  - inversion R; subst. inversion R'; subst; [reflexivity|]. match goal with E : _ ++ _ = [] |- _ => now apply app_cons_not_nil in E end || (destruct xs; discriminate).
  - inversion R as [|? ? ? ? xl y xr Rl Rr]; subst.
    inversion R' as [|op' l' r' ? xl' y' xr' Rl' Rr' E1 E2 E3]; subst; [exfalso; match goal with E : [] = _ ++ _ :: _ |- _ => now apply app_cons_not_nil in E | E : _ ++ _ :: _ = [] |- _ => symmetry in E; now apply app_cons_not_nil in E end|].
    assert (K' := K). rewrite <- E3 in K'. apply known_app in K as [Kl K0]. apply known_app in K' as [Kl' K0'].
    destruct (K0 op y (or_introl eq_refl)) as (s & n & I). destruct (K0' op' y' (or_introl eq_refl)) as (s' & n' & I').
    assert (Kr : known xr) by (intros o z Iz; apply (K0 o z); right; exact Iz).
    assert (Kr' : known xr') by (intros o z Iz; apply (K0' o z); right; exact Iz).
    destruct (grouped_sides _ _ _ _ _ _ _ _ _ (g_binary _ _ _ Gl Gr Bl Br) Rl Rr Kl Kr I) as [P1 P2].
    destruct (grouped_sides _ _ _ _ _ _ _ _ _ G' Rl' Rr' Kl' Kr' I') as [P1' P2'].
    destruct (same_split _ _ _ _ _ _ E3) as [(<- & Eo & <-)|[(J1 & J2)|(J1 & J2)]].
    + injection Eo as <- <-. inversion G' as [|? ? ? Gl' Gr' _ _]; subst. cbn [strip_expression]. unfold strip_node.
      rewrite (IHl _ _ _ Gl' Rl Rl' Kl), (IHr _ _ _ Gr' Rr Rr' Kr). reflexivity.
    + specialize (P2' _ _ _ _ J1 I). specialize (P1 _ _ _ _ J2 I'). cbn beta in *. lia.
    + specialize (P1' _ _ _ _ J2 I). specialize (P2 _ _ _ _ J1 I'). cbn beta in *. lia.
Qed.
