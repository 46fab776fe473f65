(** Lemmas behind the statements of PropLexer.v. *)
From Coq Require Import List NArith Bool Lia Arith String.
From Coq.Strings Require Import Byte.
From Verif Require Import Bytes Token Tables Lexer SpecLexer SpecTokens SpecRead LexerFacts ConsumeFacts StateFacts LexEval Parser.
Import ListNotations.
Open Scope nat_scope.

Lemma lexed_reads (lx : lexer) ws x t a rest :
  reads lx ws x t rest (lexed (lx_buf lx) t a (pos (lx_cur lx) + List.length ws) x rest (lx_acc lx) (lx_quasi lx)).
Proof.
  constructor; try reflexivity. unfold token_as_str, slice, lexed. simpl.
  rewrite firstn_app. replace (_ + List.length x - _ - List.length x) with 0 by lia.
  rewrite firstn_O, app_nil_r, firstn_all2; [reflexivity|lia].
Qed.

Lemma reads_word alnum lx ws x w c rest :
  Forall white ws -> word_first x = true -> Forall (fun b => word_byte b = true) w -> word_byte c = false ->
  rem (lx_cur lx) = ws ++ (x :: w) ++ c :: rest ->
  exists lx', consume alnum lx = Done lx' /\ reads lx ws (x :: w) (keyword_or_identifier (x :: w)) (c :: rest) lx'.
Proof.
  intros W F I C E. rewrite <- word_token_spec by (apply word_first_start; auto).
  rewrite word_byte_legal in C. apply word_bytes_legal in I. apply word_first_start in F. 
  destruct lx as [buf t0 a0 [p r0] tok0 acc q]; cbn [lx_cur rem] in *; subst r0.
  rewrite lex_word by auto. eexists; split; [reflexivity|].
  match goal with |- reads ?lx ?ws ?x ?t ?rest _ => exact (lexed_reads lx ws x t _ rest) end.
Qed.

Lemma reads_punct alnum lx ws x t c rest :
  Forall white ws -> In (x, t) PUNCTUATORS -> longest x (x ++ c :: rest) ->
  rem (lx_cur lx) = ws ++ x ++ c :: rest ->
  exists lx', consume alnum lx = Done lx' /\ reads lx ws x t (c :: rest) lx'.
Proof.
  intros W I L E.
  assert (X : extends x c = false) by (eapply extends_longest; eauto; apply in_map_iff; exists (x, t); auto).
  destruct lx as [buf t0 a0 [p r0] tok0 acc q]; cbn [lx_cur rem] in *; subst r0.
  rewrite (lex_punct alnum buf t0 a0 p ws x t c rest tok0 acc q) by auto. eexists; split; [reflexivity|].
  match goal with |- reads ?lx ?ws ?x ?t ?rest _ => exact (lexed_reads lx ws x t _ rest) end.
Qed.

Lemma reads_string alnum lx ws q s rest :
  Forall white ws -> q = """"%byte \/ q = "'"%byte -> string_inside q s ->
  rem (lx_cur lx) = ws ++ (q :: s ++ [q]) ++ rest ->
  exists lx', consume alnum lx = Done lx' /\ reads lx ws (q :: s ++ [q]) T_LiteralString rest lx'.
Proof.
  intros W Q S E.
  destruct lx as [buf t0 a0 [p r0] tok0 acc q']; cbn [lx_cur rem] in *; subst r0.
  rewrite lex_string by auto. eexists; split; [reflexivity|].
  match goal with |- reads ?lx ?ws ?x ?t ?rest _ => exact (lexed_reads lx ws x t _ rest) end.
Qed.
Lemma reads_string_open alnum lx ws q s e rest :
  Forall white ws -> q = """"%byte \/ q = "'"%byte -> string_inside q s -> e = [] \/ e = ["\"%byte] ->
  rem (lx_cur lx) = ws ++ (q :: s ++ e) ++ x00 :: rest ->
  exists lx', consume alnum lx = Done lx' /\ reads lx ws (q :: s ++ e) T_UnexpectedEndOfProgram (x00 :: rest) lx'.
Proof.
  intros W Q S He E.
  destruct lx as [buf t0 a0 [p r0] tok0 acc q']; cbn [lx_cur rem] in *; subst r0.
  rewrite lex_string_open by auto. eexists; split; [reflexivity|].
  match goal with |- reads ?lx ?ws ?x ?t ?rest _ => exact (lexed_reads lx ws x t _ rest) end.
Qed.

(** Every text is the inside of a string up to the first unescaped quote, or
    to the NUL at which it ends: the two lemmas above cover all inputs. *)
Lemma string_split q r : q <> x00 -> q <> "\"%byte -> ends r ->
  (exists s rest, string_inside q s /\ r = s ++ q :: rest) \/
  (exists s e rest, string_inside q s /\ (e = [] \/ e = ["\"%byte]) /\ r = s ++ e ++ x00 :: rest).
Proof.
  intros Q0 Q1. induction r as [r IH] using length_ind. intros E.
  destruct r as [|b r]; [destruct E as [[|] E]; discriminate|].
  destruct (byte_eqb b q) eqn:E1.
  { apply byte_eqb_eq in E1. subst b. left. exists [], r. split; [constructor|reflexivity]. }
  destruct (byte_eqb b x00) eqn:E2.
  { apply byte_eqb_eq in E2. subst b. right. exists [], [], r. repeat split; [constructor|auto]. }
  apply byte_eqb_neq in E1, E2. apply ends_cons in E; auto.
  destruct (byte_eqb b "\") eqn:E3.
  - apply byte_eqb_eq in E3. subst b. destruct r as [|c r]; [destruct E as [[|] E]; discriminate|].
    destruct (byte_eqb c x00) eqn:E4.
    { apply byte_eqb_eq in E4. subst c. right. exists [], ["\"%byte], r. repeat split; [constructor|auto]. }
    apply byte_eqb_neq in E4. apply ends_cons in E; auto.
    destruct (IH r) as [(s & rest & S & ->)|(s & e & rest & S & He & ->)]; auto; [simpl; lia| |].
    + left. exists ("\"%byte :: c :: s), rest. split; [constructor; auto|reflexivity].
    + right. exists ("\"%byte :: c :: s), e, rest. split; [constructor; auto|]. auto.
  - apply byte_eqb_neq in E3.
    destruct (IH r) as [(s & rest & S & ->)|(s & e & rest & S & He & ->)]; auto.
    + left. exists (b :: s), rest. split; [constructor; auto|reflexivity].
    + right. exists (b :: s), e, rest. split; [constructor; auto|]. auto.
Qed.

Lemma reads_number alnum lx ws x t more c rest :
  Forall white ws -> number x t more -> more c = false ->
  rem (lx_cur lx) = ws ++ x ++ c :: rest ->
  exists lx', consume alnum lx = Done lx' /\ reads lx ws x t (c :: rest) lx'.
Proof.
  intros W N M E.
  destruct lx as [buf t0 a0 [p r0] tok0 acc q]; cbn [lx_cur rem] in *; subst r0.
  rewrite (lex_number alnum buf t0 a0 p ws x t more c rest tok0 acc q) by auto. eexists; split; [reflexivity|].
  match goal with |- reads ?lx ?ws ?x ?t ?rest _ => exact (lexed_reads lx ws x t _ rest) end.
Qed.

Lemma lexer_reach_inv alnum src lx : lexer_reach alnum src lx -> lex_inv src lx.
Proof.
  induction 1 as [lx H|lx lx' R IH H|lx lx' R IH H|lx v lx' R IH H].
  - apply (consume_inv _ src) in H; [|apply init_inv]. tauto.
  - apply (consume_inv _ src) in H; tauto.
  - assert (T := template_token _ _ H). apply template_step in H; [|apply IH].
    eapply step_inv; eauto. intuition congruence.
  - assert (T := regex_token _ _ _ H). apply regex_step in H; [|apply IH]. eapply step_inv; eauto.
Qed.

Lemma substring_in src a b : b <= List.length src -> a <= b ->
  exists u v, src = u ++ substring src a b ++ v /\ List.length u = a /\ List.length u + List.length (substring src a b) = b.
Proof.
  intros L H. unfold substring. exists (firstn a src), (skipn (b - a) (skipn a src)).
  rewrite firstn_skipn, firstn_skipn. rewrite !firstn_length, skipn_length. repeat split; lia.
Qed.

Lemma reach_text alnum src lx : lexer_reach alnum src lx ->
  pos (lx_tok lx) <= pos (lx_cur lx) <= List.length src /\
  token_as_str lx = substring src (pos (lx_tok lx)) (pos (lx_cur lx)).
Proof.
  intros R. apply lexer_reach_inv in R. split; [|apply token_text; auto].
  split; [now apply lex_inv_tok_pos with src|now apply lex_inv_pos].
Qed.

Lemma on_skipn buf c : on buf c -> skipn (pos c) buf = rem c.
Proof. intros [pre [-> <-]]. rewrite skipn_app, Nat.sub_diag, skipn_all. reflexivity. Qed.

Lemma slice_on src c c' : on (src ++ [x00]) c -> fwd c c' -> pos c' <= List.length src ->
  slice c c' = substring src (pos c) (pos c').
Proof.
  intros O F L. rewrite (on_slice _ _ _ O F). unfold substring. assert (L' := fwd_pos _ _ F).
  rewrite skipn_app, firstn_app.
  replace (pos c' - pos c - List.length (skipn (pos c) src)) with 0 by (rewrite skipn_length; lia).
  simpl. now rewrite app_nil_r.
Qed.

Lemma consume_gap alnum src lx lx' : lex_inv src lx -> consume alnum lx = Done lx' ->
  pos (lx_cur lx) <= pos (lx_tok lx') /\
  gap (substring src (pos (lx_cur lx)) (pos (lx_tok lx'))) (skipn (pos (lx_tok lx')) (src ++ [x00])).
Proof.
  intros I H. destruct (consume_inv _ _ _ _ I H) as (I' & F & _).
  apply consume_consumed in H; [|apply I]. destruct H as [B (s & A & G) _ _ _ _].
  split; [now apply fwd_pos|].
  rewrite <- (slice_on src (lx_cur lx) (lx_tok lx')); auto.
  - rewrite (adv_slice _ _ _ A). rewrite <- (li_buf _ _ I'), (on_skipn _ _ (li_tok _ _ I')). exact G.
  - rewrite <- (li_buf _ _ I). apply I.
  - assert (L1 := lex_inv_tok_pos _ _ I'). assert (L2 := lex_inv_pos _ _ I'). lia.
Qed.

Lemma new_gap alnum src lx : lexer_new alnum src = Done lx ->
  gap (substring src 0 (pos (lx_tok lx))) (skipn (pos (lx_tok lx)) (src ++ [x00])).
Proof. intros H. apply (consume_gap alnum src) in H; [|apply init_inv]. apply H. Qed.

(** ** Tokens of a whole source *)

Lemma tokens_tiled_from alnum src lx l p : lexer_reach alnum src lx -> tokens alnum lx l ->
  p <= pos (lx_tok lx) ->
  gap (substring src p (pos (lx_tok lx))) (skipn (pos (lx_tok lx)) (src ++ [x00])) ->
  token_end alnum lx -> tiled src p l.
Proof.
  intros R T. revert p R. induction T as [lx E|lx lx' l E H T IH]; intros p R L G D.
  - assert (I := lexer_reach_inv _ _ _ R). destruct (reach_text _ _ _ R) as [L2 _].
    econstructor 1 with (q := pos (lx_tok lx)); [lia|exact G|].
    destruct D as [D1 D2|[r D1] D2 D3 D4|b r c n D1 D2 D3 D4 D5 D6]; try congruence.
    exists r. rewrite <- (li_buf _ _ I), (on_skipn _ _ (li_tok _ _ I)). exact D1.
  - destruct (reach_text _ _ _ R) as [L2 _]. assert (I := lexer_reach_inv _ _ _ R).
    constructor; [lia|lia|exact G|].
    destruct (consume_gap _ _ _ _ I H) as [L3 G3].
    apply IH; auto.
    + eapply lr_consume; eauto.
    + destruct (consume_inv _ _ _ _ I H) as (_ & _ & D3). exact D3.
Qed.
Lemma tokens_tiled alnum src lx l : lexer_new alnum src = Done lx -> tokens alnum lx l -> tiled src 0 l.
Proof.
  intros H T. eapply tokens_tiled_from; eauto.
  - constructor; auto.
  - lia.
  - eapply new_gap; eauto.
  - apply (consume_inv _ src) in H; [|apply init_inv]. tauto.
Qed.

(** Progress. *)
Lemma consume_progress alnum src lx lx' : lexer_reach alnum src lx -> consume alnum lx = Done lx' ->
  pos (lx_cur lx) < pos (lx_cur lx') \/ lx_token lx' = T_EndOfProgram \/
  (lx_token lx' = T_UnexpectedToken /\ pos (lx_cur lx') = pos (lx_tok lx') /\
   exists b r c n, skipn (pos (lx_cur lx')) src = b :: r /\ (127 < byte_val b)%N /\
     decode_char (b :: r ++ [x00]) = Some (c, n) /\ alnum c = false).
Proof.
  intros R H. assert (I := lexer_reach_inv _ _ _ R).
  destruct (consume_inv _ _ _ _ I H) as (I' & F & D). apply fwd_pos in F.
  destruct D as [D1 D2|[r D1] D2 D3 D4|b r c n D1 D2 D3 D4 D5 D6]; [left; lia|right; left; auto|].
  right. right. split; [auto|]. split; [congruence|].
  assert (S := on_skipn _ _ (li_cur _ _ I')). rewrite D5, D1, (li_buf _ _ I') in S.
  assert (L := lex_inv_pos _ _ I').
  rewrite skipn_app in S. replace (pos (lx_tok lx') - List.length src) with 0 in S by (rewrite D5 in L; lia).
  simpl in S. destruct (skipn (pos (lx_tok lx')) src) as [|b' r'] eqn:E.
  - simpl in S. injection S as <- <-. vm_compute in D2. discriminate.
  - simpl in S. injection S as <- <-. rewrite D5. exists b', r', c, n. repeat split; auto.
Qed.

Lemma eop_forever alnum src lx : lexer_reach alnum src lx -> lx_token lx = T_EndOfProgram ->
  exists lx', consume alnum lx = Done lx' /\ lx_token lx' = T_EndOfProgram /\
    pos (lx_tok lx') = pos (lx_cur lx) /\ pos (lx_cur lx') = pos (lx_cur lx).
Proof.
  intros R E.
  assert (Z : exists r, rem (lx_cur lx) = x00 :: r).
  { clear - R E. destruct R as [lx H|lx lx' R H|lx lx' R H|lx v lx' R H].
    - apply (consume_inv _ src) in H; [|apply init_inv]. destruct H as (I & _ & D).
      destruct D as [D1 D2|[r D1] D2 D3 D4|b r c n D1 D2 D3 D4 D5 D6]; try congruence. rewrite D2. eauto.
    - apply (consume_inv _ src) in H; [|eapply lexer_reach_inv; eauto]. destruct H as (I & _ & D).
      destruct D as [D1 D2|[r D1] D2 D3 D4|b r c n D1 D2 D3 D4 D5 D6]; try congruence. rewrite D2. eauto.
    - apply template_token in H. intuition congruence.
    - apply regex_token in H. congruence. }
  destruct Z as [r Z]. destruct lx as [buf t0 a0 [p r0] tok0 acc q]. simpl in *. subst r0.
  change (x00 :: r) with ([] ++ x00 :: r). rewrite lex_eof by constructor.
  eexists. split; [reflexivity|]. simpl. repeat split; lia.
Qed.

(** ** Line breaks *)
Lemma skip_asi f lx lx' : skip_while f lx = Done lx' -> lx_asi lx' = lx_asi lx.
Proof. unfold skip_while. intros H. oinv. reflexivity. Qed.
Lemma next_asi lx b lx' : next_byte lx = Done (b, lx') -> lx_asi lx' = lx_asi lx.
Proof. unfold next_byte. intros H. oinv. reflexivity. Qed.
Ltac asi_tac :=
  oinv;
  repeat match goal with
  | H : skip_while _ _ = Done _ |- _ => apply skip_asi in H
  | H : read_label _ = Done _ |- _ => apply skip_asi in H
  | H : next_byte _ = Done _ |- _ => apply next_asi in H
  | H : read_byte _ = Done _ |- _ => clear H
  end; simpl in *; try congruence.
Lemma scientific_asi lx lx' : read_scientific lx = Done lx' -> lx_asi lx' = lx_asi lx.
Proof. unfold read_scientific. intros H. odone H. odone H1. oinv. apply skip_asi in H. simpl.
  rewrite H. destruct (byte_eqb a "-" || byte_eqb a "+")%bool; reflexivity. Qed.
Lemma float_asi lx lx' : read_float lx = Done lx' -> lx_asi lx' = lx_asi lx.
Proof. unfold read_float. intros H. odone H. odone H1. apply skip_asi in H0. oinv; auto.
  apply scientific_asi in H2. simpl in *. congruence. Qed.
Lemma decimal_asi lx lx' : read_decimal lx = Done lx' -> lx_asi lx' = lx_asi lx.
Proof. unfold read_decimal. intros H. odone H. odone H1. apply skip_asi in H0. oinv; auto.
  - apply float_asi in H2. simpl in *. congruence.
  - apply scientific_asi in H2. simpl in *. congruence. Qed.
Lemma match_seq_asi l lx k lx' : match_seq l lx = Done (k, lx') -> lx_asi lx' = lx_asi lx.
Proof.
  revert lx; induction l as [|x l IH]; intros lx H; simpl in H.
  - oinv. reflexivity.
  - odone H. destruct a as [b lx1]. apply next_asi in H0. destruct (byte_eqb b x); [apply IH in H1; congruence|oinv; auto].
Qed.
Fixpoint match_label_asi (k : ktrie) : forall lx t lx', match_label k lx = Done (t, lx') -> lx_asi lx' = lx_asi lx.
Proof.
  destruct k as [bs0 t0|d l]; intros lx t lx' H; simpl in H.
  - odone H. destruct a as [b lx1]. apply match_seq_asi in H0. oinv. auto.
  - odone H. destruct a as [b lx1]. apply next_asi in H0. rewrite <- H0. clear H0.
    revert H1. induction l as [|[m k'] l IH]; intros H1.
    + oinv. auto.
    + destruct (byte_eqb b m); [|auto]. eapply match_label_asi; eauto.
Qed.
Lemma label_asi k lx lx' : label_or_keyword k lx = Done lx' -> lx_asi lx' = lx_asi lx.
Proof.
  unfold label_or_keyword. intros H. odone H. destruct a as [[t|] lx1]; apply match_label_asi in H0; asi_tac.
Qed.
Lemma template_asi lx lx' : read_template_kind lx = Done lx' -> lx_asi lx' = lx_asi lx.
Proof. unfold read_template_kind. intros H. odone H. destruct a as [[[| |] e] c]; oinv; reflexivity. Qed.

(** How a handler leaves [asi], when it does not skip a comment. *)
Definition asi_after (a : asi) (t : token) : asi :=
  match t with
  | T_Semicolon => ExplicitSemicolon
  | T_ParenClose | T_BraceClose | T_EndOfProgram => ImplicitSemicolon
  | _ => a
  end.
Lemma handler_asi alnum again h lx lx' : h <> H_SLH -> run_handler alnum again h lx = Done lx' ->
  lx_asi lx' = asi_after (lx_asi lx) (lx_token lx').
Proof.
  intros N H. destruct h; try contradiction; simpl in H.
  all: try (match type of H with label_or_keyword ?k _ = _ =>
     assert (T := label_token _ _ _ H); apply label_asi in H; rewrite H;
     simpl in T; decompose [or] T; try contradiction; match goal with Z : _ = lx_token _ |- _ => rewrite <- Z | Z : lx_token _ = _ |- _ => rewrite Z end; reflexivity end).
  all: try (unfold h_single, h_EOF, h_SEM, h_closing in H; oinv; reflexivity).
  all: try (unfold h_EXL, h_EQL, h_LSS, h_MOR, h_ATR, h_op_assign, h_op_double, h_IDT in H; asi_tac; fail).
  - (* QOT *) unfold h_QOT in H. odone H. odone H1. destruct a0 as [[|] c]; oinv; reflexivity.
  - (* PRD *) unfold h_PRD in H. odone H. destruct a as [b lx1]. apply next_asi in H0.
    destruct (is_digit b). { rewrite (float_token _ _ H1). apply float_asi in H1. simpl in *. congruence. }
    destruct (byte_eqb b "."). { asi_tac. }
    unfold read_accessor in H1. asi_tac.
  - (* ZER *) unfold h_ZER in H. odone H. destruct a as [b lx1]. apply next_asi in H0.
    destruct (byte_eqb b "b" || byte_eqb b "B")%bool; [unfold read_radix in H1; asi_tac|].
    destruct (byte_eqb b "o" || byte_eqb b "O")%bool; [unfold read_radix in H1; asi_tac|].
    destruct (byte_eqb b "x" || byte_eqb b "X")%bool; [unfold read_radix in H1; asi_tac|].
    rewrite (decimal_token _ _ H1). apply decimal_asi in H1. simpl in *. congruence.
  - (* DIG *) unfold h_DIG in H. rewrite (decimal_token _ _ H). apply decimal_asi in H. exact H.
  - (* TPL *) unfold h_TPL in H. assert (T := template_token _ _ H). apply template_asi in H. rewrite H.
    decompose [or] T; match goal with Z : lx_token _ = _ |- _ => rewrite Z end; reflexivity.
  - (* UNI *) unfold h_UNI in H. destruct (decode_char (rem (lx_cur lx))) as [[c n]|]; [|discriminate].
    destruct (alnum c); asi_tac.
Qed.

Lemma byte_handler_eq_dec (a b : byte_handler) : {a = b} + {a <> b}.
Proof. decide equality. Defined.

Definition last_comment (g : str) : Prop :=
  g = [] \/ (exists g', g = g' ++ ["/"%byte]) \/ (exists g' body, g = g' ++ "/"%byte :: body /\ ~ In x0a body).
Definition asi_ws (ws : str) : asi := if newline_in ws then ImplicitSemicolon else NoSemicolon.

Lemma SLH_asi (alnum : N -> bool) again lx lx' : ok lx -> head lx "/"%byte -> h_SLH again lx = Done lx' ->
  lx_asi lx' = asi_after (lx_asi lx) (lx_token lx') /\ lx_tok lx' = lx_tok lx \/
  exists s lx2, adv (lx_cur lx) s (lx_cur lx2) /\ s <> [] /\ ok lx2 /\ last_comment s /\ again lx2 = Done lx'.
Proof.
  intros O Hd H.
  unfold h_SLH in H. odone H. destruct a as [b lx1].
  assert (E1 : lx1 = bump lx). { clear H1. unfold next_byte in H0. oinv. reflexivity. }
  subst lx1.
  destruct (byte_eqb b "/") eqn:B1; [|destruct (byte_eqb b "*") eqn:B2; [|destruct (byte_eqb b "=") eqn:B3]]; byte_cases.
  - odone H1. unfold skip_while in H. odone H. oinv.
    assert (S1 := H0). apply sstep_next in S1; auto. destruct S1 as [S1 Hd1].
    apply scan_while_spec in H1 as (s & b & r' & E & -> & Hs & Hb).
    destruct lx as [buf t a [p r] tok acc q]. destruct Hd as [r1 Er]. simpl in Er; subst r.
    destruct Hd1 as [r2 Er2]. simpl in Er2. subst r1. simpl in E. subst r2.
    right. eexists ("/" :: "/" :: s)%byte, _. split; [|split; [|split; [|split; [|exact H2]]]].
    + split; simpl; [reflexivity|lia].
    + discriminate.
    + unfold ok in *. simpl in *. change ("/" :: "/" :: s ++ b :: r')%byte with (("/" :: "/" :: s) ++ b :: r')%byte in O.
      apply ends_suffix in O; [auto|discriminate].
    + right. right. exists ["/"]%byte, s. split; [reflexivity|]. intros I. rewrite forallb_forall in Hs. apply Hs in I. discriminate.
  - odone H1. destruct a as [k c]. destruct k.
    + assert (S1 := H0). apply sstep_next in S1; auto. destruct S1 as [S1 Hd1].
      apply scan_block_comment_body in H as (body & E & Hp & Hb & Hn).
      destruct lx as [buf t a [p r] tok acc q]. destruct Hd as [r1 Er]. simpl in Er; subst r.
      destruct Hd1 as [r2 Er2]. simpl in Er2. subst r1. simpl in E. subst r2.
      right. eexists ("/" :: "*" :: body ++ ["*"; "/"])%byte, _. split; [|split; [|split; [|split; [|exact H2]]]].
      * simpl. split; simpl; [rewrite <- app_assoc; reflexivity|]. rewrite app_length; simpl in *. lia.
      * discriminate.
      * unfold ok in *. simpl in *.
        replace ("/" :: "*" :: body ++ "*" :: "/" :: rem c)%byte with (("/" :: "*" :: body ++ ["*"]) ++ "/" :: rem c)%byte in O
          by (simpl; now rewrite <- app_assoc).
        apply ends_suffix in O; [|discriminate]. apply ends_cons in O; [auto|discriminate].
      * right. left. exists ("/" :: "*" :: body ++ ["*"])%byte. simpl. now rewrite <- app_assoc.
    + oinv. left. split; reflexivity.
  - oinv. left. split; reflexivity.
  - oinv. left. split; reflexivity.
Qed.

Lemma consume_asi alnum lx lx' : ok lx -> consume alnum lx = Done lx' ->
  exists g ws, adv (lx_cur lx) (g ++ ws) (lx_tok lx') /\ Forall white ws /\ last_comment g /\
    lx_asi lx' = asi_after (asi_ws ws) (lx_token lx').
Proof.
  remember (List.length (rem (lx_cur lx))) as n eqn:En. revert lx En lx'.
  induction n as [n IH] using lt_wf_ind. intros lx En lx' O H.
  rewrite consume_unfold in H. unfold consume_once in H. odone H. destruct a as [[h a] c].
  apply scan_token_start_spec in H0 as (s & b & r' & Er & W & Hh & Ec & Ea).
  set (lx0 := set_tok c (set_cur c (set_asi a lx))) in *.
  assert (A0 : adv (lx_cur lx) s (lx_cur lx0)). { subst c. split; simpl; auto. }
  assert (O0 : ok lx0).
  { unfold ok in *. destruct A0 as [A0 _]. rewrite A0 in O. apply ends_suffix in O; auto.
    subst lx0; subst c; simpl; discriminate. }
  assert (Hd : head lx0 b) by (exists r'; subst lx0; subst c; reflexivity).
  assert (Et : lx_tok lx0 = lx_cur lx0) by reflexivity.
  assert (Ex : lx_asi lx0 = asi_ws s).
  { subst lx0. simpl. unfold asi_ws, newline_in. rewrite Ea. reflexivity. }
  clearbody lx0.
  destruct (byte_handler_eq_dec h H_SLH) as [->|Nh].
  - apply handler_SLH in Hh. subst b. simpl in H1.
    destruct (SLH_asi alnum _ _ _ O0 Hd H1) as [(Z1 & Z2)|(s1 & lx2 & A2 & N2 & O2 & C2 & H2)].
    + exists [], s. simpl. rewrite Z2, Et. split; [auto|]. split; [auto|]. split; [left; auto|]. congruence.
    + assert (L2 : List.length (rem (lx_cur lx2)) < n).
      { apply adv_length in A2. apply adv_length in A0. destruct s1; [congruence|]. simpl in A2. lia. }
      destruct (IH _ L2 lx2 eq_refl lx' O2 H2) as (g & ws & A3 & W3 & C3 & Z3).
      destruct C3 as [->|C3].
      * exists (s ++ s1), ws. split; [|split; [auto|split; [|auto]]].
        -- rewrite <- app_assoc. eapply adv_trans; [exact A0|]. eapply adv_trans; [exact A2|exact A3].
        -- destruct C2 as [->|[(g' & ->)|(g' & body & -> & Nb)]]; [congruence| |].
           ++ right. left. exists (s ++ g'). now rewrite app_assoc.
           ++ right. right. exists (s ++ g'), body. split; [now rewrite <- app_assoc|auto].
      * exists (s ++ s1 ++ g), ws. split; [|split; [auto|split; [|auto]]].
        -- rewrite <- !app_assoc. eapply adv_trans; [exact A0|]. eapply adv_trans; [exact A2|exact A3].
        -- right. destruct C3 as [(g' & ->)|(g' & body & -> & Nb)].
           ++ left. exists (s ++ s1 ++ g'). now rewrite !app_assoc.
           ++ right. exists (s ++ s1 ++ g'), body. split; [now rewrite <- !app_assoc|auto].
  - assert (K := handler_handled alnum _ b _ _ _ O0 Hd Hh H1).
    assert (Z := handler_asi _ _ _ _ _ Nh H1).
    exists [], s. simpl. assert (T : lx_tok lx' = lx_tok lx0).
    { destruct K as [[K _] _|_ ->|b0 r c0 n0 _ _ _ _ ->|body lx2 A B C D E F|body lx2 A B C E F].
      - now destruct K.
      - reflexivity.
      - reflexivity.
      - exfalso. destruct Hd as [r Er2]. destruct A as [A _]. rewrite Er2 in A. injection A as -> _.
        vm_compute in Hh. injection Hh as <-. congruence.
      - exfalso. destruct Hd as [r Er2]. destruct A as [A _]. rewrite Er2 in A. injection A as -> _.
        vm_compute in Hh. injection Hh as <-. congruence. }
    rewrite T, Et. split; [auto|]. split; [auto|]. split; [left; auto|]. congruence.
Qed.

Lemma white_not_slash : ~ white "/"%byte.
Proof. unfold white. intros [_ H]. vm_compute in H. congruence. Qed.

(** A line break followed by white space only. *)
Lemma newline_before_token g ws g0 u : g ++ ws = g0 ++ x0a :: u -> Forall white u -> last_comment g -> Forall white ws ->
  newline_in ws = true.
Proof.
  intros E U C W. apply existsb_exists.
  destruct (le_lt_dec (List.length g) (List.length g0)) as [L|L].
  - exists x0a. split; [|reflexivity].
    apply (f_equal (skipn (List.length g))) in E. rewrite !skipn_app, Nat.sub_diag, skipn_all in E. simpl in E.
    replace (List.length g - List.length g0) with 0 in E by lia. simpl in E. rewrite E.
    apply in_app_iff. right. now left.
  - exfalso.
    assert (X : exists v, g = g0 ++ x0a :: v /\ Forall white v).
    { exists (firstn (List.length g - List.length g0 - 1) u).
      split; [|apply Forall_forall; intros b I; rewrite Forall_forall in U; apply U; rewrite <- (firstn_skipn (List.length g - List.length g0 - 1) u); apply in_app_iff; auto].
      apply (f_equal (firstn (List.length g))) in E. rewrite !firstn_app, Nat.sub_diag, firstn_all in E. simpl in E.
      rewrite app_nil_r in E. rewrite E at 1. rewrite (firstn_all2 g0) by lia. f_equal.
      destruct (List.length g - List.length g0) as [|k] eqn:K; [lia|]. simpl. now rewrite Nat.sub_0_r. }
    destruct X as (v & Eg & V). destruct C as [->|[(g' & C)|(g' & body & C & N)]].
    + destruct g0; discriminate.
    + rewrite Eg in C. destruct (@exists_last _ (x0a :: v)) as (v' & z & Ez); [discriminate|]. rewrite Ez in C.
      rewrite app_assoc in C. apply app_inj_tail in C as [_ ->].
      destruct v' as [|y v'].
      * injection Ez as Ez _. discriminate Ez.
      * injection Ez as _ ->. rewrite Forall_forall in V. apply white_not_slash. apply V. apply in_app_iff. right. now left.
    + (* the line feed is in [g'], so a slash is in [v] *)
      rewrite C in Eg.
      assert (In "/"%byte v).
      { clear - Eg N. revert g0 Eg. induction g' as [|y g' IH]; intros g0 Eg.
        - destruct g0 as [|y g0].
          + discriminate Eg.
          + simpl in Eg. injection Eg as _ ->. exfalso. apply N. apply in_app_iff. right. now left.
        - destruct g0 as [|z g0].
          + simpl in Eg. injection Eg as _ <-. apply in_app_iff. right. now left.
          + simpl in Eg. injection Eg as _ Eg. eapply IH; eauto. }
      rewrite Forall_forall in V. now apply white_not_slash, V.
Qed.

Lemma asi_newline alnum src lx lx' g u : lexer_reach alnum src lx -> consume alnum lx = Done lx' ->
  substring src (pos (lx_cur lx)) (pos (lx_tok lx')) = g ++ x0a :: u -> Forall white u ->
  lx_token lx' <> T_Semicolon -> lx_asi lx' = ImplicitSemicolon.
Proof.
  intros R H E U T. assert (I := lexer_reach_inv _ _ _ R).
  destruct (consume_inv _ _ _ _ I H) as (I' & F & _).
  destruct (consume_asi _ _ _ (li_ok _ _ I) H) as (g1 & ws & A & W & C & ->).
  rewrite <- (slice_on src (lx_cur lx) (lx_tok lx')) in E; auto.
  - rewrite (adv_slice _ _ _ A) in E. unfold asi_ws. rewrite (newline_before_token _ _ _ _ E U C W).
    destruct (lx_token lx'); try reflexivity. congruence.
  - rewrite <- (li_buf _ _ I). apply I.
  - assert (L1 := lex_inv_tok_pos _ _ I'). assert (L2 := lex_inv_pos _ _ I'). lia.
Qed.
Lemma asi_no_newline alnum src lx lx' : lexer_reach alnum src lx -> consume alnum lx = Done lx' ->
  ~ In x0a (substring src (pos (lx_cur lx)) (pos (lx_tok lx'))) ->
  ~ In (lx_token lx') [T_Semicolon; T_ParenClose; T_BraceClose; T_EndOfProgram] -> lx_asi lx' = NoSemicolon.
Proof.
  intros R H E T. assert (I := lexer_reach_inv _ _ _ R).
  destruct (consume_inv _ _ _ _ I H) as (I' & F & _).
  destruct (consume_asi _ _ _ (li_ok _ _ I) H) as (g1 & ws & A & W & C & ->).
  rewrite <- (slice_on src (lx_cur lx) (lx_tok lx')) in E; auto.
  - rewrite (adv_slice _ _ _ A) in E. unfold asi_ws. destruct (newline_in ws) eqn:Z.
    + apply existsb_exists in Z as (z & Iz & Ez). apply byte_eqb_eq in Ez. subst z. exfalso. apply E, in_app_iff. auto.
    + destruct (lx_token lx'); try reflexivity; exfalso; apply T; simpl; tauto.
  - rewrite <- (li_buf _ _ I). apply I.
  - assert (L1 := lex_inv_tok_pos _ _ I'). assert (L2 := lex_inv_pos _ _ I'). lia.
Qed.

Lemma asi_closing alnum src lx lx' : lexer_reach alnum src lx -> consume alnum lx = Done lx' ->
  In (lx_token lx') [T_ParenClose; T_BraceClose; T_EndOfProgram] -> lx_asi lx' = ImplicitSemicolon.
Proof.
  intros R H T. assert (I := lexer_reach_inv _ _ _ R).
  destruct (consume_asi _ _ _ (li_ok _ _ I) H) as (g1 & ws & A & W & C & ->).
  destruct T as [<-|[<-|[<-|[]]]]; reflexivity.
Qed.
Lemma asi_semicolon alnum src lx lx' : lexer_reach alnum src lx -> consume alnum lx = Done lx' ->
  lx_asi lx' = ExplicitSemicolon <-> lx_token lx' = T_Semicolon.
Proof.
  intros R H. assert (I := lexer_reach_inv _ _ _ R).
  destruct (consume_asi _ _ _ (li_ok _ _ I) H) as (g1 & ws & A & W & C & ->).
  unfold asi_ws. destruct (newline_in ws), (lx_token lx'); split; intros E; try discriminate E; reflexivity.
Qed.

(** ** Counterexamples *)
Lemma progress_refuted src : src = [xe2; x86; x92] -> forall alnum : N -> bool, alnum 8594%N = false ->
  exists lx lx', lexer_reach alnum src lx /\ consume alnum lx = Done lx' /\
    lx_token lx' <> T_EndOfProgram /\ pos (lx_cur lx') = pos (lx_cur lx) /\ lx' = lx.
Proof.
  intros -> alnum A.
  pose (lx := Lexer [xe2; x86; x92; x00] T_UnexpectedToken NoSemicolon (Cur 0 [xe2; x86; x92; x00])
                (Cur 0 [xe2; x86; x92; x00]) (Cur 0 [xe2; x86; x92; x00]) []).
  assert (H : consume alnum lx = Done lx) by (vm_compute; rewrite A; reflexivity).
  exists lx, lx. split; [|split; [exact H|split; [discriminate|auto]]].
  apply lr_new. exact H.
Qed.
Lemma asi_refuted (alnum : N -> bool) : exists lx lx',
  lexer_reach alnum (bs "a
/*c*/b") lx /\ consume alnum lx = Done lx' /\
  In x0a (substring (bs "a
/*c*/b") (pos (lx_cur lx)) (pos (lx_tok lx'))) /\
  lx_asi lx' = NoSemicolon.
Proof.
  eexists _, _. split; [apply lr_new; vm_compute; reflexivity|].
  split; [vm_compute; reflexivity|]. split; [vm_compute; auto|reflexivity].
Qed.
Lemma asi_rejected (alnum : N -> bool) : exists es, parses_to alnum (bs "a
/*c*/b") (ParseErr es).
Proof. eexists. exists 100. vm_compute. reflexivity. Qed.
