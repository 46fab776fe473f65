(** Lemmas behind PropErrors.v: the errors of [parse]. *)
From Coq Require Import List NArith Bool Lia Arith Sorted.
From Coq.Strings Require Import Byte.
From Verif Require Import Bytes Token Lexer SpecLexer SpecRead LexerFacts ConsumeFacts Prog ProgFacts Parser StateFacts LexProps.
Import ListNotations.
Open Scope nat_scope.

(** The state in which [parse] ends. *)
Lemma parse_state alnum src r : parses_to alnum src r ->
  exists n lx m s, lexer_new alnum src = Done lx /\
    run alnum body n (body _ F_parse) (PState lx []) = Done (m, s) /\
    r = match p_errors s with [] => ParseOk m | errs => ParseErr errs end.
Proof.
  intros [n H]. unfold parse_fuel in H. odone H. odone H1. destruct a0 as [m s]. oinv. eauto 8.
Qed.
Lemma parse_inv alnum src r : parses_to alnum src r ->
  exists m s, st_inv src s /\ r = match p_errors s with [] => ParseOk m | errs => ParseErr errs end.
Proof.
  intros H. apply parse_state in H as (n & lx & m & s & H1 & H2 & ->). exists m, s. split; auto.
  apply (run_st_rel _ src) in H2. apply H2. split; simpl; [|constructor].
  apply (consume_inv _ src) in H1; [|apply init_inv]. tauto.
Qed.
Lemma parse_errors alnum src es : parses_to alnum src (ParseErr es) ->
  es <> [] /\ exists p, errors_before src p es.
Proof.
  intros H. apply parse_inv in H as (m & s & [_ E] & H). destruct (p_errors s) as [|e l] eqn:Z; [discriminate|].
  injection H as ->. split; [discriminate|eauto].
Qed.

Lemma errors_before_ok src p es : errors_before src p es -> Forall (error_ok src) es.
Proof. induction 1; [constructor|]. apply Forall_app. split; auto. Qed.
Lemma errors_in_source alnum src es : parses_to alnum src (ParseErr es) ->
  es <> [] /\ Forall (fun e => err_start e <= err_end e <= List.length src /\
                              err_raw e = substring src (err_start e) (err_end e)) es.
Proof. intros H. apply parse_errors in H as [N [p H]]. split; auto. exact (errors_before_ok _ _ _ H). Qed.

Lemma errors_before_bound src p es e : errors_before src p es -> In e es -> err_end e <= p.
Proof.
  induction 1 as [p|p es e0 H IH O L]; [intros []|]. intros I. apply in_app_iff in I as [I|[<-|[]]]; auto.
  apply IH in I. destruct O. lia.
Qed.
Lemma StronglySorted_snoc {A} (R : A -> A -> Prop) l x : StronglySorted R l -> Forall (fun y => R y x) l ->
  StronglySorted R (l ++ [x]).
Proof.
  induction 1 as [|a l S IH F]; simpl; intros H; [repeat constructor|].
  inversion H; subst. constructor; auto. apply Forall_app. split; auto.
Qed.
Lemma errors_ordered alnum src es : parses_to alnum src (ParseErr es) ->
  StronglySorted (fun e e' => err_end e <= err_start e') es.
Proof.
  intros H. apply parse_errors in H as [_ [p H]]. induction H as [p|p es e H IH O L]; [constructor|].
  apply StronglySorted_snoc; auto. apply Forall_forall. intros e0 I. eapply errors_before_bound; eauto.
Qed.

Lemma errors_total src p es : errors_before src p es ->
  list_sum (map (fun e => List.length (err_raw e)) es) <= Nat.min p (List.length src).
Proof.
  induction 1 as [p|p es e H IH O L]; simpl; [lia|].
  rewrite map_app, list_sum_app. simpl. destruct O as [O1 O2]. rewrite O2.
  rewrite firstn_length, skipn_length. lia.
Qed.
Lemma errors_disjoint_total alnum src es : parses_to alnum src (ParseErr es) ->
  list_sum (map (fun e => List.length (err_raw e)) es) <= List.length src.
Proof. intros H. apply parse_errors in H as [_ [p H]]. apply errors_total in H. lia. Qed.

(** ** Errors without text *)
Definition spans (lx : lexer) : Prop :=
  pos (lx_tok lx) < pos (lx_cur lx) \/ lx_token lx = T_EndOfProgram \/ lx_token lx = T_UnexpectedToken.
Definition err_spans (e : error) : Prop :=
  err_start e < err_end e \/ err_token e = T_EndOfProgram \/ err_token e = T_UnexpectedToken.
Lemma token_end_spans alnum lx : token_end alnum lx -> spans lx.
Proof. intros []; unfold spans; auto. Qed.
Lemma scan_template_moves r : forall p k e c, scan_template p r = Done (k, e, c) -> p < pos c.
Proof.
  induction r as [r IH] using length_ind. intros p k e c H.
  destruct r as [|b r]; [discriminate|]. simpl in H.
  destruct (byte_eqb b "`"); [oinv; simpl; lia|].
  destruct (byte_eqb b "$").
  { destruct r as [|b1 r1]; [discriminate|]. destruct (byte_eqb b1 "{"); [oinv; simpl; lia|].
    apply IH in H; simpl; lia. }
  destruct (byte_eqb b "\").
  { destruct r as [|b1 r1]; [discriminate|]. destruct (byte_eqb b1 x00); [oinv; simpl; lia|].
    apply IH in H; simpl; lia. }
  apply IH in H; simpl; lia.
Qed.
Lemma scan_regex_moves r : forall ic p k c, scan_regex ic p r = Done (k, c) -> p < pos c.
Proof.
  induction r as [r IH] using length_ind. intros ic p k c H.
  destruct r as [|b r]; [discriminate|]. simpl in H.
  destruct (byte_eqb b "["); [apply IH in H; simpl; lia|].
  destruct (byte_eqb b "]"); [apply IH in H; simpl; lia|].
  destruct (byte_eqb b "/"); [destruct ic; [apply IH in H; simpl; lia|oinv; simpl; lia]|].
  destruct (byte_eqb b "\").
  { destruct r as [|b1 r1]; [discriminate|]. destruct (byte_eqb b1 x00); [oinv; simpl; lia|].
    apply IH in H; simpl; lia. }
  destruct (byte_eqb b x0a); [oinv; simpl; lia|].
  apply IH in H; simpl; lia.
Qed.
Lemma template_moves lx lx' : read_template_kind lx = Done lx' -> pos (lx_cur lx) < pos (lx_cur lx').
Proof.
  unfold read_template_kind. intros H. odone H. destruct a as [[k e] c]. apply scan_template_moves in H0.
  destruct k; oinv; simpl; auto.
Qed.
Lemma regex_moves lx v lx' : read_regular_expression lx = Done (v, lx') -> pos (lx_cur lx) < pos (lx_cur lx').
Proof.
  unfold read_regular_expression. intros H. odone H. destruct a as [k c]. apply scan_regex_moves in H0.
  destruct k; oinv; simpl; auto.
  unfold skip_while in H. oinv. simpl. apply scan_while_adv, fwd_pos in H1. simpl in *. lia.
Qed.
Definition span_inv (src : str) (s : pstate) : Prop :=
  lex_inv src (p_lexer s) /\ spans (p_lexer s) /\ Forall err_spans (p_errors s).
Lemma run_span alnum src n A (p : prog fn A) s a s' :
  run alnum body n p s = Done (a, s') -> span_inv src s -> span_inv src s'.
Proof.
  apply (run_rel _ _ _ (fun s s' => span_inv src s -> span_inv src s')); auto.
  - unfold op_consume. intros x y H (I & S & E). oinv.
    destruct (consume_inv _ _ _ _ I H0) as (I' & _ & D). split; [|split]; simpl; eauto using token_end_spans.
  - unfold op_template. intros x y H (I & S & E). oinv.
    assert (Z := template_token _ _ H0). assert (M := template_moves _ _ H0).
    apply template_step in H0; [|apply I].
    assert (I' := step_inv _ _ _ I H0 ltac:(intuition congruence)). destruct H0 as [[KB KT KF KA] _].
    split; [|split]; simpl; auto. left. rewrite KT. assert (L := lex_inv_tok_pos _ _ I). lia.
  - unfold op_regex. intros x v y H (I & S & E). oinv.
    assert (Z := regex_token _ _ _ H0). assert (M := regex_moves _ _ _ H0).
    apply regex_step in H0; [|apply I].
    assert (I' := step_inv _ _ _ I H0 Z). destruct H0 as [[KB KT KF KA] _].
    split; [|split]; simpl; auto. left. rewrite KT. assert (L := lex_inv_tok_pos _ _ I). lia.
  - unfold op_error, invalid_token. intros x y H (I & S & E). odone H. destruct a0 as [e lx']. simpl in H1. oinv.
    set (e0 := Error _ _ _ _) in *.
    assert (E0 : err_spans e0) by exact S.
    assert (D : (lx_token (p_lexer x) = T_EndOfProgram /\ e = e0 /\ lx' = p_lexer x) \/
                (e = e0 /\ consume alnum (p_lexer x) = Done lx')).
    { destruct (lx_token (p_lexer x)); oinv; auto. }
    destruct D as [(Et & -> & ->)|[-> Hc]].
    + split; [auto|split; auto]. simpl. apply Forall_app. auto.
    + destruct (consume_inv _ _ _ _ I Hc) as (I' & _ & D).
      split; [auto|split]; simpl; eauto using token_end_spans. apply Forall_app. auto.
Qed.
Lemma empty_errors alnum src es : parses_to alnum src (ParseErr es) ->
  Forall (fun e => err_raw e <> [] \/ err_token e = T_EndOfProgram \/ err_token e = T_UnexpectedToken) es.
Proof.
  intros H. assert (X := errors_in_source _ _ _ H). destruct X as [_ X].
  apply parse_state in H as (n & lx & m & s & H1 & H2 & H3).
  assert (E : es = p_errors s) by (destruct (p_errors s); congruence).
  apply (run_span _ src) in H2.
  - destruct H2 as (_ & _ & F). rewrite <- E in F. apply Forall_forall. intros e I.
    rewrite Forall_forall in F, X. destruct (F e I) as [L|L]; auto. left.
    destruct (X e I) as [B ->]. intros Z. apply (f_equal (@List.length _)) in Z. unfold substring in Z.
    rewrite firstn_length, skipn_length in Z. simpl in Z. lia.
  - apply (consume_inv _ src) in H1; [|apply init_inv]. destruct H1 as (I & _ & D).
    split; [auto|split]; simpl; eauto using token_end_spans.
Qed.
