(** Runs of the parser and the grammar. *)
From Coq Require Import List NArith Bool Lia String.
From Coq.Strings Require Import Byte.
From Verif Require Import Bytes Token Tables Lexer Ast Prog Parser ProgFacts Structure LexEval TokenText ChunkText NodeText StateFacts LexerFacts ConsumeFacts LexProps SpecChunks SpecRead SpecTrace SpecGrammar SpecLexemes Erase TraceFacts Valid Grammar GramC.
Import ListNotations.
Open Scope nat_scope.
Open Scope list_scope.

Lemma regex_value src lx v lx' : Structure.linv src lx -> lx_token lx = T_OperatorDivision ->
  read_regular_expression lx = Done (v, lx') -> lx_token lx' = T_LiteralRegEx -> v = token_as_str lx'.
Proof.
  intros L Et H Er. assert (L' := linv_regex src _ _ _ L H). destruct L as [I T], L' as [I' T'].
  assert (St := regex_step _ _ _ (li_ok _ _ I) H). destruct St as [[KB KT KF KA] _].
  assert (Tx := tx_div _ T Et). rewrite (token_text _ _ I'), KT.
  unfold read_regular_expression in H. ob H as [k c] Hk Hr. destruct k.
  2,3: injection Hr as <- <-; discriminate Er.
  ob Hr as lx2 Hs Hv. injection Hv as <- <-.
  cbn [set_token lx_buf lx_cur] in *.
  unfold token_as_str, slice in Tx. apply (f_equal (@List.length _)) in Tx. rewrite firstn_length in Tx. cbn [List.length] in Tx.
  assert (F := fwd_pos _ _ (li_fwd _ _ I)). assert (F' := fwd_pos _ _ KF).
  assert (A' := lex_inv_pos _ _ I'). cbn [set_token lx_cur] in A'.
  destruct (li_fwd _ _ I) as [s [F1 F2]]. assert (List.length s = 1).
  { rewrite F1, app_length in Tx. lia. }
  replace (pos (lx_cur lx) - 1) with (pos (lx_tok lx)) by lia.
  rewrite KB, (li_buf _ _ I). rewrite skipn_app, firstn_app.
  replace (pos (lx_cur lx2) - pos (lx_tok lx) - List.length (skipn (pos (lx_tok lx)) src)) with 0 by (rewrite skipn_length; lia).
  cbn [firstn]. now rewrite app_nil_r.
Qed.

Section Run.
  Variable alnum : N -> bool.
  Variable src : str.
  Notation trun := (trun alnum body).
  Inductive eats : spot -> list spot -> list lexeme -> Prop :=
  | ea_nil x : eats x [] []
  | ea_next x y l a ls : spells src x a -> ~ read_again x y -> eats y l ls -> eats x (y :: l) (a :: ls)
  | ea_again x y l ls : read_again x y -> eats y l ls -> eats x (y :: l) ls.
  Lemma eats_join l1 : forall x l2 a1 a2, eats x l1 a1 -> eats (last l1 x) l2 a2 -> eats x (l1 ++ l2) (a1 ++ a2).
  Proof.
    induction l1 as [|y l1 IH]; intros x l2 a1 a2 H1 H2; inversion H1; subst; [exact H2| |].
    - cbn [app]. apply ea_next; auto. apply IH; auto. now rewrite last_cons in H2.
    - cbn [app]. apply ea_again; auto. apply IH; auto. now rewrite last_cons in H2.
  Qed.
  Lemma eats_lexemes l : forall x ls a, eats x l ls -> spells src (last l x) a -> lexemes src (x :: l) (ls ++ [a]).
  Proof.
    induction l as [|y l IH]; intros x ls a H S1; inversion H; subst; [now apply ls_last| |]; rewrite last_cons in S1.
    - cbn [app]. apply ls_next; auto.
    - apply ls_again; auto.
  Qed.
  Definition sinv (lx : lexer) : Prop := exists d, (d = bs "`" \/ d = bs "}") /\ tinv src d lx.
  Definition ginv (s : pstate) : Prop := sinv (p_lexer s) /\ vinv (view_of (p_lexer s)).
  Lemma sinv_linv lx : sinv lx -> Structure.linv src lx.
  Proof. intros (d & _ & H). exact (t_inv _ _ _ H). Qed.
  Lemma sinv_spells lx : sinv lx -> spells src (spot_of lx) (lexeme_of (view_of lx)).
  Proof.
    intros (d & Hd & H). assert (I := l_inv _ _ (t_inv _ _ _ H)). assert (T := token_text _ _ I).
    unfold spells, spot_of, s_token, s_start, s_end, lexeme_of, substring. cbn [fst snd view_of v_token v_text v_accessor v_quasi]. split; [reflexivity|]. rewrite <- T.
    assert (A := t_acc _ _ _ H). assert (C := t_chunk _ _ _ H). destruct (lx_token lx) eqn:E; try reflexivity; auto; exists d; auto.
  Qed.
  Lemma sinv_other d lx : sinv lx -> lx_token lx = T_BraceClose \/ lx_token lx = T_OperatorDivision -> tinv src d lx.
  Proof. intros (d' & _ & H) E. constructor; try apply H. intros [X|X]; destruct E; congruence. Qed.
  Lemma again_apart lx lx1 : sinv lx -> consume alnum lx = Done lx1 -> ~ read_again (spot_of lx) (spot_of lx1).
  Proof.
    intros L C [E T]. unfold s_start, s_token, spot_of in *. cbn [fst snd] in *. assert (I := l_inv _ _ (sinv_linv _ L)).
    destruct (consume_gap _ _ _ _ I C) as [G _]. assert (X := token_text _ _ I).
    assert (N : token_as_str lx <> []) by (destruct T as [T|T]; [rewrite (tx_div _ (l_text _ _ (sinv_linv _ L)) T)|rewrite (t_brace _ _ _ (sinv_other (bs "`") _ L (or_introl T)) T)]; discriminate).
    assert (Z : pos (lx_cur lx) - pos (lx_tok lx) = 0) by lia. rewrite Z in X. now rewrite X in N.
  Qed.
  Lemma ginv_consume s lx1 es : ginv s -> consume alnum (p_lexer s) = Done lx1 -> ginv (PState lx1 es).
  Proof.
    intros [(d & Hd & H) V] C. split.
    - exists (bs "`"). split; [now left|]. exact (tinv_consume alnum src d _ _ H C).
    - exact (proj2 (inv_consume _ _ _ (li_ok _ _ (l_inv _ _ (t_inv _ _ _ H))) C)).
  Qed.
  Lemma ginv_template s lx1 es : ginv s -> lx_token (p_lexer s) = T_BraceClose -> read_template_kind (p_lexer s) = Done lx1 -> ginv (PState lx1 es) /\ read_again (spot_of (p_lexer s)) (spot_of lx1).
  Proof.
    intros [H V] T C. assert (O := li_ok _ _ (l_inv _ _ (sinv_linv _ H))). split; [split|].
    - exists (bs "}"). split; [now right|]. refine (tinv_template src _ _ (sinv_other (bs "`") _ H (or_introl T)) _ C). now apply token_is.
    - exact (proj2 (inv_template _ _ O V T C)).
    - destruct (template_step _ _ O C) as [[KB KT KF KA] _]. unfold read_again, spot_of, s_start, s_token. cbn [fst snd]. rewrite KT, T. auto.
  Qed.
  Lemma ginv_regex s v lx1 es : ginv s -> lx_token (p_lexer s) = T_OperatorDivision -> read_regular_expression (p_lexer s) = Done (v, lx1) ->
    ginv (PState lx1 es) /\ read_again (spot_of (p_lexer s)) (spot_of lx1) /\ (v_token (view_of lx1) = T_LiteralRegEx -> v = v_text (view_of lx1)).
  Proof.
    intros [H V] T C. assert (O := li_ok _ _ (l_inv _ _ (sinv_linv _ H))). split; [split|split].
    - exists (bs "`"). split; [now left|]. exact (tinv_regex src _ _ _ (sinv_other (bs "`") _ H (or_intror T)) C).
    - exact (proj2 (inv_regex _ _ _ O V T C)).
    - destruct (regex_step _ _ _ O C) as [[KB KT KF KA] _]. unfold read_again, spot_of, s_start, s_token. cbn [fst snd]. rewrite KT, T. auto.
    - intros E. exact (regex_value src _ _ _ (sinv_linv _ H) T C E).
  Qed.
  Lemma gram_run n : forall A Q acc v (p : P A), D Q acc v p -> forall s a s1 l, v = view_of (p_lexer s) -> trun n p s = Done (a, s1, l) -> p_errors s1 = [] -> ginv s ->
    exists ls, Q a (acc ++ ls) (view_of (p_lexer s1)) /\ ginv s1 /\ eats (spot_of (p_lexer s)) l ls.
  Proof.
    induction n as [|n IHn]; intros A Q acc v p Dp;
    induction Dp as [acc v a0 HQ|acc v k Vk IH|acc v k Vk IH|acc v k Hg Vk IH|acc v k Hg Vk IH|acc v k|acc v|acc v R f k Hp Vk IH]; intros s a s1 l -> T E I.
    all: rewrite ?trun_Ret, ?trun_Look, ?trun_Consume, ?trun_Template, ?trun_Regex, ?trun_Error, ?trun_Abort, ?trun_Call0, ?trun_CallS in T; try discriminate T.
    all: try (injection T as <- <- <-; exists []; rewrite app_nil_r; split; [exact HQ|]; split; [exact I|constructor]).
    all: try (eapply IH; eauto; fail).
    all: try (ob T as s2 T1 T2; ob T2 as [[b s3] l2] T3 T4; injection T4 as <- <- <-; unfold op_consume in T1; ob T1 as lx1 T5 T6; injection T6 as <-;
      assert (I1 := ginv_consume _ _ (p_errors s) I T5);
      destruct (IH (view_of lx1) (proj2 I1) (PState lx1 (p_errors s)) _ _ _ eq_refl T3 E I1) as (ls & Y1 & Y2 & Y3); exists (lexeme_of (view_of (p_lexer s)) :: ls);
      rewrite <- app_assoc in Y1; split; [exact Y1|]; split; [exact Y2|]; apply ea_next; [exact (sinv_spells _ (proj1 I))|exact (again_apart _ _ (proj1 I) T5)|exact Y3]).
    all: try (ob T as s2 T1 T2; ob T2 as [[b s3] l2] T3 T4; injection T4 as <- <- <-; unfold op_template in T1; ob T1 as lx1 T5 T6; injection T6 as <-; cbn in Hg;
      destruct (ginv_template _ _ (p_errors s) I Hg T5) as [I1 Ra];
      destruct (IH (view_of lx1) (proj2 I1) (PState lx1 (p_errors s)) _ _ _ eq_refl T3 E I1) as (ls & Y1 & Y2 & Y3); exists ls; split; [exact Y1|]; split; [exact Y2|]; now apply ea_again).
    all: try (ob T as [w s2] T1 T2; ob T2 as [[b s3] l2] T3 T4; injection T4 as <- <- <-; unfold op_regex in T1; ob T1 as [w1 lx1] T5 T6; injection T6 as <- <-; cbn in Hg;
      destruct (ginv_regex _ _ _ (p_errors s) I Hg T5) as (I1 & Ra & Rv);
      destruct (IH w1 (view_of lx1) (proj2 I1) Rv (PState lx1 (p_errors s)) _ _ _ eq_refl T3 E I1) as (ls & Y1 & Y2 & Y3); exists ls; split; [exact Y1|]; split; [exact Y2|]; now apply ea_again).
    all: try (exfalso; ob T as s2 T1 T2; ob T2 as [[b s3] l2] T3 T4; injection T4 as <- <- <-; apply (errors_none _ _ _ _ _ _ _ _ T3) in E; unfold op_error in T1; ob T1 as [e lx1] T5 T6; injection T6 as <-; cbn in E; apply app_eq_nil in E as [_ E]; discriminate E).
    ob T as [[r s2] l1] T1 T2. ob T2 as [[b s3] l2] T3 T4. injection T4 as <- <- <-. assert (E2 := errors_none _ _ _ _ _ _ _ _ T3 E).
    destruct (IHn _ _ _ _ _ (body_grammar R f _ (proj2 I) Hp) s _ _ _ eq_refl T1 E2 I) as (ls1 & X1 & X2 & X3).
    destruct (IH r ls1 (view_of (p_lexer s2)) (proj2 X2) X1 s2 _ _ _ eq_refl T3 E X2) as (ls2 & Y1 & Y2 & Y3). exists (ls1 ++ ls2). rewrite app_assoc. split; [exact Y1|]. split; [exact Y2|].
    eapply eats_join; [exact X3|]. rewrite (trun_last _ _ _ _ _ _ _ _ T1). exact Y3.
  Qed.
  Lemma accepted_program m l : parse_tokens alnum src (ParseOk m) l -> exists ls, lexemes src l ls /\ program ls m.
  Proof.
    intros (n & lx & m1 & s & l1 & E & T & Er & ->). destruct (p_errors s) as [|e es] eqn:Es; [|discriminate Er]. injection Er as <-.
    assert (I : ginv (PState lx [])).
    { split.
      - exists (bs "`"). split; [now left|]. apply chunk_tinv; [split; [exact (proj1 (consume_inv _ _ _ _ (init_inv src) E))|exact (consume_text _ _ _ (li_ok _ _ (init_inv src)) E)]|exact (consume_chunk _ _ _ (li_ok _ _ (init_inv src)) E)].
      - exact (proj2 (inv_consume _ _ _ (li_ok _ _ (init_inv src)) E)). }
    destruct (gram_run n _ _ _ _ _ (body_grammar _ F_parse (view_of lx) (proj2 I) Logic.I) (PState lx []) _ _ _ eq_refl T Es I) as (ls & (X1 & X2) & X3 & X4).
    cbn [app] in X1. exists (ls ++ [(T_EndOfProgram, v_text (view_of (p_lexer s)))]). split; [|now apply pg_program].
    assert (L := trun_last _ _ _ _ _ _ _ _ T). cbn [p_lexer] in *. apply eats_lexemes; [exact X4|]. rewrite L. unfold on in X2. assert (Z := sinv_spells _ (proj1 X3)). now rewrite (lexeme_on _ _ X2) in Z.
  Qed.
End Run.
