(** Every program of the grammar is accepted: the lexer. *)
From Coq Require Import List NArith Bool Lia Arith String.
From Coq.Strings Require Import Byte.
From Verif Require Import Bytes Token Tables Lexer Ast Prog Parser ProgFacts Structure SpecChunks SpecTokens LexEval TokenText ChunkText NodeText StateFacts LexerFacts ConsumeFacts LexProps CompLex Valid GramRun SpecSyntax SpecReading Comp CompA CompRun.
Import ListNotations.
Open Scope nat_scope.
Open Scope list_scope.

Section Stream.
  Variable alnum : N -> bool.
  Variable src : str.
  (** The tokens from [lx] on. *)
  Inductive streams : lexer -> list tok -> Prop :=
  | sm_end lx : streams lx [Plain (view_of lx)]
  | sm_next lx lx1 s : consume alnum lx = Done lx1 -> streams lx1 s -> streams lx (Plain (view_of lx) :: s)
  | sm_regex lx v lx1 s : read_regular_expression lx = Done (v, lx1) -> v = v_text (view_of lx1) -> streams lx1 (Plain (view_of lx1) :: s) -> streams lx (Regex (view_of lx) (view_of lx1) :: s)
  | sm_piece lx lx1 s : read_template_kind lx = Done lx1 -> streams lx1 (Plain (view_of lx1) :: s) -> streams lx (Piece (view_of lx) (view_of lx1) :: s).
  Lemma streams_view lx t s : streams lx (t :: s) -> tv t = view_of lx.
  Proof. intros H. inversion H; reflexivity. Qed.
  Notation run := (run alnum body).
  Lemma X_run A (p : P A) s a s' : X p s a s' -> s' <> [] -> forall st, streams (p_lexer st) s ->
    exists n st', run n p st = Done (a, st') /\ streams (p_lexer st') s' /\ p_errors st' = p_errors st.
  Proof.
    induction 1 as [A a s|A k t s a s' H IH|A k v s a s' H IH|A k v w s a s' H IH|A k v w s a s' H IH|A R f k s r s1 a s' H1 IH1 H2 IH2]; intros N st St.
    - exists 0, st. rewrite run_Ret. auto.
    - destruct (IH N st St) as (n & st' & E & Y). exists n, st'. split; [|exact Y]. rewrite run_Look, <- (streams_view _ _ _ St). exact E.
    - destruct s as [|t0 s0]; [apply X_length in H; destruct s'; [contradiction|cbn in H; lia]|].
      inversion St as [|lx lx1 s2 C St1 E1 E2| |]; subst.
      destruct (IH N (PState lx1 (p_errors st)) St1) as (n & st' & E & Y). exists n, st'. split; [|exact Y]. rewrite run_Consume. unfold op_consume. rewrite C. exact E.
    - inversion St as [| | |lx lx1 s2 C St1 E1 E2]; subst.
      destruct (IH N (PState lx1 (p_errors st)) St1) as (n & st' & E & Y). exists n, st'. split; [|exact Y]. rewrite run_Template. unfold op_template. rewrite C. exact E.
    - inversion St as [| |lx v0 lx1 s2 C Ev St1 E1 E2|]; subst.
      destruct (IH N (PState lx1 (p_errors st)) St1) as (n & st' & E & Y). exists n, st'. split; [|exact Y]. rewrite run_Regex. unfold op_regex. rewrite C. exact E.
    - assert (N1 : s1 <> []) by (intros ->; apply X_length in H2; destruct s'; [contradiction|cbn in H2; lia]).
      destruct (IH1 N1 st St) as (n1 & st1 & E1 & St1 & Er1). destruct (IH2 N st1 St1) as (n2 & st2 & E2 & St2 & Er2).
      exists (S (max n1 n2)), st2. rewrite run_CallS.
      rewrite (run_more _ alnum body n1 (max n1 n2) _ (body R f) st (Done (r, st1)) (Nat.le_max_l _ _) E1 ltac:(discriminate)). cbn [obind].
      rewrite (run_more _ alnum body n2 (S (max n1 n2)) _ (k r) st1 (Done (a, st2)) ltac:(lia) E2 ltac:(discriminate)). split; [reflexivity|]. split; [exact St2|congruence].
  Qed.
  (** What holds of a lexer after [consume]. *)
  Definition fresh_inv (lx : lexer) : Prop := tinv src (bs "`") lx /\ (lx_asi lx = ExplicitSemicolon <-> lx_token lx = T_Semicolon) /\ lx_token lx <> T_LiteralRegEx.
  Lemma fresh_consume d lx lx1 : tinv src d lx -> consume alnum lx = Done lx1 -> fresh_inv lx1.
  Proof.
    intros T C. assert (O := li_ok _ _ (l_inv _ _ (t_inv _ _ _ T))). split; [exact (tinv_consume alnum src d _ _ T C)|]. split; [exact (consume_semicolon _ _ _ O C)|exact (consume_regex _ _ _ O C)].
  Qed.
  Lemma current_lexeme lx : current lx = lexeme_of (view_of lx).
  Proof. reflexivity. Qed.
  Lemma chunk_piece d lx : tinv src d lx -> is_template (lx_token lx) = true -> piece d (view_of lx).
  Proof.
    intros T E. assert (C := t_chunk _ _ _ T). unfold piece. cbn [view_of v_text v_quasi v_token]. destruct (lx_token lx); try discriminate E; (destruct C as [_ C]; [auto|exact C]).
  Qed.
  Lemma reading_streams lx ls : reading alnum lx ls -> fresh_inv lx -> exists s, streams lx s /\ feeds s ls.
  Proof.
    induction 1 as [lx E|lx lx1 ls C H IH|lx v lx1 lx2 ls E R E1 C H IH|lx lx1 lx2 ls E R E1 C H IH]; intros I.
    - exists [Plain (view_of lx)]. split; [constructor|]. constructor; [|constructor]. rewrite current_lexeme. destruct I as (T & A & B). apply sp_plain; [exact A|exact B|exact (chunk_piece _ _ T)].
    - destruct I as (T & A & B). destruct (IH (fresh_consume _ _ _ T C)) as (s & S1 & F). exists (Plain (view_of lx) :: s). split; [exact (sm_next _ _ _ C S1)|]. constructor; [|exact F]. rewrite current_lexeme. apply sp_plain; [exact A|exact B|exact (chunk_piece _ _ T)].
    - destruct I as (T & A & B). assert (T1 := tinv_regex src _ _ _ T R). destruct (IH (fresh_consume _ _ _ T1 C)) as (s & S1 & F). exists (Regex (view_of lx) (view_of lx1) :: s). split.
      + apply (sm_regex _ v lx1 s R); [|exact (sm_next _ _ _ C S1)]. exact (regex_value src _ _ _ (t_inv _ _ _ T) E R E1).
      + constructor; [|exact F]. rewrite current_lexeme. apply sp_regex; [exact E|exact E1| |].
        * unfold breaks. cbn [view_of v_asi]. now rewrite (regex_asi _ _ _ R).
        * cbn [view_of v_asi]. intros X. apply A in X. congruence.
    - destruct I as (T & A & B). assert (T1 := tinv_template src _ _ T (token_is _ _ E) R). destruct (IH (fresh_consume _ _ _ T1 C)) as (s & S1 & F). exists (Piece (view_of lx) (view_of lx1) :: s).
      assert (E2 : is_template (lx_token lx1) = true) by (destruct E1 as [<-|[<-|[]]]; reflexivity). split.
      + apply (sm_piece _ lx1 s R). exact (sm_next _ _ _ C S1).
      + constructor; [|exact F]. rewrite current_lexeme. apply sp_piece; [exact E|exact E2|exact (chunk_piece _ _ T1 E2)|].
        unfold breaks. cbn [view_of v_asi]. now rewrite (template_asi _ _ R).
  Qed.
  Lemma program_accepted lx ls m : lexer_new alnum src = Done lx -> reading alnum lx ls -> program ls m -> exists m', parses_to alnum src (ParseOk m') /\ same_tree m m'.
  Proof.
    intros E R Pg. destruct Pg as [w l m H]. apply statements_accepted in H.
    assert (I : fresh_inv lx).
    { assert (T : tinv src (bs "`") lx).
      { apply chunk_tinv; [split; [exact (proj1 (consume_inv _ _ _ _ (init_inv src) E))|exact (consume_text _ _ _ (li_ok _ _ (init_inv src)) E)]|exact (consume_chunk _ _ _ (li_ok _ _ (init_inv src)) E)]. }
      assert (O := li_ok _ _ (init_inv src)). split; [exact T|]. split; [exact (consume_semicolon _ _ _ O E)|exact (consume_regex _ _ _ O E)]. }
    destruct (reading_streams _ _ R I) as (s & S1 & F). apply Forall2_app_inv_r in F as (s1 & s2 & F1 & F2 & ->). inversion F2 as [|tk x s3 l3 Sp F3]; subst. inversion F3; subst.
    destruct (H s1 tk [] F1 Sp) as (m' & Q & _ & X1 & _); [unfold okn; cbn; intuition discriminate|]. specialize (X1 eq_refl).
    assert (N : [tk] <> []) by discriminate. destruct (X_run _ _ _ _ _ X1 N (PState lx []) S1) as (n & st' & E1 & _ & E2). cbn [p_errors] in E2.
    exists m'. split.
    - exists n. unfold parse_fuel. rewrite E. cbn [obind]. rewrite E1. cbn [obind]. rewrite E2. reflexivity.
    - unfold same_tree, strip_module. symmetry. exact Q.
  Qed.
End Stream.
