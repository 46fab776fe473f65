(** Runs of the parser and the grammar with line breaks: what is accepted is a program. *)
From Coq Require Import List NArith Bool Lia String.
From Coq.Strings Require Import Byte.
From Verif Require Import Bytes Token Tables Lexer Ast Prog Parser ProgFacts Structure LexEval TokenText ChunkText NodeText StateFacts LexerFacts ConsumeFacts LexProps SpecChunks SpecRead Erase Valid CompLex CompStream GramRun.
From Verif Require Import Grammar SpecSyntax SpecReading Sound SoundA SoundB SoundC SoundD.
Import ListNotations.
Open Scope nat_scope.
Open Scope list_scope.

Section Run.
  Variable alnum : N -> bool.
  Variable src : str.
  Notation run := (run alnum body).
  (** From one lexer to another through [ls]. *)
  Inductive eats : lexer -> list lexeme -> lexer -> Prop :=
  | ea_nil lx : eats lx [] lx
  | ea_next lx lx1 ls lx' : consume alnum lx = Done lx1 -> eats lx1 ls lx' -> eats lx (current lx :: ls) lx'
  | ea_regex lx v lx1 lx2 ls lx' : lx_token lx = T_OperatorDivision -> read_regular_expression lx = Done (v, lx1) -> lx_token lx1 = T_LiteralRegEx ->
      consume alnum lx1 = Done lx2 -> eats lx2 ls lx' -> eats lx (current lx1 :: ls) lx'
  | ea_piece lx lx1 lx2 ls lx' : lx_token lx = T_BraceClose -> read_template_kind lx = Done lx1 -> In (lx_token lx1) [T_TemplateOpen; T_TemplateClosed] ->
      consume alnum lx1 = Done lx2 -> eats lx2 ls lx' -> eats lx (current lx1 :: ls) lx'.
  Lemma eats_join lx l1 lx1 : eats lx l1 lx1 -> forall l2 lx2, eats lx1 l2 lx2 -> eats lx (l1 ++ l2) lx2.
  Proof. induction 1; intros l2 lz E2; cbn [app]; [exact E2|eapply ea_next; eauto|eapply ea_regex; eauto|eapply ea_piece; eauto]. Qed.
  Lemma eats_reading lx l lx1 : eats lx l lx1 -> lx_token lx1 = T_EndOfProgram -> reading alnum lx (l ++ [current lx1]).
  Proof. induction 1; intros E2; cbn [app]; [now apply rd_end|eapply rd_next; eauto|eapply rd_regex; eauto|eapply rd_piece; eauto]. Qed.
  (** Where the lexer the parser stands at comes from. *)
  Definition origin (pd : bool) (lx0 lx : lexer) : Prop :=
    fresh_inv src lx0 /\
    if pd then (lx_token lx0 = T_OperatorDivision /\ (exists v, read_regular_expression lx0 = Done (v, lx)) /\ is_template (lx_token lx) = false /\ tinv src (bs "`") lx) \/
               (lx_token lx0 = T_BraceClose /\ read_template_kind lx0 = Done lx /\ lx_token lx <> T_LiteralRegEx /\ tinv src (bs "}") lx)
    else lx0 = lx.
  Lemma template_kinds lx lx1 : read_template_kind lx = Done lx1 -> lx_token lx1 <> T_LiteralRegEx.
  Proof. intros H. unfold read_template_kind in H. ob H as [[k e] c] H1 H2. destruct k; injection H2 as <-; discriminate. Qed.
  Lemma regex_kinds lx v lx1 : read_regular_expression lx = Done (v, lx1) -> is_template (lx_token lx1) = false.
  Proof. intros H. unfold read_regular_expression in H. ob H as [k c] H1 H2. destruct k; [ob H2 as lx2 H3 H4; injection H4 as <- <-|injection H2 as <- <-..]; reflexivity. Qed.
  Lemma fresh_view lx : fresh_inv src lx -> inv false (view_of lx).
  Proof. intros (T & A & B). split; [exact A|]. split; [exact B|]. exact (chunk_piece src _ _ T). Qed.
  Lemma origin_consume pd lx0 lx lx1 : origin pd lx0 lx -> (pd = true -> lx_token lx = T_LiteralRegEx \/ is_template (lx_token lx) = true) -> consume alnum lx = Done lx1 ->
    fresh_inv src lx1 /\ forall ls lx', eats lx1 ls lx' -> eats lx0 (current lx :: ls) lx'.
  Proof.
    intros [F O] Hp C. destruct pd.
    - specialize (Hp eq_refl). destruct O as [(E & (v & R) & N & T)|(E & R & N & T)].
      + destruct Hp as [Hp|Hp]; [|congruence]. split; [exact (fresh_consume alnum src _ _ _ T C)|]. intros ls lx' H. eapply ea_regex; eauto.
      + destruct Hp as [Hp|Hp]; [congruence|]. split; [exact (fresh_consume alnum src _ _ _ T C)|]. intros ls lx' H. eapply ea_piece; eauto. destruct (lx_token lx); try discriminate Hp; cbn; auto.
    - subst lx0. split; [exact (fresh_consume alnum src _ _ _ (proj1 F) C)|]. intros ls lx' H. eapply ea_next; eauto.
  Qed.
  Lemma errors_none n A (p : P A) s a s1 : run n p s = Done (a, s1) -> p_errors s1 = [] -> p_errors s = [].
  Proof. intros H E. destruct (errors_grow fn alnum body n A p s a s1 H) as (l & X). rewrite E in X. symmetry in X. apply app_eq_nil in X. tauto. Qed.
  Lemma syn_run n : forall A Q pd acc v (p : P A), D Q pd acc v p -> forall s a s1 lx0, v = view_of (p_lexer s) -> run n p s = Done (a, s1) -> p_errors s1 = [] -> origin pd lx0 (p_lexer s) ->
    exists ls, Q a (acc ++ ls) (view_of (p_lexer s1)) /\ fresh_inv src (p_lexer s1) /\ eats lx0 ls (p_lexer s1).
  Proof.
    induction n as [|n IHn]; intros A Q pd acc v p Dp;
    induction Dp as [acc v a0 Hi HQ|pd acc v k Vk IH|acc v k Vk IH|acc v k Hg Vk IH|acc v k Hg Vk IH|acc v k Hg Vk IH|pd acc v k|pd acc v|acc v R f k Hp Hi Vk IH]; intros s a s1 lx0 -> T E O.
    all: rewrite ?run_Ret, ?run_Look, ?run_Consume, ?run_Template, ?run_Regex, ?run_Error, ?run_Abort, ?run_Call0, ?run_CallS in T; try discriminate T.
    all: try (injection T as <- <-; destruct O as [O1 O2]; cbn in O2; subst lx0; exists []; rewrite app_nil_r; split; [exact HQ|]; split; [exact O1|constructor]).
    all: try (eapply IH; eauto; fail).
    all: try (ob T as s2 T1 T2; unfold op_consume in T1; ob T1 as lx1 T5 T6; injection T6 as <-;
      destruct (origin_consume _ _ _ _ O (fun e : false = true => False_ind _ (diff_false_true e)) T5) as [F1 E1];
      destruct (IH (view_of lx1) (fresh_view _ F1) (PState lx1 (p_errors s)) a s1 lx1 eq_refl T2 E (conj F1 eq_refl)) as (ls & Y1 & Y2 & Y3); exists (current (p_lexer s) :: ls);
      rewrite <- app_assoc in Y1; split; [exact Y1|]; split; [exact Y2|]; exact (E1 _ _ Y3)).
    all: try (ob T as s2 T1 T2; unfold op_consume in T1; ob T1 as lx1 T5 T6; injection T6 as <-;
      destruct (origin_consume _ _ _ _ O (fun _ => Hg) T5) as [F1 E1];
      destruct (IH (view_of lx1) (fresh_view _ F1) (PState lx1 (p_errors s)) a s1 lx1 eq_refl T2 E (conj F1 eq_refl)) as (ls & Y1 & Y2 & Y3); exists (current (p_lexer s) :: ls);
      rewrite <- app_assoc in Y1; split; [exact Y1|]; split; [exact Y2|]; exact (E1 _ _ Y3)).
    all: try (ob T as s2 T1 T2; unfold op_template in T1; ob T1 as lx1 T5 T6; injection T6 as <-; cbn in Hg;
      destruct O as [O1 O2]; cbn in O2; subst lx0; assert (Tv := tinv_template src _ _ (proj1 O1) (token_is _ _ Hg) T5);
      exact (IH (view_of lx1) (chunk_piece src _ _ Tv) (template_kinds _ _ T5) (PState lx1 (p_errors s)) a s1 (p_lexer s) eq_refl T2 E
        (conj O1 (or_intror (conj Hg (conj T5 (conj (template_kinds _ _ T5) Tv))))))).
    all: try (ob T as [w s2] T1 T2; unfold op_regex in T1; ob T1 as [w1 lx1] T5 T6; injection T6 as <- <-; cbn in Hg;
      destruct O as [O1 O2]; cbn in O2; subst lx0; assert (Tv := tinv_regex src _ _ _ (proj1 O1) T5); assert (Kd := regex_kinds _ _ _ T5);
      refine (IH w1 (view_of lx1) _ _ Kd _ (PState lx1 (p_errors s)) a s1 (p_lexer s) eq_refl T2 E (conj O1 (or_introl (conj Hg (conj (ex_intro _ w1 T5) (conj Kd Tv))))));
      [intros X; change (is_template (lx_token lx1) = true) in X; congruence|unfold breaks; cbn [view_of v_asi]; now rewrite (regex_asi _ _ _ T5)|intros Er; exact (regex_value src _ _ _ (t_inv _ _ _ (proj1 O1)) Hg T5 Er)]).
    all: try (exfalso; ob T as s2 T1 T2; apply (errors_none _ _ _ _ _ _ T2) in E; unfold op_error in T1; ob T1 as [e lx1] T5 T6; injection T6 as <-; cbn in E; apply app_eq_nil in E as [_ E]; discriminate E).
    ob T as [r s2] T1 T2. assert (E2 := errors_none _ _ _ _ _ _ T2 E).
    destruct (IHn _ _ _ _ _ _ (body_syntax R f _ Hi Hp) s _ _ _ eq_refl T1 E2 O) as (ls1 & X1 & X2 & X3).
    destruct (IH r ls1 (view_of (p_lexer s2)) (fresh_view _ X2) X1 s2 _ _ (p_lexer s2) eq_refl T2 E (conj X2 eq_refl)) as (ls2 & Y1 & Y2 & Y3). exists (ls1 ++ ls2). rewrite app_assoc. split; [exact Y1|]. split; [exact Y2|].
    exact (eats_join _ _ _ X3 _ _ Y3).
  Qed.
  Lemma accepted_reading lx m : lexer_new alnum src = Done lx -> parses_to alnum src (ParseOk m) -> exists ls, reading alnum lx ls /\ program ls m.
  Proof.
    intros El [n H]. unfold parse_fuel in H. rewrite El in H. cbn [obind] in H. ob H as [m1 s] T Er. destruct (p_errors s) as [|e es] eqn:Es; [|discriminate Er]. injection Er as <-.
    assert (I : fresh_inv src lx).
    { assert (O := li_ok _ _ (init_inv src)). split; [|split; [exact (consume_semicolon _ _ _ O El)|exact (consume_regex _ _ _ O El)]].
      apply chunk_tinv; [split; [exact (proj1 (consume_inv _ _ _ _ (init_inv src) El))|exact (consume_text _ _ _ O El)]|exact (consume_chunk _ _ _ O El)]. }
    destruct (syn_run n _ _ _ _ _ _ (body_syntax _ F_parse (view_of lx) (fresh_view _ I) Logic.I) (PState lx []) _ _ lx eq_refl T Es (conj I eq_refl)) as (ls & (X1 & X2 & _) & X3 & X4).
    cbn [app] in X1. exists (ls ++ [current (p_lexer s)]). split; [exact (eats_reading _ _ _ X4 X2)|].
    assert (Ec : current (p_lexer s) = (T_EndOfProgram, snd (current (p_lexer s)))) by (unfold current; cbn [snd]; unfold on in X2; cbn in X2; now rewrite X2).
    specialize (X1 _ (leads_self _)). change (lexeme_of (view_of (p_lexer s))) with (current (p_lexer s)) in X1. rewrite Ec in *. now apply pg_program.
  Qed.
End Run.
