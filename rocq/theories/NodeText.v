(** The source text spanned by the names and literals of error-free parses. *)
From Coq Require Import List NArith Bool Lia Arith String.
From Coq.Strings Require Import Byte.
From Verif Require Import Bytes Token Tables Lexer SpecLexer SpecRead SpecChunks LexerFacts ConsumeFacts LexEval TokenText LexProps ChunkText
  Ast SpecTree SpecPos Prog ProgFacts Parser StateFacts ErrorFacts Structure.
Import ListNotations.
Open Scope nat_scope.

Section Pass.
  Variable alnum : N -> bool.
  Variable src : str.
  Hypothesis short : (N.of_nat (List.length src) < 4294967296)%N.

  Definition node_txt (a : any) : Prop :=
    (forall s, spelled a = Some s -> source_of src a = s) /\
    (forall i, In (A_Ident i) (children a) -> ~ names_elsewhere a -> source_of src (A_Ident i) = n_item i) /\
    (forall es qs, template_of a = Some (Template es qs) -> chunks src (bs "`") qs) /\
    (forall n o p, a = A_Expr n -> n_item n = E_Member o p -> after_accessor src (n_item p) (n_start p)) /\
    (forall n o p, a = A_Expr n -> n_item n = E_MetaProperty o p -> accessor (n_item p) (source_of src (A_Ident p))).
  Definition ordinary (a : any) : bool :=
    match a with
    | A_Tpl _ => false
    | A_Expr n => match n_item n with E_Member _ _ | E_MetaProperty _ _ | E_Template _ => false | _ => true end
    | _ => true
    end.
  Definition Txt (a : any) : Prop := forall b, within b a -> node_txt b.
  Definition good (a : any) : Prop :=
    Txt a /\ match a with A_Ident i => source_of src a = n_item i | _ => True end.
  Definition goods (l : list any) : Prop := Forall good l.

  Lemma Txt_node a : Txt a -> node_txt a.
  Proof. intros H. apply H. constructor. Qed.
  Lemma Txt_children a : Txt a -> Forall Txt (children a).
  Proof. intros H. apply Forall_forall. intros c I b W. apply H. econstructor; eauto. Qed.
  Lemma Txt_build a : node_txt a -> Forall Txt (children a) -> Txt a.
  Proof.
    intros H K b W. inversion W as [x|x y c I W']; subst; auto.
    rewrite Forall_forall in K. exact (K _ I _ W').
  Qed.
  Lemma Txt_intro a : ordinary a = true -> match spelled a with Some s => source_of src a = s | None => True end ->
    goods (children a) -> Txt a.
  Proof.
    intros R H K. unfold goods in K. rewrite Forall_forall in K. apply Txt_build.
    - split; [intros s E; now rewrite E in H|]. split; [intros i Hi _; apply (K _ Hi)|].
      split; [|split].
      + intros es qs E. destruct a; try discriminate E; try discriminate R. cbn in R, E. destruct (n_item n); discriminate.
      + intros n o p -> E. cbn in R. now rewrite E in R.
      + intros n o p -> E. cbn in R. now rewrite E in R.
    - apply Forall_forall. intros c Hi. apply (K _ Hi).
  Qed.
  Lemma Txt_ident i : Txt (A_Ident i).
  Proof.
    apply Txt_build; [|constructor]. split; [discriminate|]. split; [intros ? []|]. split; [discriminate|]. split; discriminate.
  Qed.
  Lemma good_txt l : goods l -> Forall Txt l.
  Proof. intros H. eapply Forall_impl; [|exact H]. intros a [A _]. exact A. Qed.
  Lemma txt_good {A} (f : A -> any) l : (forall x i, f x <> A_Ident i) -> Forall Txt (map f l) -> goods (map f l).
  Proof.
    intros N H. unfold goods. rewrite Forall_forall in *. intros a Hi. split; [auto|].
    apply in_map_iff in Hi as (x & <- & _). destruct (f x) eqn:E; auto. destruct (N _ _ E).
  Qed.
  Lemma Txt_template a es qs : template_of a = Some (Template es qs) -> spelled a = None ->
    children a = map A_Expr es ++ map A_Ident qs -> chunks src (bs "`") qs -> goods (map A_Expr es) -> Txt a.
  Proof.
    intros T S C Q G. apply Txt_build.
    - split; [congruence|]. split; [|split; [|split]].
      + intros i _ N. destruct N. right. congruence.
      + intros es' qs' E. congruence.
      + intros n o p -> E. cbn in T. now rewrite E in T.
      + intros n o p -> E. cbn in T. now rewrite E in T.
    - rewrite C. apply Forall_app. split; [now apply good_txt|].
      apply Forall_map, Forall_forall. intros i _. apply Txt_ident.
  Qed.
  Lemma Txt_tpl s e es qs : chunks src (bs "`") qs -> goods (map A_Expr es) -> Txt (A_Tpl (Node s e (Template es qs))).
  Proof. intros Q G. eapply Txt_template; eauto; reflexivity. Qed.
  Lemma Txt_template_expr s e es qs : chunks src (bs "`") qs -> goods (map A_Expr es) -> Txt (A_Expr (Node s e (E_Template (Template es qs)))).
  Proof. intros Q G. eapply Txt_template; eauto; reflexivity. Qed.
  Lemma Txt_tpl_expr s e (t : node template) : Txt (A_Tpl t) -> Txt (A_Expr (Node s e (E_Template (n_item t)))).
  Proof.
    intros H. assert (C := Txt_children _ H). apply Txt_node in H as (_ & _ & H & _).
    destruct t as [ts te [es qs]]. cbn [n_item] in *. specialize (H es qs eq_refl).
    apply Txt_template_expr; auto. cbn in C. apply Forall_app in C as [C _]. apply txt_good; [discriminate|exact C].
  Qed.
  Lemma Txt_member s e o p : after_accessor src (n_item p) (n_start p) -> good (A_Expr o) -> Txt (A_Expr (Node s e (E_Member o p))).
  Proof.
    intros A [H _]. apply Txt_build.
    - split; [discriminate|]. split; [|split; [discriminate|split]].
      + intros i _ N. destruct N. left. eexists. split; [reflexivity|]. left. do 2 eexists. reflexivity.
      + intros n o' p' E Ei. injection E as <-. injection Ei as <- <-. exact A.
      + intros n o' p' E Ei. injection E as <-. discriminate.
    - cbn. constructor; [exact H|]. constructor; [apply Txt_ident|constructor].
  Qed.
  Lemma Txt_meta s e o p : accessor (n_item p) (source_of src (A_Ident p)) -> Txt (A_Expr (Node s e (E_MetaProperty o p))).
  Proof.
    intros A. apply Txt_build.
    - split; [discriminate|]. split; [|split; [discriminate|split]].
      + intros i _ N. destruct N. left. eexists. split; [reflexivity|]. right. do 2 eexists. reflexivity.
      + intros n o' p' E Ei. injection E as <-. discriminate.
      + intros n o' p' E Ei. injection E as <-. injection Ei as <- <-. exact A.
    - cbn. constructor; [apply Txt_ident|]. constructor; [apply Txt_ident|constructor].
  Qed.
  Lemma good_operands n op l r : Txt (A_Expr n) -> n_item n = E_Binary op l r -> good (A_Expr l) /\ good (A_Expr r).
  Proof.
    intros H E. apply Txt_children in H. cbn in H. rewrite E in H. cbn in H.
    inversion H as [|x1 l1 C1 C']; subst. inversion C' as [|x2 l2 C2 _]; subst. split; split; auto.
  Qed.
  Lemma good_elements n es : Txt (A_Expr n) -> n_item n = E_Sequence es -> goods (map A_Expr es).
  Proof.
    intros H E. apply Txt_children in H. cbn in H. rewrite E in H. apply txt_good; auto. discriminate.
  Qed.

  (** ** The lexer *)
  Lemma small n : n <= List.length src -> N.to_nat (u32 n) = n.
  Proof. intros H. unfold u32. rewrite N.mod_small; lia. Qed.
  Lemma token_source lx : Structure.linv src lx -> substring src (N.to_nat (lx_start lx)) (N.to_nat (lx_end lx)) = token_as_str lx.
  Proof.
    intros [I _]. assert (A := lex_inv_pos _ _ I). assert (B := lex_inv_tok_pos _ _ I).
    unfold lx_start, lx_end. rewrite !small by lia. symmetry. now apply token_text.
  Qed.
  Lemma regex_source lx v lx' : Structure.linv src lx -> lx_token lx = T_OperatorDivision ->
    read_regular_expression lx = Done (v, lx') -> lx_token lx' = T_LiteralRegEx ->
    substring src (N.to_nat (lx_start lx)) (N.to_nat (lx_end lx')) = v.
  Proof.
    intros L Et H Er. assert (L' := linv_regex src _ _ _ L H). destruct L as [I T], L' as [I' T'].
    assert (St := regex_step _ _ _ (li_ok _ _ I) H). destruct St as [[KB KT KF KA] _].
    assert (Tx := tx_div _ T Et).
    unfold read_regular_expression in H. ob H as [k c] Hk Hr. destruct k.
    2,3: injection Hr as <- <-; discriminate Er.
    ob Hr as lx2 Hs Hv. injection Hv as <- <-.
    cbn [set_token lx_buf lx_cur] in *. 
    unfold token_as_str, slice in Tx. apply (f_equal (@List.length _)) in Tx. rewrite firstn_length in Tx. cbn [List.length] in Tx.
    assert (F := fwd_pos _ _ (li_fwd _ _ I)). assert (F' := fwd_pos _ _ KF).
    assert (A' := lex_inv_pos _ _ I'). cbn [set_token lx_cur] in A'.
    destruct (li_fwd _ _ I) as [s [F1 F2]]. assert (List.length s = 1).
    { rewrite F1, app_length in Tx. lia. }
    unfold lx_start, lx_end. cbn [set_token lx_cur]. rewrite !small by lia.
    unfold substring. replace (pos (lx_cur lx) - 1) with (pos (lx_tok lx)) by lia.
    rewrite KB, (li_buf _ _ I). rewrite skipn_app, firstn_app.
    replace (pos (lx_cur lx2) - pos (lx_tok lx) - List.length (skipn (pos (lx_tok lx)) src)) with 0 by (rewrite skipn_length; lia).
    simpl. now rewrite app_nil_r.
  Qed.

  (** Template chunks begin with [d]. *)
  Record tinv (d : str) (lx : lexer) : Prop := TInv {
    t_inv : Structure.linv src lx;
    t_chunk : lx_token lx = T_TemplateOpen \/ lx_token lx = T_TemplateClosed ->
      chunk (lx_token lx) d (lx_quasi lx) (token_as_str lx);
    t_brace : lx_token lx = T_BraceClose -> token_as_str lx = bs "}";
    t_acc : lx_token lx = T_Accessor -> accessor (accessor_as_str lx) (token_as_str lx)
  }.
  Notation linv := (tinv (bs "`")).
  Notation linvb := (tinv (bs "}")).
  Lemma chunk_tinv lx : Structure.linv src lx -> chunk_ok lx -> linv lx.
  Proof. intros L [C1 C2 C3 C4]. constructor; auto. intros [E|E]; rewrite E; auto. Qed.
  Lemma tinv_consume d lx lx' : tinv d lx -> consume alnum lx = Done lx' -> linv lx'.
  Proof.
    intros L H. apply chunk_tinv; [exact (Structure.linv_consume alnum src _ _ (t_inv _ _ L) H)|].
    apply (consume_chunk alnum lx); auto. apply L.
  Qed.
  Lemma tinv_template lx lx' : linv lx -> is T_BraceClose (view_of lx) = true -> read_template_kind lx = Done lx' -> linvb lx'.
  Proof.
    intros L E H. apply is_true in E. assert (L' := Structure.linv_template src _ _ (t_inv _ _ L) H).
    assert (T := template_token _ _ H). apply template_chunk in H; [|apply L].
    rewrite (t_brace _ _ L E) in H. constructor; auto.
    - intros [E'|E']; destruct H as [H|H]; auto; congruence.
    - intros E'. intuition congruence.
    - intros E'. intuition congruence.
  Qed.
  Lemma tinv_regex lx v lx' : linv lx -> read_regular_expression lx = Done (v, lx') -> linv lx'.
  Proof.
    intros L H. apply chunk_tinv; [exact (Structure.linv_regex src _ _ _ (t_inv _ _ L) H)|].
    apply chunk_other. clear - H. unfold read_regular_expression in H. odone H. destruct a as [[| |] c]; oinv; reflexivity.
  Qed.
  Lemma chunk_source d t lx : tinv d lx -> is t (view_of lx) = true -> t = T_TemplateOpen \/ t = T_TemplateClosed ->
    chunk_of src t d (in_loc (view_of lx) (v_quasi (view_of lx))).
  Proof.
    intros L E Ht. apply is_true in E. unfold chunk_of, source_of. cbn [start_of end_of any_span fst snd in_loc n_start n_end n_item v_start v_end view_of v_quasi].
    rewrite (token_source lx (t_inv _ _ L)). rewrite <- E. apply (t_chunk _ _ L). rewrite E. exact Ht.
  Qed.
  Lemma member_source lx lx' : linv lx -> lx_token lx = T_Accessor -> consume alnum lx = Done lx' ->
    after_accessor src (v_accessor (view_of lx)) (v_start (view_of lx')).
  Proof.
    intros L E H. assert (L' := tinv_consume _ _ _ L H). destruct (consume_gap alnum src lx lx' (l_inv _ _ (t_inv _ _ L)) H) as [P G].
    assert (Q := lex_inv_pos _ _ (l_inv _ _ (t_inv _ _ L'))). assert (Q' := lex_inv_tok_pos _ _ (l_inv _ _ (t_inv _ _ L'))).
    assert (R := lex_inv_tok_pos _ _ (l_inv _ _ (t_inv _ _ L))).
    cbn [v_start v_accessor view_of]. unfold after_accessor, lx_start. rewrite small by lia.
    exists (pos (lx_tok lx)), (pos (lx_cur lx)). split; [lia|]. split; [|exact G].
    assert (A := t_acc _ _ L E). rewrite <- (token_source lx (t_inv _ _ L)) in A.
    unfold lx_start, lx_end in A. rewrite !small in A by lia. exact A.
  Qed.
  Lemma meta_source lx : linv lx -> is T_Accessor (view_of lx) = true ->
    accessor (v_accessor (view_of lx)) (source_of src (A_Ident (in_loc (view_of lx) (v_accessor (view_of lx))))).
  Proof.
    intros L E. apply is_true in E. unfold source_of. cbn [start_of end_of any_span fst snd in_loc n_start n_end n_item v_start v_end view_of v_accessor].
    rewrite (token_source lx (t_inv _ _ L)). now apply (t_acc _ _ L).
  Qed.
  Lemma token_is t lx : lx_token lx = t -> is t (view_of lx) = true.
  Proof. intros <-. unfold is. cbn [view_of v_token]. now destruct (lx_token lx). Qed.
  (** The tokens at which templates and accessors begin. *)
  Definition opens_with (h : expr_handler) (t : token) : Prop :=
    match h with X_TPLS => t = T_TemplateClosed | X_TPLE => t = T_TemplateOpen | _ => True end.
  Lemma bound_opens c v : opens_with (bound_handler c v) (v_token v).
  Proof. unfold bound_handler. destruct (v_token v), c; try exact I; reflexivity. Qed.
  Definition stmt_opens (h : stmt_handler) (t : token) : Prop :=
    match h with S_TPLS => t = T_TemplateClosed | S_TPLE => t = T_TemplateOpen | _ => True end.
  Lemma statement_opens v : stmt_opens (statement_handler v) (v_token v).
  Proof. unfold statement_handler. destruct (v_token v); try exact I; reflexivity. Qed.
  Definition nested_opens (h : nested_handler) (t : token) : Prop :=
    match h with N_TPLS => t = T_TemplateClosed | N_TPLE => t = T_TemplateOpen | N_ACCS => t = T_Accessor | _ => True end.
  Definition nested_opensb (h : nested_handler) (t : token) : bool :=
    match h with N_TPLS => token_eqb t T_TemplateClosed | N_TPLE => token_eqb t T_TemplateOpen | N_ACCS => token_eqb t T_Accessor | _ => true end.
  Lemma lut_opens b t h : nth (token_index t) (LUT b) None = Some h -> nested_opens h t.
  Proof.
    assert (G : forallb (fun t => match nth (token_index t) (LUT b) None with Some h => nested_opensb h t | None => true end)
      all_tokens = true) by (destruct b; vm_compute; reflexivity).
    rewrite forallb_forall in G. specialize (G t (in_all_tokens t)). intros H. rewrite H in G.
    destruct h; try exact I; now apply token_eqb_eq.
  Qed.
  Lemma handler_opens b v h : handler b v = Some h -> nested_opens h (v_token v).
  Proof.
    unfold handler. destruct (v_asi v); try apply lut_opens.
    destruct (is T_OperatorIncrement v || is T_OperatorDecrement v)%bool; [discriminate|apply lut_opens].
  Qed.

  Definition item_any {T : Set} (i : item T) : node T -> any :=
    match i with I_Statement => A_Stmt | I_Member => A_Member | I_Case => A_Case end.
  Definition block_any {T : Set} (i : item T) : node (block T) -> any :=
    match i with I_Statement => A_Body | I_Member => A_ClassBody | I_Case => A_Cases end.

  Definition post (R : Set) (f : fn R) (lx : lexer) : R -> lexer -> Prop :=
    match f in fn R return R -> lexer -> Prop with
    | F_parse => fun m _ => goods (map A_Stmt m)
    | F_block i => fun b _ => good (block_any i b)
    | F_unchecked_block i => fun b _ => good (block_any i b)
    | F_raw_block i => fun b _ => goods (map (item_any i) (b_body b))
    | F_items i => fun l _ => goods (map (item_any i) l)
    | F_item i => fun x _ => good (item_any i x)
    | F_pattern_from_expression e => fun p _ => good (A_Expr e) -> good (A_Pat p)
    | F_params_from_expressions es => fun ps _ => goods (map A_Expr es) -> goods (map A_Pat ps)
    | F_nested _ l0 => fun r _ => good (A_Expr l0) -> good (A_Expr r)
    | F_nested_handler h l0 => fun r _ => nested_opens h (lx_token lx) -> good (A_Expr l0) -> good (A_Expr r)
    | F_sequence => fun es _ => goods (map A_Expr es)
    | F_expr_handler h => fun r _ => handler_token h (lx_token lx) -> opens_with h (lx_token lx) -> good (A_Expr r)
    | F_expression _ _ => fun r _ => good (A_Expr r)
    | F_arrow ps => fun e _ => goods (map A_Expr ps) -> forall s t, good (A_Expr (Node s t e))
    | F_call_arguments | F_call_arguments_rest => fun es _ => goods (map A_Expr es)
    | F_paren => fun r _ => good (A_Expr r)
    | F_prefix _ => fun e _ => forall s t, good (A_Expr (Node s t e))
    | F_object => fun r _ => good (A_Expr r)
    | F_meta_property _ => fun e _ => lx_token lx = T_Accessor -> forall s t, good (A_Expr (Node s t e))
    | F_property_list | F_property_list_rest => fun ps _ => goods (map A_Prop ps)
    | F_property => fun p _ => good (A_Prop p)
    | F_property_value _ key => fun p _ => good (A_Key key) -> good (A_Prop p)
    | F_array => fun r _ => good (A_Expr r)
    | F_array_elements | F_array_elements_rest => fun es _ => goods (map A_Expr es)
    | F_regular_expression => fun r _ => lx_token lx = T_OperatorDivision -> good (A_Expr r)
    | F_template_string => fun t _ => lx_token lx = T_TemplateClosed -> good (A_Tpl t)
    | F_template_literal => fun t _ => lx_token lx = T_TemplateOpen -> good (A_Tpl t)
    | F_template_rest => fun r _ => goods (map A_Expr (snd (fst r))) /\ chunks src (bs "}") (fst (fst r))
    | F_function_expression | F_class_expression => fun r _ => good (A_Expr r)
    | F_name _ => fun n _ => goods (children_name n)
    | F_pattern => fun p _ => good (A_Pat p)
    | F_function _ => fun f _ => goods (children_func f)
    | F_method => fun f _ => good (A_Func f)
    | F_class_member => fun m _ => good (A_Member m)
    | F_class_member_value _ _ _ key => fun m _ => good (A_Key key) -> good (A_Member m)
    | F_class _ => fun c _ => goods (children_class c)
    | F_pattern_array | F_pattern_object => fun p _ => good (A_Pat p)
    | F_pattern_assign l0 => fun p _ => good (A_Pat l0) -> good (A_Pat p)
    | F_pattern_array_element => fun p _ => good (A_Pat p)
    | F_pattern_elements | F_pattern_elements_rest => fun ps _ => goods (map A_Pat ps)
    | F_pattern_param => fun p _ => good (A_Pat p)
    | F_rest_element => fun p _ => good (A_Pat p)
    | F_params | F_params_rest => fun ps _ => goods (map A_Pat ps)
    | F_stmt_handler h => fun r _ => stmt_token h (lx_token lx) -> stmt_opens h (lx_token lx) -> good (A_Stmt r)
    | F_switch_case => fun r _ => good (A_Case r)
    | F_case_body _ => fun r _ => goods (map A_Stmt (fst r))
    | F_statement => fun r _ => good (A_Stmt r)
    | F_expect_semicolon => fun _ _ => True
    | F_block_statement => fun r _ => good (A_Stmt r)
    | F_expression_statement e => fun r _ => good (A_Expr e) -> good (A_Stmt r)
    | F_labeled_or_expression => fun r _ => good (A_Stmt r)
    | F_function_statement | F_class_statement => fun r _ => good (A_Stmt r)
    | F_variable_declaration _ => fun r _ => good (A_Stmt r)
    | F_declarator => fun r _ => good (A_Declarator r)
    | F_declarators => fun r _ => goods (map A_Declarator r)
    | F_return | F_break | F_continue | F_throw | F_try | F_if | F_while | F_do | F_for | F_switch =>
        fun r _ => good (A_Stmt r)
    | F_label => fun r _ => goods (opt A_Ident (fst r))
    | F_catch => fun r _ => good (A_Catch r)
    | F_for_init _ => fun r _ => good (A_ForInit r)
    | F_for_rest _ i => fun r _ => goods (opt A_ForInit i) -> good (A_Stmt r)
    | F_for_in_from_parts _ l e => fun r _ => good (A_ForInit l) -> good (A_Expr e) -> good (A_Stmt r)
    | F_for_in _ l | F_for_of _ l => fun r _ => good (A_ForInit l) -> good (A_Stmt r)
    | F_import => fun r _ => good (A_Stmt r)
    | F_import_rest _ specs _ => fun r _ => goods (map A_Spec specs) -> good (A_Stmt r)
    | F_import_specifiers => fun r _ => goods (map A_Spec r)
    end.
  Definition pre (R : Set) (f : fn R) : lexer -> Prop :=
    match f with F_template_rest => linvb | _ => linv end.
  Definition spec (R : Set) (f : fn R) (lx : lexer) (r : R) (lx' : lexer) : Prop :=
    pre R f lx -> linv lx' /\ post R f lx r lx'.

  Notation wp := (wpe fn alnum spec).

  Lemma wpe_imp {A} (H : Prop) (p : P A) Q lx : (H -> wp p Q lx) -> wp p (fun a lx' => H -> Q a lx') lx.
  Proof.
    revert lx; induction p as [a|k IH|k IH|k IH|k IH|k IH| |R f k IH]; simpl; intros lx G; auto.
  Qed.

  Ltac simp := cbn [wpe bind look consume_ read_template read_regex fail_with error_ call expect
    start_then_consume end_then_consume get_end get_start identifier_ pattern_identifier token_expression
    unquote expression_handler_statement jump_statement postfix_handler assign_handler binary_handler].
  Ltac walk1 :=
    match goal with
    | |- wpe _ _ _ (if ?b then _ else _) _ _ => let E := fresh "E" in destruct b eqn:E
    | |- wpe _ _ _ (bind (if ?b then _ else _) _) _ _ => let E := fresh "E" in destruct b eqn:E
    | |- wpe _ _ _ (match ?o with Some _ => _ | None => _ end) _ _ => let E := fresh "E" in destruct o eqn:E
    | |- wpe _ _ _ (match ?o with NoSemicolon => _ | _ => _ end) _ _ => let E := fresh "E" in destruct o eqn:E
    | |- wpe _ _ _ (bind (bind _ _) _) _ _ => apply wpe_bind
    | L : tinv _ ?lx |- forall lx', consume alnum ?lx = Done lx' -> _ =>
        let lx' := fresh "lx" in let H := fresh "Hc" in let L' := fresh "L" in
        intros lx' H; assert (L' := tinv_consume _ _ _ L H)
    | L : tinv _ ?lx |- forall lx', read_template_kind ?lx = Done lx' -> _ =>
        let lx' := fresh "lx" in let H := fresh "Hc" in let L' := fresh "L" in
        intros lx' H; assert (L' := tinv_template _ _ L ltac:(assumption) H)
    | L : tinv _ ?lx |- forall v lx', read_regular_expression ?lx = Done (v, lx') -> _ =>
        let lx' := fresh "lx" in let H := fresh "Hc" in let L' := fresh "L" in let v := fresh "v" in
        intros v lx' H; assert (L' := tinv_regex _ _ _ L H)
    | L : tinv _ ?lx |- forall r lx', spec _ _ ?lx r lx' -> _ =>
        let lx' := fresh "lx" in let H := fresh "S" in let L' := fresh "L" in let v := fresh "r" in
        let P := fresh "P" in
        intros v lx' H; destruct (H L) as [L' P]; clear H; cbn [post] in P
    | |- True => exact I
    end.
  Ltac walk := simp; repeat (walk1; simp).
  Ltac done := match goal with L : tinv _ ?lx |- tinv _ ?lx /\ _ => split; [exact L|]; cbn [post] end.
  Ltac fin0 := match goal with
    | H : good ?a |- good ?a => exact H
    | H : Txt ?a |- Txt ?a => exact H
    | H : forall s t, good (A_Expr (Node s t ?e)) |- good (A_Expr (Node _ _ ?e)) => apply H
    | |- good _ => split; [|first [exact I | assumption | apply token_source; match goal with L : tinv _ ?lx |- Structure.linv _ ?lx => exact (t_inv _ _ L) end | idtac]]
    | |- Txt (A_Ident _) => apply Txt_ident
    | |- Txt (A_Expr (Node _ _ (E_Member _ _))) => apply Txt_member; [solve [eapply member_source; eauto]|]
    | |- Txt (A_Expr (Node _ _ (E_MetaProperty _ _))) => apply Txt_meta; solve [apply meta_source; auto]
    | |- Txt (A_Tpl (Node _ _ (Template _ _))) => apply Txt_tpl
    | |- Txt (A_Expr (Node _ _ (E_Template (Template _ _)))) => apply Txt_template_expr
    | |- Txt _ => apply Txt_intro; [reflexivity|cbn [spelled n_item]; first [exact I | apply token_source; match goal with L : tinv _ ?lx |- Structure.linv _ ?lx => exact (t_inv _ _ L) end | assumption | idtac]|]
    | E : handler ?b (view_of ?lx) = Some ?h |- nested_opens ?h (lx_token ?lx) => exact (handler_opens _ _ _ E)
    | |- opens_with (bound_handler ?c (view_of ?lx)) (lx_token ?lx) => exact (bound_opens c (view_of lx))
    | |- handler_token (bound_handler ?c (view_of ?lx)) (lx_token ?lx) => apply bound_token
    | |- stmt_opens (statement_handler (view_of ?lx)) (lx_token ?lx) => exact (statement_opens (view_of lx))
    | |- stmt_token (statement_handler (view_of ?lx)) (lx_token ?lx) => apply statement_token
    | H : ?A |- ?A => exact H
    | E : is ?t (view_of ?lx) = true |- lx_token ?lx = ?t => exact (is_true _ _ E)
    | H : lx_token ?lx = ?t |- is ?t (view_of ?lx) = true => exact (token_is _ _ H)
    | H : _ /\ _ |- _ => destruct H
    | |- chunks _ _ [_] => apply ch_last
    | |- chunks _ _ (_ :: _) => apply ch_more
    | |- chunk_of _ _ _ _ => eapply chunk_source; [eassumption|idtac|auto]
    | |- goods _ => unfold goods
    | H : Forall good ?l |- Forall good ?l => exact H
    | |- Forall _ (map _ (_ ++ _)) => rewrite map_app
    | |- Forall _ [] => apply Forall_nil
    | |- Forall _ (_ :: _) => apply Forall_cons
    | |- Forall _ (_ ++ _) => apply Forall_app; split
    | |- _ -> _ => intro
    end.
  Ltac red_all := unfold in_loc, goods in *; cbn [children n_item children_expression children_statement children_func children_class opt
      children_name children_template map app b_body fst snd item_any block_any opens_with nested_opens stmt_opens handler_token stmt_token] in *.
  Ltac core := red_all; repeat (fin0; red_all).
  Ltac isprop A := lazymatch type of A with Prop => idtac end.
  Ltac feed1 := match goal with
    | H : ?A -> _ |- _ => isprop A; let K := fresh "K" in assert (K : A) by (clear H; solve [core]); specialize (H K); clear K
    end.
  Ltac fin := intros; repeat feed1; core.
  Notation "'start' R f lx" := (pre R f lx -> wp (body R f) (fun r lx' => linv lx' /\ post R f lx r lx') lx) (at level 10, R at level 9, f at level 9, lx at level 9).
  Ltac obvious := intros L; cbn [pre] in L; cbn [body];
    cbv delta [body_parse body_raw_block body_items body_item body_block body_unchecked_block body_pattern_from_expression
      body_params_from_expressions body_nested body_nested_handler body_sequence body_expression
      body_arrow body_call_arguments body_call_arguments_rest body_paren body_prefix body_object body_meta_property
      body_property_list body_property_list_rest body_property body_property_value body_array body_array_elements
      body_array_elements_rest body_regular_expression body_template_string body_template_literal body_template_rest
      body_function_expression body_class_expression body_name body_pattern body_function body_method body_class_member
      body_class_member_value body_class body_pattern_array body_pattern_object body_pattern_assign body_pattern_array_element
      body_pattern_elements body_pattern_elements_rest body_pattern_param body_rest_element body_params body_params_rest
      body_switch_case body_case_body body_statement body_expect_semicolon body_block_statement body_expression_statement
      body_labeled_or_expression body_function_statement body_class_statement body_variable_declaration body_declarator
      body_declarators body_return body_break body_continue body_label body_throw body_try body_catch body_if body_while body_do
      body_for_init body_for body_for_rest body_for_in_from_parts body_for_in body_for_of body_switch body_import body_import_rest
      body_import_specifiers]; cbv beta zeta; walk; try done; try solve [fin].

  Lemma ok_parse lx : start _ F_parse lx.
  Proof. obvious. Qed.
  Lemma ok_raw_block T (i : item T) lx : start _ (F_raw_block i) lx.
  Proof. obvious. Qed.
  Lemma ok_items T (i : item T) lx : start _ (F_items i) lx.
  Proof. obvious. Qed.
  Lemma ok_item T (i : item T) lx : start _ (F_item i) lx.
  Proof. destruct i; obvious. Qed.
  Lemma ok_block T (i : item T) lx : start _ (F_block i) lx.
  Proof. destruct i; obvious. Qed.
  Lemma ok_unchecked_block T (i : item T) lx : start _ (F_unchecked_block i) lx.
  Proof. destruct i; obvious. Qed.
  Lemma ok_pattern_from_expression e lx : start _ (F_pattern_from_expression e) lx.
  Proof.
    intros L. cbn [pre] in L. cbn [body]. unfold body_pattern_from_expression. destruct (n_item e) eqn:E; walk.
    - done. intros [G _]. apply Txt_node in G as [G _]. specialize (G s). cbn [spelled] in G. rewrite E in G. specialize (G eq_refl).
      split; [|exact I]. apply Txt_intro; [reflexivity|exact G|constructor].
    - destruct op; walk. done. intros [G _]. destruct (good_operands _ _ _ _ G E). fin.
  Qed.
  Lemma ok_params_from_expressions es lx : start _ (F_params_from_expressions es) lx.
  Proof.
    intros L. cbn [pre] in L. cbn [body]. unfold body_params_from_expressions. destruct es; walk; done; intros G; cbn [map] in *; try solve [fin].
    inversion G; subst. fin.
  Qed.
  Lemma ok_nested b l lx : start _ (F_nested b l) lx.
  Proof. obvious. Qed.
  Lemma ok_nested_handler h l lx : start _ (F_nested_handler h l) lx.
  Proof.
    intros L. cbn [pre] in L. cbn [body]. destruct h; cbn [body_nested_handler]; walk; try done; try solve [fin].
    intros _ G. apply P. destruct (n_item l) eqn:E; try solve [fin]. apply (good_elements l); auto. apply G.
  Qed.
  Lemma ok_sequence lx : start _ F_sequence lx.
  Proof. obvious. Qed.
  Lemma ok_expr_handler h lx : start _ (F_expr_handler h) lx.
  Proof.
    intros L. cbn [pre] in L. cbn [body]. destruct h; cbn [body_expr_handler]; walk; try done; try solve [fin]; try solve [auto].
    intros _ Ho. split; [|exact I]. apply Txt_tpl_expr, P, Ho.
  Qed.
  Lemma ok_expression c b lx : start _ (F_expression c b) lx.
  Proof. obvious. Qed.
  Lemma ok_arrow ps lx : start _ (F_arrow ps) lx.
  Proof. obvious. Qed.
  Lemma ok_call_arguments lx : start _ F_call_arguments lx.
  Proof. obvious. Qed.
  Lemma ok_call_arguments_rest lx : start _ F_call_arguments_rest lx.
  Proof. obvious. Qed.
  Lemma ok_paren lx : start _ F_paren lx.
  Proof. obvious. Qed.
  Lemma ok_prefix op lx : start _ (F_prefix op) lx.
  Proof. obvious. Qed.
  Lemma ok_object lx : start _ F_object lx.
  Proof. obvious. Qed.
  Lemma ok_meta_property m lx : start _ (F_meta_property m) lx.
  Proof. obvious. intros H s t. split; [|exact I]. apply Txt_meta, meta_source; auto. now apply token_is. Qed.
  Lemma ok_property_list lx : start _ F_property_list lx.
  Proof. obvious. Qed.
  Lemma ok_property_list_rest lx : start _ F_property_list_rest lx.
  Proof. obvious. Qed.
  Lemma ok_property lx : start _ F_property lx.
  Proof. obvious. Qed.
  Lemma ok_property_value s k lx : start _ (F_property_value s k) lx.
  Proof. obvious. Qed.
  Lemma ok_array lx : start _ F_array lx.
  Proof. obvious. Qed.
  Lemma ok_array_elements lx : start _ F_array_elements lx.
  Proof. obvious. Qed.
  Lemma ok_array_elements_rest lx : start _ F_array_elements_rest lx.
  Proof. obvious. Qed.
  Lemma ok_regular_expression lx : start _ F_regular_expression lx.
  Proof.
    obvious. intros H. split; [|exact I]. apply Txt_intro; [reflexivity| |constructor]. cbn [spelled n_item].
    apply regex_source; [exact (t_inv _ _ L)|exact H|exact Hc|now apply is_true].
  Qed.
  Lemma ok_template_string lx : start _ F_template_string lx.
  Proof. obvious. Qed.
  Lemma ok_template_literal lx : start _ F_template_literal lx.
  Proof. obvious. destruct r1 as [[qs es] e]. walk. done. fin. Qed.
  Lemma ok_template_rest lx : start _ F_template_rest lx.
  Proof. obvious. - destruct r1 as [[qs es] e]. walk. done. split; fin. - cbn [fst snd]. split; fin. Qed.
  Lemma ok_function_expression lx : start _ F_function_expression lx.
  Proof. obvious. Qed.
  Lemma ok_class_expression lx : start _ F_class_expression lx.
  Proof. obvious. Qed.
  Lemma ok_name k lx : start _ (F_name k) lx.
  Proof. destruct k; obvious. Qed.
  Lemma ok_pattern lx : start _ F_pattern lx.
  Proof. obvious. Qed.
  Lemma ok_function k lx : start _ (F_function k) lx.
  Proof. obvious. Qed.
  Lemma ok_method lx : start _ F_method lx.
  Proof. obvious. Qed.
  Lemma ok_class_member lx : start _ F_class_member lx.
  Proof. obvious. Qed.
  Lemma ok_class_member_value s st k key lx : start _ (F_class_member_value s st k key) lx.
  Proof. obvious. Qed.
  Lemma ok_class k lx : start _ (F_class k) lx.
  Proof. obvious. Qed.
  Lemma ok_pattern_array lx : start _ F_pattern_array lx.
  Proof. obvious. Qed.
  Lemma ok_pattern_object lx : start _ F_pattern_object lx.
  Proof. obvious. Qed.
  Lemma ok_pattern_assign l lx : start _ (F_pattern_assign l) lx.
  Proof. obvious. Qed.
  Lemma ok_pattern_array_element lx : start _ F_pattern_array_element lx.
  Proof. obvious. Qed.
  Lemma ok_pattern_elements lx : start _ F_pattern_elements lx.
  Proof. obvious. Qed.
  Lemma ok_pattern_elements_rest lx : start _ F_pattern_elements_rest lx.
  Proof. obvious. Qed.
  Lemma ok_pattern_param lx : start _ F_pattern_param lx.
  Proof. obvious. Qed.
  Lemma ok_rest_element lx : start _ F_rest_element lx.
  Proof. obvious. Qed.
  Lemma ok_params lx : start _ F_params lx.
  Proof. obvious. Qed.
  Lemma ok_params_rest lx : start _ F_params_rest lx.
  Proof. obvious. Qed.
  Lemma ok_stmt_handler h lx : start _ (F_stmt_handler h) lx.
  Proof. intros L. cbn [pre] in L. cbn [body]. destruct h; cbn [body_stmt_handler]; walk; try done; try solve [fin]; try intros Ha; try solve [auto]. Qed.
  Lemma ok_switch_case lx : start _ F_switch_case lx.
  Proof. obvious; match goal with r : (list _ * _)%type |- _ => destruct r as [ss e'] end; walk; done; fin. Qed.
  Lemma ok_case_body e lx : start _ (F_case_body e) lx.
  Proof. obvious. destruct r1 as [ss e']; walk; done; fin. Qed.
  Lemma ok_statement lx : start _ F_statement lx.
  Proof. obvious. Qed.
  Lemma ok_expect_semicolon lx : start _ F_expect_semicolon lx.
  Proof. obvious; exact I. Qed.
  Lemma ok_block_statement lx : start _ F_block_statement lx.
  Proof. obvious. Qed.
  Lemma ok_expression_statement e lx : start _ (F_expression_statement e) lx.
  Proof. obvious. Qed.
  Lemma ok_labeled_or_expression lx : start _ F_labeled_or_expression lx.
  Proof. obvious. Qed.
  Lemma ok_function_statement lx : start _ F_function_statement lx.
  Proof. obvious. Qed.
  Lemma ok_class_statement lx : start _ F_class_statement lx.
  Proof. obvious. Qed.
  Lemma ok_variable_declaration k lx : start _ (F_variable_declaration k) lx.
  Proof. obvious. Qed.
  Lemma ok_declarator lx : start _ F_declarator lx.
  Proof. obvious. Qed.
  Lemma ok_declarators lx : start _ F_declarators lx.
  Proof. obvious. Qed.
  Lemma ok_return lx : start _ F_return lx.
  Proof. obvious. Qed.
  Lemma ok_break lx : start _ F_break lx.
  Proof. obvious. destruct r0 as [[l|] e]; walk; done; fin. Qed.
  Lemma ok_continue lx : start _ F_continue lx.
  Proof. obvious. destruct r0 as [[l|] e]; walk; done; fin. Qed.
  Lemma ok_label lx : start _ F_label lx.
  Proof. obvious. Qed.
  Lemma ok_throw lx : start _ F_throw lx.
  Proof. obvious. Qed.
  Lemma ok_try lx : start _ F_try lx.
  Proof. obvious. Qed.
  Lemma ok_catch lx : start _ F_catch lx.
  Proof. obvious. Qed.
  Lemma ok_if lx : start _ F_if lx.
  Proof. obvious. Qed.
  Lemma ok_while lx : start _ F_while lx.
  Proof. obvious. Qed.
  Lemma ok_do lx : start _ F_do lx.
  Proof. obvious. Qed.
  Lemma ok_for_init k lx : start _ (F_for_init k) lx.
  Proof. obvious. Qed.
  Lemma ok_for lx : start _ F_for lx.
  Proof.
    obvious.
    assert (G : wp (call (F_for_rest (v_start (view_of lx)) (Some (Node (n_start r0) (n_end r0) (FI_Expression r0)))))
        (fun (r : stmt_node) (lx' : lexer) => linv lx' /\ post stmt_node F_for lx r lx') lx2).
    { walk. done. fin. }
    destruct (n_item r0) eqn:Er; try exact G. destruct op; try exact G. clear G.
    destruct (good_operands _ _ _ _ (proj1 P) Er) as [G1 G2]. walk. done. fin.
  Qed.
  Lemma ok_for_rest s i lx : start _ (F_for_rest s i) lx.
  Proof.
    intros L. cbn [pre] in L. cbn [body]. unfold body_for_rest. destruct i; walk; done; intros G; cbn [opt] in G; try (inversion G as [|x1 l1 C1 C2]; subst; clear G); fin.
  Qed.
  Lemma ok_for_in_from_parts s l e lx : start _ (F_for_in_from_parts s l e) lx.
  Proof. obvious. Qed.
  Lemma ok_for_in s l lx : start _ (F_for_in s l) lx.
  Proof. obvious. Qed.
  Lemma ok_for_of s l lx : start _ (F_for_of s l) lx.
  Proof. obvious. Qed.
  Lemma ok_switch lx : start _ F_switch lx.
  Proof. obvious. Qed.
  Lemma ok_import lx : start _ F_import lx.
  Proof. obvious. unfold unquote. walk. done. fin. Qed.
  Lemma ok_import_rest s sp h lx : start _ (F_import_rest s sp h) lx.
  Proof. obvious; unfold unquote; walk; done; fin. Qed.
  Lemma ok_import_specifiers lx : start _ F_import_specifiers lx.
  Proof. obvious. Qed.
  Theorem spec_ok R (f : fn R) lx : wp (body R f) (spec R f lx) lx.
  Proof.
    apply wpe_imp. intros L. destruct f.
    - apply ok_parse; auto.
    - apply ok_block; auto.
    - apply ok_unchecked_block; auto.
    - apply ok_raw_block; auto.
    - apply ok_items; auto.
    - apply ok_item; auto.
    - apply ok_pattern_from_expression; auto.
    - apply ok_params_from_expressions; auto.
    - apply ok_nested; auto.
    - apply ok_nested_handler; auto.
    - apply ok_sequence; auto.
    - apply ok_expr_handler; auto.
    - apply ok_expression; auto.
    - apply ok_arrow; auto.
    - apply ok_call_arguments; auto.
    - apply ok_call_arguments_rest; auto.
    - apply ok_paren; auto.
    - apply ok_prefix; auto.
    - apply ok_object; auto.
    - apply ok_meta_property; auto.
    - apply ok_property_list; auto.
    - apply ok_property_list_rest; auto.
    - apply ok_property; auto.
    - apply ok_property_value; auto.
    - apply ok_array; auto.
    - apply ok_array_elements; auto.
    - apply ok_array_elements_rest; auto.
    - apply ok_regular_expression; auto.
    - apply ok_template_string; auto.
    - apply ok_template_literal; auto.
    - apply ok_template_rest; auto.
    - apply ok_function_expression; auto.
    - apply ok_class_expression; auto.
    - apply ok_name; auto.
    - apply ok_pattern; auto.
    - apply ok_function; auto.
    - apply ok_method; auto.
    - apply ok_class_member; auto.
    - apply ok_class_member_value; auto.
    - apply ok_class; auto.
    - apply ok_pattern_array; auto.
    - apply ok_pattern_object; auto.
    - apply ok_pattern_assign; auto.
    - apply ok_pattern_array_element; auto.
    - apply ok_pattern_elements; auto.
    - apply ok_pattern_elements_rest; auto.
    - apply ok_pattern_param; auto.
    - apply ok_rest_element; auto.
    - apply ok_params; auto.
    - apply ok_params_rest; auto.
    - apply ok_stmt_handler; auto.
    - apply ok_switch_case; auto.
    - apply ok_case_body; auto.
    - apply ok_statement; auto.
    - apply ok_expect_semicolon; auto.
    - apply ok_block_statement; auto.
    - apply ok_expression_statement; auto.
    - apply ok_labeled_or_expression; auto.
    - apply ok_function_statement; auto.
    - apply ok_class_statement; auto.
    - apply ok_variable_declaration; auto.
    - apply ok_declarator; auto.
    - apply ok_declarators; auto.
    - apply ok_return; auto.
    - apply ok_break; auto.
    - apply ok_continue; auto.
    - apply ok_label; auto.
    - apply ok_throw; auto.
    - apply ok_try; auto.
    - apply ok_catch; auto.
    - apply ok_if; auto.
    - apply ok_while; auto.
    - apply ok_do; auto.
    - apply ok_for_init; auto.
    - apply ok_for; auto.
    - apply ok_for_rest; auto.
    - apply ok_for_in_from_parts; auto.
    - apply ok_for_in; auto.
    - apply ok_for_of; auto.
    - apply ok_switch; auto.
    - apply ok_import; auto.
    - apply ok_import_rest; auto.
    - apply ok_import_specifiers; auto.
  Qed.
End Pass.

(** ** Whole programs *)
Lemma parse_spelled alnum src m a : (N.of_nat (List.length src) < 4294967296)%N ->
  parses_to alnum src (ParseOk m) -> in_module a m -> node_txt src a.
Proof.
  intros Sh H (s0 & Hi & W). apply parse_state in H as (n & lx & m' & s & H1 & H2 & E).
  destruct (p_errors s) eqn:Es; [|discriminate]. injection E as <-.
  assert (L : Structure.linv src lx).
  { split.
    - apply (consume_inv _ src) in H1; [|apply init_inv]. tauto.
    - apply (consume_text alnum (lexer_init (nul_terminated src))); [|exact H1]. apply (li_ok src _ (init_inv src)). }
  assert (G := run_wpe fn alnum body (spec src) (spec_ok alnum src Sh) _ _ _ _ _ _ _ H2 Es (spec_ok alnum src Sh _ F_parse lx)).
  assert (Lc : chunk_ok lx) by (apply (consume_chunk alnum (lexer_init (nul_terminated src))); [apply (li_ok src _ (init_inv src))|exact H1]).
  destruct (G (chunk_tinv src lx L Lc)) as (_ & K). cbn in K. unfold goods in K. rewrite Forall_forall in K.
  destruct (K (A_Stmt s0)) as [A _]; [now apply in_map|]. exact (A _ W).
Qed.
