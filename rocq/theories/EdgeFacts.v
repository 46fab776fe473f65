(** Where the nodes of error-free parses begin and end. *)
From Coq Require Import List NArith Bool Lia Arith String.
From Coq.Strings Require Import Byte.
From Verif Require Import Bytes Token Tables Lexer SpecLexer SpecTokens SpecRead SpecChunks LexerFacts ConsumeFacts LexEval TokenText SpellFacts LexProps
  Ast SpecTree SpecPos SpecEdges Prog ProgFacts Parser StateFacts ErrorFacts Structure.
Import ListNotations.
Open Scope nat_scope.
Open Scope list_scope.

Definition word_of (t : token) : option str := option_map fst (find (fun p => token_eqb (snd p) t) SPELLINGS).
Lemma word_of_in t w : word_of t = Some w -> In (w, t) SPELLINGS.
Proof.
  unfold word_of. destruct (find _ SPELLINGS) as [[x u]|] eqn:E; [|discriminate]. intros H. injection H as <-.
  apply find_some in E as [I E]. apply token_eqb_eq in E. cbn [snd] in E. subst u. exact I.
Qed.

Lemma last_shift {A} (l : list A) a d : List.last (a :: l) d = List.last l a.
Proof. revert a d. induction l as [|b l IH]; intros a d; [reflexivity|]. change (List.last (b :: l) d = List.last (b :: l) a). now rewrite (IH b d), (IH b a). Qed.

Lemma some_pair {A B} (a x : A) (b y : B) : Some (a, b) = Some (x, y) -> a = x /\ b = y.
Proof. intros E. injection E as -> ->. auto. Qed.

Section Pass.
  Variable alnum : N -> bool.
  Variable src : str.
  Hypothesis short : (N.of_nat (List.length src) < 4294967296)%N.

  Definition good (a : any) : Prop := forall b, within b a -> edges src b.
  Definition goods (l : list any) : Prop := Forall good l.
  Lemma good_node a : good a -> edges src a.
  Proof. intros H. apply H. constructor. Qed.
  Lemma good_children a : good a -> goods (children a).
  Proof. intros H. apply Forall_forall. intros c I b W. apply H. econstructor; eauto. Qed.
  Lemma good_intro a : edges src a -> goods (children a) -> good a.
  Proof.
    intros H K b W. inversion W as [x|x y c I W']; subst; auto.
    unfold goods in K. rewrite Forall_forall in K. exact (K _ I _ W').
  Qed.
  Lemma good_ident i : good (A_Ident i).
  Proof. apply good_intro; [|constructor]. constructor; try discriminate. Qed.
  Lemma good_operands n op l r : good (A_Expr n) -> n_item n = E_Binary op l r -> good (A_Expr l) /\ good (A_Expr r).
  Proof.
    intros H E. apply good_children in H. unfold goods in H. cbn in H. rewrite E in H. cbn in H.
    inversion H as [|x1 l1 C1 C']; subst. inversion C' as [|x2 l2 C2 _]; subst. split; auto.
  Qed.
  Lemma good_elements n es : good (A_Expr n) -> n_item n = E_Sequence es -> goods (map A_Expr es).
  Proof. intros H E. apply good_children in H. cbn in H. now rewrite E in H. Qed.
  Lemma good_quasis l : goods (map A_Ident l).
  Proof. apply Forall_map, Forall_forall. intros i _. apply good_ident. Qed.

  (** ** The lexer *)
  Lemma small n : n <= List.length src -> N.to_nat (u32 n) = n.
  Proof. intros H. unfold u32. rewrite N.mod_small; lia. Qed.
  Lemma token_source lx : Structure.linv src lx -> substring src (N.to_nat (lx_start lx)) (N.to_nat (lx_end lx)) = token_as_str lx.
  Proof.
    intros [I _]. assert (A := lex_inv_pos _ _ I). assert (B := lex_inv_tok_pos _ _ I).
    unfold lx_start, lx_end. rewrite !small by lia. symmetry. now apply token_text.
  Qed.
  Record tinv (lx : lexer) : Prop := TInv {
    t_inv : Structure.linv src lx;
    t_text : forall s, In (s, lx_token lx) SPELLINGS -> token_as_str lx = s;
    t_end : lx_token lx = T_EndOfProgram -> exists r, rem (lx_cur lx) = x00 :: r
  }.
  Notation linv := tinv.
  Lemma tinv_of lx lx' : Structure.linv src lx' -> consume alnum lx = Done lx' -> ok lx -> tinv lx'.
  Proof.
    intros L H O. constructor; auto.
    - intros s. apply (consume_spelled alnum lx); auto.
    - intros E. apply (consume_consumed alnum) in H; [|exact O]. destruct H as [_ _ _ _ _ D].
      destruct D as [D1 D2|[r D1] D2 D3 D4|b r c n D1 D2 D3 D4 D5 D6]; try congruence. rewrite D2. eauto.
  Qed.
  Lemma tinv_consume lx lx' : tinv lx -> consume alnum lx = Done lx' -> tinv lx'.
  Proof.
    intros L H. apply (tinv_of lx); auto.
    - exact (Structure.linv_consume alnum src _ _ (t_inv _ L) H).
    - apply (li_ok src), (l_inv _ _ (t_inv _ L)).
  Qed.
  Lemma other_tinv lx : Structure.linv src lx -> spelled_b (lx_token lx) = false -> lx_token lx <> T_EndOfProgram -> tinv lx.
  Proof. intros L N E. constructor; auto; [|congruence]. intros s I. destruct (not_spelled _ _ I N). Qed.
  Lemma tinv_template lx lx' : tinv lx -> read_template_kind lx = Done lx' -> tinv lx'.
  Proof.
    intros L H. assert (L' := Structure.linv_template src _ _ (t_inv _ L) H). apply template_token in H.
    apply other_tinv; auto; destruct H as [E|[E|E]]; rewrite E; try discriminate; reflexivity.
  Qed.
  Lemma tinv_regex lx v lx' : tinv lx -> read_regular_expression lx = Done (v, lx') -> tinv lx'.
  Proof.
    intros L H. assert (L' := Structure.linv_regex src _ _ _ (t_inv _ L) H).
    apply other_tinv; auto; clear - H; unfold read_regular_expression in H; odone H; destruct a as [[| |] c]; oinv; try reflexivity; discriminate.
  Qed.
  Lemma token_is t lx : lx_token lx = t -> is t (view_of lx) = true.
  Proof. intros <-. unfold is. cbn [view_of v_token]. now destruct (lx_token lx). Qed.
  Lemma here_own lx w : tinv lx -> token_as_str lx = w -> text_at src (v_start (view_of lx)) w /\ text_before src (v_end (view_of lx)) w.
  Proof.
    intros L T. rewrite <- (token_source _ (t_inv _ L)) in T.
    assert (A := lex_inv_pos _ _ (l_inv _ _ (t_inv _ L))). assert (B := lex_inv_tok_pos _ _ (l_inv _ _ (t_inv _ L))).
    cbn [view_of v_start v_end]. unfold lx_start, lx_end in *. rewrite !small in T by lia.
    unfold substring in T.
    assert (X : text_at src (u32 (pos (lx_tok lx))) w).
    { unfold text_at. rewrite small by lia. exists (skipn (pos (lx_cur lx) - pos (lx_tok lx)) (skipn (pos (lx_tok lx)) src)).
      rewrite <- T at 1. symmetry. apply firstn_skipn. }
    split; [exact X|]. exists (u32 (pos (lx_tok lx))). split; [|exact X]. rewrite !small by lia.
    rewrite <- T, firstn_length, skipn_length. lia.
  Qed.
  Lemma here lx w : tinv lx -> In (w, lx_token lx) SPELLINGS -> text_at src (v_start (view_of lx)) w /\ text_before src (v_end (view_of lx)) w.
  Proof. intros L I. apply here_own; auto. exact (t_text _ L w I). Qed.
  Lemma here_text lx : tinv lx -> text_at src (v_start (view_of lx)) (v_text (view_of lx)) /\ text_before src (v_end (view_of lx)) (v_text (view_of lx)).
  Proof. intros L. apply here_own; auto. Qed.
  Lemma string_here lx : tinv lx -> is T_LiteralString (view_of lx) = true -> exists q, (q = """"%byte \/ q = "'"%byte) /\
    v_text (view_of lx) = quoted_name q (firstn (List.length (v_text (view_of lx)) - 2) (tl (v_text (view_of lx)))).
  Proof.
    intros L H. assert (T := Structure.l_text _ _ (t_inv _ L)). apply is_true in H.
    assert (K := tx_string _ T H). destruct K as [q [s [Q [_ E]]]].
    exists q. split; [exact Q|]. cbn [view_of v_text]. rewrite E. cbn [tl List.length]. rewrite app_length. cbn [List.length].
    replace (S (List.length s + 1) - 2) with (List.length s) by lia.
    rewrite firstn_app, firstn_all, Nat.sub_diag. cbn [firstn]. unfold quoted_name. now rewrite app_nil_r.
  Qed.
  Lemma import_here lx : tinv lx -> is T_LiteralString (view_of lx) = true -> exists q, (q = """"%byte \/ q = "'"%byte) /\
    text_before src (v_end (view_of lx)) (quoted_name q (firstn (List.length (v_text (view_of lx)) - 2) (tl (v_text (view_of lx))))) /\
    text_at src (v_start (view_of lx)) (quoted_name q (firstn (List.length (v_text (view_of lx)) - 2) (tl (v_text (view_of lx))))).
  Proof.
    intros L H. destruct (string_here _ L H) as [q [Q E]]. exists q. split; [exact Q|]. rewrite <- E.
    split; apply here_text; exact L.
  Qed.
  Lemma here_word lx w : tinv lx -> str_eqb (v_text (view_of lx)) w = true -> text_at src (v_start (view_of lx)) w.
  Proof. intros L E. apply str_eqb_eq in E. rewrite <- E. now apply here_text. Qed.
  Lemma here_word_end lx w : tinv lx -> str_eqb (v_text (view_of lx)) w = true -> text_before src (v_end (view_of lx)) w.
  Proof. intros L E. apply str_eqb_eq in E. rewrite <- E. now apply here_text. Qed.
  Lemma here_start lx t w : tinv lx -> lx_token lx = t -> word_of t = Some w -> text_at src (v_start (view_of lx)) w.
  Proof. intros L <- E. apply here; auto. now apply word_of_in. Qed.
  Lemma here_end lx t w : tinv lx -> lx_token lx = t -> word_of t = Some w -> text_before src (v_end (view_of lx)) w.
  Proof. intros L <- E. apply here; auto. now apply word_of_in. Qed.
  Lemma end_here lx : tinv lx -> lx_token lx = T_EndOfProgram -> program_end src (v_end (view_of lx)).
  Proof.
    intros L E. destruct (t_end _ L E) as [r Er]. assert (I := l_inv _ _ (t_inv _ L)). assert (A := lex_inv_pos _ _ I).
    destruct (li_cur _ _ I) as [pre [P1 P2]]. rewrite (li_buf _ _ I) in P1.
    exists r. cbn [view_of v_end]. unfold lx_end. rewrite small by lia. rewrite P1, <- P2, skipn_app, skipn_all, Nat.sub_diag, Er. reflexivity.
  Qed.
  Definition closer (lx : lexer) : Prop := lx_token lx = T_BraceClose \/ lx_token lx = T_EndOfProgram.
  Lemma closed lx : tinv lx -> closer lx -> text_before src (v_end (view_of lx)) (bs "}") \/ program_end src (v_end (view_of lx)).
  Proof. intros L [E|E]; [left; eapply here_end; eauto; reflexivity|right; now apply end_here]. Qed.

  (** The tokens the handlers are called at. *)
  Definition opens_with (h : expr_handler) (t : token) : Prop :=
    match h with
    | X_PRN => t = T_ParenOpen | X_ARR => t = T_BracketOpen | X_OBJ => t = T_BraceOpen | X_NEW => t = T_OperatorNew | X_CLAS => t = T_Class
    | X_FUNC => t = T_Function | X_THIS => t = T_This | X_TRUE => t = T_LiteralTrue | X_FALS => t = T_LiteralFalse
    | X_NULL => t = T_LiteralNull | X_UNDE => t = T_LiteralUndefined | X_SPRD => t = T_OperatorSpread
    | X_OP => forall op w, operator_from_token t = Some op -> prefix_word op = Some w -> word_of t = Some w
    | _ => True
    end.
  Lemma bound_opens c v : opens_with (bound_handler c v) (v_token v).
  Proof.
    unfold bound_handler. destruct (v_token v), c; try exact I; try reflexivity;
      intros op w E W; injection E as <-; injection W as <-; reflexivity.
  Qed.
  Definition stmt_opens (h : stmt_handler) (t : token) : Prop :=
    match h with
    | S_EMPT => t = T_Semicolon | S_DBGGR => t = T_Debugger | S_BLCK => t = T_BraceOpen | S_VAR => t = T_DeclarationVar
    | S_LET => t = T_DeclarationLet | S_CONS => t = T_DeclarationConst | S_RET => t = T_Return | S_BRK => t = T_Break
    | S_THRW => t = T_Throw | S_CONT => t = T_Continue | S_FUNC => t = T_Function | S_CLAS => t = T_Class | S_IF => t = T_If
    | S_WHL => t = T_While | S_DO => t = T_Do | S_FOR => t = T_For | S_TRY => t = T_Try | S_SWCH => t = T_Switch | S_IMPT => t = T_Import
    | S_PRN => opens_with X_PRN t | S_ARR => opens_with X_ARR t | S_OP => opens_with X_OP t | S_NEW => opens_with X_NEW t
    | S_REG => opens_with X_REG t | S_THIS => opens_with X_THIS t | S_TRUE => opens_with X_TRUE t | S_FALS => opens_with X_FALS t
    | S_NULL => opens_with X_NULL t | S_UNDE => opens_with X_UNDE t
    | _ => True
    end.
  Lemma statement_opens v : stmt_opens (statement_handler v) (v_token v).
  Proof.
    unfold statement_handler. destruct (v_token v); try exact I; try reflexivity;
      intros op w E W; injection E as <-; injection W as <-; reflexivity.
  Qed.
  Definition nested_opens (h : nested_handler) (t : token) : Prop :=
    match h with N_CALL => t = T_ParenOpen | N_INC => t = T_OperatorIncrement | N_DEC => t = T_OperatorDecrement | _ => True end.
  Definition nested_opensb (h : nested_handler) (t : token) : bool :=
    match h with N_CALL => token_eqb t T_ParenOpen | N_INC => token_eqb t T_OperatorIncrement | N_DEC => token_eqb t T_OperatorDecrement | _ => true end.
  Lemma lut_opens b t h : nth (token_index t) (LUT b) None = Some h -> nested_opens h t.
  Proof.
    assert (G : forallb (fun t => match nth (token_index t) (LUT b) None with Some h => nested_opensb h t | None => true end)
      all_tokens = true) by (destruct b; vm_compute; reflexivity).
    rewrite forallb_forall in G. specialize (G t (in_all_tokens t)). intros H. rewrite H in G.
    destruct h; try exact I; now apply token_eqb_eq.
  Qed.
  Lemma handler_opens b v h : handler b v = Some h -> nested_opens h (v_token v).
  Proof.
    unfold handler. destruct (v_asi v); try apply lut_opens.
    destruct (is T_OperatorIncrement v || is T_OperatorDecrement v)%bool; [discriminate|apply lut_opens].
  Qed.

  Definition item_any {T : Set} (i : item T) : node T -> any :=
    match i with I_Statement => A_Stmt | I_Member => A_Member | I_Case => A_Case end.
  Definition block_any {T : Set} (i : item T) : node (block T) -> any :=
    match i with I_Statement => A_Body | I_Member => A_ClassBody | I_Case => A_Cases end.

  Definition post (R : Set) (f : fn R) (lx : lexer) : R -> lexer -> Prop :=
    match f in fn R return R -> lexer -> Prop with
    | F_parse => fun m _ => goods (map A_Stmt m)
    | F_block i => fun b _ => good (block_any i b)
    | F_unchecked_block i => fun b _ => lx_token lx = T_BraceOpen -> good (block_any i b)
    | F_raw_block i => fun b lx' => goods (map (item_any i) (b_body b)) /\ closer lx'
    | F_items i => fun l lx' => goods (map (item_any i) l) /\ closer lx'
    | F_item i => fun x _ => good (item_any i x)
    | F_pattern_from_expression e => fun p _ => good (A_Expr e) -> good (A_Pat p) /\ n_start p = n_start e /\ n_end p = n_end e
    | F_params_from_expressions es => fun ps _ => goods (map A_Expr es) -> goods (map A_Pat ps) /\
        match es, ps with [], [] => True | e :: _, p :: _ => n_start p = n_start e | _, _ => False end
    | F_nested _ l0 => fun r _ => good (A_Expr l0) -> good (A_Expr r)
    | F_nested_handler h l0 => fun r _ => nested_opens h (lx_token lx) -> good (A_Expr l0) -> good (A_Expr r)
    | F_sequence => fun es _ => goods (map A_Expr es)
    | F_expr_handler h => fun r _ => opens_with h (lx_token lx) -> good (A_Expr r)
    | F_expression _ _ => fun r _ => good (A_Expr r)
    | F_arrow ps => fun e _ => goods (map A_Expr ps) ->
        forall s t, match ps with [] => text_at src s (bs "(") | p :: _ => s = n_start p end -> good (A_Expr (Node s t e))
    | F_call_arguments | F_call_arguments_rest => fun es lx' => goods (map A_Expr es) /\ lx_token lx' = T_ParenClose
    | F_paren => fun r _ => lx_token lx = T_ParenOpen -> good (A_Expr r)
    | F_prefix op => fun e _ => forall s t, (forall w, prefix_word op = Some w -> text_at src s w) -> good (A_Expr (Node s t e))
    | F_object => fun r _ => lx_token lx = T_BraceOpen -> good (A_Expr r)
    | F_meta_property _ => fun e lx' => forall s, text_at src s (bs "new") -> good (A_Expr (Node s (v_end (view_of lx')) e))
    | F_property_list | F_property_list_rest => fun ps lx' => goods (map A_Prop ps) /\ lx_token lx' = T_BraceClose
    | F_property => fun p _ => good (A_Prop p)
    | F_property_value start key => fun p _ => start = n_start key ->
        (forall k w, key_name key = Some (k, w) -> text_at src (n_start k) w /\ text_before src (n_end k) w) -> good (A_Key key) -> good (A_Prop p)
    | F_array => fun r _ => lx_token lx = T_BracketOpen -> good (A_Expr r)
    | F_array_elements | F_array_elements_rest => fun es lx' => goods (map A_Expr es) /\ lx_token lx' = T_BracketClose
    | F_regular_expression => fun r _ => good (A_Expr r)
    | F_template_string => fun t _ => good (A_Tpl t)
    | F_template_literal => fun t _ => good (A_Tpl t)
    | F_template_rest => fun r _ => goods (map A_Expr (snd (fst r))) /\
        exists q more, fst (fst r) = q :: more /\ n_end (List.last more q) = snd r
    | F_function_expression => fun r _ => lx_token lx = T_Function -> good (A_Expr r)
    | F_class_expression => fun r _ => lx_token lx = T_Class -> good (A_Expr r)
    | F_name _ => fun n _ => goods (children_name n)
    | F_pattern => fun p _ => good (A_Pat p)
    | F_function _ => fun f _ => goods (children_func f)
    | F_method => fun f _ => lx_token lx = T_ParenOpen -> good (A_Func f)
    | F_class_member => fun m _ => good (A_Member m)
    | F_class_member_value start st kind key => fun m _ => (st = true -> text_at src start (bs "static")) ->
        (st = false -> match kind with MK_Get => text_at src start (bs "get") | MK_Set => text_at src start (bs "set") | _ => start = n_start key end) ->
        (forall k w, member_key kind key = Some (k, w) -> text_at src (n_start k) w /\ text_before src (n_end k) w) -> good (A_Key key) -> good (A_Member m)
    | F_class _ => fun c _ => goods (children_class c)
    | F_pattern_array => fun p _ => lx_token lx = T_BracketOpen -> good (A_Pat p)
    | F_pattern_object => fun p _ => lx_token lx = T_BraceOpen -> good (A_Pat p)
    | F_pattern_assign l0 => fun p _ => good (A_Pat l0) -> good (A_Pat p)
    | F_pattern_array_element => fun p _ => good (A_Pat p)
    | F_pattern_elements | F_pattern_elements_rest => fun ps lx' => goods (map A_Pat ps) /\ lx_token lx' = T_BracketClose
    | F_pattern_param => fun p _ => good (A_Pat p)
    | F_rest_element => fun p _ => lx_token lx = T_OperatorSpread -> good (A_Pat p)
    | F_params | F_params_rest => fun ps _ => goods (map A_Pat ps)
    | F_stmt_handler h => fun r _ => stmt_opens h (lx_token lx) -> good (A_Stmt r)
    | F_switch_case => fun r _ => good (A_Case r)
    | F_case_body e => fun r _ => goods (map A_Stmt (fst r)) /\ snd r = match fst r with [] => e | s :: ss => n_end (List.last ss s) end
    | F_statement => fun r _ => good (A_Stmt r)
    | F_expect_semicolon => fun _ _ => True
    | F_block_statement => fun r _ => lx_token lx = T_BraceOpen -> good (A_Stmt r)
    | F_expression_statement e => fun r _ => good (A_Expr e) -> good (A_Stmt r)
    | F_labeled_or_expression => fun r _ => good (A_Stmt r)
    | F_function_statement => fun r _ => lx_token lx = T_Function -> good (A_Stmt r)
    | F_class_statement => fun r _ => lx_token lx = T_Class -> good (A_Stmt r)
    | F_variable_declaration k => fun r _ => text_at src (v_start (view_of lx)) (declaration_word k) -> good (A_Stmt r)
    | F_declarator => fun r _ => good (A_Declarator r)
    | F_declarators => fun r _ => goods (map A_Declarator r)
    | F_return => fun r _ => lx_token lx = T_Return -> good (A_Stmt r)
    | F_break => fun r _ => lx_token lx = T_Break -> good (A_Stmt r)
    | F_continue => fun r _ => lx_token lx = T_Continue -> good (A_Stmt r)
    | F_throw => fun r _ => lx_token lx = T_Throw -> good (A_Stmt r)
    | F_try => fun r _ => lx_token lx = T_Try -> good (A_Stmt r)
    | F_if => fun r _ => lx_token lx = T_If -> good (A_Stmt r)
    | F_while => fun r _ => lx_token lx = T_While -> good (A_Stmt r)
    | F_do => fun r _ => lx_token lx = T_Do -> good (A_Stmt r)
    | F_for => fun r _ => lx_token lx = T_For -> good (A_Stmt r)
    | F_switch => fun r _ => lx_token lx = T_Switch -> good (A_Stmt r)
    | F_label => fun r _ => snd r = option_map (fun l => n_end l) (fst r)
    | F_catch => fun r _ => lx_token lx = T_Catch -> good (A_Catch r)
    | F_for_init k => fun r _ => text_at src (v_start (view_of lx)) (declaration_word k) -> good (A_ForInit r)
    | F_for_rest start i => fun r _ => text_at src start (bs "for") -> goods (opt A_ForInit i) -> good (A_Stmt r)
    | F_for_in_from_parts start l e => fun r _ => text_at src start (bs "for") -> good (A_ForInit l) -> good (A_Expr e) -> good (A_Stmt r)
    | F_for_in start l | F_for_of start l => fun r _ => text_at src start (bs "for") -> good (A_ForInit l) -> good (A_Stmt r)
    | F_import => fun r _ => lx_token lx = T_Import -> good (A_Stmt r)
    | F_import_rest start specs more => fun r _ => (more = false -> specs <> []) -> text_at src start (bs "import") -> goods (map A_Spec specs) -> good (A_Stmt r)
    | F_import_specifiers => fun r _ => r <> [] /\ goods (map A_Spec r)
    end.
  Definition spec (R : Set) (f : fn R) (lx : lexer) (r : R) (lx' : lexer) : Prop :=
    linv lx -> linv lx' /\ post R f lx r lx'.

  Notation wp := (wpe fn alnum spec).

  Lemma wpe_imp {A} (H : Prop) (p : P A) Q lx : (H -> wp p Q lx) -> wp p (fun a lx' => H -> Q a lx') lx.
  Proof.
    revert lx; induction p as [a|k IH|k IH|k IH|k IH|k IH| |R f k IH]; simpl; intros lx G; auto.
  Qed.
  Lemma body_part_end f : end_of (body_part f) = func_body_end f.
  Proof. destruct f; reflexivity. Qed.
  Lemma class_part_end c : end_of (class_part c) = class_body_end c.
  Proof. destruct c; reflexivity. Qed.

  Ltac simp := cbn [wpe bind look consume_ read_template read_regex fail_with error_ call expect
    start_then_consume end_then_consume get_end get_start identifier_ pattern_identifier token_expression
    unquote expression_handler_statement jump_statement postfix_handler assign_handler binary_handler].
  Ltac walk1 :=
    match goal with
    | |- wpe _ _ _ (if ?b then _ else _) _ _ => let E := fresh "E" in destruct b eqn:E
    | |- wpe _ _ _ (bind (if ?b then _ else _) _) _ _ => let E := fresh "E" in destruct b eqn:E
    | |- wpe _ _ _ (match ?o with Some _ => _ | None => _ end) _ _ => let E := fresh "E" in destruct o eqn:E
    | |- wpe _ _ _ (match ?o with NoSemicolon => _ | _ => _ end) _ _ => let E := fresh "E" in destruct o eqn:E
    | |- wpe _ _ _ (bind (bind _ _) _) _ _ => apply wpe_bind
    | L : tinv ?lx |- forall lx', consume alnum ?lx = Done lx' -> _ =>
        let lx' := fresh "lx" in let H := fresh "Hc" in let L' := fresh "L" in
        intros lx' H; assert (L' := tinv_consume _ _ L H)
    | L : tinv ?lx |- forall lx', read_template_kind ?lx = Done lx' -> _ =>
        let lx' := fresh "lx" in let H := fresh "Hc" in let L' := fresh "L" in
        intros lx' H; assert (L' := tinv_template _ _ L H)
    | L : tinv ?lx |- forall v lx', read_regular_expression ?lx = Done (v, lx') -> _ =>
        let lx' := fresh "lx" in let H := fresh "Hc" in let L' := fresh "L" in let v := fresh "v" in
        intros v lx' H; assert (L' := tinv_regex _ _ _ L H)
    | L : tinv ?lx |- forall r lx', spec _ _ ?lx r lx' -> _ =>
        let lx' := fresh "lx" in let H := fresh "S" in let L' := fresh "L" in let v := fresh "r" in
        let P := fresh "P" in
        intros v lx' H; destruct (H L) as [L' P]; clear H; cbn [post] in P
    | |- True => exact I
    end.
  Ltac walk := simp; repeat (walk1; simp).
  Ltac done := match goal with L : tinv ?lx |- tinv ?lx /\ _ => split; [exact L|]; cbn [post] end.
  Ltac tokeq := match goal with
    | E : is ?t (view_of ?lx) = true |- lx_token ?lx = _ => exact (is_true _ _ E)
    | E : lx_token ?lx = ?t |- lx_token ?lx = _ => exact E
    | E : lx_token (?lx) = ?t |- v_token (view_of ?lx) = _ => exact E
    end.
  Ltac parts := cbn [first_word last_word braced hole first_part last_part constant_word n_item n_start n_end start_of end_of any_span fst snd in_loc b_body prefix_word postfix_word].
  Ltac parts_in H := cbn [first_word last_word braced hole first_part last_part constant_word n_item n_start n_end start_of end_of any_span fst snd in_loc b_body postfix_word] in H.
  Ltac text := match goal with
    | L : tinv ?lx |- text_at src (v_start (view_of ?lx)) (token_as_str ?lx) => exact (proj1 (here_text _ L))
    | L : tinv ?lx |- text_before src (v_end (view_of ?lx)) (token_as_str ?lx) => exact (proj2 (here_text _ L))
    | L : tinv ?lx |- text_at src (v_start (view_of ?lx)) (v_text (view_of ?lx)) => exact (proj1 (here_text _ L))
    | L : tinv ?lx |- text_before src (v_end (view_of ?lx)) (v_text (view_of ?lx)) => exact (proj2 (here_text _ L))
    | L : tinv ?lx, E : str_eqb (v_text (view_of ?lx)) ?w = true |- text_at src (v_start (view_of ?lx)) ?w => exact (here_word _ _ L E)
    | L : tinv ?lx, E : str_eqb (v_text (view_of ?lx)) ?w = true |- text_before src (v_end (view_of ?lx)) ?w => exact (here_word_end _ _ L E)
    | L : tinv ?lx |- text_at src (v_start (view_of ?lx)) _ => first [assumption | eapply here_start; [exact L|tokeq|vm_compute; reflexivity]]
    | L : tinv ?lx |- text_before src (v_end (view_of ?lx)) _ => first [assumption | eapply here_end; [exact L|tokeq|vm_compute; reflexivity]]
    | |- text_at src _ _ => assumption
    end.
  Ltac ed1 := let w := fresh "w" in let E := fresh "E" in intros w E; parts_in E; parts;
    first [discriminate E | injection E as <-; parts; first [text | reflexivity | assumption | apply eq_sym, body_part_end | apply eq_sym, class_part_end | congruence] | solve [eauto]].
  Ltac edt := let es := fresh "es" in let qs := fresh "qs" in let E := fresh "E" in intros es qs E; cbn [template_of n_item] in E; parts;
    first [discriminate E | injection E as <- <-; do 2 eexists; split; [reflexivity|]; split; first [reflexivity|assumption|solve [eauto]] | idtac].
  Ltac edk := let k := fresh "k" in let w := fresh "w" in let E := fresh "E" in intros k w E; cbn [key_word n_item] in E;
    first [discriminate E | solve [auto]].
  Ltac edi := let sp := fresh "sp" in let so := fresh "so" in let E := fresh "E" in intros sp so E; cbn [import_of n_item] in E;
    first [discriminate E | idtac].
  Ltac edg := constructor; [try ed1|try ed1|
    let E := fresh "E" in intros E; parts_in E; parts; first [discriminate E | apply closed; [assumption|assumption]|idtac]|
    let E := fresh "E" in intros E; parts_in E; parts; first [discriminate E | reflexivity|idtac]|try ed1|try ed1|try edk|try (let n := fresh "n" in let E := fresh "E" in let F := fresh "F" in intros n E F; first [discriminate E|injection E as <-; discriminate F])|edt|try edi].
  Ltac fin0 := match goal with
    | H : good ?a |- good ?a => exact H
    | H : forall s t, good (A_Expr (Node s t ?e)) |- good (A_Expr (Node _ _ ?e)) => apply H
    | |- good (A_Ident _) => apply good_ident
    | H : forall s t, _ -> good (A_Expr (Node s t ?e)) |- good (A_Expr (Node _ _ ?e)) => apply H
    | H : forall s, _ -> good (A_Expr (Node s ?t ?e)) |- good (A_Expr (Node _ ?t ?e)) => apply H
    | |- good _ => apply good_intro
    | H : false = true |- _ => discriminate H
    | H : key_name _ = Some _ |- _ => cbn [key_name n_item in_loc] in H; first [discriminate H | apply some_pair in H; destruct H as [<- <-]]
    | H : member_key _ _ = Some _ |- _ => cbn [member_key key_name n_item in_loc] in H; first [discriminate H | apply some_pair in H; destruct H as [<- <-]]
    | H : true = false |- _ => discriminate H
    | |- _ :: _ <> [] => discriminate
    | |- edges _ _ => solve [edg]
    | |- text_at _ _ _ => text
    | |- text_before _ _ _ => text
    | E : handler ?b (view_of ?lx) = Some ?h |- nested_opens ?h (lx_token ?lx) => exact (handler_opens _ _ _ E)
    | |- opens_with (bound_handler ?c (view_of ?lx)) (lx_token ?lx) => exact (bound_opens c (view_of lx))
    | |- stmt_opens (statement_handler (view_of ?lx)) (lx_token ?lx) => exact (statement_opens (view_of lx))
    | H : ?A |- ?A => exact H
    | E : is ?t (view_of ?lx) = true |- lx_token ?lx = ?t => exact (is_true _ _ E)
    | |- closer _ => solve [left; tokeq | right; tokeq]
    | E : (is T_BraceClose (view_of ?lx) || is T_EndOfProgram (view_of ?lx))%bool = true |- closer ?lx =>
        apply orb_prop in E; destruct E; [left|right]; tokeq
    | H : _ /\ _ |- _ => destruct H
    | |- _ /\ _ => split
    | |- goods _ => unfold goods
    | H : Forall good ?l |- Forall good ?l => exact H
    | |- Forall _ (map _ (_ ++ _)) => rewrite map_app
    | |- Forall good (map A_Ident _) => apply good_quasis
    | |- Forall _ [] => apply Forall_nil
    | |- Forall _ (_ :: _) => apply Forall_cons
    | |- Forall _ (_ ++ _) => apply Forall_app; split
    | |- ?x = ?x => reflexivity
    | |- _ -> _ => intro
    end.
  Ltac red_all := unfold in_loc, goods in *; cbn [children n_item children_expression children_statement children_func children_class opt
      children_name children_template map app b_body fst snd item_any block_any opens_with nested_opens stmt_opens n_start n_end] in *.
  Ltac core := red_all; repeat (fin0; red_all).
  Ltac isprop A := lazymatch type of A with Prop => idtac end.
  Ltac feed1 := match goal with
    | H : ?A -> _ |- _ => isprop A; let K := fresh "K" in assert (K : A) by (clear H; solve [core]); specialize (H K); clear K
    end.
  Ltac fin := intros; repeat feed1; core.
  Notation "'start' R f lx" := (linv lx -> wp (body R f) (fun r lx' => linv lx' /\ post R f lx r lx') lx) (at level 10, R at level 9, f at level 9, lx at level 9).
  Ltac obvious := intros L; cbn [body];
    cbv delta [body_parse body_raw_block body_items body_item body_block body_unchecked_block body_pattern_from_expression
      body_params_from_expressions body_nested body_nested_handler body_sequence body_expression
      body_arrow body_call_arguments body_call_arguments_rest body_paren body_prefix body_object body_meta_property
      body_property_list body_property_list_rest body_property body_property_value body_array body_array_elements
      body_array_elements_rest body_regular_expression body_template_string body_template_literal body_template_rest
      body_function_expression body_class_expression body_name body_pattern body_function body_method body_class_member
      body_class_member_value body_class body_pattern_array body_pattern_object body_pattern_assign body_pattern_array_element
      body_pattern_elements body_pattern_elements_rest body_pattern_param body_rest_element body_params body_params_rest
      body_switch_case body_case_body body_statement body_expect_semicolon body_block_statement body_expression_statement
      body_labeled_or_expression body_function_statement body_class_statement body_variable_declaration body_declarator
      body_declarators body_return body_break body_continue body_label body_throw body_try body_catch body_if body_while body_do
      body_for_init body_for body_for_rest body_for_in_from_parts body_for_in body_for_of body_switch body_import body_import_rest
      body_import_specifiers]; cbv beta zeta; walk; try done; try solve [fin].

  Lemma ok_parse lx : start _ F_parse lx.
  Proof. obvious. Qed.
  Lemma ok_raw_block T (i : item T) lx : start _ (F_raw_block i) lx.
  Proof. obvious. Qed.
  Lemma ok_items T (i : item T) lx : start _ (F_items i) lx.
  Proof. obvious. Qed.
  Lemma ok_item T (i : item T) lx : start _ (F_item i) lx.
  Proof. destruct i; obvious. Qed.
  Lemma ok_block T (i : item T) lx : start _ (F_block i) lx.
  Proof. destruct i; obvious. Qed.
  Lemma ok_unchecked_block T (i : item T) lx : start _ (F_unchecked_block i) lx.
  Proof. destruct i; obvious. Qed.
  Lemma ok_pattern_from_expression e lx : start _ (F_pattern_from_expression e) lx.
  Proof.
    intros L. cbn [body]. unfold body_pattern_from_expression. destruct (n_item e) eqn:E; walk.
    - done. intros G. split; [|split; reflexivity]. core.
    - destruct op; walk. done. intros G. destruct (good_operands _ _ _ _ G E) as [G1 G2]. destruct (P G1) as (P1 & P2 & P3).
      apply good_node in G as [_ _ _ _ F1 F2 _ _ _]. specialize (F1 (A_Expr left)). specialize (F2 (A_Expr right)).
      cbn [first_part last_part] in F1, F2. rewrite E in F1, F2. specialize (F1 eq_refl). specialize (F2 eq_refl).
      cbn [start_of end_of any_span fst snd] in F1, F2. split; [|split; reflexivity].
      apply good_intro; [|core]. constructor; try (intros w W; discriminate W); try (intros W; discriminate W); try (intros ? ? W; discriminate W); intros c W; parts_in W; injection W as <-; parts; congruence.
  Qed.
  Lemma ok_params_from_expressions es lx : start _ (F_params_from_expressions es) lx.
  Proof.
    intros L. cbn [body]. unfold body_params_from_expressions. destruct es; walk; done; intros G; cbn [map] in *.
    - split; [core|exact I].
    - inversion G as [|x1 l1 G1 G2]; subst. destruct (P G1) as (P1 & P2 & P3). destruct (P0 G2) as [P4 P5]. split; [core|exact P2].
  Qed.
  Lemma ok_nested b l lx : start _ (F_nested b l) lx.
  Proof. obvious. Qed.
  Lemma ok_nested_handler h l lx : start _ (F_nested_handler h l) lx.
  Proof.
    intros L. cbn [body]. destruct h; cbn [body_nested_handler]; walk; try done; try solve [fin].
    intros _ G. apply P; destruct (n_item l) eqn:E; try solve [fin]; try reflexivity; try solve [now apply (good_elements l)].
    apply good_node in G. destruct body as [|x xs]; [destruct (ed_sequence _ _ G l eq_refl E)|].
    assert (F := ed_first_part _ _ G (A_Expr x)). cbn [first_part] in F. rewrite E in F. exact (F eq_refl).
  Qed.
  Lemma ok_sequence lx : start _ F_sequence lx.
  Proof. obvious. Qed.
  Lemma ok_expr_handler h lx : start _ (F_expr_handler h) lx.
  Proof.
    intros L. cbn [body]. destruct h; cbn [body_expr_handler]; walk; try done; try solve [fin].
    - intros T. apply P. intros w W. injection W as <-. cbn [opens_with] in T. text.
    - intros T. cbn [opens_with] in T. apply P. intros w W. eapply here_start; [exact L|reflexivity|]. eapply T; eauto.
    - intros _. assert (G := good_children _ P). apply good_node in P as [_ _ _ _ _ _ _ _ T]. destruct r0 as [s0 e0 [es qs]]. apply good_intro; [|exact G].
      constructor; try (intros w W; discriminate W); try (intros W; discriminate W); try (intros n W F; injection W as <-; discriminate F); try (intros ? ? W; discriminate W); try (intros n W; discriminate W). intros es' qs' E. injection E as <- <-. exact (T _ _ eq_refl).
  Qed.
  Lemma ok_expression c b lx : start _ (F_expression c b) lx.
  Proof. obvious. Qed.
  Lemma ok_arrow ps lx : start _ (F_arrow ps) lx.
  Proof.
    obvious; intros G s t Hs; destruct (P G) as [P1 P2]; destruct ps as [|e es], r0 as [|p qs]; try contradiction; cbn [map] in *;
      clear P; try (inversion P1 as [|x1 l1 G1 G2]; subst); (apply good_intro; [edg|fin]).
  Qed.
  Lemma ok_call_arguments lx : start _ F_call_arguments lx.
  Proof. obvious. Qed.
  Lemma ok_call_arguments_rest lx : start _ F_call_arguments_rest lx.
  Proof. obvious. Qed.
  Lemma ok_paren lx : start _ F_paren lx.
  Proof. obvious. Qed.
  Lemma ok_prefix op lx : start _ (F_prefix op) lx.
  Proof. obvious. Qed.
  Lemma ok_object lx : start _ F_object lx.
  Proof. obvious. Qed.
  Lemma ok_meta_property m lx : start _ (F_meta_property m) lx.
  Proof.
    obvious.
  Qed.
  Lemma ok_property_list lx : start _ F_property_list lx.
  Proof. obvious. Qed.
  Lemma ok_property_list_rest lx : start _ F_property_list_rest lx.
  Proof. obvious. Qed.
  Lemma ok_property lx : start _ F_property lx.
  Proof. obvious. Qed.
  Lemma ok_property_value s k lx : start _ (F_property_value s k) lx.
  Proof. obvious. Qed.
  Lemma ok_array lx : start _ F_array lx.
  Proof. obvious. Qed.
  Lemma ok_array_elements lx : start _ F_array_elements lx.
  Proof. obvious. Qed.
  Lemma ok_array_elements_rest lx : start _ F_array_elements_rest lx.
  Proof. obvious. Qed.
  Lemma ok_regular_expression lx : start _ F_regular_expression lx.
  Proof.
    obvious.
  Qed.
  Lemma ok_template_string lx : start _ F_template_string lx.
  Proof. obvious. Qed.
  Lemma ok_template_literal lx : start _ F_template_literal lx.
  Proof.
    obvious. destruct r1 as [[qs es] e]. walk. done. cbn [fst snd] in *. destruct P0 as (P1 & q & more & -> & P2).
    apply good_intro; [|core]. constructor; try (intros w W; discriminate W); try (intros W; discriminate W); try (intros n W; discriminate W); try (intros ? ? W; discriminate W).
    intros es' qs' E'. injection E' as <- <-. do 2 eexists. split; [reflexivity|]. split; [reflexivity|]. rewrite last_shift. now rewrite P2.
  Qed.
  Lemma ok_template_rest lx : start _ F_template_rest lx.
  Proof.
    obvious.
    - destruct r1 as [[qs es] e]. walk. done. cbn [fst snd] in *. destruct P0 as (P1 & q & more & -> & P2). split; [core|].
      do 2 eexists. split; [reflexivity|]. now rewrite last_shift.
    - cbn [fst snd]. split; [core|]. do 2 eexists. split; reflexivity.
  Qed.
  Lemma ok_function_expression lx : start _ F_function_expression lx.
  Proof. obvious. Qed.
  Lemma ok_class_expression lx : start _ F_class_expression lx.
  Proof. obvious. Qed.
  Lemma ok_name k lx : start _ (F_name k) lx.
  Proof. destruct k; obvious. Qed.
  Lemma ok_pattern lx : start _ F_pattern lx.
  Proof. obvious. Qed.
  Lemma ok_function k lx : start _ (F_function k) lx.
  Proof. obvious. Qed.
  Lemma ok_method lx : start _ F_method lx.
  Proof. obvious. Qed.
  Lemma ok_class_member lx : start _ F_class_member lx.
  Proof.
    obvious. all: try match goal with P : context [if ?b then MK_Constructor else MK_Method] |- _ => destruct b end; try solve [fin].
  Qed.
  Lemma ok_class_member_value s st k key lx : start _ (F_class_member_value s st k key) lx.
  Proof.
    obvious; intros H1 H2 H3 G; destruct st; [specialize (H1 eq_refl); clear H2|specialize (H2 eq_refl); clear H1; destruct k
        |specialize (H1 eq_refl); clear H2|specialize (H2 eq_refl); clear H1; destruct k
        |specialize (H1 eq_refl); clear H2|specialize (H2 eq_refl); clear H1; destruct k
        |specialize (H1 eq_refl); clear H2|specialize (H2 eq_refl); clear H1; destruct k]; (apply good_intro; [edg|fin]).
  Qed.
  Lemma ok_class k lx : start _ (F_class k) lx.
  Proof. obvious. Qed.
  Lemma ok_pattern_array lx : start _ F_pattern_array lx.
  Proof. obvious. Qed.
  Lemma ok_pattern_object lx : start _ F_pattern_object lx.
  Proof. obvious. Qed.
  Lemma ok_pattern_assign l lx : start _ (F_pattern_assign l) lx.
  Proof. obvious. Qed.
  Lemma ok_pattern_array_element lx : start _ F_pattern_array_element lx.
  Proof. obvious. Qed.
  Lemma ok_pattern_elements lx : start _ F_pattern_elements lx.
  Proof. obvious. Qed.
  Lemma ok_pattern_elements_rest lx : start _ F_pattern_elements_rest lx.
  Proof. obvious. Qed.
  Lemma ok_pattern_param lx : start _ F_pattern_param lx.
  Proof. obvious. Qed.
  Lemma ok_rest_element lx : start _ F_rest_element lx.
  Proof. obvious. Qed.
  Lemma ok_params lx : start _ F_params lx.
  Proof. obvious. Qed.
  Lemma ok_params_rest lx : start _ F_params_rest lx.
  Proof. obvious. Qed.
  Lemma ok_stmt_handler h lx : start _ (F_stmt_handler h) lx.
  Proof. intros L. cbn [body]. destruct h; cbn [body_stmt_handler]; walk; try done; try solve [fin]; try intros Ha; try solve [auto]. Qed.
  Lemma ok_switch_case lx : start _ F_switch_case lx.
  Proof.
    obvious; match goal with r : (list _ * _)%type |- _ => destruct r as [ss e'] end; walk; done; cbn [fst snd] in *;
      match goal with H : goods _ /\ _ |- _ => destruct H as [P1 P2] end; subst e'; (apply good_intro; [|core]); destruct ss; edg.
  Qed.
  Lemma ok_case_body e lx : start _ (F_case_body e) lx.
  Proof.
    obvious. destruct r1 as [ss e']; walk; done. destruct P0 as [P1 P2]. cbn [fst snd] in *. subst e'. split; [core|].
    destruct ss as [|s ss]; [reflexivity|]. now rewrite last_shift.
  Qed.
  Lemma ok_statement lx : start _ F_statement lx.
  Proof. obvious. Qed.
  Lemma ok_expect_semicolon lx : start _ F_expect_semicolon lx.
  Proof. obvious; exact I. Qed.
  Lemma ok_block_statement lx : start _ F_block_statement lx.
  Proof. obvious. Qed.
  Lemma ok_expression_statement e lx : start _ (F_expression_statement e) lx.
  Proof. obvious. Qed.
  Lemma ok_labeled_or_expression lx : start _ F_labeled_or_expression lx.
  Proof. obvious. Qed.
  Lemma ok_function_statement lx : start _ F_function_statement lx.
  Proof. obvious. Qed.
  Lemma ok_class_statement lx : start _ F_class_statement lx.
  Proof. obvious. Qed.
  Lemma ok_variable_declaration k lx : start _ (F_variable_declaration k) lx.
  Proof. obvious. Qed.
  Lemma ok_declarator lx : start _ F_declarator lx.
  Proof. obvious. Qed.
  Lemma ok_declarators lx : start _ F_declarators lx.
  Proof. obvious. Qed.
  Lemma ok_return lx : start _ F_return lx.
  Proof. obvious. Qed.
  Lemma ok_break lx : start _ F_break lx.
  Proof.
    obvious. destruct r0 as [[l|] e]; walk; done; cbn [fst snd option_map] in *; subst e; intros T; (apply good_intro; [edg|core]).
  Qed.
  Lemma ok_continue lx : start _ F_continue lx.
  Proof.
    obvious. destruct r0 as [[l|] e]; walk; done; cbn [fst snd option_map] in *; subst e; intros T; (apply good_intro; [edg|core]).
  Qed.
  Lemma ok_label lx : start _ F_label lx.
  Proof.
    obvious; reflexivity.
  Qed.
  Lemma ok_throw lx : start _ F_throw lx.
  Proof. obvious. Qed.
  Lemma ok_try lx : start _ F_try lx.
  Proof. obvious. Qed.
  Lemma ok_catch lx : start _ F_catch lx.
  Proof. obvious. Qed.
  Lemma ok_if lx : start _ F_if lx.
  Proof. obvious. Qed.
  Lemma ok_while lx : start _ F_while lx.
  Proof. obvious. Qed.
  Lemma ok_do lx : start _ F_do lx.
  Proof. obvious. Qed.
  Lemma ok_for_init k lx : start _ (F_for_init k) lx.
  Proof. obvious. Qed.
  Lemma ok_for lx : start _ F_for lx.
  Proof.
    obvious.
    assert (G : wp (call (F_for_rest (v_start (view_of lx)) (Some (Node (n_start r0) (n_end r0) (FI_Expression r0)))))
        (fun (r : stmt_node) (lx' : lexer) => linv lx' /\ post stmt_node F_for lx r lx') lx2).
    { walk. done. fin. }
    destruct (n_item r0) eqn:Er; try exact G. destruct op; try exact G. clear G.
    destruct (good_operands _ _ _ _ P Er) as [G1 G2]. walk. done. fin.
  Qed.
  Lemma ok_for_rest s i lx : start _ (F_for_rest s i) lx.
  Proof.
    intros L. cbn [body]. unfold body_for_rest. destruct i; walk; done; intros T G; cbn [opt map] in G; try (inversion G as [|x1 l1 C1 C2]; subst; clear G); fin.
  Qed.
  Lemma ok_for_in_from_parts s l e lx : start _ (F_for_in_from_parts s l e) lx.
  Proof. obvious. Qed.
  Lemma ok_for_in s l lx : start _ (F_for_in s l) lx.
  Proof. obvious. Qed.
  Lemma ok_for_of s l lx : start _ (F_for_of s l) lx.
  Proof. obvious. Qed.
  Lemma ok_switch lx : start _ F_switch lx.
  Proof. obvious. Qed.
  Lemma ok_import lx : start _ F_import lx.
  Proof.
    obvious. unfold unquote. walk. done. fin.
    match goal with T : is T_LiteralString (view_of ?l) = true, I : tinv ?l |- _ => destruct (import_here l I T) as [q [Q [A B]]] end.
    edg. apply some_pair in E3. destruct E3 as [<- <-]. exists q. parts. auto.
  Qed.
  Lemma good_import s t specs source : specs <> [] -> text_at src s (bs "import") -> goods (map A_Spec specs) ->
    (exists q, (q = """"%byte \/ q = "'"%byte) /\ text_before src t (quoted_name q source)) ->
    good (A_Stmt (Node s t (St_Import specs source))).
  Proof.
    intros N T G [q [Q B]]. apply good_intro; [|exact G]. destruct specs as [|x l]; [contradiction|].
    edg. apply some_pair in E. destruct E as [<- <-]. exists q. split; [exact Q|]. split; [exact B|discriminate].
  Qed.
  Lemma ok_import_rest s sp h lx : start _ (F_import_rest s sp h) lx.
  Proof.
    obvious; unfold unquote; walk; done; intros N T G.
    all: match goal with T : is T_LiteralString (view_of ?l) = true, I : tinv ?l |- _ => destruct (import_here l I T) as [q [Q [A B]]] end.
    all: apply good_import; [|exact T| |exists q; split; [exact Q|exact A]].
    all: try (rewrite map_app; apply Forall_app; split; [exact G|fin]).
    - intros E'. apply app_eq_nil in E' as [_ E']. fin. contradiction.
    - intros E'. apply app_eq_nil in E' as [_ E']. discriminate E'.
    - rewrite app_nil_r. now apply N.
  Qed.
  Lemma ok_import_specifiers lx : start _ F_import_specifiers lx.
  Proof. obvious; try discriminate. Qed.
  Theorem spec_ok R (f : fn R) lx : wp (body R f) (spec R f lx) lx.
  Proof.
    apply wpe_imp. intros L. destruct f.
    - apply ok_parse; auto.
    - apply ok_block; auto.
    - apply ok_unchecked_block; auto.
    - apply ok_raw_block; auto.
    - apply ok_items; auto.
    - apply ok_item; auto.
    - apply ok_pattern_from_expression; auto.
    - apply ok_params_from_expressions; auto.
    - apply ok_nested; auto.
    - apply ok_nested_handler; auto.
    - apply ok_sequence; auto.
    - apply ok_expr_handler; auto.
    - apply ok_expression; auto.
    - apply ok_arrow; auto.
    - apply ok_call_arguments; auto.
    - apply ok_call_arguments_rest; auto.
    - apply ok_paren; auto.
    - apply ok_prefix; auto.
    - apply ok_object; auto.
    - apply ok_meta_property; auto.
    - apply ok_property_list; auto.
    - apply ok_property_list_rest; auto.
    - apply ok_property; auto.
    - apply ok_property_value; auto.
    - apply ok_array; auto.
    - apply ok_array_elements; auto.
    - apply ok_array_elements_rest; auto.
    - apply ok_regular_expression; auto.
    - apply ok_template_string; auto.
    - apply ok_template_literal; auto.
    - apply ok_template_rest; auto.
    - apply ok_function_expression; auto.
    - apply ok_class_expression; auto.
    - apply ok_name; auto.
    - apply ok_pattern; auto.
    - apply ok_function; auto.
    - apply ok_method; auto.
    - apply ok_class_member; auto.
    - apply ok_class_member_value; auto.
    - apply ok_class; auto.
    - apply ok_pattern_array; auto.
    - apply ok_pattern_object; auto.
    - apply ok_pattern_assign; auto.
    - apply ok_pattern_array_element; auto.
    - apply ok_pattern_elements; auto.
    - apply ok_pattern_elements_rest; auto.
    - apply ok_pattern_param; auto.
    - apply ok_rest_element; auto.
    - apply ok_params; auto.
    - apply ok_params_rest; auto.
    - apply ok_stmt_handler; auto.
    - apply ok_switch_case; auto.
    - apply ok_case_body; auto.
    - apply ok_statement; auto.
    - apply ok_expect_semicolon; auto.
    - apply ok_block_statement; auto.
    - apply ok_expression_statement; auto.
    - apply ok_labeled_or_expression; auto.
    - apply ok_function_statement; auto.
    - apply ok_class_statement; auto.
    - apply ok_variable_declaration; auto.
    - apply ok_declarator; auto.
    - apply ok_declarators; auto.
    - apply ok_return; auto.
    - apply ok_break; auto.
    - apply ok_continue; auto.
    - apply ok_label; auto.
    - apply ok_throw; auto.
    - apply ok_try; auto.
    - apply ok_catch; auto.
    - apply ok_if; auto.
    - apply ok_while; auto.
    - apply ok_do; auto.
    - apply ok_for_init; auto.
    - apply ok_for; auto.
    - apply ok_for_rest; auto.
    - apply ok_for_in_from_parts; auto.
    - apply ok_for_in; auto.
    - apply ok_for_of; auto.
    - apply ok_switch; auto.
    - apply ok_import; auto.
    - apply ok_import_rest; auto.
    - apply ok_import_specifiers; auto.
  Qed.
End Pass.

(** ** Whole programs *)
Lemma parse_edges alnum src m a : (N.of_nat (List.length src) < 4294967296)%N ->
  parses_to alnum src (ParseOk m) -> in_module a m -> edges src a.
Proof.
  intros Sh H (s0 & Hi & W). apply parse_state in H as (n & lx & m' & s & H1 & H2 & E).
  destruct (p_errors s) eqn:Es; [|discriminate]. injection E as <-.
  assert (L : Structure.linv src lx).
  { split.
    - apply (consume_inv _ src) in H1; [|apply init_inv]. tauto.
    - apply (consume_text alnum (lexer_init (nul_terminated src))); [|exact H1]. apply (li_ok src _ (init_inv src)). }
  assert (G := run_wpe fn alnum body (spec src) (spec_ok alnum src Sh) _ _ _ _ _ _ _ H2 Es (spec_ok alnum src Sh _ F_parse lx)).
  destruct (G (tinv_of alnum src _ lx L H1 (li_ok src _ (init_inv src)))) as (_ & K). cbn in K. unfold goods in K. rewrite Forall_forall in K.
  exact (K (A_Stmt s0) ltac:(now apply in_map) _ W).
Qed.
