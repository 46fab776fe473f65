(** Every text in the tree of a valid UTF-8 source is valid UTF-8. *)
From Coq Require Import List NArith Bool Lia Arith String.
From Coq.Strings Require Import Byte.
From Verif Require Import Bytes Token Tables Lexer SpecLexer SpecTokens SpecRead SpecChunks SpecUtf8 LexerFacts ConsumeFacts LexEval TokenText LexProps ChunkText
  Ast SpecTree SpecCodegen Boundary Utf8Facts Prog ProgFacts Parser StateFacts ErrorFacts Structure.
Import ListNotations.
Open Scope nat_scope.

Section Pass.
  Variable alnum : N -> bool.
  Variable src : str.
  Hypothesis valid : utf8 src.

  Definition node_txt (a : any) : Prop := forall x, own_text a x -> utf8 x.
  Definition Txt (a : any) : Prop := forall b, within b a -> node_txt b.
  Definition good (a : any) : Prop := Txt a.
  Definition goods (l : list any) : Prop := Forall good l.

  Lemma Txt_node a : Txt a -> node_txt a.
  Proof. intros H. apply H. constructor. Qed.
  Lemma Txt_children a : Txt a -> Forall Txt (children a).
  Proof. intros H. apply Forall_forall. intros c I b W. apply H. econstructor; eauto. Qed.
  (** What a node itself carries. *)
  Definition own (a : any) : Prop :=
    match a with
    | A_Ident n => utf8 (n_item n)
    | A_Expr n =>
        match n_item n with
        | E_Identifier s | E_Literal (L_Number s | L_Binary s | L_String s | L_RegEx s) => utf8 s
        | _ => True
        end
    | A_Prop n => match n_item n with P_Shorthand s => utf8 s | _ => True end
    | A_Key n => match n_item n with Key_Literal s | Key_Binary s => utf8 s | _ => True end
    | A_Pat n => match n_item n with Pat_Identifier s => utf8 s | _ => True end
    | A_Stmt n => match n_item n with St_Labeled l _ => utf8 l | St_Import _ s => utf8 s | _ => True end
    | _ => True
    end.
  Lemma own_node a : own a -> node_txt a.
  Proof.
    unfold own, node_txt, own_text. intros H x.
    destruct a as [n|n| n|n|n|n|n|n|n|n|n|n|n|n|n|n|n]; try (intros []; fail).
    - now intros ->.
    - destruct (n_item n) as [ | |s|l| | | | | | | | | | | | | | | | | ]; try (intros []; fail); [now intros ->|]. destruct l; try (intros []; fail); now intros ->.
    - destruct (n_item n); try (intros []; fail); now intros ->.
    - destruct (n_item n); try (intros []; fail); now intros ->.
    - destruct (n_item n); try (intros []; fail); now intros ->.
    - destruct (n_item n); try (intros []; fail); now intros ->.
  Qed.
  Lemma Txt_intro a : own a -> goods (children a) -> Txt a.
  Proof.
    intros H K b W. inversion W as [x|x y c I W']; subst; [now apply own_node|].
    unfold goods in K. rewrite Forall_forall in K. exact (K _ I _ W').
  Qed.
  Lemma txt_text s t x : good (A_Expr (Node s t (E_Identifier x))) -> utf8 x.
  Proof. intros G. apply (Txt_node _ G). reflexivity. Qed.
  Lemma good_operands n op l r : Txt (A_Expr n) -> n_item n = E_Binary op l r -> good (A_Expr l) /\ good (A_Expr r).
  Proof.
    intros H E. apply Txt_children in H. cbn in H. rewrite E in H. cbn in H.
    inversion H as [|x1 l1 C1 C']; subst. inversion C' as [|x2 l2 C2 _]; subst. split; auto.
  Qed.
  Lemma good_elements n es : Txt (A_Expr n) -> n_item n = E_Sequence es -> goods (map A_Expr es).
  Proof. intros H E. apply Txt_children in H. cbn in H. rewrite E in H. exact H. Qed.
  Lemma good_template s e (t : node template) : good (A_Tpl t) -> good (A_Expr (Node s e (E_Template (n_item t)))).
  Proof. intros H. apply Txt_intro; [exact I|]. apply Txt_children in H. exact H. Qed.

  (** ** The lexer *)
  Notation linv := (uinv src).
  Lemma text_ u lx : linv lx -> u = v_text (view_of lx) -> utf8 u.
  Proof. intros L ->. now apply (text_utf8 src). Qed.
  Lemma u_consume lx lx' : linv lx -> consume alnum lx = Done lx' -> linv lx'.
  Proof. intros U H. eapply uinv_consume; [exact valid|apply U|apply U|exact H]. Qed.
  Lemma u_template lx lx' : linv lx -> read_template_kind lx = Done lx' -> linv lx'.
  Proof. apply uinv_template. exact valid. Qed.
  Lemma u_regex lx v lx' : linv lx -> read_regular_expression lx = Done (v, lx') -> linv lx'.
  Proof. apply uinv_regex. Qed.
  Lemma token_is t lx : lx_token lx = t -> is t (view_of lx) = true.
  Proof. intros <-. unfold is. cbn [view_of v_token]. now destruct (lx_token lx). Qed.
  Lemma quasi_ lx : linv lx -> lx_token lx = T_TemplateOpen \/ lx_token lx = T_TemplateClosed -> utf8 (v_quasi (view_of lx)).
  Proof. intros L. apply (u_quasi _ _ L). Qed.
  Lemma acc_ lx : linv lx -> lx_token lx = T_Accessor -> utf8 (v_accessor (view_of lx)).
  Proof. intros L. apply (u_acc _ _ L). Qed.
  Lemma unquote_utf8 lx : linv lx -> is T_LiteralString (view_of lx) = true ->
    utf8 (firstn (List.length (v_text (view_of lx)) - 2) (tl (v_text (view_of lx)))).
  Proof.
    intros L E. apply is_true in E. assert (Q := tx_string _ (u_text _ _ L) E). assert (U := text_utf8 _ valid _ L).
    cbn [v_text view_of]. destruct Q as (q & s & Hq & _ & Es). rewrite Es in U |- *.
    assert (Aq : ascii q = true) by (destruct Hq as [-> | ->]; reflexivity).
    cbn [List.length tl]. rewrite app_length. cbn [List.length]. replace (S (List.length s + 1) - 2) with (List.length s) by lia.
    rewrite firstn_app, Nat.sub_diag, firstn_all. cbn [firstn]. rewrite app_nil_r.
    assert (S : Boundary.start (s ++ [q])). { destruct U as [n U]. apply utf8_bd in U. eapply bd_cons; [apply U|exact Aq]. }
    apply (utf8_split [q]) in U as [_ U]; [|exact S]. apply utf8_split in U; [apply U|]. apply (bd_ascii q []); [|exact Aq]. split; [intros _; exact I|exact I]. 
  Qed.
  (** The tokens at which templates and accessors begin. *)
  Definition opens_with (h : expr_handler) (t : token) : Prop :=
    match h with X_TPLS => t = T_TemplateClosed | X_TPLE => t = T_TemplateOpen | _ => True end.
  Lemma bound_opens c v : opens_with (bound_handler c v) (v_token v).
  Proof. unfold bound_handler. destruct (v_token v), c; try exact I; reflexivity. Qed.
  Definition stmt_opens (h : stmt_handler) (t : token) : Prop :=
    match h with S_TPLS => t = T_TemplateClosed | S_TPLE => t = T_TemplateOpen | _ => True end.
  Lemma statement_opens v : stmt_opens (statement_handler v) (v_token v).
  Proof. unfold statement_handler. destruct (v_token v); try exact I; reflexivity. Qed.
  Definition nested_opens (h : nested_handler) (t : token) : Prop :=
    match h with N_TPLS => t = T_TemplateClosed | N_TPLE => t = T_TemplateOpen | N_ACCS => t = T_Accessor | _ => True end.
  Definition nested_opensb (h : nested_handler) (t : token) : bool :=
    match h with N_TPLS => token_eqb t T_TemplateClosed | N_TPLE => token_eqb t T_TemplateOpen | N_ACCS => token_eqb t T_Accessor | _ => true end.
  Lemma lut_opens b t h : nth (token_index t) (LUT b) None = Some h -> nested_opens h t.
  Proof.
    assert (G : forallb (fun t => match nth (token_index t) (LUT b) None with Some h => nested_opensb h t | None => true end)
      all_tokens = true) by (destruct b; vm_compute; reflexivity).
    rewrite forallb_forall in G. specialize (G t (in_all_tokens t)). intros H. rewrite H in G.
    destruct h; try exact I; now apply token_eqb_eq.
  Qed.
  Lemma handler_opens b v h : handler b v = Some h -> nested_opens h (v_token v).
  Proof.
    unfold handler. destruct (v_asi v); try apply lut_opens.
    destruct (is T_OperatorIncrement v || is T_OperatorDecrement v)%bool; [discriminate|apply lut_opens].
  Qed.

  Definition item_any {T : Set} (i : item T) : node T -> any :=
    match i with I_Statement => A_Stmt | I_Member => A_Member | I_Case => A_Case end.
  Definition block_any {T : Set} (i : item T) : node (block T) -> any :=
    match i with I_Statement => A_Body | I_Member => A_ClassBody | I_Case => A_Cases end.

  Definition post (R : Set) (f : fn R) (lx : lexer) : R -> lexer -> Prop :=
    match f in fn R return R -> lexer -> Prop with
    | F_parse => fun m _ => goods (map A_Stmt m)
    | F_block i => fun b _ => good (block_any i b)
    | F_unchecked_block i => fun b _ => good (block_any i b)
    | F_raw_block i => fun b _ => goods (map (item_any i) (b_body b))
    | F_items i => fun l _ => goods (map (item_any i) l)
    | F_item i => fun x _ => good (item_any i x)
    | F_pattern_from_expression e => fun p _ => good (A_Expr e) -> good (A_Pat p)
    | F_params_from_expressions es => fun ps _ => goods (map A_Expr es) -> goods (map A_Pat ps)
    | F_nested _ l0 => fun r _ => good (A_Expr l0) -> good (A_Expr r)
    | F_nested_handler h l0 => fun r _ => nested_opens h (lx_token lx) -> good (A_Expr l0) -> good (A_Expr r)
    | F_sequence => fun es _ => goods (map A_Expr es)
    | F_expr_handler h => fun r _ => handler_token h (lx_token lx) -> opens_with h (lx_token lx) -> good (A_Expr r)
    | F_expression _ _ => fun r _ => good (A_Expr r)
    | F_arrow ps => fun e _ => goods (map A_Expr ps) -> forall s t, good (A_Expr (Node s t e))
    | F_call_arguments | F_call_arguments_rest => fun es _ => goods (map A_Expr es)
    | F_paren => fun r _ => good (A_Expr r)
    | F_prefix _ => fun e _ => forall s t, good (A_Expr (Node s t e))
    | F_object => fun r _ => good (A_Expr r)
    | F_meta_property i => fun e _ => good (A_Ident i) -> lx_token lx = T_Accessor -> forall s t, good (A_Expr (Node s t e))
    | F_property_list | F_property_list_rest => fun ps _ => goods (map A_Prop ps)
    | F_property => fun p _ => good (A_Prop p)
    | F_property_value _ key => fun p _ => good (A_Key key) -> good (A_Prop p)
    | F_array => fun r _ => good (A_Expr r)
    | F_array_elements | F_array_elements_rest => fun es _ => goods (map A_Expr es)
    | F_regular_expression => fun r _ => lx_token lx = T_OperatorDivision -> good (A_Expr r)
    | F_template_string => fun t _ => lx_token lx = T_TemplateClosed -> good (A_Tpl t)
    | F_template_literal => fun t _ => lx_token lx = T_TemplateOpen -> good (A_Tpl t)
    | F_template_rest => fun r _ => goods (map A_Expr (snd (fst r))) /\ goods (map A_Ident (fst (fst r)))
    | F_function_expression | F_class_expression => fun r _ => good (A_Expr r)
    | F_name _ => fun n _ => goods (children_name n)
    | F_pattern => fun p _ => good (A_Pat p)
    | F_function _ => fun f _ => goods (children_func f)
    | F_method => fun f _ => good (A_Func f)
    | F_class_member => fun m _ => good (A_Member m)
    | F_class_member_value _ _ _ key => fun m _ => good (A_Key key) -> good (A_Member m)
    | F_class _ => fun c _ => goods (children_class c)
    | F_pattern_array | F_pattern_object => fun p _ => good (A_Pat p)
    | F_pattern_assign l0 => fun p _ => good (A_Pat l0) -> good (A_Pat p)
    | F_pattern_array_element => fun p _ => good (A_Pat p)
    | F_pattern_elements | F_pattern_elements_rest => fun ps _ => goods (map A_Pat ps)
    | F_pattern_param => fun p _ => good (A_Pat p)
    | F_rest_element => fun p _ => good (A_Pat p)
    | F_params | F_params_rest => fun ps _ => goods (map A_Pat ps)
    | F_stmt_handler h => fun r _ => stmt_token h (lx_token lx) -> stmt_opens h (lx_token lx) -> good (A_Stmt r)
    | F_switch_case => fun r _ => good (A_Case r)
    | F_case_body _ => fun r _ => goods (map A_Stmt (fst r))
    | F_statement => fun r _ => good (A_Stmt r)
    | F_expect_semicolon => fun _ _ => True
    | F_block_statement => fun r _ => good (A_Stmt r)
    | F_expression_statement e => fun r _ => good (A_Expr e) -> good (A_Stmt r)
    | F_labeled_or_expression => fun r _ => good (A_Stmt r)
    | F_function_statement | F_class_statement => fun r _ => good (A_Stmt r)
    | F_variable_declaration _ => fun r _ => good (A_Stmt r)
    | F_declarator => fun r _ => good (A_Declarator r)
    | F_declarators => fun r _ => goods (map A_Declarator r)
    | F_return | F_break | F_continue | F_throw | F_try | F_if | F_while | F_do | F_for | F_switch =>
        fun r _ => good (A_Stmt r)
    | F_label => fun r _ => goods (opt A_Ident (fst r))
    | F_catch => fun r _ => good (A_Catch r)
    | F_for_init _ => fun r _ => good (A_ForInit r)
    | F_for_rest _ i => fun r _ => goods (opt A_ForInit i) -> good (A_Stmt r)
    | F_for_in_from_parts _ l e => fun r _ => good (A_ForInit l) -> good (A_Expr e) -> good (A_Stmt r)
    | F_for_in _ l | F_for_of _ l => fun r _ => good (A_ForInit l) -> good (A_Stmt r)
    | F_import => fun r _ => good (A_Stmt r)
    | F_import_rest _ specs _ => fun r _ => goods (map A_Spec specs) -> good (A_Stmt r)
    | F_import_specifiers => fun r _ => goods (map A_Spec r)
    end.
  Definition pre (R : Set) (f : fn R) : lexer -> Prop :=
    linv.
  Definition spec (R : Set) (f : fn R) (lx : lexer) (r : R) (lx' : lexer) : Prop :=
    pre R f lx -> linv lx' /\ post R f lx r lx'.

  Notation wp := (wpe fn alnum spec).

  Lemma wpe_imp {A} (H : Prop) (p : P A) Q lx : (H -> wp p Q lx) -> wp p (fun a lx' => H -> Q a lx') lx.
  Proof.
    revert lx; induction p as [a|k IH|k IH|k IH|k IH|k IH| |R f k IH]; simpl; intros lx G; auto.
  Qed.

  Ltac simp := cbn [wpe bind look consume_ read_template read_regex fail_with error_ call expect
    start_then_consume end_then_consume get_end get_start identifier_ pattern_identifier token_expression
    unquote expression_handler_statement jump_statement postfix_handler assign_handler binary_handler].
  Ltac walk1 :=
    match goal with
    | |- wpe _ _ _ (if ?b then _ else _) _ _ => let E := fresh "E" in destruct b eqn:E
    | |- wpe _ _ _ (bind (if ?b then _ else _) _) _ _ => let E := fresh "E" in destruct b eqn:E
    | |- wpe _ _ _ (match ?o with Some _ => _ | None => _ end) _ _ => let E := fresh "E" in destruct o eqn:E
    | |- wpe _ _ _ (match ?o with NoSemicolon => _ | _ => _ end) _ _ => let E := fresh "E" in destruct o eqn:E
    | |- wpe _ _ _ (bind (bind _ _) _) _ _ => apply wpe_bind
    | L : uinv _ ?lx |- forall lx', consume alnum ?lx = Done lx' -> _ =>
        let lx' := fresh "lx" in let H := fresh "Hc" in let L' := fresh "L" in
        intros lx' H; assert (L' := u_consume _ _ L H)
    | L : uinv _ ?lx |- forall lx', read_template_kind ?lx = Done lx' -> _ =>
        let lx' := fresh "lx" in let H := fresh "Hc" in let L' := fresh "L" in
        intros lx' H; assert (L' := u_template _ _ L H)
    | L : uinv _ ?lx |- forall v lx', read_regular_expression ?lx = Done (v, lx') -> _ =>
        let lx' := fresh "lx" in let H := fresh "Hc" in let L' := fresh "L" in let v := fresh "v" in
        intros v lx' H; assert (L' := u_regex _ _ _ L H)
    | L : uinv _ ?lx |- forall r lx', spec _ _ ?lx r lx' -> _ =>
        let lx' := fresh "lx" in let H := fresh "S" in let L' := fresh "L" in let v := fresh "r" in
        let P := fresh "P" in
        intros v lx' H; destruct (H L) as [L' P]; clear H; cbn [post] in P
    | |- True => exact I
    end.
  Ltac walk := simp; repeat (walk1; simp).
  Ltac done := match goal with L : uinv _ ?lx |- uinv _ ?lx /\ _ => split; [exact L|]; cbn [post] end.
  Ltac txt := match goal with
    | |- utf8 (bs _) => apply utf8_ascii; reflexivity
    | L : uinv _ ?lx |- utf8 (v_text (view_of ?lx)) => exact (text_utf8 _ valid _ L)
    | L : uinv _ ?lx |- utf8 (v_quasi (view_of ?lx)) => apply (quasi_ _ L); solve [left; first [assumption|apply is_true; assumption]|right; first [assumption|apply is_true; assumption]]
    | L : uinv _ ?lx |- utf8 (v_accessor (view_of ?lx)) => apply (acc_ _ L); first [assumption|apply is_true; assumption]
    | L : uinv _ ?lx |- utf8 (firstn _ (tl (v_text (view_of ?lx)))) => apply (unquote_utf8 _ L); assumption
    | H : utf8 ?x |- utf8 ?x => exact H
    end.
  Ltac fin0 := match goal with
    | H : good ?a |- good ?a => exact H
    | H : forall s t, good (A_Expr (Node s t ?e)) |- good (A_Expr (Node _ _ ?e)) => apply H
    | |- good _ => apply Txt_intro; [cbn [own n_item]; first [exact I | txt | idtac]|]
    | E : handler ?b (view_of ?lx) = Some ?h |- nested_opens ?h (lx_token ?lx) => exact (handler_opens _ _ _ E)
    | |- opens_with (bound_handler ?c (view_of ?lx)) (lx_token ?lx) => exact (bound_opens c (view_of lx))
    | |- handler_token (bound_handler ?c (view_of ?lx)) (lx_token ?lx) => apply bound_token
    | |- stmt_opens (statement_handler (view_of ?lx)) (lx_token ?lx) => exact (statement_opens (view_of lx))
    | |- stmt_token (statement_handler (view_of ?lx)) (lx_token ?lx) => apply statement_token
    | H : ?A |- ?A => exact H
    | E : is ?t (view_of ?lx) = true |- lx_token ?lx = ?t => exact (is_true _ _ E)
    | H : lx_token ?lx = ?t |- is ?t (view_of ?lx) = true => exact (token_is _ _ H)
    | H : _ /\ _ |- _ => destruct H
    | |- goods _ => unfold goods
    | H : Forall good ?l |- Forall good ?l => exact H
    | |- Forall _ (map _ (_ ++ _)) => rewrite map_app
    | |- Forall _ [] => apply Forall_nil
    | |- Forall _ (_ :: _) => apply Forall_cons
    | |- Forall _ (_ ++ _) => apply Forall_app; split
    | |- _ -> _ => intro
    end.
  Ltac red_all := unfold in_loc, goods in *; cbn [children n_item children_expression children_statement children_func children_class opt
      children_name children_template map app b_body fst snd item_any block_any opens_with nested_opens stmt_opens handler_token stmt_token] in *.
  Ltac core := red_all; repeat (fin0; red_all).
  Ltac isprop A := lazymatch type of A with Prop => idtac end.
  Ltac feed1 := match goal with
    | H : ?A -> _ |- _ => isprop A; let K := fresh "K" in assert (K : A) by (clear H; solve [core]); specialize (H K); clear K
    end.
  Ltac fin := intros; repeat feed1; core.
  Notation "'start' R f lx" := (pre R f lx -> wp (body R f) (fun r lx' => linv lx' /\ post R f lx r lx') lx) (at level 10, R at level 9, f at level 9, lx at level 9).
  Ltac obvious := intros L; unfold pre in L; cbn [body];
    cbv delta [body_parse body_raw_block body_items body_item body_block body_unchecked_block body_pattern_from_expression
      body_params_from_expressions body_nested body_nested_handler body_sequence body_expression
      body_arrow body_call_arguments body_call_arguments_rest body_paren body_prefix body_object body_meta_property
      body_property_list body_property_list_rest body_property body_property_value body_array body_array_elements
      body_array_elements_rest body_regular_expression body_template_string body_template_literal body_template_rest
      body_function_expression body_class_expression body_name body_pattern body_function body_method body_class_member
      body_class_member_value body_class body_pattern_array body_pattern_object body_pattern_assign body_pattern_array_element
      body_pattern_elements body_pattern_elements_rest body_pattern_param body_rest_element body_params body_params_rest
      body_switch_case body_case_body body_statement body_expect_semicolon body_block_statement body_expression_statement
      body_labeled_or_expression body_function_statement body_class_statement body_variable_declaration body_declarator
      body_declarators body_return body_break body_continue body_label body_throw body_try body_catch body_if body_while body_do
      body_for_init body_for body_for_rest body_for_in_from_parts body_for_in body_for_of body_switch body_import body_import_rest
      body_import_specifiers]; cbv beta zeta; walk; try done; try solve [fin].

  Lemma ok_parse lx : start _ F_parse lx.
  Proof. obvious. Qed.
  Lemma ok_raw_block T (i : item T) lx : start _ (F_raw_block i) lx.
  Proof. obvious. Qed.
  Lemma ok_items T (i : item T) lx : start _ (F_items i) lx.
  Proof. obvious. Qed.
  Lemma ok_item T (i : item T) lx : start _ (F_item i) lx.
  Proof. destruct i; obvious. Qed.
  Lemma ok_block T (i : item T) lx : start _ (F_block i) lx.
  Proof. destruct i; obvious. Qed.
  Lemma ok_unchecked_block T (i : item T) lx : start _ (F_unchecked_block i) lx.
  Proof. destruct i; obvious. Qed.
  Lemma ok_pattern_from_expression e lx : start _ (F_pattern_from_expression e) lx.
  Proof.
    intros L. unfold pre in L. cbn [body]. unfold body_pattern_from_expression. destruct (n_item e) eqn:E; walk.
    - done. intros G. apply Txt_node in G. assert (G' : utf8 s) by (apply G; cbn; now rewrite E). fin.
    - destruct op; walk. done. intros G. destruct (good_operands _ _ _ _ G E). fin.
  Qed.
  Lemma ok_params_from_expressions es lx : start _ (F_params_from_expressions es) lx.
  Proof.
    intros L. unfold pre in L. cbn [body]. unfold body_params_from_expressions. destruct es; walk; done; intros G; cbn [map] in *; try solve [fin].
    inversion G; subst. fin.
  Qed.
  Lemma ok_nested b l lx : start _ (F_nested b l) lx.
  Proof. obvious. Qed.
  Lemma ok_nested_handler h l lx : start _ (F_nested_handler h l) lx.
  Proof.
    intros L. unfold pre in L. cbn [body]. destruct h; cbn [body_nested_handler]; walk; try done; try solve [fin].
    intros _ G. apply P. destruct (n_item l) eqn:E; try solve [fin]. apply (good_elements l); auto.
  Qed.
  Lemma ok_sequence lx : start _ F_sequence lx.
  Proof. obvious. Qed.
  Lemma ok_expr_handler h lx : start _ (F_expr_handler h) lx.
  Proof.
    intros L. unfold pre in L. cbn [body]. destruct h; cbn [body_expr_handler]; walk; try done; try solve [fin]; try solve [auto].
    intros _ Ho. apply good_template, P, Ho.
  Qed.
  Lemma ok_expression c b lx : start _ (F_expression c b) lx.
  Proof. obvious. Qed.
  Lemma ok_arrow ps lx : start _ (F_arrow ps) lx.
  Proof. obvious. Qed.
  Lemma ok_call_arguments lx : start _ F_call_arguments lx.
  Proof. obvious. Qed.
  Lemma ok_call_arguments_rest lx : start _ F_call_arguments_rest lx.
  Proof. obvious. Qed.
  Lemma ok_paren lx : start _ F_paren lx.
  Proof. obvious. Qed.
  Lemma ok_prefix op lx : start _ (F_prefix op) lx.
  Proof. obvious. Qed.
  Lemma ok_object lx : start _ F_object lx.
  Proof. obvious. Qed.
  Lemma ok_meta_property m lx : start _ (F_meta_property m) lx.
  Proof. obvious. Qed.
  Lemma ok_property_list lx : start _ F_property_list lx.
  Proof. obvious. Qed.
  Lemma ok_property_list_rest lx : start _ F_property_list_rest lx.
  Proof. obvious. Qed.
  Lemma ok_property lx : start _ F_property lx.
  Proof. obvious. Qed.
  Lemma ok_property_value s k lx : start _ (F_property_value s k) lx.
  Proof. obvious. Qed.
  Lemma ok_array lx : start _ F_array lx.
  Proof. obvious. Qed.
  Lemma ok_array_elements lx : start _ F_array_elements lx.
  Proof. obvious. Qed.
  Lemma ok_array_elements_rest lx : start _ F_array_elements_rest lx.
  Proof. obvious. Qed.
  Lemma ok_regular_expression lx : start _ F_regular_expression lx.
  Proof.
    obvious. intros H. apply Txt_intro; [|constructor]. cbn [own n_item].
    eapply (regex_utf8 src valid); [exact L|exact H|exact Hc|now apply is_true].
  Qed.
  Lemma ok_template_string lx : start _ F_template_string lx.
  Proof. obvious. Qed.
  Lemma ok_template_literal lx : start _ F_template_literal lx.
  Proof. obvious. destruct r1 as [[qs es] e]. walk. done. fin. Qed.
  Lemma ok_template_rest lx : start _ F_template_rest lx.
  Proof. obvious. - destruct r1 as [[qs es] e]. walk. done. split; fin. - cbn [fst snd]. split; fin. Qed.
  Lemma ok_function_expression lx : start _ F_function_expression lx.
  Proof. obvious. Qed.
  Lemma ok_class_expression lx : start _ F_class_expression lx.
  Proof. obvious. Qed.
  Lemma ok_name k lx : start _ (F_name k) lx.
  Proof. destruct k; obvious. Qed.
  Lemma ok_pattern lx : start _ F_pattern lx.
  Proof. obvious. Qed.
  Lemma ok_function k lx : start _ (F_function k) lx.
  Proof. obvious. Qed.
  Lemma ok_method lx : start _ F_method lx.
  Proof. obvious. Qed.
  Lemma ok_class_member lx : start _ F_class_member lx.
  Proof. obvious. Qed.
  Lemma ok_class_member_value s st k key lx : start _ (F_class_member_value s st k key) lx.
  Proof. obvious. Qed.
  Lemma ok_class k lx : start _ (F_class k) lx.
  Proof. obvious. Qed.
  Lemma ok_pattern_array lx : start _ F_pattern_array lx.
  Proof. obvious. Qed.
  Lemma ok_pattern_object lx : start _ F_pattern_object lx.
  Proof. obvious. Qed.
  Lemma ok_pattern_assign l lx : start _ (F_pattern_assign l) lx.
  Proof. obvious. Qed.
  Lemma ok_pattern_array_element lx : start _ F_pattern_array_element lx.
  Proof. obvious. Qed.
  Lemma ok_pattern_elements lx : start _ F_pattern_elements lx.
  Proof. obvious. Qed.
  Lemma ok_pattern_elements_rest lx : start _ F_pattern_elements_rest lx.
  Proof. obvious. Qed.
  Lemma ok_pattern_param lx : start _ F_pattern_param lx.
  Proof. obvious. Qed.
  Lemma ok_rest_element lx : start _ F_rest_element lx.
  Proof. obvious. Qed.
  Lemma ok_params lx : start _ F_params lx.
  Proof. obvious. Qed.
  Lemma ok_params_rest lx : start _ F_params_rest lx.
  Proof. obvious. Qed.
  Lemma ok_stmt_handler h lx : start _ (F_stmt_handler h) lx.
  Proof. intros L. unfold pre in L. cbn [body]. destruct h; cbn [body_stmt_handler]; walk; try done; try solve [fin]; try intros Ha; try solve [auto]. Qed.
  Lemma ok_switch_case lx : start _ F_switch_case lx.
  Proof. obvious; match goal with r : (list _ * _)%type |- _ => destruct r as [ss e'] end; walk; done; fin. Qed.
  Lemma ok_case_body e lx : start _ (F_case_body e) lx.
  Proof. obvious. destruct r1 as [ss e']; walk; done; fin. Qed.
  Lemma ok_statement lx : start _ F_statement lx.
  Proof. obvious. Qed.
  Lemma ok_expect_semicolon lx : start _ F_expect_semicolon lx.
  Proof. obvious; exact I. Qed.
  Lemma ok_block_statement lx : start _ F_block_statement lx.
  Proof. obvious. Qed.
  Lemma ok_expression_statement e lx : start _ (F_expression_statement e) lx.
  Proof. obvious. Qed.
  Lemma ok_labeled_or_expression lx : start _ F_labeled_or_expression lx.
  Proof. obvious. Qed.
  Lemma ok_function_statement lx : start _ F_function_statement lx.
  Proof. obvious. Qed.
  Lemma ok_class_statement lx : start _ F_class_statement lx.
  Proof. obvious. Qed.
  Lemma ok_variable_declaration k lx : start _ (F_variable_declaration k) lx.
  Proof. obvious. Qed.
  Lemma ok_declarator lx : start _ F_declarator lx.
  Proof. obvious. Qed.
  Lemma ok_declarators lx : start _ F_declarators lx.
  Proof. obvious. Qed.
  Lemma ok_return lx : start _ F_return lx.
  Proof. obvious. Qed.
  Lemma ok_break lx : start _ F_break lx.
  Proof. obvious. destruct r0 as [[l|] e]; walk; done; fin. Qed.
  Lemma ok_continue lx : start _ F_continue lx.
  Proof. obvious. destruct r0 as [[l|] e]; walk; done; fin. Qed.
  Lemma ok_label lx : start _ F_label lx.
  Proof. obvious. Qed.
  Lemma ok_throw lx : start _ F_throw lx.
  Proof. obvious. Qed.
  Lemma ok_try lx : start _ F_try lx.
  Proof. obvious. Qed.
  Lemma ok_catch lx : start _ F_catch lx.
  Proof. obvious. Qed.
  Lemma ok_if lx : start _ F_if lx.
  Proof. obvious. Qed.
  Lemma ok_while lx : start _ F_while lx.
  Proof. obvious. Qed.
  Lemma ok_do lx : start _ F_do lx.
  Proof. obvious. Qed.
  Lemma ok_for_init k lx : start _ (F_for_init k) lx.
  Proof. obvious. Qed.
  Lemma ok_for lx : start _ F_for lx.
  Proof.
    obvious.
    assert (G : wp (call (F_for_rest (v_start (view_of lx)) (Some (Node (n_start r0) (n_end r0) (FI_Expression r0)))))
        (fun (r : stmt_node) (lx' : lexer) => linv lx' /\ post stmt_node F_for lx r lx') lx2).
    { walk. done. fin. }
    destruct (n_item r0) eqn:Er; try exact G. destruct op; try exact G. clear G.
    destruct (good_operands _ _ _ _ P Er) as [G1 G2]. walk. done. fin.
  Qed.
  Lemma ok_for_rest s i lx : start _ (F_for_rest s i) lx.
  Proof.
    intros L. unfold pre in L. cbn [body]. unfold body_for_rest. destruct i; walk; done; intros G; cbn [opt] in G; try (inversion G as [|x1 l1 C1 C2]; subst; clear G); fin.
  Qed.
  Lemma ok_for_in_from_parts s l e lx : start _ (F_for_in_from_parts s l e) lx.
  Proof. obvious. Qed.
  Lemma ok_for_in s l lx : start _ (F_for_in s l) lx.
  Proof. obvious. Qed.
  Lemma ok_for_of s l lx : start _ (F_for_of s l) lx.
  Proof. obvious. Qed.
  Lemma ok_switch lx : start _ F_switch lx.
  Proof. obvious. Qed.
  Lemma ok_import lx : start _ F_import lx.
  Proof. obvious. unfold unquote. walk. done. fin. Qed.
  Lemma ok_import_rest s sp h lx : start _ (F_import_rest s sp h) lx.
  Proof. obvious; unfold unquote; walk; done; fin. Qed.
  Lemma ok_import_specifiers lx : start _ F_import_specifiers lx.
  Proof. obvious. Qed.
  Theorem spec_ok R (f : fn R) lx : wp (body R f) (spec R f lx) lx.
  Proof.
    apply wpe_imp. intros L. destruct f.
    - apply ok_parse; auto.
    - apply ok_block; auto.
    - apply ok_unchecked_block; auto.
    - apply ok_raw_block; auto.
    - apply ok_items; auto.
    - apply ok_item; auto.
    - apply ok_pattern_from_expression; auto.
    - apply ok_params_from_expressions; auto.
    - apply ok_nested; auto.
    - apply ok_nested_handler; auto.
    - apply ok_sequence; auto.
    - apply ok_expr_handler; auto.
    - apply ok_expression; auto.
    - apply ok_arrow; auto.
    - apply ok_call_arguments; auto.
    - apply ok_call_arguments_rest; auto.
    - apply ok_paren; auto.
    - apply ok_prefix; auto.
    - apply ok_object; auto.
    - apply ok_meta_property; auto.
    - apply ok_property_list; auto.
    - apply ok_property_list_rest; auto.
    - apply ok_property; auto.
    - apply ok_property_value; auto.
    - apply ok_array; auto.
    - apply ok_array_elements; auto.
    - apply ok_array_elements_rest; auto.
    - apply ok_regular_expression; auto.
    - apply ok_template_string; auto.
    - apply ok_template_literal; auto.
    - apply ok_template_rest; auto.
    - apply ok_function_expression; auto.
    - apply ok_class_expression; auto.
    - apply ok_name; auto.
    - apply ok_pattern; auto.
    - apply ok_function; auto.
    - apply ok_method; auto.
    - apply ok_class_member; auto.
    - apply ok_class_member_value; auto.
    - apply ok_class; auto.
    - apply ok_pattern_array; auto.
    - apply ok_pattern_object; auto.
    - apply ok_pattern_assign; auto.
    - apply ok_pattern_array_element; auto.
    - apply ok_pattern_elements; auto.
    - apply ok_pattern_elements_rest; auto.
    - apply ok_pattern_param; auto.
    - apply ok_rest_element; auto.
    - apply ok_params; auto.
    - apply ok_params_rest; auto.
    - apply ok_stmt_handler; auto.
    - apply ok_switch_case; auto.
    - apply ok_case_body; auto.
    - apply ok_statement; auto.
    - apply ok_expect_semicolon; auto.
    - apply ok_block_statement; auto.
    - apply ok_expression_statement; auto.
    - apply ok_labeled_or_expression; auto.
    - apply ok_function_statement; auto.
    - apply ok_class_statement; auto.
    - apply ok_variable_declaration; auto.
    - apply ok_declarator; auto.
    - apply ok_declarators; auto.
    - apply ok_return; auto.
    - apply ok_break; auto.
    - apply ok_continue; auto.
    - apply ok_label; auto.
    - apply ok_throw; auto.
    - apply ok_try; auto.
    - apply ok_catch; auto.
    - apply ok_if; auto.
    - apply ok_while; auto.
    - apply ok_do; auto.
    - apply ok_for_init; auto.
    - apply ok_for; auto.
    - apply ok_for_rest; auto.
    - apply ok_for_in_from_parts; auto.
    - apply ok_for_in; auto.
    - apply ok_for_of; auto.
    - apply ok_switch; auto.
    - apply ok_import; auto.
    - apply ok_import_rest; auto.
    - apply ok_import_specifiers; auto.
  Qed.
End Pass.

(** ** Whole programs *)
Lemma parse_utf8 alnum src m a x : utf8 src -> parses_to alnum src (ParseOk m) -> in_module a m -> own_text a x -> utf8 x.
Proof.
  intros V H (s0 & Hi & W) X. apply parse_state in H as (n & lx & m' & s & H1 & H2 & E).
  destruct (p_errors s) eqn:Es; [|discriminate]. injection E as <-.
  assert (G := run_wpe fn alnum body (spec src) (spec_ok alnum src V) _ _ _ _ _ _ _ H2 Es (spec_ok alnum src V _ F_parse lx)).
  destruct (G (new_uinv alnum src V lx H1)) as (_ & K). cbn in K. unfold goods in K. rewrite Forall_forall in K.
  exact (K (A_Stmt s0) (in_map _ _ _ Hi) _ W _ X).
Qed.
