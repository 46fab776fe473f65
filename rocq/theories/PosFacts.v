(** Positions of the nodes of error-free parses. *)
From Coq Require Import List NArith Bool Lia Arith String.
From Coq.Strings Require Import Byte.
From Verif Require Import Bytes Token Tables Lexer LexerFacts ConsumeFacts
  Ast SpecPos Prog ProgFacts Parser StateFacts ErrorFacts Structure.
Import ListNotations.
Open Scope N_scope.

Section Pass.
  Variable alnum : N -> bool.
  Variable src : str.
  Hypothesis short : N.of_nat (List.length src) < 4294967296.
  Notation len := (N.of_nat (List.length src)).
  Notation st := start_of.
  Notation en := end_of.

  (** ** Trees *)
  Definition node_pos (a : any) : Prop :=
    located src a /\ forall c, In c (children a) -> (inside c a \/ callee_of c a) /\ en c <= en a.
  Definition Loc (a : any) : Prop := forall b, within b a -> node_pos b.
  Definition ins (lo hi : N) (a : any) : Prop := Loc a /\ lo <= st a /\ en a <= hi.

  Lemma Loc_node a : Loc a -> node_pos a.
  Proof. intros H. apply H. constructor. Qed.
  Lemma Loc_order a : Loc a -> st a <= en a /\ en a <= len.
  Proof. intros H. apply Loc_node in H as [H _]. exact H. Qed.
  Lemma Loc_children a : Loc a -> Forall Loc (children a).
  Proof. intros H. apply Forall_forall. intros c I b W. apply H. econstructor; eauto. Qed.
  Lemma Loc_build a : node_pos a -> Forall Loc (children a) -> Loc a.
  Proof.
    intros H K b W. inversion W as [x|x y c I W']; subst; auto.
    rewrite Forall_forall in K. exact (K _ I _ W').
  Qed.
  Lemma Loc_intro a : st a <= en a -> en a <= len -> Forall (ins (st a) (en a)) (children a) -> Loc a.
  Proof.
    intros H1 H2 H. rewrite Forall_forall in H. apply Loc_build.
    - split; [split; auto|]. intros c I. destruct (H c I) as (_ & H3 & H4). split; auto. left. split; auto.
    - apply Forall_forall. intros c I. apply H, I.
  Qed.
  Lemma Loc_call s e f args : s <= e -> e <= len -> Loc (A_Expr f) -> n_end f <= e ->
    Forall (ins s e) (map A_Expr args) -> Loc (A_Expr (Node s e (E_Call f args))).
  Proof.
    intros H1 H2 L H3 H. rewrite Forall_forall in H. apply Loc_build.
    - split; [split; auto|]. intros c [<-|I]; cbn [en].
      + split; auto. right. do 3 eexists. split; [reflexivity|]. split; reflexivity.
      + destruct (H c I) as (_ & H4 & H5). split; auto. left. split; auto.
    - constructor; auto. apply Forall_forall. intros c I. apply H, I.
  Qed.
  Lemma ins_weaken lo hi lo' hi' l : Forall (ins lo hi) l -> lo' <= lo -> hi <= hi' -> Forall (ins lo' hi') l.
  Proof. intros H H1 H2. eapply Forall_impl; [|exact H]. intros a (L & A & B). split; auto. split; lia. Qed.
  (** The operands of a binary expression, the elements of a sequence. *)
  Lemma Loc_inside n : Loc (A_Expr n) -> (forall f args, n_item n <> E_Call f args) ->
    Forall (ins (n_start n) (n_end n)) (children (A_Expr n)).
  Proof.
    intros H N. assert (C := Loc_children _ H). apply Loc_node in H as [_ H].
    rewrite Forall_forall in *. intros c I. destruct (H c I) as [[[A B]|(m & f & args & Em & Ei & _)] _].
    - split; auto.
    - injection Em as <-. destruct (N _ _ Ei).
  Qed.

  (** ** The lexer *)
  Definition linv (lx : lexer) : Prop := lex_inv src lx.
  Lemma small n : (n <= List.length src)%nat -> u32 n = N.of_nat n.
  Proof. intros H. unfold u32. apply N.mod_small. lia. Qed.
  Lemma linv_order lx : linv lx -> lx_start lx <= lx_end lx /\ lx_end lx <= len.
  Proof.
    intros I. assert (A := lex_inv_pos _ _ I). assert (B := lex_inv_tok_pos _ _ I).
    unfold lx_start, lx_end. rewrite !small by lia. lia.
  Qed.
  Lemma linv_consume lx lx' : linv lx -> consume alnum lx = Done lx' ->
    linv lx' /\ lx_end lx <= lx_start lx'.
  Proof.
    intros I H. destruct (consume_inv alnum src lx lx' I H) as (I' & F & _). split; auto.
    apply fwd_pos in F. assert (A := lex_inv_pos _ _ I'). assert (B := lex_inv_tok_pos _ _ I').
    unfold lx_start, lx_end. rewrite !small by lia. lia.
  Qed.
  Lemma linv_step lx lx' : linv lx -> linv lx' -> step lx lx' -> lx_start lx' = lx_start lx /\ lx_end lx <= lx_end lx'.
  Proof.
    intros I I' [[KB KT KF KA] _]. apply fwd_pos in KF. assert (A := lex_inv_pos _ _ I'). 
    unfold lx_start, lx_end. rewrite KT. split; auto. rewrite !small by lia. lia.
  Qed.
  Lemma linv_template lx lx' : linv lx -> read_template_kind lx = Done lx' ->
    linv lx' /\ lx_start lx' = lx_start lx /\ lx_end lx <= lx_end lx'.
  Proof.
    intros I H. assert (Z := template_token _ _ H). apply template_step in H; [|apply I].
    assert (I' : linv lx') by (apply (step_inv src lx); auto; intuition congruence).
    split; auto. now apply linv_step.
  Qed.
  Lemma linv_regex lx v lx' : linv lx -> read_regular_expression lx = Done (v, lx') ->
    linv lx' /\ lx_start lx' = lx_start lx /\ lx_end lx <= lx_end lx'.
  Proof.
    intros I H. assert (Z := regex_token _ _ _ H). apply regex_step in H; [|apply I].
    assert (I' : linv lx') by (apply (step_inv src lx); auto).
    split; auto. now apply linv_step.
  Qed.

  (** ** What the methods return *)
  Definition item_any {T : Set} (i : item T) : node T -> any :=
    match i with I_Statement => A_Stmt | I_Member => A_Member | I_Case => A_Case end.
  Definition block_any {T : Set} (i : item T) : node (block T) -> any :=
    match i with I_Statement => A_Body | I_Member => A_ClassBody | I_Case => A_Cases end.

  (** The node starts at or after [lx], at or before [lx'], and ends likewise. *)
  Definition full (lx lx' : lexer) (a : any) : Prop :=
    Loc a /\ lx_start lx <= st a /\ st a <= lx_start lx' /\ lx_end lx <= en a /\ en a <= lx_end lx'.
  Definition mid (lx lx' : lexer) (a : any) : Prop :=
    Loc a /\ lx_start lx <= st a /\ st a <= lx_start lx' /\ en a <= lx_end lx'.
  Definition inl (lx lx' : lexer) (l : list any) : Prop := Forall (ins (lx_start lx) (lx_end lx')) l.
  (** A node that begins at [s], before [lx]. *)
  Definition from (s : N) (lx lx' : lexer) (a : any) : Prop :=
    Loc a /\ st a = s /\ lx_end lx <= en a /\ en a <= lx_end lx'.

  Definition post (R : Set) (f : fn R) (lx : lexer) : R -> lexer -> Prop :=
    match f in fn R return R -> lexer -> Prop with
    | F_parse => fun m lx' => inl lx lx' (map A_Stmt m) /\ ascending (map (@n_start statement) m)
    | F_block i => fun b lx' => full lx lx' (block_any i b)
    | F_unchecked_block i => fun b lx' => full lx lx' (block_any i b)
    | F_raw_block i => fun b lx' => inl lx lx' (map (item_any i) (b_body b))
    | F_items i => fun l lx' => inl lx lx' (map (item_any i) l)
    | F_item i => fun x lx' => full lx lx' (item_any i x)
    | F_pattern_from_expression e => fun p _ =>
        Loc (A_Expr e) -> Loc (A_Pat p) /\ n_start p = n_start e /\ n_end p = n_end e
    | F_params_from_expressions es => fun ps _ =>
        forall lo hi, Forall (ins lo hi) (map A_Expr es) -> Forall (ins lo hi) (map A_Pat ps)
    | F_nested _ l0 | F_nested_handler _ l0 => fun r lx' =>
        Loc (A_Expr l0) -> n_start l0 <= lx_start lx -> n_end l0 <= lx_end lx ->
        Loc (A_Expr r) /\ n_start l0 <= n_start r /\ n_start r <= lx_start lx' /\
        n_end l0 <= n_end r /\ n_end r <= lx_end lx'
    | F_sequence => fun es lx' => inl lx lx' (map A_Expr es)
    | F_expr_handler h => fun r lx' => mid lx lx' (A_Expr r) /\ (h <> X_VOID -> lx_end lx <= n_end r)
    | F_expression c _ => fun r lx' => mid lx lx' (A_Expr r) /\ (c = CtxDefault -> lx_end lx <= n_end r)
    | F_arrow ps => fun e lx' => forall lo, lo <= lx_start lx ->
        Forall (ins lo (lx_end lx)) (map A_Expr ps) -> Forall (ins lo (lx_end lx')) (children_expression e)
    | F_call_arguments | F_call_arguments_rest => fun es lx' => inl lx lx' (map A_Expr es)
    | F_paren => fun r lx' => full lx lx' (A_Expr r)
    | F_prefix _ => fun e lx' => inl lx lx' (children_expression e)
    | F_object => fun r lx' => full lx lx' (A_Expr r)
    | F_meta_property m => fun e lx' => lx' = lx /\ (forall lo, lo <= lx_start lx ->
        ins lo (lx_end lx) (A_Ident m) -> Forall (ins lo (lx_end lx)) (children_expression e))
    | F_property_list | F_property_list_rest => fun ps lx' => inl lx lx' (map A_Prop ps)
    | F_property => fun p lx' => full lx lx' (A_Prop p)
    | F_property_value s key => fun p lx' =>
        ins s (lx_end lx) (A_Key key) -> s <= lx_start lx -> from s lx lx' (A_Prop p)
    | F_array => fun r lx' => full lx lx' (A_Expr r)
    | F_array_elements | F_array_elements_rest => fun es lx' => inl lx lx' (map A_Expr es)
    | F_regular_expression => fun r lx' => full lx lx' (A_Expr r)
    | F_template_string | F_template_literal => fun t lx' => full lx lx' (A_Tpl t)
    | F_template_rest => fun r lx' =>
        match r with (qs, es, e) =>
          lx_end lx <= e /\ e <= lx_end lx' /\
          Forall (ins (lx_start lx) e) (map A_Expr es) /\ Forall (ins (lx_start lx) e) (map A_Ident qs) end
    | F_function_expression | F_class_expression => fun r lx' => full lx lx' (A_Expr r)
    | F_name _ => fun n lx' => inl lx lx' (children_name n)
    | F_pattern => fun p lx' => full lx lx' (A_Pat p)
    | F_function _ => fun f lx' =>
        lx_end lx <= func_body_end f /\ func_body_end f <= lx_end lx' /\
        Forall (ins (lx_start lx) (func_body_end f)) (children_func f)
    | F_method => fun f lx' => full lx lx' (A_Func f)
    | F_class_member => fun m lx' => full lx lx' (A_Member m)
    | F_class_member_value s _ _ key => fun m lx' =>
        ins s (lx_end lx) (A_Key key) -> s <= lx_start lx -> from s lx lx' (A_Member m)
    | F_class _ => fun c lx' =>
        lx_end lx <= class_body_end c /\ class_body_end c <= lx_end lx' /\
        Forall (ins (lx_start lx) (class_body_end c)) (children_class c)
    | F_pattern_array | F_pattern_object => fun p lx' => full lx lx' (A_Pat p)
    | F_pattern_assign l0 => fun p lx' =>
        Loc (A_Pat l0) -> n_start l0 <= lx_start lx -> n_end l0 <= lx_end lx ->
        Loc (A_Pat p) /\ n_start p = n_start l0 /\ n_end l0 <= n_end p /\ n_end p <= lx_end lx'
    | F_pattern_array_element => fun p lx' => mid lx lx' (A_Pat p)
    | F_pattern_elements | F_pattern_elements_rest => fun ps lx' => inl lx lx' (map A_Pat ps)
    | F_pattern_param => fun p lx' => full lx lx' (A_Pat p)
    | F_rest_element => fun p lx' => full lx lx' (A_Pat p)
    | F_params | F_params_rest => fun ps lx' => inl lx lx' (map A_Pat ps)
    | F_stmt_handler h => fun r lx' => full lx lx' (A_Stmt r)
    | F_switch_case => fun r lx' => full lx lx' (A_Case r)
    | F_case_body e => fun r lx' =>
        e <= lx_end lx ->
        e <= snd r /\ snd r <= lx_end lx' /\ Forall (ins (lx_start lx) (snd r)) (map A_Stmt (fst r))
    | F_statement => fun r lx' => full lx lx' (A_Stmt r)
    | F_expect_semicolon => fun _ _ => True
    | F_block_statement => fun r lx' => full lx lx' (A_Stmt r)
    | F_expression_statement e => fun r lx' =>
        Loc (A_Expr e) -> n_start e <= lx_start lx -> n_end e <= lx_end lx ->
        Loc (A_Stmt r) /\ n_start e <= n_start r /\ n_start r <= lx_start lx' /\
        n_end e <= n_end r /\ n_end r <= lx_end lx'
    | F_labeled_or_expression => fun r lx' => full lx lx' (A_Stmt r)
    | F_function_statement | F_class_statement => fun r lx' => full lx lx' (A_Stmt r)
    | F_variable_declaration _ => fun r lx' => full lx lx' (A_Stmt r)
    | F_declarator => fun r lx' => full lx lx' (A_Declarator r)
    | F_declarators => fun r lx' => inl lx lx' (map A_Declarator r)
    | F_return | F_break | F_continue | F_throw | F_try | F_if | F_while | F_do | F_for | F_switch =>
        fun r lx' => full lx lx' (A_Stmt r)
    | F_label => fun r lx' =>
        match r with
        | (Some l, Some e) => n_end l = e /\ lx_end lx <= e /\ ins (lx_start lx) (lx_end lx') (A_Ident l)
        | (None, None) => True
        | _ => False
        end
    | F_catch => fun r lx' => full lx lx' (A_Catch r)
    | F_for_init _ => fun r lx' => full lx lx' (A_ForInit r)
    | F_for_rest s i => fun r lx' =>
        s <= lx_start lx -> Forall (ins s (lx_end lx)) (opt A_ForInit i) -> from s lx lx' (A_Stmt r)
    | F_for_in_from_parts s l e => fun r lx' =>
        s <= lx_start lx -> ins s (lx_end lx) (A_ForInit l) -> ins s (lx_end lx) (A_Expr e) -> from s lx lx' (A_Stmt r)
    | F_for_in s l | F_for_of s l => fun r lx' =>
        s <= lx_start lx -> ins s (lx_end lx) (A_ForInit l) -> from s lx lx' (A_Stmt r)
    | F_import => fun r lx' => full lx lx' (A_Stmt r)
    | F_import_rest s specs _ => fun r lx' =>
        s <= lx_start lx -> Forall (ins s (lx_end lx)) (map A_Spec specs) -> from s lx lx' (A_Stmt r)
    | F_import_specifiers => fun r lx' => inl lx lx' (map A_Spec r)
    end.
  Definition mono (lx lx' : lexer) : Prop := lx_start lx <= lx_start lx' /\ lx_end lx <= lx_end lx'.
  Definition spec (R : Set) (f : fn R) (lx : lexer) (r : R) (lx' : lexer) : Prop :=
    linv lx -> linv lx' /\ mono lx lx' /\ post R f lx r lx'.

  Notation wp := (wpe fn alnum spec).

  Lemma wpe_imp {A} (H : Prop) (p : P A) Q lx : (H -> wp p Q lx) -> wp p (fun a lx' => H -> Q a lx') lx.
  Proof.
    revert lx; induction p as [a|k IH|k IH|k IH|k IH|k IH| |R f k IH]; simpl; intros lx G; auto.
  Qed.

  Ltac simp := cbn [wpe bind look consume_ read_template read_regex fail_with error_ call expect
    start_then_consume end_then_consume get_end get_start identifier_ pattern_identifier token_expression
    unquote expression_handler_statement jump_statement postfix_handler assign_handler binary_handler].
  Ltac ord lx := match goal with L : linv lx |- _ =>
    let O1 := fresh "O" in let O2 := fresh "O" in destruct (linv_order lx L) as [O1 O2] end.
  Ltac walk1 :=
    match goal with
    | |- wpe _ _ _ (if ?b then _ else _) _ _ => let E := fresh "E" in destruct b eqn:E
    | |- wpe _ _ _ (bind (if ?b then _ else _) _) _ _ => let E := fresh "E" in destruct b eqn:E
    | |- wpe _ _ _ (match ?o with Some _ => _ | None => _ end) _ _ => let E := fresh "E" in destruct o eqn:E
    | |- wpe _ _ _ (match ?o with NoSemicolon => _ | _ => _ end) _ _ => let E := fresh "E" in destruct o eqn:E
    | |- wpe _ _ _ (bind (bind _ _) _) _ _ => apply wpe_bind
    | L : linv ?lx |- forall lx', consume alnum ?lx = Done lx' -> _ =>
        let lx' := fresh "lx" in let H := fresh "Hc" in let L' := fresh "L" in let M := fresh "M" in
        intros lx' H; destruct (linv_consume _ _ L H) as (L' & M); ord lx'
    | L : linv ?lx |- forall lx', read_template_kind ?lx = Done lx' -> _ =>
        let lx' := fresh "lx" in let H := fresh "Hc" in let L' := fresh "L" in let M := fresh "M" in let M2 := fresh "M" in
        intros lx' H; destruct (linv_template _ _ L H) as (L' & M & M2); ord lx'
    | L : linv ?lx |- forall v lx', read_regular_expression ?lx = Done (v, lx') -> _ =>
        let lx' := fresh "lx" in let H := fresh "Hc" in let L' := fresh "L" in let v := fresh "v" in
        let M := fresh "M" in let M2 := fresh "M" in
        intros v lx' H; destruct (linv_regex _ _ _ L H) as (L' & M & M2); ord lx'
    | L : linv ?lx |- forall r lx', spec _ _ ?lx r lx' -> _ =>
        let lx' := fresh "lx" in let H := fresh "S" in let L' := fresh "L" in let v := fresh "r" in
        let P := fresh "P" in let M := fresh "M" in let M2 := fresh "M" in
        intros v lx' H; destruct (H L) as (L' & (M & M2) & P); clear H; cbn [post] in P; ord lx'
    | |- True => exact I
    end.
  Ltac walk := simp; repeat (walk1; simp).
  Ltac red_all := unfold full, mid, from, inl, in_loc, func_body_end, class_body_end in *; cbn [children n_item children_expression children_statement children_func children_class opt
      children_name children_template map app b_body n_start n_end v_start v_end view_of fst snd start_of end_of any_span item_any block_any] in *.
  Ltac destr_and := repeat match goal with H : _ /\ _ |- _ => destruct H | H : ins _ _ _ |- _ => destruct H as (? & ? & ?) end.
  Ltac orders := repeat match goal with H : Loc ?a |- _ =>
    let Q := fresh "Q" in assert (Q := Loc_order _ H); cbn [start_of end_of any_span fst snd n_start n_end] in Q; revert H end; intros.
  Ltac fin0 := match goal with
    | |- _ /\ _ => split
    | |- Loc _ => assumption
    | |- Loc (A_Expr (Node _ _ (E_Call _ _))) => apply Loc_call
    | |- Loc _ => apply Loc_intro
    | |- ins _ _ _ => split; [|split]
    | |- Forall _ (map _ (_ ++ _)) => rewrite map_app
    | |- Forall _ [] => apply Forall_nil
    | |- Forall _ (_ :: _) => apply Forall_cons
    | |- Forall _ (_ ++ _) => apply Forall_app; split
    | H : Forall (ins _ _) ?l |- Forall (ins _ _) ?l => apply (ins_weaken _ _ _ _ _ H)
    | |- _ <= _ => cbn [start_of end_of any_span fst snd n_start n_end] in *; lia
    | |- _ = _ => first [reflexivity | cbn [start_of end_of any_span fst snd n_start n_end] in *; lia]
    | |- _ <> _ => discriminate
    | |- ?x <> ?x -> _ => congruence
    | |- _ -> _ => intro
    | |- True => exact I
    end.
  Ltac core := red_all; destr_and; orders; repeat (fin0; red_all).
  Ltac isprop A := lazymatch type of A with Prop => idtac end.
  Ltac feed1 := match goal with
    | H : ?A -> _ |- _ => isprop A; let K := fresh "K" in assert (K : A) by (clear H; solve [core]); specialize (H K); clear K
    end.
  Ltac prep := unfold full, mid, from, inl in *; destr_and; repeat (feed1; destr_and).
  Ltac fin := intros; prep; core.
  Ltac done := match goal with L : linv ?lx |- linv ?lx /\ mono _ ?lx /\ _ => split; [exact L|split; [split; lia|]]; cbn [post] end.
  Notation "'start' R f lx" := (linv lx -> wp (body R f) (fun r lx' => linv lx' /\ mono lx lx' /\ post R f lx r lx') lx) (at level 10, R at level 9, f at level 9, lx at level 9).
  Ltac begin := let L := fresh "L" in let O1 := fresh "O" in let O2 := fresh "O" in
    intros L; match type of L with linv ?lx => destruct (linv_order lx L) as [O1 O2] end; cbn [body].
  Ltac obvious := begin;
    cbv delta [body_parse body_raw_block body_items body_item body_block body_unchecked_block body_pattern_from_expression
      body_params_from_expressions body_nested body_nested_handler body_sequence body_expression
      body_arrow body_call_arguments body_call_arguments_rest body_paren body_prefix body_object body_meta_property
      body_property_list body_property_list_rest body_property body_property_value body_array body_array_elements
      body_array_elements_rest body_regular_expression body_template_string body_template_literal body_template_rest
      body_function_expression body_class_expression body_name body_pattern body_function body_method body_class_member
      body_class_member_value body_class body_pattern_array body_pattern_object body_pattern_assign body_pattern_array_element
      body_pattern_elements body_pattern_elements_rest body_pattern_param body_rest_element body_params body_params_rest
      body_switch_case body_case_body body_statement body_expect_semicolon body_block_statement body_expression_statement
      body_labeled_or_expression body_function_statement body_class_statement body_variable_declaration body_declarator
      body_declarators body_return body_break body_continue body_label body_throw body_try body_catch body_if body_while body_do
      body_for_init body_for body_for_rest body_for_in_from_parts body_for_in body_for_of body_switch body_import body_import_rest
      body_import_specifiers]; cbv beta zeta; walk; try done; try solve [fin].

  Lemma ok_parse lx : start _ F_parse lx.
  Proof.
    begin. unfold body_parse. walk; done; [split; [constructor|exact I]|]. split; [fin|].
    destruct P0 as (P1 & P2). cbn [map ascending]. split; [|exact P2].
    unfold inl in P1. rewrite Forall_map in *. revert P1. apply Forall_impl. intros x (_ & A & _).
    destruct P as (_ & _ & B & _). cbn in *. lia.
  Qed.
  Lemma ok_raw_block T (i : item T) lx : start _ (F_raw_block i) lx.
  Proof. obvious. Qed.
  Lemma ok_items T (i : item T) lx : start _ (F_items i) lx.
  Proof. obvious. Qed.
  Lemma ok_item T (i : item T) lx : start _ (F_item i) lx.
  Proof. destruct i; obvious. Qed.
  Lemma ok_block T (i : item T) lx : start _ (F_block i) lx.
  Proof. destruct i; obvious. Qed.
  Lemma ok_unchecked_block T (i : item T) lx : start _ (F_unchecked_block i) lx.
  Proof. destruct i; obvious. Qed.
  Lemma ok_pattern_from_expression e lx : start _ (F_pattern_from_expression e) lx.
  Proof.
    begin. unfold body_pattern_from_expression. destruct (n_item e) eqn:E; walk; try done; try solve [fin].
    - destruct op; walk. done. intros G.
      assert (C := Loc_inside e G ltac:(congruence)). cbn [children] in C. rewrite E in C. cbn in C.
      inversion C as [|x1 l1 C1 C']; subst. inversion C' as [|x2 l2 C2 _]; subst. fin.
  Qed.
  Lemma ok_params_from_expressions es lx : start _ (F_params_from_expressions es) lx.
  Proof.
    begin. unfold body_params_from_expressions. destruct es; walk; done.
    - intros lo hi _. constructor.
    - intros lo hi H. cbn [map] in *. inversion H as [|x l A1 A2]; subst. specialize (P0 _ _ A2). fin.
  Qed.
  Lemma ok_nested b l lx : start _ (F_nested b l) lx.
  Proof. obvious. Qed.
  Lemma arrow_params l hi : Loc (A_Expr l) -> n_end l <= hi ->
    Forall (ins (n_start l) hi) (map A_Expr (match n_item l with E_Sequence b => b | _ => [l] end)).
  Proof.
    intros H E. destruct (n_item l) eqn:El; try solve [constructor; [split; [auto|cbn; lia]|constructor]].
    assert (C := Loc_inside l H ltac:(congruence)). cbn [children] in C. rewrite El in C. cbn in C.
    apply (ins_weaken _ _ _ _ _ C); lia.
  Qed.
  Lemma ok_nested_handler h l lx : start _ (F_nested_handler h l) lx.
  Proof.
    begin. destruct h; cbn [body_nested_handler]; walk; try done; try solve [fin].
    intros H H1 H2. assert (A := P (n_start l) ltac:(lia) (arrow_params l (lx_end lx0) H ltac:(lia))). fin.
  Qed.
  Lemma ok_sequence lx : start _ F_sequence lx.
  Proof. obvious. Qed.
  Lemma ok_expr_handler h lx : start _ (F_expr_handler h) lx.
  Proof.
    begin. destruct h; cbn [body_expr_handler]; walk; try done; try solve [fin].
    - destruct P as [-> P]. specialize (P (lx_start lx)). fin.
    - assert (C : Forall (ins (n_start r0) (n_end r0)) (children (A_Tpl r0))).
      { destruct P as [P _]. assert (C := Loc_children _ P). apply Loc_node in P as [_ P].
        rewrite Forall_forall in *. intros c I. destruct (P c I) as [[[A B]|(m & f & args & Em & _)] _]; [split; auto|discriminate]. }
      fin.
  Qed.
  Lemma ok_expression c b lx : start _ (F_expression c b) lx.
  Proof.
    begin. unfold body_expression. walk; done.
    destruct P as [P P1]. prep. split; [solve [core]|]. intros ->.
    assert (bound_handler CtxDefault (view_of lx) <> X_VOID).
    { intros HV. apply void_array in HV. discriminate. }
    specialize (P1 ltac:(assumption)). core.
  Qed.
  Lemma ok_arrow ps lx : start _ (F_arrow ps) lx.
  Proof. obvious; intros lo H1 H2; specialize (P _ _ H2); fin. Qed.
  Lemma ok_call_arguments lx : start _ F_call_arguments lx.
  Proof. obvious. Qed.
  Lemma ok_call_arguments_rest lx : start _ F_call_arguments_rest lx.
  Proof. obvious. Qed.
  Lemma ok_paren lx : start _ F_paren lx.
  Proof. obvious. specialize (P (lx_start lx)). cbn [map] in P. fin. Qed.
  Lemma ok_prefix op lx : start _ (F_prefix op) lx.
  Proof. obvious. Qed.
  Lemma ok_object lx : start _ F_object lx.
  Proof. obvious. Qed.
  Lemma ok_meta_property m lx : start _ (F_meta_property m) lx.
  Proof. obvious. split; auto. intros. fin. Qed.
  Lemma ok_property_list lx : start _ F_property_list lx.
  Proof. obvious. Qed.
  Lemma ok_property_list_rest lx : start _ F_property_list_rest lx.
  Proof. obvious. Qed.
  Lemma ok_property lx : start _ F_property lx.
  Proof. obvious. Qed.
  Lemma ok_property_value s k lx : start _ (F_property_value s k) lx.
  Proof. obvious. Qed.
  Lemma ok_array lx : start _ F_array lx.
  Proof. obvious. Qed.
  Lemma ok_array_elements lx : start _ F_array_elements lx.
  Proof. obvious. Qed.
  Lemma ok_array_elements_rest lx : start _ F_array_elements_rest lx.
  Proof. obvious. Qed.
  Lemma ok_regular_expression lx : start _ F_regular_expression lx.
  Proof. obvious. Qed.
  Lemma ok_template_string lx : start _ F_template_string lx.
  Proof. obvious. Qed.
  Lemma ok_template_literal lx : start _ F_template_literal lx.
  Proof. obvious. destruct r1 as [[qs es] e]. walk. done. fin. Qed.
  Lemma ok_template_rest lx : start _ F_template_rest lx.
  Proof. obvious. destruct r1 as [[qs es] e]. walk. done. fin. Qed.
  Lemma ok_function_expression lx : start _ F_function_expression lx.
  Proof. obvious. Qed.
  Lemma ok_class_expression lx : start _ F_class_expression lx.
  Proof. obvious. Qed.
  Lemma ok_name k lx : start _ (F_name k) lx.
  Proof. destruct k; obvious. Qed.
  Lemma ok_pattern lx : start _ F_pattern lx.
  Proof. obvious. Qed.
  Lemma ok_function k lx : start _ (F_function k) lx.
  Proof. obvious. Qed.
  Lemma ok_method lx : start _ F_method lx.
  Proof. obvious. Qed.
  Lemma ok_class_member lx : start _ F_class_member lx.
  Proof. obvious. Qed.
  Lemma ok_class_member_value s st k key lx : start _ (F_class_member_value s st k key) lx.
  Proof. obvious. Qed.
  Lemma ok_class k lx : start _ (F_class k) lx.
  Proof. obvious. Qed.
  Lemma ok_pattern_array lx : start _ F_pattern_array lx.
  Proof. obvious. Qed.
  Lemma ok_pattern_object lx : start _ F_pattern_object lx.
  Proof. obvious. Qed.
  Lemma ok_pattern_assign l lx : start _ (F_pattern_assign l) lx.
  Proof. obvious. Qed.
  Lemma ok_pattern_array_element lx : start _ F_pattern_array_element lx.
  Proof. obvious. Qed.
  Lemma ok_pattern_elements lx : start _ F_pattern_elements lx.
  Proof. obvious. Qed.
  Lemma ok_pattern_elements_rest lx : start _ F_pattern_elements_rest lx.
  Proof. obvious. Qed.
  Lemma ok_pattern_param lx : start _ F_pattern_param lx.
  Proof. obvious. Qed.
  Lemma ok_rest_element lx : start _ F_rest_element lx.
  Proof. obvious. Qed.
  Lemma ok_params lx : start _ F_params lx.
  Proof. obvious. Qed.
  Lemma ok_params_rest lx : start _ F_params_rest lx.
  Proof. obvious. Qed.
  Lemma ok_stmt_handler h lx : start _ (F_stmt_handler h) lx.
  Proof. begin. destruct h; cbn [body_stmt_handler]; walk; try done; try solve [fin]. Qed.
  Lemma ok_switch_case lx : start _ F_switch_case lx.
  Proof. obvious; match goal with r : (list _ * _)%type |- _ => destruct r as [ss e'] end; walk; done; fin. Qed.
  Lemma ok_case_body e lx : start _ (F_case_body e) lx.
  Proof. obvious. destruct r1 as [ss e']; walk; done; fin. Qed.
  Lemma ok_statement lx : start _ F_statement lx.
  Proof. obvious. Qed.
  Lemma ok_expect_semicolon lx : start _ F_expect_semicolon lx.
  Proof. obvious. Qed.
  Lemma ok_block_statement lx : start _ F_block_statement lx.
  Proof. obvious. Qed.
  Lemma ok_expression_statement e lx : start _ (F_expression_statement e) lx.
  Proof. obvious. Qed.
  Lemma ok_labeled_or_expression lx : start _ F_labeled_or_expression lx.
  Proof. obvious. Qed.
  Lemma ok_function_statement lx : start _ F_function_statement lx.
  Proof. obvious. Qed.
  Lemma ok_class_statement lx : start _ F_class_statement lx.
  Proof. obvious. Qed.
  Lemma ok_variable_declaration k lx : start _ (F_variable_declaration k) lx.
  Proof. obvious. Qed.
  Lemma ok_declarator lx : start _ F_declarator lx.
  Proof. obvious. Qed.
  Lemma ok_declarators lx : start _ F_declarators lx.
  Proof. obvious. Qed.
  Lemma ok_return lx : start _ F_return lx.
  Proof. obvious. Qed.
  Lemma ok_break lx : start _ F_break lx.
  Proof. obvious. destruct r0 as [[l|] [e|]]; try contradiction; walk; done; fin. Qed.
  Lemma ok_continue lx : start _ F_continue lx.
  Proof. obvious. destruct r0 as [[l|] [e|]]; try contradiction; walk; done; fin. Qed.
  Lemma ok_label lx : start _ F_label lx.
  Proof. obvious. Qed.
  Lemma ok_throw lx : start _ F_throw lx.
  Proof. obvious. Qed.
  Lemma ok_try lx : start _ F_try lx.
  Proof. obvious. Qed.
  Lemma ok_catch lx : start _ F_catch lx.
  Proof. obvious. Qed.
  Lemma ok_if lx : start _ F_if lx.
  Proof. obvious. Qed.
  Lemma ok_while lx : start _ F_while lx.
  Proof. obvious. Qed.
  Lemma ok_do lx : start _ F_do lx.
  Proof. obvious. Qed.
  Lemma ok_for_init k lx : start _ (F_for_init k) lx.
  Proof. obvious. Qed.
  Lemma ok_for lx : start _ F_for lx.
  Proof.
    obvious.
    assert (G : wp (call (F_for_rest (v_start (view_of lx)) (Some (Node (n_start r0) (n_end r0) (FI_Expression r0)))))
        (fun (r : stmt_node) (lx' : lexer) => linv lx' /\ mono lx lx' /\ post stmt_node F_for lx r lx') lx2).
    { walk. done. fin. }
    destruct (n_item r0) eqn:Er; try exact G. destruct op; try exact G. clear G.
    assert (C : Forall (ins (n_start r0) (n_end r0)) (children (A_Expr r0))) by (apply Loc_inside; [apply P|congruence]).
    cbn [children] in C. rewrite Er in C. cbn in C.
    inversion C as [|x1 l1 C1 C']; subst. inversion C' as [|x2 l2 C2 _]; subst.
    walk. done. fin.
  Qed.
  Lemma ok_for_rest s i lx : start _ (F_for_rest s i) lx.
  Proof.
    obvious.
    all: intros H1 H2; cbn [opt] in H2; inversion H2 as [|x1 l1 C1 C2]; subst; clear H2; fin.
  Qed.
  Lemma ok_for_in_from_parts s l e lx : start _ (F_for_in_from_parts s l e) lx.
  Proof. obvious. Qed.
  Lemma ok_for_in s l lx : start _ (F_for_in s l) lx.
  Proof. obvious. Qed.
  Lemma ok_for_of s l lx : start _ (F_for_of s l) lx.
  Proof. obvious. Qed.
  Lemma ok_switch lx : start _ F_switch lx.
  Proof. obvious. Qed.
  Lemma ok_import lx : start _ F_import lx.
  Proof. obvious. unfold unquote. walk. done. fin. Qed.
  Lemma ok_import_rest s sp h lx : start _ (F_import_rest s sp h) lx.
  Proof. obvious; unfold unquote; walk; done; fin. Qed.
  Lemma ok_import_specifiers lx : start _ F_import_specifiers lx.
  Proof. obvious. Qed.
  Theorem spec_ok R (f : fn R) lx : wp (body R f) (spec R f lx) lx.
  Proof.
    apply wpe_imp. intros L. destruct f.
    - apply ok_parse; auto.
    - apply ok_block; auto.
    - apply ok_unchecked_block; auto.
    - apply ok_raw_block; auto.
    - apply ok_items; auto.
    - apply ok_item; auto.
    - apply ok_pattern_from_expression; auto.
    - apply ok_params_from_expressions; auto.
    - apply ok_nested; auto.
    - apply ok_nested_handler; auto.
    - apply ok_sequence; auto.
    - apply ok_expr_handler; auto.
    - apply ok_expression; auto.
    - apply ok_arrow; auto.
    - apply ok_call_arguments; auto.
    - apply ok_call_arguments_rest; auto.
    - apply ok_paren; auto.
    - apply ok_prefix; auto.
    - apply ok_object; auto.
    - apply ok_meta_property; auto.
    - apply ok_property_list; auto.
    - apply ok_property_list_rest; auto.
    - apply ok_property; auto.
    - apply ok_property_value; auto.
    - apply ok_array; auto.
    - apply ok_array_elements; auto.
    - apply ok_array_elements_rest; auto.
    - apply ok_regular_expression; auto.
    - apply ok_template_string; auto.
    - apply ok_template_literal; auto.
    - apply ok_template_rest; auto.
    - apply ok_function_expression; auto.
    - apply ok_class_expression; auto.
    - apply ok_name; auto.
    - apply ok_pattern; auto.
    - apply ok_function; auto.
    - apply ok_method; auto.
    - apply ok_class_member; auto.
    - apply ok_class_member_value; auto.
    - apply ok_class; auto.
    - apply ok_pattern_array; auto.
    - apply ok_pattern_object; auto.
    - apply ok_pattern_assign; auto.
    - apply ok_pattern_array_element; auto.
    - apply ok_pattern_elements; auto.
    - apply ok_pattern_elements_rest; auto.
    - apply ok_pattern_param; auto.
    - apply ok_rest_element; auto.
    - apply ok_params; auto.
    - apply ok_params_rest; auto.
    - apply ok_stmt_handler; auto.
    - apply ok_switch_case; auto.
    - apply ok_case_body; auto.
    - apply ok_statement; auto.
    - apply ok_expect_semicolon; auto.
    - apply ok_block_statement; auto.
    - apply ok_expression_statement; auto.
    - apply ok_labeled_or_expression; auto.
    - apply ok_function_statement; auto.
    - apply ok_class_statement; auto.
    - apply ok_variable_declaration; auto.
    - apply ok_declarator; auto.
    - apply ok_declarators; auto.
    - apply ok_return; auto.
    - apply ok_break; auto.
    - apply ok_continue; auto.
    - apply ok_label; auto.
    - apply ok_throw; auto.
    - apply ok_try; auto.
    - apply ok_catch; auto.
    - apply ok_if; auto.
    - apply ok_while; auto.
    - apply ok_do; auto.
    - apply ok_for_init; auto.
    - apply ok_for; auto.
    - apply ok_for_rest; auto.
    - apply ok_for_in_from_parts; auto.
    - apply ok_for_in; auto.
    - apply ok_for_of; auto.
    - apply ok_switch; auto.
    - apply ok_import; auto.
    - apply ok_import_rest; auto.
    - apply ok_import_specifiers; auto.
  Qed.
End Pass.

(** ** Whole programs *)
Lemma parse_positions alnum src m : N.of_nat (List.length src) < 4294967296 ->
  parses_to alnum src (ParseOk m) ->
  (forall a, in_module a m -> node_pos src a) /\ ascending (map (@n_start statement) m).
Proof.
  intros Sh H. apply parse_state in H as (n & lx & m' & s & H1 & H2 & E).
  destruct (p_errors s) eqn:Es; [|discriminate]. injection E as <-.
  assert (L : linv src lx) by (apply (consume_inv _ src) in H1; [|apply init_inv]; unfold linv; tauto).
  assert (G := run_wpe fn alnum body (spec src) (spec_ok alnum src Sh) _ _ _ _ _ _ _ H2 Es (spec_ok alnum src Sh _ F_parse lx)).
  destruct (G L) as (_ & _ & K & K2). split; [|exact K2].
  intros a (s0 & Hi & W). cbn in K. unfold inl in K. rewrite Forall_forall in K.
  destruct (K (A_Stmt s0)) as [A _]; [now apply in_map|]. exact (A _ W).
Qed.
Lemma parse_located alnum src m a : N.of_nat (List.length src) < 4294967296 ->
  parses_to alnum src (ParseOk m) -> in_module a m -> node_pos src a.
Proof. intros Sh H. now apply (parse_positions alnum). Qed.
