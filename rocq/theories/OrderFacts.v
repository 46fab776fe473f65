(** The parts of the nodes of error-free parses begin in source order. *)
From Coq Require Import List NArith Bool Lia Arith String.
From Coq.Strings Require Import Byte.
From Verif Require Import Bytes Token Tables Lexer LexerFacts ConsumeFacts
  Ast SpecTree SpecPos SpecOrder Prog ProgFacts Parser StateFacts ErrorFacts Structure.
From Verif Require PosFacts.
Import ListNotations.
Open Scope N_scope.

Section Pass.
  Variable alnum : N -> bool.
  Variable src : str.
  Hypothesis short : N.of_nat (List.length src) < 4294967296.
  Notation st := start_of.

  Notation en := end_of.
  Definition ordered (a : any) : Prop := in_source_order a /\ ends_in_order a.
  (** Every node inside begins at most at [hs] and ends at most at [he], with its parts in order. *)
  Definition Good (hs he : N) (a : any) : Prop := forall b, within b a -> ordered b /\ st b <= hs /\ st b <= en b /\ en b <= he.
  Fixpoint chain (ls le : N) (l : list any) (hs he : N) : Prop :=
    match l with [] => ls <= hs /\ le <= he | a :: l' => ls <= st a /\ le <= en a /\ Good hs he a /\ chain (st a) (en a) l' hs he end.
  Lemma Good_start hs he a : Good hs he a -> st a <= hs /\ st a <= en a /\ en a <= he.
  Proof. intros H. apply (H a). constructor. Qed.
  Lemma Good_up hs he hs' he' a : Good hs he a -> hs <= hs' -> he <= he' -> Good hs' he' a.
  Proof. intros H L M b W. destruct (H b W) as (A & B & C & D). split; auto. lia. Qed.
  Lemma chain_weaken ls le hs he ls' le' hs' he' l : chain ls le l hs he -> ls' <= ls -> le' <= le -> hs <= hs' -> he <= he' -> chain ls' le' l hs' he'.
  Proof.
    revert ls le ls' le'. induction l as [|a l IH]; cbn [chain]; intros ls le ls' le' H A B C D; [lia|].
    destruct H as (H1 & H2 & H3 & H4). split; [lia|]. split; [lia|]. split; [eapply Good_up; eauto|]. eapply IH; eauto; lia.
  Qed.
  Lemma chain_order ls le l hs he : chain ls le l hs he -> ls <= hs /\ le <= he.
  Proof.
    revert ls le. induction l as [|a l IH]; cbn [chain]; intros ls le H; [exact H|]. destruct H as (H1 & H2 & _ & H3). apply IH in H3. lia.
  Qed.
  Lemma chain_app ls le l1 ms me l2 hs he ls' le' : chain ls' le' l1 ms me -> ls <= ls' -> le <= le' -> chain ms me l2 hs he -> chain ls le (l1 ++ l2) hs he.
  Proof.
    revert ls le ls' le'. induction l1 as [|a l IH]; cbn [chain app]; intros ls le ls' le' H A B C; [eapply chain_weaken; eauto; lia|].
    destruct H as (H1 & H2 & H3 & H4). assert (Z := chain_order _ _ _ _ _ C). split; [lia|]. split; [lia|]. split; [eapply Good_up; eauto; apply Z|]. eapply IH; eauto; lia.
  Qed.
  Lemma chain_good ls le l hs he : chain ls le l hs he -> Forall (Good hs he) l.
  Proof.
    revert ls le. induction l as [|a l IH]; cbn [chain]; intros ls le H; constructor; try apply H. eapply IH, H.
  Qed.
  Lemma chain_above ls le l hs he : chain ls le l hs he -> Forall (fun y => ls <= y) (map st l) /\ Forall (fun y => le <= y) (map en l).
  Proof.
    revert ls le. induction l as [|a l IH]; cbn [chain map]; intros ls le H; [split; constructor|].
    destruct H as (H1 & H2 & _ & H4). apply IH in H4. destruct H4 as [A B].
    split; constructor; auto; (eapply Forall_impl; [|eassumption]); cbn; intros; lia.
  Qed.
  Lemma chain_ascending ls le l hs he : chain ls le l hs he -> ascending (map st l) /\ ascending (map en l).
  Proof.
    revert ls le. induction l as [|a l IH]; cbn [chain map ascending]; intros ls le H; [split; exact I|].
    destruct H as (_ & _ & _ & H4). destruct (chain_above _ _ _ _ _ H4) as [A B]. destruct (IH _ _ H4) as [C D]. auto.
  Qed.
  Lemma ascending_chain l hs he : ascending (map st l) -> ascending (map en l) -> Forall (Good hs he) l ->
    forall ls le, Forall (fun a => ls <= st a) l -> Forall (fun a => le <= en a) l -> ls <= hs -> le <= he -> chain ls le l hs he.
  Proof.
    induction l as [|a l IH]; cbn [chain map ascending]; intros A B G ls le L M H K; [auto|].
    inversion G as [|x1 l1 G1 G2]; inversion L as [|x2 l2 L1 L2]; inversion M as [|x3 l3 M1 M2]; subst. destruct A as [A1 A2]. destruct B as [B1 B2].
    destruct (Good_start _ _ _ G1) as (Z1 & Z2 & Z3).
    split; auto. split; auto. split; auto. apply IH; auto.
    - exact (proj1 (Forall_map st (fun y => st a <= y) l) A1).
    - exact (proj1 (Forall_map en (fun y => en a <= y) l) B1).
  Qed.
  Lemma Good_children hs he a : Good hs he a -> Forall (Good hs he) (children a).
  Proof. intros H. apply Forall_forall. intros c I b W. apply H. econstructor; eauto. Qed.
  Lemma Good_build hs he a : st a <= hs -> st a <= en a -> en a <= he -> ordered a -> Forall (Good hs he) (children a) -> Good hs he a.
  Proof.
    intros A B C D K b W. inversion W as [x|x y c I W']; subst; auto.
    rewrite Forall_forall in K. exact (K _ I _ W').
  Qed.
  Lemma Good_intro hs he a : template_of a = None -> st a <= hs -> st a <= en a -> en a <= he -> chain 0 0 (children a) hs he -> Good hs he a.
  Proof.
    intros T A B D C. apply Good_build; auto; [|eapply chain_good; eauto].
    unfold ordered, in_source_order, ends_in_order, parts_in_order. rewrite T. eapply chain_ascending; eauto.
  Qed.
  Lemma alternate_all (P : any -> Prop) qs es : Forall P (alternate qs es) -> Forall P (map A_Expr es ++ map A_Ident qs).
  Proof.
    revert es. induction qs as [|q qs IH]; intros [|e es] H; cbn [alternate map app] in H |- *.
    - constructor.
    - now rewrite app_nil_r.
    - rewrite app_nil_r in H. exact H.
    - inversion H as [|x l P1 H']; subst. inversion H' as [|x l P2 H'']; subst. apply IH in H''.
      apply Forall_app in H'' as [A B]. constructor; auto. apply Forall_app. split; auto.
  Qed.
  Lemma Good_template hs he a es qs : template_of a = Some (Template es qs) -> children a = map A_Expr es ++ map A_Ident qs ->
    st a <= hs -> st a <= en a -> en a <= he -> chain 0 0 (alternate qs es) hs he -> Good hs he a.
  Proof.
    intros T E A B D C. apply Good_build; auto.
    - unfold ordered, in_source_order, ends_in_order, parts_in_order. rewrite T. eapply chain_ascending; eauto.
    - rewrite E. apply alternate_all. eapply chain_good; eauto.
  Qed.
  Lemma Good_tpl hs he n s e : Good hs he (A_Tpl n) -> s <= hs -> s <= e -> e <= he -> Good hs he (A_Expr (Node s e (E_Template (n_item n)))).
  Proof.
    intros G H K L. apply Good_build; [exact H|exact K|exact L| |exact (Good_children _ _ _ G)].
    exact (proj1 (G _ (within_refl _))).
  Qed.
  (** The parts of a node that is no template. *)
  Lemma Good_parts hs he a : Good hs he a -> template_of a = None -> chain 0 0 (children a) hs he.
  Proof.
    intros G T. assert (C := Good_children _ _ _ G). destruct (Good_start _ _ _ G) as (Z1 & Z2 & Z3).
    destruct (G a) as [[O O'] _]; [constructor|]. unfold in_source_order, ends_in_order, parts_in_order in O, O'. rewrite T in O, O'.
    apply ascending_chain; auto; try lia; apply Forall_forall; intros; lia.
  Qed.

  Notation linv := (PosFacts.linv src).
  Notation linv_order := (PosFacts.linv_order src short).
  Notation linv_consume := (PosFacts.linv_consume alnum src short).
  Notation linv_template := (PosFacts.linv_template src short).
  Notation linv_regex := (PosFacts.linv_regex src short).

  Definition item_any {T : Set} (i : item T) : node T -> any :=
    match i with I_Statement => A_Stmt | I_Member => A_Member | I_Case => A_Case end.
  Definition block_any {T : Set} (i : item T) : node (block T) -> any :=
    match i with I_Statement => A_Body | I_Member => A_ClassBody | I_Case => A_Cases end.

  Definition mid (lx lx' : lexer) (a : any) : Prop := Good (lx_start lx') (lx_end lx') a /\ lx_start lx <= st a.
  Definition full (lx lx' : lexer) (a : any) : Prop := Good (lx_start lx') (lx_end lx') a /\ lx_start lx <= st a /\ lx_end lx <= en a.
  Definition inl (lx lx' : lexer) (l : list any) : Prop := chain (lx_start lx) (lx_end lx) l (lx_start lx') (lx_end lx').
  (** A node that begins at [s], before [lx]. *)
  Definition from (s : N) (lx lx' : lexer) (a : any) : Prop := Good (lx_start lx') (lx_end lx') a /\ st a = s /\ lx_end lx <= en a.

  Definition post (R : Set) (f : fn R) (lx : lexer) : R -> lexer -> Prop :=
    match f in fn R return R -> lexer -> Prop with
    | F_parse => fun m lx' => inl lx lx' (map A_Stmt m)
    | F_block i => fun b lx' => full lx lx' (block_any i b)
    | F_unchecked_block i => fun b lx' => full lx lx' (block_any i b)
    | F_raw_block i => fun b lx' => inl lx lx' (map (item_any i) (b_body b))
    | F_items i => fun l lx' => inl lx lx' (map (item_any i) l)
    | F_item i => fun x lx' => full lx lx' (item_any i x)
    | F_pattern_from_expression e => fun p _ => n_start p = n_start e /\ n_end p = n_end e /\ forall hs he, Good hs he (A_Expr e) -> Good hs he (A_Pat p)
    | F_params_from_expressions es => fun ps _ => forall ls le hs he, chain ls le (map A_Expr es) hs he -> chain ls le (map A_Pat ps) hs he
    | F_nested _ l0 | F_nested_handler _ l0 => fun r lx' =>
        Good (lx_start lx) (lx_end lx) (A_Expr l0) -> Good (lx_start lx') (lx_end lx') (A_Expr r) /\ n_start l0 <= n_start r /\ n_end l0 <= n_end r
    | F_sequence => fun es lx' => inl lx lx' (map A_Expr es)
    | F_expr_handler h => fun r lx' => mid lx lx' (A_Expr r) /\ (h <> X_VOID -> lx_end lx <= n_end r)
    | F_expression c _ => fun r lx' => mid lx lx' (A_Expr r) /\ (c <> CtxArray -> lx_end lx <= n_end r)
    | F_arrow ps => fun e lx' => chain 0 0 (map A_Expr ps) (lx_start lx) (lx_end lx) -> forall s t, s <= lx_start lx -> s <= t -> t <= lx_end lx' -> Good (lx_start lx') (lx_end lx') (A_Expr (Node s t e))
    | F_call_arguments | F_call_arguments_rest => fun es lx' => inl lx lx' (map A_Expr es)
    | F_paren => fun r lx' => full lx lx' (A_Expr r)
    | F_prefix _ => fun e lx' => forall s t, s <= lx_start lx -> s <= t -> t <= lx_end lx' -> Good (lx_start lx') (lx_end lx') (A_Expr (Node s t e))
    | F_object => fun r lx' => full lx lx' (A_Expr r)
    | F_meta_property m => fun e lx' => lx' = lx /\ (n_start m <= lx_start lx -> n_start m <= n_end m -> n_end m <= lx_end lx -> forall s t, s <= lx_start lx -> s <= t -> t <= lx_end lx' -> Good (lx_start lx') (lx_end lx') (A_Expr (Node s t e)))
    | F_property_list | F_property_list_rest => fun ps lx' => inl lx lx' (map A_Prop ps)
    | F_property => fun p lx' => full lx lx' (A_Prop p)
    | F_property_value s key => fun p lx' => Good (lx_start lx) (lx_end lx) (A_Key key) -> s <= lx_start lx -> from s lx lx' (A_Prop p)
    | F_array => fun r lx' => full lx lx' (A_Expr r)
    | F_array_elements => fun es lx' => chain (lx_start lx) (lx_start lx) (map A_Expr es) (lx_start lx') (lx_end lx')
    | F_array_elements_rest => fun es lx' => inl lx lx' (map A_Expr es)
    | F_regular_expression => fun r lx' => full lx lx' (A_Expr r)
    | F_template_string | F_template_literal => fun t lx' => full lx lx' (A_Tpl t)
    | F_template_rest => fun r lx' => inl lx lx' (alternate (fst (fst r)) (snd (fst r))) /\ lx_end lx <= snd r /\ snd r <= lx_end lx'
    | F_function_expression | F_class_expression => fun r lx' => full lx lx' (A_Expr r)
    | F_name _ => fun n lx' => inl lx lx' (children_name n)
    | F_pattern => fun p lx' => full lx lx' (A_Pat p)
    | F_function _ => fun f lx' => inl lx lx' (children_func f) /\ lx_end lx <= func_body_end f /\ func_body_end f <= lx_end lx'
    | F_method => fun f lx' => full lx lx' (A_Func f)
    | F_class_member => fun m lx' => full lx lx' (A_Member m)
    | F_class_member_value s _ _ key => fun m lx' => Good (lx_start lx) (lx_end lx) (A_Key key) -> s <= lx_start lx -> from s lx lx' (A_Member m)
    | F_class _ => fun c lx' => inl lx lx' (children_class c) /\ lx_end lx <= class_body_end c /\ class_body_end c <= lx_end lx'
    | F_pattern_array | F_pattern_object => fun p lx' => full lx lx' (A_Pat p)
    | F_pattern_assign l0 => fun p lx' => Good (lx_start lx) (lx_end lx) (A_Pat l0) -> Good (lx_start lx') (lx_end lx') (A_Pat p) /\ n_start p = n_start l0 /\ n_end l0 <= n_end p
    | F_pattern_array_element => fun p lx' => mid lx lx' (A_Pat p)
    | F_pattern_elements => fun ps lx' => chain (lx_start lx) (lx_start lx) (map A_Pat ps) (lx_start lx') (lx_end lx')
    | F_pattern_elements_rest => fun ps lx' => inl lx lx' (map A_Pat ps)
    | F_pattern_param => fun p lx' => full lx lx' (A_Pat p)
    | F_rest_element => fun p lx' => full lx lx' (A_Pat p)
    | F_params | F_params_rest => fun ps lx' => inl lx lx' (map A_Pat ps)
    | F_stmt_handler h => fun r lx' => full lx lx' (A_Stmt r)
    | F_switch_case => fun r lx' => full lx lx' (A_Case r)
    | F_case_body e => fun r lx' => e <= lx_end lx -> inl lx lx' (map A_Stmt (fst r)) /\ e <= snd r /\ snd r <= lx_end lx'
    | F_statement => fun r lx' => full lx lx' (A_Stmt r)
    | F_expect_semicolon => fun _ _ => True
    | F_block_statement => fun r lx' => full lx lx' (A_Stmt r)
    | F_expression_statement e => fun r lx' =>
        Good (lx_start lx) (lx_end lx) (A_Expr e) -> Good (lx_start lx') (lx_end lx') (A_Stmt r) /\ n_start e <= n_start r /\ n_end e <= n_end r
    | F_labeled_or_expression => fun r lx' => full lx lx' (A_Stmt r)
    | F_function_statement | F_class_statement => fun r lx' => full lx lx' (A_Stmt r)
    | F_variable_declaration _ => fun r lx' => full lx lx' (A_Stmt r)
    | F_declarator => fun r lx' => full lx lx' (A_Declarator r)
    | F_declarators => fun r lx' => inl lx lx' (map A_Declarator r)
    | F_return | F_break | F_continue | F_throw | F_try | F_if | F_while | F_do | F_for | F_switch =>
        fun r lx' => full lx lx' (A_Stmt r)
    | F_label => fun r lx' => match r with
        | (Some l, Some e) => n_end l = e /\ full lx lx' (A_Ident l)
        | (None, None) => True
        | _ => False
        end
    | F_catch => fun r lx' => full lx lx' (A_Catch r)
    | F_for_init _ => fun r lx' => full lx lx' (A_ForInit r)
    | F_for_rest s i => fun r lx' => s <= lx_start lx -> chain 0 0 (opt A_ForInit i) (lx_start lx) (lx_end lx) -> from s lx lx' (A_Stmt r)
    | F_for_in_from_parts s l e => fun r lx' =>
        s <= lx_start lx -> chain 0 0 [A_ForInit l; A_Expr e] (lx_start lx) (lx_end lx) -> from s lx lx' (A_Stmt r)
    | F_for_in s l | F_for_of s l => fun r lx' =>
        s <= lx_start lx -> chain 0 0 [A_ForInit l] (lx_start lx) (lx_end lx) -> from s lx lx' (A_Stmt r)
    | F_import => fun r lx' => full lx lx' (A_Stmt r)
    | F_import_rest s specs _ => fun r lx' =>
        s <= lx_start lx -> chain 0 0 (map A_Spec specs) (lx_start lx) (lx_end lx) -> from s lx lx' (A_Stmt r)
    | F_import_specifiers => fun r lx' => inl lx lx' (map A_Spec r)
    end.
  Definition mono (lx lx' : lexer) : Prop := lx_start lx <= lx_start lx' /\ lx_end lx <= lx_end lx'.
  Definition spec (R : Set) (f : fn R) (lx : lexer) (r : R) (lx' : lexer) : Prop :=
    linv lx -> linv lx' /\ mono lx lx' /\ post R f lx r lx'.

  Notation wp := (wpe fn alnum spec).

  Lemma wpe_imp {A} (H : Prop) (p : P A) Q lx : (H -> wp p Q lx) -> wp p (fun a lx' => H -> Q a lx') lx.
  Proof.
    revert lx; induction p as [a|k IH|k IH|k IH|k IH|k IH| |R f k IH]; simpl; intros lx G; auto.
  Qed.

  Ltac simp := cbn [wpe bind look consume_ read_template read_regex fail_with error_ call expect
    start_then_consume end_then_consume get_end get_start identifier_ pattern_identifier token_expression
    unquote expression_handler_statement jump_statement postfix_handler assign_handler binary_handler].
  Ltac ord lx := match goal with L : linv lx |- _ =>
    let O1 := fresh "O" in let O2 := fresh "O" in destruct (linv_order lx L) as [O1 O2] end.
  Ltac walk1 :=
    match goal with
    | |- wpe _ _ _ (if ?b then _ else _) _ _ => let E := fresh "E" in destruct b eqn:E
    | |- wpe _ _ _ (bind (if ?b then _ else _) _) _ _ => let E := fresh "E" in destruct b eqn:E
    | |- wpe _ _ _ (match ?o with Some _ => _ | None => _ end) _ _ => let E := fresh "E" in destruct o eqn:E
    | |- wpe _ _ _ (match ?o with NoSemicolon => _ | _ => _ end) _ _ => let E := fresh "E" in destruct o eqn:E
    | |- wpe _ _ _ (bind (bind _ _) _) _ _ => apply wpe_bind
    | L : PosFacts.linv _ ?lx |- forall lx', consume alnum ?lx = Done lx' -> _ =>
        let lx' := fresh "lx" in let H := fresh "Hc" in let L' := fresh "L" in let M := fresh "M" in
        intros lx' H; destruct (linv_consume _ _ L H) as (L' & M); ord lx'
    | L : PosFacts.linv _ ?lx |- forall lx', read_template_kind ?lx = Done lx' -> _ =>
        let lx' := fresh "lx" in let H := fresh "Hc" in let L' := fresh "L" in let M := fresh "M" in let M2 := fresh "M" in
        intros lx' H; destruct (linv_template _ _ L H) as (L' & M & M2); ord lx'
    | L : PosFacts.linv _ ?lx |- forall v lx', read_regular_expression ?lx = Done (v, lx') -> _ =>
        let lx' := fresh "lx" in let H := fresh "Hc" in let L' := fresh "L" in let v := fresh "v" in
        let M := fresh "M" in let M2 := fresh "M" in
        intros v lx' H; destruct (linv_regex _ _ _ L H) as (L' & M & M2); ord lx'
    | L : PosFacts.linv _ ?lx |- forall r lx', spec _ _ ?lx r lx' -> _ =>
        let lx' := fresh "lx" in let H := fresh "S" in let L' := fresh "L" in let v := fresh "r" in
        let P := fresh "P" in let M := fresh "M" in let M2 := fresh "M" in
        intros v lx' H; destruct (H L) as (L' & (M & M2) & P); clear H; cbn [post] in P; ord lx'
    | |- True => exact I
    end.
  Ltac walk := simp; repeat (walk1; simp).
  Ltac red_all := unfold full, mid, from, inl, in_loc, func_body_end, class_body_end in *; cbn [chain alternate children n_item children_expression children_statement children_func children_class opt
      children_name children_template map app b_body n_start n_end v_start v_end view_of fst snd start_of end_of any_span item_any block_any] in *.
  Ltac destr_and := repeat match goal with H : _ /\ _ |- _ => destruct H end.
  Ltac orders := repeat match goal with
    | H : Good _ _ ?a |- _ => let Q := fresh "Q" in assert (Q := Good_start _ _ _ H); cbn [start_of end_of any_span fst snd n_start n_end] in Q; revert H
    | H : chain _ _ ?a _ _ |- _ => let Q := fresh "Q" in assert (Q := chain_order _ _ _ _ _ H); cbn [start_of end_of any_span fst snd n_start n_end] in Q; revert H end; intros.
  Ltac fin0 := match goal with
    | |- _ /\ _ => split
    | H : Good _ _ ?a |- Good _ _ ?a => apply (Good_up _ _ _ _ _ H)
    | |- Good _ _ (A_Expr (Node _ _ (E_Template _))) => eapply Good_template; [reflexivity|reflexivity|..]
    | |- Good _ _ (A_Tpl (Node _ _ (Template _ _))) => eapply Good_template; [reflexivity|reflexivity|..]
    | H : forall s t, s <= _ -> _ -> _ -> Good _ _ (A_Expr (Node s t ?e)) |- Good _ _ (A_Expr (Node _ _ ?e)) => eapply Good_up; [apply H|..]
    | |- Good _ _ _ => apply Good_intro; [reflexivity|..]
    | H : chain _ _ ?l _ _ |- chain _ _ ?l _ _ => apply (chain_weaken _ _ _ _ _ _ _ _ _ H)
    | |- chain _ _ (map _ (_ ++ _)) _ _ => rewrite map_app
    | H : chain _ _ ?l _ _ |- chain _ _ (?l ++ _) _ _ => apply (chain_app _ _ _ _ _ _ _ _ _ _ H)
    | |- chain _ _ [] _ _ => cbn [chain]
    | |- chain _ _ (_ :: _) _ _ => cbn [chain]
    | |- _ <= _ => first [cbn [start_of end_of any_span fst snd n_start n_end] in *; lia | orders; cbn [start_of end_of any_span fst snd n_start n_end] in *; lia]
    | |- _ = _ => first [reflexivity | cbn [start_of end_of any_span fst snd n_start n_end] in *; lia]
    | |- _ <> _ => discriminate
    | |- ?x <> ?x -> _ => congruence
    | |- _ -> _ => intro
    | |- forall _ : N, _ => intro
    | |- True => exact I
    end.
  Ltac core := red_all; destr_and; orders; repeat (fin0; red_all).
  Ltac isprop A := lazymatch type of A with Prop => idtac end.
  Ltac feed1 := match goal with
    | H : ?A -> _ |- _ => isprop A; let K := fresh "K" in assert (K : A) by (clear H; solve [core]); specialize (H K); clear K
    end.
  Ltac prep := unfold full, mid, from, inl in *; destr_and; repeat (feed1; destr_and).
  Ltac fin := intros; prep; core.
  Ltac done := match goal with L : PosFacts.linv _ ?lx |- PosFacts.linv _ ?lx /\ mono _ ?lx /\ _ => split; [exact L|split; [split; lia|]]; cbn [post] end.
  Notation "'start' R f lx" := (linv lx -> wp (body R f) (fun r lx' => linv lx' /\ mono lx lx' /\ post R f lx r lx') lx) (at level 10, R at level 9, f at level 9, lx at level 9).
  Ltac begin := let L := fresh "L" in let O1 := fresh "O" in let O2 := fresh "O" in
    intros L; match type of L with PosFacts.linv _ ?lx => destruct (linv_order lx L) as [O1 O2] end; cbn [body].
  Ltac obvious := begin;
    cbv delta [body_parse body_raw_block body_items body_item body_block body_unchecked_block body_pattern_from_expression
      body_params_from_expressions body_nested body_nested_handler body_sequence body_expression
      body_arrow body_call_arguments body_call_arguments_rest body_paren body_prefix body_object body_meta_property
      body_property_list body_property_list_rest body_property body_property_value body_array body_array_elements
      body_array_elements_rest body_regular_expression body_template_string body_template_literal body_template_rest
      body_function_expression body_class_expression body_name body_pattern body_function body_method body_class_member
      body_class_member_value body_class body_pattern_array body_pattern_object body_pattern_assign body_pattern_array_element
      body_pattern_elements body_pattern_elements_rest body_pattern_param body_rest_element body_params body_params_rest
      body_switch_case body_case_body body_statement body_expect_semicolon body_block_statement body_expression_statement
      body_labeled_or_expression body_function_statement body_class_statement body_variable_declaration body_declarator
      body_declarators body_return body_break body_continue body_label body_throw body_try body_catch body_if body_while body_do
      body_for_init body_for body_for_rest body_for_in_from_parts body_for_in body_for_of body_switch body_import body_import_rest
      body_import_specifiers]; cbv beta zeta; walk; try done; try solve [fin].


  Lemma ok_parse lx : start _ F_parse lx.
  Proof. obvious. Qed.
  Lemma ok_raw_block T (i : item T) lx : start _ (F_raw_block i) lx.
  Proof. obvious. Qed.
  Lemma ok_items T (i : item T) lx : start _ (F_items i) lx.
  Proof. obvious. Qed.
  Lemma ok_item T (i : item T) lx : start _ (F_item i) lx.
  Proof. destruct i; obvious. Qed.
  Lemma ok_block T (i : item T) lx : start _ (F_block i) lx.
  Proof. destruct i; obvious. Qed.
  Lemma ok_unchecked_block T (i : item T) lx : start _ (F_unchecked_block i) lx.
  Proof. destruct i; obvious. Qed.
  Lemma ok_pattern_from_expression e lx : start _ (F_pattern_from_expression e) lx.
  Proof.
    begin. unfold body_pattern_from_expression. destruct (n_item e) eqn:E; walk; try done; try solve [fin].
    - destruct op; walk. done. split; [reflexivity|]. split; [reflexivity|]. intros hs he G. destruct P as (P1 & P2 & P3).
      assert (C := Good_parts _ _ _ G ltac:(cbn; now rewrite E)). assert (Q := Good_start _ _ _ G). cbn [children] in C. rewrite E in C. cbn in C.
      destruct C as (C1 & C2 & C3 & C4 & C5 & C6 & C7). specialize (P3 _ _ C3). fin.
  Qed.
  Lemma ok_params_from_expressions es lx : start _ (F_params_from_expressions es) lx.
  Proof.
    begin. unfold body_params_from_expressions. destruct es; walk; done.
    - intros ls le hs he H. exact H.
    - intros ls le hs he H. cbn [map chain] in *. destruct H as (A1 & A2 & A3 & A4). specialize (P0 _ _ _ _ A4). destruct P as (P1 & P2 & P3). specialize (P3 _ _ A3).
      cbn [start_of end_of any_span fst snd] in *. rewrite P1, P2. auto.
  Qed.
  Lemma ok_nested b l lx : start _ (F_nested b l) lx.
  Proof. obvious. Qed.
  Lemma arrow_params l hs he : Good hs he (A_Expr l) -> chain 0 0 (map A_Expr (match n_item l with E_Sequence b => b | _ => [l] end)) hs he.
  Proof.
    intros H. assert (Q := Good_start _ _ _ H). destruct (n_item l) eqn:El; try solve [cbn [map chain]; split; [lia|split; [lia|split; [exact H|lia]]]].
    assert (C := Good_parts _ _ _ H ltac:(cbn; now rewrite El)). cbn [children] in C. now rewrite El in C.
  Qed.
  Lemma ok_nested_handler h l lx : start _ (F_nested_handler h l) lx.
  Proof.
    begin. destruct h; cbn [body_nested_handler]; walk; try done; try solve [fin].
    intros H. assert (A := arrow_params l _ _ H). assert (Q := Good_start _ _ _ H). cbn [start_of end_of any_span fst snd] in Q.
    assert (A' := chain_weaken _ _ _ _ 0 0 (lx_start lx0) (lx_end lx0) _ A ltac:(lia) ltac:(lia) ltac:(lia) ltac:(lia)).
    specialize (P A'). specialize (P (n_start l) (lx_end lx1) ltac:(lia) ltac:(lia) ltac:(lia)). fin.
  Qed.
  Lemma ok_sequence lx : start _ F_sequence lx.
  Proof. obvious. Qed.
  Lemma ok_expr_handler h lx : start _ (F_expr_handler h) lx.
  Proof.
    begin. destruct h; cbn [body_expr_handler]; walk; try done; try solve [fin].
    - destruct P as (P1 & P2 & P3). destruct (Good_start _ _ _ P1) as (Q1 & Q2 & Q3). split; [split; [apply Good_tpl; auto|exact P2]|intros _; exact P3].
  Qed.
  Lemma ok_expression c b lx : start _ (F_expression c b) lx.
  Proof.
    begin. unfold body_expression. walk; done.
    destruct P as [P P1]. prep. split; [solve [core]|]. intros Hc.
    assert (bound_handler c (view_of lx) <> X_VOID).
    { intros HV. apply void_array in HV. contradiction. }
    specialize (P1 ltac:(assumption)). core.
  Qed.
  Lemma ok_arrow ps lx : start _ (F_arrow ps) lx.
  Proof. obvious; intros H s t Hs Ht Hu; specialize (P _ _ _ _ H); fin. Qed.
  Lemma ok_call_arguments lx : start _ F_call_arguments lx.
  Proof. obvious. Qed.
  Lemma ok_call_arguments_rest lx : start _ F_call_arguments_rest lx.
  Proof. obvious. Qed.
  Lemma ok_paren lx : start _ F_paren lx.
  Proof. obvious; fin. Qed.
  Lemma ok_prefix op lx : start _ (F_prefix op) lx.
  Proof. obvious. Qed.
  Lemma ok_object lx : start _ F_object lx.
  Proof. obvious. Qed.
  Lemma ok_meta_property m lx : start _ (F_meta_property m) lx.
  Proof. obvious; split; auto; intros; fin. Qed.
  Lemma ok_property_list lx : start _ F_property_list lx.
  Proof. obvious. Qed.
  Lemma ok_property_list_rest lx : start _ F_property_list_rest lx.
  Proof. obvious. Qed.
  Lemma ok_property lx : start _ F_property lx.
  Proof. obvious. Qed.
  Lemma ok_property_value s k lx : start _ (F_property_value s k) lx.
  Proof. obvious. Qed.
  Lemma ok_array lx : start _ F_array lx.
  Proof. obvious. Qed.
  Lemma ok_array_elements lx : start _ F_array_elements lx.
  Proof. obvious. Qed.
  Lemma ok_array_elements_rest lx : start _ F_array_elements_rest lx.
  Proof. obvious. Qed.
  Lemma ok_regular_expression lx : start _ F_regular_expression lx.
  Proof. obvious. Qed.
  Lemma ok_template_string lx : start _ F_template_string lx.
  Proof. obvious. Qed.
  Lemma ok_template_literal lx : start _ F_template_literal lx.
  Proof. obvious. destruct r1 as [[qs es] e]. walk. done. fin. Qed.
  Lemma ok_template_rest lx : start _ F_template_rest lx.
  Proof. obvious. destruct r1 as [[qs es] e]. walk. done. fin. Qed.
  Lemma ok_function_expression lx : start _ F_function_expression lx.
  Proof. obvious. Qed.
  Lemma ok_class_expression lx : start _ F_class_expression lx.
  Proof. obvious. Qed.
  Lemma ok_name k lx : start _ (F_name k) lx.
  Proof. destruct k; obvious. Qed.
  Lemma ok_pattern lx : start _ F_pattern lx.
  Proof. obvious. Qed.
  Lemma ok_function k lx : start _ (F_function k) lx.
  Proof. obvious. Qed.
  Lemma ok_method lx : start _ F_method lx.
  Proof. obvious. Qed.
  Lemma ok_class_member lx : start _ F_class_member lx.
  Proof. obvious. Qed.
  Lemma ok_class_member_value s st k key lx : start _ (F_class_member_value s st k key) lx.
  Proof. obvious. Qed.
  Lemma ok_class k lx : start _ (F_class k) lx.
  Proof. obvious. Qed.
  Lemma ok_pattern_array lx : start _ F_pattern_array lx.
  Proof. obvious. Qed.
  Lemma ok_pattern_object lx : start _ F_pattern_object lx.
  Proof. obvious. Qed.
  Lemma ok_pattern_assign l lx : start _ (F_pattern_assign l) lx.
  Proof. obvious. Qed.
  Lemma ok_pattern_array_element lx : start _ F_pattern_array_element lx.
  Proof. obvious. Qed.
  Lemma ok_pattern_elements lx : start _ F_pattern_elements lx.
  Proof. obvious. Qed.
  Lemma ok_pattern_elements_rest lx : start _ F_pattern_elements_rest lx.
  Proof. obvious. Qed.
  Lemma ok_pattern_param lx : start _ F_pattern_param lx.
  Proof. obvious. Qed.
  Lemma ok_rest_element lx : start _ F_rest_element lx.
  Proof. obvious. Qed.
  Lemma ok_params lx : start _ F_params lx.
  Proof. obvious. Qed.
  Lemma ok_params_rest lx : start _ F_params_rest lx.
  Proof. obvious. Qed.
  Lemma ok_stmt_handler h lx : start _ (F_stmt_handler h) lx.
  Proof. begin. destruct h; cbn [body_stmt_handler]; walk; try done; try solve [fin]. Qed.
  Lemma ok_switch_case lx : start _ F_switch_case lx.
  Proof. obvious; match goal with r : (list _ * _)%type |- _ => destruct r as [ss e'] end; walk; done; fin. Qed.
  Lemma ok_case_body e lx : start _ (F_case_body e) lx.
  Proof. obvious. destruct r1 as [ss e']; walk; done; fin. Qed.
  Lemma ok_statement lx : start _ F_statement lx.
  Proof. obvious. Qed.
  Lemma ok_expect_semicolon lx : start _ F_expect_semicolon lx.
  Proof. obvious. Qed.
  Lemma ok_block_statement lx : start _ F_block_statement lx.
  Proof. obvious. Qed.
  Lemma ok_expression_statement e lx : start _ (F_expression_statement e) lx.
  Proof. obvious. Qed.
  Lemma ok_labeled_or_expression lx : start _ F_labeled_or_expression lx.
  Proof. obvious. Qed.
  Lemma ok_function_statement lx : start _ F_function_statement lx.
  Proof. obvious. Qed.
  Lemma ok_class_statement lx : start _ F_class_statement lx.
  Proof. obvious. Qed.
  Lemma ok_variable_declaration k lx : start _ (F_variable_declaration k) lx.
  Proof. obvious. Qed.
  Lemma ok_declarator lx : start _ F_declarator lx.
  Proof. obvious. Qed.
  Lemma ok_declarators lx : start _ F_declarators lx.
  Proof. obvious. Qed.
  Lemma ok_return lx : start _ F_return lx.
  Proof. obvious. Qed.
  Lemma ok_break lx : start _ F_break lx.
  Proof. obvious. destruct r0 as [[l|] [e|]]; try contradiction; walk; done; fin. Qed.
  Lemma ok_continue lx : start _ F_continue lx.
  Proof. obvious. destruct r0 as [[l|] [e|]]; try contradiction; walk; done; fin. Qed.
  Lemma ok_label lx : start _ F_label lx.
  Proof. obvious. Qed.
  Lemma ok_throw lx : start _ F_throw lx.
  Proof. obvious. Qed.
  Lemma ok_try lx : start _ F_try lx.
  Proof. obvious. Qed.
  Lemma ok_catch lx : start _ F_catch lx.
  Proof. obvious. Qed.
  Lemma ok_if lx : start _ F_if lx.
  Proof. obvious. Qed.
  Lemma ok_while lx : start _ F_while lx.
  Proof. obvious. Qed.
  Lemma ok_do lx : start _ F_do lx.
  Proof. obvious. Qed.
  Lemma ok_for_init k lx : start _ (F_for_init k) lx.
  Proof. obvious. Qed.
  Lemma ok_for lx : start _ F_for lx.
  Proof.
    obvious.
    assert (G : wp (call (F_for_rest (v_start (view_of lx)) (Some (Node (n_start r0) (n_end r0) (FI_Expression r0)))))
        (fun (r : stmt_node) (lx' : lexer) => linv lx' /\ mono lx lx' /\ post stmt_node F_for lx r lx') lx2).
    { walk. done. fin. }
    destruct (n_item r0) eqn:Er; try exact G. destruct op; try exact G. clear G.
    assert (C : chain 0 0 (children (A_Expr r0)) (lx_start lx2) (lx_end lx2)) by (apply Good_parts; [apply P|cbn; now rewrite Er]).
    cbn [children] in C. rewrite Er in C. cbn in C. destruct C as (C1 & C2 & C3 & C4 & C5 & C6 & C7).
    walk. done. fin.
  Qed.
  Lemma ok_for_rest s i lx : start _ (F_for_rest s i) lx.
  Proof.
    obvious.
    all: intros H1 H2; cbn [opt] in H2; fin.
  Qed.
  Lemma ok_for_in_from_parts s l e lx : start _ (F_for_in_from_parts s l e) lx.
  Proof. obvious. Qed.
  Lemma ok_for_in s l lx : start _ (F_for_in s l) lx.
  Proof. obvious. Qed.
  Lemma ok_for_of s l lx : start _ (F_for_of s l) lx.
  Proof. obvious. Qed.
  Lemma ok_switch lx : start _ F_switch lx.
  Proof. obvious. Qed.
  Lemma ok_import lx : start _ F_import lx.
  Proof. obvious. unfold unquote. walk. done. fin. Qed.
  Lemma ok_import_rest s sp h lx : start _ (F_import_rest s sp h) lx.
  Proof. obvious; unfold unquote; walk; done; fin. Qed.
  Lemma ok_import_specifiers lx : start _ F_import_specifiers lx.
  Proof. obvious. Qed.
  Theorem spec_ok R (f : fn R) lx : wp (body R f) (spec R f lx) lx.
  Proof.
    apply wpe_imp. intros L. destruct f.
    - apply ok_parse; auto.
    - apply ok_block; auto.
    - apply ok_unchecked_block; auto.
    - apply ok_raw_block; auto.
    - apply ok_items; auto.
    - apply ok_item; auto.
    - apply ok_pattern_from_expression; auto.
    - apply ok_params_from_expressions; auto.
    - apply ok_nested; auto.
    - apply ok_nested_handler; auto.
    - apply ok_sequence; auto.
    - apply ok_expr_handler; auto.
    - apply ok_expression; auto.
    - apply ok_arrow; auto.
    - apply ok_call_arguments; auto.
    - apply ok_call_arguments_rest; auto.
    - apply ok_paren; auto.
    - apply ok_prefix; auto.
    - apply ok_object; auto.
    - apply ok_meta_property; auto.
    - apply ok_property_list; auto.
    - apply ok_property_list_rest; auto.
    - apply ok_property; auto.
    - apply ok_property_value; auto.
    - apply ok_array; auto.
    - apply ok_array_elements; auto.
    - apply ok_array_elements_rest; auto.
    - apply ok_regular_expression; auto.
    - apply ok_template_string; auto.
    - apply ok_template_literal; auto.
    - apply ok_template_rest; auto.
    - apply ok_function_expression; auto.
    - apply ok_class_expression; auto.
    - apply ok_name; auto.
    - apply ok_pattern; auto.
    - apply ok_function; auto.
    - apply ok_method; auto.
    - apply ok_class_member; auto.
    - apply ok_class_member_value; auto.
    - apply ok_class; auto.
    - apply ok_pattern_array; auto.
    - apply ok_pattern_object; auto.
    - apply ok_pattern_assign; auto.
    - apply ok_pattern_array_element; auto.
    - apply ok_pattern_elements; auto.
    - apply ok_pattern_elements_rest; auto.
    - apply ok_pattern_param; auto.
    - apply ok_rest_element; auto.
    - apply ok_params; auto.
    - apply ok_params_rest; auto.
    - apply ok_stmt_handler; auto.
    - apply ok_switch_case; auto.
    - apply ok_case_body; auto.
    - apply ok_statement; auto.
    - apply ok_expect_semicolon; auto.
    - apply ok_block_statement; auto.
    - apply ok_expression_statement; auto.
    - apply ok_labeled_or_expression; auto.
    - apply ok_function_statement; auto.
    - apply ok_class_statement; auto.
    - apply ok_variable_declaration; auto.
    - apply ok_declarator; auto.
    - apply ok_declarators; auto.
    - apply ok_return; auto.
    - apply ok_break; auto.
    - apply ok_continue; auto.
    - apply ok_label; auto.
    - apply ok_throw; auto.
    - apply ok_try; auto.
    - apply ok_catch; auto.
    - apply ok_if; auto.
    - apply ok_while; auto.
    - apply ok_do; auto.
    - apply ok_for_init; auto.
    - apply ok_for; auto.
    - apply ok_for_rest; auto.
    - apply ok_for_in_from_parts; auto.
    - apply ok_for_in; auto.
    - apply ok_for_of; auto.
    - apply ok_switch; auto.
    - apply ok_import; auto.
    - apply ok_import_rest; auto.
    - apply ok_import_specifiers; auto.
  Qed.
End Pass.

Lemma parse_ordered alnum src m : N.of_nat (List.length src) < 4294967296 ->
  parses_to alnum src (ParseOk m) -> (forall a, in_module a m -> ordered a) /\
  ascending (map (@n_start statement) m) /\ ascending (map (@n_end statement) m).
Proof.
  intros Sh H. apply parse_state in H as (n & lx & m' & s & H1 & H2 & E).
  destruct (p_errors s) eqn:Es; [|discriminate]. injection E as <-.
  assert (L : PosFacts.linv src lx) by (apply (consume_inv _ src) in H1; [|apply init_inv]; unfold PosFacts.linv; tauto).
  assert (G := run_wpe fn alnum body (spec src) (spec_ok alnum src Sh) _ _ _ _ _ _ _ H2 Es (spec_ok alnum src Sh _ F_parse lx)).
  destruct (G L) as (_ & _ & K). cbn in K. unfold inl in K. split.
  - intros a (s0 & Hi & W). assert (F : Forall (Good (lx_start (p_lexer s)) (lx_end (p_lexer s))) (map A_Stmt m)) by (eapply chain_good; eauto).
    rewrite Forall_forall in F. exact (proj1 (F (A_Stmt s0) (in_map A_Stmt _ _ Hi) a W)).
  - assert (F : ascending (map start_of (map A_Stmt m)) /\ ascending (map end_of (map A_Stmt m))) by (eapply chain_ascending; eauto).
    now rewrite !map_map in F.
Qed.
