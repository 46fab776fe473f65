(** Error-free executions of the parser build well-formed trees. *)
From Coq Require Import List NArith Bool Lia Arith String.
From Coq.Strings Require Import Byte.
From Verif Require Import Bytes Token Tables Lexer SpecTokens LexerFacts ConsumeFacts LexEval TokenText
  Ast SpecTree Prog ProgFacts Parser StateFacts ErrorFacts.
Import ListNotations.
Open Scope nat_scope.

(** ** Trees *)
Definition node_ok (a : any) : Prop :=
  placeholder_free a /\ template_complete a /\ targets_valid a /\ well_formed a.
Definition All (a : any) : Prop := forall b, within b a -> node_ok b.

Definition plain (e : node expression) : Prop :=
  match n_item e with E_Void | E_Spread _ => False | _ => True end.
Definition plainc (c : any) : Prop :=
  match c with
  | A_Expr e => plain e
  | A_Pat p => n_item p <> Pat_Void
  | A_Ident i => n_item i <> []
  | _ => True
  end.
Definition good (a : any) : Prop := All a /\ plainc a.
Definition goods (l : list any) : Prop := Forall good l.

Lemma All_intro a : node_ok a -> Forall All (children a) -> All a.
Proof.
  intros H K b W. inversion W as [x|x y c I W']; subst; auto.
  rewrite Forall_forall in K. exact (K _ I _ W').
Qed.
Lemma All_node a : All a -> node_ok a.
Proof. intros H. apply H. constructor. Qed.
Lemma All_children a : All a -> Forall All (children a).
Proof. intros H. apply Forall_forall. intros c I b W. apply H. econstructor; eauto. Qed.

(** The part of [node_ok] that does not look at the kinds of the children. *)
Definition local (a : any) : Prop :=
  match a with
  | A_Expr n =>
      expression_wf (n_item n) /\
      match n_item n with
      | E_Binary op l _ => In op assignment_operators -> target (n_item l)
      | E_Postfix _ x => target (n_item x)
      | E_Template (Template es qs) => List.length qs = S (List.length es)
      | _ => True
      end
  | A_Tpl n => match n_item n with Template es qs => List.length qs = S (List.length es) end
  | A_Stmt n => statement_wf (n_item n)
  | A_Prop n => match n_item n with P_Shorthand s => word_text s | _ => True end
  | A_Pat n =>
      match n_item n with
      | Pat_Identifier s => identifier_text s \/ s = bs "import"
      | Pat_Rest i => identifier_text (n_item i)
      | _ => True
      end
  | A_Func n => match n_item n with Func nm _ ps _ => nm = Name_Empty /\ rest_last ps end
  | A_Member n =>
      match n_item n with CM_Error => False | CM_Method true _ k _ => k <> MK_Constructor | _ => True end
  | A_ForInit n => match n_item n with FI_Declaration _ ds => ds <> [] | _ => True end
  | A_Key n =>
      match n_item n with
      | Key_Computed _ => True
      | Key_Literal s => word_text s \/ quoted s \/ number_text s T_LiteralNumber
      | Key_Binary s => number_text s T_LiteralBinary
      end
  | A_Spec n =>
      match n_item n with
      | IS_Named i l => identifier_text (n_item i) /\ identifier_text (n_item l)
      | IS_Default l | IS_Namespace l => identifier_text (n_item l)
      end
  | _ => True
  end.

Lemma word_nonempty s : word_text s -> s <> [].
Proof. intros (b & w & -> & _). discriminate. Qed.
Lemma ident_nonempty s : identifier_text s -> s <> [].
Proof. intros [H _]. now apply word_nonempty. Qed.

Lemma local_ok a : local a ->
  (forall i, In (A_Ident i) (children a) -> template_of a = None -> n_item i <> []) ->
  (forall e, In (A_Expr e) (children a) -> n_item e = E_Void -> is_array a) ->
  (forall e x, In (A_Expr e) (children a) -> n_item e = E_Spread x -> is_array a \/ is_call_argument e a) ->
  (forall p, In (A_Pat p) (children a) -> n_item p = Pat_Void -> is_array_pattern a) ->
  node_ok a.
Proof.
  intros L HI HV HS HP. split; [|split; [|split; [|split; [|exact HS]]]].
  - split; [|split; [|split; [exact HI|split; [exact HV|exact HP]]]].
    + intros m -> E. simpl in L. now rewrite E in L.
    + intros p -> E. simpl in L. rewrite E in L. destruct L as (b & w & F & _). discriminate.
  - intros es qs E. destruct a as [ |n|n| | | | | | | | | | | | | | ]; try discriminate E; simpl in E, L.
    + destruct (n_item n); try discriminate E. destruct L as [_ L]. destruct t. injection E as <- <-. exact L.
    + injection E as E. now rewrite E in L.
  - intros n ->. simpl in L. destruct L as [_ L]. split.
    + intros op l r E. rewrite E in L. exact L.
    + intros op x E. now rewrite E in L.
  - destruct a; simpl in L |- *; try exact L; try exact I; try tauto.
    destruct (n_item n); try exact I; exact L.
Qed.

(** A node without array holes, spreads or quasis. *)
Lemma All_plain a : local a -> goods (children a) -> All a.
Proof.
  intros L G. unfold goods in G. rewrite Forall_forall in G. apply All_intro.
  - apply local_ok; auto.
    + intros i Hi _. apply (G _ Hi).
    + intros e Hi E. apply G in Hi. destruct Hi as [_ P]. simpl in P. unfold plain in P. now rewrite E in P.
    + intros e x Hi E. apply G in Hi. destruct Hi as [_ P]. simpl in P. unfold plain in P. now rewrite E in P.
    + intros p Hi E. apply G in Hi. destruct Hi as [_ P]. simpl in P. congruence.
  - apply Forall_forall. intros c Hi. apply (G _ Hi).
Qed.
Lemma All_array s e es : Forall All (map A_Expr es) -> All (A_Expr (Node s e (E_Array es))).
Proof.
  intros K. apply All_intro; [|exact K]. apply local_ok; simpl; auto.
  - intros i Hi. apply in_map_iff in Hi as (x & E & _). discriminate.
  - intros x _ _. do 2 eexists. split; reflexivity.
  - intros x y _ _. left. do 2 eexists. split; reflexivity.
  - intros p Hi. apply in_map_iff in Hi as (x & E & _). discriminate.
Qed.
Lemma All_pat_array s e es : Forall All (map A_Pat es) -> All (A_Pat (Node s e (Pat_Array es))).
Proof.
  intros K. apply All_intro; [|exact K]. apply local_ok; simpl; auto.
  - intros i Hi. apply in_map_iff in Hi as (x & E & _). discriminate.
  - intros i Hi. apply in_map_iff in Hi as (x & E & _). discriminate.
  - intros i y Hi. apply in_map_iff in Hi as (x & E & _). discriminate.
  - intros p _ _. do 2 eexists. split; reflexivity.
Qed.
Definition arg (e : node expression) : Prop := All (A_Expr e) /\ n_item e <> E_Void.
Lemma All_call s e c args : good (A_Expr c) -> Forall arg args -> All (A_Expr (Node s e (E_Call c args))).
Proof.
  intros [K1 K2] K. apply All_intro.
  2:{ simpl. constructor; auto. apply Forall_map. eapply Forall_impl; [|exact K]. intros x [Hx _]. exact Hx. }
  rewrite Forall_forall in K. simpl in K2. unfold plain in K2.
  apply local_ok; simpl; auto.
  - intros i [Hi|Hi]; [discriminate|]. apply in_map_iff in Hi as (x & E & _). discriminate.
  - intros x [Hi|Hi] E.
    + injection Hi as ->. now rewrite E in K2.
    + apply in_map_iff in Hi as (y & Ey & Hi). injection Ey as ->. destruct (K _ Hi). congruence.
  - intros x y [Hi|Hi] E.
    + injection Hi as ->. now rewrite E in K2.
    + apply in_map_iff in Hi as (z & Ez & Hi). injection Ez as ->. right. do 3 eexists. split; [reflexivity|]. split; [reflexivity|auto].
  - intros p [Hi|Hi]; [discriminate|]. apply in_map_iff in Hi as (x & E & _). discriminate.
Qed.
Lemma tpl_children es qs a : goods (map A_Expr es) -> children a = map A_Expr es ++ map A_Ident qs ->
  template_of a = Some (Template es qs) -> local a -> All a.
Proof.
  intros G C T L. apply All_intro.
  - apply local_ok; auto.
    + congruence.
    + intros e Hi E. rewrite C in Hi. apply in_app_iff in Hi as [Hi|Hi]; [|apply in_map_iff in Hi as (x & Ex & _); discriminate].
      unfold goods in G. rewrite Forall_forall in G. apply G in Hi as [_ Hp]. simpl in Hp. unfold plain in Hp. now rewrite E in Hp.
    + intros e y Hi E. rewrite C in Hi. apply in_app_iff in Hi as [Hi|Hi]; [|apply in_map_iff in Hi as (x & Ex & _); discriminate].
      unfold goods in G. rewrite Forall_forall in G. apply G in Hi as [_ Hp]. simpl in Hp. unfold plain in Hp. now rewrite E in Hp.
    + intros p Hi. rewrite C in Hi. apply in_app_iff in Hi as [Hi|Hi]; apply in_map_iff in Hi as (x & Ex & _); discriminate.
  - rewrite C. apply Forall_app. split.
    + eapply Forall_impl; [|exact G]. intros c [Hc _]. exact Hc.
    + apply Forall_map, Forall_forall. intros i _. apply All_intro; [|constructor].
      apply local_ok; simpl; tauto.
Qed.
Lemma All_tpl s e es qs : goods (map A_Expr es) -> List.length qs = S (List.length es) -> All (A_Tpl (Node s e (Template es qs))).
Proof. intros G L. eapply tpl_children; eauto; reflexivity. Qed.
Lemma All_template s e es qs : goods (map A_Expr es) -> List.length qs = S (List.length es) ->
  All (A_Expr (Node s e (E_Template (Template es qs)))).
Proof. intros G L. eapply tpl_children; eauto; [reflexivity..|]. simpl. auto. Qed.
Lemma good_ident s e x : x <> [] -> good (A_Ident (Node s e x)).
Proof. intros H. split; [|exact H]. apply All_plain; simpl; auto. constructor. Qed.

(** From a template node to a template expression. *)
Lemma All_tpl_expr s e (t : node template) : All (A_Tpl t) -> All (A_Expr (Node s e (E_Template (n_item t)))).
Proof.
  intros H. assert (C := All_children _ H). assert (N := All_node _ H). apply All_intro; [|exact C].
  destruct N as ((_ & _ & _ & V & P) & T & _ & _ & S). apply local_ok; simpl.
  - split; auto. destruct (n_item t) as [es qs] eqn:E. apply T. simpl. congruence.
  - intros i _. destruct (n_item t); discriminate.
  - intros x Hx E. destruct (V _ Hx E) as (n & z & E' & _). discriminate.
  - intros x y Hx E. destruct (S _ _ Hx E) as [(n & z & E' & _)|(n & z & l & E' & _)]; discriminate.
  - intros p Hp E. destruct (P _ Hp E) as (n & z & E' & _). discriminate.
Qed.
(** The operands of a binary expression, the elements of a sequence. *)
Lemma good_operands n op l r : All (A_Expr n) -> n_item n = E_Binary op l r -> good (A_Expr l) /\ good (A_Expr r).
Proof.
  intros H E. assert (C := All_children _ H). assert (N := All_node _ H).
  destruct N as ((_ & _ & _ & V & _) & _ & _ & _ & S). simpl in C, V, S. rewrite E in C, V, S. simpl in C, V, S.
  inversion C as [|c1 l1 C1 C']; subst. inversion C' as [|c2 l2 C2 _]; subst.
  assert (G : forall x, x = l \/ x = r -> plain x).
  { intros x Hx. unfold plain. destruct (n_item x) eqn:Ex; auto.
    - destruct (V x) as (m & es & Em & E'); auto. { destruct Hx; subst; auto. }
      injection Em as <-. congruence.
    - destruct (S x argument) as [(m & es & Em & E')|(m & c & es & Em & E' & _)]; auto. { destruct Hx; subst; auto. }
      all: injection Em as <-; congruence. }
  split; split; auto; apply G; auto.
Qed.
Lemma All_elements n es : All (A_Expr n) -> n_item n = E_Sequence es -> Forall All (map A_Expr es).
Proof. intros H E. apply All_children in H. simpl in H. now rewrite E in H. Qed.
(** Moving a good expression to another node. *)
Lemma good_same (a b : node expression) : n_item a = n_item b -> good (A_Expr a) -> good (A_Expr b).
Proof.
  destruct a as [s1 e1 x], b as [s2 e2 y]. simpl. intros <- [H P]. split; [|exact P].
  assert (C := All_children _ H). assert (N := All_node _ H). apply All_intro; [|exact C].
  destruct N as ((_ & _ & I & V & Pt) & T & A & W & S). cbn [children n_item] in *.
  split; [|split; [|split; [|split]]].
  - split; [discriminate|]. split; [discriminate|]. split; [exact I|]. split.
    + intros e He E. destruct (V _ He E) as (n & es & En & Ei). injection En as <-. do 2 eexists; split; [reflexivity|exact Ei].
    + intros p Hp E. destruct (Pt _ Hp E) as (n & es & En & Ei). discriminate.
  - exact T.
  - intros n En. injection En as <-. exact (A _ eq_refl).
  - exact W.
  - intros e z He E. destruct (S _ _ He E) as [(n & es & En & Ei)|(n & c & es & En & Ei & Ii)]; injection En as <-.
    + left. do 2 eexists; split; [reflexivity|exact Ei].
    + right. do 3 eexists; split; [reflexivity|split; [exact Ei|exact Ii]].
Qed.

(** ** The lexer *)
Section Pass.
  Variable alnum : N -> bool.
  Variable src : str.

  Record linv (lx : lexer) : Prop := LInv { l_inv : lex_inv src lx; l_text : text_ok lx }.

  Lemma linv_consume lx lx' : linv lx -> consume alnum lx = Done lx' -> linv lx'.
  Proof.
    intros [I _] H. split; [apply (consume_inv alnum src lx); auto|]. eapply consume_text; [apply I|eauto].
  Qed.
  Lemma linv_template lx lx' : linv lx -> read_template_kind lx = Done lx' -> linv lx'.
  Proof.
    intros [I _] H. split; [|now apply template_text in H].
    assert (Z := template_token _ _ H). apply template_step in H; [|apply I].
    apply (step_inv src lx); auto. intuition congruence.
  Qed.
  Lemma linv_regex lx v lx' : linv lx -> read_regular_expression lx = Done (v, lx') -> linv lx'.
  Proof.
    intros [I _] H. split; [|now apply regex_text in H].
    assert (Z := regex_token _ _ _ H). apply regex_step in H; [|apply I].
    apply (step_inv src lx); auto.
  Qed.
  Lemma scan_regex_body r : forall ic p c, scan_regex ic p r = Done (RegexDone, c) ->
    exists body, r = body ++ "/"%byte :: rem c /\ pos c = p + S (List.length body).
  Proof.
    induction r as [r IH] using length_ind. intros ic p c H. destruct r as [|b r]; simpl in H; [discriminate|].
    assert (G : forall ic', scan_regex ic' (S p) r = Done (RegexDone, c) ->
      exists body, b :: r = body ++ "/"%byte :: rem c /\ pos c = p + S (List.length body)).
    { intros ic' Hs. apply IH in Hs as (body & -> & Hp); [|simpl; lia]. exists (b :: body). simpl. split; [auto|lia]. }
    destruct (byte_eqb b "["); [eauto|]. destruct (byte_eqb b "]"); [eauto|].
    destruct (byte_eqb b "/") eqn:E; [destruct ic; [eauto|]|].
    { injection H as <-. byte_cases. exists []. simpl. split; [auto|lia]. }
    destruct (byte_eqb b "\"); [|destruct (byte_eqb b x0a); [discriminate|eauto]].
    destruct r as [|x r]; [discriminate|]. destruct (byte_eqb x x00); [discriminate|].
    apply IH in H as (body & -> & Hp); [|simpl; lia]. exists (b :: x :: body). simpl. split; [auto|lia].
  Qed.
  Lemma regex_value lx v lx' : linv lx -> lx_token lx = T_OperatorDivision ->
    read_regular_expression lx = Done (v, lx') -> lx_token lx' = T_LiteralRegEx -> SpecTokens.regex_text v.
  Proof.
    intros [I T] Et H Er. assert (Tx := tx_div _ T Et).
    unfold read_regular_expression in H. ob H as [k c] Hk Hr. destruct k.
    2,3: injection Hr as <- <-; discriminate Er.
    ob Hr as lx2 Hs Hv. injection Hv as <- <-.
    apply scan_regex_body in Hk as (body & Eb & Pb).
    unfold skip_while in Hs. ob Hs as c2 Hw Hz. injection Hz as <-.
    apply scan_while_spec in Hw as (flags & b1 & r1 & E1 & -> & Hf & _). cbn [set_cur lx_cur] in *.
    destruct (li_fwd _ _ I) as [s F]. unfold token_as_str in Tx. rewrite (adv_slice _ _ _ F) in Tx. subst s.
    destruct F as [F1 F2]. simpl in F1, F2.
    destruct (li_tok _ _ I) as [pre [B1 B2]].
    exists body, flags. split.
    - cbn [lx_buf set_cur pos]. rewrite Pb, F2, <- B2.
      replace (List.length pre + 1 + S (List.length body) + List.length flags - (List.length pre + 1 - 1))
        with (List.length ("/"%byte :: body ++ "/"%byte :: flags)) by (cbn [List.length]; rewrite app_length; cbn [List.length]; lia).
      replace (List.length pre + 1 - 1) with (List.length pre) by lia.
      rewrite B1, skipn_app, Nat.sub_diag, skipn_all, F1, Eb, E1. cbn [app skipn].
      replace ("/"%byte :: body ++ "/"%byte :: flags ++ b1 :: r1) with (("/"%byte :: body ++ "/"%byte :: flags) ++ b1 :: r1)
        by (cbn [app]; rewrite <- app_assoc; reflexivity).
      rewrite firstn_app, Nat.sub_diag, firstn_all. apply app_nil_r.
    - rewrite forallb_forall in Hf. apply Forall_forall. intros x Hx. apply Hf in Hx. unfold is_regex_flag in Hx.
      clear - Hx. destruct x; vm_compute in Hx |- *; congruence.
  Qed.

  (** ** The tables *)
  Lemma is_true t lx : is t (view_of lx) = true -> lx_token lx = t.
  Proof. unfold is. simpl. apply token_eqb_eq. Qed.

  Definition handler_token (h : expr_handler) (t : token) : Prop :=
    match h with
    | X_IDEN => t = T_Identifier
    | X_STR => t = T_LiteralString
    | X_NUM => t = T_LiteralNumber
    | X_BIN => t = T_LiteralBinary
    | X_REG => t = T_OperatorDivision
    | X_OP => forall op, operator_from_token t = Some op -> In op prefix_operators
    | _ => True
    end.
  Lemma bound_token c v : handler_token (bound_handler c v) (v_token v).
  Proof.
    unfold bound_handler. destruct (v_token v), c; try exact I; try reflexivity;
      intros op E; injection E as <-; vm_compute; tauto.
  Qed.
  Lemma void_stops v : bound_handler CtxArray v = X_VOID -> handler BP_B0 v = None.
  Proof.
    unfold bound_handler, handler, is. destruct (v_token v); intros H; try discriminate H; destruct (v_asi v); reflexivity.
  Qed.
  Lemma void_array c v : bound_handler c v = X_VOID -> c = CtxArray.
  Proof. unfold bound_handler. destruct c, (v_token v); intros H; try discriminate H; reflexivity. Qed.
  Lemma spread_context v : bound_handler CtxDefault v <> X_SPRD.
  Proof. unfold bound_handler. destruct (v_token v); discriminate. Qed.
  Lemma in_all_tokens t : In t all_tokens.
  Proof.
    assert (G : nth (token_index t) all_tokens T_Semicolon = t) by (destruct t; reflexivity).
    rewrite <- G. apply nth_In. destruct t; vm_compute; lia.
  Qed.
  Lemma lut_accessor b t : nth (token_index t) (LUT b) None = Some N_ACCS -> t = T_Accessor.
  Proof.
    assert (G : forallb (fun t => match nth (token_index t) (LUT b) None with Some N_ACCS => token_eqb t T_Accessor | _ => true end)
      all_tokens = true) by (destruct b; vm_compute; reflexivity).
    rewrite forallb_forall in G. specialize (G t (in_all_tokens t)). intros H. rewrite H in G. now apply token_eqb_eq.
  Qed.
  Lemma accessor_token b v : handler b v = Some N_ACCS -> v_token v = T_Accessor.
  Proof.
    unfold handler. destruct (v_asi v); try apply lut_accessor.
    destruct (is T_OperatorIncrement v || is T_OperatorDecrement v)%bool; [discriminate|apply lut_accessor].
  Qed.
  Definition stmt_token (h : stmt_handler) (t : token) : Prop :=
    match h with
    | S_LABL => t = T_Identifier
    | S_IMPT => t = T_Import
    | S_OP => handler_token X_OP t
    | S_REG => handler_token X_REG t
    | S_STR => handler_token X_STR t
    | S_NUM => handler_token X_NUM t
    | S_BIN => handler_token X_BIN t
    | _ => True
    end.
  Lemma statement_token v : stmt_token (statement_handler v) (v_token v).
  Proof.
    unfold statement_handler. destruct (v_token v); try exact I; try reflexivity;
      intros op E; injection E as <-; vm_compute; tauto.
  Qed.

  (** ** What the methods return in executions without errors *)
  Definition item_any {T : Set} (i : item T) : node T -> any :=
    match i with I_Statement => A_Stmt | I_Member => A_Member | I_Case => A_Case end.
  Definition block_any {T : Set} (i : item T) : node (block T) -> any :=
    match i with I_Statement => A_Body | I_Member => A_ClassBody | I_Case => A_Cases end.
  Definition name_is (k : namekind) (n : fname) : Prop :=
    match k with NK_Empty => n = Name_Empty | NK_Optional => maybe_named n | NK_Mandatory => named n end.
  Definition fun_good (k : namekind) (f : func) : Prop :=
    goods (children_func f) /\ match f with Func n _ ps _ => name_is k n /\ rest_last ps end.
  Definition class_good (k : namekind) (c : class) : Prop :=
    goods (children_class c) /\ match c with Class n _ _ => name_is k n end.
  Definition norest (p : node pattern) : Prop := forall x, n_item p <> Pat_Rest x.
  Definition alls (l : list any) : Prop := Forall All l.

  Definition post (R : Set) (f : fn R) (lx : lexer) : R -> lexer -> Prop :=
    match f in fn R return R -> lexer -> Prop with
    | F_parse => fun m _ => goods (map A_Stmt m)
    | F_block i => fun b _ => good (block_any i b)
    | F_unchecked_block i => fun b _ => good (block_any i b)
    | F_raw_block i => fun b _ => goods (map (item_any i) (b_body b))
    | F_items i => fun l _ => goods (map (item_any i) l)
    | F_item i => fun x _ => good (item_any i x)
    | F_pattern_from_expression e => fun p _ => All (A_Expr e) -> good (A_Pat p) /\ norest p
    | F_params_from_expressions es => fun ps _ =>
        alls (map A_Expr es) -> goods (map A_Pat ps) /\ Forall norest ps
    | F_nested b l0 => fun r lx' =>
        (good (A_Expr l0) -> good (A_Expr r)) /\ handler b (view_of lx') = None /\
        (handler b (view_of lx) = None -> r = l0 /\ lx' = lx)
    | F_nested_handler h l0 => fun r _ =>
        (h = N_ACCS -> lx_token lx = T_Accessor) -> good (A_Expr l0) -> good (A_Expr r)
    | F_sequence => fun es _ => goods (map A_Expr es)
    | F_expr_handler h => fun r lx' =>
        handler_token h (lx_token lx) ->
        match h with
        | X_VOID => r = Node (lx_start lx) (lx_start lx) E_Void /\ lx' = lx
        | X_SPRD => arg r /\ handler BP_B0 (view_of lx') = None
        | _ => good (A_Expr r)
        end
    | F_expression c b => fun r lx' =>
        (c <> CtxDefault -> b = BP_B0) ->
        handler b (view_of lx') = None /\ All (A_Expr r) /\
        match c with CtxDefault => plain r | CtxCall => n_item r <> E_Void | CtxArray => True end
    | F_arrow ps => fun e _ => alls (map A_Expr ps) -> forall s t, good (A_Expr (Node s t e))
    | F_call_arguments | F_call_arguments_rest => fun es _ => Forall arg es
    | F_paren => fun r _ => good (A_Expr r)
    | F_prefix op => fun e _ => In op prefix_operators -> forall s t, good (A_Expr (Node s t e))
    | F_object => fun r _ => good (A_Expr r)
    | F_meta_property m => fun e _ => n_item m = bs "new" -> forall s t, good (A_Expr (Node s t e))
    | F_property_list | F_property_list_rest => fun ps _ => goods (map A_Prop ps)
    | F_property => fun p _ => good (A_Prop p)
    | F_property_value _ key => fun p _ => good (A_Key key) -> good (A_Prop p)
    | F_array => fun r _ => good (A_Expr r)
    | F_array_elements | F_array_elements_rest => fun es _ => alls (map A_Expr es)
    | F_regular_expression => fun r _ => lx_token lx = T_OperatorDivision -> good (A_Expr r)
    | F_template_string | F_template_literal => fun t _ => good (A_Tpl t)
    | F_template_rest => fun r _ =>
        match r with (qs, es, _) => goods (map A_Expr es) /\ List.length qs = S (List.length es) end
    | F_function_expression | F_class_expression => fun r _ => good (A_Expr r)
    | F_name k => fun n _ => name_is k n /\ goods (children_name n)
    | F_pattern => fun p _ => good (A_Pat p) /\ norest p
    | F_function k => fun f _ => fun_good k f
    | F_method => fun f _ => good (A_Func f)
    | F_class_member => fun m _ => good (A_Member m)
    | F_class_member_value _ st k key => fun m _ =>
        good (A_Key key) -> (st = true -> k <> MK_Constructor) -> good (A_Member m)
    | F_class k => fun c _ => class_good k c
    | F_pattern_array | F_pattern_object => fun p _ => good (A_Pat p) /\ norest p
    | F_pattern_assign l0 => fun p _ => good (A_Pat l0) -> norest l0 -> good (A_Pat p) /\ norest p
    | F_pattern_array_element => fun p _ => All (A_Pat p)
    | F_pattern_elements | F_pattern_elements_rest => fun ps _ => alls (map A_Pat ps)
    | F_pattern_param => fun p _ => good (A_Pat p) /\ norest p
    | F_rest_element => fun p _ => good (A_Pat p)
    | F_params | F_params_rest => fun ps _ => goods (map A_Pat ps) /\ rest_last ps
    | F_stmt_handler h => fun r _ => stmt_token h (lx_token lx) -> good (A_Stmt r)
    | F_switch_case => fun r _ => good (A_Case r)
    | F_case_body _ => fun r _ => goods (map A_Stmt (fst r))
    | F_statement => fun r _ => good (A_Stmt r)
    | F_expect_semicolon => fun _ _ => True
    | F_block_statement => fun r _ => good (A_Stmt r)
    | F_expression_statement e => fun r _ => good (A_Expr e) -> good (A_Stmt r)
    | F_labeled_or_expression => fun r _ => lx_token lx = T_Identifier -> good (A_Stmt r)
    | F_function_statement | F_class_statement => fun r _ => good (A_Stmt r)
    | F_variable_declaration _ => fun r _ => good (A_Stmt r)
    | F_declarator => fun r _ => good (A_Declarator r)
    | F_declarators => fun r _ => goods (map A_Declarator r) /\ r <> []
    | F_return | F_break | F_continue | F_throw | F_try | F_if | F_while | F_do | F_for | F_switch =>
        fun r _ => good (A_Stmt r)
    | F_label => fun r _ => match fst r with None => True | Some l => identifier_text (n_item l) end
    | F_catch => fun r _ => good (A_Catch r)
    | F_for_init _ => fun r _ => good (A_ForInit r)
    | F_for_rest _ i => fun r _ => goods (opt A_ForInit i) -> good (A_Stmt r)
    | F_for_in_from_parts _ l e => fun r _ => good (A_ForInit l) -> good (A_Expr e) -> good (A_Stmt r)
    | F_for_in _ l | F_for_of _ l => fun r _ => good (A_ForInit l) -> good (A_Stmt r)
    | F_import => fun r _ => lx_token lx = T_Import -> good (A_Stmt r)
    | F_import_rest _ specs _ => fun r _ => goods (map A_Spec specs) -> good (A_Stmt r)
    | F_import_specifiers => fun r _ => goods (map A_Spec r)
    end.
  Definition spec (R : Set) (f : fn R) (lx : lexer) (r : R) (lx' : lexer) : Prop :=
    linv lx -> linv lx' /\ post R f lx r lx'.

  Notation wp := (wpe fn alnum spec).

  Lemma ident_text lx : linv lx -> is T_Identifier (view_of lx) = true -> identifier_text (v_text (view_of lx)).
  Proof. intros [_ T] H. apply is_true in H. apply (tx_ident _ T H). Qed.
  Lemma word_token_text lx : linv lx -> is_word (v_token (view_of lx)) = true -> word_text (v_text (view_of lx)).
  Proof. intros [_ T] H. apply (tx_word _ T H). Qed.

  Lemma literal_key_text lx : linv lx -> (is T_LiteralString (view_of lx) || is T_LiteralNumber (view_of lx))%bool = true ->
    word_text (v_text (view_of lx)) \/ quoted (v_text (view_of lx)) \/ number_text (v_text (view_of lx)) T_LiteralNumber.
  Proof.
    intros [_ T] H. apply Bool.orb_true_iff in H as [H|H]; apply is_true in H; right; [left; exact (tx_string _ T H)|right].
    assert (K := tx_number _ T (or_introl H)). cbn in H. rewrite H in K. exact K.
  Qed.
  Lemma number_key_text lx : linv lx -> is T_LiteralNumber (view_of lx) = true ->
    word_text (v_text (view_of lx)) \/ quoted (v_text (view_of lx)) \/ number_text (v_text (view_of lx)) T_LiteralNumber.
  Proof. intros L H. apply literal_key_text; [exact L|]. now rewrite H, Bool.orb_true_r. Qed.
  Lemma binary_key_text lx : linv lx -> is T_LiteralBinary (view_of lx) = true -> number_text (v_text (view_of lx)) T_LiteralBinary.
  Proof. intros [_ T] H. apply is_true in H. assert (K := tx_number _ T (or_intror H)). cbn in H. rewrite H in K. exact K. Qed.

  Lemma is_lvalue_target e : is_lvalue (n_item e) = true -> plain e -> target (n_item e).
  Proof. unfold plain. destruct (n_item e); simpl; intros; try discriminate; auto. Qed.
  Lemma rest_last_norest ps : Forall norest ps -> rest_last ps.
  Proof.
    intros H before p after x -> E. apply Forall_app in H as [_ H]. inversion H as [|q l Hp Hl]; subst. destruct (Hp _ E).
  Qed.
  Lemma rest_last_cons p ps : norest p -> rest_last ps -> rest_last (p :: ps).
  Proof.
    intros Hp H [|b before] q after x E Ei; simpl in E; injection E as E1 E2; subst.
    - destruct (Hp _ Ei).
    - eapply H; eauto.
  Qed.
  Lemma rest_last_one p : rest_last [p].
  Proof. intros [|b before] q after x E Ei; simpl in E; injection E as E1 E2; auto. destruct before; discriminate. Qed.
  Lemma rest_last_nil : rest_last [].
  Proof. intros before q after x E. destruct before; discriminate. Qed.

  Lemma wpe_imp {A} (H : Prop) (p : P A) Q lx : (H -> wp p Q lx) -> wp p (fun a lx' => H -> Q a lx') lx.
  Proof.
    revert lx; induction p as [a|k IH|k IH|k IH|k IH|k IH| |R f k IH]; simpl; intros lx G; auto.
  Qed.

  Ltac simp := cbn [wpe bind look consume_ read_template read_regex fail_with error_ call expect
    start_then_consume end_then_consume get_end get_start identifier_ pattern_identifier token_expression
    unquote expression_handler_statement jump_statement postfix_handler assign_handler binary_handler].
  Ltac walk1 :=
    match goal with
    | |- wpe _ _ _ (if ?b then _ else _) _ _ => let E := fresh "E" in destruct b eqn:E
    | |- wpe _ _ _ (bind (if ?b then _ else _) _) _ _ => let E := fresh "E" in destruct b eqn:E
    | |- wpe _ _ _ (match ?o with Some _ => _ | None => _ end) _ _ => let E := fresh "E" in destruct o eqn:E
    | |- wpe _ _ _ (match ?o with NoSemicolon => _ | _ => _ end) _ _ => let E := fresh "E" in destruct o eqn:E
    | |- wpe _ _ _ (bind (bind _ _) _) _ _ => apply wpe_bind
    | L : linv ?lx |- forall lx', consume alnum ?lx = Done lx' -> _ =>
        let lx' := fresh "lx" in let H := fresh "Hc" in let L' := fresh "L" in
        intros lx' H; assert (L' := linv_consume _ _ L H)
    | L : linv ?lx |- forall lx', read_template_kind ?lx = Done lx' -> _ =>
        let lx' := fresh "lx" in let H := fresh "Hc" in let L' := fresh "L" in
        intros lx' H; assert (L' := linv_template _ _ L H)
    | L : linv ?lx |- forall v lx', read_regular_expression ?lx = Done (v, lx') -> _ =>
        let lx' := fresh "lx" in let H := fresh "Hc" in let L' := fresh "L" in let v := fresh "v" in
        intros v lx' H; assert (L' := linv_regex _ _ _ L H)
    | L : linv ?lx |- forall r lx', spec _ _ ?lx r lx' -> _ =>
        let lx' := fresh "lx" in let H := fresh "S" in let L' := fresh "L" in let v := fresh "r" in
        let P := fresh "P" in
        intros v lx' H; destruct (H L) as [L' P]; clear H; cbn [post] in P
    | |- True => exact I
    end.
  Ltac walk := simp; repeat (walk1; simp).
  Ltac done := match goal with L : linv ?lx |- linv ?lx /\ _ => split; [exact L|]; cbn [post] end.
  Ltac gs := unfold goods in *; cbn [children n_item children_expression children_statement children_func children_class opt
      children_name map app b_body];
    repeat first [assumption | apply Forall_nil | apply Forall_cons | (apply Forall_app; split)].
  Ltac mk := split; [apply All_plain; [cbn; auto|gs]|cbn; auto].
  Notation "'start' R f lx" := (linv lx -> wp (body R f) (fun r lx' => linv lx' /\ post R f lx r lx') lx) (at level 10, R at level 9, f at level 9, lx at level 9).

  Lemma ok_parse lx : start _ F_parse lx.
  Proof.
    intros L. cbn [body]. unfold body_parse. walk; done; gs.
  Qed.
  Lemma ok_raw_block T (i : item T) lx : start _ (F_raw_block i) lx.
  Proof. intros L. cbn [body]. unfold body_raw_block. walk; done; gs. Qed.
  Lemma ok_items T (i : item T) lx : start _ (F_items i) lx.
  Proof. intros L. cbn [body]. unfold body_items. walk; done; gs. Qed.
  Lemma ok_item T (i : item T) lx : start _ (F_item i) lx.
  Proof. intros L. cbn [body]. unfold body_item. destruct i; walk; done; gs. Qed.
  Lemma ok_block T (i : item T) lx : start _ (F_block i) lx.
  Proof.
    intros L. cbn [body]. unfold body_block. walk; done; destruct i; mk.
  Qed.
  Lemma ok_unchecked_block T (i : item T) lx : start _ (F_unchecked_block i) lx.
  Proof. intros L. cbn [body]. unfold body_unchecked_block. walk; done; destruct i; mk. Qed.
  Lemma ok_pattern_from_expression e lx : start _ (F_pattern_from_expression e) lx.
  Proof.
    intros L. cbn [body]. unfold body_pattern_from_expression.
    destruct (n_item e) eqn:E; walk.
    - done. intros A. split; [|discriminate]. mk.
      apply All_node in A. destruct A as (_ & _ & _ & A & _). simpl in A. now rewrite E in A.
      discriminate.
    - destruct op; walk. done. intros A.
      destruct (good_operands _ _ _ _ A E) as [G1 G2]. destruct P as [P1 P2]; [apply G1|].
      split; [|discriminate]. mk. discriminate.
  Qed.
  Lemma ok_params_from_expressions es lx : start _ (F_params_from_expressions es) lx.
  Proof.
    intros L. cbn [body]. unfold body_params_from_expressions. destruct es; walk; done.
    - intros _. split; constructor.
    - intros A. inversion A as [|x l A1 A2]; subst. destruct (P A1) as [P1 P2]. destruct (P0 A2) as [P3 P4].
      split; [gs|constructor; auto].
  Qed.

  (** nested.rs *)
  Ltac destr_and := repeat match goal with H : _ /\ _ |- _ => destruct H end.
  Lemma plain_default {r} : plain r -> All (A_Expr r) -> good (A_Expr r).
  Proof. split; auto. Qed.
  (** Use the postcondition of an expression parsed in the default context. *)
  Ltac expr := repeat match goal with
    | H : (CtxDefault <> CtxDefault -> _) -> _ |- _ =>
        let H' := fresh in destruct H as [_ H]; [congruence|]; destruct H as [H' H];
        assert (good (A_Expr _)) by (exact (plain_default H H')); clear H'
    end.
  Lemma ok_nested b l lx : start _ (F_nested b l) lx.
  Proof.
    intros L. cbn [body]. unfold body_nested. walk; done.
    - destruct P0 as (P1 & P2 & P3). split; [|split; [exact P2|intros N; congruence]].
      intros G. apply P1. apply P; auto. intros ->. now apply accessor_token in E.
    - auto.
  Qed.
  Lemma ok_nested_handler h l lx : start _ (F_nested_handler h l) lx.
  Proof.
    intros L. cbn [body].
    destruct h; cbn [body_nested_handler]; walk; try done; expr; intros Ha G; try solve [mk].
    all: try solve [mk; repeat split; auto; [tauto|]; intros _; apply is_lvalue_target; [assumption|apply G]].
    all: try solve [mk; split; [tauto|]; intros K; exfalso; revert K; cbn; intuition discriminate].
    - mk. split; auto. cbn. lia.
    - split; [|exact I]. apply All_call; auto.
    - apply P. destruct (n_item l) eqn:E; simpl; try solve [constructor; [apply G|constructor]].
      apply (All_elements l); auto. apply G.
    - mk. split; [tauto|]. apply is_lvalue_target; [assumption|apply G].
    - mk. split; [tauto|]. apply is_lvalue_target; [assumption|apply G].
    - assert (W := tx_acc _ (l_text _ L) (Ha eq_refl)). mk. now apply good_ident, word_nonempty.
  Qed.

  (** expression.rs *)
  Lemma ok_sequence lx : start _ F_sequence lx.
  Proof. intros L. cbn [body]. unfold body_sequence. walk; done; expr; gs. Qed.
  Lemma ok_expr_handler h lx : start _ (F_expr_handler h) lx.
  Proof.
    intros L. cbn [body]. destruct (match h with X_SPRD => true | _ => false end) eqn:Es.
    { destruct h; try discriminate Es. cbn [body_expr_handler]. walk. done. intros _.
      destruct P as (P1 & P2 & P3); [congruence|]. split; [|exact P1]. split; [|discriminate].
      apply All_plain; [cbn; auto|]. gs. split; auto. }
    assert (T := l_text _ L).
    destruct h; try discriminate Es; cbn [body_expr_handler]; walk; try done; expr; try intros Ha; try solve [auto]; try solve [mk].
    - apply P. cbn. auto.
    - mk. split; auto. now apply (tx_string _ T).
    - mk. split; auto. rewrite <- Ha. apply (tx_number _ T). auto.
    - mk. split; auto. rewrite <- Ha. apply (tx_number _ T). auto.
    - mk. split; auto. left. now apply (tx_ident _ T).
    - split; [|exact I]. apply All_tpl_expr. apply P.
    - split; [|exact I]. apply All_template; [constructor|reflexivity].
  Qed.
  Lemma ok_expression c b lx : start _ (F_expression c b) lx.
  Proof.
    intros L. cbn [body]. unfold body_expression. walk; done.
    specialize (P (bound_token _ _)). destruct P0 as (P1 & P2 & P3). intros Hc.
    split; [exact P2|].
    destruct (bound_handler c (view_of lx)) eqn:Eh.
    all: try solve [destruct (P1 P) as [Q1 Q2]; split; [exact Q1|]; cbn in Q2; unfold plain in *; destruct c; auto; intros K; rewrite K in Q2; exact Q2].
    - assert (c = CtxArray) by (now apply void_array in Eh). subst c. rewrite (Hc ltac:(discriminate)) in *.
      destruct P as [-> ->]. destruct P3 as [-> ->]. { now apply void_stops. }
      split; [|exact I]. apply All_plain; [cbn; auto|]. constructor.
    - assert (c <> CtxDefault). { intros ->. now apply spread_context in Eh. }
      rewrite (Hc H) in *. destruct P as [[Q1 Q2] Q3]. destruct (P3 Q3) as [-> ->].
      split; [exact Q1|]. destruct c; auto. congruence.
  Qed.
  Ltac obvious := intros L; cbn [body];
    cbv delta [body_arrow body_call_arguments body_call_arguments_rest body_paren body_prefix body_object body_meta_property
      body_property_list body_property_list_rest body_property body_property_value body_array body_array_elements
      body_array_elements_rest body_regular_expression body_template_string body_template_literal body_template_rest
      body_function_expression body_class_expression body_name body_pattern body_function body_method body_class_member
      body_class_member_value body_class body_pattern_array body_pattern_object body_pattern_assign body_pattern_array_element
      body_pattern_elements body_pattern_elements_rest body_pattern_param body_rest_element body_params body_params_rest
      body_switch_case body_case_body body_statement body_expect_semicolon body_block_statement body_expression_statement
      body_labeled_or_expression body_function_statement body_class_statement body_variable_declaration body_declarator
      body_declarators body_return body_break body_continue body_label body_throw body_try body_catch body_if body_while body_do
      body_for_init body_for body_for_rest body_for_in_from_parts body_for_in body_for_of body_switch body_import body_import_rest
      body_import_specifiers]; cbv beta zeta; walk; try done; expr; try solve [auto]; try solve [gs]; try solve [mk]; try solve [split; constructor].
  Lemma ok_arrow ps lx : start _ (F_arrow ps) lx.
  Proof.
    obvious; intros A s t; destruct (P A) as [P1 P2]; mk; split; auto; now apply rest_last_norest.
  Qed.
  Lemma ok_call_arguments lx : start _ F_call_arguments lx.
  Proof. obvious. destruct P as (P1 & P2 & P3); auto. gs. split; auto. Qed.
  Lemma ok_call_arguments_rest lx : start _ F_call_arguments_rest lx.
  Proof. obvious. destruct P as (P1 & P2 & P3); auto. gs. split; auto. Qed.
  Lemma ok_paren lx : start _ F_paren lx.
  Proof. obvious. apply P. constructor. Qed.
  Lemma ok_prefix op lx : start _ (F_prefix op) lx.
  Proof. obvious. Qed.
  Lemma ok_object lx : start _ F_object lx.
  Proof. obvious. Qed.
  Lemma ok_meta_property m lx : start _ (F_meta_property m) lx.
  Proof. obvious. intros Em s t. apply str_eqb_eq in E. mk; cbn; rewrite ?Em, ?E.
    - destruct m as [ms me mi]. simpl in Em. apply good_ident. rewrite Em. discriminate.
    - apply good_ident. cbn in E. rewrite E. discriminate.
  Qed.
  Lemma ok_property_list lx : start _ F_property_list lx.
  Proof. obvious. Qed.
  Lemma ok_property_list_rest lx : start _ F_property_list_rest lx.
  Proof. obvious. Qed.
  Lemma ok_property lx : start _ F_property lx.
  Proof.
    obvious; try (apply P; mk); try (apply P0; mk).
    all: try (mk; now apply word_token_text).
    all: try solve [left; now apply word_token_text | now apply literal_key_text | now apply binary_key_text].
  Qed.
  Lemma ok_property_value s k lx : start _ (F_property_value s k) lx.
  Proof. obvious; intros G; mk. Qed.
  Lemma ok_array lx : start _ F_array lx.
  Proof. obvious. split; [|exact I]. now apply All_array. Qed.
  Lemma ok_array_elements lx : start _ F_array_elements lx.
  Proof. obvious. destruct P as (P1 & P2 & P3); auto. cbn [map]. constructor; auto. Qed.
  Lemma ok_array_elements_rest lx : start _ F_array_elements_rest lx.
  Proof. obvious. destruct P as (P1 & P2 & P3); auto. cbn [map]. constructor; auto. Qed.
  Lemma ok_regular_expression lx : start _ F_regular_expression lx.
  Proof.
    obvious. intros Ht. mk. split; auto. apply (regex_value lx _ lx0); auto. now apply is_true.
  Qed.
  Lemma ok_template_string lx : start _ F_template_string lx.
  Proof. obvious. split; [|exact I]. apply All_tpl; [constructor|reflexivity]. Qed.
  Lemma ok_template_literal lx : start _ F_template_literal lx.
  Proof.
    intros L. cbn [body]. unfold body_template_literal. walk. expr. destruct r1 as [[qs es] e]. walk. done.
    destruct P0 as [P1 P2]. split; [|exact I]. apply All_tpl; [gs|]. cbn. now rewrite P2.
  Qed.
  Lemma ok_template_rest lx : start _ F_template_rest lx.
  Proof.
    intros L. cbn [body]. unfold body_template_rest. walk.
    - expr. destruct r1 as [[qs es] e]. walk. done. destruct P0 as [P1 P2]. split; [gs|]. cbn. now rewrite P2.
    - done. split; [constructor|reflexivity].
  Qed.
  Lemma ok_function_expression lx : start _ F_function_expression lx.
  Proof. obvious. destruct r0, P as (P1 & P2 & P3). mk. Qed.
  Lemma ok_class_expression lx : start _ F_class_expression lx.
  Proof. obvious. destruct r0, P as (P1 & P2). mk. Qed.

  (** function.rs *)
  Lemma good_name lx : linv lx -> is T_Identifier (view_of lx) = true ->
    good (A_Ident (in_loc (view_of lx) (v_text (view_of lx)))).
  Proof. intros L E. apply good_ident, ident_nonempty. now apply ident_text. Qed.
  Lemma ok_name k lx : start _ (F_name k) lx.
  Proof.
    intros L. cbn [body]. unfold body_name. destruct k; walk; try done; cbn [name_is].
    - split; auto. constructor.
    - split; [|gs; now apply good_name]. right. eexists. split; [reflexivity|]. now apply ident_text.
    - split; [left; reflexivity|constructor].
    - split; [|gs; now apply good_name]. eexists. split; [reflexivity|]. now apply ident_text.
  Qed.
  Lemma good_pattern lx : linv lx -> is T_Identifier (view_of lx) = true ->
    good (A_Pat (in_loc (view_of lx) (Pat_Identifier (v_text (view_of lx))))) /\
    norest (in_loc (view_of lx) (Pat_Identifier (v_text (view_of lx)))).
  Proof. intros L E. split; [|discriminate]. mk. left. now apply ident_text. discriminate. Qed.
  Lemma ok_pattern lx : start _ F_pattern lx.
  Proof. obvious. now apply good_pattern. Qed.
  Lemma ok_function k lx : start _ (F_function k) lx.
  Proof.
    obvious; destr_and; split; auto; gs.
  Qed.
  Lemma ok_method lx : start _ F_method lx.
  Proof. obvious. destruct r0, P as (P1 & P2 & P3). mk. Qed.
  Lemma ok_class_member lx : start _ F_class_member lx.
  Proof.
    obvious.
    all: first [apply P0 | apply P]; try discriminate; try congruence; try (intros _; discriminate).
    all: mk.
    all: try solve [left; now apply word_token_text | now apply number_key_text | now apply binary_key_text].
  Qed.
  Lemma ok_class_member_value s st k key lx : start _ (F_class_member_value s st k key) lx.
  Proof. obvious; intros G K; mk; destruct st; auto. Qed.
  Lemma ok_class k lx : start _ (F_class k) lx.
  Proof. obvious; destr_and; split; auto; gs. Qed.
  Lemma ok_pattern_array lx : start _ F_pattern_array lx.
  Proof. obvious. split; [|discriminate]. split; [|discriminate]. now apply All_pat_array. Qed.
  Lemma ok_pattern_object lx : start _ F_pattern_object lx.
  Proof. obvious. split; [|discriminate]. mk. discriminate. Qed.
  Lemma ok_pattern_assign l lx : start _ (F_pattern_assign l) lx.
  Proof. obvious. intros G N. split; [|discriminate]. mk. discriminate. Qed.
  Lemma ok_pattern_array_element lx : start _ F_pattern_array_element lx.
  Proof.
    obvious. 
    - apply All_plain; [exact I|constructor].
    - destruct (good_pattern lx L) as [G N]; auto. apply P; auto.
    - destruct P. apply P0; auto.
    - destruct P. apply P0; auto.
  Qed.
  Lemma ok_pattern_elements lx : start _ F_pattern_elements lx.
  Proof. obvious; cbn [map]; constructor; auto. Qed.
  Lemma ok_pattern_elements_rest lx : start _ F_pattern_elements_rest lx.
  Proof. obvious; cbn [map]; constructor; auto. Qed.
  Lemma ok_pattern_param lx : start _ F_pattern_param lx.
  Proof.
    obvious. 
    - destruct (good_pattern lx L) as [G N]; auto.
    - destruct P. apply P0; auto.
    - destruct P. apply P0; auto.
  Qed.
  Lemma ok_rest_element lx : start _ F_rest_element lx.
  Proof.
    obvious. mk; try discriminate; [now apply ident_text|now apply good_name].
  Qed.
  Lemma ok_params lx : start _ F_params lx.
  Proof.
    obvious; destr_and.
    - split; [constructor|apply rest_last_nil].
    - split; [gs|apply rest_last_one].
    - split; [gs|now apply rest_last_cons].
  Qed.
  Lemma ok_params_rest lx : start _ F_params_rest lx.
  Proof.
    obvious; destr_and.
    - split; [constructor|apply rest_last_nil].
    - split; [gs|apply rest_last_one].
    - split; [gs|now apply rest_last_cons].
    - split; [constructor|apply rest_last_nil].
  Qed.

  (** statement.rs *)
  Lemma ok_stmt_handler h lx : start _ (F_stmt_handler h) lx.
  Proof.
    intros L. cbn [body]. 
    destruct h; cbn [body_stmt_handler]; walk; try done; try intros Ha; try solve [auto]; try solve [mk].
  Qed.
  Lemma ok_switch_case lx : start _ F_switch_case lx.
  Proof. obvious. all: match goal with r : (list _ * _)%type |- _ => destruct r end; walk; done; expr; mk. Qed.
  Lemma ok_case_body e lx : start _ (F_case_body e) lx.
  Proof. obvious. destruct r1 as [ss e']; walk; done; gs. Qed.
  Lemma ok_statement lx : start _ F_statement lx.
  Proof. obvious. apply P. apply statement_token. Qed.
  Lemma ok_expect_semicolon lx : start _ F_expect_semicolon lx.
  Proof. obvious. Qed.
  Lemma ok_block_statement lx : start _ F_block_statement lx.
  Proof. obvious. Qed.
  Lemma ok_expression_statement e lx : start _ (F_expression_statement e) lx.
  Proof. obvious. destr_and. intros G. mk; auto. Qed.
  Lemma ok_labeled_or_expression lx : start _ F_labeled_or_expression lx.
  Proof.
    obvious; intros Ht; destr_and; mk.
    all: try (apply (tx_ident _ (l_text _ L)); assumption).
    apply H. mk. split; auto. left. apply (tx_ident _ (l_text _ L)); assumption.
  Qed.
  Lemma ok_function_statement lx : start _ F_function_statement lx.
  Proof. obvious. destruct r0, P as (P1 & P2 & P3). mk. Qed.
  Lemma ok_class_statement lx : start _ F_class_statement lx.
  Proof. obvious. destruct r0, P as (P1 & P2). mk. Qed.
  Lemma ok_variable_declaration k lx : start _ (F_variable_declaration k) lx.
  Proof. obvious. destr_and. mk. Qed.
  Lemma ok_declarator lx : start _ F_declarator lx.
  Proof. obvious; destr_and; mk. Qed.
  Lemma ok_declarators lx : start _ F_declarators lx.
  Proof. obvious; destr_and; split; try discriminate; gs. Qed.
  Lemma ok_return lx : start _ F_return lx.
  Proof. obvious. Qed.
  Lemma good_node i : identifier_text (n_item i) -> good (A_Ident i).
  Proof. destruct i. intros H. now apply good_ident, ident_nonempty. Qed.
  Lemma ok_break lx : start _ F_break lx.
  Proof. obvious. destruct r0 as [[l|] e]; cbn [fst] in P; walk; done; mk. now apply good_node. Qed.
  Lemma ok_continue lx : start _ F_continue lx.
  Proof. obvious. destruct r0 as [[l|] e]; cbn [fst] in P; walk; done; mk. now apply good_node. Qed.
  Lemma ok_label lx : start _ F_label lx.
  Proof. obvious. cbn [fst]. now apply ident_text. Qed.
  Lemma ok_throw lx : start _ F_throw lx.
  Proof. obvious. Qed.
  Lemma ok_try lx : start _ F_try lx.
  Proof. obvious; mk; [left|left|right]; discriminate. Qed.
  Lemma ok_catch lx : start _ F_catch lx.
  Proof. obvious. destr_and. mk. Qed.
  Lemma ok_if lx : start _ F_if lx.
  Proof. obvious. Qed.
  Lemma ok_while lx : start _ F_while lx.
  Proof. obvious. Qed.
  Lemma ok_do lx : start _ F_do lx.
  Proof. obvious. Qed.
  Lemma ok_for_init k lx : start _ (F_for_init k) lx.
  Proof. obvious. destr_and. mk. Qed.
  Lemma ok_for lx : start _ F_for lx.
  Proof. 
    obvious.
    - apply P. constructor.
    - apply P0. gs.
    - apply P0. gs.
    - apply P0. gs.
    - assert (G : wp (call (F_for_rest (v_start (view_of lx)) (Some (Node (n_start r0) (n_end r0) (FI_Expression r0)))))
        (fun (r : stmt_node) (lx' : lexer) => linv lx' /\ post stmt_node F_for lx r lx') lx2).
      { walk. done. apply P0. gs. mk. }
      destruct (n_item r0) eqn:Er; try exact G.
      destruct op; try exact G. clear G.
      destruct (good_operands _ _ _ _ (proj1 H0) Er) as [G1 G2].
      walk. done. apply P0; auto. mk.
  Qed.
  Lemma ok_for_rest s i lx : start _ (F_for_rest s i) lx.
  Proof.
    intros L. cbn [body]. unfold body_for_rest. destruct i; walk; done; expr; intros G.
    all: try (inversion G; subst). all: try solve [auto]. all: try solve [mk].
  Qed.
  Lemma ok_for_in_from_parts s l e lx : start _ (F_for_in_from_parts s l e) lx.
  Proof. obvious. Qed.
  Lemma ok_for_in s l lx : start _ (F_for_in s l) lx.
  Proof. obvious. Qed.
  Lemma ok_for_of s l lx : start _ (F_for_of s l) lx.
  Proof. obvious. Qed.
  Lemma ok_switch lx : start _ F_switch lx.
  Proof. obvious. Qed.
  Lemma ok_import lx : start _ F_import lx.
  Proof. 
    obvious.
    - intros Ht. destr_and. mk. apply H. mk. split; auto. right. apply (tx_import _ (l_text _ L)); assumption.
    - intros _. apply P. gs. mk; [now apply ident_text|now apply good_name].
    - intros _. apply P. gs. mk; [now apply ident_text|now apply good_name].
    - unfold unquote. walk. done. intros _. mk.
    - intros _. apply P. constructor.
  Qed.
  Lemma ok_import_rest s sp h lx : start _ (F_import_rest s sp h) lx.
  Proof.
    obvious.
    all: unfold unquote; walk; done; intros G; mk; rewrite map_app; gs.
    mk; [now apply ident_text|now apply good_name].
  Qed.
  Lemma ok_import_specifiers lx : start _ F_import_specifiers lx.
  Proof.
    obvious.
    all: gs; mk; first [now apply good_name | split; now apply ident_text].
  Qed.

  Theorem spec_ok R (f : fn R) lx : wp (body R f) (spec R f lx) lx.
  Proof.
    apply wpe_imp. intros L. destruct f.
    - apply ok_parse; auto.
    - apply ok_block; auto.
    - apply ok_unchecked_block; auto.
    - apply ok_raw_block; auto.
    - apply ok_items; auto.
    - apply ok_item; auto.
    - apply ok_pattern_from_expression; auto.
    - apply ok_params_from_expressions; auto.
    - apply ok_nested; auto.
    - apply ok_nested_handler; auto.
    - apply ok_sequence; auto.
    - apply ok_expr_handler; auto.
    - apply ok_expression; auto.
    - apply ok_arrow; auto.
    - apply ok_call_arguments; auto.
    - apply ok_call_arguments_rest; auto.
    - apply ok_paren; auto.
    - apply ok_prefix; auto.
    - apply ok_object; auto.
    - apply ok_meta_property; auto.
    - apply ok_property_list; auto.
    - apply ok_property_list_rest; auto.
    - apply ok_property; auto.
    - apply ok_property_value; auto.
    - apply ok_array; auto.
    - apply ok_array_elements; auto.
    - apply ok_array_elements_rest; auto.
    - apply ok_regular_expression; auto.
    - apply ok_template_string; auto.
    - apply ok_template_literal; auto.
    - apply ok_template_rest; auto.
    - apply ok_function_expression; auto.
    - apply ok_class_expression; auto.
    - apply ok_name; auto.
    - apply ok_pattern; auto.
    - apply ok_function; auto.
    - apply ok_method; auto.
    - apply ok_class_member; auto.
    - apply ok_class_member_value; auto.
    - apply ok_class; auto.
    - apply ok_pattern_array; auto.
    - apply ok_pattern_object; auto.
    - apply ok_pattern_assign; auto.
    - apply ok_pattern_array_element; auto.
    - apply ok_pattern_elements; auto.
    - apply ok_pattern_elements_rest; auto.
    - apply ok_pattern_param; auto.
    - apply ok_rest_element; auto.
    - apply ok_params; auto.
    - apply ok_params_rest; auto.
    - apply ok_stmt_handler; auto.
    - apply ok_switch_case; auto.
    - apply ok_case_body; auto.
    - apply ok_statement; auto.
    - apply ok_expect_semicolon; auto.
    - apply ok_block_statement; auto.
    - apply ok_expression_statement; auto.
    - apply ok_labeled_or_expression; auto.
    - apply ok_function_statement; auto.
    - apply ok_class_statement; auto.
    - apply ok_variable_declaration; auto.
    - apply ok_declarator; auto.
    - apply ok_declarators; auto.
    - apply ok_return; auto.
    - apply ok_break; auto.
    - apply ok_continue; auto.
    - apply ok_label; auto.
    - apply ok_throw; auto.
    - apply ok_try; auto.
    - apply ok_catch; auto.
    - apply ok_if; auto.
    - apply ok_while; auto.
    - apply ok_do; auto.
    - apply ok_for_init; auto.
    - apply ok_for; auto.
    - apply ok_for_rest; auto.
    - apply ok_for_in_from_parts; auto.
    - apply ok_for_in; auto.
    - apply ok_for_of; auto.
    - apply ok_switch; auto.
    - apply ok_import; auto.
    - apply ok_import_rest; auto.
    - apply ok_import_specifiers; auto.
  Qed.
End Pass.

(** ** Whole programs *)
Lemma parse_all alnum src m : parses_to alnum src (ParseOk m) -> goods (map A_Stmt m).
Proof.
  intros H. apply parse_state in H as (n & lx & m' & s & H1 & H2 & E).
  destruct (p_errors s) eqn:Es; [|discriminate]. injection E as <-.
  assert (L : linv src lx).
  { split.
    - apply (consume_inv _ src) in H1; [|apply init_inv]. tauto.
    - apply (consume_text alnum (lexer_init (nul_terminated src))); [|exact H1]. apply (li_ok src _ (init_inv src)). }
  assert (G := run_wpe fn alnum body (spec src) (spec_ok alnum src) _ _ _ _ _ _ _ H2 Es (spec_ok alnum src _ F_parse lx)).
  apply G. exact L.
Qed.
Lemma parse_nodes alnum src m a : parses_to alnum src (ParseOk m) -> in_module a m -> node_ok a.
Proof.
  intros H (s & I & W). apply parse_all in H. unfold goods in H. rewrite Forall_forall in H.
  destruct (H (A_Stmt s)) as [A _]; [now apply in_map|]. exact (A _ W).
Qed.
