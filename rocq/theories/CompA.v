(** Every program of the grammar is accepted: what is to be shown, and expressions. *)
From Coq Require Import List NArith Bool Lia Arith String.
From Coq.Strings Require Import Byte.
From Verif Require Import Bytes Token Tables Lexer Ast Prog Parser Structure SpecSyntax Erase Comp.
Import ListNotations.
Open Scope nat_scope.
Open Scope list_scope.

(** ** Tactics *)
Definition plain (t : token) : bool := match t with T_LiteralRegEx | T_TemplateOpen | T_TemplateClosed => false | _ => true end.
Lemma spells_plain tk t s : spells tk (t, s) -> plain t = true ->
  exists a st en tx ac q, tk = Plain (View t a st en tx ac q) /\ w_text s = match t with T_Accessor => ac | _ => tx end /\ w_break s = match a with ImplicitSemicolon => true | _ => false end /\ (a = ExplicitSemicolon <-> t = T_Semicolon).
Proof.
  intros S Pt. remember (t, s) as x eqn:E. destruct S as [v A1 A2 A3|v w' A1 A2 A3 A4|v w' A1 A2 A3]; injection E as E1 E2.
  - destruct v as [tt a st en tx ac q]. cbn in *. subst tt s. exists a, st, en, tx, ac, q. cbn. auto.
  - exfalso. rewrite A2 in E1. subst. discriminate Pt.
  - exfalso. rewrite E1 in A2. destruct t; discriminate.
Qed.
Lemma spells_regex tk s : spells tk (T_LiteralRegEx, s) -> exists v w, tk = Regex v w /\ v_token v = T_OperatorDivision /\ v_token w = T_LiteralRegEx /\ w_text s = v_text w /\ v_asi v <> ExplicitSemicolon /\ w_break s = breaks v.
Proof.
  intros S. remember (T_LiteralRegEx, s) as x eqn:E. destruct S as [v A1 A2 A3|v w' A1 A2 A3 A4|v w' A1 A2 A3]; injection E as E1 E2.
  - congruence.
  - exists v, w'. subst s. rewrite A2. cbn. auto 6.
  - rewrite E1 in A2. discriminate.
Qed.
Ltac feed := repeat (cbn [app] in *; match goal with
  | H : Forall2 spells _ [] |- _ => inversion H; clear H; subst
  | H : Forall2 spells ?s (?x :: ?l) |- _ => let S := fresh "Sp" in let F := fresh "Fd" in inversion H as [|? ? ? ? S F]; subst; clear H
  | H : Forall2 spells ?s (?l1 ++ ?l2) |- _ => let a := fresh "s" in let b := fresh "s" in let H1 := fresh "Fd" in let H2 := fresh "Fd" in apply Forall2_app_inv_r in H; destruct H as (a & b & H1 & H2 & ->)
  | H : spells ?tk (?t, ?s) |- _ =>
      let a := fresh "a" in let st := fresh "st" in let en := fresh "en" in let tx := fresh "tx" in let ac := fresh "ac" in let q := fresh "q" in let Et := fresh "Et" in let Eb := fresh "Eb" in let Ea := fresh "Ea" in
      destruct (spells_plain tk t s H ltac:(first [reflexivity|assumption])) as (a & st & en & tx & ac & q & -> & Et & Eb & Ea); clear H; cbv match in Et
  end).
Ltac norm := repeat (rewrite <- !app_assoc || cbn [app]).
Ltac tsimp := repeat match goal with
  | |- context [is ?t (View ?t' ?a ?b ?c ?d ?e ?f)] => let r := eval vm_compute in (token_eqb t' t) in match r with true => change (is t (View t' a b c d e f)) with true | false => change (is t (View t' a b c d e f)) with false end
  | |- context [is_word ?t] => let r := eval vm_compute in (is_word t) in match r with true => change (is_word t) with true | false => change (is_word t) with false end
  | |- context [str_eqb (bs ?x) (bs ?y)] => let r := eval vm_compute in (str_eqb (bs x) (bs y)) in change (str_eqb (bs x) (bs y)) with r; cbv iota
  | |- context [operator_from_token ?t] => let r := eval vm_compute in (operator_from_token t) in match r with Some ?o => change (operator_from_token t) with (Some o) end
  end.
Lemma is_not t v : v_token v <> t -> is t v = false.
Proof. intros H. unfold is. destruct (token_eqb (v_token v) t) eqn:E; [|reflexivity]. apply LexEval.token_eqb_eq in E. contradiction. Qed.
Lemma is_yes t v : v_token v = t -> is t v = true.
Proof. intros H. unfold is. rewrite H. destruct t; reflexivity. Qed.
Ltac known := repeat match goal with
  | H : v_token (tv ?tk) = ?t |- context [is ?t (tv ?tk)] => rewrite (is_yes t (tv tk) H)
  | H : v_token (tv ?tk) = ?t |- context [is ?t' (tv ?tk)] => rewrite (is_not t' (tv tk)) by (rewrite H; discriminate)
  | H : v_token (tv ?tk) <> ?t |- context [is ?t (tv ?tk)] => rewrite (is_not t (tv tk) H)
  end.
Ltac xsimp := cbn [tv bind v_token v_asi v_start v_end v_text v_accessor v_quasi n_item n_start n_end b_body orb andb negb]; known; tsimp; cbn [orb andb negb bind].
Ltac hsimp := repeat match goal with
  | |- context [bound_handler ?c (View ?t ?a ?b ?c1 ?d ?e ?f)] => let h := eval vm_compute in (bound_handler c (View t a b c1 d e f)) in change (bound_handler c (View t a b c1 d e f)) with h
  | |- context [statement_handler (View ?t ?a ?b ?c1 ?d ?e ?f)] => let h := eval vm_compute in (statement_handler (View t a b c1 d e f)) in change (statement_handler (View t a b c1 d e f)) with h
  end.
Ltac xgo := bodies; cbn [app]; xsimp; hsimp; repeat (xstep; norm; xsimp; hsimp)
with xstep := match goal with
  | |- X (Ret _) _ _ _ => apply X_ret
  | |- X (Look _) (_ :: _) _ _ => apply X_look
  | |- X (Consume _) (Plain _ :: _) _ _ => apply X_consume
  | |- X (Call _ _) _ _ _ => eapply X_call; [first [eassumption | solve [xgo]]|]
  end.
Ltac strips := unfold strip_block, in_loc in *; cbn [strip_expression strip_template strip_arrow_body strip_property strip_property_key strip_pattern strip_func strip_class strip_class_member strip_statement strip_declarator strip_for_init strip_case strip_catch strip_name strip_specifier option_map map b_body n_item] in *; unfold strip_id, strip_node in *; cbn [n_item b_body] in *; try reflexivity; try congruence; try solve [repeat match goal with H : ?a = _ |- context [?a] => rewrite H; clear H end; reflexivity].

(** ** What is to be shown *)
Definition primary (c : context) : P expr_node := Look (fun v => Call (F_expr_handler (bound_handler c v)) (fun r => Ret r)).
Definition same (a b : expression) : Prop := strip_expression a = strip_expression b.
Definition sames (a b : list (node expression)) : Prop := map (strip_node strip_expression) a = map (strip_node strip_expression) b.
Definition P_expr (n : nat) (o : bool) (l : list lexeme) (e : expression) : Prop := forall s tk r, feeds s l -> follow n (tv tk) -> (o = true -> follow 1 (tv tk)) ->
  exists p t e', X (primary CtxDefault) (s ++ tk :: r) p t /\ same (n_item e') e /\
    forall b, need b <= n -> forall x u, X (body _ (F_nested b e')) (tk :: r) x u -> X (body _ (F_nested b p)) t x u.
Definition P_more_exprs (l : list lexeme) (es : list (node expression)) : Prop := forall s tk r, feeds s l -> follow 0 (tv tk) -> v_token (tv tk) <> T_Comma ->
  exists es', X (body _ F_sequence) (s ++ tk :: r) es' (tk :: r) /\ sames es' es.
(** A token at which an expression begins. *)
Definition viewer (t : token) : bool := match nth (token_index t) DEF_CONTEXT X_____ with X_____ => false | _ => true end.
Definition P_element (l : list lexeme) (e : expression) : Prop := forall c s tk r, c <> CtxDefault -> feeds s l -> follow 1 (tv tk) ->
  (exists tk0 s0, s = tk0 :: s0 /\ (viewer (v_token (tv tk0)) = true \/ v_token (tv tk0) = T_OperatorSpread)) /\
  exists e', X (body _ (F_expression c BP_B0)) (s ++ tk :: r) e' (tk :: r) /\ same (n_item e') e.
Definition P_arguments (l : list lexeme) (es : list (node expression)) : Prop := forall s tk r, feeds s l -> v_token (tv tk) = T_ParenClose ->
  exists es', X (body _ F_call_arguments) (s ++ tk :: r) es' (tk :: r) /\ sames es' es.
Definition P_more_arguments (l : list lexeme) (es : list (node expression)) : Prop := forall s tk r, feeds s l -> v_token (tv tk) = T_ParenClose ->
  exists es', X (body _ F_call_arguments_rest) (s ++ tk :: r) es' (tk :: r) /\ sames es' es.
Definition P_hole (l : list lexeme) (e : expression) : Prop := forall s tk r, feeds s l -> v_token (tv tk) = T_Comma \/ v_token (tv tk) = T_BracketClose ->
  exists e', X (body _ (F_expression CtxArray BP_B0)) (s ++ tk :: r) e' (tk :: r) /\ same (n_item e') e /\
   (s <> [] -> exists tk0 s0, s = tk0 :: s0 /\ (viewer (v_token (tv tk0)) = true \/ v_token (tv tk0) = T_OperatorSpread)).
Definition P_elements (l : list lexeme) (es : list (node expression)) : Prop := forall s tk r, feeds s l -> v_token (tv tk) = T_BracketClose ->
  exists es', X (body _ F_array_elements) (s ++ tk :: r) es' (tk :: r) /\ sames es' es.
Definition P_more_elements (l : list lexeme) (es : list (node expression)) : Prop := forall s tk r, feeds s l -> v_token (tv tk) = T_BracketClose ->
  exists es', X (body _ F_array_elements_rest) (s ++ tk :: r) es' (tk :: r) /\ sames es' es.
(** The first piece of a template, read (again, if it does not open the template). *)
Definition opened (opening : str) (s : list tok) (v : view) (s' : list tok) : Prop :=
  is_template (v_token v) = true /\ ((opening = bs "`" /\ s = Plain v :: s') \/ (opening = bs "}" /\ exists v0, v_token v0 = T_BraceClose /\ s = Piece v0 v :: s')).
Definition same_pieces (es' es : list (node expression)) (qs' qs : list (node str)) : Prop := sames es' es /\ map strip_id qs' = map strip_id qs.
Definition P_template (opening : str) (l : list lexeme) (t : template) : Prop := forall s tk r, (opening = bs "`" \/ opening = bs "}") -> feeds s l ->
  exists v s', opened opening s v s' /\
   (exists es qs, t = Template es qs /\
    (exists qs' es' en, X (body _ F_template_rest) (Plain v :: s' ++ tk :: r) (qs', es', en) (tk :: r) /\ same_pieces es' es qs' qs) /\
    match v_token v with
    | T_TemplateOpen => exists t', X (body _ F_template_literal) (Plain v :: s' ++ tk :: r) t' (tk :: r) /\ strip_template (n_item t') = strip_template t
    | _ => s' = [] /\ es = [] /\ exists q, qs = [q] /\ n_item q = v_quasi v
    end).
Definition same_body (a b : arrow_body) : Prop := strip_arrow_body a = strip_arrow_body b.
Definition P_arrow (o : bool) (l : list lexeme) (b : arrow_body) : Prop := forall s tk r, feeds s l -> (o = true -> follow 1 (tv tk)) ->
  exists b', same_body b' b /\ forall params ps, (forall q, X (body _ (F_params_from_expressions params)) q ps q) -> X (body _ (F_arrow params)) (s ++ tk :: r) (E_Arrow ps b') (tk :: r).

(** Objects and patterns. *)
Definition same_props (a b : list (node property)) : Prop := map (strip_node strip_property) a = map (strip_node strip_property) b.
Definition same_pats (a b : list (node pattern)) : Prop := map (strip_node strip_pattern) a = map (strip_node strip_pattern) b.
Definition P_key (l : list lexeme) (k : property_key) : Prop := forall s tk r, feeds s l -> v_token (tv tk) = T_Colon \/ v_token (tv tk) = T_ParenOpen ->
  exists st k', strip_property_key (n_item k') = strip_property_key k /\ forall x u, X (body _ (F_property_value st k')) (tk :: r) x u -> X (body _ F_property) (s ++ tk :: r) x u.
Definition P_property (l : list lexeme) (p : property) : Prop := forall s tk r, feeds s l -> v_token (tv tk) = T_Comma \/ v_token (tv tk) = T_BraceClose ->
  exists p', X (body _ F_property) (s ++ tk :: r) p' (tk :: r) /\ strip_property (n_item p') = strip_property p.
Definition P_properties (l : list lexeme) (ps : list (node property)) : Prop := forall s tk r, feeds s l -> v_token (tv tk) = T_BraceClose ->
  exists ps', X (body _ F_property_list) (s ++ tk :: r) ps' (tk :: r) /\ same_props ps' ps.
Definition P_more_properties (l : list lexeme) (ps : list (node property)) : Prop := forall s tk r, feeds s l -> v_token (tv tk) = T_BraceClose ->
  exists ps', X (body _ F_property_list_rest) (s ++ tk :: r) ps' (tk :: r) /\ same_props ps' ps.
Definition P_pattern (l : list lexeme) (p : pattern) : Prop := forall s tk r, feeds s l ->
  exists p', X (body _ F_pattern) (s ++ tk :: r) p' (tk :: r) /\ strip_pattern (n_item p') = strip_pattern p.
Definition P_parameter (l : list lexeme) (p : pattern) : Prop := forall s tk r, feeds s l -> follow 1 (tv tk) -> v_token (tv tk) <> T_OperatorAssign ->
  exists p', X (body _ F_pattern_param) (s ++ tk :: r) p' (tk :: r) /\ X (body _ F_pattern_array_element) (s ++ tk :: r) p' (tk :: r) /\ strip_pattern (n_item p') = strip_pattern p.
Definition P_hole_pattern (l : list lexeme) (p : pattern) : Prop := forall s tk r, feeds s l -> v_token (tv tk) = T_Comma \/ v_token (tv tk) = T_BracketClose ->
  exists p', X (body _ F_pattern_array_element) (s ++ tk :: r) p' (tk :: r) /\ strip_pattern (n_item p') = strip_pattern p /\
    (s <> [] -> exists tk0 s0, s = tk0 :: s0 /\ v_token (tv tk0) <> T_BracketClose).
Definition P_pattern_elements (l : list lexeme) (ps : list (node pattern)) : Prop := forall s tk r, feeds s l -> v_token (tv tk) = T_BracketClose ->
  exists ps', X (body _ F_pattern_elements) (s ++ tk :: r) ps' (tk :: r) /\ same_pats ps' ps.
Definition P_more_patterns (l : list lexeme) (ps : list (node pattern)) : Prop := forall s tk r, feeds s l -> v_token (tv tk) = T_BracketClose ->
  exists ps', X (body _ F_pattern_elements_rest) (s ++ tk :: r) ps' (tk :: r) /\ same_pats ps' ps.
Definition P_parameters (l : list lexeme) (ps : list (node pattern)) : Prop := forall s r, feeds s l ->
  exists ps', X (body _ F_params) (s ++ r) ps' r /\ same_pats ps' ps.
Definition P_more_parameters (l : list lexeme) (ps : list (node pattern)) : Prop := forall s r, feeds s l ->
  (exists tk0 s0, s = tk0 :: s0 /\ (v_token (tv tk0) = T_Comma \/ v_token (tv tk0) = T_ParenClose)) /\ exists ps', X (body _ F_params_rest) (s ++ r) ps' r /\ same_pats ps' ps.
Definition P_rest_parameter (l : list lexeme) (p : pattern) : Prop := forall s r, feeds s l ->
  (exists tk0 s0, s = tk0 :: s0 /\ v_token (tv tk0) = T_OperatorSpread) /\ exists p', X (body _ F_rest_element) (s ++ r) p' r /\ strip_pattern (n_item p') = strip_pattern p.
(** Functions and classes. *)
Definition nk (k : naming) : namekind := match k with Nameless => NK_Empty | MayBeNamed => NK_Optional | Named => NK_Mandatory end.
Definition P_function (k : naming) (l : list lexeme) (f : func) : Prop := forall s r, feeds s l ->
  exists f', X (body _ (F_function (nk k))) (s ++ r) f' r /\ strip_func f' = strip_func f.
Definition P_class (k : naming) (l : list lexeme) (c : class) : Prop := forall s r, feeds s l ->
  exists c', X (body _ (F_class (nk k))) (s ++ r) c' r /\ strip_class c' = strip_class c.
Definition P_class_body (l : list lexeme) (b : block class_member) : Prop := forall s r, feeds s l ->
  exists b', X (body _ (F_block I_Member)) (s ++ r) b' r /\ strip_block strip_class_member (n_item b') = strip_block strip_class_member b.
Definition P_members (nx : lexeme) (l : list lexeme) (ms : list (node class_member)) : Prop := forall s tk r, feeds s l -> spells tk nx -> fst nx = T_BraceClose \/ fst nx = T_EndOfProgram ->
  exists ms', X (body _ (F_items I_Member)) (s ++ tk :: r) ms' (tk :: r) /\ map (strip_node strip_class_member) ms' = map (strip_node strip_class_member) ms.
Definition P_member (nx : lexeme) (l : list lexeme) (m : class_member) : Prop := forall s tk r, feeds s l -> spells tk nx -> fst nx <> T_Semicolon ->
  exists m', X (body _ F_class_member) (s ++ tk :: r) m' (tk :: r) /\ strip_class_member (n_item m') = strip_class_member m.
Definition P_member_name (l : list lexeme) (st : bool) (kind : methodkind) (k : property_key) : Prop := forall s tk r, feeds s l -> v_token (tv tk) = T_ParenOpen \/ v_token (tv tk) = T_OperatorAssign ->
  exists start k', strip_property_key (n_item k') = strip_property_key k /\ forall x u, X (body _ (F_class_member_value start st kind k')) (tk :: r) x u -> X (body _ F_class_member) (s ++ tk :: r) x u.
(** [body_class_member] after the word static. *)
Definition member_tail (start : N) (is_static : bool) : P (node class_member) :=
  v <- look ;;
  if is_word (v_token v) then
    consume_ ;;;
    v' <- look ;;
    if is_word (v_token v') then
      if str_eqb (v_text v) (bs "get") then
        consume_ ;;;
        call (F_class_member_value start is_static MK_Get (in_loc v (Key_Literal (v_text v'))))
      else if str_eqb (v_text v) (bs "set") then
        consume_ ;;;
        call (F_class_member_value start is_static MK_Set (in_loc v (Key_Literal (v_text v'))))
      else fail_with err_member
    else
      let kind := if (negb is_static && str_eqb (v_text v) (bs "constructor"))%bool
                  then MK_Constructor else MK_Method in
      call (F_class_member_value start is_static kind (in_loc v (Key_Literal (v_text v))))
  else if is T_LiteralNumber v then
    consume_ ;;;
    call (F_class_member_value start is_static MK_Method (in_loc v (Key_Literal (v_text v))))
  else if is T_LiteralBinary v then
    consume_ ;;;
    call (F_class_member_value start is_static MK_Method (in_loc v (Key_Binary (v_text v))))
  else if is T_BracketOpen v then
    consume_ ;;;
    e <- call (F_expression CtxDefault BP_ANY) ;;
    token_end <- get_end ;;
    expect T_BracketClose ;;;
    call (F_class_member_value start is_static MK_Method
            (Node (v_start v) token_end (Key_Computed e)))
  else fail_with err_member.
Definition P_member_key (l : list lexeme) (st : bool) (kind : methodkind) (k : property_key) : Prop := forall s tk r start, feeds s l -> v_token (tv tk) = T_ParenOpen \/ v_token (tv tk) = T_OperatorAssign ->
  exists k', strip_property_key (n_item k') = strip_property_key k /\ forall x u, X (body _ (F_class_member_value start st kind k')) (tk :: r) x u -> X (member_tail start st) (s ++ tk :: r) x u.
(** Statements. *)
Definition okn (nx : lexeme) : Prop := ~ In (fst nx) [T_Colon; T_Comma; T_OperatorAssign; T_Catch; T_Finally].
Definition P_body (l : list lexeme) (b : block statement) : Prop := forall s r, feeds s l ->
  exists v vc s' b', s = Plain v :: s' ++ [Plain vc] /\ v_token v = T_BraceOpen /\ X (body _ (F_raw_block I_Statement)) (s' ++ Plain vc :: r) b' (Plain vc :: r) /\ strip_block strip_statement b' = strip_block strip_statement b.
Definition P_statements (nx : lexeme) (l : list lexeme) (ss : list (node statement)) : Prop := forall s tk r, feeds s l -> spells tk nx -> okn nx ->
  exists ss', map (strip_node strip_statement) ss' = map (strip_node strip_statement) ss /\
    (fst nx = T_BraceClose \/ fst nx = T_EndOfProgram -> X (body _ (F_items I_Statement)) (s ++ tk :: r) ss' (tk :: r)) /\
    (fst nx = T_EndOfProgram -> X (body _ F_parse) (s ++ tk :: r) ss' (tk :: r)) /\
    (fst nx = T_Case \/ fst nx = T_Default \/ fst nx = T_BraceClose -> forall e, exists e', X (body _ (F_case_body e)) (s ++ tk :: r) (ss', e') (tk :: r)).
Definition P_stmt (nx : lexeme) (l : list lexeme) (x : statement) : Prop := forall s tk r, feeds s l -> spells tk nx -> okn nx ->
  exists x', X (body _ F_statement) (s ++ tk :: r) x' (tk :: r) /\ strip_statement (n_item x') = strip_statement x.
Definition P_declarators (nx : lexeme) (l : list lexeme) (ds : list (node declarator)) : Prop := forall s tk r, feeds s l -> spells tk nx -> okn nx ->
  exists ds', X (body _ F_declarators) (s ++ tk :: r) ds' (tk :: r) /\ map (strip_node strip_declarator) ds' = map (strip_node strip_declarator) ds.
Definition P_declarator (nx : lexeme) (l : list lexeme) (d : declarator) : Prop := forall s tk r, feeds s l -> spells tk nx -> fst nx <> T_OperatorAssign ->
  exists d', X (body _ F_declarator) (s ++ tk :: r) d' (tk :: r) /\ strip_declarator (n_item d') = strip_declarator d.
(** [body_for] after the parenthesis, and [body_for_rest] after the first semicolon. *)
Definition for_head (start : N) : P stmt_node :=
  v <- look ;;
  if is T_Semicolon v then consume_ ;;; call (F_for_rest start None)
  else if is T_DeclarationVar v then
    i <- call (F_for_init DK_Var) ;; call (F_for_rest start (Some i))
  else if is T_DeclarationLet v then
    i <- call (F_for_init DK_Let) ;; call (F_for_rest start (Some i))
  else if is T_DeclarationConst v then
    i <- call (F_for_init DK_Const) ;; call (F_for_rest start (Some i))
  else
    e <- call (F_expression CtxDefault BP_ANY) ;;
    match n_item e with
    | E_Binary O_In l r =>
        call (F_for_in_from_parts start (Node (n_start l) (n_end l) (FI_Expression l)) r)
    | _ => call (F_for_rest start (Some (Node (n_start e) (n_end e) (FI_Expression e))))
    end.
Definition opt_expr (stop : token) : P (option expr_node) :=
  v <- look ;; if is stop v then consume_ ;;; Ret None else e <- call (F_expression CtxDefault BP_ANY) ;; expect stop ;;; Ret (Some e).
Definition for_tail (start : N) (init : option (node for_init)) : P stmt_node :=
  test <- opt_expr T_Semicolon ;; update <- opt_expr T_ParenClose ;; b <- call F_statement ;; Ret (Node start (n_end b) (St_For init test update b)).
Definition P_init (nx : lexeme) (l : list lexeme) (i : for_init) : Prop := forall s tk r start, feeds s l -> spells tk nx -> okn nx ->
  exists i', strip_for_init (n_item i') = strip_for_init i /\ forall x u, X (body _ (F_for_rest start (Some i'))) (tk :: r) x u -> X (for_head start) (s ++ tk :: r) x u.
Definition P_optional_init (nx : lexeme) (l : list lexeme) (i : option (node for_init)) : Prop := forall s tk r start, feeds s l -> spells tk nx -> fst nx = T_Semicolon ->
  exists i', option_map (strip_node strip_for_init) i' = option_map (strip_node strip_for_init) i /\ forall x u, X (for_tail start i') r x u -> X (for_head start) (s ++ tk :: r) x u.
Definition P_optional_expr (l : list lexeme) (t : option (node expression)) : Prop := forall stop s tk w r, feeds s l -> (stop = T_Semicolon \/ stop = T_ParenClose) -> spells tk (stop, w) ->
  exists t', option_map (strip_node strip_expression) t' = option_map (strip_node strip_expression) t /\ X (opt_expr stop) (s ++ tk :: r) t' r.
Definition P_handler (l : list lexeme) (h : option (node catch_clause)) : Prop := forall s r, feeds s l ->
  match h with
  | None => s = []
  | Some c => exists tk0 s0 c', s = tk0 :: s0 /\ v_token (tv tk0) = T_Catch /\ X (body _ F_catch) (s ++ r) c' r /\ strip_catch (n_item c') = strip_catch (n_item c)
  end.
Definition P_finalizer (l : list lexeme) (f : option (node (block statement))) : Prop := forall s r, feeds s l ->
  match f with
  | None => s = []
  | Some b => exists v s0 b', s = Plain v :: s0 /\ v_token v = T_Finally /\ X (body _ (F_block I_Statement)) (s0 ++ r) b' r /\ strip_block strip_statement (n_item b') = strip_block strip_statement (n_item b)
  end.
Definition P_switch_body (l : list lexeme) (b : block switch_case) : Prop := forall s r, feeds s l ->
  exists b', X (body _ (F_block I_Case)) (s ++ r) b' r /\ strip_block strip_case (n_item b') = strip_block strip_case b.
Definition P_cases (nx : lexeme) (l : list lexeme) (cs : list (node switch_case)) : Prop := forall s tk r, feeds s l -> spells tk nx -> fst nx = T_BraceClose ->
  exists cs', X (body _ (F_items I_Case)) (s ++ tk :: r) cs' (tk :: r) /\ map (strip_node strip_case) cs' = map (strip_node strip_case) cs.
Definition P_case (nx : lexeme) (l : list lexeme) (c : switch_case) : Prop := forall s tk r, feeds s l -> spells tk nx -> fst nx = T_BraceClose \/ fst nx = T_Case \/ fst nx = T_Default ->
  exists c', X (body _ F_switch_case) (s ++ tk :: r) c' (tk :: r) /\ strip_case (n_item c') = strip_case c.

(** ** Using what was shown of an expression *)
Lemma primary_viewer tk s p t : X (primary CtxDefault) (tk :: s) p t -> viewer (v_token (tv tk)) = true.
Proof.
  intros H. apply X_inv in H as (tk' & s0 & E & H). injection E as <- <-. cbv beta in H. apply X_inv in H as (r & s1 & H & _).
  unfold viewer. unfold bound_handler, context_table in H. destruct (nth _ _ _); try reflexivity. exfalso. bodies. cbn [body body_expr_handler] in H.
  apply X_inv in H as (? & ? & _ & H). now apply X_inv in H.
Qed.
Lemma primary_context c tk s p t : X (primary CtxDefault) (tk :: s) p t -> X (primary c) (tk :: s) p t.
Proof.
  intros H. assert (V := primary_viewer _ _ _ _ H). unfold primary in *. apply X_inv in H as (tk' & s0 & E & H). injection E as <- <-. apply X_look.
  assert (bound_handler c (tv tk) = bound_handler CtxDefault (tv tk)) as ->; [|exact H].
  assert (G : forallb (fun t => match nth (token_index t) DEF_CONTEXT X_____ with X_____ => true | h => forallb (fun c => match nth (token_index t) (context_table c) X_____, h with
      | X_OBJ, X_OBJ | X_CLAS, X_CLAS | X_FUNC, X_FUNC | X_IDEN, X_IDEN | X_THIS, X_THIS | X_OP, X_OP | X_NEW, X_NEW | X_PRN, X_PRN | X_ARR, X_ARR | X_REG, X_REG
      | X_TRUE, X_TRUE | X_FALS, X_FALS | X_NULL, X_NULL | X_UNDE, X_UNDE | X_STR, X_STR | X_NUM, X_NUM | X_BIN, X_BIN | X_TPLS, X_TPLS | X_TPLE, X_TPLE => true | _, _ => false end) [CtxDefault; CtxArray; CtxCall] end) all_tokens = true) by (vm_compute; reflexivity).
  rewrite forallb_forall in G. specialize (G _ (in_all_tokens (v_token (tv tk)))). unfold viewer, bound_handler in *. cbn [context_table] in *.
  destruct (nth _ DEF_CONTEXT _); try discriminate V; rewrite forallb_forall in G; specialize (G c ltac:(destruct c; cbn; tauto)); destruct (nth _ (context_table c) _); try discriminate G; reflexivity.
Qed.
Lemma nested_stop b tk r e : handler b (tv tk) = None -> X (body _ (F_nested b e)) (tk :: r) e (tk :: r).
Proof. intros H. bodies. cbn [bind]. apply X_look. rewrite H. apply X_ret. Qed.
Lemma nested_step b h tk r e e' t x u : handler b (tv tk) = Some h -> X (body _ (F_nested_handler h e)) (tk :: r) e' t -> X (body _ (F_nested b e')) t x u -> X (body _ (F_nested b e)) (tk :: r) x u.
Proof. intros H H1 H2. change (body _ (F_nested b e)) with (body_nested b e). unfold body_nested, look, call. cbn [bind]. apply X_look. rewrite H. cbn [bind]. eapply X_call; [exact H1|]. eapply X_call; [exact H2|]. apply X_ret. Qed.
Lemma expression_of c b tk s p t e u : X (primary CtxDefault) (tk :: s) p t -> X (body _ (F_nested b p)) t e u -> X (body _ (F_expression c b)) (tk :: s) e u.
Proof.
  intros H1 H2. apply (primary_context c) in H1. apply X_inv in H1 as (tk' & s0 & E & H1). injection E as <- <-. apply X_inv in H1 as (r & s1 & H1 & H3). apply X_inv in H3 as [-> ->].
  change (body _ (F_expression c b)) with (body_expression c b). unfold body_expression, look, call. cbn [bind]. apply X_look. eapply X_call; [exact H1|]. eapply X_call; [exact H2|]. apply X_ret.
Qed.
Lemma feeds_nonempty s l : feeds s l -> l <> [] -> s <> [].
Proof. intros H N ->. inversion H. congruence. Qed.
Lemma primary_nonempty s p t : X (primary CtxDefault) s p t -> exists tk s', s = tk :: s'.
Proof. intros H. apply X_inv in H as (tk & s0 & -> & _). eauto. Qed.
Section Use.
  Variables (n : nat) (o : bool) (l : list lexeme) (e : expression) (s : list tok) (tk : tok) (r : list tok).
  Hypothesis H : P_expr n o l e.
  Hypothesis F : feeds s l.
  Hypothesis W : follow n (tv tk).
  Hypothesis O : o = true -> follow 1 (tv tk).
  Lemma use_expr c b : need b <= n -> handler b (tv tk) = None -> exists e', X (body _ (F_expression c b)) (s ++ tk :: r) e' (tk :: r) /\ same (n_item e') e.
  Proof.
    intros L N. destruct (H s tk r F W O) as (p & t & e' & H1 & H2 & H3). exists e'. split; [|exact H2]. destruct (primary_nonempty _ _ _ H1) as (tk0 & s0 & E). rewrite E in *.
    eapply expression_of; [exact H1|]. apply H3; [exact L|]. now apply nested_stop.
  Qed.
End Use.
Lemma use_any o l e s tk r c : P_expr 0 o l e -> feeds s l -> follow 0 (tv tk) -> exists e', X (body _ (F_expression c BP_ANY)) (s ++ tk :: r) e' (tk :: r) /\ same (n_item e') e.
Proof. intros H F W. apply (use_expr 0 o l e s tk r H F W); [intros _; now apply (follow_mono 0); [lia|]|cbn; lia|now apply follow_0]. Qed.
Lemma use_b0 o l e s tk r c : P_expr 1 o l e -> feeds s l -> follow 1 (tv tk) -> exists e', X (body _ (F_expression c BP_B0)) (s ++ tk :: r) e' (tk :: r) /\ same (n_item e') e.
Proof. intros H F W. apply (use_expr 1 o l e s tk r H F W); [auto|cbn; lia|now apply follow_1; [|cbn; lia]]. Qed.
Lemma use_b1 o l e s tk r c : P_expr 1 o l e -> feeds s l -> follow 1 (tv tk) -> exists e', X (body _ (F_expression c BP_B1)) (s ++ tk :: r) e' (tk :: r) /\ same (n_item e') e.
Proof. intros H F W. apply (use_expr 1 o l e s tk r H F W); [auto|cbn; lia|now apply follow_1; [|cbn; lia]]. Qed.
(** The first token of an expression. *)
Lemma expr_view n o l e s tk : P_expr n o l e -> l <> [] -> feeds s l -> follow n (tv tk) -> (o = true -> follow 1 (tv tk)) -> exists tk0 s0, s = tk0 :: s0 /\ viewer (v_token (tv tk0)) = true.
Proof.
  intros H N F W O. destruct (H s tk [] F W O) as (p & t & e0 & H1 & _). assert (N' := feeds_nonempty _ _ F N). destruct s as [|tk0 s0]; [contradiction|]. exists tk0, s0. split; [reflexivity|]. exact (primary_viewer _ _ _ _ H1).
Qed.

(** ** Expressions that go on after an expression *)
Lemma going_on n m o1 o l1 l2 a e : P_expr m o1 l1 a -> n <= m ->
  (forall s2 tk r, feeds s2 l2 -> follow n (tv tk) -> (o = true -> follow 1 (tv tk)) ->
    exists tk2 s2' h, s2 = tk2 :: s2' /\ follow m (tv tk2) /\ (o1 = true -> follow 1 (tv tk2)) /\ (forall b, need b <= n -> handler b (tv tk2) = Some h) /\
      forall a', same (n_item a') a -> exists e', X (body _ (F_nested_handler h a')) (s2 ++ tk :: r) e' (tk :: r) /\ same (n_item e') e) ->
  P_expr n o (l1 ++ l2) e.
Proof.
  intros H1 L H2 s tk r F W O. apply Forall2_app_inv_r in F as (s1 & s2 & F1 & F2 & ->). destruct (H2 s2 tk r F2 W O) as (tk2 & s2' & h & -> & W2 & O2 & Hh & G).
  rewrite <- app_assoc. cbn [app] in *. destruct (H1 s1 tk2 (s2' ++ tk :: r) F1 W2 O2) as (p & t & a' & Hp & Sa & Hn). destruct (G a' Sa) as (e' & He & Se).
  exists p, t, e'. split; [exact Hp|]. split; [exact Se|]. intros b Lb x u Hx. apply Hn; [lia|]. eapply nested_step; [exact (Hh b Lb)|exact He|exact Hx].
Qed.
Lemma c_weaker n m o l e : n <= m -> P_expr m o l e -> P_expr n o l e.
Proof.
  intros L H s tk r F W O. destruct (H s tk r F (follow_mono _ _ _ L W) O) as (p & t & e' & H1 & H2 & H3). exists p, t, e'. split; [exact H1|]. split; [exact H2|]. intros b Lb. apply H3. lia.
Qed.
