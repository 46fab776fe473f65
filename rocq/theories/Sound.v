(** The lexemes of an accepted program make up its tree, with line breaks and semicolons. *)
From Coq Require Import List NArith Bool Lia String.
From Coq.Strings Require Import Byte.
From Verif Require Import Bytes Token Tables Lexer Ast Prog Parser ProgFacts Structure LexEval TokenText StateFacts LexerFacts ConsumeFacts LexProps SpecRead SpecTrace Erase TraceFacts Valid.
From Verif Require Import Grammar SpecSyntax.
Import ListNotations.
Open Scope nat_scope.
Open Scope list_scope.

Definition breaks (v : view) : bool := match v_asi v with ImplicitSemicolon => true | _ => false end.
Definition word_of (v : view) : word := Word (match v_token v with T_Accessor => v_accessor v | _ => v_text v end) (breaks v).
Definition lexeme_of (v : view) : lexeme := (v_token v, word_of v).
Definition is_template (t : token) : bool := match t with T_TemplateOpen | T_TemplateClosed => true | _ => false end.
Definition closing (t : token) : str := match t with T_TemplateOpen => bs "${" | _ => bs "`" end.
Definition piece (opening : str) (v : view) : Prop := v_text v = opening ++ v_quasi v ++ closing (v_token v).
(** The parser stands at a token as [consume] leaves it, or ([true]) at one that was read again. *)
Definition inv (pd : bool) (v : view) : Prop :=
  if pd then is_template (v_token v) = true -> piece (bs "}") v
  else (v_asi v = ExplicitSemicolon <-> v_token v = T_Semicolon) /\ v_token v <> T_LiteralRegEx /\ (is_template (v_token v) = true -> piece (bs "`") v).
(** [x] can be the lexeme of the token the parser stands at. *)
Definition leads (v : view) (x : lexeme) : Prop := x = lexeme_of v \/ (v_token v = T_OperatorDivision /\ fst x = T_LiteralRegEx /\ w_break (snd x) = breaks v).
Definition starts (v : view) (l : list lexeme) : Prop := exists x r, l = x :: r /\ leads v x.
(** From [v] to [v'] through [l]. *)
Definition passes (v : view) (l : list lexeme) (v' : view) : Prop := (l = [] /\ v' = v) \/ starts v l.
Lemma starts_app v l l' : starts v l -> starts v (l ++ l').
Proof. intros (x & r & -> & H). exists x, (r ++ l'). auto. Qed.
Lemma starts_cons v l : starts v (lexeme_of v :: l).
Proof. eexists _, l. split; [reflexivity|now left]. Qed.
Lemma starts_passes v l v' : starts v l -> passes v l v'.
Proof. now right. Qed.
Lemma passes_next v l v' nx : passes v l v' -> leads v' nx -> leads v (next l nx).
Proof. intros [[-> ->]|(x & r & -> & H)] L; [exact L|exact H]. Qed.
Lemma leads_token ts v nx : leads v nx -> ~ In (v_token v) ts -> ~ In T_LiteralRegEx ts -> ~ In (fst nx) ts.
Proof. intros [->|(_ & -> & _)] H1 H2; assumption. Qed.
Lemma leads_break v nx : leads v nx -> w_break (snd nx) = breaks v.
Proof. intros [->|(_ & _ & E)]; auto. Qed.
Lemma starts_not ts v l : starts v l -> ~ In (v_token v) ts -> ~ In T_LiteralRegEx ts -> not_first ts l.
Proof. intros ([t s] & r & -> & H) H1 H2. exact (leads_token _ _ _ H H1 H2). Qed.
Lemma starts_line v l : starts v l -> breaks v = false -> same_line l.
Proof. intros ([t s] & r & -> & H) B. apply leads_break in H. cbn in *. congruence. Qed.
(** The end of an expression. *)
Lemma stop_any v nx : handler BP_ANY v = None -> v_token v <> T_LiteralRegEx -> leads v nx -> ends 0 nx.
Proof.
  assert (G : forallb (fun t => negb (memb t continuing) || token_eqb t T_LiteralRegEx || match nth (token_index t) (LUT BP_ANY) None with None => false | _ => true end)%bool all_tokens = true) by (vm_compute; reflexivity).
  rewrite forallb_forall in G. specialize (G _ (in_all_tokens (v_token v))). intros H R L.
  assert (E : nx = lexeme_of v) by (destruct L as [L|(L & _)]; [exact L|exfalso; unfold handler, is in H; rewrite L in H; destruct (v_asi v); discriminate H]). subst nx. unfold ends. cbn [lexeme_of fst snd word_of w_break].
  destruct (memb (v_token v) continuing) eqn:M.
  - right; left. cbn [negb orb] in G. apply orb_true_iff in G as [G|G]; [exfalso; apply token_eqb_eq in G; auto|]. unfold handler in H. unfold breaks, is in *. destruct (v_asi v); [destruct (nth _ _ _); discriminate| |destruct (nth _ _ _); discriminate].
    destruct (token_eqb (v_token v) T_OperatorIncrement || token_eqb (v_token v) T_OperatorDecrement)%bool eqn:T; [|destruct (nth _ _ _); discriminate]. split; [|reflexivity].
    apply orb_true_iff in T as [T|T]; apply token_eqb_eq in T; rewrite T; cbn; tauto.
  - left. intros I. assert (X : memb (v_token v) continuing = true); [|congruence]. unfold memb. apply existsb_exists. exists (v_token v). split; [exact I|]. destruct (v_token v); reflexivity.
Qed.
Lemma stop_b0 v nx : handler BP_B0 v = None -> v_token v <> T_LiteralRegEx -> leads v nx -> ends 1 nx.
Proof.
  intros H R L. destruct (handler BP_ANY v) as [h|] eqn:E.
  - rewrite (only_comma _ _ _ _ E H ltac:(cbn; lia)) in E. apply pre_nested in E. right; right. split; [reflexivity|]. destruct L as [->|(L & _)]; [exact E|]. unfold on in E. cbn in E. congruence.
  - destruct (stop_any _ _ E R L) as [X|[X|[X _]]]; [now left|right; now left|discriminate X].
Qed.
Lemma stop_b1 v nx : handler BP_B1 v = None -> v_token v <> T_LiteralRegEx -> leads v nx -> ends 1 nx.
Proof.
  intros H R L. destruct (handler BP_ANY v) as [h|] eqn:E.
  - rewrite (only_comma _ _ _ _ E H ltac:(cbn; lia)) in E. apply pre_nested in E. right; right. split; [reflexivity|]. destruct L as [->|(L & _)]; [exact E|]. unfold on in E. cbn in E. congruence.
  - destruct (stop_any _ _ E R L) as [X|[X|[X _]]]; [now left|right; now left|discriminate X].
Qed.
Lemma ends_semi n s : ends n (T_Semicolon, s).
Proof. left. cbn. intuition discriminate. Qed.
(** The level of the result of a handler. *)
Definition lev (h : nested_handler) : nat := match h with N_COND => 1 | _ => Grammar.lev h end.
Lemma level_above b v h : handler b v = Some h -> ceil b <= lev h.
Proof.
  assert (G : forallb (fun b => forallb (fun t => match nth (token_index t) (LUT b) None with Some h => Nat.leb (ceil b) (lev h) | None => true end) all_tokens) all_bps = true) by (vm_compute; reflexivity).
  rewrite forallb_forall in G. specialize (G b (in_all_bps b)). cbv beta in G. rewrite forallb_forall in G. specialize (G (v_token v) (in_all_tokens _)). cbv beta in G.
  intros H. apply handler_lut in H. rewrite H in G. now apply PeanoNat.Nat.leb_le.
Qed.
Definition read_expr (n : nat) (v : view) (r : node expression) (l : list lexeme) (v' : view) : Prop :=
  exists m o, n <= m /\ expr m o l (n_item r) /\ OK v' m o /\ starts v l.

(** ** What each method reads *)
Definition naming_of (k : namekind) : naming := match k with NK_Empty => Nameless | NK_Optional => MayBeNamed | NK_Mandatory => Named end.
Definition item_is {T : Set} (i : item T) : lexeme -> list lexeme -> T -> Prop := match i in item T return lexeme -> list lexeme -> T -> Prop with I_Statement => stmt | I_Member => member | I_Case => case_of end.
Definition items_are {T : Set} (i : item T) : lexeme -> list lexeme -> list (node T) -> Prop := match i in item T return lexeme -> list lexeme -> list (node T) -> Prop with I_Statement => statements | I_Member => members | I_Case => cases end.
Definition block_is {T : Set} (i : item T) : list lexeme -> block T -> Prop := match i in item T return list lexeme -> block T -> Prop with I_Statement => body_of | I_Member => class_body | I_Case => switch_body end.
(** After a case. *)
Definition case_end (v : view) : Prop := on T_Case v \/ on T_Default v \/ on T_BraceClose v.
Definition after_item {T : Set} (i : item T) (v : view) : Prop := match i with I_Case => case_end v | _ => True end.
Definition after_items {T : Set} (i : item T) (v v' : view) : Prop := on T_BraceClose v' \/ (on T_EndOfProgram v' /\ match i with I_Case => v' = v | _ => True end).
Definition ending {T : Set} (i : item T) (xs : list (node T)) (v : view) : Prop := on T_BraceClose v \/ (xs <> [] /\ on T_EndOfProgram v /\ match i with I_Case => False | _ => True end).
(** A statement. *)
Definition states (v : view) (r : node statement) (l : list lexeme) (v' : view) : Prop := starts v l /\ forall nx, leads v' nx -> stmt nx l (n_item r).
Definition gpost {R : Set} (f : fn R) (v : view) : R -> list lexeme -> view -> Prop :=
  match f in fn R return R -> list lexeme -> view -> Prop with
  | F_parse => fun r l v' => (forall nx, leads v' nx -> statements nx l r) /\ on T_EndOfProgram v' /\ passes v l v'
  | F_block i => fun r l _ => block_is i l (n_item r) /\ starts v l
  | F_unchecked_block i => fun r l _ => block_is i l (n_item r) /\ starts v l
  | F_raw_block i => fun r l v' => (forall nx, leads v' nx -> items_are i nx l (b_body r)) /\ ending i (b_body r) v'
  | F_items i => fun r l v' => (forall nx, leads v' nx -> items_are i nx l r) /\ after_items i v v' /\ passes v l v'
  | F_item i => fun r l v' => (forall nx, leads v' nx -> item_is i nx l (n_item r)) /\ after_item i v' /\ starts v l
  | F_pattern_from_expression e => fun r l _ => l = [] /\ pattern_of (n_item e) (n_item r)
  | F_params_from_expressions es => fun r l _ => l = [] /\ patterns_of es r
  | F_nested b lf => fun r l v' => (handler b v = None -> l = [] /\ r = lf /\ v' = v) /\ (handler b v <> None -> exists l', l = lexeme_of v :: l') /\ (forall m o l0, expr m o l0 (n_item lf) -> OK v m o -> ceil b <= m -> exists m' o', ceil b <= m' /\ expr m' o' (l0 ++ l) (n_item r) /\ OK v' m' o') /\ handler b v' = None
  | F_nested_handler h lf => fun r l v' => (forall m o l0, expr m o l0 (n_item lf) -> OK v m o -> exists o', expr (lev h) o' (l0 ++ l) (n_item r) /\ OK v' (lev h) o') /\ exists l', l = lexeme_of v :: l'
  | F_sequence => fun r l v' => more_exprs l r /\ handler BP_B0 v' = None /\ v_token v' <> T_Comma
  | F_expr_handler h => fun r l v' =>
      match h with
      | X_VOID => l = [] /\ n_item r = E_Void /\ handler BP_B0 v' = None /\ v' = v
      | X_SPRD => element l (n_item r) /\ handler BP_B0 v' = None /\ starts v l
      | _ => read_expr 16 v r l v'
      end
  | F_expression c b => fun r l v' => match c with CtxDefault => read_expr (ceil b) v r l v' | CtxArray => hole_or_element l (n_item r) /\ passes v l v' | CtxCall => element l (n_item r) end /\ handler b v' = None
  | F_arrow es => fun r l v' => exists o ps b, r = E_Arrow ps b /\ patterns_of es ps /\ arrow_to o l b /\ OK v' 17 o
  | F_call_arguments => fun r l v' => arguments l r /\ on T_ParenClose v'
  | F_call_arguments_rest => fun r l v' => more_arguments l r /\ on T_ParenClose v'
  | F_paren => fun r l v' => read_expr 16 v r l v'
  | F_prefix op => fun r l v' => exists e o, r = E_Prefix op e /\ expr 16 o l (n_item e) /\ OK v' 16 o
  | F_object => fun r l v' => read_expr 16 v r l v'
  | F_meta_property m => fun r l v' => v' = v /\ l = [] /\ exists p, r = E_MetaProperty m p /\ n_item p = bs "target" /\ v_accessor v = bs "target"
  | F_property_list => fun r l v' => properties l r /\ on T_BraceClose v'
  | F_property_list_rest => fun r l v' => more_properties l r /\ on T_BraceClose v'
  | F_property => fun r l _ => property_of l (n_item r)
  | F_property_value _ k => fun r l _ => forall l0, key l0 (n_item k) -> property_of (l0 ++ l) (n_item r)
  | F_array => fun r l v' => read_expr 16 v r l v'
  | F_array_elements => fun r l v' => elements l r /\ on T_BracketClose v'
  | F_array_elements_rest => fun r l v' => more_elements l r /\ on T_BracketClose v' /\ (l <> [] \/ v' = v)
  | F_regular_expression => fun r l v' => read_expr 16 v r l v'
  | F_template_string => fun r l _ => template_of (bs "`") l (n_item r) /\ exists l', l = lexeme_of v :: l'
  | F_template_literal => fun r l _ => template_of (bs "`") l (n_item r) /\ exists l', l = lexeme_of v :: l'
  | F_template_rest => fun r l _ => let '(qs, es, _) := r in template_of (bs "}") l (Template es qs)
  | F_function_expression => fun r l v' => read_expr 16 v r l v'
  | F_class_expression => fun r l v' => read_expr 16 v r l v'
  | F_name k => fun r l v' => name_of (naming_of k) l r
  | F_pattern => fun r l _ => pattern_is l (n_item r)
  | F_function k => fun r l _ => function (naming_of k) l r
  | F_method => fun r l _ => function Nameless l (n_item r)
  | F_class_member => fun r l v' => (forall nx, leads v' nx -> member nx l (n_item r)) /\ starts v l
  | F_class_member_value _ st kind k => fun r l v' => forall nx, leads v' nx -> forall l0, member_name l0 st kind (n_item k) -> member nx (l0 ++ l) (n_item r)
  | F_class k => fun r l _ => class_of (naming_of k) l r
  | F_pattern_array => fun r l _ => pattern_is l (n_item r)
  | F_pattern_object => fun r l _ => pattern_is l (n_item r)
  | F_pattern_assign lf => fun r l _ => forall l0, pattern_is l0 (n_item lf) -> parameter (l0 ++ l) (n_item r)
  | F_pattern_array_element => fun r l v' => hole_or_pattern l (n_item r) /\ (l <> [] \/ v' = v)
  | F_pattern_elements => fun r l v' => pattern_elements l r /\ on T_BracketClose v'
  | F_pattern_elements_rest => fun r l v' => more_patterns l r /\ on T_BracketClose v' /\ (l <> [] \/ v' = v)
  | F_pattern_param => fun r l _ => parameter l (n_item r)
  | F_rest_element => fun r l _ => rest_parameter l (n_item r)
  | F_params => fun r l _ => parameters l r
  | F_params_rest => fun r l _ => more_parameters l r
  | F_stmt_handler _ => fun r l v' => states v r l v'
  | F_switch_case => fun r l v' => (forall nx, leads v' nx -> case_of nx l (n_item r)) /\ case_end v' /\ starts v l
  | F_case_body _ => fun r l v' => (forall nx, leads v' nx -> statements nx l (fst r)) /\ case_end v' /\ passes v l v'
  | F_statement => fun r l v' => states v r l v'
  | F_expect_semicolon => fun _ l v' => (forall nx, leads v' nx -> semi nx l) /\ passes v l v'
  | F_block_statement => fun r l v' => states v r l v'
  | F_expression_statement e => fun r l v' => forall nx, leads v' nx -> forall m o l0, expr m o l0 (n_item e) -> OK v m o -> not_first [T_BraceOpen; T_Function; T_Class] l0 -> stmt nx (l0 ++ l) (n_item r)
  | F_labeled_or_expression => fun r l v' => states v r l v'
  | F_function_statement => fun r l v' => states v r l v'
  | F_class_statement => fun r l v' => states v r l v'
  | F_variable_declaration _ => fun r l v' => states v r l v'
  | F_declarator => fun r l v' => forall nx, leads v' nx -> declarator_of nx l (n_item r)
  | F_declarators => fun r l v' => forall nx, leads v' nx -> declarators nx l r
  | F_return => fun r l v' => states v r l v'
  | F_break => fun r l v' => states v r l v'
  | F_continue => fun r l v' => states v r l v'
  | F_label => fun r l v' => forall nx, leads v' nx -> exists l1 l2, l = l1 ++ l2 /\ label l1 (fst r) /\ semi nx l2
  | F_throw => fun r l v' => states v r l v'
  | F_try => fun r l v' => states v r l v'
  | F_catch => fun r l _ => handler_of l (Some r)
  | F_if => fun r l v' => states v r l v'
  | F_while => fun r l v' => states v r l v'
  | F_do => fun r l v' => states v r l v'
  | F_for_init _ => fun r l v' => forall nx, leads v' nx -> init_of nx l (n_item r)
  | F_for => fun r l v' => states v r l v'
  | F_for_rest _ init => fun r l v' => forall nx, leads v' nx -> forall s1 s2 l0, match init with None => exists s3, l0 = [(T_Semicolon, s3)] | Some i => init_of (lexeme_of v) l0 (n_item i) end -> stmt nx ((T_For, s1) :: (T_ParenOpen, s2) :: l0 ++ l) (n_item r)
  | F_for_in_from_parts _ lf rg => fun r l v' => forall nx, leads v' nx -> forall s1 s2 l0 o x, n_item lf = FI_Expression x -> expr 0 o l0 (E_Binary O_In x rg) -> stmt nx ((T_For, s1) :: (T_ParenOpen, s2) :: l0 ++ l) (n_item r)
  | F_for_in _ lf => fun r l v' => forall nx, leads v' nx -> forall s1 s2 s3 l0, init_of (T_OperatorIn, s3) l0 (n_item lf) -> stmt nx ((T_For, s1) :: (T_ParenOpen, s2) :: l0 ++ (T_OperatorIn, s3) :: l) (n_item r)
  | F_for_of _ lf => fun r l v' => forall nx, leads v' nx -> forall s1 s2 s3 l0, w_text s3 = bs "of" -> init_of (T_Identifier, s3) l0 (n_item lf) -> stmt nx ((T_For, s1) :: (T_ParenOpen, s2) :: l0 ++ (T_Identifier, s3) :: l) (n_item r)
  | F_switch => fun r l v' => states v r l v'
  | F_import => fun r l v' => states v r l v'
  | F_import_rest _ specs has_next => fun r l v' => forall nx, leads v' nx -> exists lm more s2 s3 source, l = lm ++ [(T_Identifier, s2); (T_LiteralString, s3)] /\ w_text s2 = bs "from" /\ quoted source (w_text s3) /\
      n_item r = St_Import (specs ++ more) source /\ if has_next then import_more lm more else lm = [] /\ more = []
  | F_import_specifiers => fun r l _ => imported l r
  end.

(** Only the rest of a template is read from a token that was read again. *)
Definition pending {R : Set} (f : fn R) : bool := match f with F_template_rest => true | _ => false end.
Inductive D {A : Type} (Q : A -> list lexeme -> view -> Prop) : bool -> list lexeme -> view -> P A -> Prop :=
| D_Ret acc v a : inv false v -> Q a acc v -> D Q false acc v (Ret a)
| D_Look pd acc v k : D Q pd acc v (k v) -> D Q pd acc v (Look k)
| D_Consume acc v k : (forall v', inv false v' -> D Q false (acc ++ [lexeme_of v]) v' k) -> D Q false acc v (Consume k)
| D_Again acc v k : v_token v = T_LiteralRegEx \/ is_template (v_token v) = true -> (forall v', inv false v' -> D Q false (acc ++ [lexeme_of v]) v' k) -> D Q true acc v (Consume k)
| D_Template acc v k : v_token v = T_BraceClose -> (forall v', inv true v' -> v_token v' <> T_LiteralRegEx -> D Q true acc v' k) -> D Q false acc v (ReadTemplate k)
| D_Regex acc v k : v_token v = T_OperatorDivision -> (forall s v', inv true v' -> breaks v' = breaks v -> is_template (v_token v') = false -> (v_token v' = T_LiteralRegEx -> s = v_text v') -> D Q true acc v' (k s)) -> D Q false acc v (ReadRegex k)
| D_Error pd acc v k : D Q pd acc v (PushError k)
| D_Abort pd acc v : D Q pd acc v Abort
| D_Call acc v (R : Set) (f : fn R) k : gpre f v -> inv (pending f) v -> (forall r l v', inv false v' -> gpost f v r l v' -> D Q false (acc ++ l) v' (k r)) -> D Q (pending f) acc v (Call f k).
Ltac clean := repeat match goal with
  | C : (is _ ?v && _)%bool = true |- _ => apply andb_true_iff in C; destruct C as [? ?]
  | C : (is _ ?v || is _ ?v)%bool = true |- _ => apply orb_true_iff in C
  | C : is _ _ = true |- _ => apply is_eq in C
  | C : str_eqb _ _ = true |- _ => apply str_eqb_eq in C
  end.
Ltac gon := unfold on; clean; unfold on in *; match goal with H : ?a |- ?a => exact H | H : v_token ?v = _ |- v_token ?v = _ => exact H end.
Ltac dstep :=
  match goal with
  | |- D _ _ _ _ (Ret _) => apply D_Ret; [assumption|]
  | |- D _ _ _ _ (Look _) => apply D_Look
  | |- D _ false _ _ (Consume _) => apply D_Consume; intros ?v ?Hi
  | |- D _ true _ _ (Consume _) => apply D_Again; [solve [left; gon | right; clean; match goal with H : v_token _ = _ |- _ => rewrite H; reflexivity end]|intros ?v ?Hi]
  | |- D _ _ _ _ (ReadTemplate _) => apply D_Template; [solve [gon]|intros ?v ?Hi ?Hn]
  | |- D _ _ _ _ (ReadRegex _) => apply D_Regex; [solve [gon]|intros ?s ?v ?Hi ?Hb ?Hn ?Hx]
  | |- D _ _ _ _ (PushError _) => apply D_Error
  | |- D _ _ _ _ Abort => apply D_Abort
  | |- D _ _ _ _ (Call ?f _) => refine (D_Call _ _ _ _ f _ _ _ _); [try exact I; try (left; reflexivity); try (right; reflexivity); try solve [gon]|assumption|let r := fresh "r" in intros r ?l ?v ?Hi ?Hq; cbn [gpost n_item b_body] in *]
  | |- D _ _ _ _ ?p => let c := vcond p in let E := fresh "C" in destruct c eqn:E
  end.
Definition gbody {R : Set} (f : fn R) : Prop := forall v, inv (pending f) v -> gpre f v -> D (gpost f v) (pending f) [] v (body R f).
Ltac go := let v := fresh "v" in let Hv := fresh "Hv" in let Hp := fresh "Hp" in intros v Hv Hp; cbn [gpre] in Hp; cbn [pending] in *; bodies; cbn [bind]; repeat (dstep; cbn [bind gpre app pending]); cbn [gpost n_item b_body].
Lemma lexeme_on v t : v_token v = t -> lexeme_of v = (t, Word (match t with T_Accessor => v_accessor v | _ => v_text v end) (breaks v)).
Proof. unfold lexeme_of, word_of. now intros ->. Qed.
Ltac lexs := unfold on in *; repeat match goal with
  | H : v_token ?v = ?t |- context [lexeme_of ?v] => rewrite (lexeme_on v t H); cbv match
  | H : v_token ?v = ?t |- context [v_token ?v] => rewrite H
  | H : _ /\ _ |- _ => destruct H
  | H : exists _, _ |- _ => destruct H
  end.
(** The level that was asked for. *)
Ltac lower := unfold read_expr in *; repeat match goal with H : _ /\ _ |- _ => destruct H | H : exists _, _ |- _ => destruct H end;
  repeat match goal with L : ceil ?b <= ?m, H : expr ?m ?o ?l ?e |- _ => apply (x_weaker (ceil b) m o l e L) in H; clear L end;
  repeat match goal with H : expr (ceil ?b) _ _ _ |- _ => progress (cbn [ceil num] in H) end.
Ltac norm := rewrite <- ?app_assoc; cbn [app].
Create HintDb syn.
#[export] Hint Constructors atom semi optional_semi closes name_of pattern_of params_of more_exprs element arguments more_arguments hole_or_element elements more_elements template_of arrow_to key property_of properties more_properties
  pattern_is parameter hole_or_pattern pattern_elements more_patterns parameters more_parameters rest_parameter function class_of class_body members member member_name member_key body_of statements stmt label declarators declarator_of
  init_of optional_init optional_expr handler_of finalizer_of switch_body cases case_of import_clause import_more imported import_name : syn.
#[export] Hint Resolve x_atom x_paren x_prefix x_postfix x_infix x_assign x_conditional x_sequence x_member x_computed x_new_target x_call x_array x_object x_template x_tagged x_function x_class x_arrow x_thunk ok_top ok_arrow ok_right starts_app starts_cons : syn.
Ltac fin := clean; lexs; lower; norm; repeat match goal with |- _ /\ _ => split end; cbn [In declarations prefix_operators]; try assumption; try reflexivity; try tauto; try discriminate;
  try solve [once (econstructor; eauto 3 with syn)].
