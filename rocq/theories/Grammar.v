(** The tokens of an accepted program make up its tree. *)
From Coq Require Import List NArith Bool Lia String.
From Coq.Strings Require Import Byte.
From Verif Require Import Bytes Token Tables Lexer Ast Prog Parser ProgFacts Structure LexEval TokenText StateFacts LexerFacts ConsumeFacts LexProps SpecRead SpecTrace SpecGrammar Erase TraceFacts Valid.
Import ListNotations.
Open Scope nat_scope.
Open Scope list_scope.

Definition on (t : token) (v : view) : Prop := v_token v = t.
Definition lexeme_of (v : view) : lexeme :=
  (v_token v, match v_token v with T_Accessor => v_accessor v | T_TemplateOpen | T_TemplateClosed => v_quasi v | _ => v_text v end).

(** ** Which token a handler is for *)
Definition xtokens (h : expr_handler) : list token :=
  match h with
  | X_____ => all_tokens | X_VOID => [T_Comma; T_BracketClose]
  | X_OBJ => [T_BraceOpen] | X_CLAS => [T_Class] | X_FUNC => [T_Function] | X_IDEN => [T_Identifier] | X_SPRD => [T_OperatorSpread] | X_THIS => [T_This]
  | X_OP => [T_OperatorIncrement; T_OperatorDecrement; T_OperatorLogicalNot; T_OperatorBitwiseNot; T_OperatorTypeof; T_OperatorVoid; T_OperatorDelete; T_OperatorAddition; T_OperatorSubtraction]
  | X_NEW => [T_OperatorNew] | X_PRN => [T_ParenOpen] | X_ARR => [T_BracketOpen] | X_REG => [T_OperatorDivision]
  | X_TRUE => [T_LiteralTrue] | X_FALS => [T_LiteralFalse] | X_NULL => [T_LiteralNull] | X_UNDE => [T_LiteralUndefined] | X_STR => [T_LiteralString] | X_NUM => [T_LiteralNumber]
  | X_BIN => [T_LiteralBinary] | X_TPLS => [T_TemplateClosed] | X_TPLE => [T_TemplateOpen]
  end.
Definition stokens (h : stmt_handler) : list token :=
  match h with
  | S_____ => all_tokens
  | S_EMPT => [T_Semicolon] | S_DBGGR => [T_Debugger] | S_BLCK => [T_BraceOpen] | S_VAR => [T_DeclarationVar] | S_LET => [T_DeclarationLet] | S_CONS => [T_DeclarationConst]
  | S_RET => [T_Return] | S_BRK => [T_Break] | S_THRW => [T_Throw] | S_CONT => [T_Continue] | S_FUNC => [T_Function] | S_CLAS => [T_Class] | S_IF => [T_If] | S_WHL => [T_While]
  | S_DO => [T_Do] | S_FOR => [T_For] | S_TRY => [T_Try] | S_SWCH => [T_Switch] | S_LABL => [T_Identifier] | S_IMPT => [T_Import]
  | S_PRN => xtokens X_PRN | S_ARR => xtokens X_ARR | S_OP => xtokens X_OP | S_NEW => xtokens X_NEW | S_REG => xtokens X_REG | S_THIS => xtokens X_THIS | S_TRUE => xtokens X_TRUE
  | S_FALS => xtokens X_FALS | S_NULL => xtokens X_NULL | S_UNDE => xtokens X_UNDE | S_STR => xtokens X_STR | S_NUM => xtokens X_NUM | S_BIN => xtokens X_BIN | S_TPLS => xtokens X_TPLS | S_TPLE => xtokens X_TPLE
  end.
Definition ntoken (h : nested_handler) : token :=
  match h with
  | N_SEQ => T_Comma | N_COND => T_OperatorConditional | N_ARRW => T_OperatorFatArrow | N_ACCS => T_Accessor | N_CALL => T_ParenOpen | N_CMEM => T_BracketOpen
  | N_TPLS => T_TemplateClosed | N_TPLE => T_TemplateOpen | N_INC => T_OperatorIncrement | N_DEC => T_OperatorDecrement
  | N_ASGN => T_OperatorAssign | N_ADDA => T_OperatorAddAssign | N_SUBA => T_OperatorSubtractAssign | N_EXPA => T_OperatorExponentAssign | N_MULA => T_OperatorMultiplyAssign
  | N_DIVA => T_OperatorDivideAssign | N_REMA => T_OperatorRemainderAssign | N_BSLA => T_OperatorBSLAssign | N_BSRA => T_OperatorBSRAssign | N_UBSA => T_OperatorUBSRAssign
  | N_BWAA => T_OperatorBitAndAssign | N_XORA => T_OperatorBitXorAssign | N_BORA => T_OperatorBitOrAssign
  | N_OR => T_OperatorLogicalOr | N_AND => T_OperatorLogicalAnd | N_BWOR => T_OperatorBitwiseOr | N_BWXO => T_OperatorBitwiseXor | N_BWAN => T_OperatorBitwiseAnd
  | N_STEQ => T_OperatorStrictEquality | N_SIEQ => T_OperatorStrictInequality | N_EQ => T_OperatorEquality | N_INEQ => T_OperatorInequality
  | N_LESS => T_OperatorLesser | N_LSEQ => T_OperatorLesserEquals | N_GRTR => T_OperatorGreater | N_GREQ => T_OperatorGreaterEquals | N_INOF => T_OperatorInstanceof | N_IN => T_OperatorIn
  | N_BSL => T_OperatorBitShiftLeft | N_BSR => T_OperatorBitShiftRight | N_UBSR => T_OperatorUBitShiftRight | N_ADD => T_OperatorAddition | N_SUB => T_OperatorSubtraction
  | N_MUL => T_OperatorMultiplication | N_DIV => T_OperatorDivision | N_REM => T_OperatorRemainder | N_EXPN => T_OperatorExponent
  end.
Lemma pre_nested b v h : handler b v = Some h -> on (ntoken h) v.
Proof.
  intros H. unfold handler in H. assert (G : nth (token_index (v_token v)) (LUT b) None = Some h).
  { destruct (v_asi v); auto. destruct (_ || _)%bool; [discriminate|exact H]. }
  clear H. revert G. unfold on. destruct b; destruct (v_token v); intros G; vm_compute in G; try discriminate G; injection G as <-; reflexivity.
Qed.
Definition memb (t : token) (l : list token) : bool := existsb (token_eqb t) l.
Lemma memb_in t l : memb t l = true -> In t l.
Proof. unfold memb. intros H. apply existsb_exists in H as (x & I & E). apply token_eqb_eq in E as ->. exact I. Qed.
Lemma pre_expr c v : memb (v_token v) (xtokens (bound_handler c v)) = true.
Proof.
  assert (G : forallb (fun t => memb t (xtokens (nth (token_index t) (context_table c) X_____))) all_tokens = true) by (destruct c; vm_compute; reflexivity).
  rewrite forallb_forall in G. exact (G _ (in_all_tokens _)).
Qed.
Lemma pre_stmt v : memb (v_token v) (stokens (statement_handler v)) = true.
Proof.
  assert (G : forallb (fun t => memb t (stokens (nth (token_index t) STMT_HANDLERS S_____))) all_tokens = true) by (vm_compute; reflexivity).
  rewrite forallb_forall in G. exact (G _ (in_all_tokens _)).
Qed.
Lemma default_handler v : bound_handler CtxDefault v <> X_VOID /\ bound_handler CtxDefault v <> X_SPRD.
Proof.
  assert (G : forallb (fun t => match nth (token_index t) (context_table CtxDefault) X_____ with X_VOID | X_SPRD => false | _ => true end) all_tokens = true) by (vm_compute; reflexivity).
  rewrite forallb_forall in G. specialize (G _ (in_all_tokens (v_token v))). unfold bound_handler. destruct (nth _ _ _); split; discriminate.
Qed.
Lemma call_handler v : bound_handler CtxCall v <> X_VOID.
Proof.
  assert (G : forallb (fun t => match nth (token_index t) (context_table CtxCall) X_____ with X_VOID => false | _ => true end) all_tokens = true) by (vm_compute; reflexivity).
  rewrite forallb_forall in G. specialize (G _ (in_all_tokens (v_token v))). unfold bound_handler. destruct (nth _ _ _); discriminate.
Qed.

(** ** Levels of precedence *)
(** The level a handler asks of what stands to its left. *)
Definition need (h : nested_handler) : nat :=
  match h with
  | N_SEQ => 1 | N_COND => 3
  | N_ASGN | N_ADDA | N_SUBA | N_EXPA | N_MULA | N_DIVA | N_REMA | N_BSLA | N_BSRA | N_UBSA | N_BWAA | N_XORA | N_BORA => 0
  | N_OR => 5 | N_AND => 6 | N_BWOR => 7 | N_BWXO => 8 | N_BWAN => 9 | N_STEQ | N_SIEQ | N_EQ | N_INEQ => 10
  | N_LESS | N_LSEQ | N_GRTR | N_GREQ | N_INOF | N_IN => 11 | N_BSL | N_BSR | N_UBSR => 12 | N_ADD | N_SUB => 13 | N_MUL | N_DIV | N_REM => 14 | N_EXPN => 15
  | _ => 17
  end.
(** The level of its result. *)
Definition lev (h : nested_handler) : nat :=
  match h with
  | N_SEQ => 0 | N_COND => 2
  | N_ASGN | N_ADDA | N_SUBA | N_EXPA | N_MULA | N_DIVA | N_REMA | N_BSLA | N_BSRA | N_UBSA | N_BWAA | N_XORA | N_BORA => 1
  | _ => need h
  end.
Definition num (b : bp) : nat :=
  match b with
  | BP_ANY | BP_B0 => 0 | BP_B1 => 1 | BP_B5 => 5 | BP_B6 => 6 | BP_B7 => 7 | BP_B8 => 8 | BP_B9 => 9 | BP_B10 => 10 | BP_B11 => 11 | BP_B12 => 12 | BP_B13 => 13 | BP_B14 => 14 | BP_B15 => 15
  end.
(** The level of what is read at a binding power. *)
Definition ceil (b : bp) : nat := match b with BP_ANY => 0 | BP_B0 | BP_B1 => 1 | _ => S (num b) end.
Definition all_bps : list bp := [BP_ANY; BP_B0; BP_B1; BP_B5; BP_B6; BP_B7; BP_B8; BP_B9; BP_B10; BP_B11; BP_B12; BP_B13; BP_B14; BP_B15].
Lemma in_all_bps b : In b all_bps.
Proof. destruct b; cbn; tauto. Qed.
Lemma handler_lut b v h : handler b v = Some h -> nth (token_index (v_token v)) (LUT b) None = Some h.
Proof. unfold handler. destruct (v_asi v); auto. destruct (_ || _)%bool; [discriminate|auto]. Qed.
Lemma handler_none b b' v h : handler b v = Some h -> handler b' v = None -> nth (token_index (v_token v)) (LUT b') None = None.
Proof. unfold handler. destruct (v_asi v); auto. destruct (_ || _)%bool; [discriminate|auto]. Qed.
Lemma level_above b v h : handler b v = Some h -> ceil b <= lev h.
Proof.
  assert (G : forallb (fun b => forallb (fun t => match nth (token_index t) (LUT b) None with Some h => Nat.leb (ceil b) (lev h) | None => true end) all_tokens) all_bps = true) by (vm_compute; reflexivity).
  rewrite forallb_forall in G. specialize (G b (in_all_bps b)). cbv beta in G. rewrite forallb_forall in G. specialize (G (v_token v) (in_all_tokens _)). cbv beta in G.
  intros H. apply handler_lut in H. rewrite H in G. now apply PeanoNat.Nat.leb_le.
Qed.
Lemma level_below b b' v h : handler b v = Some h -> handler b' v = None -> need h <= 1 \/ need h <= num b'.
Proof.
  assert (G : forallb (fun b => forallb (fun b' => forallb (fun t => match nth (token_index t) (LUT b) None with Some h => match nth (token_index t) (LUT b') None with None => Nat.leb (need h) 1 || Nat.leb (need h) (num b') | _ => true end | None => true end)%bool all_tokens) all_bps) all_bps = true) by (vm_compute; reflexivity).
  rewrite forallb_forall in G. specialize (G b (in_all_bps b)). cbv beta in G. rewrite forallb_forall in G. specialize (G b' (in_all_bps b')). cbv beta in G. rewrite forallb_forall in G. specialize (G (v_token v) (in_all_tokens _)). cbv beta in G.
  intros H N. assert (N' := handler_none _ _ _ _ H N). apply handler_lut in H. rewrite H, N' in G. apply orb_true_iff in G as [G|G]; apply PeanoNat.Nat.leb_le in G; auto.
Qed.
Lemma only_comma b b' v h : handler b v = Some h -> handler b' v = None -> num b' <= 1 -> h = N_SEQ.
Proof.
  assert (G : forallb (fun b => forallb (fun b' => forallb (fun t => match nth (token_index t) (LUT b) None with Some h => match nth (token_index t) (LUT b') None with None => negb (Nat.leb (num b') 1) || match h with N_SEQ => true | _ => false end | _ => true end | None => true end)%bool all_tokens) all_bps) all_bps = true) by (vm_compute; reflexivity).
  rewrite forallb_forall in G. specialize (G b (in_all_bps b)). cbv beta in G. rewrite forallb_forall in G. specialize (G b' (in_all_bps b')). cbv beta in G. rewrite forallb_forall in G. specialize (G (v_token v) (in_all_tokens _)). cbv beta in G.
  intros H N L. assert (N' := handler_none _ _ _ _ H N). apply handler_lut in H. rewrite H, N' in G. apply orb_true_iff in G as [G|G].
  - apply PeanoNat.Nat.leb_le in L. rewrite L in G. discriminate G.
  - destruct h; try discriminate G; reflexivity.
Qed.
(** What can follow an expression of level [m]; [o] as in the grammar. *)
Definition OK (v : view) (m : nat) (o : bool) : Prop := forall b h, handler b v = Some h -> need h <= m /\ (o = true -> h = N_SEQ).
Lemma need_17 h : need h <= 17.
Proof. destruct h; cbn; lia. Qed.
Lemma ok_top v m : 17 <= m -> OK v m false.
Proof. intros H b h _. split; [pose proof (need_17 h); lia|discriminate]. Qed.
Lemma ok_arrow v : handler BP_B0 v = None -> OK v 17 true.
Proof. intros H b h Hb. split; [apply need_17|]. intros _. exact (only_comma _ _ _ _ Hb H ltac:(cbn; lia)). Qed.
Lemma ok_right v b m n o : OK v m o -> handler b v = None -> 1 <= n -> num b <= n -> OK v n o.
Proof. intros H N L1 L2 b' h Hb. split; [destruct (level_below _ _ _ _ Hb N); lia|]. intros ->. exact (proj2 (H _ _ Hb) eq_refl). Qed.
Lemma ok_sequence v : handler BP_B0 v = None -> v_token v <> T_Comma -> OK v 0 false.
Proof. intros H N b h Hb. exfalso. rewrite (only_comma _ _ _ _ Hb H ltac:(cbn; lia)) in Hb. now apply pre_nested in Hb. Qed.
(** The first of the lexemes [l] is the token the parser was at. *)
Definition starts (v : view) (l : list lexeme) : Prop := exists s r, l = (v_token v, s) :: r \/ l = (T_LiteralRegEx, s) :: r.
Lemma starts_app v l l' : starts v l -> starts v (l ++ l').
Proof. intros (s & r & [-> | ->]); exists s, (r ++ l'); [left|right]; reflexivity. Qed.
Lemma starts_cons v l : starts v (lexeme_of v :: l).
Proof. unfold starts, lexeme_of. eexists _, l. left. reflexivity. Qed.
Lemma starts_not ts v l : starts v l -> ~ In (v_token v) ts -> ~ In T_LiteralRegEx ts -> not_first ts l.
Proof. intros (s & r & [-> | ->]) H1 H2; assumption. Qed.
(** An else cannot follow a statement that ends with an if without else. *)
Definition no_else (r : node statement) (v : view) : Prop := ends_open (n_item r) = true -> v_token v <> T_Else.
Definition read_expr (n : nat) (v : view) (r : node expression) (l : list lexeme) (v' : view) : Prop :=
  exists m o, n <= m /\ expr m o l (n_item r) /\ OK v' m o /\ starts v l.

(** ** What each method reads *)
Definition naming_of (k : namekind) : naming := match k with NK_Empty => Nameless | NK_Optional => MayBeNamed | NK_Mandatory => Named end.
Definition item_is {T : Set} (i : item T) : list lexeme -> T -> Prop := match i in item T return list lexeme -> T -> Prop with I_Statement => stmt | I_Member => member | I_Case => case_of end.
Definition items_are {T : Set} (i : item T) : list lexeme -> list (node T) -> Prop := match i in item T return list lexeme -> list (node T) -> Prop with I_Statement => statements | I_Member => members | I_Case => cases end.
Definition block_is {T : Set} (i : item T) : list lexeme -> block T -> Prop := match i in item T return list lexeme -> block T -> Prop with I_Statement => body_of | I_Member => class_body | I_Case => switch_body end.
Definition gpre {R : Set} (f : fn R) (v : view) : Prop :=
  match f with
  | F_expr_handler h => In (v_token v) (xtokens h)
  | F_stmt_handler h => In (v_token v) (stokens h)
  | F_nested_handler h _ => exists b, handler b v = Some h
  | F_sequence => handler BP_B0 v = None
  | F_expression c b => c = CtxDefault \/ b = BP_B0
  | F_unchecked_block _ | F_object | F_pattern_object | F_block_statement => on T_BraceOpen v
  | F_paren => on T_ParenOpen v
  | F_array | F_pattern_array => on T_BracketOpen v
  | F_regular_expression => on T_OperatorDivision v
  | F_template_string => on T_TemplateClosed v
  | F_template_literal => on T_TemplateOpen v
  | F_meta_property _ => on T_Accessor v
  | F_function_expression | F_function_statement => on T_Function v
  | F_class_expression | F_class_statement => on T_Class v
  | F_function NK_Empty | F_method => on T_ParenOpen v
  | F_rest_element => on T_OperatorSpread v
  | F_labeled_or_expression => on T_Identifier v
  | F_variable_declaration k | F_for_init k => In (v_token v, k) declarations
  | F_return => on T_Return v | F_break => on T_Break v | F_continue => on T_Continue v | F_throw => on T_Throw v | F_try => on T_Try v | F_catch => on T_Catch v
  | F_if => on T_If v | F_while => on T_While v | F_do => on T_Do v | F_for => on T_For v | F_switch => on T_Switch v | F_import => on T_Import v
  | _ => True
  end.
Definition value_of {A : Set} (r : node A) : A := n_item r.
Definition ending {T : Set} (xs : list (node T)) (v : view) : Prop := on T_BraceClose v \/ (xs <> [] /\ on T_EndOfProgram v).
Definition gpost {R : Set} (f : fn R) (v : view) : R -> list lexeme -> view -> Prop :=
  match f in fn R return R -> list lexeme -> view -> Prop with
  | F_parse => fun r l v' => statements l r /\ on T_EndOfProgram v'
  | F_block i => fun r l _ => block_is i l (n_item r)
  | F_unchecked_block i => fun r l _ => block_is i l (n_item r)
  | F_raw_block i => fun r l v' => items_are i l (b_body r) /\ ending (b_body r) v'
  | F_items i => fun r l v' => items_are i l r /\ (on T_BraceClose v' \/ on T_EndOfProgram v')
  | F_item i => fun r l v' => item_is i l (n_item r)
  | F_pattern_from_expression e => fun r l _ => l = [] /\ pattern_of (n_item e) (n_item r)
  | F_params_from_expressions es => fun r l _ => l = [] /\ patterns_of es r
  | F_nested b lf => fun r l v' => (handler b v = None -> l = [] /\ r = lf) /\ (forall m o l0, expr m o l0 (n_item lf) -> OK v m o -> ceil b <= m -> exists m' o', ceil b <= m' /\ expr m' o' (l0 ++ l) (n_item r) /\ OK v' m' o') /\ handler b v' = None
  | F_nested_handler h lf => fun r l v' => forall m o l0, expr m o l0 (n_item lf) -> OK v m o -> exists o', expr (lev h) o' (l0 ++ l) (n_item r) /\ OK v' (lev h) o'
  | F_sequence => fun r l v' => more_exprs l r /\ handler BP_B0 v' = None /\ v_token v' <> T_Comma
  | F_expr_handler h => fun r l v' =>
      match h with
      | X_VOID => l = [] /\ n_item r = E_Void /\ handler BP_B0 v' = None
      | X_SPRD => element l (n_item r) /\ handler BP_B0 v' = None
      | _ => read_expr 16 v r l v'
      end
  | F_expression c b => fun r l v' => match c with CtxDefault => read_expr (ceil b) v r l v' | CtxArray => hole_or_element l (n_item r) | CtxCall => element l (n_item r) end /\ handler b v' = None
  | F_arrow es => fun r l v' => exists o ps b, r = E_Arrow ps b /\ patterns_of es ps /\ arrow_to o l b /\ OK v' 17 o
  | F_call_arguments => fun r l v' => arguments l r /\ on T_ParenClose v'
  | F_call_arguments_rest => fun r l v' => more_arguments l r /\ on T_ParenClose v'
  | F_paren => fun r l v' => read_expr 16 v r l v'
  | F_prefix op => fun r l v' => exists e o, r = E_Prefix op e /\ expr 16 o l (n_item e) /\ OK v' 16 o
  | F_object => fun r l v' => read_expr 16 v r l v'
  | F_meta_property m => fun r l v' => v' = v /\ l = [] /\ exists p, r = E_MetaProperty m p /\ n_item p = bs "target" /\ v_accessor v = bs "target"
  | F_property_list => fun r l v' => properties l r /\ on T_BraceClose v'
  | F_property_list_rest => fun r l v' => more_properties l r /\ on T_BraceClose v'
  | F_property => fun r l _ => property_of l (n_item r)
  | F_property_value _ k => fun r l _ => forall l0, key l0 (n_item k) -> property_of (l0 ++ l) (n_item r)
  | F_array => fun r l v' => read_expr 16 v r l v'
  | F_array_elements => fun r l v' => elements l r /\ on T_BracketClose v'
  | F_array_elements_rest => fun r l v' => more_elements l r /\ on T_BracketClose v'
  | F_regular_expression => fun r l v' => read_expr 16 v r l v'
  | F_template_string => fun r l _ => template_of l (n_item r)
  | F_template_literal => fun r l _ => template_of l (n_item r) /\ starts v l
  | F_template_rest => fun r l _ => let '(qs, es, _) := r in template_of l (Template es qs)
  | F_function_expression => fun r l v' => read_expr 16 v r l v'
  | F_class_expression => fun r l v' => read_expr 16 v r l v'
  | F_name k => fun r l v' => name_of (naming_of k) l r
  | F_pattern => fun r l _ => pattern_is l (n_item r)
  | F_function k => fun r l _ => function (naming_of k) l r
  | F_method => fun r l _ => function Nameless l (n_item r)
  | F_class_member => fun r l _ => member l (n_item r)
  | F_class_member_value _ st kind k => fun r l _ => forall l0, member_name l0 st kind (n_item k) -> member (l0 ++ l) (n_item r)
  | F_class k => fun r l _ => class_of (naming_of k) l r
  | F_pattern_array => fun r l _ => pattern_is l (n_item r)
  | F_pattern_object => fun r l _ => pattern_is l (n_item r)
  | F_pattern_assign lf => fun r l _ => forall l0, pattern_is l0 (n_item lf) -> parameter (l0 ++ l) (n_item r)
  | F_pattern_array_element => fun r l _ => hole_or_pattern l (n_item r)
  | F_pattern_elements => fun r l v' => pattern_elements l r /\ on T_BracketClose v'
  | F_pattern_elements_rest => fun r l v' => more_patterns l r /\ on T_BracketClose v'
  | F_pattern_param => fun r l _ => parameter l (n_item r)
  | F_rest_element => fun r l _ => rest_parameter l (n_item r)
  | F_params => fun r l _ => parameters l r
  | F_params_rest => fun r l _ => more_parameters l r
  | F_stmt_handler _ => fun r l v' => stmt l (n_item r) /\ no_else r v'
  | F_switch_case => fun r l _ => case_of l (n_item r)
  | F_case_body _ => fun r l _ => statements l (fst r)
  | F_statement => fun r l v' => stmt l (n_item r) /\ no_else r v'
  | F_expect_semicolon => fun _ l _ => semi l
  | F_block_statement => fun r l v' => stmt l (n_item r) /\ no_else r v'
  | F_expression_statement e => fun r l v' => (forall m o l0, expr m o l0 (n_item e) -> OK v m o -> not_first [T_BraceOpen; T_Function; T_Class] l0 -> stmt (l0 ++ l) (n_item r)) /\ no_else r v'
  | F_labeled_or_expression => fun r l v' => stmt l (n_item r) /\ no_else r v'
  | F_function_statement => fun r l v' => stmt l (n_item r) /\ no_else r v'
  | F_class_statement => fun r l v' => stmt l (n_item r) /\ no_else r v'
  | F_variable_declaration _ => fun r l v' => stmt l (n_item r) /\ no_else r v'
  | F_declarator => fun r l _ => declarator_of l (n_item r)
  | F_declarators => fun r l _ => declarators l r
  | F_return => fun r l v' => stmt l (n_item r) /\ no_else r v'
  | F_break => fun r l v' => stmt l (n_item r) /\ no_else r v'
  | F_continue => fun r l v' => stmt l (n_item r) /\ no_else r v'
  | F_label => fun r l _ => exists l1 l2, l = l1 ++ l2 /\ label l1 (fst r) /\ semi l2
  | F_throw => fun r l v' => stmt l (n_item r) /\ no_else r v'
  | F_try => fun r l v' => stmt l (n_item r) /\ no_else r v'
  | F_catch => fun r l _ => handler_of l (Some r)
  | F_if => fun r l v' => stmt l (n_item r) /\ no_else r v'
  | F_while => fun r l v' => stmt l (n_item r) /\ no_else r v'
  | F_do => fun r l v' => stmt l (n_item r) /\ no_else r v'
  | F_for_init _ => fun r l _ => init_of l (n_item r)
  | F_for => fun r l v' => stmt l (n_item r) /\ no_else r v'
  | F_for_rest _ init => fun r l v' => no_else r v' /\ forall s1 s2 l0, match init with None => exists s3, l0 = [(T_Semicolon, s3)] | Some i => init_of l0 (n_item i) end -> stmt ((T_For, s1) :: (T_ParenOpen, s2) :: l0 ++ l) (n_item r)
  | F_for_in_from_parts _ lf rg => fun r l v' => no_else r v' /\ forall s1 s2 l0 o x, n_item lf = FI_Expression x -> expr 0 o l0 (E_Binary O_In x rg) -> stmt ((T_For, s1) :: (T_ParenOpen, s2) :: l0 ++ l) (n_item r)
  | F_for_in _ lf => fun r l v' => no_else r v' /\ forall s1 s2 s3 l0, init_of l0 (n_item lf) -> stmt ((T_For, s1) :: (T_ParenOpen, s2) :: l0 ++ (T_OperatorIn, s3) :: l) (n_item r)
  | F_for_of _ lf => fun r l v' => no_else r v' /\ forall s1 s2 l0, init_of l0 (n_item lf) -> stmt ((T_For, s1) :: (T_ParenOpen, s2) :: l0 ++ (T_Identifier, bs "of") :: l) (n_item r)
  | F_switch => fun r l v' => stmt l (n_item r) /\ no_else r v'
  | F_import => fun r l v' => stmt l (n_item r) /\ no_else r v'
  | F_import_rest _ specs has_next => fun r l _ => exists lm more q1 q2 source, l = lm ++ [(T_Identifier, bs "from"); (T_LiteralString, q1 :: source ++ [q2])] /\
      n_item r = St_Import (specs ++ more) source /\ if has_next then import_more lm more else lm = [] /\ more = []
  | F_import_specifiers => fun r l _ => imported l r
  end.

Inductive D {A : Type} (Q : A -> list lexeme -> view -> Prop) : list lexeme -> view -> P A -> Prop :=
| D_Ret acc v a : Q a acc v -> D Q acc v (Ret a)
| D_Look acc v k : D Q acc v (k v) -> D Q acc v (Look k)
| D_Consume acc v k : (forall v', vinv v' -> D Q (acc ++ [lexeme_of v]) v' k) -> D Q acc v (Consume k)
| D_Template acc v k : v_token v = T_BraceClose -> (forall v', vinv v' -> D Q acc v' k) -> D Q acc v (ReadTemplate k)
| D_Regex acc v k : v_token v = T_OperatorDivision -> (forall s v', vinv v' -> (v_token v' = T_LiteralRegEx -> s = v_text v') -> D Q acc v' (k s)) -> D Q acc v (ReadRegex k)
| D_Error acc v k : D Q acc v (PushError k)
| D_Abort acc v : D Q acc v Abort
| D_Call acc v (R : Set) (f : fn R) k : gpre f v -> (forall r l v', vinv v' -> gpost f v r l v' -> D Q (acc ++ l) v' (k r)) -> D Q acc v (Call f k).
Ltac clean := repeat match goal with
  | C : (is _ ?v && _)%bool = true |- _ => apply andb_true_iff in C; destruct C as [? ?]
  | C : (is _ ?v || is _ ?v)%bool = true |- _ => apply orb_true_iff in C
  | C : is _ _ = true |- _ => apply is_eq in C
  | C : str_eqb _ _ = true |- _ => apply str_eqb_eq in C
  end.
Ltac gon := unfold on; clean; unfold on in *; match goal with H : ?a |- ?a => exact H | H : v_token ?v = _ |- v_token ?v = _ => exact H end.
Ltac dstep :=
  match goal with
  | |- D _ _ _ (Ret _) => apply D_Ret
  | |- D _ _ _ (Look _) => apply D_Look
  | |- D _ _ _ (Consume _) => apply D_Consume; intros ?v ?Hi
  | |- D _ _ _ (ReadTemplate _) => apply D_Template; [solve [gon]|intros ?v ?Hi]
  | |- D _ _ _ (ReadRegex _) => apply D_Regex; [solve [gon]|intros ?s ?v ?Hi ?Hx]
  | |- D _ _ _ (PushError _) => apply D_Error
  | |- D _ _ _ Abort => apply D_Abort
  | |- D _ _ _ (Call _ _) => eapply D_Call; [try exact I; try (left; reflexivity); try (right; reflexivity); try solve [gon]|let r := fresh "r" in intros r ?l ?v ?Hi ?Hq; cbn [gpost n_item b_body] in *]
  | |- D _ _ _ ?p => let c := vcond p in let E := fresh "C" in destruct c eqn:E
  end.
Definition gbody {R : Set} (f : fn R) : Prop := forall v, vinv v -> gpre f v -> D (gpost f v) [] v (body R f).
Ltac go := let v := fresh "v" in let Hv := fresh "Hv" in let Hp := fresh "Hp" in intros v Hv Hp; cbn [gpre] in Hp; bodies; cbn [bind]; repeat (dstep; cbn [bind gpre app]); cbn [gpost n_item b_body].
Lemma lexeme_on v t : v_token v = t -> lexeme_of v = (t, match t with T_Accessor => v_accessor v | T_TemplateOpen | T_TemplateClosed => v_quasi v | _ => v_text v end).
Proof. unfold lexeme_of. now intros ->. Qed.
Ltac lexs := unfold on in *; repeat match goal with
  | H : v_token ?v = ?t |- context [lexeme_of ?v] => rewrite (lexeme_on v t H); cbv match
  | H : v_token ?v = ?t |- context [v_token ?v] => rewrite H
  | H : _ /\ _ |- _ => destruct H
  | H : exists _, _ |- _ => destruct H
  end.
(** The level that was asked for. *)
Ltac lower := unfold read_expr in *; repeat match goal with H : _ /\ _ |- _ => destruct H | H : exists _, _ |- _ => destruct H end;
  repeat match goal with L : ceil ?b <= ?m, H : expr ?m ?o ?l ?e |- _ => apply (x_weaker (ceil b) m o l e L) in H; clear L end;
  repeat match goal with H : expr (ceil ?b) _ _ _ |- _ => progress (cbn [ceil num] in H) end.
Ltac norm := rewrite <- ?app_assoc; cbn [app].
Create HintDb gram.
#[export] Hint Constructors atom semi closes name_of pattern_of params_of more_exprs element arguments more_arguments hole_or_element elements more_elements template_of arrow_to key property_of properties more_properties
  pattern_is parameter hole_or_pattern pattern_elements more_patterns parameters more_parameters rest_parameter function class_of class_body members member member_name member_key body_of statements stmt label declarators declarator_of
  init_of optional_init optional_expr handler_of finalizer_of switch_body cases case_of import_clause import_more imported import_name : gram.
#[export] Hint Resolve x_atom x_paren x_prefix x_postfix x_infix x_assign x_conditional x_sequence x_member x_computed x_new_target x_call x_array x_object x_template x_tagged x_function x_class x_arrow x_thunk ok_top ok_arrow ok_right starts_app starts_cons : gram.
Ltac fin := clean; lexs; lower; norm; repeat match goal with |- _ /\ _ => split end; cbn [In declarations prefix_operators]; try assumption; try reflexivity; try tauto; try discriminate;
  try solve [once (econstructor; eauto 3 with gram)].
