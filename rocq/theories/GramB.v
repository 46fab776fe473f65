From Coq Require Import List NArith Bool Lia String.
From Coq.Strings Require Import Byte.
From Verif Require Import Bytes Token Tables Lexer Ast Prog Parser ProgFacts Structure LexEval SpecGrammar Erase Valid Grammar GramA.
Import ListNotations.
Open Scope nat_scope.
Open Scope list_scope.
Lemma g_funcs (R : Set) (f : fn R) : match f with F_name _ | F_pattern | F_function _ | F_method | F_class_member | F_class_member_value _ _ _ _ | F_class _ | F_pattern_array | F_pattern_object | F_pattern_assign _ | F_pattern_array_element | F_pattern_elements
  | F_pattern_elements_rest | F_pattern_param | F_rest_element | F_params | F_params_rest => True | _ => False end -> gbody f.
Proof.
  intros Hf; destruct f; try contradiction Hf; try (match goal with k : namekind |- _ => destruct k end); go.
  all: fin. 
  1: exact (nm_some (in_loc v (v_text v))).
  1: exact (nm_name (in_loc v (v_text v))).
  1: congruence.
  1,2: apply fu_generator; [discriminate|assumption..].
  1: { rewrite (lexeme_word v0), (lexeme_word v1) by assumption. apply (Hq [_; _; _]). apply mn_static. rewrite C2. now apply mk_get. }
  1: { rewrite (lexeme_word v0), (lexeme_word v1) by assumption. apply (Hq [_; _; _]). apply mn_static. rewrite C3. now apply mk_set. }
  1: { rewrite (lexeme_word v0) by assumption. apply (Hq [_; _]). apply mn_static. apply mk_word; auto. }
  1: { apply (Hq [_; _]). apply mn_static. apply mk_number. }
  1: { apply (Hq [_; _]). apply mn_static. apply mk_binary. }
  1: { specialize (Hq0 ((T_Static, v_text v) :: (T_BracketOpen, v_text v0) :: l ++ [(T_BracketClose, v_text v2)])). cbn [app] in Hq0. rewrite <- app_assoc in Hq0. apply Hq0. apply mn_static. eapply mk_computed; eassumption. }
  1: { rewrite (lexeme_word v), (lexeme_word v0) by assumption. apply (Hq [_; _]). apply mn_plain. rewrite C2. now apply mk_get. }
  1: { rewrite (lexeme_word v), (lexeme_word v0) by assumption. apply (Hq [_; _]). apply mn_plain. rewrite C3. now apply mk_set. }
  1: { rewrite (lexeme_word v) by assumption. apply (Hq [_]). apply mn_plain. cbn [negb andb in_loc n_item].
    destruct (str_eqb (v_text v) (bs "constructor")) eqn:E.
    - apply str_eqb_eq in E. rewrite E. now apply mk_constructor.
    - apply mk_word; auto. right. intros F. apply str_eqb_eq in F. congruence. }
  1: { apply (Hq [_]). apply mn_plain. apply mk_number. }
  1: { apply (Hq [_]). apply mn_plain. apply mk_binary. }
  1: { specialize (Hq0 ((T_BracketOpen, v_text v) :: l ++ [(T_BracketClose, v_text v1)])). cbn [app] in Hq0. rewrite <- app_assoc in Hq0. apply Hq0. apply mn_plain. eapply mk_computed; eassumption. }
  1: { intros l0 H0. rewrite <- (app_nil_r l). apply mb_method; auto using se_none. }
  1: { intros l0 H0'. rewrite <- (app_nil_r l). eapply mb_field; eauto using se_none. }
  1: { intros l0 H0'. eapply pm_default; eassumption. }
  1: { intros l0 H0'. rewrite app_nil_r. now apply pm_plain. }
  1: { apply hp_pattern. apply (Hq [_]). apply pt_name. }
  1: { apply (Hq [_]). apply pt_name. }
  1,2: auto.
  1: exact (rp_rest _ _ (in_loc v0 (v_text v0))).
Qed.
Lemma not_first_app n o ts e l l' : expr n o l e -> not_first ts l -> not_first ts (l ++ l').
Proof. intros X. apply expr_cons in X. destruct l as [|[t s] l]; [now contradiction X|auto]. Qed.
Lemma g_stmts (R : Set) (f : fn R) : match f with F_switch_case | F_case_body _ | F_statement | F_expect_semicolon | F_block_statement | F_expression_statement _ | F_labeled_or_expression | F_function_statement | F_class_statement
  | F_variable_declaration _ | F_declarator | F_declarators | F_return | F_break | F_continue | F_label | F_throw | F_try | F_catch | F_if | F_while | F_do | F_for_init _ | F_switch => True | _ => False end -> gbody f.
Proof.
  intros Hf; destruct f; try contradiction Hf; go.
  all: fin. 
  all: unfold no_else; cbn [n_item ends_open]; try discriminate; try assumption.
  - apply memb_in, pre_stmt.
  - rewrite (lexeme_on v _ (Hv C)). constructor.
  - apply st_block. destruct r as [xs]. constructor; [assumption|now apply ending_closes].
  - intros m o l1 X K F. rewrite app_assoc. match goal with Y : forall m o l0, expr m o l0 (n_item e) -> _ |- _ => destruct (Y m o l1 X K ltac:(cbn; lia)) as (m' & o' & _ & X' & K') end.
    apply (st_expression o'); [apply (x_weaker _ m'); [lia|exact X']| |assumption]. now apply (not_first_app m o _ (n_item e)).
  - match goal with Y : forall m o l0, expr m o l0 (n_item (in_loc v _)) -> _ |- _ => destruct (Y 18 false [(T_Identifier, v_text v)] ltac:(apply x_atom; constructor) ltac:(apply ok_top; lia) ltac:(cbn; lia)) as (m' & o' & _ & X' & K') end.
    apply (st_expression o' (_ :: _)); [apply (x_weaker _ m'); [lia|exact X']| |assumption]. cbn. intuition discriminate.
  - rewrite (lexeme_on v0 _ (Hi C)). apply st_return. constructor.
  - subst l. now apply st_break.
  - subst l. now apply st_continue.
  - exists [], [lexeme_of v]. rewrite (lexeme_on v _ (Hv C)). repeat split; constructor.
  - exists [], []. repeat split; constructor.
  - exists [(T_Identifier, v_text v)], l. repeat split; [|assumption]. exact (la_some (in_loc v (v_text v))).
  - apply st_try; try assumption; [now constructor|left; discriminate].
  - rewrite <- (app_nil_r l0). apply st_try; try assumption; [now constructor|left; discriminate].
  - apply (st_try _ l []); try assumption; [constructor|now constructor|right; discriminate].
  - eapply st_if_else; try eassumption. unfold no_else in *. destruct (ends_open (n_item r0)); [|reflexivity]. exfalso. match goal with X : true = true -> _ |- _ => exact (X eq_refl ltac:(assumption)) end.
  - intros _ E. unfold is in C1. rewrite E in C1. discriminate C1.
Qed.
Lemma g_stmt_handler h : gbody (F_stmt_handler h).
Proof.
  destruct h; go.
  all: cbn [xtokens stokens In] in Hp; try (destruct Hp as [Hp|Hp]; [|contradiction Hp]); try (apply eq_sym in Hp). 
  all: fin.
  all: try (unfold no_else; cbn [n_item in_loc ends_open]; discriminate).
  all: match goal with Y : forall m o l0, expr m o l0 (n_item ?r) -> _, X : expr ?m ?o ?l (n_item ?r) |- _ => apply (Y m o l X); [assumption|] end.
  all: apply (starts_not _ v); [assumption| |cbn; intuition discriminate].
  all: tok; intros [Q|[Q|[Q|[]]]]; congruence.
Qed.
