From Coq Require Import List NArith Bool Lia String.
From Coq.Strings Require Import Byte.
From Verif Require Import Bytes Token Tables Lexer Ast Prog Parser ProgFacts Structure LexEval Erase Valid.
From Verif Require Import Grammar SpecSyntax Sound SoundA SoundB.
Import ListNotations.
Open Scope nat_scope.
Open Scope list_scope.
Lemma pattern_cons l p : pattern_is l p -> l <> [].
Proof. intros H. destruct H; discriminate. Qed.
Lemma stop_next_b0 v nx l3 : handler BP_B0 v = None -> inv false v -> (l3 = [] /\ leads v nx) \/ (exists s, l3 = [(T_Semicolon, s)]) -> ends 1 (next l3 nx).
Proof.
  intros H (_ & R & _) [[-> L]|(s & ->)]; cbn [next]; [|apply ends_semi]. exact (stop_b0 v nx H R L).
Qed.
Lemma not_static v s r : is T_Static v = false -> not_first [T_Static] ((v_token v, s) :: r).
Proof. intros H [E|[]]. unfold is in H. rewrite <- E in H. discriminate H. Qed.
Lemma g_funcs (R : Set) (f : fn R) : match f with F_name _ | F_pattern | F_function _ | F_method | F_class_member | F_class_member_value _ _ _ _ | F_class _ | F_pattern_array | F_pattern_object | F_pattern_assign _ | F_pattern_array_element | F_pattern_elements
  | F_pattern_elements_rest | F_pattern_param | F_rest_element | F_params | F_params_rest => True | _ => False end -> gbody f.
Proof.
  intros Hf; destruct f; try contradiction Hf; try (match goal with k : namekind |- _ => destruct k end); go.
  all: fin. 
  1: congruence.
  1,2: apply fu_generator; [discriminate|assumption..].
  all: try st0; try apply starts_cons; try (left; discriminate).
  1: { rewrite (lexeme_word v0), (lexeme_word v1) by assumption. intros nx Hnx. apply (Hq nx Hnx [_; _; _]). apply mn_static. apply mk_get with (s := Word _ _); assumption. }
  1: { rewrite (lexeme_word v0), (lexeme_word v1) by assumption. intros nx Hnx. apply (Hq nx Hnx [_; _; _]). apply mn_static. apply mk_set with (s := Word _ _); assumption. }
  1: { rewrite (lexeme_word v0) by assumption. intros nx Hnx. apply (Hq nx Hnx [_; _]). apply mn_static. apply (mk_word _ (Word (v_text v0) (breaks v0))); auto. }
  1: { intros nx Hnx. apply (Hq nx Hnx [_; _]). apply mn_static. exact (mk_number (Word (v_text v0) (breaks v0)) true). }
  1: { intros nx Hnx. apply (Hq nx Hnx [_; _]). apply mn_static. exact (mk_binary (Word (v_text v0) (breaks v0)) true). }
  1: { intros nx Hnx. specialize (Hq0 nx Hnx ((T_Static, Word (v_text v) (breaks v)) :: (T_BracketOpen, Word (v_text v0) (breaks v0)) :: l ++ [(T_BracketClose, Word (v_text v2) (breaks v2))])). cbn [app] in Hq0. rewrite <- app_assoc in Hq0. apply Hq0. apply mn_static. eapply mk_computed; eassumption. }
  1: { rewrite (lexeme_word v), (lexeme_word v0) by assumption. intros nx Hnx. apply (Hq nx Hnx [_; _]). apply mn_plain; [apply mk_get with (s := Word _ _); assumption|now apply not_static]. }
  1: { rewrite (lexeme_word v), (lexeme_word v0) by assumption. intros nx Hnx. apply (Hq nx Hnx [_; _]). apply mn_plain; [apply mk_set with (s := Word _ _); assumption|now apply not_static]. }
  1: { rewrite (lexeme_word v) by assumption. intros nx Hnx. apply (Hq nx Hnx [_]). apply mn_plain; [|now apply not_static]. cbn [negb andb in_loc n_item].
    destruct (str_eqb (v_text v) (bs "constructor")) eqn:E.
    - apply str_eqb_eq in E. rewrite E. now apply mk_constructor.
    - apply (mk_word _ (Word (v_text v) (breaks v))); auto. right. intros F. apply str_eqb_eq in F. cbn [w_text] in F. congruence. }
  1: { intros nx Hnx. apply (Hq nx Hnx [_]). apply mn_plain; [exact (mk_number (Word (v_text v) (breaks v)) false)|cbn; intuition discriminate]. }
  1: { intros nx Hnx. apply (Hq nx Hnx [_]). apply mn_plain; [exact (mk_binary (Word (v_text v) (breaks v)) false)|cbn; intuition discriminate]. }
  1: { intros nx Hnx. specialize (Hq0 nx Hnx ((T_BracketOpen, Word (v_text v) (breaks v)) :: l ++ [(T_BracketClose, Word (v_text v1) (breaks v1))])). cbn [app] in Hq0. rewrite <- app_assoc in Hq0. apply Hq0. apply mn_plain; [eapply mk_computed; eassumption|cbn; intuition discriminate]. }
  1: { intros nx Hnx l0 H0. rewrite <- (app_nil_r l). apply mb_method; auto using os_none. }
  1: { intros nx Hnx l0 H0'. eapply mb_field; [eassumption|eassumption|constructor|apply ends_semi]. }
  1: { intros nx Hnx l0 H0'. rewrite <- (app_nil_r l). eapply mb_field; [eassumption|eassumption|constructor|]. match goal with X : handler BP_B0 v1 = None |- _ => exact (stop_next_b0 v1 nx [] X ltac:(assumption) (or_introl (conj eq_refl Hnx))) end. }
  1: { intros l0 H0'. eapply pm_default; eassumption. }
  1: { intros l0 H0'. rewrite app_nil_r. now apply pm_plain. }
  1: { apply hp_pattern. apply (Hq [_]). exact (pt_name (Word (v_text v) (breaks v))). }
  1,2: left; match goal with X : pattern_is ?l _ |- _ => apply pattern_cons in X; intros Q; apply app_eq_nil in Q as [Q _]; contradiction end.
  1: { apply pe_cons; [|assumption..]. intros Q. apply app_eq_nil in Q as [Q1 Q2]. repeat match goal with Y : _ \/ _ |- _ => destruct Y as [Y|Y]; [contradiction|] end. unfold is in C. subst v0. subst v1. match goal with Y : v_token v = _ |- _ => rewrite Y in C; discriminate C end. }
  1: { apply (Hq [_]). exact (pt_name (Word (v_text v) (breaks v))). }
  1,2: auto.
Qed.
