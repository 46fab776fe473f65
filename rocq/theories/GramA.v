From Coq Require Import List NArith Bool Lia String.
From Coq.Strings Require Import Byte.
From Verif Require Import Bytes Token Tables Lexer Ast Prog Parser ProgFacts Structure LexEval SpecGrammar Erase Valid Grammar.
Import ListNotations.
Open Scope nat_scope.
Open Scope list_scope.
Lemma expr_no_spread n o l e : expr n o l e -> match e with E_Spread _ => False | _ => True end.
Proof. induction 1; try exact I; try assumption. destruct H; exact I. Qed.
Lemma template_cons l t : template_of l t -> exists t s r, l = (t, s) :: r /\ t <> T_Identifier.
Proof. intros H. destruct H; do 3 eexists; (split; [reflexivity|discriminate]). Qed.
Lemma expr_cons n o l e : expr n o l e -> l <> [].
Proof.
  induction 1; try assumption; try discriminate; try (intros Q; apply app_eq_nil in Q as [? ?]; congruence).
  apply template_cons in H as (? & ? & ? & -> & _). discriminate.
Qed.
Lemma expr_lvalue n o l e : expr n o l e -> is_lvalue e = true -> expr 17 false l e.
Proof.
  induction 1; intros L; try discriminate L; auto; try (match goal with |- expr 17 false ?l ?e => apply (x_weaker 17 18 false l e); [lia|] end; solve [eauto with gram]).
  all: eauto with gram.
Qed.
Lemma expr_assignable n o l e : expr n o l e -> is_lvalue e = true -> assignable e.
Proof. intros H L. apply expr_no_spread in H. unfold assignable. destruct e; try discriminate L; try contradiction H; eauto 10. Qed.
Lemma ok_needs b v h m o : handler b v = Some h -> OK v m o -> h <> N_SEQ -> need h <= m /\ o = false.
Proof. intros H K N. destruct (K _ _ H) as [K1 K2]. split; [exact K1|]. destruct o; [exfalso; auto|reflexivity]. Qed.
Lemma g_nested_handler h lf : gbody (F_nested_handler h lf).
Proof.
  destruct h; go; destruct Hp as [b0 Hp]; assert (Ho := pre_nested _ _ _ Hp); cbn [ntoken] in Ho. all: try (intros m o ?l ?H K; try (apply (ok_needs _ _ _ _ _ Hp) in K; [destruct K as [K ->]; cbn [need] in K|discriminate])).
  all: fin. 
  all: cbn [lev need] in *.
  all: try (match goal with E : expr ?n ?o ?l (n_item ?r) |- exists o', expr _ _ _ (E_Binary _ _ ?r) /\ _ => exists o end; split;
    [first [eapply x_infix; [cbn; tauto|match type of K with _ <= ?m => match goal with H : expr m _ ?l _ |- _ => apply (x_weaker _ m _ l _ K H) end end|eassumption]
           |eapply x_assign; [cbn; tauto|eapply expr_assignable; eassumption|eapply expr_lvalue; eassumption|eassumption]]
    |eapply ok_right; [eassumption|eassumption|lia|cbn [num]; lia]]).
  all: try (exists false; split; [first
    [eapply x_postfix; [cbn; tauto|eapply expr_assignable; eassumption|eapply expr_lvalue; eassumption]
    |eapply x_call; [match type of K with _ <= ?m => match goal with H : expr m _ ?l _ |- _ => apply (x_weaker _ m _ l _ K H) end end|assumption]
    |eapply x_computed; [match type of K with _ <= ?m => match goal with H : expr m _ ?l _ |- _ => apply (x_weaker _ m _ l _ K H) end end|eassumption]
    |eapply x_tagged; [match type of K with _ <= ?m => match goal with H : expr m _ ?l _ |- _ => apply (x_weaker _ m _ l _ K H) end end|assumption]
    |apply (x_member _ lf (in_loc v0 (v_accessor v))); match type of K with _ <= ?m => match goal with H : expr m _ ?l _ |- _ => apply (x_weaker _ m _ l _ K H) end end]|apply ok_top; lia]).
  - exists false. split; [|now apply ok_sequence]. match goal with K : OK v _ _ |- _ => destruct (K _ _ Hp) as [K1 _] end. cbn [need] in K1.
    match goal with X : expr m o l1 _ |- _ => apply (x_weaker _ _ _ _ _ K1) in X; apply (x_sequence o _ _ lf (r :: r0) X) end; [discriminate|]. now apply (me_cons x0).
  - subst r. match goal with X : arrow_to ?o _ _ |- _ => exists o end. split; [|assumption]. eapply x_arrow; [match type of K with _ <= ?m => match goal with H : expr m _ ?l _ |- _ => apply (x_weaker _ m _ l _ K H) end end| |eassumption].
    match goal with X : patterns_of _ _ |- _ => rename X into Hpat end.
    destruct (n_item lf) eqn:En; try (apply pa_many; assumption).
    all: inversion Hpat as [|? p ? ps Hp1 Hp2]; subst; inversion Hp2; subst; rewrite En in Hp1; now apply pa_one.
  - eexists. split; [eapply x_conditional; [match type of K with _ <= ?m => match goal with H : expr m _ ?l _ |- _ => apply (x_weaker _ m _ l _ K H) end end|eassumption|eassumption]|].
    eapply ok_right; [eassumption|eassumption|lia|cbn [num]; lia].
Qed.
Lemma ending_closes {T : Set} (xs : list (node T)) v : ending xs v -> closes xs (lexeme_of v).
Proof. unfold ending, on. intros [E|[N E]]; rewrite (lexeme_on v _ E); cbv match; [apply cl_brace|now apply cl_end]. Qed.
Lemma or_is a b v : (is a v = true \/ is b v = true) -> v_token v = a \/ v_token v = b.
Proof. intros [H|H]; apply is_eq in H; auto. Qed.
Lemma g_blocks (R : Set) (f : fn R) : match f with F_block _ | F_unchecked_block _ | F_raw_block _ | F_items _ | F_item _ | F_parse => True | _ => False end -> gbody f.
Proof.
  intros Hf; destruct f; try contradiction Hf; try (match goal with i : item _ |- _ => destruct i end); go.
  all: fin.
  all: try (destruct r as [xs]; cbn [b_body] in *; constructor; [assumption|now apply ending_closes]).
  all: try (apply or_is; assumption).
  all: match goal with H : on T_BraceClose ?v \/ _ |- _ => destruct H as [H|H]; [left; exact H|right; split; [discriminate|exact H]] | H : v_token _ = _ \/ _ |- _ => destruct H as [H|H]; [left; exact H|right; split; [discriminate|exact H]] end.
Qed.
Lemma g_patterns (R : Set) (f : fn R) : match f with F_pattern_from_expression _ | F_params_from_expressions _ | F_nested _ _ | F_sequence => True | _ => False end -> gbody f.
Proof.
  intros Hf; destruct f; try contradiction Hf; go.
  all: fin. 
  all: try (eapply pre_nested; eassumption).
  - rewrite C. constructor.
  - subst. rewrite C. now constructor.
  - subst. reflexivity.
  - intros E; congruence.
  - intros m o l1 X K L. destruct (Hq m o l1 X K) as (o1 & X1 & K1). assert (L1 := level_above _ _ _ C). rewrite app_assoc.
    match goal with Y : forall m o l0, expr m o l0 (n_item r) -> _ |- _ => exact (Y _ _ _ X1 K1 L1) end.
  - intros m o l0 X K L. exists m, o. rewrite app_nil_r. auto.
  - intros X. unfold is in C. rewrite X in C. discriminate C.
Qed.
Ltac tok := repeat match goal with H : ?a \/ ?b |- _ => destruct H as [H|H] | H : False |- _ => contradiction H end.
Lemma starts_on v t s r : v_token v = t -> starts v ((t, s) :: r).
Proof. intros <-. exists s, r. now left. Qed.
Ltac xr m o := exists m, o; split; [lia|]; split; [|split; [|solve [assumption | apply starts_cons | apply starts_on; assumption]]].
Lemma g_expr_handler h : gbody (F_expr_handler h).
Proof.
  destruct h; go.
  all: cbn [xtokens In] in Hp; try (destruct Hp as [Hp|Hp]; [|contradiction Hp]); try (apply eq_sym in Hp). 
  all: fin. 
  all: try (eauto 9; fail).
  all: try (xr 18 false; [apply x_atom; constructor|apply ok_top; lia]).
  - subst. rewrite (lexeme_on _ _ C). cbv match. xr 18 false; [|apply ok_top; lia]. match goal with E : v_accessor _ = bs "target" |- _ => rewrite E end. now apply x_new_target.
  - subst. match goal with X : expr 16 ?o _ _ |- _ => xr 16 o; [|assumption] end. apply x_prefix; [cbn; tauto|assumption].
  - subst. match goal with X : expr 16 ?o _ _ |- _ => xr 16 o; [|assumption] end. unfold lexeme_of. tok; destruct (v_token v); try discriminate Hp; injection C as <-; apply x_prefix; try assumption; cbn; tauto.
  - xr 18 false; [|apply ok_top; lia]. now apply x_template.
  - xr 18 false; [|apply ok_top; lia]. apply x_template. exact (tm_last (in_loc v (v_quasi v))).
  - unfold handler. tok; rewrite <- Hp; destruct (v_asi v); try reflexivity; destruct (_ || _)%bool; reflexivity.
  - eapply el_spread. eassumption.
Qed.
Lemma ceil_16 b : ceil b <= 16.
Proof. destruct b; cbn; lia. Qed.
Lemma nested_read b v v0 r l r0 l0 v1 : read_expr 16 v r l v0 ->
  (forall m o l0', expr m o l0' (n_item r) -> OK v0 m o -> ceil b <= m -> exists m' o', ceil b <= m' /\ expr m' o' (l0' ++ l0) (n_item r0) /\ OK v1 m' o') -> read_expr (ceil b) v r0 (l ++ l0) v1.
Proof.
  intros (m & o & L & X & K & B) H. assert (L2 := ceil_16 b). destruct (H m o l X K ltac:(lia)) as (m' & o' & L' & X' & K'). exists m', o'. auto using starts_app.
Qed.
Lemma g_expression c b : gbody (F_expression c b).
Proof.
  go. 
  - apply memb_in, pre_expr.
  - destruct Hq0 as (H & N & E). split; [|exact E]. destruct c.
    + destruct (default_handler v) as [N1 N2]. refine (nested_read _ _ v0 _ _ _ _ _ _ N). destruct (bound_handler CtxDefault v); try congruence; exact Hq.
    + destruct Hp as [Hp|Hp]; [discriminate Hp|subst b]. assert (G : (exists e, l = [] /\ n_item r = E_Void /\ handler BP_B0 v0 = None /\ e = tt) \/ (element l (n_item r) /\ handler BP_B0 v0 = None) \/ read_expr 16 v r l v0).
      { destruct (bound_handler CtxArray v); auto. left. exists tt. tauto. }
      destruct G as [(e & E1 & E2 & E3 & _)|[[E1 E3]|G]].
      * destruct (H E3) as [-> ->]. subst l. rewrite E2. constructor.
      * destruct (H E3) as [-> ->]. rewrite app_nil_r. now constructor.
      * destruct (nested_read _ _ _ _ _ _ _ _ G N) as (m & o & L & X & _). apply he_element. apply (el_expr o). exact (x_weaker _ _ _ _ _ L X).
    + destruct Hp as [Hp|Hp]; [discriminate Hp|subst b]. assert (G : (element l (n_item r) /\ handler BP_B0 v0 = None) \/ read_expr 16 v r l v0).
      { pose proof (call_handler v) as N'. destruct (bound_handler CtxCall v); auto. now contradiction N'. }
      destruct G as [[E1 E3]|G].
      * destruct (H E3) as [-> ->]. now rewrite app_nil_r.
      * destruct (nested_read _ _ _ _ _ _ _ _ G N) as (m & o & L & X & _). apply (el_expr o). exact (x_weaker _ _ _ _ _ L X).
Qed.
Lemma lexeme_word v : is_word (v_token v) = true -> lexeme_of v = (v_token v, v_text v).
Proof. unfold lexeme_of. destruct (v_token v); try reflexivity; discriminate. Qed.
Lemma g_exprs (R : Set) (f : fn R) : match f with F_arrow _ | F_call_arguments | F_call_arguments_rest | F_paren | F_prefix _ | F_object | F_meta_property _ | F_property_list | F_property_list_rest | F_property | F_property_value _ _ | F_array | F_array_elements | F_array_elements_rest
  | F_regular_expression | F_template_string | F_template_literal | F_template_rest | F_function_expression | F_class_expression => True | _ => False end -> gbody f.
Proof.
  intros Hf; destruct f; try contradiction Hf; go.
  all: fin. 
  - exists false, r, (AB_Block r0). subst l. split; [reflexivity|]. split; [assumption|]. split; [now apply to_block|apply ok_top; lia].
  - subst l. match goal with X : expr 1 ?o _ _ |- _ => exists true, r, (AB_Expression r0); split; [reflexivity|]; split; [assumption|]; split; [apply (to_expr o); [exact X|]|now apply ok_arrow] end.
    apply (starts_not _ v0); [assumption| |cbn; intuition discriminate]. intros [E|[]]. unfold is in C. rewrite <- E in C. discriminate C.
  - subst r. match goal with X : patterns_of [] _ |- _ => inversion X; subst end. match goal with X : arrow_to ?o _ _ |- _ => xr 17 o; [now apply x_thunk|assumption] end.
  - xr 18 false; [|apply ok_top; lia]. eapply x_paren. eassumption.
  - match goal with X : expr 16 ?o _ _ |- _ => exists r, o; split; [reflexivity|]; split; [exact X|] end. eapply ok_right; [eassumption|eassumption|lia|cbn [num]; lia].
  - xr 18 false; [|apply ok_top; lia]. now apply x_object.
  - rewrite (lexeme_word v C). apply (Hq [_]). now constructor.
  - rewrite (lexeme_word v C). apply (pr_shorthand _ _ C).
  - apply (Hq [_]). apply or_is in C1. destruct C1 as [E|E]; rewrite (lexeme_on v _ E); [apply ke_string|apply ke_number].
  - apply (Hq [_]). apply ke_binary.
  - specialize (Hq0 ((T_BracketOpen, v_text v) :: l ++ [(T_BracketClose, v_text v1)])). cbn [app] in Hq0. rewrite <- app_assoc in Hq0. apply Hq0. eapply ke_computed; eassumption.
  - xr 18 false; [|apply ok_top; lia]. now apply x_array.
  - exists 18, false. split; [lia|]. split; [|split; [apply ok_top; lia|eexists _, _; right; reflexivity]]. cbn [n_item]. rewrite (Hx C). apply x_atom; constructor.
  - exact (tm_last (in_loc v (v_quasi v))).
  - exact (tm_more _ _ _ (in_loc v (v_quasi v)) _ _ _ ltac:(eassumption) ltac:(eassumption)).
  - now apply starts_on.
  - exact (tm_more _ _ _ (in_loc v (v_quasi v)) _ _ _ ltac:(eassumption) ltac:(eassumption)).
  - exact (tm_last (in_loc v (v_quasi v))).
  - xr 18 false; [|apply ok_top; lia]. now apply x_function.
  - xr 18 false; [|apply ok_top; lia]. now apply x_class.
Qed.
