From Coq Require Import List NArith Bool Lia String.
From Coq.Strings Require Import Byte.
From Verif Require Import Bytes Token Tables Lexer Ast Prog Parser ProgFacts Structure LexEval Erase Valid.
From Verif Require Import Grammar SpecSyntax Sound SoundA.
Import ListNotations.
Open Scope nat_scope.
Open Scope list_scope.
Lemma leads_self v : leads v (lexeme_of v).
Proof. now left. Qed.
Lemma ending_closes {T : Set} (i : item T) (xs : list (node T)) v : ending i xs v -> closes xs (lexeme_of v).
Proof. unfold ending, on. intros [E|(N & E & _)]; rewrite (lexeme_on v _ E); cbv match; [apply cl_brace|now apply cl_end]. Qed.
Lemma or_is a b v : (is a v = true \/ is b v = true) -> v_token v = a \/ v_token v = b.
Proof. intros [H|H]; apply is_eq in H; auto. Qed.
Lemma starts_on v t s r : v_token v = t -> w_text s = w_text (word_of v) -> w_break s = breaks v -> starts v ((t, s) :: r).
Proof. intros E1 E2 E3. exists (t, s), r. split; [reflexivity|left]. unfold lexeme_of. destruct s as [a b]. cbn in *. now rewrite E1, E2, E3; unfold word_of; rewrite E1. Qed.
Lemma close_any {T : Set} (xs : list (node T)) v (Q : Prop) : v_token v = T_BraceClose \/ (xs <> [] /\ v_token v = T_EndOfProgram /\ Q) -> closes xs (lexeme_of v).
Proof. intros [E|(N & E & _)]; rewrite (lexeme_on v _ E); cbv match; [apply cl_brace|now apply cl_end]. Qed.
Ltac st0 := apply starts_on; [assumption|unfold word_of; cbn [w_text]; match goal with H : v_token ?v = _ |- context [v_token ?v] => rewrite H; reflexivity end|reflexivity].
Lemma g_blocks (R : Set) (f : fn R) : match f with F_block _ | F_unchecked_block _ | F_raw_block _ | F_items _ | F_item _ | F_parse => True | _ => False end -> gbody f.
Proof.
  intros Hf; destruct f; try contradiction Hf; try (match goal with i : item _ |- _ => destruct i end); go.
  all: unfold states in *; cbn [block_is items_are item_is after_item] in *.
  all: clean; lexs; unfold after_items, ending, after_item, case_end, on in *.
  all: repeat match goal with |- _ /\ _ => split end; try assumption; try reflexivity; try exact I; try (now apply starts_on).
  all: try (intros nx Hnx; solve [constructor]).
  all: try (left; split; reflexivity).
  all: try (left; assumption).
  all: try (right; apply starts_app; assumption).
  all: try (intros nx Hnx; constructor; [match goal with X : passes _ _ _, Y : forall nx, leads _ nx -> _ |- _ => apply Y; exact (passes_next _ _ _ _ X Hnx) end|auto]).
  all: try st0.
  all: try (destruct r as [xs]; cbn [b_body] in *; constructor; [match goal with X : forall nx, _ -> _ |- _ => exact (X _ (leads_self _)) end|match goal with X : _ \/ _ |- _ => exact (close_any xs _ _ X) end]).
  all: try (destruct r as [xs]; cbn [b_body] in *; match goal with X : _ \/ _ /\ _ /\ False, Y : forall nx, _ -> _ |- switch_body (_ :: _ ++ [lexeme_of ?v]) _ => specialize (Y _ (leads_self _)); destruct X as [X|(_ & _ & [])]; rewrite (lexeme_on v _ X) in *; constructor; exact Y end).
  all: try (match goal with X : _ \/ _ |- v_token ?v = _ \/ _ => apply or_is in X; intuition congruence end).
  all: try (match goal with X : v_token _ = T_BraceClose \/ _ |- _ => destruct X as [X|[X1 X2]]; [left; exact X|right; repeat split; [discriminate|assumption]] end).
  all: try (match goal with X : v_token ?v1 = T_BraceClose \/ _, Y : v_token _ = T_Case \/ _ |- _ => left; destruct X as [X|[X1 ->]]; [exact X|intuition congruence] end).
  all: try (match goal with X : v_token ?v1 = T_BraceClose \/ _ |- _ => destruct X as [X|[X1 X2]]; auto end).
Qed.
Lemma g_patterns (R : Set) (f : fn R) : match f with F_pattern_from_expression _ | F_params_from_expressions _ | F_nested _ _ | F_sequence => True | _ => False end -> gbody f.
Proof.
  intros Hf; destruct f; try contradiction Hf; go.
  all: fin. 
  all: try (eapply pre_nested; eassumption).
  - rewrite C. constructor.
  - subst. rewrite C. now constructor.
  - subst. reflexivity.
  - intros E; congruence.
  - intros _. subst l. eexists; reflexivity.
  - intros m o ly X K L. match goal with Y : forall m o l0, expr m o l0 (n_item left) -> _ |- _ => destruct (Y m o ly X K) as (o1 & X1 & K1) end. assert (L1 := level_above _ _ _ C). rewrite app_assoc.
    match goal with Y : forall m o l0, expr m o l0 (n_item r) -> _ |- _ => exact (Y _ _ _ X1 K1 L1) end.
  - intros m o ly X K L. exists m, o. rewrite app_nil_r. auto.
  - intros X. unfold is in C. rewrite X in C. discriminate C.
Qed.
Ltac tok := repeat match goal with H : ?a \/ ?b |- _ => destruct H as [H|H] | H : False |- _ => contradiction H end.
Ltac xr m o := exists m, o; split; [lia|]; split; [|split; [|solve [assumption | apply starts_cons | st0]]].
Lemma fresh_piece v t : inv false v -> v_token v = t -> is_template t = true -> v_text v = bs "`" ++ v_quasi v ++ closing t.
Proof. intros (_ & _ & H) <- E. exact (H E). Qed.
Lemma again_piece v t : inv true v -> v_token v = t -> is_template t = true -> v_text v = bs "}" ++ v_quasi v ++ closing t.
Proof. intros H <- E. exact (H E). Qed.
Lemma g_expr_handler h : gbody (F_expr_handler h).
Proof.
  destruct h; go.
  all: cbn [xtokens In] in Hp; try (destruct Hp as [Hp|Hp]; [|contradiction Hp]); try (apply eq_sym in Hp). 
  all: fin. 
  all: try (eauto 9; fail).
  all: try (xr 18 false; [apply x_atom; constructor|apply ok_top; lia]).
  - subst. rewrite (lexeme_on _ _ C). cbv match. xr 18 false; [|apply ok_top; lia]. now apply x_new_target.
  - subst. match goal with X : expr 16 ?o _ _ |- _ => xr 16 o; [|assumption] end. apply x_prefix; [cbn; tauto|assumption].
  - subst. match goal with X : expr 16 ?o _ _ |- _ => xr 16 o; [|assumption] end. unfold lexeme_of. tok; destruct (v_token v); try discriminate Hp; injection C as <-; apply x_prefix; try assumption; cbn; tauto.
  - subst l. xr 18 false; [|apply ok_top; lia]. now apply x_template.
  - xr 18 false; [|apply ok_top; lia]. apply x_template. apply (tm_last (bs "`") _ (in_loc v (v_quasi v))). exact (fresh_piece _ _ Hv Hp eq_refl).
  - unfold handler. tok; rewrite <- Hp; destruct (v_asi v); try reflexivity; destruct (_ || _)%bool; reflexivity.
  - eapply el_spread. eassumption.
  - st0.
Qed.
Lemma ceil_16 b : ceil b <= 16.
Proof. destruct b; cbn; lia. Qed.
Lemma nested_read b v v0 r l r0 l0 v1 : read_expr 16 v r l v0 ->
  (forall m o l0', expr m o l0' (n_item r) -> OK v0 m o -> ceil b <= m -> exists m' o', ceil b <= m' /\ expr m' o' (l0' ++ l0) (n_item r0) /\ OK v1 m' o') -> read_expr (ceil b) v r0 (l ++ l0) v1.
Proof.
  intros (m & o & L & X & K & B) H. assert (L2 := ceil_16 b). destruct (H m o l X K ltac:(lia)) as (m' & o' & L' & X' & K'). exists m', o'. auto using starts_app.
Qed.
Lemma g_expression c b : gbody (F_expression c b).
Proof.
  go. 
  - apply memb_in, pre_expr.
  - destruct Hq0 as (H & _ & N & E). split; [|exact E]. destruct c.
    + destruct (default_handler v) as [N1 N2]. refine (nested_read _ _ v0 _ _ _ _ _ _ N). destruct (bound_handler CtxDefault v); try congruence; exact Hq.
    + destruct Hp as [Hp|Hp]; [discriminate Hp|subst b]. assert (G : (l = [] /\ n_item r = E_Void /\ handler BP_B0 v0 = None /\ v0 = v) \/ (element l (n_item r) /\ handler BP_B0 v0 = None /\ starts v l) \/ read_expr 16 v r l v0).
      { destruct (bound_handler CtxArray v); auto. }
      destruct G as [(E1 & E2 & E3 & E4)|[(E1 & E3 & E4)|G]].
      * destruct (H E3) as (-> & -> & ->). subst l v0. rewrite E2. split; [constructor|now left].
      * destruct (H E3) as (-> & -> & ->). rewrite app_nil_r. split; [now constructor|now right].
      * destruct (nested_read _ _ _ _ _ _ _ _ G N) as (m & o & L & X & _ & S1). split; [|now right]. apply he_element. apply (el_expr o). exact (x_weaker _ _ _ _ _ L X).
    + destruct Hp as [Hp|Hp]; [discriminate Hp|subst b]. assert (G : (element l (n_item r) /\ handler BP_B0 v0 = None /\ starts v l) \/ read_expr 16 v r l v0).
      { pose proof (call_handler v) as N'. destruct (bound_handler CtxCall v); auto. now contradiction N'. }
      destruct G as [(E1 & E3 & _)|G].
      * destruct (H E3) as (-> & -> & ->). now rewrite app_nil_r.
      * destruct (nested_read _ _ _ _ _ _ _ _ G N) as (m & o & L & X & _). apply (el_expr o). exact (x_weaker _ _ _ _ _ L X).
Qed.
Lemma lexeme_word v : is_word (v_token v) = true -> lexeme_of v = (v_token v, Word (v_text v) (breaks v)).
Proof. unfold lexeme_of, word_of. destruct (v_token v); try reflexivity; discriminate. Qed.
Lemma g_exprs (R : Set) (f : fn R) : match f with F_arrow _ | F_call_arguments | F_call_arguments_rest | F_paren | F_prefix _ | F_object | F_meta_property _ | F_property_list | F_property_list_rest | F_property | F_property_value _ _ | F_array | F_array_elements | F_array_elements_rest
  | F_regular_expression | F_template_string | F_template_literal | F_template_rest | F_function_expression | F_class_expression => True | _ => False end -> gbody f.
Proof.
  intros Hf; destruct f; try contradiction Hf; go.
  all: fin. 
  - exists false, r, (AB_Block r0). subst l. split; [reflexivity|]. split; [assumption|]. split; [now apply to_block|apply ok_top; lia].
  - subst l. match goal with X : expr 1 ?o _ _ |- _ => exists true, r, (AB_Expression r0); split; [reflexivity|]; split; [assumption|]; split; [apply (to_expr o); [exact X|]|now apply ok_arrow] end.
    apply (starts_not _ v0); [assumption| |cbn; intuition discriminate]. intros [E|[]]. unfold is in C. rewrite <- E in C. discriminate C.
  - subst r. match goal with X : patterns_of [] _ |- _ => inversion X; subst end. match goal with X : arrow_to ?o _ _ |- _ => xr 17 o; [now apply x_thunk|assumption] end.
  - xr 18 false; [|apply ok_top; lia]. eapply x_paren. eassumption.
  - match goal with X : expr 16 ?o _ _ |- _ => exists r, o; split; [reflexivity|]; split; [exact X|] end. eapply ok_right; [eassumption|eassumption|lia|cbn [num]; lia].
  - xr 18 false; [|apply ok_top; lia]. now apply x_object.
  - rewrite (lexeme_word v C). apply (Hq [_]). exact (ke_word _ (Word (v_text v) (breaks v)) C).
  - rewrite (lexeme_word v C). exact (pr_shorthand _ (Word (v_text v) (breaks v)) C).
  - apply (Hq [_]). apply or_is in C1. destruct C1 as [E|E]; rewrite (lexeme_on v _ E); [exact (ke_string (Word (v_text v) (breaks v)))|exact (ke_number (Word (v_text v) (breaks v)))].
  - apply (Hq [_]). exact (ke_binary (Word (v_text v) (breaks v))).
  - specialize (Hq0 ((T_BracketOpen, Word (v_text v) (breaks v)) :: l ++ [(T_BracketClose, Word (v_text v1) (breaks v1))])). cbn [app] in Hq0. rewrite <- app_assoc in Hq0. apply Hq0. eapply ke_computed; eassumption.
  - xr 18 false; [|apply ok_top; lia]. now apply x_array.
  - apply es_cons; [|assumption..]. intros Q. apply app_eq_nil in Q as [Q1 Q2]. match goal with X : passes _ _ _ |- _ => destruct X as [[_ X]|(? & ? & X & _)]; [|congruence] end.
    match goal with Y : _ \/ _ |- _ => destruct Y as [Y|Y]; [contradiction|] end. unfold is in C. subst v0. subst v1. match goal with Y : v_token v = _ |- _ => rewrite Y in C; discriminate C end.
  - left. discriminate.
  - exists 18, false. split; [lia|]. split; [|split; [apply ok_top; lia|]].
    + cbn [n_item]. rewrite (Hx C). exact (x_atom _ _ _ (at_regex (Word (v_text v0) (breaks v0)))).
    + exists (T_LiteralRegEx, Word (v_text v0) (breaks v0)), []. split; [reflexivity|]. right. auto.
  - apply (tm_last (bs "`") _ (in_loc v (v_quasi v))). exact (fresh_piece _ _ Hv Hp eq_refl).
  - eapply (tm_more (bs "`") _ _ _ _ (in_loc v (v_quasi v))); [exact (fresh_piece _ _ Hv Hp eq_refl)|eassumption|assumption].
  - eapply (tm_more (bs "}") _ _ _ _ (in_loc v (v_quasi v))); [exact (again_piece _ _ Hv C eq_refl)|eassumption|assumption].
  - apply (tm_last (bs "}") _ (in_loc v (v_quasi v))). exact (again_piece _ _ Hv C0 eq_refl).
  - xr 18 false; [|apply ok_top; lia]. now apply x_function.
  - xr 18 false; [|apply ok_top; lia]. now apply x_class.
Qed.
