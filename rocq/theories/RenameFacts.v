(** The grammar does not depend on names. *)
From Coq Require Import List NArith Bool Lia String.
From Coq.Strings Require Import Byte.
From Verif Require Import Bytes Token Ast SpecSyntax CompRun SpecRename.
Import ListNotations.
Open Scope nat_scope.
Open Scope list_scope.

Section Rename.
  Variable r : str -> str.
  Hypothesis known : forall k s, In k known_words -> (r s = k <-> s = k).
  Notation rw := (rename_word r).
  Notation rl := (rename_lexeme r).
  Notation rs := (map (rename_lexeme r)).
  Definition fixed (x : lexeme) : Prop := is_name (fst x) = false -> r (w_text (snd x)) = w_text (snd x).

  Lemma rw_text t w : fixed (t, w) -> w_text (rw t w) = r (w_text w).
  Proof. unfold fixed, rename_word. cbn. destruct (is_name t); [reflexivity|]. intros F. now rewrite F. Qed.
  Lemma rw_break t w : w_break (rw t w) = w_break w.
  Proof. unfold rename_word. now destruct (is_name t). Qed.
  Lemma rw_known t w k : In k known_words -> w_text w = k -> w_text (rw t w) = k.
  Proof. intros I E. unfold rename_word. destruct (is_name t); [|exact E]. cbn. now apply known. Qed.
  Lemma known_r k s : In k known_words -> s = k -> r s = k.
  Proof. intros I E. now apply known. Qed.
  Lemma rw_other t w : is_name t = false -> rw t w = w.
  Proof. unfold rename_word. now intros ->. Qed.
  Lemma next_rs l nx : next (rs l) (rl nx) = rl (next l nx).
  Proof. now destruct l. Qed.
  Lemma fst_rl x : fst (rl x) = fst x.
  Proof. reflexivity. Qed.
  Lemma ends_rl n x : ends n x -> ends n (rl x).
  Proof. unfold ends. cbn [rename_lexeme fst snd]. rewrite rw_break. exact (fun H => H). Qed.
  Lemma semi_rl nx l : semi nx l -> semi (rl nx) (rs l).
  Proof. destruct 1; constructor. cbn. now rewrite rw_break. Qed.
  Lemma optional_rs l : optional_semi l -> optional_semi (rs l).
  Proof. destruct 1; constructor. Qed.
  Lemma closes_rl A B (f : A -> B) xs c : closes xs c -> closes (map f xs) (rl c).
  Proof. destruct 1; constructor. destruct xs; [congruence|discriminate]. Qed.
  Lemma same_rs l : same_line l -> same_line (rs l).
  Proof. destruct l as [|[t w] l]; [exact (fun H => H)|]. cbn. now rewrite rw_break. Qed.
  Lemma first_rs ts l : not_first ts l -> not_first ts (rs l).
  Proof. destruct l as [|[t w] l]; exact (fun H => H). Qed.
  Lemma nonempty_rs l : l <> [] -> rs l <> [].
  Proof. destruct l; [congruence|discriminate]. Qed.
  Lemma nonempty_map A B (f : A -> B) l : l <> [] -> map f l <> [].
  Proof. destruct l; [congruence|discriminate]. Qed.
  Lemma assignable_r e : assignable e -> assignable (rename_expression r e).
  Proof. intros [(s & ->)|[(o & p & ->)|[(o & p & ->)|[(b & ->)|(b & ->)]]]]; cbn; unfold assignable; eauto 10. Qed.
  Lemma atom_r t s e : atom t s e -> atom t (rw t s) (rename_expression r e).
  Proof. destruct 1; cbn; constructor. Qed.
  Lemma name_r k l n : name_of k l n -> Forall fixed l -> name_of k (rs l) (rename_name r n).
  Proof. destruct 1; intros _; cbn; constructor; cbn; congruence. Qed.
  Lemma label_r l o : label l o -> label (rs l) (option_map (rename_id r) o).
  Proof. destruct 1; cbn; constructor; cbn; congruence. Qed.
  Lemma pattern_of_r e p : pattern_of e p -> pattern_of (rename_expression r e) (rename_pattern r p).
  Proof. induction 1; cbn; constructor. exact IHpattern_of. Qed.
  Lemma patterns_of_r b ps : patterns_of b ps -> patterns_of (map (rename_node (rename_expression r)) b) (map (rename_node (rename_pattern r)) ps).
  Proof. unfold patterns_of. induction 1; cbn; constructor; auto. now apply pattern_of_r. Qed.
  Lemma params_of_r e ps : params_of e ps -> params_of (rename_expression r e) (map (rename_node (rename_pattern r)) ps).
  Proof. destruct 1 as [b ps H|e p H]; cbn; constructor; [now apply patterns_of_r|now apply pattern_of_r]. Qed.
  Ltac kn := first [eapply rw_known; [|eassumption] | eapply known_r; [|eassumption]]; cbn; tauto.
  Lemma import_name_r l x : import_name l x -> import_name (rs l) (rename_specifier r x).
  Proof. destruct 1; cbn; [apply ia_same|apply ia_as]; cbn; try congruence. apply known_r; [cbn; tauto|assumption]. Qed.
  Lemma imported_r l x : imported l x -> imported (rs l) (map (rename_node (rename_specifier r)) x).
  Proof. induction 1; cbn; rewrite map_app; cbn; [apply io_last|apply io_cons]; auto; now apply import_name_r. Qed.
  Lemma import_more_r l x : import_more l x -> import_more (rs l) (map (rename_node (rename_specifier r)) x).
  Proof.
    destruct 1 as [s1 s2 s3 n x E1 E2 E3|s l specs H]; cbn; [|apply im_names; now apply imported_r].
    apply im_all with (rename_id r n); cbn; [apply known_r; [cbn; tauto|assumption]|now rewrite E2|now rewrite E3].
  Qed.
  Lemma import_clause_r l x : import_clause l x -> import_clause (rs l) (map (rename_node (rename_specifier r)) x).
  Proof.
    destruct 1 as [s n x E1 E2|s1 s2 n x l specs E1 E2 H|l specs H]; cbn.
    - apply ic_default with (rename_id r n); cbn; [now rewrite E1|now rewrite E2].
    - apply ic_both with (rename_id r n); cbn; [now rewrite E1|now rewrite E2|now apply import_more_r].
    - apply ic_more. now apply import_more_r.
  Qed.

  Ltac split_fixed := repeat match goal with
    | H : Forall fixed (_ :: _) |- _ => apply Forall_cons_iff in H as [? H]
    | H : Forall fixed (_ ++ _) |- _ => apply Forall_app in H as [? H] end.
  Ltac use_ih := repeat match goal with IH : Forall fixed ?l -> _, F : Forall fixed ?l |- _ => specialize (IH F) end.
  Ltac unmap := cbn [map app]; repeat (rewrite map_app; cbn [map app]); cbn [rename_lexeme fst snd rename_expression rename_template rename_arrow_body rename_property rename_property_key rename_pattern rename_func rename_class
      rename_class_member rename_statement rename_declarator rename_for_init rename_case rename_catch rename_node rename_id rename_name rename_block b_body option_map n_item n_start n_end].
  Ltac item := cbn [fst snd rename_node rename_id rename_block b_body option_map n_item rename_for_init rename_expression rename_property_key].
  Ltac side := item; first [ eassumption | reflexivity | solve [rewrite ?next_rs; first [assumption | apply ends_rl; assumption | apply semi_rl; assumption]]
    | apply optional_rs; assumption | apply closes_rl; assumption | apply same_rs; assumption | apply first_rs; assumption | apply assignable_r; assumption
    | apply name_r; assumption | apply label_r; assumption | apply params_of_r; assumption | apply import_clause_r; assumption
    | solve [rewrite rw_break; assumption] | solve [eapply rw_known; [|eassumption]; cbn; tauto] | solve [rewrite rw_text by assumption; congruence]
    | solve [rewrite rw_other by reflexivity; assumption]
    | solve [match goal with H : _ \/ _ |- _ \/ _ => destruct H as [H|H]; [left; exact H|right]; rewrite rw_text by assumption; intros X; apply H; now apply known; [cbn; tauto|] end]
    | solve [apply nonempty_map; assumption] | solve [rewrite <- map_app; apply nonempty_rs; assumption] ].
  Ltac words := repeat match goal with F : fixed (?t, ?s) |- context [r (w_text ?s)] => rewrite <- (rw_text t s F) end.
  Ltac by_ c := intros; split_fixed; use_ih; unmap; words; eapply c; side.
  Lemma statements_r nx l ss : statements nx l ss -> Forall fixed l -> statements (rl nx) (rs l) (map (rename_node (rename_statement r)) ss).
  Proof.
    apply (statements_cind
    (fun a0 a1 a2 a3 => Forall fixed a2 -> expr a0 a1 (rs a2) (rename_expression r a3))
    (fun a0 a1 => Forall fixed a0 -> more_exprs (rs a0) (map (rename_node (rename_expression r)) a1))
    (fun a0 a1 => Forall fixed a0 -> element (rs a0) (rename_expression r a1))
    (fun a0 a1 => Forall fixed a0 -> arguments (rs a0) (map (rename_node (rename_expression r)) a1))
    (fun a0 a1 => Forall fixed a0 -> more_arguments (rs a0) (map (rename_node (rename_expression r)) a1))
    (fun a0 a1 => Forall fixed a0 -> hole_or_element (rs a0) (rename_expression r a1))
    (fun a0 a1 => Forall fixed a0 -> elements (rs a0) (map (rename_node (rename_expression r)) a1))
    (fun a0 a1 => Forall fixed a0 -> more_elements (rs a0) (map (rename_node (rename_expression r)) a1))
    (fun a0 a1 a2 => Forall fixed a1 -> template_of a0 (rs a1) (rename_template r a2))
    (fun a0 a1 a2 => Forall fixed a1 -> arrow_to a0 (rs a1) (rename_arrow_body r a2))
    (fun a0 a1 => Forall fixed a0 -> key (rs a0) (rename_property_key r a1))
    (fun a0 a1 => Forall fixed a0 -> property_of (rs a0) (rename_property r a1))
    (fun a0 a1 => Forall fixed a0 -> properties (rs a0) (map (rename_node (rename_property r)) a1))
    (fun a0 a1 => Forall fixed a0 -> more_properties (rs a0) (map (rename_node (rename_property r)) a1))
    (fun a0 a1 => Forall fixed a0 -> pattern_is (rs a0) (rename_pattern r a1))
    (fun a0 a1 => Forall fixed a0 -> parameter (rs a0) (rename_pattern r a1))
    (fun a0 a1 => Forall fixed a0 -> hole_or_pattern (rs a0) (rename_pattern r a1))
    (fun a0 a1 => Forall fixed a0 -> pattern_elements (rs a0) (map (rename_node (rename_pattern r)) a1))
    (fun a0 a1 => Forall fixed a0 -> more_patterns (rs a0) (map (rename_node (rename_pattern r)) a1))
    (fun a0 a1 => Forall fixed a0 -> parameters (rs a0) (map (rename_node (rename_pattern r)) a1))
    (fun a0 a1 => Forall fixed a0 -> more_parameters (rs a0) (map (rename_node (rename_pattern r)) a1))
    (fun a0 a1 => Forall fixed a0 -> rest_parameter (rs a0) (rename_pattern r a1))
    (fun a0 a1 a2 => Forall fixed a1 -> function a0 (rs a1) (rename_func r a2))
    (fun a0 a1 a2 => Forall fixed a1 -> class_of a0 (rs a1) (rename_class r a2))
    (fun a0 a1 => Forall fixed a0 -> class_body (rs a0) (rename_block (rename_class_member r) a1))
    (fun a0 a1 a2 => Forall fixed a1 -> members (rl a0) (rs a1) (map (rename_node (rename_class_member r)) a2))
    (fun a0 a1 a2 => Forall fixed a1 -> member (rl a0) (rs a1) (rename_class_member r a2))
    (fun a0 a1 a2 a3 => Forall fixed a0 -> member_name (rs a0) a1 a2 (rename_property_key r a3))
    (fun a0 a1 a2 a3 => Forall fixed a0 -> member_key (rs a0) a1 a2 (rename_property_key r a3))
    (fun a0 a1 => Forall fixed a0 -> body_of (rs a0) (rename_block (rename_statement r) a1))
    (fun a0 a1 a2 => Forall fixed a1 -> statements (rl a0) (rs a1) (map (rename_node (rename_statement r)) a2))
    (fun a0 a1 a2 => Forall fixed a1 -> stmt (rl a0) (rs a1) (rename_statement r a2))
    (fun a0 a1 a2 => Forall fixed a1 -> declarators (rl a0) (rs a1) (map (rename_node (rename_declarator r)) a2))
    (fun a0 a1 a2 => Forall fixed a1 -> declarator_of (rl a0) (rs a1) (rename_declarator r a2))
    (fun a0 a1 a2 => Forall fixed a1 -> init_of (rl a0) (rs a1) (rename_for_init r a2))
    (fun a0 a1 a2 => Forall fixed a1 -> optional_init (rl a0) (rs a1) (option_map (rename_node (rename_for_init r)) a2))
    (fun a0 a1 => Forall fixed a0 -> optional_expr (rs a0) (option_map (rename_node (rename_expression r)) a1))
    (fun a0 a1 => Forall fixed a0 -> handler_of (rs a0) (option_map (rename_node (rename_catch r)) a1))
    (fun a0 a1 => Forall fixed a0 -> finalizer_of (rs a0) (option_map (rename_node (rename_block (rename_statement r))) a1))
    (fun a0 a1 => Forall fixed a0 -> switch_body (rs a0) (rename_block (rename_case r) a1))
    (fun a0 a1 a2 => Forall fixed a1 -> cases (rl a0) (rs a1) (map (rename_node (rename_case r)) a2))
    (fun a0 a1 a2 => Forall fixed a1 -> case_of (rl a0) (rs a1) (rename_case r a2))).
    - intros; split_fixed; use_ih; unmap. eapply x_weaker; eassumption.
    - intros; split_fixed; use_ih; unmap. apply x_atom. now apply atom_r.
    - by_ x_paren.
    - by_ x_prefix.
    - by_ x_postfix.
    - by_ x_infix.
    - by_ x_assign.
    - by_ x_conditional.
    - by_ x_sequence.
    - by_ x_member.
    - by_ x_computed.
    - by_ x_new_target.
    - by_ x_call.
    - by_ x_array.
    - by_ x_object.
    - by_ x_template.
    - by_ x_tagged.
    - by_ x_function.
    - by_ x_class.
    - by_ x_arrow.
    - by_ x_thunk.
    - by_ me_nil.
    - by_ me_cons.
    - by_ el_expr.
    - by_ el_spread.
    - by_ ar_nil.
    - by_ ar_cons.
    - by_ ma_nil.
    - by_ ma_comma.
    - by_ ma_cons.
    - by_ he_hole.
    - by_ he_element.
    - by_ es_nil.
    - by_ es_cons.
    - by_ mo_nil.
    - by_ mo_cons.
    - by_ tm_last.
    - by_ tm_more.
    - by_ to_expr.
    - by_ to_block.
    - by_ ke_word.
    - by_ ke_string.
    - by_ ke_number.
    - by_ ke_binary.
    - by_ ke_computed.
    - by_ pr_shorthand.
    - by_ pr_literal.
    - by_ pr_method.
    - by_ pr_spread.
    - by_ ps_nil.
    - by_ ps_cons.
    - by_ mp_nil.
    - by_ mp_comma.
    - by_ mp_cons.
    - by_ pt_name.
    - by_ pt_array.
    - by_ pt_object.
    - by_ pm_plain.
    - by_ pm_default.
    - by_ hp_hole.
    - by_ hp_pattern.
    - by_ pe_nil.
    - by_ pe_cons.
    - by_ mq_nil.
    - by_ mq_cons.
    - by_ pl_nil.
    - by_ pl_rest.
    - by_ pl_cons.
    - by_ mr_nil.
    - by_ mr_comma.
    - by_ mr_rest.
    - by_ mr_cons.
    - by_ rp_rest.
    - by_ fu_plain.
    - by_ fu_generator.
    - by_ cs_plain.
    - by_ cs_extends.
    - by_ cb_body.
    - by_ mm_nil.
    - by_ mm_cons.
    - by_ mb_method.
    - by_ mb_field.
    - by_ mn_static.
    - by_ mn_plain.
    - intros; split_fixed; unmap. assert (Q : r (bs "constructor") = bs "constructor") by (apply known; [cbn; tauto|reflexivity]). rewrite Q. apply mk_constructor; side.
    - by_ mk_word.
    - by_ mk_get.
    - by_ mk_set.
    - by_ mk_number.
    - by_ mk_binary.
    - by_ mk_computed.
    - by_ bo_body.
    - by_ ss_nil.
    - by_ ss_cons.
    - by_ st_empty.
    - by_ st_debugger.
    - by_ st_block.
    - by_ st_expression.
    - intros nx0 o s t s' l1 l2 e X IX I Sm En F; split_fixed. specialize (IX ltac:(constructor; [discriminate|constructor; assumption])). unmap. change (rl (T_Import, s)) with (T_Import, s). apply st_import_name with o; [|exact I|now apply semi_rl|rewrite next_rs; now apply ends_rl]. assert (Qe : rl (T_Identifier, s) = (T_Identifier, s)) by (match goal with K : fixed (T_Import, s) |- _ => pose proof (K eq_refl) as Q end; cbn [snd] in Q; unfold rename_lexeme, rename_word; cbn [fst snd is_name]; rewrite Q; destruct s; reflexivity). cbn [map] in IX. rewrite Qe in IX. exact IX.
    - by_ st_declaration.
    - by_ st_return.
    - by_ st_return_value.
    - by_ st_break.
    - by_ st_continue.
    - by_ st_throw.
    - by_ st_labeled.
    - by_ st_function.
    - by_ st_class.
    - by_ st_if.
    - by_ st_if_else.
    - by_ st_while.
    - by_ st_do.
    - by_ st_for.
    - by_ st_for_in.
    - intros nx0 o s1 s2 s3 l1 l2 a i e b X IX Ei St IS F; split_fixed; use_ih. unmap. eapply (st_for_in_expr _ o _ _ _ _ _ (rename_node (rename_expression r) a) (rename_node (rename_for_init r) i) (rename_node (rename_expression r) e)); [exact IX|cbn [rename_node n_item]; now rewrite Ei|exact IS].
    - by_ st_for_of.
    - intros nx0 s l1 l2 l3 b h f B IB Hh IH Ff IF D F; split_fixed; use_ih. unmap. apply st_try; [exact IB|exact IH|exact IF|]. destruct D as [D|D]; [left; destruct h|right; destruct f]; try congruence; discriminate.
    - by_ st_switch.
    - by_ st_import.
    - by_ st_import_from.
    - by_ ds_one.
    - by_ ds_cons.
    - by_ de_plain.
    - by_ de_init.
    - by_ in_declaration.
    - intros nx0 o l0 e X IX N En F; split_fixed; use_ih. unmap. apply in_expression with o; [exact IX| |now apply ends_rl]. intros a b. cbn [rename_node n_item]. destruct (n_item e); try discriminate. intros Q. injection Q as -> _ _. now eapply N.
    - by_ oi_none.
    - by_ oi_some.
    - by_ oe_none.
    - by_ oe_some.
    - by_ ha_none.
    - intros s1 s2 s3 l1 l2 p b c Hp Ip Hb Ib Ec F; split_fixed; use_ih. unmap. apply (ha_some _ _ _ _ _ (rename_node (rename_pattern r) p) (rename_node (rename_block (rename_statement r)) b) (rename_node (rename_catch r) c)); [exact Ip|exact Ib|]. cbn [rename_node n_item]. now rewrite Ec.
    - by_ fi_none.
    - by_ fi_some.
    - by_ sw_body.
    - by_ ca_nil.
    - by_ ca_cons.
    - by_ co_case.
    - by_ co_default.
  Qed.
End Rename.
