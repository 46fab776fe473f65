(** Every program of the grammar is accepted: all of the grammar, and runs of the parser. *)
From Coq Require Import List NArith Bool Lia Arith String.
From Coq.Strings Require Import Byte.
From Verif Require Import Bytes Token Tables Lexer Ast Prog Parser Structure SpecSyntax Comp CompA CompB CompC CompD CompE CompF CompG CompH CompI.
Import ListNotations.
Open Scope nat_scope.
Open Scope list_scope.

Scheme expr_cind := Minimality for expr Sort Prop
  with more_exprs_cind := Minimality for more_exprs Sort Prop
  with element_cind := Minimality for element Sort Prop
  with arguments_cind := Minimality for arguments Sort Prop
  with more_arguments_cind := Minimality for more_arguments Sort Prop
  with hole_or_element_cind := Minimality for hole_or_element Sort Prop
  with elements_cind := Minimality for elements Sort Prop
  with more_elements_cind := Minimality for more_elements Sort Prop
  with template_of_cind := Minimality for template_of Sort Prop
  with arrow_to_cind := Minimality for arrow_to Sort Prop
  with key_cind := Minimality for key Sort Prop
  with property_of_cind := Minimality for property_of Sort Prop
  with properties_cind := Minimality for properties Sort Prop
  with more_properties_cind := Minimality for more_properties Sort Prop
  with pattern_is_cind := Minimality for pattern_is Sort Prop
  with parameter_cind := Minimality for parameter Sort Prop
  with hole_or_pattern_cind := Minimality for hole_or_pattern Sort Prop
  with pattern_elements_cind := Minimality for pattern_elements Sort Prop
  with more_patterns_cind := Minimality for more_patterns Sort Prop
  with parameters_cind := Minimality for parameters Sort Prop
  with more_parameters_cind := Minimality for more_parameters Sort Prop
  with rest_parameter_cind := Minimality for rest_parameter Sort Prop
  with function_cind := Minimality for function Sort Prop
  with class_of_cind := Minimality for class_of Sort Prop
  with class_body_cind := Minimality for class_body Sort Prop
  with members_cind := Minimality for members Sort Prop
  with member_cind := Minimality for member Sort Prop
  with member_name_cind := Minimality for member_name Sort Prop
  with member_key_cind := Minimality for member_key Sort Prop
  with body_of_cind := Minimality for body_of Sort Prop
  with statements_cind := Minimality for statements Sort Prop
  with stmt_cind := Minimality for stmt Sort Prop
  with declarators_cind := Minimality for declarators Sort Prop
  with declarator_of_cind := Minimality for declarator_of Sort Prop
  with init_of_cind := Minimality for init_of Sort Prop
  with optional_init_cind := Minimality for optional_init Sort Prop
  with optional_expr_cind := Minimality for optional_expr Sort Prop
  with handler_of_cind := Minimality for handler_of Sort Prop
  with finalizer_of_cind := Minimality for finalizer_of Sort Prop
  with switch_body_cind := Minimality for switch_body Sort Prop
  with cases_cind := Minimality for cases Sort Prop
  with case_of_cind := Minimality for case_of Sort Prop.
Ltac case_by c := first [exact c | intros; apply c; assumption | intros; eapply c; eassumption].
Lemma statements_accepted nx l ss : statements nx l ss -> P_statements nx l ss.
Proof.
  apply (statements_cind
    P_expr P_more_exprs P_element P_arguments P_more_arguments P_hole P_elements P_more_elements P_template P_arrow P_key P_property P_properties P_more_properties P_pattern P_parameter P_hole_pattern P_pattern_elements P_more_patterns P_parameters P_more_parameters P_rest_parameter P_function P_class P_class_body P_members P_member P_member_name P_member_key P_body P_statements P_stmt P_declarators P_declarator P_init P_optional_init P_optional_expr P_handler P_finalizer P_switch_body P_cases P_case).
  - case_by c_weaker.
  - case_by c_atom.
  - case_by c_paren.
  - case_by c_prefix.
  - case_by c_postfix.
  - case_by c_infix.
  - case_by c_assign.
  - case_by c_conditional.
  - case_by c_sequence.
  - case_by c_member.
  - case_by c_computed.
  - case_by c_new_target.
  - case_by c_call.
  - case_by c_array.
  - case_by c_object.
  - case_by c_template.
  - case_by c_tagged.
  - case_by c_function.
  - case_by c_class.
  - case_by c_arrow.
  - case_by c_thunk.
  - case_by c_me_nil.
  - case_by c_me_cons.
  - case_by c_el_expr.
  - case_by c_el_spread.
  - case_by c_ar_nil.
  - case_by c_ar_cons.
  - case_by c_ma_nil.
  - case_by c_ma_comma.
  - case_by c_ma_cons.
  - case_by c_he_hole.
  - case_by c_he_element.
  - case_by c_es_nil.
  - case_by c_es_cons.
  - case_by c_mo_nil.
  - case_by c_mo_cons.
  - case_by c_tm_last.
  - case_by c_tm_more.
  - case_by c_to_expr.
  - case_by c_to_block.
  - case_by c_ke_word.
  - case_by c_ke_string.
  - case_by c_ke_number.
  - case_by c_ke_binary.
  - case_by c_ke_computed.
  - case_by c_pr_shorthand.
  - case_by c_pr_literal.
  - case_by c_pr_method.
  - case_by c_pr_spread.
  - case_by c_ps_nil.
  - case_by c_ps_cons.
  - case_by c_mp_nil.
  - case_by c_mp_comma.
  - case_by c_mp_cons.
  - case_by c_pt_name.
  - case_by c_pt_array.
  - case_by c_pt_object.
  - case_by c_pm_plain.
  - case_by c_pm_default.
  - case_by c_hp_hole.
  - case_by c_hp_pattern.
  - case_by c_pe_nil.
  - case_by c_pe_cons.
  - case_by c_mq_nil.
  - case_by c_mq_cons.
  - case_by c_pl_nil.
  - case_by c_pl_rest.
  - case_by c_pl_cons.
  - case_by c_mr_nil.
  - case_by c_mr_comma.
  - case_by c_mr_rest.
  - case_by c_mr_cons.
  - case_by c_rp_rest.
  - case_by c_fu_plain.
  - case_by c_fu_generator.
  - case_by c_cs_plain.
  - case_by c_cs_extends.
  - case_by c_cb_body.
  - case_by c_mm_nil.
  - case_by c_mm_cons.
  - case_by c_mb_method.
  - case_by c_mb_field.
  - case_by c_mn_static.
  - case_by c_mn_plain.
  - case_by c_mk_constructor.
  - case_by c_mk_word.
  - case_by c_mk_get.
  - case_by c_mk_set.
  - case_by c_mk_number.
  - case_by c_mk_binary.
  - case_by c_mk_computed.
  - case_by c_bo_body.
  - case_by c_ss_nil.
  - case_by c_ss_cons.
  - case_by c_st_empty.
  - case_by c_st_debugger.
  - case_by c_st_block.
  - case_by c_st_expression.
  - case_by c_st_import_name.
  - case_by c_st_declaration.
  - case_by c_st_return.
  - case_by c_st_return_value.
  - case_by c_st_break.
  - case_by c_st_continue.
  - case_by c_st_throw.
  - case_by c_st_labeled.
  - case_by c_st_function.
  - case_by c_st_class.
  - case_by c_st_if.
  - case_by c_st_if_else.
  - case_by c_st_while.
  - case_by c_st_do.
  - case_by c_st_for.
  - case_by c_st_for_in.
  - case_by c_st_for_in_expr.
  - case_by c_st_for_of.
  - case_by c_st_try.
  - case_by c_st_switch.
  - case_by c_st_import.
  - case_by c_st_import_from.
  - case_by c_ds_one.
  - case_by c_ds_cons.
  - case_by c_de_plain.
  - case_by c_de_init.
  - case_by c_in_declaration.
  - case_by c_in_expression.
  - case_by c_oi_none.
  - case_by c_oi_some.
  - case_by c_oe_none.
  - case_by c_oe_some.
  - case_by c_ha_none.
  - case_by c_ha_some.
  - case_by c_fi_none.
  - case_by c_fi_some.
  - case_by c_sw_body.
  - case_by c_ca_nil.
  - case_by c_ca_cons.
  - case_by c_co_case.
  - case_by c_co_default.
Qed.
