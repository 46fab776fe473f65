(** Properties of traversals, of the scope analysis and of the transformer:
    C29, C30, C31, C32, C33, C34, C46.  The vocabulary is in SpecVisit.v. *)
From Coq Require Import List NArith Bool String Lia Permutation.
From Coq.Strings Require Import Byte.
From Verif Require Import Bytes Token Lexer Ast SpecTree Parser Visitor SpecVisit VisitFacts Transform PropTree ParseFacts.
Import ListNotations.
Open Scope nat_scope.

(** ** C29: scopes are entered and left like brackets *)
Theorem C29_scopes_nest : forall m : module, scopes_nest (visit_module m).
Proof. exact scopes_module. Qed.
Print Assumptions C29_scopes_nest.
Example scopes_occur : exists m, parses_to (fun _ => true) (bs "function f(a){ if (a) { b } }") (ParseOk m) /\
  entered (visit_module m) = [SK_Function; SK_Block].
Proof. eexists. split; [exists 60; vm_compute; reflexivity|reflexivity]. Qed.

(** ** C30: so are parents, unless the module has an import *)
Theorem C30_parents_nest_partial : forall m : module,
  (forall n names source, in_module (A_Stmt n) m -> n_item n <> St_Import names source) ->
  parents_nest (visit_module m).
Proof. exact parents_module. Qed.
Print Assumptions C30_parents_nest_partial.
(** [import 'a'] pops a parent that was not pushed. *)
Theorem C30_parents_nest_refuted : exists (src : str) (m : module),
  parses_to (fun _ => true) src (ParseOk m) /\ ~ parents_nest (visit_module m).
Proof.
  exists (bs "import 'a';"). eexists. split; [exists 60; vm_compute; reflexivity|]. intros H. cbn in H.
  repeat match goal with K : parents_nest (_ :: _) |- _ => inversion K; subst; clear K end; congruence.
Qed.
Print Assumptions C30_parents_nest_refuted.

(** ** C31: every expression and every statement is reported once, in source
    order; identifiers are followed by a use *)
Theorem C31_expressions_reported : forall (m : module) (l : list any), module_preorder m l ->
  reported_expressions (visit_module m) = expressions_of l /\ reported_statements (visit_module m) = statements_of l.
Proof.
  intros m l H. split.
  - etransitivity; [apply (exact_module (fun c => match c with V_expression n => [n] | _ => [] end)); try reflexivity; exact H|].
    apply flat_map_ext. intros a. destruct a; try reflexivity. cbn [own]. destruct (n_item n); reflexivity.
  - etransitivity; [apply (exact_module (fun c => match c with V_statement n => [n] | _ => [] end)); try reflexivity; exact H|].
    apply flat_map_ext. intros a. destruct a; try reflexivity; cbn [own]; destruct (n_item n); reflexivity.
Qed.
Print Assumptions C31_expressions_reported.
Theorem C31_preorder_exists : forall m : module, exists l, module_preorder m l.
Proof. exact module_preorder_exists. Qed.
Theorem C31_identifiers_used : forall (m : module) v1 n name v2,
  visit_module m = v1 ++ V_expression n :: v2 -> n_item n = E_Identifier name ->
  exists v3, v2 = V_push_parent (PN_Expression n) :: V_reference_use name :: V_pop_parent :: v3.
Proof. exact ids_module. Qed.
Print Assumptions C31_identifiers_used.
Example identifiers_occur : exists m, parses_to (fun _ => true) (bs "a(b, [,c])") (ParseOk m) /\
  exists n1 n2 n3 n4 n5, reported_expressions (visit_module m) = [n1; n2; n3; n4; n5] /\
    n_item n2 = E_Identifier (bs "a") /\ n_item n3 = E_Identifier (bs "b") /\ n_item n5 = E_Identifier (bs "c").
Proof. eexists. split; [exists 60; vm_compute; reflexivity|]. do 5 eexists. split; [reflexivity|]. repeat split. Qed.

(** ** C32: the scope analysis returns the root *)
Theorem C32_analysis_total : forall (alnum : N -> bool) (src : str) (m : module) (l : list any),
  parses_to alnum src (ParseOk m) -> module_preorder m l ->
  exists root, analyze m = Done (root, []) /\ sc_kind root = SK_Function /\
    how_many SK_Function (scope_kinds root) = 1 + how_many SK_Function (flat_map opens l) /\
    how_many SK_Block (scope_kinds root) = how_many SK_Block (flat_map opens l).
Proof.
  intros alnum src m l H P.
  assert (C : forall x, in_module (A_Member x) m -> n_item x <> CM_Error).
  { intros x I E. destruct (C08_no_placeholders alnum src m _ H I) as [K _]. exact (K _ eq_refl E). }
  destruct (run_nest _ (scopes_module m) (peaceful_module m C) (scope_new SK_Function) []) as (root & E & (K & _) & S).
  exists root. split; [exact E|split; [exact K|]]. rewrite S. cbn [scope_kinds scope_new flat_map app].
  split.
  - rewrite opens_cons. f_equal. now apply count_module.
  - rewrite opens_cons. cbn. now apply count_module.
Qed.
Print Assumptions C32_analysis_total.
(** Every name declared or used is recorded in a scope, and nothing else is. *)
Theorem C32_names_recorded : forall (alnum : N -> bool) (src : str) (m : module) (root : scope),
  parses_to alnum src (ParseOk m) -> analyze m = Done (root, []) ->
  Permutation (all_declared root) (declarations (visit_module m)) /\ Permutation (all_used root) (uses (visit_module m)).
Proof. intros alnum src m root _ E. split; [now apply declared_all|now apply used_all]. Qed.
Print Assumptions C32_names_recorded.
Example analysis_of_functions : exists m root, parses_to (fun _ => true) (bs "function f(a, b = c){ if (a) { let d } }") (ParseOk m) /\
  analyze m = Done (root, []) /\ sc_declared root = [bs "f"] /\ exists f, sc_children root = [f] /\ sc_declared f = [bs "a"; bs "b"].
Proof. do 2 eexists. split; [exists 60; vm_compute; reflexivity|]. split; [reflexivity|]. split; [reflexivity|]. eexists. split; reflexivity. Qed.

(** ** C33: names of parameters belong to the scope of their function *)
Theorem C33_parameters_partial : forall (alnum : N -> bool) (src : str) (m : module) (root : scope) (a : any) (ps : list (node pattern)),
  parses_to alnum src (ParseOk m) -> analyze m = Done (root, []) -> in_module a m -> function_params a ps ->
  exists s, scope_in s root /\ sc_kind s = SK_Function /\
    forall p x, In p ps -> simple (n_item p) -> In x (bound_names (n_item p)) -> In x (sc_declared s).
Proof.
  intros alnum src m root a ps H. apply params_declared.
  intros x I E. destruct (C08_no_placeholders alnum src m _ H I) as [K _]. exact (K _ eq_refl E).
Qed.
Print Assumptions C33_parameters_partial.
(** The full property: also for object patterns, rest elements and arrow functions. *)
Definition declared_in_a_function_scope (root : scope) (ps : list (node pattern)) : Prop :=
  exists s, scope_in s root /\ s <> root /\ sc_kind s = SK_Function /\
    forall p x, In p ps -> In x (bound_names (n_item p)) -> In x (sc_declared s).
Theorem C33_arrow_parameters_refuted : exists (src : str) (m : module) (root : scope) (a : any) (ps : list (node pattern)),
  parses_to (fun _ => true) src (ParseOk m) /\ analyze m = Done (root, []) /\ in_module a m /\ arrow_params a ps /\
  ~ declared_in_a_function_scope root ps.
Proof.
  exists (bs "x => x"). do 4 eexists. split; [exists 60; vm_compute; reflexivity|]. split; [reflexivity|].
  split; [eexists; split; [left; reflexivity|]; eapply within_child; [left; reflexivity|apply within_refl]|].
  split; [econstructor; reflexivity|].
  intros (s & I & NR & _). inversion I as [|? c ? J]; subst; [now destruct NR|destruct J].
Qed.
Print Assumptions C33_arrow_parameters_refuted.
Theorem C33_rest_parameters_refuted : exists (src : str) (m : module) (root : scope) (a : any) (ps : list (node pattern)),
  parses_to (fun _ => true) src (ParseOk m) /\ analyze m = Done (root, []) /\ in_module a m /\ function_params a ps /\
  ~ declared_in_a_function_scope root ps.
Proof.
  exists (bs "function f(...r){}"). do 4 eexists. split; [exists 60; vm_compute; reflexivity|]. split; [reflexivity|].
  split; [eexists; split; [left; reflexivity|]; apply within_refl|].
  split; [eapply fp_statement; reflexivity|].
  intros (s & I & NR & _ & D). inversion I as [|? c ? J K]; subst; [now destruct NR|]. destruct J as [<-|[]].
  inversion K as [|? c ? J' K']; subst; [|destruct J'].
  destruct (D _ (bs "r") (or_introl eq_refl) (or_introl eq_refl)).
Qed.
Print Assumptions C33_rest_parameters_refuted.
Theorem C33_destructured_parameters_refuted : exists (src : str) (m : module) (root : scope) (a : any) (ps : list (node pattern)),
  parses_to (fun _ => true) src (ParseOk m) /\ analyze m = Done (root, []) /\ in_module a m /\ function_params a ps /\
  ~ declared_in_a_function_scope root ps.
Proof.
  exists (bs "function f({k}){}"). do 4 eexists. split; [exists 60; vm_compute; reflexivity|]. split; [reflexivity|].
  split; [eexists; split; [left; reflexivity|]; apply within_refl|].
  split; [eapply fp_statement; reflexivity|].
  intros (s & I & NR & _ & D). inversion I as [|? c ? J K]; subst; [now destruct NR|]. destruct J as [<-|[]].
  inversion K as [|? c ? J' K']; subst; [|destruct J'].
  destruct (D _ (bs "k") (or_introl eq_refl) (or_introl eq_refl)).
Qed.
Print Assumptions C33_destructured_parameters_refuted.
Theorem C33_imports_refuted : exists (src : str) (m : module) (root : scope),
  parses_to (fun _ => true) src (ParseOk m) /\ analyze m = Done (root, []) /\
  (exists n src' l, in_module (A_Stmt n) m /\ n_item n = St_Import [l] src' /\ n_item l = IS_Default (Node 7 8 (bs "a"))) /\
  all_declared root = [].
Proof.
  exists (bs "import a from 'b';"). do 2 eexists. split; [exists 60; vm_compute; reflexivity|]. split; [reflexivity|].
  split; [|reflexivity]. do 3 eexists. split; [eexists; split; [left; reflexivity|]; apply within_refl|]. split; reflexivity.
Qed.
Print Assumptions C33_imports_refuted.

(** ** C34: the transformer does not change the module *)
Lemma set_cell_other m x y : set_cell (m ++ [x]) (List.length m) y = m ++ [y].
Proof. induction m as [|z m IH]; [reflexivity|]. cbn. now rewrite IH. Qed.
Lemma on_arrow_keeps m c i : i < List.length m -> read (on_arrow m c) i = read m i /\ i < List.length (on_arrow m c).
Proof.
  intros H. unfold on_arrow. destruct (read m c) as [[st en e]|]; auto. destruct e; auto. unfold swap, new_cell. cbn [n_start n_end].
  rewrite set_cell_other. unfold read. rewrite nth_error_app1 by auto. rewrite app_length. split; [reflexivity|lia].
Qed.
Lemma fold_keeps cs : forall m i, i < List.length m -> read (fold_left on_arrow cs m) i = read m i.
Proof.
  induction cs as [|c cs IH]; intros m i H; [reflexivity|]. cbn [fold_left]. destruct (on_arrow_keeps m c i H) as [E L]. now rewrite IH.
Qed.
Theorem C34_transform_changes_nothing : forall (m : module) (i : nat) (n : node expression),
  nth_error (reported_expressions (visit_module m)) i = Some n -> read (transform m) i = Some n.
Proof.
  intros m i n H. unfold transform. rewrite fold_keeps; [exact H|]. apply nth_error_Some. congruence.
Qed.
Print Assumptions C34_transform_changes_nothing.
Theorem C34_arrows_removed_refuted : exists (src : str) (m : module) (i : nat) (n : node expression) ps b,
  parses_to (fun _ => true) src (ParseOk m) /\ i < List.length (reported_expressions (visit_module m)) /\
  read (transform m) i = Some n /\ n_item n = E_Arrow ps b.
Proof.
  exists (bs "x => x"). eexists. exists 0. do 3 eexists. split; [exists 60; vm_compute; reflexivity|]. split; [cbn; lia|]. split; reflexivity.
Qed.
Print Assumptions C34_arrows_removed_refuted.

(** ** C46: what the parent stack is when a node is reported *)
Theorem C46_parents_are_enclosing : forall (m : module) (l : list (any * list parent_node)),
  module_preorder_in m l ->
  (forall n names source, in_module (A_Stmt n) m -> n_item n <> St_Import names source) ->
  reports (visit_module m) = reportable l.
Proof. exact reports_module. Qed.
Print Assumptions C46_parents_are_enclosing.
Theorem C46_preorder_exists : forall m : module, exists l, module_preorder_in m l.
Proof. exact module_preorder_in_exists. Qed.
Example parents_occur : exists m n1 n2 n3 n4, parses_to (fun _ => true) (bs "a[b]") (ParseOk m) /\
  reports (visit_module m) =
    [(PN_Statement n1, []); (PN_Expression n2, [PN_Statement n1]);
     (PN_Expression n3, [PN_Expression n2; PN_Statement n1]);
     (PN_Expression n4, [PN_Expression n2; PN_Statement n1])] /\
  n_item n3 = E_Identifier (bs "a") /\ n_item n4 = E_Identifier (bs "b").
Proof. do 5 eexists. split; [exists 60; vm_compute; reflexivity|]. split; [vm_compute; reflexivity|]. split; reflexivity. Qed.
