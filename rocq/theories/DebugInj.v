(** The derived [Debug] of a tree determines the tree. *)
From Coq Require Import List NArith Bool String.
From Coq.Strings Require Import Byte.
From Verif Require Import Bytes Token Ast AstInd DebugFmt.
Import ListNotations.
Open Scope nat_scope.
Open Scope list_scope.

Definition kind (a : any) : nat :=
  match a with
  | A_Ident _ => 0 | A_Expr _ => 1 | A_Tpl _ => 2 | A_Prop _ => 3 | A_Key _ => 4 | A_Pat _ => 5 | A_Func _ => 6 | A_Member _ => 7
  | A_Body _ => 8 | A_ClassBody _ => 9 | A_Cases _ => 10 | A_Stmt _ => 11 | A_Declarator _ => 12 | A_ForInit _ => 13 | A_Case _ => 14
  | A_Catch _ => 15 | A_Spec _ => 16
  end.
Definition d_any (a : any) : dval :=
  match a with
  | A_Ident n => d_node D_Str n | A_Expr n => d_node d_expression n | A_Tpl n => d_node d_template n | A_Prop n => d_node d_property n
  | A_Key n => d_node d_property_key n | A_Pat n => d_node d_pattern n | A_Func n => d_node d_func n | A_Member n => d_node d_class_member n
  | A_Body n => d_node (d_block d_statement) n | A_ClassBody n => d_node (d_block d_class_member) n | A_Cases n => d_node (d_block d_case) n
  | A_Stmt n => d_node d_statement n | A_Declarator n => d_node d_declarator n | A_ForInit n => d_node d_for_init n
  | A_Case n => d_node d_case n | A_Catch n => d_node d_catch n | A_Spec n => d_node d_specifier n
  end.
Definition P (a : any) : Prop := forall b, kind a = kind b -> d_any a = d_any b -> a = b.

Lemma node_inj {A : Set} (f : A -> dval) n n' : d_node f n = d_node f n' -> n_start n = n_start n' /\ n_end n = n_end n' /\ f (n_item n) = f (n_item n').
Proof. intros H. injection H as H1 H2 H3. auto. Qed.
Lemma ident_inj n n' : d_ident n = d_ident n' -> n = n'.
Proof. intros H. apply node_inj in H as (A & B & C). destruct n, n'. cbn in *. congruence. Qed.
Lemma list_inj {A : Set} (g : node A -> any) (f : A -> dval) : (forall n, P (g n) -> forall n', d_node f n = d_node f n' -> n = n') ->
  forall l, Forall P (map g l) -> forall l', map (d_node f) l = map (d_node f) l' -> l = l'.
Proof.
  intros H l. induction l as [|n l IH]; intros F [|n' l'] E; try discriminate E; [reflexivity|]. inversion F as [|x y F1 F2]; subst. clear F. cbn [map] in E.
  assert (E1 : d_node f n = d_node f n') by congruence. assert (E2 : map (d_node f) l = map (d_node f) l') by congruence.
  f_equal; [now apply H|now apply IH].
Qed.
Lemma opt_inj {A : Set} (g : node A -> any) (f : A -> dval) : (forall n, P (g n) -> forall n', d_node f n = d_node f n' -> n = n') ->
  forall o, Forall P (opt g o) -> forall o', d_opt (d_node f) o = d_opt (d_node f) o' -> o = o'.
Proof.
  intros H [n|] F [n'|] E; try discriminate E; [|reflexivity]. inversion F as [|x y F1 F2]; subst. cbn [d_opt] in E. f_equal. apply H; [exact F1|].
  injection E. unfold d_node. congruence.
Qed.
Lemma idents_inj l : forall l', map d_ident l = map d_ident l' -> l = l'.
Proof. induction l as [|n l IH]; intros [|n' l'] E; try discriminate E; [reflexivity|]. cbn [map] in E. f_equal; [apply ident_inj; congruence|apply IH; congruence]. Qed.
Lemma oident_inj o o' : d_opt d_ident o = d_opt d_ident o' -> o = o'.
Proof. destruct o, o'; intros E; try discriminate E; [|reflexivity]. f_equal. apply ident_inj. cbn [d_opt] in E. congruence. Qed.
Lemma name_inj n n' : d_name n = d_name n' -> n = n'.
Proof. destruct n, n'; cbn [d_name]; intros E; try discriminate E; [reflexivity| |]; f_equal; [apply oident_inj|apply ident_inj]; congruence. Qed.
Lemma bool_inj b b' : d_bool b = d_bool b' -> b = b'.
Proof. destruct b, b'; intros E; try discriminate E; reflexivity. Qed.
Lemma operator_inj o o' : d_operator o = d_operator o' -> o = o'.
Proof. unfold d_operator. intros E. injection E as E. destruct o; destruct o'; try reflexivity; discriminate E. Qed.
Lemma literal_inj o o' : d_literal o = d_literal o' -> o = o'.
Proof. destruct o; destruct o'; cbn [d_literal]; intros E; try discriminate E; congruence. Qed.
Lemma declkind_inj o o' : d_declkind o = d_declkind o' -> o = o'.
Proof. destruct o; destruct o'; intros E; try discriminate E; reflexivity. Qed.
Lemma methodkind_inj o o' : d_methodkind o = d_methodkind o' -> o = o'.
Proof. destruct o; destruct o'; intros E; try discriminate E; reflexivity. Qed.

Section Nodes.
  Ltac one := intros n H n' E; specialize (H (_ n') eq_refl E); congruence.
  Lemma i_expr n : P (A_Expr n) -> forall n', d_node d_expression n = d_node d_expression n' -> n = n'.
  Proof. intros H n' E. specialize (H (A_Expr n') eq_refl E). congruence. Qed.
  Lemma i_tpl n : P (A_Tpl n) -> forall n', d_node d_template n = d_node d_template n' -> n = n'.
  Proof. intros H n' E. specialize (H (A_Tpl n') eq_refl E). congruence. Qed.
  Lemma i_prop n : P (A_Prop n) -> forall n', d_node d_property n = d_node d_property n' -> n = n'.
  Proof. intros H n' E. specialize (H (A_Prop n') eq_refl E). congruence. Qed.
  Lemma i_key n : P (A_Key n) -> forall n', d_node d_property_key n = d_node d_property_key n' -> n = n'.
  Proof. intros H n' E. specialize (H (A_Key n') eq_refl E). congruence. Qed.
  Lemma i_pat n : P (A_Pat n) -> forall n', d_node d_pattern n = d_node d_pattern n' -> n = n'.
  Proof. intros H n' E. specialize (H (A_Pat n') eq_refl E). congruence. Qed.
  Lemma i_func n : P (A_Func n) -> forall n', d_node d_func n = d_node d_func n' -> n = n'.
  Proof. intros H n' E. specialize (H (A_Func n') eq_refl E). congruence. Qed.
  Lemma i_member n : P (A_Member n) -> forall n', d_node d_class_member n = d_node d_class_member n' -> n = n'.
  Proof. intros H n' E. specialize (H (A_Member n') eq_refl E). congruence. Qed.
  Lemma i_body n : P (A_Body n) -> forall n', d_node (d_block d_statement) n = d_node (d_block d_statement) n' -> n = n'.
  Proof. intros H n' E. specialize (H (A_Body n') eq_refl E). congruence. Qed.
  Lemma i_cbody n : P (A_ClassBody n) -> forall n', d_node (d_block d_class_member) n = d_node (d_block d_class_member) n' -> n = n'.
  Proof. intros H n' E. specialize (H (A_ClassBody n') eq_refl E). congruence. Qed.
  Lemma i_cases n : P (A_Cases n) -> forall n', d_node (d_block d_case) n = d_node (d_block d_case) n' -> n = n'.
  Proof. intros H n' E. specialize (H (A_Cases n') eq_refl E). congruence. Qed.
  Lemma i_stmt n : P (A_Stmt n) -> forall n', d_node d_statement n = d_node d_statement n' -> n = n'.
  Proof. intros H n' E. specialize (H (A_Stmt n') eq_refl E). congruence. Qed.
  Lemma i_decl n : P (A_Declarator n) -> forall n', d_node d_declarator n = d_node d_declarator n' -> n = n'.
  Proof. intros H n' E. specialize (H (A_Declarator n') eq_refl E). congruence. Qed.
  Lemma i_init n : P (A_ForInit n) -> forall n', d_node d_for_init n = d_node d_for_init n' -> n = n'.
  Proof. intros H n' E. specialize (H (A_ForInit n') eq_refl E). congruence. Qed.
  Lemma i_case n : P (A_Case n) -> forall n', d_node d_case n = d_node d_case n' -> n = n'.
  Proof. intros H n' E. specialize (H (A_Case n') eq_refl E). congruence. Qed.
  Lemma i_catch n : P (A_Catch n) -> forall n', d_node d_catch n = d_node d_catch n' -> n = n'.
  Proof. intros H n' E. specialize (H (A_Catch n') eq_refl E). congruence. Qed.
  Lemma i_spec n : P (A_Spec n) -> forall n', d_node d_specifier n = d_node d_specifier n' -> n = n'.
  Proof. intros H n' E. specialize (H (A_Spec n') eq_refl E). congruence. Qed.
End Nodes.

Ltac parts :=
  repeat match goal with
  | H : Forall _ (_ ++ _) |- _ => apply Forall_app in H; destruct H
  | H : Forall _ (_ :: _) |- _ => let A := fresh in let B := fresh in pose proof (Forall_inv H) as A; pose proof (Forall_inv_tail H) as B; clear H
  | H : Forall _ [] |- _ => clear H
  end.
(** The equation between two parts of the same place. *)
Ltac settle :=
  first
  [ assumption | reflexivity
  | apply ident_inj; assumption | apply oident_inj; assumption | apply name_inj; assumption | apply idents_inj; assumption
  | apply bool_inj; assumption | apply operator_inj; assumption | apply literal_inj; assumption | apply declkind_inj; assumption | apply methodkind_inj; assumption
  | solve [eapply i_expr; eassumption] | solve [eapply i_tpl; eassumption] | solve [eapply i_key; eassumption] | solve [eapply i_pat; eassumption]
  | solve [eapply i_func; eassumption] | solve [eapply i_body; eassumption] | solve [eapply i_cbody; eassumption] | solve [eapply i_cases; eassumption]
  | solve [eapply i_stmt; eassumption] | solve [eapply i_init; eassumption] | solve [eapply i_catch; eassumption]
  | solve [eapply (list_inj A_Expr); [exact i_expr| |]; eassumption] | solve [eapply (list_inj A_Pat); [exact i_pat| |]; eassumption]
  | solve [eapply (list_inj A_Prop); [exact i_prop| |]; eassumption] | solve [eapply (list_inj A_Stmt); [exact i_stmt| |]; eassumption]
  | solve [eapply (list_inj A_Member); [exact i_member| |]; eassumption] | solve [eapply (list_inj A_Case); [exact i_case| |]; eassumption]
  | solve [eapply (list_inj A_Declarator); [exact i_decl| |]; eassumption] | solve [eapply (list_inj A_Spec); [exact i_spec| |]; eassumption]
  | solve [eapply (opt_inj A_Expr); [exact i_expr| |]; eassumption] | solve [eapply (opt_inj A_Stmt); [exact i_stmt| |]; eassumption]
  | solve [eapply (opt_inj A_ForInit); [exact i_init| |]; eassumption] | solve [eapply (opt_inj A_Catch); [exact i_catch| |]; eassumption]
  | solve [eapply (opt_inj A_Body); [exact i_body| |]; eassumption] ].

(** The fields of two equal structs, as equations. *)
Definition fields_eq (fs fs' : list (string * dval)) : Prop :=
  (fix go (a b : list (string * dval)) : Prop := match a, b with
   | [], [] => True | (k, v) :: a, (k', v') :: b => k = k' /\ v = v' /\ go a b | _, _ => False end) fs fs'.
Lemma struct_fields n fs fs' : D_Struct n fs = D_Struct n fs' -> fields_eq fs fs'.
Proof. intros H. injection H as <-. induction fs as [|[k v] fs IH]; cbn; auto. Qed.
Lemma tuple_inj n x x' : D_Tuple n x = D_Tuple n x' -> x = x'.
Proof. intros H. now injection H. Qed.
Lemma dlist_inj l l' : D_List l = D_List l' -> l = l'.
Proof. intros H. now injection H. Qed.
Lemma dstr_inj l l' : D_Str l = D_Str l' -> l = l'.
Proof. intros H. now injection H. Qed.
Ltac open :=
  repeat match goal with
  | H : D_Tuple _ _ = D_Tuple _ _ |- _ => apply tuple_inj in H
  | H : D_Str _ = D_Str _ |- _ => apply dstr_inj in H
  | H : D_List _ = D_List _ |- _ => apply dlist_inj in H
  | H : d_list _ _ = d_list _ _ |- _ => unfold d_list in H; apply dlist_inj in H
  | H : D_Struct _ _ = D_Struct _ _ |- _ => apply struct_fields in H; cbn [fields_eq] in H
  | H : _ /\ _ |- _ => destruct H
  | H : @eq string _ _ |- _ => clear H
  | H : True |- _ => clear H
  end.
Lemma step a : Forall P (children a) -> P a.
Proof.
  intros F b K E. destruct a as [n|n|n|n|n|n|n|n|n|n|n|n|n|n|n|n|n], b as [n'|n'|n'|n'|n'|n'|n'|n'|n'|n'|n'|n'|n'|n'|n'|n'|n']; try discriminate K; clear K;
    cbn [d_any] in E; apply node_inj in E as (E1 & E2 & E); destruct n as [st en x], n' as [st' en' x']; cbn [n_start n_end n_item] in *; subst st' en'; cbn [children n_item] in F; do 2 f_equal.
  - now injection E.
  - destruct x as [| | |l|b|b|o p|o p|m p|c args|op l r|op x|op x|t c a|[es qs]|t q|x|ps [b|b]|b|[f1 f2 f3 f4]|[c1 c2 c3]];
      destruct x' as [| | |l'|b'|b'|o' p'|o' p'|m' p'|c' args'|op' l' r'|op' x'|op' x'|t' c' a'|[es' qs']|t' q'|x'|ps' [b'|b']|b'|[f1' f2' f3' f4']|[c1' c2' c3']];
      cbn [d_expression d_template d_arrow_body d_func d_class] in E; try discriminate E; cbn [children_expression children_template children_func children_class] in F; parts; open;
      try discriminate; try (f_equal; settle); f_equal; f_equal; settle.
  - destruct x as [es qs], x' as [es' qs']. cbn [d_template] in E. cbn [children_template] in F. parts. open. f_equal; settle.
  - destruct x, x'; cbn [d_property] in E; try discriminate E; parts; open; f_equal; settle.
  - destruct x, x'; cbn [d_property_key] in E; try discriminate E; parts; open; f_equal; settle.
  - destruct x, x'; cbn [d_pattern] in E; try discriminate E; parts; open; f_equal; settle.
  - destruct x, x'; cbn [d_func] in E; cbn [children_func] in F; parts; open; f_equal; settle.
  - destruct x, x'; cbn [d_class_member] in E; try discriminate E; parts; open; f_equal; settle.
  - destruct x as [x], x' as [x']; cbn [d_block b_body] in *; parts; unfold d_block in E; cbn [b_body] in E; open; f_equal; settle.
  - destruct x as [x], x' as [x']; cbn [d_block b_body] in *; parts; unfold d_block in E; cbn [b_body] in E; open; f_equal; settle.
  - destruct x as [x], x' as [x']; cbn [d_block b_body] in *; parts; unfold d_block in E; cbn [b_body] in E; open; f_equal; settle.
  - destruct x as [| |x|k ds|v|l|l|v|t c a|t b|b t|i t u b|l r b|l r b|b h f|[b]|l b|[f1 f2 f3 f4]|[c1 c2 c3]|d c|ss src];
      destruct x' as [| |x'|k' ds'|v'|l'|l'|v'|t' c' a'|t' b'|b' t'|i' t' u' b'|l' r' b'|l' r' b'|b' h' f'|[b']|l' b'|[f1' f2' f3' f4']|[c1' c2' c3']|d' c'|ss' src'];
      cbn [d_statement d_func d_class] in E; try discriminate E; cbn [children_statement children_func children_class b_body] in F; parts; unfold d_block in E; cbn [b_body] in E; open;
      try discriminate; try (f_equal; settle); f_equal; f_equal; settle.
  - destruct x, x'; cbn [d_declarator] in E; parts; open; f_equal; settle.
  - destruct x, x'; cbn [d_for_init] in E; try discriminate E; parts; open; f_equal; settle.
  - destruct x, x'; cbn [d_case] in E; parts; open; f_equal; settle.
  - destruct x, x'; cbn [d_catch] in E; parts; open; f_equal; settle.
  - destruct x, x'; cbn [d_specifier] in E; try discriminate E; parts; open; f_equal; settle.
Qed.
Theorem debug_tree_inj m m' : d_list d_statement m = d_list d_statement m' -> m = m'.
Proof.
  intros E. unfold d_list in E. apply dlist_inj in E. apply (list_inj A_Stmt d_statement i_stmt); [|exact E].
  clear E. induction m as [|n m IH]; constructor; [|exact IH]. apply tree_ind. exact step.
Qed.
