(** Facts about traversals. *)
From Coq Require Import List NArith Bool String Lia Permutation.
From Verif Require Import Bytes Token Lexer Ast AstInd Visitor SpecVisit.
Import ListNotations.
Open Scope nat_scope.

Definition v_any (a : any) : visit :=
  match a with
  | A_Ident _ => []
  | A_Expr n => visit_expression n
  | A_Tpl n => v_template (n_item n)
  | A_Prop n => v_property (n_item n)
  | A_Key n => v_key (n_item n)
  | A_Pat n => v_pattern (n_item n)
  | A_Func n => v_func (n_item n)
  | A_Member n => v_member (n_item n)
  | A_Body n => flat_map visit_statement (b_body (n_item n))
  | A_ClassBody n => v_list v_member (b_body (n_item n))
  | A_Cases n => v_list v_case (b_body (n_item n))
  | A_Stmt n => visit_statement n
  | A_Declarator n => v_declarator (n_item n)
  | A_ForInit n => v_for_init (n_item n)
  | A_Case n => v_case (n_item n)
  | A_Catch n => v_catch (n_item n)
  | A_Spec n => v_specifier (n_item n)
  end.

(** ** Sums over a traversal *)
Section Sum.
  Context {X : Type} (f : vcall -> list X) (own : any -> list X).
  Definition total (v : visit) : list X := flat_map f v.
  Lemma total_app v v' : total (v ++ v') = total v ++ total v'.
  Proof. apply flat_map_app. Qed.
  Lemma total_list {A : Set} (g : A -> visit) (h : node A -> any) l : (forall n, v_any (h n) = g (n_item n)) ->
    total (v_list g l) = flat_map (fun c => total (v_any c)) (map h l).
  Proof. intros E. induction l as [|n l IH]; simpl; auto. now rewrite total_app, IH, E. Qed.
  Lemma total_flat {A : Set} (g : node A -> visit) (h : node A -> any) l : (forall n, v_any (h n) = g n) ->
    total (flat_map g l) = flat_map (fun c => total (v_any c)) (map h l).
  Proof. intros E. induction l as [|n l IH]; simpl; auto. now rewrite total_app, IH, E. Qed.
End Sum.
Ltac nodes := repeat match goal with n : node _ |- _ => destruct n as [? ? ?] end.
Section Exact.
  Context {X : Type} (f : vcall -> list X).
  Hypothesis f_push : forall p, f (V_push_parent p) = [].
  Hypothesis f_pop : f V_pop_parent = [].
  Hypothesis f_sl : forall l, f (V_statement_list l) = [].
  Hypothesis f_use : forall x, f (V_reference_use x) = [].
  Hypothesis f_decl : forall x, f (V_reference_declaration x) = [].
  Hypothesis f_panic : f V_panic = [].
  Hypothesis f_leave : f V_leave_scope = [].
  Hypothesis f_enter : forall k, f (V_enter_scope k) = [].
  Definition own (a : any) : list X :=
    match a with
    | A_Expr n => match n_item n with E_Void => [] | _ => f (V_expression n) end
    | A_Stmt n => match n_item n with St_Empty | St_Debugger => [] | _ => f (V_statement n) end
    | _ => []
    end.
  Notation below l := (flat_map (fun c => total f (v_any c)) l).
  Lemma flat_list {A : Set} (g : A -> visit) (h : node A -> any) l : (forall n, v_any (h n) = g (n_item n)) ->
    flat_map f (v_list g l) = below (map h l).
  Proof. apply (total_list f). Qed.
  Lemma flat_flat {A : Set} (g : node A -> visit) (h : node A -> any) l : (forall n, v_any (h n) = g n) ->
    flat_map f (flat_map g l) = below (map h l).
  Proof. apply (total_flat f). Qed.
  Lemma below_idents l : below (map A_Ident l) = [].
  Proof. induction l; simpl; auto. Qed.
  Lemma below_specs l : below (map A_Spec l) = [].
  Proof.
    induction l as [|[s e []] l IH]; simpl in *; auto; rewrite IH; simpl; rewrite ?f_use; auto.
  Qed.
  Lemma f_specs l : flat_map f (v_list v_specifier l) = [].
  Proof. rewrite (flat_list v_specifier A_Spec) by reflexivity. apply below_specs. Qed.
  Ltac fl := repeat first
    [ rewrite f_push | rewrite f_pop | rewrite f_sl | rewrite f_use | rewrite f_decl | rewrite f_panic | rewrite f_leave | rewrite f_enter
    | rewrite flat_map_app | rewrite app_nil_r | rewrite below_idents | rewrite below_specs | rewrite f_specs
    | rewrite (flat_flat _ A_Expr) by reflexivity | rewrite (flat_flat _ A_Stmt) by reflexivity
    | rewrite (flat_list v_pattern A_Pat) by reflexivity
    | rewrite (flat_list v_property A_Prop) by reflexivity
    | rewrite (flat_list v_member A_Member) by reflexivity
    | rewrite (flat_list v_declarator A_Declarator) by reflexivity
    | rewrite (flat_list v_case A_Case) by reflexivity
    | progress cbn [app flat_map opt] ].
  Lemma exact_func g : flat_map f (v_func g) = below (children_func g).
  Proof.
    destruct g as [[|[n|]|n] ge ps [s e [b]]]; cbn [v_func v_name children_func children_name v_any total n_item b_body visit_statement]; unfold total; fl;
    cbn [v_any n_item b_body visit_statement] in *; unfold total; fl; reflexivity.
  Qed.
  Ltac go := cbn [v_any n_item b_body n_start n_end v_with_parent v_stmt_with_parent visit_statement visit_expression] in *; unfold total, v_ident; fl.
  Lemma exact_class g : flat_map f (v_class g) = below (children_class g).
  Proof.
    destruct g as [[|[n|]|n] [x|] [s e [b]]]; cbn [v_class v_name children_class children_name]; unfold total; go; go; reflexivity.
  Qed.
  Lemma exact_template g : flat_map f (v_template g) = below (children_template g).
  Proof. destruct g as [es qs]; cbn [v_template children_template]; unfold total; go; reflexivity. Qed.
  Lemma exact_step a : total f (v_any a) = own a ++ below (children a).
  Proof.
    destruct a as [n|n|n|n|n|n|n|n|n|n|n|n|n|n|n|n|n]; destruct n as [s e x]; cbn [v_any children own n_item app].
    - reflexivity.
    - unfold visit_expression; cbn [n_item n_start n_end].
      destruct x as [| | |l|b|b|o p|o p|m p|g args|op l r|op x|op x|t q a|t|t q|x|ps [x|[? ? [b]]]|b|g|g];
        cbn [v_expression children_expression]; unfold v_with_parent, total; go;
        rewrite ?exact_func, ?exact_class, ?exact_template; go; rewrite ?exact_template; auto.
    - apply exact_template.
    - destruct x; cbn [v_property]; unfold total; go; auto.
    - destruct x; cbn [v_key]; unfold total; go; auto.
    - destruct x; cbn [v_pattern]; unfold total; go; auto.
    - apply exact_func.
    - destruct x; cbn [v_member]; unfold total; go; auto.
    - destruct x. unfold total; go; auto.
    - destruct x. unfold total; go; auto.
    - destruct x. unfold total; go; auto.
    - unfold visit_statement; cbn [n_item n_start n_end].
      destruct x as [| |x|k ds|[v|]|[l|]|[l|]|v|t q [a|]|t b|b t|[i|] [t|] [u|] b|l r b|l r b|b [h|] [g|]|[b]|l b|g|g|d q|ss src];
        cbn [v_statement children_statement]; unfold v_stmt_with_parent, total; go;
        rewrite ?exact_func, ?exact_class; go; rewrite <- ?app_assoc; auto.
    - destruct x as [p [i|]]; cbn [v_declarator]; unfold total; go; go; rewrite <- ?app_assoc; auto.
    - destruct x; cbn [v_for_init]; unfold total; go; go; rewrite <- ?app_assoc; auto.
    - destruct x as [[t|] b]; cbn [v_case]; unfold total; go; go; rewrite <- ?app_assoc; auto.
    - destruct x as [p [? ? [b]]]; cbn [v_catch]; unfold total; go; go; rewrite <- ?app_assoc; auto.
    - destruct x; cbn [v_specifier]; unfold total; go; go; rewrite <- ?app_assoc; auto.
  Qed.
  Lemma exact_preorder a : forall l, preorder a l -> total f (v_any a) = flat_map own l.
  Proof.
    revert a. apply (tree_ind (fun a => forall l, preorder a l -> total f (v_any a) = flat_map own l)).
    intros a IH l H. inversion H as [? ls F]; subst. rewrite exact_step. cbn [flat_map]. f_equal.
    clear H. revert ls F. induction IH as [|c cs Hc Hcs IHl]; intros ls F; inversion F as [|? l ? ls' H1 H2]; subst; auto.
    cbn [flat_map List.concat]. rewrite flat_map_app. f_equal; auto.
  Qed.
  Lemma exact_module m l : module_preorder m l -> total f (visit_module m) = flat_map own l.
  Proof.
    intros (ls & F & ->). unfold visit_module. revert ls F. induction m as [|s m IH]; intros ls F; inversion F as [|? l ? ls' H1 H2]; subst; auto.
    cbn [flat_map List.concat]. rewrite total_app, flat_map_app. f_equal; auto. apply (exact_preorder (A_Stmt s)). auto.
  Qed.
End Exact.

(** ** Properties of traversals closed under sequencing and nesting *)
Definition plain (c : vcall) : Prop :=
  match c with V_statement_list _ | V_reference_use _ | V_reference_declaration _ => True | _ => False end.
Section Closed.
  Variable T : visit -> Prop.
  Hypothesis T_nil : T [].
  Hypothesis T_app : forall v v', T v -> T v' -> T (v ++ v').
  Hypothesis T_plain : forall c, plain c -> T [c].
  Hypothesis T_leaf : forall n, (n_item n = E_This \/ exists l, n_item n = E_Literal l) -> T [V_expression n].
  Hypothesis T_ident : forall n s, n_item n = E_Identifier s -> T (v_with_parent n [V_reference_use s]).
  Hypothesis T_expr : forall n v, (forall s, n_item n <> E_Identifier s) -> T v -> T (v_with_parent n v).
  Hypothesis T_stmt : forall n v, T v -> T (v_stmt_with_parent n v).
  Hypothesis T_scope : forall k v, T v -> T (V_enter_scope k :: v ++ [V_leave_scope]).

  Lemma T_cons c v : plain c -> T v -> T (c :: v). Proof. intros H. apply (T_app [c]). auto. Qed.
  Lemma T_vlist {A : Set} (g : A -> visit) (h : node A -> any) l : (forall n, v_any (h n) = g (n_item n)) ->
    Forall (fun a => T (v_any a)) (map h l) -> T (v_list g l).
  Proof. intros E H. induction l as [|n l IH]; simpl; auto. inversion H; subst. apply T_app; auto. now rewrite <- E. Qed.
  Lemma T_flat {A : Set} (g : node A -> visit) (h : node A -> any) l : (forall n, v_any (h n) = g n) ->
    Forall (fun a => T (v_any a)) (map h l) -> T (flat_map g l).
  Proof. intros E H. induction l as [|n l IH]; simpl; auto. inversion H; subst. apply T_app; auto. now rewrite <- E. Qed.
  Lemma T_ident' n : T (v_ident n). Proof. apply T_plain. exact I. Qed.
  Lemma T_name n : T (v_name n). Proof. destruct n; simpl; auto. apply T_plain. exact I. Qed.
  Lemma T_spec s : T (v_specifier s).
  Proof. destruct s; simpl; repeat (apply T_cons; [exact I|]); apply T_nil. Qed.
  Lemma T_specs l : T (v_list v_specifier l).
  Proof. induction l; simpl; auto. apply T_app; auto. apply T_spec. Qed.
  Lemma T_scoped k v v' : T v -> T v' -> T (V_enter_scope k :: v ++ V_leave_scope :: v').
  Proof.
    intros H H'. replace (V_enter_scope k :: v ++ V_leave_scope :: v') with ((V_enter_scope k :: v ++ [V_leave_scope]) ++ v')
      by (simpl; now rewrite <- app_assoc). apply T_app; auto.
  Qed.
  Ltac sub H := match type of H with
    | Forall _ (_ :: _) => let H1 := fresh in let H2 := fresh in
        inversion H as [|? ? H1 H2]; subst; clear H; sub H2
    | Forall _ (_ ++ _) => let H1 := fresh in let H2 := fresh in
        apply Forall_app in H as [H1 H2]; sub H1; sub H2
    | Forall _ [] => clear H
    | _ => idtac
    end.
  Ltac close := repeat first [assumption | apply T_nil | apply T_ident' | apply T_name | apply T_specs | apply T_spec
    | eapply (T_flat _ A_Expr); [reflexivity|eassumption]
    | eapply (T_flat _ A_Stmt); [reflexivity|eassumption]
    | eapply (T_vlist v_pattern A_Pat); [reflexivity|eassumption]
    | eapply (T_vlist v_property A_Prop); [reflexivity|eassumption]
    | eapply (T_vlist v_member A_Member); [reflexivity|eassumption]
    | eapply (T_vlist v_declarator A_Declarator); [reflexivity|eassumption]
    | eapply (T_vlist v_case A_Case); [reflexivity|eassumption]
    | apply T_app | (apply T_cons; [exact I|])
    | match goal with |- T (V_enter_scope ?k :: ?a :: ?v ++ V_leave_scope :: ?w) => apply (T_scoped k (a :: v) w) end
    | match goal with |- T (V_enter_scope ?k :: ?a :: ?v ++ [V_leave_scope] ++ ?w) => apply (T_scoped k (a :: v) w) end
    | match goal with |- T (V_enter_scope ?k :: ?a :: (?v ++ [V_leave_scope]) ++ ?w) => rewrite <- (app_assoc v [V_leave_scope] w) end
    | apply (T_scope _ (_ :: _)) | apply T_scope ].
  Lemma T_func g : Forall (fun a => T (v_any a)) (children_func g) -> T (v_func g).
  Proof.
    destruct g as [n ge ps [s e [b]]]. cbn [children_func v_func]. intros H. apply Forall_app in H as [_ H]. sub H.
    cbn [v_any n_item b_body] in *. apply T_app; [apply T_name|].
    replace ([V_enter_scope SK_Function] ++ v_list v_pattern ps ++ [V_statement_list b]
      ++ flat_map (fun n => v_statement (n_start n) (n_end n) (n_item n)) b ++ [V_leave_scope])
      with (V_enter_scope SK_Function :: (v_list v_pattern ps ++ [V_statement_list b] ++ flat_map (fun n => v_statement (n_start n) (n_end n) (n_item n)) b) ++ [V_leave_scope])
      by (simpl; rewrite <- !app_assoc; reflexivity).
    apply T_scope. close.
  Qed.
  Lemma T_class g : Forall (fun a => T (v_any a)) (children_class g) -> T (v_class g).
  Proof.
    destruct g as [n [x|] [s e [b]]]; cbn [children_class v_class opt app]; intros H; apply Forall_app in H as [_ H]; sub H;
    cbn [v_any n_item b_body] in *; close.
  Qed.
  Lemma T_template_lit g : Forall (fun a => T (v_any a)) (children_template g) -> T (v_template g).
  Proof. destruct g as [es qs]; cbn [children_template v_template]; intros H; sub H. close. Qed.

  Theorem visit_closed a :
    (forall m, within (A_Member m) a -> n_item m = CM_Error -> T [V_panic]) ->
    (forall n ss src, within (A_Stmt n) a -> n_item n = St_Import ss src ->
       forall v, T v -> T (V_statement n :: v ++ [V_pop_parent])) -> T (v_any a).
  Proof.
    revert a. apply (tree_ind (fun a => (forall m, within (A_Member m) a -> n_item m = CM_Error -> T [V_panic]) ->
      (forall n ss src, within (A_Stmt n) a -> n_item n = St_Import ss src ->
       forall v, T v -> T (V_statement n :: v ++ [V_pop_parent])) -> T (v_any a))).
    intros a IH HP HE.
    assert (K : Forall (fun a => T (v_any a)) (children a)).
    { rewrite Forall_forall in *. intros c Hc. apply IH; auto.
      - intros n W. apply (HP n). econstructor; eauto.
      - intros n ss src W. eapply HE. econstructor; eauto. }
    clear IH. destruct a as [n|n|n|n|n|n|n|n|n|n|n|n|n|n|n|n|n]; destruct n as [s e x]; cbn [v_any n_item children] in *.
    - close.
    - unfold visit_expression; cbn [n_item n_start n_end].
      destruct x as [| | |l|b|b|o p|o p|m p|g args|op l r|op x|op x|t q a|t|t q|x|ps [x|[? ? [b]]]|b|g|g];
        cbn [v_expression children_expression] in *; try (apply T_expr; [discriminate|]); try solve [sub K; close].
      + apply T_leaf. auto.
      + apply T_ident. reflexivity.
      + apply T_leaf. right. exists l. reflexivity.
      + now apply T_template_lit.
      + now apply T_func.
      + now apply T_class.
    - now apply T_template_lit.
    - destruct x; sub K; cbn [v_property]; close.
    - destruct x; sub K; cbn [v_key]; close.
    - destruct x; sub K; cbn [v_pattern]; close.
    - now apply T_func.
    - destruct x; sub K; cbn [v_member]; [apply (HP _ (within_refl _) eq_refl)|close|close].
    - destruct x. sub K. close.
    - destruct x. sub K. close.
    - destruct x. sub K. close.
    - unfold visit_statement; cbn [n_item n_start n_end].
      destruct x as [| |x|k ds|[v|]|[l|]|[l|]|v|t q [a|]|t b|b t|[i|] [t|] [u|] b|l r b|l r b|[? ? [b]] [h|] [[? ? [g]]|]|[b]|l b|g|g|d [? ? [q]]|ss src];
        cbn [v_statement children_statement opt app v_any n_item b_body] in *; try (apply T_stmt); try solve [sub K; cbn [v_any n_item b_body] in *; close].
      + now apply T_func.
      + now apply T_class.
      + change (V_statement ?n :: V_reference_use src :: v_list v_specifier ss ++ [V_pop_parent])
          with (V_statement n :: (V_reference_use src :: v_list v_specifier ss) ++ [V_pop_parent]).
        eapply HE; [apply within_refl|reflexivity|]. close.
    - destruct x as [p [i|]]; cbn [v_declarator opt] in *; sub K; close.
    - destruct x; cbn [v_for_init] in *; sub K; close.
    - destruct x as [[t|] b]; cbn [v_case opt] in *; sub K; close.
    - destruct x as [p [? ? [b]]]; cbn [v_catch app n_item b_body]; sub K; cbn [v_any n_item b_body] in *; close.
    - close.
  Qed.
End Closed.

(** ** Nesting *)
Lemma scopes_nest_app v v' : scopes_nest v -> scopes_nest v' -> scopes_nest (v ++ v').
Proof.
  induction 1 as [|c v N1 N2 H IH|k v w H IH H' IH']; simpl; intros K; auto.
  - apply sn_other; auto.
  - rewrite <- app_assoc. simpl. apply sn_scope; auto.
Qed.
Lemma parents_nest_app v v' : parents_nest v -> parents_nest v' -> parents_nest (v ++ v').
Proof.
  induction 1 as [|c v N1 N2 H IH|k v w H IH H' IH']; simpl; intros K; auto.
  - apply pn_other; auto.
  - rewrite <- app_assoc. simpl. apply pn_parent; auto.
Qed.
Ltac other := first [apply sn_other; [discriminate|discriminate|] | apply pn_other; [discriminate|discriminate|]].
Lemma scopes_any a : scopes_nest (v_any a).
Proof.
  apply visit_closed.
  - constructor.
  - apply scopes_nest_app.
  - intros [] []; other; constructor.
  - intros; other; constructor.
  - intros; unfold v_with_parent; simpl. repeat other. constructor.
  - intros; unfold v_with_parent; simpl. repeat other. apply scopes_nest_app; auto. other. constructor.
  - intros; unfold v_stmt_with_parent; simpl. repeat other. apply scopes_nest_app; auto. other. constructor.
  - intros. apply sn_scope; auto. constructor.
  - intros. other. constructor.
  - intros. other. apply scopes_nest_app; auto. other. constructor.
Qed.
Lemma parents_any a : (forall n ss src, within (A_Stmt n) a -> n_item n <> St_Import ss src) -> parents_nest (v_any a).
Proof.
  intros HI. apply visit_closed.
  - constructor.
  - apply parents_nest_app.
  - intros [] []; other; constructor.
  - intros; other; constructor.
  - intros; unfold v_with_parent; simpl. other. apply (pn_parent _ [_]); [other|]; constructor.
  - intros; unfold v_with_parent; simpl. other. apply pn_parent; auto; constructor.
  - intros; unfold v_stmt_with_parent; simpl. other. apply pn_parent; auto; constructor.
  - intros. other. apply parents_nest_app; auto. other. constructor.
  - intros. other. constructor.
  - intros n ss src W E. destruct (HI n ss src W E).
Qed.
Lemma module_nest (T : visit -> Prop) m : T [] -> (forall v v', T v -> T v' -> T (v ++ v')) ->
  (forall s, In s m -> T (v_any (A_Stmt s))) -> T (visit_module m).
Proof.
  intros T0 Ta H. unfold visit_module. induction m as [|s m IH]; simpl; auto. apply Ta; [apply (H s)|apply IH]; simpl; auto.
  intros s' I. apply H. simpl. auto.
Qed.
Lemma scopes_module m : scopes_nest (visit_module m).
Proof. apply module_nest; [constructor|apply scopes_nest_app|]. intros s _. apply scopes_any. Qed.
Lemma parents_module m : (forall n ss src, in_module (A_Stmt n) m -> n_item n <> St_Import ss src) -> parents_nest (visit_module m).
Proof.
  intros H. apply module_nest; [constructor|apply parents_nest_app|]. intros s I. apply parents_any.
  intros n ss src W. apply H. exists s. auto.
Qed.

(** ** Identifiers are used *)
Definition ids_used (v : visit) : Prop :=
  forall v1 n s v2, v = v1 ++ V_expression n :: v2 -> n_item n = E_Identifier s ->
  exists v3, v2 = V_push_parent (PN_Expression n) :: V_reference_use s :: V_pop_parent :: v3.
Lemma ids_app v v' : ids_used v -> ids_used v' -> ids_used (v ++ v').
Proof.
  intros H H' v1 n s v2 E I. revert v1 E. induction v as [|c v IH]; intros v1 E.
  - apply (H' v1 n s v2); auto.
  - destruct v1 as [|c' v1]; simpl in E; injection E as -> E.
    + destruct (H [] n s v eq_refl I) as (v3 & ->). simpl in E. subst v2. exists (v3 ++ v'). reflexivity.
    + apply (IH) with (v1 := v1); auto. intros w1 m t w2 Ev. apply (H (c' :: w1) m t w2). now rewrite Ev.
Qed.
Lemma ids_one c : (forall n s, c = V_expression n -> n_item n <> E_Identifier s) -> ids_used [c].
Proof.
  intros H v1 n s v2 E I. destruct v1 as [|c' v1]; simpl in E; [injection E as -> <-; destruct (H n s eq_refl I)|].
  injection E as _ E. destruct v1; discriminate.
Qed.
Lemma ids_nil : ids_used [].
Proof. intros [|] n s v2 E; discriminate. Qed.
Lemma ids_any a : ids_used (v_any a).
Proof.
  apply visit_closed.
  - apply ids_nil.
  - apply ids_app.
  - intros c P. apply ids_one. intros n s ->. destruct P.
  - intros n H. apply ids_one. intros n' s E. injection E as <-. destruct H as [->|(l & ->)]; discriminate.
  - intros n s E v1 n' s' v2 E' I. unfold v_with_parent in E'. simpl in E'.
    destruct v1 as [|c v1]; simpl in E'.
    + injection E' as <- <-. rewrite E in I. injection I as <-. exists []. reflexivity.
    + injection E' as _ E'. destruct v1 as [|c1 v1]; simpl in E'; [discriminate|]. injection E' as _ E'.
      destruct v1 as [|c2 v1]; simpl in E'; [discriminate|]. injection E' as _ E'.
      destruct v1 as [|c3 v1]; simpl in E'; [discriminate|]. injection E' as _ E'. destruct v1; discriminate.
  - intros n v NI H. apply (ids_app [_]); [|apply (ids_app [_]); [|apply ids_app; auto]]; apply ids_one; intros n' s E; try discriminate.
    injection E as <-. apply NI.
  - intros n v H. apply (ids_app [_]); [|apply (ids_app [_]); [|apply ids_app; auto]]; apply ids_one; discriminate.
  - intros k v H. apply (ids_app [_]); [|apply ids_app; auto]; apply ids_one; discriminate.
  - intros m _ _. apply ids_one. discriminate.
  - intros n ss src _ _ v H. apply (ids_app [_]); [|apply ids_app; auto]; apply ids_one; discriminate.
Qed.
Lemma ids_module m : ids_used (visit_module m).
Proof. apply module_nest; [apply ids_nil|apply ids_app|]. intros s _. apply ids_any. Qed.

(** ** Running the scope analysis *)
Definition entered (v : visit) : list scope_kind :=
  flat_map (fun c => match c with V_enter_scope k => [k] | _ => [] end) v.
Definition peaceful (v : visit) : Prop := ~ In V_panic v.
Lemma analyzer_run_app st v v' : analyzer_run st (v ++ v') = (st' <~ analyzer_run st v ;; analyzer_run st' v').
Proof.
  revert st. induction v as [|c v IH]; intros st; [reflexivity|]. simpl. destruct (analyzer_step st c); simpl; auto.
Qed.
(** What only grows in a scope during the analysis. *)
Definition grows (s s' : scope) : Prop :=
  sc_kind s' = sc_kind s /\ (exists l, sc_used s' = sc_used s ++ l) /\ (exists l, sc_declared s' = sc_declared s ++ l) /\
  (exists l, sc_children s' = sc_children s ++ l).
Lemma grows_refl s : grows s s.
Proof. split; [auto|split; [|split]]; exists []; now rewrite app_nil_r. Qed.
Lemma grows_trans a b c : grows a b -> grows b c -> grows a c.
Proof.
  intros (K1 & (l1 & E1) & (l2 & E2) & (l3 & E3)) (K2 & (m1 & F1) & (m2 & F2) & (m3 & F3)).
  split; [congruence|split; [|split]]; eexists; rewrite ?F1, ?F2, ?F3, ?E1, ?E2, ?E3, <- app_assoc; reflexivity.
Qed.
Lemma grows_in s c c' : grows c c' -> scope_in s c -> s = c \/ scope_in s c'.
Proof.
  intros G H. inversion H as [|? d ? I J]; subst; auto. right. destruct G as (_ & _ & _ & l & E).
  econstructor; [rewrite E; apply in_or_app; left; exact I|exact J].
Qed.
Lemma run_nest v : scopes_nest v -> peaceful v -> forall cur ps, exists cur',
  analyzer_run (cur, ps) v = Done (cur', ps) /\ grows cur cur' /\
  scope_kinds cur' = scope_kinds cur ++ entered v.
Proof.
  induction 1 as [|c v N1 N2 H IH|k v w H IH H' IH']; intros P cur ps.
  - exists cur. split; [reflexivity|split; [apply grows_refl|]]. simpl. now rewrite app_nil_r.
  - assert (Pv : peaceful v) by (intros I; apply P; right; auto).
    assert (Pc : c <> V_panic) by (intros ->; apply P; left; auto).
    assert (S : exists cur1, analyzer_step (cur, ps) c = Done (cur1, ps) /\ grows cur cur1 /\ scope_kinds cur1 = scope_kinds cur).
    { assert (S0 : exists cur1, Done (cur, ps) = Done (cur1, ps) /\ grows cur cur1 /\ scope_kinds cur1 = scope_kinds cur)
        by (exists cur; split; [reflexivity|split; [apply grows_refl|reflexivity]]).
      destruct c as [p| |l|k| |x|x|n|n|]; try exact S0; try congruence; try (destruct (N1 _ eq_refl)).
      - exists (sc_use x cur). split; [reflexivity|]. destruct cur as [k t u d cs]. split; [|reflexivity].
        split; [reflexivity|split; [|split]]; simpl; [exists [x]|exists []|exists []]; now rewrite ?app_nil_r.
      - exists (sc_declare x cur). split; [reflexivity|]. destruct cur as [k t u d cs]. split; [|reflexivity].
        split; [reflexivity|split; [|split]]; simpl; [exists []|exists [x]|exists []]; now rewrite ?app_nil_r.
      - simpl. destruct (n_item n); try exact S0.
        exists (sc_this cur). split; [reflexivity|]. destruct cur as [k t u d cs]. split; [|reflexivity].
        split; [reflexivity|split; [|split]]; simpl; [exists []|exists []|exists []]; now rewrite ?app_nil_r. }
    destruct S as (cur1 & E1 & G1 & K1). destruct (IH Pv cur1 ps) as (cur' & E2 & G2 & K2).
    exists cur'. cbn [analyzer_run]. rewrite E1. cbn [obind]. split; [exact E2|]. split; [eapply grows_trans; eauto|].
    rewrite K2, K1. f_equal. destruct c as [p| |l|k| |x|x|n|n|]; try reflexivity. destruct (N1 k eq_refl).
  - assert (Pv : peaceful v) by (intros I; apply P; right; apply in_or_app; auto).
    assert (Pw : peaceful w) by (intros I; apply P; right; apply in_or_app; right; right; auto).
    destruct (IH Pv (scope_new k) (cur :: ps)) as (c1 & E1 & G1 & K1).
    destruct (IH' Pw (sc_push_child c1 cur) ps) as (cur' & E2 & G2 & K2).
    exists cur'. cbn [analyzer_run]. change (analyzer_step (cur, ps) (V_enter_scope k)) with (Done (scope_new k, cur :: ps)). cbn [obind].
    rewrite analyzer_run_app, E1. cbn [obind analyzer_run analyzer_step]. split; [exact E2|]. split.
    + eapply grows_trans; [|exact G2]. destruct cur as [k0 t u d cs]. split; [reflexivity|split; [|split]]; simpl; [exists []|exists []|exists [c1]]; now rewrite ?app_nil_r.
    + rewrite K2. destruct cur as [k0 t u d cs]. simpl. rewrite flat_map_app. simpl. rewrite app_nil_r, K1.
      unfold entered. cbn [flat_map app]. rewrite flat_map_app. cbn [flat_map app scope_kinds scope_new].
      rewrite <- !app_assoc. reflexivity.
Qed.
Lemma peaceful_app v v' : peaceful v -> peaceful v' -> peaceful (v ++ v').
Proof. unfold peaceful. intros H H' I. apply in_app_iff in I. tauto. Qed.
Lemma peaceful_one c : c <> V_panic -> peaceful [c].
Proof. intros H [E|[]]. auto. Qed.
Lemma peaceful_any a : (forall m, within (A_Member m) a -> n_item m <> CM_Error) -> peaceful (v_any a).
Proof.
  intros H. assert (N : peaceful []) by (intros []).
  apply visit_closed; auto.
  - apply peaceful_app.
  - intros c Pc. apply peaceful_one. intros ->. destruct Pc.
  - intros n _. apply peaceful_one. discriminate.
  - intros n s _. repeat (apply (peaceful_app [_]); [apply peaceful_one; discriminate|]). auto.
  - intros n v _ Hv. repeat (apply (peaceful_app [_]); [apply peaceful_one; discriminate|]).
    apply peaceful_app; auto. apply peaceful_one; discriminate.
  - intros n v Hv. repeat (apply (peaceful_app [_]); [apply peaceful_one; discriminate|]).
    apply peaceful_app; auto. apply peaceful_one; discriminate.
  - intros k v Hv. repeat (apply (peaceful_app [_]); [apply peaceful_one; discriminate|]).
    apply peaceful_app; auto. apply peaceful_one; discriminate.
  - intros m W E. destruct (H m W E).
  - intros n ss src _ _ v Hv. repeat (apply (peaceful_app [_]); [apply peaceful_one; discriminate|]).
    apply peaceful_app; auto. apply peaceful_one; discriminate.
Qed.
Lemma peaceful_module m : (forall x, in_module (A_Member x) m -> n_item x <> CM_Error) -> peaceful (visit_module m).
Proof.
  intros H. apply module_nest; [intros []|apply peaceful_app|]. intros s I. apply peaceful_any. intros x W. apply H. exists s. auto.
Qed.

(** ** Counting scopes *)
Section Count.
  Variable k : scope_kind.
  Notation cnt v := (how_many k (entered v)).
  Lemma cnt_app v v' : cnt (v ++ v') = cnt v + cnt v'.
  Proof. unfold entered, how_many. now rewrite flat_map_app, filter_app, app_length. Qed.
  Definition below (l : list any) : nat := list_sum (map (fun c => cnt (v_any c)) l).
  Lemma below_app l l' : below (l ++ l') = below l + below l'.
  Proof. unfold below. now rewrite map_app, list_sum_app. Qed.
  Lemma below_cons a l : below (a :: l) = cnt (v_any a) + below l.
  Proof. reflexivity. Qed.
  Lemma cnt_list {A : Set} (g : A -> visit) (h : node A -> any) l : (forall n, v_any (h n) = g (n_item n)) ->
    cnt (v_list g l) = below (map h l).
  Proof. intros E. induction l as [|n l IH]; [reflexivity|]. cbn [v_list map]. now rewrite cnt_app, below_cons, IH, E. Qed.
  Lemma cnt_flat {A : Set} (g : node A -> visit) (h : node A -> any) l : (forall n, v_any (h n) = g n) ->
    cnt (flat_map g l) = below (map h l).
  Proof. intros E. induction l as [|n l IH]; [reflexivity|]. cbn [flat_map map]. now rewrite cnt_app, below_cons, IH, E. Qed.
  Definition unit_of (k' : scope_kind) : nat := if scope_kind_eqb k k' then 1 else 0.
  Lemma cnt_enter k' v : cnt (V_enter_scope k' :: v) = unit_of k' + cnt v.
  Proof. unfold entered, how_many, unit_of. simpl. destruct (scope_kind_eqb k k'); reflexivity. Qed.
  Lemma cnt_other c v : (forall k', c <> V_enter_scope k') -> cnt (c :: v) = cnt v.
  Proof. intros H. unfold entered. destruct c as [p| |l|k'| |x|x|n|n|]; try reflexivity. destruct (H k' eq_refl). Qed.
  Lemma opens_cons k' l : how_many k (k' :: l) = unit_of k' + how_many k l.
  Proof. unfold how_many, unit_of. simpl. destruct (scope_kind_eqb k k'); reflexivity. Qed.
  Lemma below_idents' l : below (map A_Ident l) = 0.
  Proof. induction l; auto. Qed.
  Lemma cnt_spec s : cnt (v_specifier s) = 0.
  Proof. destruct s; reflexivity. Qed.
  Lemma below_specs' l : below (map A_Spec l) = 0.
  Proof. induction l as [|n l IH]; [reflexivity|]. cbn [map]. rewrite below_cons, IH. cbn [v_any]. now rewrite cnt_spec. Qed.
  Lemma cnt_specs l : cnt (v_list v_specifier l) = 0.
  Proof. rewrite (cnt_list v_specifier A_Spec) by reflexivity. apply below_specs'. Qed.
  Lemma cnt_nil : cnt [] = 0. Proof. reflexivity. Qed.
  Lemma below_nil : below [] = 0. Proof. reflexivity. Qed.
  Ltac fl := repeat first
    [ rewrite cnt_nil | rewrite below_nil | rewrite cnt_app | rewrite below_app | rewrite below_cons | rewrite cnt_enter | rewrite cnt_other by discriminate
    | rewrite below_idents' | rewrite below_specs' | rewrite cnt_specs | rewrite opens_cons
    | rewrite (cnt_flat _ A_Expr) by reflexivity | rewrite (cnt_flat _ A_Stmt) by reflexivity
    | rewrite (cnt_list v_pattern A_Pat) by reflexivity
    | rewrite (cnt_list v_property A_Prop) by reflexivity
    | rewrite (cnt_list v_member A_Member) by reflexivity
    | rewrite (cnt_list v_declarator A_Declarator) by reflexivity
    | rewrite (cnt_list v_case A_Case) by reflexivity
    | progress cbn [app opt map] ].
  Ltac go := cbn [v_any n_item b_body n_start n_end v_with_parent v_stmt_with_parent visit_statement visit_expression] in *; unfold v_ident; fl.
  Ltac fin := cbn [v_any n_item n_start n_end]; unfold visit_expression, visit_statement in *; lia.
  Lemma count_name n : cnt (v_name n) = 0 /\ below (children_name n) = 0.
  Proof. destruct n as [|[n|]|n]; split; reflexivity. Qed.
  Lemma count_func g : cnt (v_func g) = unit_of SK_Function + below (children_func g).
  Proof.
    destruct g as [n ge ps [s e [b]]]. cbn [v_func children_func]. destruct (count_name n) as [E1 E2]. go. rewrite E1, E2. go. fin.
  Qed.
  Lemma count_class g : cnt (v_class g) = below (children_class g).
  Proof.
    destruct g as [n [x|] [s e [b]]]; cbn [v_class children_class]; destruct (count_name n) as [E1 E2]; go; rewrite E1, E2; go; fin.
  Qed.
  Lemma count_template g : cnt (v_template g) = below (children_template g).
  Proof. destruct g as [es qs]; cbn [v_template children_template]; go. fin. Qed.
  Lemma count_step a : cnt (v_any a) = how_many k (opens a) + below (children a).
  Proof.
    destruct a as [n|n|n|n|n|n|n|n|n|n|n|n|n|n|n|n|n]; destruct n as [s e x]; cbn [v_any children opens n_item app].
    - reflexivity.
    - unfold visit_expression; cbn [n_item n_start n_end].
      destruct x as [| | |l|b|b|o p|o p|m p|g args|op l r|op x|op x|t q a|t|t q|x|ps [x|[? ? [b]]]|b|g|g];
        cbn [v_expression children_expression]; unfold v_with_parent; go;
        rewrite ?count_func, ?count_class, ?count_template; go; rewrite ?count_template; change (how_many k []) with 0; try fin.
    - rewrite count_template. reflexivity.
    - destruct x; cbn [v_property]; go; change (how_many k []) with 0; try fin.
    - destruct x; cbn [v_key]; go; change (how_many k []) with 0; try fin.
    - destruct x; cbn [v_pattern]; go; change (how_many k []) with 0; try fin; reflexivity.
    - rewrite count_func. go. change (how_many k []) with 0. fin.
    - destruct x; cbn [v_member]; go; change (how_many k []) with 0; try fin.
    - destruct x. go. change (how_many k []) with 0. fin.
    - destruct x. go. change (how_many k []) with 0. fin.
    - destruct x. go. change (how_many k []) with 0. fin.
    - unfold visit_statement; cbn [n_item n_start n_end].
      destruct x as [| |x|k' ds|[v|]|[l|]|[l|]|v|t q [a|]|t b|b t|[i|] [t|] [u|] b|l r b|l r b|b [h|] [g|]|[b]|l b|g|g|d q|ss src];
        cbn [v_statement children_statement]; unfold v_stmt_with_parent; go;
        rewrite ?count_func, ?count_class; go; change (how_many k []) with 0; try fin.
    - destruct x as [p [i|]]; cbn [v_declarator]; go; change (how_many k []) with 0; fin.
    - destruct x; cbn [v_for_init]; go; change (how_many k []) with 0; fin.
    - destruct x as [[t|] b]; cbn [v_case]; go; change (how_many k []) with 0; fin.
    - destruct x as [p [? ? [b]]]; cbn [v_catch]; go; go; change (how_many k []) with 0; fin.
    - destruct x; reflexivity.
  Qed.
  Lemma how_many_app l l' : how_many k (l ++ l') = how_many k l + how_many k l'.
  Proof. unfold how_many. now rewrite filter_app, app_length. Qed.
  Lemma count_preorder a : forall l, preorder a l -> cnt (v_any a) = how_many k (flat_map opens l).
  Proof.
    revert a. apply (tree_ind (fun a => forall l, preorder a l -> cnt (v_any a) = how_many k (flat_map opens l))).
    intros a IH l H. inversion H as [? ls F]; subst. rewrite count_step. cbn [flat_map]. rewrite how_many_app. f_equal.
    clear H. revert ls F. induction IH as [|c cs Hc Hcs IHl]; intros ls F; inversion F as [|? l ? ls' H1 H2]; subst; auto.
    rewrite below_cons. cbn [List.concat]. rewrite flat_map_app, how_many_app. f_equal; auto.
  Qed.
  Lemma count_module m l : module_preorder m l -> cnt (visit_module m) = how_many k (flat_map opens l).
  Proof.
    intros (ls & F & ->). unfold visit_module. revert ls F. induction m as [|s m IH]; intros ls F; inversion F as [|? l ? ls' H1 H2]; subst; auto.
    cbn [flat_map List.concat]. rewrite cnt_app, flat_map_app, how_many_app. f_equal; auto. apply (count_preorder (A_Stmt s)). auto.
  Qed.
End Count.

(** ** What is around a node when it is reported *)
Definition rep (x : vcall * list parent_node) : list (parent_node * list parent_node) :=
  match x with
  | (V_expression n, st) => [(PN_Expression n, st)]
  | (V_statement n, st) => [(PN_Statement n, st)]
  | _ => [] end.
Definition after (st : list parent_node) (c : vcall) : list parent_node :=
  match c with V_push_parent p => p :: st | V_pop_parent => tl st | _ => st end.
Definition ev (st : list parent_node) (v : visit) (l : list (parent_node * list parent_node)) : Prop :=
  flat_map rep (with_parents st v) = l /\ fold_left after v st = st.
Lemma with_parents_app v : forall st v', with_parents st (v ++ v') = with_parents st v ++ with_parents (fold_left after v st) v'.
Proof. induction v as [|c v IH]; intros st v'; [reflexivity|]. cbn [app with_parents fold_left]. f_equal. apply IH. Qed.
Lemma ev_nil st : ev st [] []. Proof. split; reflexivity. Qed.
Lemma ev_app st v l v' l' : ev st v l -> ev st v' l' -> ev st (v ++ v') (l ++ l').
Proof. intros [E1 E2] [F1 F2]. split; [now rewrite with_parents_app, flat_map_app, E1, E2, F1|]. now rewrite fold_left_app, E2, F2. Qed.
Lemma ev_plain st c v l : (plain c \/ c = V_leave_scope \/ c = V_panic \/ exists k, c = V_enter_scope k) -> ev st v l -> ev st (c :: v) l.
Proof.
  intros H [E1 E2].
  assert (A : after st c = st /\ rep (c, st) = []) by (destruct H as [H|[->|[->|(k & ->)]]]; [destruct c; try destruct H|..]; split; reflexivity).
  destruct A as [A1 A2]. split.
  - change (rep (c, st) ++ flat_map rep (with_parents (after st c) v) = l). now rewrite A1, A2, E1.
  - cbn [fold_left]. now rewrite A1.
Qed.
Lemma ev_expr st n v l : ev (PN_Expression n :: st) v l -> ev st (v_with_parent n v) ((PN_Expression n, st) :: l).
Proof.
  intros [E1 E2]. split.
  - unfold v_with_parent. cbn [app with_parents flat_map rep]. f_equal. rewrite with_parents_app, flat_map_app, E1, E2. cbn. apply app_nil_r.
  - unfold v_with_parent. cbn [app fold_left after]. rewrite fold_left_app, E2. reflexivity.
Qed.
Lemma ev_stmt st n v l : ev (PN_Statement n :: st) v l -> ev st (v_stmt_with_parent n v) ((PN_Statement n, st) :: l).
Proof.
  intros [E1 E2]. split.
  - unfold v_stmt_with_parent. cbn [app with_parents flat_map rep]. f_equal. rewrite with_parents_app, flat_map_app, E1, E2. cbn. apply app_nil_r.
  - unfold v_stmt_with_parent. cbn [app fold_left after]. rewrite fold_left_app, E2. reflexivity.
Qed.
Lemma concat_map_flat {A B : Type} (f : A -> list B) ls : List.concat (map (flat_map f) ls) = flat_map f (List.concat ls).
Proof. induction ls as [|l ls IH]; [reflexivity|]. cbn [map List.concat]. now rewrite flat_map_app, IH. Qed.
Definition ownr (x : any * list parent_node) : list (parent_node * list parent_node) :=
  match x with
  | (A_Expr n, st) => match n_item n with E_Void => [] | _ => [(PN_Expression n, st)] end
  | (A_Stmt n, st) => match n_item n with St_Empty | St_Debugger => [] | _ => [(PN_Statement n, st)] end
  | _ => [] end.
(** ** The shape of a traversal *)
(** [v] consists of the traversals of [cs], one after the other, with calls in
    between that do not report nodes. *)
Definition quiet (c : vcall) : Prop := plain c \/ c = V_leave_scope \/ c = V_panic \/ exists k, c = V_enter_scope k.
Inductive follows : list any -> visit -> Prop :=
| fol_nil : follows [] []
| fol_one c : follows [c] (v_any c)
| fol_quiet c : quiet c -> follows [] [c]
| fol_app cs v cs' v' : follows cs v -> follows cs' v' -> follows (cs ++ cs') (v ++ v').
Lemma fol_cons c v cs v' : follows [c] v -> follows cs v' -> follows (c :: cs) (v ++ v').
Proof. apply (fol_app [c]). Qed.
Lemma fol_plain cs c v : quiet c -> follows cs v -> follows cs (c :: v).
Proof. intros P H. apply (fol_app [] [c] cs v); auto. now constructor. Qed.
Lemma fol_end cs c v : quiet c -> follows cs v -> follows cs (v ++ [c]).
Proof. intros P H. rewrite <- (app_nil_r cs). apply fol_app; auto. now constructor. Qed.
Lemma fol_list {A : Set} (g : A -> visit) (h : node A -> any) l : (forall n, v_any (h n) = g (n_item n)) -> follows (map h l) (v_list g l).
Proof. intros E. induction l as [|n l IH]; [constructor|]. cbn [map v_list]. apply fol_cons; auto. rewrite <- E. constructor. Qed.
Lemma fol_flat {A : Set} (g : node A -> visit) (h : node A -> any) l : (forall n, v_any (h n) = g n) -> follows (map h l) (flat_map g l).
Proof. intros E. induction l as [|n l IH]; [constructor|]. cbn [map flat_map]. apply fol_cons; auto. rewrite <- E. constructor. Qed.
Lemma fol_ident n v cs : follows cs v -> follows (A_Ident n :: cs) v.
Proof. intros H. apply (fol_cons _ []); auto. apply (fol_one (A_Ident n)). Qed.
Lemma fol_idents l : follows (map A_Ident l) [].
Proof. induction l; [constructor|now apply fol_ident]. Qed.
Ltac pl := solve [left; exact I|right; left; reflexivity|right; right; left; reflexivity|right; right; right; eexists; reflexivity].
Ltac one h := match goal with
  | |- follows [h ?n] _ => exact (fol_one (h n))
  | |- follows (h ?n :: ?cs) (?v ++ ?w) => apply (fol_cons (h n) v cs w); [exact (fol_one (h n))|]
  | |- follows (h ?n :: ?cs) ?v => rewrite <- (app_nil_r v); apply (fol_cons (h n) v cs []); [exact (fol_one (h n))|]
  end.
Ltac es := repeat first
  [ apply fol_nil | apply fol_idents | apply fol_ident
  | apply fol_flat; reflexivity | apply fol_list; reflexivity
  | apply fol_plain; [pl|] | apply fol_end; [pl|]
  | apply fol_app
  | match goal with |- context [_ ++ [?c]] => fail end | rewrite <- app_assoc
  | one A_Expr | one A_Tpl | one A_Prop | one A_Key | one A_Pat | one A_Func | one A_Member | one A_Stmt | one A_Declarator | one A_ForInit
  | one A_Case | one A_Catch | one A_Body | one A_ClassBody | one A_Cases | one A_Spec ].
Lemma fol_name n : follows (children_name n) (v_name n).
Proof. destruct n as [|[n|]|n]; cbn; es. Qed.
Lemma fol_func g : follows (children_func g) (v_func g).
Proof.
  destruct g as [n ge ps [s e [b]]]; cbn [children_func v_func]. apply fol_app; [apply fol_name|].
  cbn [app]. apply fol_plain; [pl|]. apply fol_app; [es|]. apply fol_plain; [pl|]. apply fol_end; [pl|]. cbn [n_item b_body].
  exact (fol_one (A_Body (Node s e (Block b)))).
Qed.
Lemma fol_class g : follows (children_class g) (v_class g).
Proof.
  destruct g as [n [x|] [s e [b]]]; cbn [children_class v_class opt app]; (apply fol_app; [apply fol_name|]); es.
  all: exact (fol_one (A_ClassBody (Node s e (Block b)))).
Qed.
Lemma fol_template g : follows (children_template g) (v_template g).
Proof.
  destruct g as [ex qs]. cbn [children_template v_template]. rewrite <- (app_nil_r (flat_map _ _)). apply fol_app; [apply fol_flat; reflexivity|apply fol_idents].
Qed.
Inductive shape : any -> visit -> Prop :=
| sh_quiet a v : as_parent a = [] -> follows (children a) v -> shape a v
| sh_skip a : children a = [] -> (forall st, ownr (a, st) = []) -> shape a []
| sh_leaf n : children (A_Expr n) = [] -> n_item n <> E_Void -> shape (A_Expr n) [V_expression n]
| sh_expr n v : n_item n <> E_Void -> follows (children (A_Expr n)) v -> shape (A_Expr n) (v_with_parent n v)
| sh_stmt n v : n_item n <> St_Empty -> n_item n <> St_Debugger -> follows (children (A_Stmt n)) v -> shape (A_Stmt n) (v_stmt_with_parent n v)
| sh_import n ss src v : n_item n = St_Import ss src -> follows (children (A_Stmt n)) v -> shape (A_Stmt n) (V_statement n :: v ++ [V_pop_parent]).
Lemma shapes a : shape a (v_any a).
Proof.
  destruct a as [n|n|n|n|n|n|n|n|n|n|n|n|n|n|n|n|n]; destruct n as [s e x]; cbn [v_any];
    try (apply sh_quiet; [reflexivity|]; cbn [children n_item]).
  - es.
  - unfold visit_expression; cbn [n_item n_start n_end].
    destruct x as [| | |l|b|b|o p|o p|m p|g args|op l r|op x|op x|t q a|t|t q|x|ps [x|[? ? [b]]]|b|g|g]; cbn [v_expression];
      try (apply sh_skip; reflexivity); try (apply sh_leaf; [reflexivity|discriminate]);
      (apply sh_expr; [discriminate|]); cbn [children n_item children_expression]; try solve [es].
    + apply fol_template.
    + apply fol_func.
    + apply fol_class.
  - apply fol_template.
  - destruct x; cbn [v_property]; es.
  - destruct x; cbn [v_key]; es.
  - destruct x; cbn [v_pattern]; es.
  - apply fol_func.
  - destruct x; cbn [v_member]; es.
  - destruct x; es.
  - destruct x; es.
  - destruct x; es.
  - unfold visit_statement; cbn [n_item n_start n_end].
    destruct x as [| |x|k ds|[v|]|[l|]|[l|]|v|t q [a|]|t b|b t|[i|] [t|] [u|] b|l r b|l r b|b [h|] [g|]|[b]|l b|g|g|d q|ss src]; cbn [v_statement];
      try (apply sh_skip; reflexivity);
      try (apply sh_stmt; [discriminate|discriminate|]; cbn [children n_item children_statement opt app]; try solve [es]).
    all: try apply fol_func; try apply fol_class.
    cbn [app].
    match goal with |- shape _ (?a :: ?b :: ?v ++ [?c]) => apply (sh_import _ ss src (b :: v)); [reflexivity|] end.
    cbn [children n_item children_statement]. es.
  - destruct x as [p [i|]]; cbn [v_declarator opt]; es.
  - destruct x; cbn [v_for_init]; es.
  - destruct x as [[t|] b]; cbn [v_case opt]; es.
  - destruct x as [p [? ? [b]]]; cbn [v_catch]; es.
  - destruct x; cbn [v_specifier v_ident app]; es.
Qed.
Lemma ev_follows st cs v : follows cs v -> forall ls, Forall2 (fun c l => ev st (v_any c) l) cs ls -> ev st v (List.concat ls).
Proof.
  induction 1 as [|c|c Q|cs v cs' v' H IH H' IH']; intros ls F.
  - inversion F. apply ev_nil.
  - inversion F as [|? l ? ls' H1 H2]; subst. inversion H2. simpl. now rewrite app_nil_r.
  - inversion F. apply ev_plain; auto. apply ev_nil.
  - apply Forall2_app_inv_l in F as (l1 & l2 & F1 & F2 & ->). rewrite concat_app. apply ev_app; auto.
Qed.
Lemma ev_step a st ls : (forall n ss src, a = A_Stmt n -> n_item n <> St_Import ss src) ->
  Forall2 (fun c l => ev (as_parent a ++ st) (v_any c) l) (children a) ls -> ev st (v_any a) (ownr (a, st) ++ List.concat ls).
Proof.
  intros NI. destruct (shapes a) as [a v E H|a E O|n E NV|n v NV H|n v N1 N2 H|n ss src v E H]; intros F.
  - rewrite E in F. replace (ownr (a, st)) with (@nil (parent_node * list parent_node)) by (destruct a; try reflexivity; discriminate).
    eapply ev_follows; eauto.
  - rewrite O. rewrite E in F. inversion F. apply ev_nil.
  - rewrite E in F. inversion F. cbn [ownr]. split; [|reflexivity]. destruct (n_item n); try reflexivity. now destruct NV.
  - replace (ownr (A_Expr n, st)) with [(PN_Expression n, st)] by (cbn [ownr]; destruct (n_item n); try reflexivity; now destruct NV).
    apply ev_expr. eapply ev_follows; eauto.
  - replace (ownr (A_Stmt n, st)) with [(PN_Statement n, st)] by (cbn [ownr]; destruct (n_item n); try reflexivity; [now destruct N1|now destruct N2]).
    apply ev_stmt. eapply ev_follows; eauto.
  - destruct (NI n ss src eq_refl E).
Qed.
(** A part of a tree is traversed within its traversal. *)
Lemma follows_infix cs v c : follows cs v -> In c cs -> exists v1 v2, v = v1 ++ v_any c ++ v2.
Proof.
  induction 1 as [|d|d Q|cs v cs' v' H IH H' IH']; intros I.
  - destruct I.
  - destruct I as [->|[]]. exists [], []. now rewrite app_nil_r.
  - destruct I.
  - apply in_app_or in I as [I|I].
    + destruct (IH I) as (v1 & v2 & ->). exists v1, (v2 ++ v'). now rewrite <- !app_assoc.
    + destruct (IH' I) as (v1 & v2 & ->). exists (v ++ v1), v2. now rewrite <- !app_assoc.
Qed.
Lemma infix_child a c : In c (children a) -> exists v1 v2, v_any a = v1 ++ v_any c ++ v2.
Proof.
  destruct (shapes a) as [a v E H|a E O|n E NV|n v NV H|n v N1 N2 H|n ss src v E H]; intros I; try (rewrite E in I; destruct I);
    destruct (follows_infix _ _ _ H I) as (v1 & v2 & ->).
  - exists v1, v2. reflexivity.
  - exists (V_expression n :: V_push_parent (PN_Expression n) :: v1), (v2 ++ [V_pop_parent]). unfold v_with_parent. cbn [app]. now rewrite <- !app_assoc.
  - exists (V_statement n :: V_push_parent (PN_Statement n) :: v1), (v2 ++ [V_pop_parent]). unfold v_stmt_with_parent. cbn [app]. now rewrite <- !app_assoc.
  - exists (V_statement n :: v1), (v2 ++ [V_pop_parent]). cbn [app]. now rewrite <- !app_assoc.
Qed.
Lemma infix_within c a : within c a -> exists v1 v2, v_any a = v1 ++ v_any c ++ v2.
Proof.
  induction 1 as [|a d c I W IH]; [exists [], []; now rewrite app_nil_r|].
  destruct IH as (v1 & v2 & E). destruct (infix_child _ _ I) as (w1 & w2 & ->). rewrite E.
  exists (w1 ++ v1), (v2 ++ w2). now rewrite <- !app_assoc.
Qed.
Lemma infix_module c m : in_module c m -> exists v1 v2, visit_module m = v1 ++ v_any c ++ v2.
Proof.
  intros (s & I & W). apply in_split in I as (m1 & m2 & ->). destruct (infix_within _ _ W) as (v1 & v2 & E).
  exists (visit_module m1 ++ v1), (v2 ++ visit_module m2). unfold visit_module. rewrite flat_map_app. cbn [flat_map].
  change (visit_statement s) with (v_any (A_Stmt s)). rewrite E. now rewrite <- !app_assoc.
Qed.
Lemma ev_preorder a : forall st l, preorder_in st a l -> (forall n ss src, within (A_Stmt n) a -> n_item n <> St_Import ss src) ->
  ev st (v_any a) (flat_map ownr l).
Proof.
  revert a. apply (tree_ind (fun a => forall st l, preorder_in st a l -> (forall n ss src, within (A_Stmt n) a -> n_item n <> St_Import ss src) ->
    ev st (v_any a) (flat_map ownr l))).
  intros a IH st l H NI. inversion H as [? ? ls F]; subst. cbn [flat_map]. rewrite <- concat_map_flat. apply ev_step.
  - intros n ss src ->. apply NI. apply within_refl.
  - assert (NC : forall c, In c (children a) -> forall n ss src, within (A_Stmt n) c -> n_item n <> St_Import ss src).
    { intros c I n ss src W. apply NI. econstructor; eauto. }
    clear H NI. revert ls F. induction IH as [|c cs Hc Hcs IHl]; intros ls F; inversion F as [|? l ? ls' H1 H2]; subst; constructor.
    + apply Hc; auto. apply NC. simpl. auto.
    + apply IHl; auto. intros c' I. apply NC. simpl. auto.
Qed.
Lemma reports_module m l : module_preorder_in m l -> (forall n ss src, in_module (A_Stmt n) m -> n_item n <> St_Import ss src) ->
  reports (visit_module m) = reportable l.
Proof.
  intros (ls & F & ->) NI. change (flat_map rep (with_parents [] (visit_module m)) = flat_map ownr (List.concat ls)).
  enough (E : ev [] (visit_module m) (flat_map ownr (List.concat ls))) by apply E.
  assert (NC : forall s, In s m -> forall n ss src, within (A_Stmt n) (A_Stmt s) -> n_item n <> St_Import ss src).
  { intros s I n ss src W. apply NI. exists s. auto. }
  clear NI. unfold visit_module. revert ls F. induction m as [|s m IH]; intros ls F; inversion F as [|? l ? ls' H1 H2]; subst; [apply ev_nil|].
  cbn [flat_map List.concat]. rewrite flat_map_app. apply ev_app.
  - apply (ev_preorder (A_Stmt s)); auto. apply NC. simpl. auto.
  - apply IH; auto. intros s' I. apply NC. simpl. auto.
Qed.
(** Every tree has a preorder. *)
Lemma preorder_exists a : exists l, preorder a l.
Proof.
  revert a. apply (tree_ind (fun a => exists l, preorder a l)). intros a IH.
  assert (E : exists ls, Forall2 preorder (children a) ls).
  { induction IH as [|c cs (l & Hc) _ (ls & Hs)]; [exists []|exists (l :: ls)]; constructor; auto. }
  destruct E as (ls & F). exists (a :: List.concat ls). now constructor.
Qed.
Lemma preorder_in_exists a : forall st, exists l, preorder_in st a l.
Proof.
  revert a. apply (tree_ind (fun a => forall st, exists l, preorder_in st a l)). intros a IH st.
  assert (E : exists ls, Forall2 (preorder_in (as_parent a ++ st)) (children a) ls).
  { induction IH as [|c cs Hc _ (ls & Hs)]; [exists []; constructor|]. destruct (Hc (as_parent a ++ st)) as (l & Hl). exists (l :: ls). constructor; auto. }
  destruct E as (ls & F). exists ((a, st) :: List.concat ls). now constructor.
Qed.
Lemma module_preorder_exists m : exists l, module_preorder m l.
Proof.
  assert (E : exists ls, Forall2 preorder (map A_Stmt m) ls).
  { induction m as [|s m (ls & F)]; [exists []; constructor|]. destruct (preorder_exists (A_Stmt s)) as (l & Hl). exists (l :: ls). constructor; auto. }
  destruct E as (ls & F). exists (List.concat ls). exists ls. auto.
Qed.
Lemma module_preorder_in_exists m : exists l, module_preorder_in m l.
Proof.
  assert (E : exists ls, Forall2 (preorder_in []) (map A_Stmt m) ls).
  { induction m as [|s m (ls & F)]; [exists []; constructor|]. destruct (preorder_in_exists (A_Stmt s) []) as (l & Hl). exists (l :: ls). constructor; auto. }
  destruct E as (ls & F). exists (List.concat ls). exists ls. auto.
Qed.

(** ** Names in scopes *)
Definition covers (s : scope) (st : analyzer) : Prop :=
  let '(cur, ps) := st in exists t c, In t (cur :: ps) /\ In c (sc_children t) /\ scope_in s c.
Lemma covers_step s st c st' : covers s st -> analyzer_step st c = Done st' -> covers s st'.
Proof.
  destruct st as [cur ps]. intros (t & d & I & J & K) E.
  assert (G : forall cur', sc_children cur' = sc_children cur -> covers s (cur', ps)).
  { intros cur' Ec. destruct I as [<-|I]; [exists cur', d|exists t, d]; (split; [|split; auto]); [left; auto|now rewrite Ec|right; auto]. }
  destruct c as [p| |l|k| |x|x|n|n|]; cbn [analyzer_step] in E; try discriminate; try (injection E as <-; now apply G).
  - injection E as <-. exists t, d. split; [right; exact I|auto].
  - destruct ps as [|p ps]; [discriminate|]. injection E as <-. destruct I as [<-|[<-|I]].
    + exists (sc_push_child cur p), cur. split; [left; auto|]. destruct p as [k ut u de cs]. split; [simpl; apply in_or_app; right; left; auto|]. econstructor; eauto.
    + exists (sc_push_child cur p), d. split; [left; auto|]. destruct p as [k ut u de cs]. split; [simpl; apply in_or_app; left; auto|auto].
    + exists t, d. split; [right; auto|auto].
  - injection E as <-. apply G. destruct cur. reflexivity.
  - injection E as <-. apply G. destruct cur. reflexivity.
  - destruct (n_item n); injection E as <-; try (now apply G). apply G. destruct cur. reflexivity.
Qed.
Lemma covers_run s v : forall st st', covers s st -> analyzer_run st v = Done st' -> covers s st'.
Proof.
  induction v as [|c v IH]; intros st st' C E; cbn [analyzer_run] in E; [injection E as <-; auto|].
  destruct (analyzer_step st c) as [st1| | |] eqn:E1; try discriminate. cbn [obind] in E.
  apply (IH st1); auto. eapply covers_step; eauto.
Qed.
Lemma scope_part v1 k w v2 root : scopes_nest w -> peaceful w ->
  analyzer_run (scope_new SK_Function, []) (v1 ++ (V_enter_scope k :: w ++ [V_leave_scope]) ++ v2) = Done (root, []) ->
  exists s, scope_in s root /\ analyzer_run (scope_new k, []) w = Done (s, []).
Proof.
  intros N P E. rewrite analyzer_run_app in E. destruct (analyzer_run _ v1) as [[cur ps]| | |] eqn:E1; try discriminate. cbn [obind] in E.
  rewrite analyzer_run_app in E. cbn [analyzer_run] in E.
  change (analyzer_step (cur, ps) (V_enter_scope k)) with (Done (scope_new k, cur :: ps)) in E. cbn [obind] in E.
  rewrite analyzer_run_app in E. destruct (run_nest w N P (scope_new k) (cur :: ps)) as (s & Es & _). rewrite Es in E. cbn [obind analyzer_run analyzer_step] in E.
  exists s. split.
  - assert (C : covers s (root, [])).
    { eapply covers_run; [|exact E]. exists (sc_push_child s cur), s. split; [left; auto|]. destruct cur. split; [simpl; apply in_or_app; right; left; auto|constructor]. }
    destruct C as (t & c & [<-|[]] & J & K). econstructor; eauto.
  - destruct (run_nest w N P (scope_new k) []) as (s' & Es' & _). rewrite Es'.
    enough (s' = s) by congruence.
    assert (G : forall v st ps0 a ps' a2 q2, scopes_nest v -> peaceful v -> analyzer_run (st, ps') v = Done (a, ps') -> analyzer_run (st, ps0) v = Done (a2, q2) -> a = a2).
    { clear. intros v st ps0 a ps' a2 q2 N. revert st ps0 a ps' a2 q2.
      assert (H : forall ps0 ps' st, peaceful v -> exists a, analyzer_run (st, ps') v = Done (a, ps') /\ analyzer_run (st, ps0) v = Done (a, ps0)).
      { induction N as [|c v N1 N2 N IH|k v w N IH N' IH']; intros ps0 ps' st P.
        - exists st. auto.
        - assert (Pv : peaceful v) by (intros I; apply P; right; auto).
          assert (Pc : c <> V_panic) by (intros ->; apply P; left; auto).
          assert (S : exists st1, forall qs, analyzer_step (st, qs) c = Done (st1, qs)).
          { destruct c as [p| |l|k| |x|x|n|n|]; try (destruct (N1 _ eq_refl)); try (exfalso; congruence); try (now eexists).
            cbn [analyzer_step]. destruct (n_item n); now eexists. }
          destruct S as (st1 & S). destruct (IH ps0 ps' st1 Pv) as (a & E1 & E2). exists a. cbn [analyzer_run]. rewrite !S. auto.
        - assert (Pv : peaceful v) by (intros I; apply P; right; apply in_or_app; auto).
          assert (Pw : peaceful w) by (intros I; apply P; right; apply in_or_app; right; right; auto).
          destruct (IH (st :: ps0) (st :: ps') (scope_new k) Pv) as (a & E1 & E2).
          destruct (IH' ps0 ps' (sc_push_child a st) Pw) as (b & E3 & E4).
          exists b. cbn [analyzer_run].
          cbn [analyzer_step obind]. rewrite !analyzer_run_app, E1, E2. cbn [obind analyzer_run analyzer_step]. auto. }
      intros st ps0 a ps' a2 q2 P E1 E2. destruct (H ps0 ps' st P) as (b & E3 & E4). congruence. }
    exact (G w (scope_new k) (cur :: ps) s' [] s (cur :: ps) N P Es' Es).
Qed.
Lemma declared_run v st ps cur ps' x : scopes_nest v -> peaceful v -> analyzer_run (st, ps) v = Done (cur, ps') -> In x (sc_declared st) -> In x (sc_declared cur).
Proof.
  intros N P E I. destruct (run_nest v N P st ps) as (c & E1 & (_ & _ & (l & G) & _) & _). rewrite E1 in E. injection E as <- _. rewrite G. apply in_or_app. auto.
Qed.
Ltac assoc := repeat first [progress cbn [app] | rewrite <- app_assoc]; reflexivity.
Section Pats.
  Definition pat_names (ps : list (node pattern)) : list str := flat_map (fun p => bound_names (n_item p)) ps.
  Definition all_simple (ps : list (node pattern)) : Prop := forall p, In p ps -> simple (n_item p).
  Lemma declares_pat a : forall n, a = A_Pat n -> simple (n_item n) -> forall x, In x (bound_names (n_item n)) ->
    exists v1 v2, v_any a = v1 ++ V_reference_declaration x :: v2 /\ scopes_nest v1 /\ scopes_nest v2.
  Proof.
    revert a. apply (tree_ind (fun a => forall n, a = A_Pat n -> simple (n_item n) -> forall x, In x (bound_names (n_item n)) ->
      exists v1 v2, v_any a = v1 ++ V_reference_declaration x :: v2 /\ scopes_nest v1 /\ scopes_nest v2)).
    intros a IH n -> S x I. destruct n as [s e p]. cbn [n_item v_any children] in *. destruct p as [|y|qs|es|y|l r]; cbn [bound_names simple v_pattern] in *; try (now destruct I); try (now destruct S).
    - destruct I as [<-|[]]. exists [], []. split; [reflexivity|split; constructor].
    - induction es as [|q es IHes]; [destruct I|]. destruct S as [S1 S2]. inversion IH as [|? ? Hq Hes]; subst. apply in_app_or in I as [I|I].
      + destruct (Hq q eq_refl S1 x I) as (v1 & v2 & E & N1 & N2). exists v1, (v2 ++ v_list v_pattern es). cbn [v_list]. cbn [v_any] in E. rewrite E, <- app_assoc.
        split; [reflexivity|split; auto]. apply scopes_nest_app; auto. exact (scopes_any (A_Pat (Node 0%N 0%N (Pat_Array es)))).
      + destruct (IHes Hes S2 I) as (v1 & v2 & E & N1 & N2). exists (v_pattern (n_item q) ++ v1), v2. cbn [v_list]. rewrite E, <- app_assoc.
        split; [reflexivity|split; auto]. apply scopes_nest_app; auto. exact (scopes_any (A_Pat q)).
    - inversion IH as [|? ? Hl Hr]; subst. destruct (Hl l eq_refl S x I) as (v1 & v2 & E & N1 & N2). cbn [v_any] in E. rewrite E.
      exists v1, (v2 ++ v_expression (n_start r) (n_end r) (n_item r)). rewrite <- app_assoc.
      split; [reflexivity|split; auto]. apply scopes_nest_app; auto. exact (scopes_any (A_Expr r)).
  Qed.
  Lemma params_shape a ps : function_params a ps -> exists w1 w2 w3,
    v_any a = w1 ++ (V_enter_scope SK_Function :: (v_list v_pattern ps ++ w2) ++ [V_leave_scope]) ++ w3 /\ scopes_nest w2.
  Proof.
    intros H. assert (F : forall f g ps b, exists w1 w2, v_func (Func f g ps b) = w1 ++ (V_enter_scope SK_Function :: (v_list v_pattern ps ++ w2) ++ [V_leave_scope]) /\ scopes_nest w2).
    { clear. intros f g ps b. exists (v_name f), (V_statement_list (b_body (n_item b)) :: flat_map visit_statement (b_body (n_item b))). split.
      - cbn [v_func app]. rewrite <- !app_assoc. reflexivity.
      - other. exact (scopes_any (A_Body b)). }
    destruct H as [n f g ps b E|n f g ps b E|n f g ps b E]; destruct (F f g ps b) as (w1 & w2 & Ef & N); destruct n as [s e x]; cbn [n_item] in E; subst x.
    - exists w1, w2, []. rewrite app_nil_r. cbn [v_any n_item]. auto.
    - exists (V_expression (Node s e (E_Function (Func f g ps b))) :: V_push_parent (PN_Expression (Node s e (E_Function (Func f g ps b)))) :: w1), w2, [V_pop_parent].
      split; auto. cbn [v_any]. unfold visit_expression. cbn [n_start n_end n_item v_expression]. rewrite Ef. unfold v_with_parent. assoc.
    - exists (V_statement (Node s e (St_Function (Func f g ps b))) :: V_push_parent (PN_Statement (Node s e (St_Function (Func f g ps b)))) :: w1), w2, [V_pop_parent].
      split; auto. cbn [v_any]. unfold visit_statement. cbn [n_start n_end n_item v_statement]. rewrite Ef. unfold v_stmt_with_parent. assoc.
  Qed.
End Pats.
Lemma peaceful_part v1 w v2 : peaceful (v1 ++ w ++ v2) -> peaceful w.
Proof. unfold peaceful. intros H I. apply H. rewrite !in_app_iff. auto. Qed.
Lemma params_declared m root a ps : (forall x, in_module (A_Member x) m -> n_item x <> CM_Error) -> analyze m = Done (root, []) ->
  in_module a m -> function_params a ps -> 
  exists s, scope_in s root /\ sc_kind s = SK_Function /\ forall p x, In p ps -> simple (n_item p) -> In x (bound_names (n_item p)) -> In x (sc_declared s).
Proof.
  intros CE An I F. destruct (infix_module _ _ I) as (v1 & v2 & E). destruct (params_shape _ _ F) as (w1 & w2 & w3 & E' & N2).
  pose proof (peaceful_module m CE) as P. unfold analyze in An. rewrite E, E' in *.
  replace (v1 ++ (w1 ++ (V_enter_scope SK_Function :: (v_list v_pattern ps ++ w2) ++ [V_leave_scope]) ++ w3) ++ v2)
    with ((v1 ++ w1) ++ (V_enter_scope SK_Function :: (v_list v_pattern ps ++ w2) ++ [V_leave_scope]) ++ (w3 ++ v2)) in *
    by assoc.
  assert (Np : scopes_nest (v_list v_pattern ps)) by exact (scopes_any (A_Pat (Node 0%N 0%N (Pat_Array ps)))).
  assert (Pw : peaceful (v_list v_pattern ps ++ w2)).
  { apply peaceful_part in P. intros J. apply P. right. apply in_or_app. auto. }
  destruct (scope_part _ _ _ _ _ (scopes_nest_app _ _ Np N2) Pw An) as (s & Ks & Rs). exists s. split; [exact Ks|]. split.
  - destruct (run_nest _ (scopes_nest_app _ _ Np N2) Pw (scope_new SK_Function) []) as (s' & Es & (Kd & _) & _). rewrite Rs in Es. injection Es as <-. exact Kd.
  - intros p x Ip Sp Ix. apply in_split in Ip as (ps1 & ps2 & ->).
    destruct (declares_pat (A_Pat p) p eq_refl Sp x Ix) as (u1 & u2 & Eu & M1 & M2). cbn [v_any] in Eu.
    assert (V : forall l1 l2 : list (node pattern), v_list v_pattern (l1 ++ l2) = v_list v_pattern l1 ++ v_list v_pattern l2).
    { induction l1 as [|q l1 IH]; intros l2; [reflexivity|]. cbn [app v_list]. now rewrite IH, <- app_assoc. }
    assert (NL : forall l, scopes_nest (v_list v_pattern l)) by (intros l; exact (scopes_any (A_Pat (Node 0%N 0%N (Pat_Array l))))).
    rewrite V in Rs, Pw. cbn [v_list] in Rs, Pw. rewrite Eu in Rs, Pw.
    set (pre := v_list v_pattern ps1 ++ u1). set (post := u2 ++ v_list v_pattern ps2 ++ w2).
    replace ((v_list v_pattern ps1 ++ (u1 ++ V_reference_declaration x :: u2) ++ v_list v_pattern ps2) ++ w2)
      with (pre ++ V_reference_declaration x :: post) in * by (unfold pre, post; assoc).
    assert (Npre : scopes_nest pre) by (apply scopes_nest_app; auto).
    assert (Npost : scopes_nest post) by (apply scopes_nest_app; auto; apply scopes_nest_app; auto).
    assert (Ppre : peaceful pre) by (intros J; apply Pw; apply in_or_app; auto).
    assert (Ppost : peaceful post) by (intros J; apply Pw; apply in_or_app; right; right; auto).
    destruct (run_nest pre Npre Ppre (scope_new SK_Function) []) as (c1 & E1 & _). rewrite analyzer_run_app, E1 in Rs. cbn [obind analyzer_run analyzer_step] in Rs.
    eapply declared_run; [exact Npost|exact Ppost|exact Rs|]. destruct c1. simpl. apply in_or_app. right. left. auto.
Qed.
(** Every declaration and every use ends up in a scope, and nothing else. *)
Lemma names_run (alls : scope -> list str) (one : vcall -> list str) v :
  (forall k, alls (scope_new k) = []) ->
  (forall c s, Permutation (alls (sc_push_child c s)) (alls s ++ alls c)) ->
  (forall s, alls (sc_this s) = alls s) ->
  (forall x s, Permutation (alls (sc_use x s)) (alls s ++ one (V_reference_use x))) ->
  (forall x s, Permutation (alls (sc_declare x s)) (alls s ++ one (V_reference_declaration x))) ->
  (forall c, (forall x, c <> V_reference_use x) -> (forall x, c <> V_reference_declaration x) -> one c = []) ->
  forall st ps cur ps', analyzer_run (st, ps) v = Done (cur, ps') ->
  Permutation (flat_map alls (cur :: ps')) (flat_map alls (st :: ps) ++ flat_map one v).
Proof.
  intros An Ap At Au Ad O. induction v as [|c v IH]; intros st ps cur ps' E; cbn [analyzer_run] in E.
  - injection E as <- <-. cbn [flat_map]. now rewrite app_nil_r.
  - destruct (analyzer_step (st, ps) c) as [[st1 ps1]| | |] eqn:E1; try discriminate. cbn [obind] in E. rewrite (IH _ _ _ _ E).
    cbn [flat_map]. rewrite app_assoc. apply Permutation_app_tail. clear IH E.
    assert (Same : forall st2, alls st2 = alls st -> (forall x, c <> V_reference_use x) -> (forall x, c <> V_reference_declaration x) -> Permutation (alls st2 ++ flat_map alls ps) ((alls st ++ flat_map alls ps) ++ one c)).
    { intros st2 -> U D. now rewrite (O c U D), app_nil_r. }
    destruct c as [p| |l|k| |x|x|n|n|]; cbn [analyzer_step] in E1; try discriminate; try (injection E1 as <- <-; apply Same; auto; discriminate).
    + injection E1 as <- <-. rewrite An, O by discriminate. cbn [flat_map app]. now rewrite app_nil_r.
    + destruct ps as [|p ps]; [discriminate|]. injection E1 as <- <-. rewrite O by discriminate. rewrite app_nil_r. cbn [flat_map]. rewrite Ap.
      rewrite app_assoc. apply Permutation_app_tail. apply Permutation_app_comm.
    + injection E1 as <- <-. rewrite Au. rewrite <- !app_assoc. apply Permutation_app_head. apply Permutation_app_comm.
    + injection E1 as <- <-. rewrite Ad. rewrite <- !app_assoc. apply Permutation_app_head. apply Permutation_app_comm.
    + destruct (n_item n); injection E1 as <- <-; try (apply Same; auto; discriminate).
Qed.
Lemma declared_all m root : analyze m = Done (root, []) -> Permutation (all_declared root) (declarations (visit_module m)).
Proof.
  intros E. pose proof (names_run all_declared (fun c => match c with V_reference_declaration x => [x] | _ => [] end) (visit_module m)) as H.
  specialize (H (fun k => eq_refl)). cbn [flat_map] in H. rewrite <- (app_nil_r (all_declared root)). apply (fun a b c d e => H a b c d e (scope_new SK_Function) [] root [] E).
  - intros c [k t u d cs]. simpl. rewrite flat_map_app. simpl. rewrite app_nil_r, app_assoc. reflexivity.
  - intros [k t u d cs]. reflexivity.
  - intros x [k t u d cs]. simpl. now rewrite app_nil_r.
  - intros x [k t u d cs]. simpl. rewrite <- !app_assoc. apply Permutation_app_head. apply Permutation_app_comm.
  - intros [p| |l|k| |x|x|n|n|] H1 H2; try reflexivity. destruct (H2 x eq_refl).
Qed.
Lemma used_all m root : analyze m = Done (root, []) -> Permutation (all_used root) (uses (visit_module m)).
Proof.
  intros E. pose proof (names_run all_used (fun c => match c with V_reference_use x => [x] | _ => [] end) (visit_module m)) as H.
  specialize (H (fun k => eq_refl)). cbn [flat_map] in H. rewrite <- (app_nil_r (all_used root)). apply (fun a b c d e => H a b c d e (scope_new SK_Function) [] root [] E).
  - intros c [k t u d cs]. simpl. rewrite flat_map_app. simpl. rewrite app_nil_r, app_assoc. reflexivity.
  - intros [k t u d cs]. reflexivity.
  - intros x [k t u d cs]. simpl. rewrite <- !app_assoc. apply Permutation_app_head. apply Permutation_app_comm.
  - intros x [k t u d cs]. simpl. now rewrite app_nil_r.
  - intros [p| |l|k| |x|x|n|n|] H1 H2; try reflexivity. destruct (H1 x eq_refl).
Qed.
