(** The lists of statements a traversal reports. *)
From Coq Require Import List NArith Bool String Lia Permutation.
From Verif Require Import Bytes Token Lexer Ast AstInd Visitor SpecVisit VisitFacts SpecScope.
Import ListNotations.
Open Scope nat_scope.

Definition rl := reported_lists.
Definition extra (a : any) : list (list (node statement)) := match a with A_Body n => [b_body (n_item n)] | _ => [] end.
(** What a node reports, when it is visited as a child. *)
Definition vlists (a : any) : list (list (node statement)) := extra a ++ rl (v_any a).
Notation below l := (flat_map vlists l).
Lemma rl_app v v' : rl (v ++ v') = rl v ++ rl v'. Proof. apply flat_map_app. Qed.
Lemma rl_cons c v : rl (c :: v) = rl [c] ++ rl v. Proof. apply (rl_app [c]). Qed.
Lemma rl_list {A : Set} (g : A -> visit) (h : node A -> any) l : (forall n, v_any (h n) = g (n_item n)) ->
  (forall n, extra (h n) = []) -> rl (v_list g l) = below (map h l).
Proof. intros E X. induction l as [|n l IH]; [reflexivity|]. cbn [v_list map flat_map]. unfold vlists at 1. now rewrite rl_app, IH, E, X. Qed.
Lemma rl_flat {A : Set} (g : node A -> visit) (h : node A -> any) l : (forall n, v_any (h n) = g n) ->
  (forall n, extra (h n) = []) -> rl (flat_map g l) = below (map h l).
Proof. intros E X. induction l as [|n l IH]; [reflexivity|]. cbn [map flat_map]. unfold vlists at 1. now rewrite rl_app, IH, E, X. Qed.
Lemma below_idents l : below (map A_Ident l) = [].
Proof. induction l; auto. Qed.
Lemma below_specs l : below (map A_Spec l) = [].
Proof. induction l as [|n l IH]; auto. cbn [map flat_map]. rewrite IH. unfold vlists. cbn. destruct (n_item n); reflexivity. Qed.
Lemma rl_specs l : rl (v_list v_specifier l) = [].
Proof. induction l as [|n l IH]; auto. cbn [v_list]. rewrite rl_app, IH. destruct (n_item n); reflexivity. Qed.
Lemma rl_name n : rl (v_name n) = []. Proof. destruct n; reflexivity. Qed.
Lemma below_name n : below (children_name n) = []. Proof. destruct n as [|[x|]|x]; reflexivity. Qed.
Lemma rl_expr n v : rl (v_with_parent n v) = rl v.
Proof. unfold v_with_parent. change (rl (v ++ [V_pop_parent]) = rl v). rewrite rl_app. apply app_nil_r. Qed.
Lemma rl_stmt n v : rl (v_stmt_with_parent n v) = rl v.
Proof. unfold v_stmt_with_parent. change (rl (v ++ [V_pop_parent]) = rl v). rewrite rl_app. apply app_nil_r. Qed.
Lemma rl_enter k v : rl (V_enter_scope k :: v) = rl v. Proof. reflexivity. Qed.
Lemma rl_leave : rl [V_leave_scope] = []. Proof. reflexivity. Qed.
Lemma rl_sl l v : rl (V_statement_list l :: v) = l :: rl v. Proof. reflexivity. Qed.
Lemma rl_func g : rl (v_func g) = below (children_func g).
Proof.
  destruct g as [n ge ps b]. cbn [v_func children_func app].
  rewrite rl_app, rl_name, rl_enter, !flat_map_app, below_name, rl_app, rl_sl, rl_app, rl_leave, app_nil_r.
  rewrite (rl_list v_pattern A_Pat) by reflexivity. cbn [app flat_map]. rewrite app_nil_r. reflexivity.
Qed.
Lemma rl_class g : rl (v_class g) = below (children_class g).
Proof.
  destruct g as [n [x|] b]; cbn [v_class children_class opt]; rewrite !rl_app, rl_name, !flat_map_app, below_name; cbn [app flat_map]; rewrite ?app_nil_r; reflexivity.
Qed.
Lemma rl_template g : rl (v_template g) = below (children_template g).
Proof.
  destruct g as [es qs]; cbn [v_template children_template]. rewrite flat_map_app, below_idents, app_nil_r. now apply rl_flat.
Qed.
Definition own_lists (a : any) : list (list (node statement)) := match a with A_Body _ => [] | _ => lists_of a end.
Ltac rrw := rewrite ?rl_expr, ?rl_stmt, ?rl_app, ?rl_func, ?rl_class, ?rl_template, ?rl_name, ?rl_enter, ?rl_leave, ?rl_sl, ?flat_map_app, ?app_nil_r.
Lemma rl_step a : Permutation (rl (v_any a)) (own_lists a ++ below (children a)).
Proof.
  destruct a as [n|n|n|n|n|n|n|n|n|n|n|n|n|n|n|n|n]; destruct n as [s e x]; cbn [v_any children own_lists lists_of n_item app].
  - reflexivity.
  - unfold visit_expression; cbn [n_item n_start n_end].
    destruct x as [| | |l|b|b|o p|o p|m p|g args|op l r|op x|op x|t q a|t|t q|x|ps [x|b]|b|g|g];
      cbn [v_expression children_expression]; rrw; cbn [map flat_map]; rrw; try reflexivity.
    all: rewrite ?(rl_flat _ A_Expr) by reflexivity; rewrite ?(rl_list v_pattern A_Pat) by reflexivity; rewrite ?(rl_list v_property A_Prop) by reflexivity; try reflexivity.
    rewrite <- rl_template. reflexivity.
  - rewrite rl_template. reflexivity.
  - destruct x; cbn [v_property]; rrw; cbn [flat_map]; rrw; rewrite <- ?rl_func; reflexivity.
  - destruct x; cbn [v_key]; rrw; cbn [flat_map]; rrw; reflexivity.
  - destruct x; cbn [v_pattern]; rrw; cbn [flat_map]; rrw; try reflexivity.
    + now rewrite (rl_list v_property A_Prop).
    + now rewrite (rl_list v_pattern A_Pat).
  - rewrite rl_func. reflexivity.
  - destruct x; cbn [v_member]; rrw; cbn [flat_map]; rrw; rewrite <- ?rl_func; reflexivity.
  - destruct x. rewrite (rl_flat visit_statement A_Stmt) by reflexivity. reflexivity.
  - destruct x. rewrite (rl_list v_member A_Member) by reflexivity. reflexivity.
  - destruct x. rewrite (rl_list v_case A_Case) by reflexivity. reflexivity.
  - unfold visit_statement; cbn [n_item n_start n_end].
    destruct x as [| |x|k ds|[v|]|[l|]|[l|]|v|t q [a|]|t b|b t|[i|] [t|] [u|] b|l r b|l r b|b [h|] [g|]|b|l b|g|g|d q|ss src];
      cbn [v_statement children_statement opt app]; rrw; cbn [flat_map]; rrw; try reflexivity.
    + rewrite (rl_list v_declarator A_Declarator) by reflexivity. reflexivity.
    + rewrite rl_app, rl_leave, app_nil_r. reflexivity.
    + rewrite rl_app, rl_leave, app_nil_r. reflexivity.
    + rewrite (rl_flat _ A_Stmt) by reflexivity. reflexivity.
    + rewrite below_specs. change (Permutation (rl (v_list v_specifier ss ++ [V_pop_parent])) []). rewrite rl_app, rl_specs. reflexivity.
  - destruct x as [p [i|]]; cbn [v_declarator opt]; rrw; cbn [flat_map]; rrw; reflexivity.
  - destruct x; cbn [v_for_init]; rrw; cbn [flat_map]; rrw; [|reflexivity]. rewrite (rl_list v_declarator A_Declarator) by reflexivity. reflexivity.
  - destruct x as [[t|] b]; cbn [v_case opt app]; rrw; cbn [flat_map]; rrw.
    + rewrite <- Permutation_middle. constructor. rewrite (rl_flat _ A_Stmt) by reflexivity. reflexivity.
    + constructor. rewrite (rl_flat _ A_Stmt) by reflexivity. reflexivity.
  - destruct x as [p b]; cbn [v_catch]; rrw; cbn [flat_map]; rrw; reflexivity.
  - destruct x; reflexivity.
Qed.
Lemma rl_preorder a : forall l, preorder a l -> Permutation (vlists a) (flat_map lists_of l).
Proof.
  revert a. apply (tree_ind (fun a => forall l, preorder a l -> Permutation (vlists a) (flat_map lists_of l))).
  intros a IH l H. inversion H as [? ls F]; subst. unfold vlists. rewrite rl_step. cbn [flat_map].
  assert (E : extra a ++ own_lists a = lists_of a) by (destruct a; cbn; auto using app_nil_r).
  rewrite app_assoc, E. apply Permutation_app_head.
  revert IH. clear -F. induction F as [|c l cs ls P F IHF]; intros IH; [reflexivity|]. inversion IH; subst. cbn [flat_map List.concat].
  rewrite flat_map_app. apply Permutation_app; auto.
Qed.
Lemma rl_module m l : module_preorder m l -> Permutation (reported_lists (visit_module m)) (flat_map lists_of l).
Proof.
  intros (ls & F & ->). unfold visit_module. change reported_lists with rl. rewrite (rl_flat visit_statement A_Stmt) by reflexivity.
  revert ls F. generalize (map A_Stmt m). intros cs. induction cs as [|c cs IH]; intros ls F; inversion F; subst; [reflexivity|].
  cbn [flat_map List.concat]. rewrite flat_map_app. apply Permutation_app; [now apply rl_preorder|auto].
Qed.
