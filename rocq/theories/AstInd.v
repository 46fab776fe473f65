(** Induction over the nodes of a tree. *)
From Coq Require Import List NArith Bool.
From Verif Require Import Bytes Token Ast.
Import ListNotations.

Section Induction.
  Variable P : any -> Prop.
  Hypothesis step : forall a, Forall P (children a) -> P a.

  Section Nodes.
    Context {A : Set} (g : node A -> any) (f : forall x s e, P (g (Node s e x))).
    Definition one (n : node A) : P (g n) := match n with Node s e x => f x s e end.
    Fixpoint nodes_ind (l : list (node A)) : Forall P (map g l) :=
      match l with [] => Forall_nil _ | n :: l' => Forall_cons _ (one n) (nodes_ind l') end.
    Definition opt_ind (o : option (node A)) : Forall P (opt g o) :=
      match o with None => Forall_nil _ | Some n => Forall_cons _ (one n) (Forall_nil _) end.
    Definition block_ind' (b : block A) : Forall P (map g (b_body b)) :=
      match b with Block l => nodes_ind l end.
  End Nodes.
  Lemma ident_P (x : str) s e : P (A_Ident (Node s e x)).
  Proof. apply step. constructor. Qed.
  Definition app_P {l1 l2} (H1 : Forall P l1) (H2 : Forall P l2) : Forall P (l1 ++ l2).
  Proof. apply Forall_app. split; assumption. Qed.
  Lemma name_P n : Forall P (children_name n).
  Proof. destruct n as [|[n|]|n]; simpl; repeat constructor; destruct n; apply ident_P. Qed.

  Fixpoint expression_P (x : expression) s e {struct x} : P (A_Expr (Node s e x))
  with template_P (x : template) {struct x} : Forall P (children_template x)
  with arrow_P (x : arrow_body) {struct x} :
    match x with AB_Expression e => P (A_Expr e) | AB_Block b => P (A_Body b) end
  with property_P (x : property) s e {struct x} : P (A_Prop (Node s e x))
  with key_P (x : property_key) s e {struct x} : P (A_Key (Node s e x))
  with pattern_P (x : pattern) s e {struct x} : P (A_Pat (Node s e x))
  with func_P (x : func) {struct x} : Forall P (children_func x)
  with class_P (x : class) {struct x} : Forall P (children_class x)
  with member_P (x : class_member) s e {struct x} : P (A_Member (Node s e x))
  with statement_P (x : statement) s e {struct x} : P (A_Stmt (Node s e x))
  with declarator_P (x : declarator) s e {struct x} : P (A_Declarator (Node s e x))
  with for_init_P (x : for_init) s e {struct x} : P (A_ForInit (Node s e x))
  with case_P (x : switch_case) s e {struct x} : P (A_Case (Node s e x))
  with catch_P (x : catch_clause) s e {struct x} : P (A_Catch (Node s e x)).
  Proof.
    - apply step. cbn [children n_item]. destruct x as [| | |l|b|b|o p|o p|m p|c args|op l r|op x|op x|t c a|t|t q|x|ps b|b|f|c]; cbn [children_expression].
      + constructor.
      + constructor.
      + constructor.
      + constructor.
      + exact (nodes_ind A_Expr expression_P b).
      + exact (nodes_ind A_Expr expression_P b).
      + exact (Forall_cons _ (one A_Expr expression_P o) (Forall_cons _ (one A_Ident ident_P p) (Forall_nil _))).
      + exact (Forall_cons _ (one A_Expr expression_P o) (Forall_cons _ (one A_Expr expression_P p) (Forall_nil _))).
      + exact (Forall_cons _ (one A_Ident ident_P m) (Forall_cons _ (one A_Ident ident_P p) (Forall_nil _))).
      + exact (Forall_cons _ (one A_Expr expression_P c) (nodes_ind A_Expr expression_P args)).
      + exact (Forall_cons _ (one A_Expr expression_P l) (Forall_cons _ (one A_Expr expression_P r) (Forall_nil _))).
      + exact (Forall_cons _ (one A_Expr expression_P x) (Forall_nil _)).
      + exact (Forall_cons _ (one A_Expr expression_P x) (Forall_nil _)).
      + exact (Forall_cons _ (one A_Expr expression_P t) (Forall_cons _ (one A_Expr expression_P c) (Forall_cons _ (one A_Expr expression_P a) (Forall_nil _)))).
      + exact (template_P t).
      + refine (Forall_cons _ (one A_Expr expression_P t) (Forall_cons _ _ (Forall_nil _))).
        destruct q as [s1 e1 q]. apply step. exact (template_P q).
      + exact (Forall_cons _ (one A_Expr expression_P x) (Forall_nil _)).
      + assert (Hb := arrow_P b). assert (Hp := nodes_ind A_Pat pattern_P ps).
        destruct b as [x|x]; exact (app_P Hp (Forall_cons _ Hb (Forall_nil _))).
      + exact (nodes_ind A_Prop property_P b).
      + exact (func_P f).
      + exact (class_P c).
    - destruct x as [es qs]. exact (app_P (nodes_ind A_Expr expression_P es) (nodes_ind A_Ident ident_P qs)).
    - destruct x as [e|b].
      + exact (one A_Expr expression_P e).
      + apply step. destruct b as [s e [l]]. exact (nodes_ind A_Stmt statement_P l).
    - apply step. destruct x as [x|k v|k v|x]; cbn [children n_item].
      + constructor.
      + exact (Forall_cons _ (one A_Key key_P k) (Forall_cons _ (one A_Expr expression_P v) (Forall_nil _))).
      + refine (Forall_cons _ (one A_Key key_P k) (Forall_cons _ _ (Forall_nil _))).
        destruct v as [s1 e1 v]. apply step. exact (func_P v).
      + exact (Forall_cons _ (one A_Expr expression_P x) (Forall_nil _)).
    - apply step. destruct x as [x|x|x]; cbn [children n_item].
      + exact (Forall_cons _ (one A_Expr expression_P x) (Forall_nil _)).
      + constructor.
      + constructor.
    - apply step. destruct x as [|x|ps|es|x|l r]; cbn [children n_item].
      + constructor.
      + constructor.
      + exact (nodes_ind A_Prop property_P ps).
      + exact (nodes_ind A_Pat pattern_P es).
      + exact (Forall_cons _ (one A_Ident ident_P x) (Forall_nil _)).
      + exact (Forall_cons _ (one A_Pat pattern_P l) (Forall_cons _ (one A_Expr expression_P r) (Forall_nil _))).
    - destruct x as [n g ps [s e [l]]].
      refine (app_P (name_P n) (app_P (nodes_ind A_Pat pattern_P ps) (Forall_cons _ _ (Forall_nil _)))).
      apply step. exact (nodes_ind A_Stmt statement_P l).
    - destruct x as [n o [s e [l]]].
      refine (app_P (name_P n) (app_P (opt_ind A_Expr expression_P o) (Forall_cons _ _ (Forall_nil _)))).
      apply step. exact (nodes_ind A_Member member_P l).
    - apply step. destruct x as [|st k kd v|st k v]; cbn [children n_item].
      + constructor.
      + refine (Forall_cons _ (one A_Key key_P k) (Forall_cons _ _ (Forall_nil _))).
        destruct v as [s1 e1 v]. apply step. exact (func_P v).
      + exact (Forall_cons _ (one A_Key key_P k) (Forall_cons _ (one A_Expr expression_P v) (Forall_nil _))).
    - apply step. cbn [children n_item].
      destruct x as [| |x|k ds|v|l|l|v|t c a|t b|b t|i t u b|l r b|l r b|b h f|b|l b|f|c|d c|ss src]; cbn [children_statement].
      + constructor.
      + constructor.
      + exact (Forall_cons _ (one A_Expr expression_P x) (Forall_nil _)).
      + exact (nodes_ind A_Declarator declarator_P ds).
      + exact (opt_ind A_Expr expression_P v).
      + exact (opt_ind A_Ident ident_P l).
      + exact (opt_ind A_Ident ident_P l).
      + exact (Forall_cons _ (one A_Expr expression_P v) (Forall_nil _)).
      + exact (app_P (Forall_cons _ (one A_Expr expression_P t) (Forall_cons _ (one A_Stmt statement_P c) (Forall_nil _))) (opt_ind A_Stmt statement_P a)).
      + exact (Forall_cons _ (one A_Expr expression_P t) (Forall_cons _ (one A_Stmt statement_P b) (Forall_nil _))).
      + exact (Forall_cons _ (one A_Stmt statement_P b) (Forall_cons _ (one A_Expr expression_P t) (Forall_nil _))).
      + exact (app_P (opt_ind A_ForInit for_init_P i) (app_P (opt_ind A_Expr expression_P t) (app_P (opt_ind A_Expr expression_P u)
          (Forall_cons _ (one A_Stmt statement_P b) (Forall_nil _))))).
      + exact (Forall_cons _ (one A_ForInit for_init_P l) (Forall_cons _ (one A_Expr expression_P r) (Forall_cons _ (one A_Stmt statement_P b) (Forall_nil _)))).
      + exact (Forall_cons _ (one A_ForInit for_init_P l) (Forall_cons _ (one A_Expr expression_P r) (Forall_cons _ (one A_Stmt statement_P b) (Forall_nil _)))).
      + destruct b as [s1 e1 [l]].
        refine (app_P (Forall_cons _ (step (A_Body (Node s1 e1 (Block l))) (nodes_ind A_Stmt statement_P l)) (Forall_nil _)) (app_P (opt_ind A_Catch catch_P h) _)).
        destruct f as [[s2 e2 [l2]]|].
        * exact (Forall_cons _ (step (A_Body (Node s2 e2 (Block l2))) (nodes_ind A_Stmt statement_P l2)) (Forall_nil _)).
        * constructor.
      + destruct b as [l]. exact (nodes_ind A_Stmt statement_P l).
      + exact (Forall_cons _ (one A_Stmt statement_P b) (Forall_nil _)).
      + exact (func_P f).
      + exact (class_P c).
      + destruct c as [s1 e1 [l]].
        exact (Forall_cons _ (one A_Expr expression_P d) (Forall_cons _ (step (A_Cases (Node s1 e1 (Block l))) (nodes_ind A_Case case_P l)) (Forall_nil _))).
      + induction ss as [|[s1 e1 x] ss IH]; constructor; auto.
        apply step. destruct x as [i l|l|l]; cbn [children n_item].
        * exact (Forall_cons _ (one A_Ident ident_P i) (Forall_cons _ (one A_Ident ident_P l) (Forall_nil _))).
        * exact (Forall_cons _ (one A_Ident ident_P l) (Forall_nil _)).
        * exact (Forall_cons _ (one A_Ident ident_P l) (Forall_nil _)).
    - apply step. destruct x as [p i]. exact (Forall_cons _ (one A_Pat pattern_P p) (opt_ind A_Expr expression_P i)).
    - apply step. destruct x as [k ds|x]; cbn [children n_item].
      + exact (nodes_ind A_Declarator declarator_P ds).
      + exact (Forall_cons _ (one A_Expr expression_P x) (Forall_nil _)).
    - apply step. destruct x as [t c]. exact (app_P (opt_ind A_Expr expression_P t) (nodes_ind A_Stmt statement_P c)).
    - apply step. destruct x as [p [s1 e1 [l]]].
      exact (Forall_cons _ (one A_Pat pattern_P p) (Forall_cons _ (step (A_Body (Node s1 e1 (Block l))) (nodes_ind A_Stmt statement_P l)) (Forall_nil _))).
  Qed.

  Theorem tree_ind a : P a.
  Proof.
    destruct a as [[s e x]|[s e x]|[s e x]|[s e x]|[s e x]|[s e x]|[s e x]|[s e x]|[s e [l]]|[s e [l]]|[s e [l]]|[s e x]|[s e x]|[s e x]|[s e x]|[s e x]|[s e x]].
    - apply ident_P.
    - apply expression_P.
    - apply step. apply template_P.
    - apply property_P.
    - apply key_P.
    - apply pattern_P.
    - apply step. apply func_P.
    - apply member_P.
    - apply step. apply (nodes_ind A_Stmt statement_P).
    - apply step. apply (nodes_ind A_Member member_P).
    - apply step. apply (nodes_ind A_Case case_P).
    - apply statement_P.
    - apply declarator_P.
    - apply for_init_P.
    - apply case_P.
    - apply catch_P.
    - apply step. destruct x; simpl; repeat constructor; match goal with |- P (A_Ident ?n) => destruct n; apply ident_P end.
  Qed.
End Induction.
