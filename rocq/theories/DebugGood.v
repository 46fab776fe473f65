(** The texts of a tree are all that has to be quoted. *)
From Coq Require Import List NArith Bool String.
From Coq.Strings Require Import Byte.
From Verif Require Import Bytes Token Ast AstInd SpecUtf8 SpecCodegen DebugFmt SpecDebug DebugInj ShowInj.
Import ListNotations.
Open Scope nat_scope.
Open Scope list_scope.

Definition texts (a : any) : Prop := forall b x, within b a -> own_text b x -> utf8 x.
Definition R (a : any) : Prop := texts a -> good (d_any a).
Lemma texts_child a c : texts a -> In c (children a) -> texts c.
Proof. intros T I b x W O. apply (T b x); [|exact O]. now apply within_child with c. Qed.
Lemma texts_children a : texts a -> Forall R (children a) -> Forall (fun c => good (d_any c)) (children a).
Proof. intros T F. rewrite Forall_forall in *. intros c I. apply F; [exact I|]. now apply texts_child with a. Qed.
Lemma w_true n : (match bs n with [] => false | _ => true end && forallb letter (bs n))%bool = true -> word n.
Proof. intros H. apply andb_prop in H as [A B]. split; [|exact B]. intros E. rewrite E in A. discriminate A. Qed.
Ltac w := apply w_true; reflexivity.
Lemma good_node {A : Set} (f : A -> dval) n : good (f (n_item n)) -> good (d_node f n).
Proof. intros H. constructor; [w|discriminate|]. repeat constructor; cbn [fst snd]; try w. exact H. Qed.
Lemma good_list {A : Set} (g : node A -> any) (f : A -> dval) l : (forall n, d_any (g n) = d_node f n) -> Forall (fun c => good (d_any c)) (map g l) -> good (D_List (map (d_node f) l)).
Proof. intros H F. constructor. induction l as [|n l IH]; cbn [map] in *; constructor; [rewrite <- H; exact (Forall_inv F)|apply IH; exact (Forall_inv_tail F)]. Qed.
Lemma good_opt {A : Set} (g : node A -> any) (f : A -> dval) o : (forall n, d_any (g n) = d_node f n) -> Forall (fun c => good (d_any c)) (opt g o) -> good (d_opt (d_node f) o).
Proof. intros H F. destruct o; cbn [d_opt opt] in *; [|constructor; w]. constructor; [w|]. rewrite <- H. exact (Forall_inv F). Qed.
Lemma good_name n : Forall (fun c => good (d_any c)) (children_name n) -> good (d_name n).
Proof. destruct n as [|o|n]; cbn [children_name d_name]; intros F; constructor; try w; [now apply (good_opt A_Ident)|exact (Forall_inv F)]. Qed.
Lemma good_bool b : good (d_bool b).
Proof. destruct b; constructor; w. Qed.
Lemma good_operator o : good (d_operator o).
Proof. constructor. destruct o; w. Qed.
Lemma good_declkind o : good (d_declkind o).
Proof. constructor. destruct o; w. Qed.
Lemma good_methodkind o : good (d_methodkind o).
Proof. constructor. destruct o; w. Qed.
Lemma good_literal l : match l with L_Number s | L_Binary s | L_String s | L_RegEx s => utf8 s | _ => True end -> good (d_literal l).
Proof. destruct l; intros U; repeat constructor; try w; exact U. Qed.

Ltac parts :=
  repeat match goal with
  | H : Forall _ (_ ++ _) |- _ => apply Forall_app in H; destruct H
  | H : Forall _ (_ :: _) |- _ => let A := fresh in let B := fresh in pose proof (Forall_inv H) as A; pose proof (Forall_inv_tail H) as B; clear H; cbn [d_any] in A
  | H : Forall _ [] |- _ => clear H
  end.
Ltac gd :=
  match goal with
  | |- word _ => w
  | |- _ <> [] => discriminate
  | |- Forall _ [] => apply Forall_nil
  | |- Forall _ (_ :: _) => apply Forall_cons; [cbn [fst snd]; split; [w|gd]|gd]
  | |- good (d_bool _) => apply good_bool
  | |- good (d_operator _) => apply good_operator
  | |- good (d_declkind _) => apply good_declkind
  | |- good (d_methodkind _) => apply good_methodkind
  | |- good (d_name _) => apply good_name; assumption
  | |- good (d_node _ _) => assumption
  | |- good (d_ident _) => assumption
  | |- good (d_opt (d_node d_expression) _) => apply (good_opt A_Expr); [reflexivity|assumption]
  | |- good (d_opt (d_node d_statement) _) => apply (good_opt A_Stmt); [reflexivity|assumption]
  | |- good (d_opt (d_node d_for_init) _) => apply (good_opt A_ForInit); [reflexivity|assumption]
  | |- good (d_opt (d_node d_catch) _) => apply (good_opt A_Catch); [reflexivity|assumption]
  | |- good (d_opt (d_node (d_block d_statement)) _) => apply (good_opt A_Body); [reflexivity|assumption]
  | |- good (d_opt d_ident _) => apply (good_opt A_Ident); [reflexivity|assumption]
  | |- good (d_list ?f ?l) => change (good (D_List (map (d_node f) l))); gd
  | |- good (D_List (map d_ident ?l)) => change (good (D_List (map (d_node D_Str) l))); apply (good_list A_Ident); [reflexivity|assumption]
  | |- good (D_List (map (d_node d_expression) _)) => apply (good_list A_Expr); [reflexivity|assumption]
  | |- good (D_List (map (d_node d_statement) _)) => apply (good_list A_Stmt); [reflexivity|assumption]
  | |- good (D_List (map (d_node d_pattern) _)) => apply (good_list A_Pat); [reflexivity|assumption]
  | |- good (D_List (map (d_node d_property) _)) => apply (good_list A_Prop); [reflexivity|assumption]
  | |- good (D_List (map (d_node d_class_member) _)) => apply (good_list A_Member); [reflexivity|assumption]
  | |- good (D_List (map (d_node d_case) _)) => apply (good_list A_Case); [reflexivity|assumption]
  | |- good (D_List (map (d_node d_declarator) _)) => apply (good_list A_Declarator); [reflexivity|assumption]
  | |- good (D_List (map (d_node d_specifier) _)) => apply (good_list A_Spec); [reflexivity|assumption]
  | |- good (D_Unit _) => constructor; w
  | |- good (D_Tuple _ _) => constructor; [w|gd]
  | |- good (D_Struct _ _) => constructor; [w|discriminate|gd]
  | |- good (D_Str _) => constructor; solve [auto]
  | _ => idtac
  end.
Lemma good_step a : Forall R (children a) -> R a.
Proof.
  intros F T. assert (O : forall x, own_text a x -> utf8 x) by (intros x; apply T; constructor). apply (texts_children a T) in F. clear T.
  destruct a as [n|n|n|n|n|n|n|n|n|n|n|n|n|n|n|n|n]; cbn [d_any]; apply good_node; destruct n as [st en x]; cbn [n_item children own_text] in *.
  - gd.
  - destruct x as [| | |l|b|b|o p|o p|m p|c args|op l r|op x|op x|t c a|[es qs]|t q|x|ps [b|b]|b|[f1 f2 f3 f4]|[c1 c2 c3]];
      cbn [d_expression d_template d_arrow_body d_func d_class]; cbn [children_expression children_template children_func children_class] in F; parts; gd.
    apply good_literal. destruct l; auto.
  - destruct x as [es qs]. cbn [d_template]. cbn [children_template] in F. parts. gd.
  - destruct x; cbn [d_property]; parts; gd.
  - destruct x; cbn [d_property_key]; parts; gd.
  - destruct x; cbn [d_pattern]; parts; gd.
  - destruct x; cbn [d_func]; cbn [children_func] in F; parts; gd.
  - destruct x; cbn [d_class_member]; parts; gd.
  - destruct x as [x]; unfold d_block; cbn [b_body] in *; gd.
  - destruct x as [x]; unfold d_block; cbn [b_body] in *; gd.
  - destruct x as [x]; unfold d_block; cbn [b_body] in *; gd.
  - destruct x as [| |x|k ds|v|l|l|v|t c a|t b|b t|i t u b|l r b|l r b|b h f|[b]|l b|[f1 f2 f3 f4]|[c1 c2 c3]|d c|ss src];
      cbn [d_statement d_func d_class]; cbn [children_statement children_func children_class b_body] in F; parts; try match goal with |- good (D_Tuple _ (d_block ?f (Block ?b))) => change (good (D_Tuple "Block" (D_Struct "Block" [("body"%string, D_List (map (d_node f) b))]))) end; gd.
  - destruct x; cbn [d_declarator]; parts; gd.
  - destruct x; cbn [d_for_init]; parts; gd.
  - destruct x; cbn [d_case]; parts; gd.
  - destruct x; cbn [d_catch]; parts; gd.
  - destruct x; cbn [d_specifier]; parts; gd.
Qed.
Theorem module_good m : (forall a x, in_module a m -> own_text a x -> utf8 x) -> good (d_list d_statement m).
Proof.
  intros H. unfold d_list. apply (good_list A_Stmt); [reflexivity|]. rewrite Forall_map. rewrite Forall_forall. intros n I.
  apply (tree_ind R good_step (A_Stmt n)). intros b x W O. apply (H b x); [|exact O]. exists n. auto.
Qed.
