(** The serialiser writes what SpecMirror.v says. *)
From Coq Require Import List NArith Bool Lia Arith String.
From Coq.Strings Require Import Byte.
From Verif Require Import Bytes Token Lexer Ast AstInd SpecTokens SpecTree SpecPos SpecAst Astgen AstFacts SpecJson JsonFacts SpecMirror LexerFacts.
Import ListNotations.
Open Scope list_scope.

(** ** Distinct field names *)
Fixpoint distinct (l : list str) : bool :=
  match l with [] => true | x :: l' => (negb (existsb (str_eqb x) l') && distinct l')%bool end.
Lemma distinct_nodup l : distinct l = true -> NoDup l.
Proof.
  induction l as [|x l IH]; intros H; [constructor|]. cbn [distinct] in H. apply andb_prop in H as [H1 H2].
  constructor; [|auto]. intros I. assert (E : existsb (str_eqb x) l = true).
  { apply existsb_exists. exists x. split; [exact I|now apply str_eqb_eq]. }
  rewrite E in H1. discriminate H1.
Qed.
Lemma seq_fields_keys fs fs' : seq_fields fs = Done fs' -> map fst fs' = map (fun f => bs (fst f)) fs.
Proof.
  revert fs'. induction fs as [|[k v] fs IH]; cbn [seq_fields]; intros fs' H; [injection H as <-; reflexivity|].
  apply obind_done in H as (y & _ & H). apply obind_done in H as (r & Hr & H). injection H as <-. cbn [map fst]. f_equal. auto.
Qed.
Lemma seq_list_all2 {A} (R : A -> json -> Prop) (f : A -> outcome json) l : forall l',
  Forall (fun a => forall x, f a = Done x -> R a x) l -> seq_list (map f l) = Done l' -> Forall2 R l l'.
Proof.
  induction l as [|a l IH]; cbn [map seq_list]; intros l' F H; [injection H as <-; constructor|].
  apply obind_done in H as (y & Hy & H). apply obind_done in H as (r & Hr & H). injection H as <-.
  constructor; [exact (Forall_inv F y Hy)|apply IH; [exact (Forall_inv_tail F)|exact Hr]].
Qed.
Lemma jarr_inv l x : jarr l = Done x -> exists l', seq_list l = Done l' /\ x = J_Arr l'.
Proof. unfold jarr. intros H. apply obind_done in H as (l' & H & E). injection E as <-. eauto. Qed.

(** ** Fields *)
Definition meets (v : outcome json) (s : slot) : Prop := forall x, v = Done x -> holds s x.
Definition written_as (a : any) : Prop := match a with A_Cases _ => True | _ => forall x, a_any a = Done x -> mirrors a x end.

Lemma mirrors_obj a st en ty fs x : obj st en ty fs = Done x -> estree_type a = Some ty -> start_of a = st -> end_of a = en ->
  distinct (bs "type" :: map (fun f => bs (fst f)) fs ++ [bs "start"; bs "end"]) = true ->
  Forall (fun f => In (fst f) (map fst (slots a))) fs ->
  Forall (fun s => exists v, In (fst s, v) fs /\ meets v (snd s)) (slots a) -> mirrors a x.
Proof.
  intros H T <- <- D K F. apply obj_inv in H as (fs' & H & ->). apply distinct_nodup in D.
  eapply mirrors_object; [exact T|reflexivity| | | | |].
  - rewrite map_app, (seq_fields_keys _ _ H). exact D.
  - apply in_or_app. right. left. reflexivity.
  - apply in_or_app. right. right. left. reflexivity.
  - intros k v I. apply in_app_or in I as [I|[I|[I|[]]]]; [|left; congruence|right; left; congruence].
    right. right. destruct (seq_fields_inv _ _ _ _ H I) as (n & v' & I' & -> & _).
    assert (G := proj1 (Forall_forall _ _) K _ I'). cbn [fst] in G. apply in_map_iff in G as ([n' s] & E & G). cbn [fst] in E. subst n'.
    exists n, s. auto.
  - intros n s I. assert (G := proj1 (Forall_forall _ _) F _ I). cbn [fst snd] in G. destruct G as (v & Iv & M).
    destruct (seq_fields_in _ _ _ _ H Iv) as (y & E & I'). exists y. split; [apply in_or_app; left; exact I'|]. exact (M y E).
Qed.

Lemma meets_text s : meets (jstr s) (Text s).
Proof. intros x H. injection H as <-. constructor. Qed.
Lemma meets_flag b : meets (jbool b) (Flag b).
Proof. intros x H. injection H as <-. constructor. Qed.
Lemma meets_null : meets jnull Null.
Proof. intros x H. injection H as <-. constructor. Qed.
Lemma meets_elsewhere v : meets v Elsewhere.
Proof. intros x H. constructor. Qed.
Lemma meets_none : meets jnull (Optional None).
Proof. intros x H. injection H as <-. constructor. Qed.
Lemma meets_expr n : written_as (A_Expr n) -> meets (a_node a_expression n) (Child (A_Expr n)). Proof. intros W x H. constructor. now apply W. Qed.
Lemma meets_tpl n : written_as (A_Tpl n) -> meets (a_node a_template n) (Child (A_Tpl n)). Proof. intros W x H. constructor. now apply W. Qed.
Lemma meets_ident n : written_as (A_Ident n) -> meets (a_ident n) (Child (A_Ident n)). Proof. intros W x H. constructor. now apply W. Qed.
Lemma meets_key n : written_as (A_Key n) -> meets (a_node a_key n) (Child (A_Key n)). Proof. intros W x H. constructor. now apply W. Qed.
Lemma meets_pat n : written_as (A_Pat n) -> meets (a_node a_pattern n) (Child (A_Pat n)). Proof. intros W x H. constructor. now apply W. Qed.
Lemma meets_func n : written_as (A_Func n) -> meets (a_node a_func n) (Child (A_Func n)). Proof. intros W x H. constructor. now apply W. Qed.
Lemma meets_stmt n : written_as (A_Stmt n) -> meets (a_node a_statement n) (Child (A_Stmt n)). Proof. intros W x H. constructor. now apply W. Qed.
Lemma meets_init n : written_as (A_ForInit n) -> meets (a_node a_for_init n) (Child (A_ForInit n)). Proof. intros W x H. constructor. now apply W. Qed.
Lemma meets_catch n : written_as (A_Catch n) -> meets (a_node a_catch n) (Child (A_Catch n)). Proof. intros W x H. constructor. now apply W. Qed.
Lemma meets_body n : written_as (A_Body n) ->
  meets (obj (n_start n) (n_end n) "BlockStatement" [("body"%string, a_list a_statement (b_body (n_item n)))]) (Child (A_Body n)).
Proof. intros W x H. constructor. now apply W. Qed.
Lemma meets_classbody n : written_as (A_ClassBody n) ->
  meets (obj (n_start n) (n_end n) "ClassBody" [("body"%string, a_list a_member (b_body (n_item n)))]) (Child (A_ClassBody n)).
Proof. intros W x H. constructor. now apply W. Qed.
Lemma meets_some v a : meets v (Child a) -> meets v (Optional (Some a)).
Proof. intros M x H. specialize (M x H). inversion M. now constructor. Qed.
Lemma meets_list {A : Set} (f : N -> N -> A -> outcome json) (g : node A -> any) l :
  (forall n, written_as (g n) -> forall x, a_node f n = Done x -> mirrors (g n) x) ->
  Forall written_as (map g l) -> meets (a_list f l) (Children (map g l)).
Proof.
  intros G F x H. unfold a_list in H. apply jarr_inv in H as (l' & H & ->). constructor.
  assert (F2 : Forall2 (fun n x => mirrors (g n) x) l l').
  { apply seq_list_all2 with (f := a_node f); [|exact H]. rewrite Forall_map in F. revert F. apply Forall_impl. intros n W y E. eauto. }
  clear - F2. induction F2; cbn [map]; constructor; auto.
Qed.
Lemma meets_exprs l : Forall written_as (map A_Expr l) -> meets (a_list a_expression l) (Children (map A_Expr l)). Proof. apply meets_list. intros n W. exact W. Qed.
Lemma meets_pats l : Forall written_as (map A_Pat l) -> meets (a_list a_pattern l) (Children (map A_Pat l)). Proof. apply meets_list. intros n W. exact W. Qed.
Lemma meets_props l : Forall written_as (map A_Prop l) -> meets (a_list a_property l) (Children (map A_Prop l)). Proof. apply meets_list. intros n W. exact W. Qed.
Lemma meets_members l : Forall written_as (map A_Member l) -> meets (a_list a_member l) (Children (map A_Member l)). Proof. apply meets_list. intros n W. exact W. Qed.
Lemma meets_stmts l : Forall written_as (map A_Stmt l) -> meets (a_list a_statement l) (Children (map A_Stmt l)). Proof. apply meets_list. intros n W. exact W. Qed.
Lemma meets_cases l : Forall written_as (map A_Case l) -> meets (a_list a_case l) (Children (map A_Case l)). Proof. apply meets_list. intros n W. exact W. Qed.
Lemma meets_decls l : Forall written_as (map A_Declarator l) -> meets (a_list a_declarator l) (Children (map A_Declarator l)). Proof. apply meets_list. intros n W. exact W. Qed.
Lemma meets_specs l : Forall written_as (map A_Spec l) -> meets (jarr (map a_specifier l)) (Children (map A_Spec l)).
Proof.
  intros F x H. apply jarr_inv in H as (l' & H & ->). constructor.
  assert (F2 : Forall2 (fun n x => mirrors (A_Spec n) x) l l').
  { apply seq_list_all2 with (f := a_specifier); [|exact H]. rewrite Forall_map in F. revert F. apply Forall_impl. intros n W y E. now apply W. }
  clear - F2. induction F2; cbn [map]; constructor; auto.
Qed.
Lemma meets_empty : meets (jarr []) (Children []).
Proof. intros x H. injection H as <-. constructor. constructor. Qed.
Lemma meets_chunks qs : meets (jarr (a_quasis qs)) (Chunks qs).
Proof.
  intros x H. apply jarr_inv in H as (l' & H & ->). constructor. revert l' H.
  induction qs as [|q qs IH]; cbn [a_quasis seq_list]; intros l' H; [injection H as <-; constructor|].
  apply obind_done in H as (y & Hy & H). apply obind_done in H as (r & Hr & H). injection H as <-.
  destruct (N.eqb (n_end q) 0); [discriminate Hy|]. apply obj_inv in Hy as (fs' & Hf & ->). injection Hf as <-.
  eapply chunk_more; [reflexivity|left; reflexivity|right; left; reflexivity|auto].
Qed.
Definition element (n : node expression) : option (outcome json) :=
  match n_item n with E_Void => None | _ => Some (a_node a_expression n) end.
Lemma hole_dec n : is_hole n \/ ~ is_hole n.
Proof. unfold is_hole. destruct (n_item n); solve [now left | right; discriminate]. Qed.
Lemma element_hole n : is_hole n -> element n = None. Proof. unfold is_hole, element. intros ->. reflexivity. Qed.
Lemma element_some n : ~ is_hole n -> element n = Some (a_node a_expression n).
Proof. unfold is_hole, element. destruct (n_item n); congruence. Qed.
Lemma trim l : exists kept trailing, l = kept ++ trailing /\ Forall is_hole trailing /\
  (forall l n, kept = l ++ [n] -> ~ is_hole n) /\ drop_trailing (map element l) = map element kept.
Proof.
  induction l as [|n l (kept & trailing & -> & T & K & D)].
  - exists [], []. split; [auto|]. split; [constructor|]. split; [|reflexivity]. intros [|z0 l0] z1 E; discriminate E.
  - cbn [map drop_trailing]. rewrite D. destruct kept as [|k kept].
    + destruct (hole_dec n) as [V|V].
      * rewrite (element_hole _ V). exists [], (n :: trailing). split; [auto|]. split; [now constructor|]. split; [|reflexivity].
        intros [|z0 l0] z1 E; discriminate E.
      * rewrite (element_some _ V). exists [n], trailing. split; [auto|]. split; [exact T|]. split; [|cbn [map]; rewrite (element_some _ V); reflexivity].
        intros [|z0 [|z2 l0]] z1 E; [injection E as <-; exact V|discriminate E|discriminate E].
    + exists (n :: k :: kept), trailing. split; [auto|]. split; [exact T|]. split; [|cbn [map]; destruct (element n); reflexivity].
      intros [|z0 l0] z1 E; [discriminate E|]. injection E as _ E. exact (K l0 z1 E).
Qed.
Lemma meets_elements l : Forall written_as (map A_Expr l) ->
  meets (jarr (map hole (drop_trailing (map (fun n => match n_item n with E_Void => None | _ => Some (a_node a_expression n) end) l)))) (Elements l).
Proof.
  intros F x H. apply jarr_inv in H as (l' & H & ->). change (fun n => match n_item n with E_Void => None | _ => Some (a_node a_expression n) end) with element in H.
  destruct (trim l) as (kept & trailing & -> & T & K & D). rewrite D in H. apply holds_elements; [exact T|exact K|].
  rewrite map_map in H. apply seq_list_all2 with (f := fun n => hole (element n)); [|exact H].
  rewrite map_app in F. apply Forall_app in F as [F _]. rewrite Forall_map in F. revert F. apply Forall_impl. intros n W y E.
  destruct (hole_dec n) as [V|V]; [left|right].
  - rewrite (element_hole _ V) in E. injection E as <-. auto.
  - rewrite (element_some _ V) in E. split; [exact V|]. now apply W.
Qed.

(** ** Nodes *)
Ltac find := first [left; reflexivity | right; find].
Ltac meet := cbn [fst snd a_opt a_name a_method_kind a_decl_kind option_map name_slot children_name opt] in *;
  first
  [ apply meets_text | apply meets_flag | apply meets_null | apply meets_elsewhere | apply meets_none | apply meets_empty | apply meets_chunks
  | solve [apply meets_expr; assumption] | solve [apply meets_ident; assumption] | solve [apply meets_tpl; assumption]
  | solve [apply meets_key; assumption] | solve [apply meets_pat; assumption] | solve [apply meets_func; assumption]
  | solve [apply meets_stmt; assumption] | solve [apply meets_catch; assumption] | solve [apply meets_init; assumption] | solve [apply meets_body; assumption] | solve [apply meets_classbody; assumption]
  | solve [apply meets_exprs; assumption] | solve [apply meets_pats; assumption] | solve [apply meets_props; assumption]
  | solve [apply meets_members; assumption] | solve [apply meets_stmts; assumption] | solve [apply meets_cases; assumption]
  | solve [apply meets_decls; assumption] | solve [apply meets_specs; assumption] | solve [apply meets_elements; assumption]
  | (apply meets_some; meet) ].
Ltac slots_done := lazymatch goal with
  | |- Forall _ [] => constructor
  | |- Forall _ (_ :: _) => constructor; [eexists; split; [find|meet]|slots_done]
  end.
Ltac keys_done := lazymatch goal with
  | |- Forall _ [] => constructor
  | |- Forall _ (_ :: _) => constructor; [cbn; find|keys_done]
  end.
Ltac mirror T := eapply mirrors_obj; [eassumption|T|reflexivity|reflexivity|reflexivity|keys_done|
  cbn [slots expression_slots statement_slots declaration_slots template_slots literal_slots function_slots class_slots computed_key n_item]; unfold declaration_slots; slots_done].
Ltac kids F := repeat (match type of F with
  | Forall _ (_ ++ _) => let L := fresh "F" in apply Forall_app in F as [L F]; kids L
  | Forall _ (_ :: _) => let L := fresh "K" in apply Forall_cons_iff in F as [L F]
  | Forall _ (opt _ ?o) => destruct o; cbn [opt] in F
  | Forall _ (children_name ?n) => destruct n as [|[n|]|n]; cbn [children_name opt] in F
  end).

Lemma func_mirrors a st en f x : a_func st en f = Done x -> estree_type a = Some (match f with Func n _ _ _ => function_type n end) ->
  start_of a = st -> end_of a = en -> slots a = function_slots f -> Forall written_as (children_func f) -> mirrors a x.
Proof.
  destruct f as [n g ps b]. cbn [a_func children_func]. intros H T S E L F.
  eapply mirrors_obj; [exact H|rewrite T; destruct n; reflexivity|exact S|exact E|reflexivity|rewrite L; keys_done|rewrite L].
  cbn [function_slots]. kids F; slots_done.
Qed.
Lemma class_mirrors a st en f x : a_class st en f = Done x -> estree_type a = Some (match f with Class n _ _ => class_type n end) ->
  start_of a = st -> end_of a = en -> slots a = class_slots f -> Forall written_as (children_class f) -> mirrors a x.
Proof.
  destruct f as [n e b]. cbn [a_class children_class]. intros H T S E L F.
  eapply mirrors_obj; [exact H|rewrite T; destruct n; reflexivity|exact S|exact E|reflexivity|rewrite L; keys_done|rewrite L].
  cbn [class_slots]. kids F; slots_done.
Qed.

(** The JSON of a node at any location. *)
Definition mirrored (a : any) : Prop :=
  match a with
  | A_Expr n => forall st en x, a_expression st en (n_item n) = Done x -> mirrors (A_Expr (Node st en (n_item n))) x
  | _ => written_as a
  end.
Lemma mirrored_written a : mirrored a -> written_as a.
Proof. destruct a; auto. intros M x H. destruct n as [st en e]. exact (M st en x H). Qed.

Lemma expr_mirrored n : well_formed (A_Expr n) -> Forall written_as (children (A_Expr n)) ->
  (forall c, In c (children (A_Expr n)) -> Forall written_as (children c)) -> mirrored (A_Expr n).
Proof.
  intros W F G st en x H. apply proj1 in W. destruct n as [st0 en0 e]. cbn [n_item children] in *.
  destruct e as [| |s|l|b|b|o p|o p|m p|f args|op l r|op z|op z|t f a|t|t q|z|ps [z|b]|b|f|f];
    cbn [a_expression children_expression] in H, F; kids F; try solve [mirror reflexivity].
  - discriminate H.
  - destruct l; cbn [a_literal] in H; mirror reflexivity.
  - cbn [expression_wf] in W. assert (E : expression_estree (E_Binary op l r) = Some (expression_type op false)).
    { clear - W. repeat (destruct W as [<-|W]; [reflexivity|]). destruct W. }
    mirror ltac:(exact E).
  - cbn [expression_wf] in W. assert (E : expression_estree (E_Prefix op z) = Some (expression_type op true)).
    { clear - W. repeat (destruct W as [<-|W]; [reflexivity|]). destruct W. }
    destruct op; try solve [mirror ltac:(exact E)].
    specialize (G (A_Expr z) (or_introl eq_refl)). cbn [children] in G.
    destruct (n_item z) as [| |s|l|b|b|o p|o p|m p|f args|op l r|op y|op y|t f a|t|t q|y|ps b|b|f|f] eqn:Ez; try discriminate H.
    + eapply mirrors_obj; [eassumption|reflexivity|reflexivity|reflexivity|reflexivity| |]; cbn [slots expression_slots n_item]; rewrite Ez; [keys_done|slots_done].
    + cbn [children_expression] in G. kids G.
      eapply mirrors_obj; [eassumption|reflexivity|reflexivity|reflexivity|reflexivity| |]; cbn [slots expression_slots n_item]; rewrite Ez; [keys_done|slots_done].
  - cbn [expression_wf] in W. assert (E : expression_estree (E_Postfix op z) = Some (expression_type op false)).
    { clear - W. repeat (destruct W as [<-|W]; [reflexivity|]). destruct W. }
    mirror ltac:(exact E).
  - destruct t as [es qs]. cbn [a_template children_template] in H, F. kids F. mirror reflexivity.
  - eapply func_mirrors; [exact H|destruct f as [nm ? ? ?]; reflexivity|reflexivity|reflexivity|reflexivity|exact F].
  - eapply class_mirrors; [exact H|destruct f as [nm ? ?]; reflexivity|reflexivity|reflexivity|reflexivity|exact F].
Qed.
Lemma node_mirrored a : well_formed a -> Forall mirrored (children a) ->
  (forall c, In c (children a) -> Forall mirrored (children c)) -> mirrored a.
Proof.
  intros W Fm G.
  assert (F : Forall written_as (children a)) by (revert Fm; apply Forall_impl, mirrored_written).
  destruct a as [n|n|n|n|n|n|n|n|n|n|n|n|n|n|n|n|n].
  2: { apply expr_mirrored; [exact W|exact F|]. intros c I. specialize (G c I). revert G. apply Forall_impl, mirrored_written. }
  all: cbn [mirrored written_as a_any children] in *; unfold a_node; try exact I; intros x H;
    try (destruct n as [st en i]; cbn [n_start n_end n_item] in * ).
  - unfold a_ident, a_identifier in H. mirror reflexivity.
  - destruct i as [es qs]. cbn [a_template children_template] in H, F. kids F. mirror reflexivity.
  - destruct i; cbn [a_property] in H; kids F; mirror reflexivity.
  - destruct i as [e|s|s]; cbn [a_key] in H; kids F.
    + apply mirrors_key with e; [reflexivity|]. match goal with K : written_as _ |- _ => exact (K x H) end.
    + unfold a_identifier in H. mirror reflexivity.
    + unfold a_identifier in H. mirror reflexivity.
  - destruct i; cbn [a_pattern] in H; kids F; try discriminate H; try mirror reflexivity.
  - eapply func_mirrors; [exact H|destruct i as [nm ? ? ?]; reflexivity|reflexivity|reflexivity|reflexivity|exact F].
  - destruct i as [|b k kd v|b k v]; cbn [a_member] in H; kids F; try discriminate H. mirror reflexivity.
  - unfold a_block in H. mirror reflexivity.
  - mirror reflexivity.
  - destruct i as [| |e|k ds|v|l|l|v|t f a|t b|b t|i t u b|l r b|l r b|b h f|b|l b|f|f|d f|ss src]; cbn [a_statement children_statement] in H, F.
    18: { eapply func_mirrors; [exact H|destruct f as [nm ? ? ?]; reflexivity|reflexivity|reflexivity|reflexivity|exact F]. }
    18: { eapply class_mirrors; [exact H|destruct f as [nm ? ?]; reflexivity|reflexivity|reflexivity|reflexivity|exact F]. }
    18: { assert (Gc := G (A_Cases f) (or_intror (or_introl eq_refl))). cbn [children] in Gc.
          assert (Gw : Forall written_as (map A_Case (b_body (n_item f)))) by (revert Gc; apply Forall_impl, mirrored_written).
          kids F. mirror reflexivity. }
    4: { kids F. destruct k; unfold a_decl_kind in H; mirror reflexivity. }
    all: kids F; mirror reflexivity.
  - destruct i as [p i]. cbn [a_declarator] in H. kids F; mirror reflexivity.
  - destruct i as [k ds|e]; cbn [a_for_init] in H; kids F; [destruct k; unfold a_decl_kind in H; mirror reflexivity|].
    apply mirrors_init with e; [reflexivity|]. cbn [n_start n_end]. exact (Forall_inv Fm st en x H).
  - destruct i as [t b]. cbn [a_case] in H. kids F; mirror reflexivity.
  - destruct i as [p b]. cbn [a_catch] in H. kids F; mirror reflexivity.
  - unfold a_specifier in H. destruct i; cbn [n_item n_start n_end] in H; kids F; mirror reflexivity.
Qed.
Lemma tree_mirrored a : (forall d, within d a -> well_formed d) -> mirrored a.
Proof.
  enough (Q : (forall d, within d a -> well_formed d) -> mirrored a /\ Forall mirrored (children a)) by (intros W; apply Q, W).
  revert a. apply (tree_ind (fun a => (forall d, within d a -> well_formed d) -> mirrored a /\ Forall mirrored (children a))).
  intros a IH W.
  assert (K : forall c, In c (children a) -> mirrored c /\ Forall mirrored (children c)).
  { intros c I. apply (proj1 (Forall_forall _ _) IH c I). intros d Wd. apply W. eapply within_child; eauto. }
  assert (F : Forall mirrored (children a)) by (apply Forall_forall; intros c I; apply K, I).
  split; [|exact F]. apply node_mirrored; [apply W; constructor|exact F|]. intros c I. apply K, I.
Qed.
