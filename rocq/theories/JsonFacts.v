(** The JSON of a module, part by part. *)
From Coq Require Import List NArith Bool Lia Arith String.
From Coq.Strings Require Import Byte.
From Verif Require Import Bytes Token Lexer Ast AstInd SpecTokens SpecTree SpecPos SpecAst Astgen AstFacts SpecJson LexerFacts.
Import ListNotations.
Open Scope list_scope.

Lemma part_trans x y z : part_of x y -> part_of y z -> part_of x z.
Proof. intros H G. revert H. induction G as [|l u I G IH|fs k u I G IH]; intros H; [exact H|eapply part_elem; eauto|eapply part_field; eauto]. Qed.

(** A part of a field. *)
Definition strict (z x : json) : Prop := exists fs k y, x = J_Obj fs /\ In (k, y) fs /\ part_of z y.
Definition strict_arr (z x : json) : Prop := exists l y, x = J_Arr l /\ In y l /\ part_of z y.
Definition inner (z x : json) : Prop := strict z x \/ strict_arr z x.
Lemma inner_part z x : inner z x -> part_of z x.
Proof. intros [(fs & k & y & -> & I & P)|(l & y & -> & I & P)]; [eapply part_field|eapply part_elem]; eauto. Qed.
Lemma part_inner z x : part_of z x -> z = x \/ inner z x.
Proof. intros [|l y I P|fs k y I P]; [now left|right; right; do 2 eexists; eauto|right; left; do 3 eexists; eauto]. Qed.
Lemma inner_trans z y x : part_of z y -> inner y x -> inner z x.
Proof.
  intros P [(fs & k & u & -> & I & Q)|(l & u & -> & I & Q)]; [left|right].
  - exists fs, k, u. split; [auto|split; [auto|eapply part_trans; eauto]].
  - exists l, u. split; [auto|split; [auto|eapply part_trans; eauto]].
Qed.

Lemma seq_fields_in fs fs' k v : seq_fields fs = Done fs' -> In (k, v) fs -> exists y, v = Done y /\ In (bs k, y) fs'.
Proof.
  revert fs'. induction fs as [|[k1 v1] fs IH]; simpl; intros fs' H I; [destruct I|].
  apply obind_done in H as (y1 & H1 & H). apply obind_done in H as (r & H2 & H). injection H as <-.
  destruct I as [E|I].
  - injection E as -> ->. exists y1. split; [auto|now left].
  - apply (IH _ H2) in I as (y & E & I). exists y. split; [auto|now right].
Qed.
Lemma seq_fields_inv fs fs' k y : seq_fields fs = Done fs' -> In (k, y) fs' -> exists n v, In (n, v) fs /\ k = bs n /\ v = Done y.
Proof.
  revert fs'. induction fs as [|[k1 v1] fs IH]; simpl; intros fs' H I; [injection H as <-; destruct I|].
  apply obind_done in H as (y1 & H1 & H). apply obind_done in H as (r & H2 & H). injection H as <-.
  destruct I as [E|I].
  - injection E as <- <-. exists k1, v1. auto.
  - apply (IH _ H2) in I as (n & v & I & E). exists n, v. auto.
Qed.
Lemma seq_list_in l l' v : seq_list l = Done l' -> In v l -> exists y, v = Done y /\ In y l'.
Proof.
  revert l'. induction l as [|v1 l IH]; simpl; intros l' H I; [destruct I|].
  apply obind_done in H as (y1 & H1 & H). apply obind_done in H as (r & H2 & H). injection H as <-.
  destruct I as [->|I].
  - exists y1. split; [auto|now left].
  - apply (IH _ H2) in I as (y & E & I). exists y. split; [auto|now right].
Qed.
Lemma seq_list_inv l l' y : seq_list l = Done l' -> In y l' -> In (Done y) l.
Proof.
  revert l'. induction l as [|v1 l IH]; simpl; intros l' H I; [injection H as <-; destruct I|].
  apply obind_done in H as (y1 & H1 & H). apply obind_done in H as (r & H2 & H). injection H as <-.
  destruct I as [->|I]; [left; auto|right; eauto].
Qed.
(** The fields of an object. *)
Lemma obj_inv st en ty fs x : obj st en ty fs = Done x -> exists fs', seq_fields fs = Done fs' /\
  x = J_Obj ((bs "type", J_Str (bs ty)) :: fs' ++ [(bs "start", J_Int st); (bs "end", J_Int en)]).
Proof. unfold obj. intros H. apply obind_done in H as (fs' & H1 & H). injection H as <-. eauto. Qed.

(** [v] shows [c]: its value has the JSON of [c] as a part. *)
Definition shows (v : outcome json) (c : any) : Prop :=
  forall x, v = Done x -> exists y, a_any c = Done y /\ part_of y x.
Lemma shows_obj st en ty fs c x : obj st en ty fs = Done x -> Exists (fun f => shows (snd f) c) fs ->
  exists y, a_any c = Done y /\ strict y x.
Proof.
  intros H E. apply obj_inv in H as (fs' & H & ->). apply Exists_exists in E as ([k v] & I & S).
  destruct (seq_fields_in _ _ _ _ H I) as (z & Ez & I'). destruct (S z Ez) as (y & Ey & P).
  exists y. split; [exact Ey|]. do 3 eexists. split; [reflexivity|]. split; [|exact P]. right. apply in_or_app. left. exact I'.
Qed.
Lemma shows_self (f : outcome json) c : f = a_any c -> shows f c.
Proof. intros -> x H. exists x. split; [exact H|constructor]. Qed.
Lemma shows_arr l c : Exists (fun v => shows v c) l -> shows (jarr l) c.
Proof.
  intros E x H. unfold jarr in H. apply obind_done in H as (l' & H & Hx). injection Hx as <-.
  apply Exists_exists in E as (v & I & S). destruct (seq_list_in _ _ _ H I) as (z & Ez & I').
  destruct (S z Ez) as (y & Ey & P). exists y. split; [exact Ey|]. eapply part_elem; eauto.
Qed.
Lemma shows_list {A : Set} (f : N -> N -> A -> outcome json) (g : node A -> any) l n :
  (forall n, a_any (g n) = a_node f n) -> In n l -> shows (a_list f l) (g n).
Proof.
  intros H I. apply shows_arr, Exists_exists. exists (a_node f n). split; [now apply in_map|]. apply shows_self. now rewrite H.
Qed.
Lemma shows_block st en ty fs c : Exists (fun f => shows (snd f) c) fs -> shows (obj st en ty fs) c.
Proof. intros E x H. destruct (shows_obj _ _ _ _ _ _ H E) as (y & Ey & P). exists y. split; [auto|]. apply inner_part. now left. Qed.

(** The JSON of a node, expressions at any location. *)
Definition ser (a : any) (x : json) : Prop :=
  match a with A_Expr n => exists st en, a_expression st en (n_item n) = Done x | _ => a_any a = Done x end.
Lemma any_ser a x : a_any a = Done x -> ser a x.
Proof. destruct a; auto. intros H. exists (n_start n), (n_end n). exact H. Qed.

Ltac expose := repeat (match goal with
  | I : In _ (_ ++ _) |- _ => apply in_app_or in I; destruct I as [I|I]
  | I : In _ (_ :: _) |- _ => destruct I as [I|I]; [subst|]
  | I : In _ [] |- _ => destruct I
  | I : In _ (map _ _) |- _ => apply in_map_iff in I; let n := fresh "n" in let E := fresh in destruct I as (n & E & I); subst
  | I : In _ (opt _ ?o) |- _ => destruct o; cbn [opt] in I
  | I : In _ (children_name ?n) |- _ => destruct n as [|[n|]|n]; cbn [children_name opt] in I
  end).
Ltac show1 := first
  [ solve [apply shows_self; reflexivity]
  | solve [eapply shows_list; [reflexivity|assumption]]
  | solve [apply (shows_list a_expression A_Expr); [reflexivity|assumption]]
  | solve [apply (shows_list a_pattern A_Pat); [reflexivity|assumption]] ].
Ltac showf := first [apply Exists_cons_hd; cbn [snd a_opt]; show1 | apply Exists_cons_tl; showf].
Ltac shown := eapply shows_obj; [eassumption|showf].

Lemma func_shows st en f c x : a_func st en f = Done x -> In c (children_func f) -> exists y, a_any c = Done y /\ strict y x.
Proof. destruct f as [n g ps b]. cbn [a_func children_func]. intros H I. expose; shown. Qed.
Lemma class_shows st en f c x : a_class st en f = Done x -> In c (children_class f) -> exists y, a_any c = Done y /\ strict y x.
Proof. destruct f as [n e b]. cbn [a_class children_class]. intros H I. expose; shown. Qed.

Lemma shows_arr_block l c x : jarr l = Done x -> Exists (fun v => shows v c) l -> exists y, a_any c = Done y /\ strict_arr y x.
Proof.
  intros H E. unfold jarr in H. apply obind_done in H as (l' & H & Hx). injection Hx as <-.
  apply Exists_exists in E as (v & I & S). destruct (seq_list_in _ _ _ H I) as (z & Ez & I').
  destruct (S z Ez) as (y & Ey & P). exists y. split; [exact Ey|]. do 2 eexists. split; [reflexivity|]. eauto.
Qed.
Lemma drop_trailing_in (o : outcome json) l : In (Some o) l -> In (Some o) (drop_trailing l).
Proof.
  induction l as [|x l IH]; [auto|]. intros [->|I]; cbn [drop_trailing].
  - destruct (drop_trailing l); left; reflexivity.
  - specialize (IH I). destruct (drop_trailing l); [destruct IH|]. right. exact IH.
Qed.
(** The children of a node are parts of its JSON, but for the absorbed ones. *)
Definition is_expr (a : any) : Prop := exists n, a = A_Expr n.
Definition child_in (a c : any) (x : json) : Prop :=
  exists y, a_any c = Done y /\ part_of y x /\ (is_expr a -> strict y x).
Lemma child_shown a x c : ser a x -> In c (children a) -> ~ is_void c -> ~ absorbed c a -> child_in a c x.
Proof.
  intros H I V A.
  assert (L : (exists y, a_any c = Done y /\ strict y x) -> child_in a c x).
  { intros (y & E & S). exists y. split; [exact E|]. split; [apply inner_part; now left|auto]. }
  assert (K : shows (Done x) c -> ~ is_expr a -> child_in a c x).
  { intros S Ne. destruct (S x eq_refl) as (y & E & P). exists y. split; [exact E|]. split; [exact P|tauto]. }
  destruct a as [n|n|n|n|n|n|n|n|n|n|n|n|n|n|n|n|n]; cbn [ser a_any children] in H, I.
  - destruct I.
  - destruct H as (st & en & H). apply L. destruct n as [st0 en0 e]. cbn [n_item] in *.
    destruct e as [| | |l|b|b|o p|o p|m p|f args|op l r|op z|op z|t f a|t|t q|z|ps [z|b]|b|f|f];
      cbn [a_expression children_expression] in H, I; try solve [expose; shown].
    + (* array *) eapply shows_obj; [exact H|]. apply Exists_cons_hd. cbn [snd]. apply shows_arr, Exists_exists.
      apply in_map_iff in I as (e & <- & I). exists (a_node a_expression e). split; [|apply shows_self; reflexivity].
      apply in_map_iff. exists (Some (a_node a_expression e)). split; [reflexivity|]. apply drop_trailing_in.
      apply in_map_iff. exists e. split; [|exact I]. destruct (n_item e) eqn:E; try reflexivity. exfalso. apply V. exists e. auto.
    + (* prefix *) destruct op; try solve [expose; shown]. destruct (n_item z) eqn:Ez; try discriminate H; [expose; shown|].
      exfalso. apply A. left. do 4 eexists. split; [reflexivity|split; [reflexivity|exact Ez]].
    + (* template *) destruct t as [es qs]. cbn [a_template children_template] in H, I. expose; [shown|].
      exfalso. apply A. right. right. split; [discriminate|eauto].
    + eapply func_shows; eauto.
    + eapply class_shows; eauto.
  - apply L. destruct n as [st en [es qs]]. unfold a_node in H. cbn [n_item n_start n_end a_template children_template] in H, I. expose; [shown|].
    exfalso. apply A. right. right. split; [discriminate|eauto].
  - apply L. destruct n as [st en e]. unfold a_node in H. destruct e as [s|k v|k v|z]; cbn [n_item n_start n_end a_property] in H, I; expose; shown.
  - destruct n as [st en e]. unfold a_node in H. destruct e as [s|k|v]; cbn [n_item n_start n_end a_key] in H, I; expose.
    apply K; [|intros (m & E); discriminate E]. rewrite <- H. now apply shows_self.
  - apply L. destruct n as [st en e]. unfold a_node in H. destruct e as [|s|ps|es|z|l r]; cbn [n_item n_start n_end a_pattern] in H, I; expose; shown.
  - apply L. eapply func_shows; eauto.
  - apply L. destruct n as [st en e]. unfold a_node in H. destruct e as [|b k kd v|b k v]; cbn [n_item n_start n_end a_member] in H, I; [destruct I|expose; shown|discriminate H].
  - apply L. unfold a_block in H. expose; shown.
  - apply L. expose; shown.
  - apply in_map_iff in I as (n' & <- & I). apply K; [|intros (m & E); discriminate E]. rewrite <- H. now apply (shows_list a_case A_Case).
  - apply L. destruct n as [st en e]. unfold a_node in H.
    destruct e as [| |e|k ds|v|l|l|v|t f a|t b|b t|i t u b|l r b|l r b|b h f|b|l b|f|f|d f|ss src]; cbn [n_item n_start n_end a_statement children_statement] in H, I.
    all: try solve [expose; shown].
    + eapply func_shows; eauto.
    + eapply class_shows; eauto.
    + expose. eapply shows_obj; [eassumption|]. apply Exists_cons_hd. cbn [snd]. apply shows_arr, Exists_exists.
      match goal with I : In ?q ss |- _ => exists (a_specifier q); split; [|apply shows_self; reflexivity]; apply in_map_iff; exists q; split; [reflexivity|exact I] end.
  - apply L. destruct n as [st en [p i]]. unfold a_node in H. cbn [n_item n_start n_end a_declarator] in H, I. expose; shown.
  - destruct n as [st en [k ds|e]]; unfold a_node in H; cbn [n_item n_start n_end a_for_init] in H, I.
    + apply L. expose; shown.
    + exfalso. apply A. right. left. do 2 eexists. split; reflexivity.
  - apply L. destruct n as [st en [t b]]. unfold a_node in H. cbn [n_item n_start n_end a_case] in H, I. expose; shown.
  - apply L. destruct n as [st en [p b]]. unfold a_node in H. cbn [n_item n_start n_end a_catch] in H, I. expose; shown.
  - apply L. destruct n as [st en [i l1|l1|l1]]; unfold a_specifier in H; cbn [n_item] in H, I; expose; shown.
Qed.

(** The object of a node. *)
Lemma own_obj a st en ty fs x : obj st en ty fs = Done x -> estree_type a = Some ty -> start_of a = st -> end_of a = en ->
  Forall (fun t => In (fst t, jstr (snd t)) fs) (estree_texts a) -> object_of a x.
Proof.
  intros H T <- <- F. apply obj_inv in H as (fs' & H & ->). do 2 eexists. split; [exact T|]. split; [reflexivity|].
  split; [apply in_or_app; right; left; reflexivity|]. split; [apply in_or_app; right; right; left; reflexivity|].
  intros k s I. apply in_or_app. left. rewrite Forall_forall in F. specialize (F _ I). cbn [fst snd] in F.
  destruct (seq_fields_in _ _ _ _ H F) as (y & E & I'). injection E as <-. exact I'.
Qed.
Ltac own := eapply own_obj; [eassumption|try reflexivity|reflexivity|reflexivity|cbn; repeat (constructor; cbn; auto 10)].
Lemma own_object a x : a_any a = Done x -> well_formed a -> estree_type a <> None -> object_of a x.
Proof.
  intros H W T. apply proj1 in W.
  destruct a as [n|n|n|n|n|n|n|n|n|n|n|n|n|n|n|n|n]; cbn [a_any] in H; unfold a_node in H;
    try (destruct n as [st en i]; cbn [n_start n_end n_item] in H, W).
  - own.
  - destruct i as [| | |l|b|b|o p|o p|m p|f args|op l r|op z|op z|t f a|t|t q|z|ps [z|b]|b|f|f]; cbn [a_expression] in H; try solve [own].
    + discriminate H.
    + destruct l; cbn [a_literal] in H; own.
    + cbn [expression_wf] in W. assert (E : expression_estree (E_Binary op l r) = Some (expression_type op false)).
      { clear - W. repeat (destruct W as [<-|W]; [reflexivity|]). destruct W. }
      eapply own_obj; [eassumption|exact E|reflexivity|reflexivity|cbn; repeat (constructor; cbn; auto)].
    + cbn [expression_wf] in W. assert (E : expression_estree (E_Prefix op z) = Some (expression_type op true)).
      { clear - W. repeat (destruct W as [<-|W]; [reflexivity|]). destruct W. }
      destruct op; try (eapply own_obj; [eassumption|exact E|reflexivity|reflexivity|cbn; repeat (constructor; cbn; auto)]).
      destruct (n_item z); try discriminate H; own.
    + cbn [expression_wf] in W. assert (E : expression_estree (E_Postfix op z) = Some (expression_type op false)).
      { clear - W. repeat (destruct W as [<-|W]; [reflexivity|]). destruct W. }
      eapply own_obj; [eassumption|exact E|reflexivity|reflexivity|cbn; repeat (constructor; cbn; auto)].
    + destruct t. cbn [a_template] in H. own.
    + destruct f as [[|nm|nm] ? ? ?]; cbn [a_func] in H; own.
    + destruct f as [[|nm|nm] ? ?]; cbn [a_class] in H; own.
  - destruct i. cbn [a_template] in H. own.
  - destruct i; cbn [a_property] in H; own.
  - destruct i; cbn [a_key] in H; [exfalso; apply T; reflexivity|own|own].
  - destruct i; cbn [a_pattern] in H; try own. discriminate H.
  - destruct i as [[|nm|nm] ? ? ?]; cbn [a_func] in H; own.
  - destruct i; cbn [a_member] in H; try discriminate H. own.
  - unfold a_block in H. own.
  - own.
  - exfalso. apply T. reflexivity.
  - destruct i as [| |e|k ds|v|l|l|v|t f a|t b|b t|i t u b|l r b|l r b|b h f|b|l b|f|f|d f|ss src]; cbn [a_statement] in H; try own.
    + destruct f as [[|nm|nm] ? ? ?]; cbn [a_func] in H; own.
    + destruct f as [[|nm|nm] ? ?]; cbn [a_class] in H; own.
  - destruct i. cbn [a_declarator] in H. own.
  - destruct i; cbn [a_for_init] in H; [own|exfalso; apply T; reflexivity].
  - destruct i. cbn [a_case] in H. own.
  - destruct i. cbn [a_catch] in H. own.
  - unfold a_specifier in H. destruct i; cbn [n_item] in H; own.
Qed.

(** ** Whole trees *)
Definition deep (a : any) (x : json) : Prop := forall p d, within p a -> In d (children p) -> ~ is_void d -> ~ absorbed d p -> child_in a d x.
Definition compound (x : json) : Prop := (exists fs, x = J_Obj fs) \/ (exists l, x = J_Arr l).
Lemma obj_compound st en ty fs x : obj st en ty fs = Done x -> compound x.
Proof. intros H. apply obj_inv in H as (? & _ & ->). left. eauto. Qed.
Ltac comp := first [discriminate | eapply obj_compound; eassumption].
Lemma func_compound st en f x : a_func st en f = Done x -> compound x.
Proof. destruct f. cbn [a_func]. intros H. comp. Qed.
Lemma class_compound st en f x : a_class st en f = Done x -> compound x.
Proof. destruct f. cbn [a_class]. intros H. comp. Qed.
Lemma expr_compound st en e x : a_expression st en e = Done x -> compound x.
Proof.
  destruct e as [| | |l|b|b|o p|o p|m p|f args|op l r|op z|op z|t f a|t|t q|z|ps [z|b]|b|f|f]; cbn [a_expression]; intros H; try comp.
  - destruct l; cbn [a_literal] in H; comp.
  - destruct op; try comp. destruct (n_item z); comp.
  - destruct t. cbn [a_template] in H. comp.
  - eapply func_compound; eauto.
  - eapply class_compound; eauto.
Qed.
Lemma any_compound a x : a_any a = Done x -> compound x.
Proof.
  destruct a as [n|n|n|n|n|n|n|n|n|n|n|n|n|n|n|n|n]; cbn [a_any]; unfold a_node; intros H;
    try (destruct n as [st en i]; cbn [n_start n_end n_item] in H); try comp.
  - eapply expr_compound; eauto.
  - destruct i. cbn [a_template] in H. comp.
  - destruct i; cbn [a_property] in H; comp.
  - destruct i; cbn [a_key] in H; try comp. eapply expr_compound; eauto.
  - destruct i; cbn [a_pattern] in H; comp.
  - eapply func_compound; eauto.
  - destruct i; cbn [a_member] in H; comp.
  - unfold a_list, jarr in H. apply obind_done in H as (l & _ & H). injection H as <-. right. eauto.
  - destruct i as [| |e|k ds|v|l|l|v|t f a|t b|b t|i t u b|l r b|l r b|b h f|b|l b|f|f|d f|ss src]; cbn [a_statement] in H; try comp.
    + eapply func_compound; eauto.
    + eapply class_compound; eauto.
  - destruct i. cbn [a_declarator] in H. comp.
  - destruct i; cbn [a_for_init] in H; try comp. eapply expr_compound; eauto.
  - destruct i. cbn [a_case] in H. comp.
  - destruct i. cbn [a_catch] in H. comp.
  - unfold a_specifier in H. destruct i; cbn [n_item] in H; comp.
Qed.
Lemma strict_call_new st en st' en' c args x y z :
  compound z ->
  obj st en "CallExpression" [("callee"%string, c); ("arguments"%string, args)] = Done y ->
  obj st' en' "NewExpression" [("callee"%string, c); ("arguments"%string, args)] = Done x ->
  strict z y -> strict z x.
Proof.
  intros Ez Hy Hx (fy & k & u & Ey & I & P). apply obj_inv in Hy as (f1 & S1 & ->). apply obj_inv in Hx as (f2 & S2 & ->).
  rewrite S1 in S2. injection S2 as <-. injection Ey as <-. do 3 eexists. split; [reflexivity|].
  assert (N : (exists s, u = J_Str s) \/ (exists n, u = J_Int n) -> False).
  { intros [(s & ->)|(s & ->)]; inversion P; subst; destruct Ez as [[? E]|[? E]]; discriminate E. }
  destruct I as [E|I].
  - injection E as <- <-. exfalso. eauto.
  - apply in_app_or in I as [I|[E|[E|[]]]].
    + split; [right; apply in_or_app; left; exact I|exact P].
    + injection E as <- <-. exfalso. eauto.
    + injection E as <- <-. exfalso. eauto.
Qed.
Lemma void_no_children a c : is_void a -> In c (children a) -> False.
Proof. intros (n & -> & E). cbn [children]. rewrite E. auto. Qed.
Lemma void_within a p : is_void a -> within p a -> p = a.
Proof. intros V W. apply within_children in W as [W|(c & I & _)]; [exact W|]. destruct (void_no_children _ _ V I). Qed.
Lemma absorbed_dec c a : absorbed c a \/ ~ absorbed c a.
Proof.
  unfold absorbed.
  assert (A : (exists p x f args, a = A_Expr p /\ n_item p = E_Prefix O_New x /\ n_item x = E_Call f args) \/ ~ (exists p x f args, a = A_Expr p /\ n_item p = E_Prefix O_New x /\ n_item x = E_Call f args)).
  { destruct a as [n|[st en e]|n|n|n|n|n|n|n|n|n|n|n|n|n|n|n]; try (right; intros (p & x & f & args & E & _); discriminate E).
    destruct e as [| | |l|b|b|o p|o p|m p|f args|op l r|op z|op z|t f a|t|t q|z|ps b|b|f|f];
      try (right; intros (p9 & x9 & f9 & r9 & E & H & _); injection E as <-; discriminate H).
    destruct op; try (right; intros (p9 & x9 & f9 & r9 & E & H & _); injection E as <-; discriminate H).
    destruct (n_item z) eqn:Ez; try (right; intros (p9 & x9 & f9 & r9 & E & H & G); injection E as <-; injection H as <-; rewrite Ez in G; discriminate G).
    left. do 4 eexists. split; [reflexivity|split; [reflexivity|exact Ez]]. }
  assert (B : (exists p x, a = A_ForInit p /\ n_item p = FI_Expression x) \/ ~ (exists p x, a = A_ForInit p /\ n_item p = FI_Expression x)).
  { destruct a as [n|n|n|n|n|n|n|n|n|n|n|n|n|n|n|n|n]; try (right; intros (p & x & E & _); discriminate E).
    destruct n as [st en i]. destruct i; [right; intros (p9 & x9 & E & H); injection E as <-; discriminate H|left; do 2 eexists; split; reflexivity]. }
  assert (C : (template_of a <> None /\ exists i, c = A_Ident i) \/ ~ (template_of a <> None /\ exists i, c = A_Ident i)).
  { destruct (template_of a); [|right; intros [H _]; congruence].
    destruct c as [n|n|n|n|n|n|n|n|n|n|n|n|n|n|n|n|n]; try (right; intros [_ [i E]]; discriminate E). left. split; [discriminate|eauto]. }
  tauto.
Qed.
Lemma tree_shown a : forall x, ser a x -> deep a x.
Proof.
  revert a. apply (tree_ind (fun a => forall x, ser a x -> deep a x)). intros a IH x H p d W I V A.
  apply within_children in W as [->|(c & Ic & W)]; [now apply child_shown|].
  destruct (void_dec c) as [Vc|Vc].
  { apply (void_within _ _ Vc) in W as ->. destruct (void_no_children _ _ Vc I). }
  assert (IHc := proj1 (Forall_forall _ _) IH c Ic). cbn beta in IHc.
  assert (G : forall y, a_any c = Done y -> part_of y x -> (is_expr a -> strict y x) -> child_in a d x).
  { intros y Ey P S. destruct (IHc y (any_ser _ _ Ey) p d W I V A) as (z & Ez & Pz & _).
    exists z. split; [exact Ez|]. split; [eapply part_trans; eauto|]. intros E. specialize (S E).
    destruct S as (fs & k & u & -> & Iu & Pu). exists fs, k, u. split; [auto|split; [auto|eapply part_trans; eauto]]. }
  destruct (absorbed_dec c a) as [Ab|Ab].
  2:{ destruct (child_shown a x c H Ic Vc Ab) as (y & Ey & P & S). eapply G; eauto. }
  destruct Ab as [(q & z & f & args & -> & E & Ez)|[(q & z & -> & E)|(_ & i & ->)]].
  - destruct H as (st & en & H). rewrite E in H. cbn [children] in Ic. rewrite E in Ic. cbn [children_expression] in Ic.
    destruct Ic as [<-|[]]. cbn [a_expression] in H. rewrite Ez in H.
    { assert (Dy : exists y, a_expression (n_start z) (n_end z) (n_item z) = Done y).
      { rewrite Ez. cbn [a_expression]. apply (proj2 (done_obj _ _ _ _)). apply (proj1 (done_obj _ _ _ _)) with (1 := ex_intro _ x H). }
      destruct Dy as [y Ey]. assert (S : ser (A_Expr z) y) by (do 2 eexists; eauto).
      destruct (IHc y S p d W I V A) as (u & Eu & _ & St). specialize (St (ex_intro _ z eq_refl)).
      rewrite Ez in Ey. cbn [a_expression] in Ey.
      assert (Sx := strict_call_new _ _ _ _ _ _ _ _ _ (any_compound _ _ Eu) Ey H St).
      exists u. split; [exact Eu|]. split; [apply inner_part; now left|auto]. }
  - cbn [ser a_any] in H. unfold a_node in H. rewrite E in H. cbn [a_for_init] in H.
    cbn [children] in Ic. rewrite E in Ic. destruct Ic as [<-|[]].
    assert (S : ser (A_Expr z) x) by (do 2 eexists; eauto).
    destruct (IHc x S p d W I V A) as (u & Eu & P & _). exists u. split; [exact Eu|]. split; [exact P|]. intros (m & Em). discriminate Em.
  - exfalso. apply within_children in W as [->|(c & Ic' & W)]; [destruct I|destruct Ic'].
Qed.

(** Every part with offsets. *)
Definition all_in (len : N) (x : json) : Prop := forall y, part_of y x -> offsets_in len y.
Lemma part_leaf y x : (forall l, x <> J_Arr l) -> (forall fs, x <> J_Obj fs) -> part_of y x -> y = x.
Proof. intros A O P. inversion P as [|l z I P'|fs k z I P']; subst; [auto|destruct (A _ eq_refl)|destruct (O _ eq_refl)]. Qed.
Lemma leaf_in len x : (forall l, x <> J_Arr l) -> (forall fs, x <> J_Obj fs) -> all_in len x.
Proof. intros A O y P. apply (part_leaf _ _ A O) in P as ->. intros ty fields E. destruct (O _ E). Qed.
Lemma arr_in len l : Forall (all_in len) l -> all_in len (J_Arr l).
Proof.
  intros F y P. inversion P as [|l' z I P'|fs k z I P']; subst; [intros ty fields E; discriminate E|].
  exact (proj1 (Forall_forall _ _) F _ I _ P').
Qed.
Lemma obj_in_gen len fs : offsets_in len (J_Obj fs) -> Forall (fun f => all_in len (snd f)) fs -> all_in len (J_Obj fs).
Proof.
  intros O F y P. inversion P as [|l z I P'|fs' k z I P']; subst; [exact O|].
  exact (proj1 (Forall_forall _ _) F _ I _ P').
Qed.
(** [v] is a value all of whose parts are in order. *)
Definition good (len : N) (v : outcome json) : Prop := forall x, v = Done x -> all_in len x.
Lemma good_obj len st en ty fs : (st <= en <= len)%N -> Forall (fun f => good len (snd f)) fs -> good len (obj st en ty fs).
Proof.
  intros L F x H. apply obj_inv in H as (fs' & H & ->). apply obj_in_gen.
  - intros ty' fields E. injection E as _ <-. exists st, en. split; [apply in_or_app; right; left; reflexivity|].
    split; [apply in_or_app; right; right; left; reflexivity|exact L].
  - constructor; [apply leaf_in; discriminate|]. apply Forall_app. split.
    + apply Forall_forall. intros [k y] I. destruct (seq_fields_inv _ _ _ _ H I) as (n & v & I' & _ & E).
      exact (proj1 (Forall_forall _ _) F _ I' _ E).
    + constructor; [apply leaf_in; discriminate|]. constructor; [apply leaf_in; discriminate|constructor].
Qed.
Lemma good_arr len l : Forall (good len) l -> good len (jarr l).
Proof.
  intros F x H. unfold jarr in H. apply obind_done in H as (l' & H & Hx). injection Hx as <-. apply arr_in.
  apply Forall_forall. intros y I. exact (proj1 (Forall_forall _ _) F _ (seq_list_inv _ _ _ H I) _ eq_refl).
Qed.
Lemma good_leaf len x : (forall l, x <> J_Arr l) -> (forall fs, x <> J_Obj fs) -> good len (Done x).
Proof. intros A O y E. injection E as <-. now apply leaf_in. Qed.
Lemma good_panic len : good len Panicked.
Proof. intros y E. discriminate E. Qed.
Lemma good_list len {A : Set} (f : N -> N -> A -> outcome json) (g : node A -> any) l (K : any -> Prop) :
  Forall K (map g l) -> (forall n, K (g n) -> good len (a_node f n)) -> good len (a_list f l).
Proof.
  intros F H. apply good_arr. apply Forall_forall. intros v I. apply in_map_iff in I as (n & <- & I).
  apply H. exact (proj1 (Forall_forall _ _) F _ (in_map g _ _ I)).
Qed.

(** What a node must satisfy. *)
Definition place_ok (len : N) (a : any) : Prop :=
  (start_of a <= end_of a <= len)%N /\
  forall es qs, template_of a = Some (Template es qs) -> Forall (fun q => (n_start q + 1 <= n_end q - 1)%N /\ (n_end q <= len)%N) qs.
Definition gser (len : N) (a : any) : Prop :=
  match a with
  | A_Expr n => forall st en, (st <= en <= len)%N -> good len (a_expression st en (n_item n))
  | _ => good len (a_any a)
  end.
Definition placed (len : N) (a : any) : Prop := gser len a /\ (start_of a <= end_of a <= len)%N.
Lemma placed_any len a : placed len a -> good len (a_any a).
Proof. intros [G L]. destruct a; try exact G. exact (G _ _ L). Qed.
Lemma quasis_good len qs : Forall (fun q => (n_start q + 1 <= n_end q - 1)%N /\ (n_end q <= len)%N) qs -> good len (jarr (a_quasis qs)).
Proof.
  intros F. apply good_arr. induction F as [|q qs [L1 L2] F IH]; constructor; [|exact IH].
  destruct (N.eqb (n_end q) 0) eqn:E; [apply good_panic|]. apply good_obj; [lia|].
  constructor; [apply good_leaf; discriminate|]. constructor; [|constructor]. intros x H. injection H as <-.
  apply obj_in_gen; [intros ty fields X; discriminate X|].
  constructor; [apply leaf_in; discriminate|]. constructor; [apply leaf_in; discriminate|constructor].
Qed.
Ltac parts F := repeat (match type of F with
  | Forall _ (_ ++ _) => let F1 := fresh "F" in let F2 := fresh "F" in apply Forall_app in F as [F1 F2]; parts F1; parts F2
  | Forall _ (_ :: _) => let K := fresh "K" in assert (K := Forall_inv F); apply Forall_inv_tail in F
  | Forall _ (opt _ ?o) => destruct o; cbn [opt] in F
  | Forall _ (children_name ?n) => destruct n as [|[n|]|n]; cbn [children_name opt] in F
  | Forall _ [] => clear F
  end).
Ltac leaf := apply good_leaf; discriminate.
Ltac good1 := cbn [snd a_opt a_name]; first
  [ leaf | unfold jnull; leaf | unfold jbool; leaf | unfold jstr; leaf | apply good_panic
  | solve [match goal with K : placed ?len ?c |- good ?len ?v => exact (placed_any len c K) end]
  | solve [match goal with F : Forall (placed ?len) (map ?g ?l) |- good ?len (a_list ?f ?l) =>
      apply (good_list len f g l (placed len) F); intros; exact (placed_any len (g _) ltac:(eassumption)) end] ].
Ltac goods := repeat (apply Forall_cons; [good1|]); try apply Forall_nil.
Ltac gobj := apply good_obj; [assumption|goods].
Lemma func_good len st en f : (st <= en <= len)%N -> Forall (placed len) (children_func f) -> good len (a_func st en f).
Proof. destruct f as [n g ps b]. cbn [a_func children_func]. intros L F. parts F; gobj. Qed.
Lemma class_good len st en f : (st <= en <= len)%N -> Forall (placed len) (children_class f) -> good len (a_class st en f).
Proof. destruct f as [n e b]. cbn [a_class children_class]. intros L F. parts F; gobj. Qed.
Lemma literal_good len st en l : (st <= en <= len)%N -> good len (a_literal st en l).
Proof.
  intros L. destruct l; cbn [a_literal]; try solve [gobj].
  - apply good_obj; [assumption|]. apply Forall_cons; [|goods]. cbn [snd]. unfold number_value.
    intros x H. apply leaf_in; intros ? ->; revert H;
      repeat match goal with |- context[match ?y with _ => _ end] => destruct y; try discriminate end.
  - apply good_obj; [assumption|]. apply Forall_cons; [|goods]. cbn [snd]. destruct (from_str_radix _ _ _); [leaf|apply good_panic].
  - apply good_obj; [assumption|]. apply Forall_cons; [|goods]. cbn [snd]. intros x H.
    apply obind_done in H as ([p f] & _ & H). injection H as <-. apply obj_in_gen; [intros ty fields X; discriminate X|].
    constructor; [apply leaf_in; discriminate|]. constructor; [apply leaf_in; discriminate|constructor].
Qed.
Lemma drop_trailing_incl l o : In o (drop_trailing l) -> In o l.
Proof.
  induction l as [|x l IH]; [auto|]. cbn [drop_trailing]. destruct (drop_trailing l) eqn:E.
  - destruct x; [intros [<-|[]]; now left|intros []].
  - intros [<-|I]; [now left|right; auto].
Qed.
Lemma placed_step len a : place_ok len a -> Forall (placed len) (children a) -> placed len a.
Proof.
  intros [L T] F. split; [|exact L].
  assert (Q : forall es qs, template_of a = Some (Template es qs) -> good len (jarr (a_quasis qs))) by (intros es qs E; apply quasis_good; eauto).
  clear T.
  destruct a as [n|n|n|n|n|n|n|n|n|n|n|n|n|n|n|n|n]; cbn [gser a_any children] in *; unfold a_node; try change (n_start n <= n_end n <= len)%N in L;
    try (destruct n as [st0 en0 i]; cbn [n_start n_end n_item] in *).
  - unfold a_ident, a_identifier. cbn [n_start n_end n_item]. gobj.
  - intros st en L'. clear L. rename L' into L.
    destruct i as [| | |l|b|b|o p|o p|m p|f args|op l r|op z|op z|t f a|t|t q|z|ps [z|b]|b|f|f]; cbn [a_expression children_expression] in *;
      try solve [parts F; gobj].
    + apply good_panic.
    + now apply literal_good.
    + apply good_obj; [assumption|]. apply Forall_cons; [|constructor]. cbn [snd]. apply good_arr. apply Forall_forall. intros v I.
      apply in_map_iff in I as (o & <- & I). apply drop_trailing_incl in I. apply in_map_iff in I as (n & E & I).
      assert (P := proj1 (Forall_forall _ _) F _ (in_map A_Expr _ _ I)). apply placed_any in P. cbn [a_any] in P.
      destruct (n_item n) eqn:En; subst o; cbn [hole]; first [exact P|unfold jnull; leaf].
    + parts F. destruct op; try gobj. destruct (n_item z) as [| | |l|b|b|o p|o p|m p|f args|op l r|op z1|op z1|t f a|t|t q|z1|ps b|b|f|f] eqn:E; try apply good_panic.
      * apply good_obj; [assumption|]. apply Forall_cons; [good1|]. apply Forall_cons; [cbn [snd]; apply good_arr; constructor|constructor].
      * intros x H. destruct K as [K Lz]. cbn [gser] in K. rewrite E in K. cbn [a_expression] in K.
        apply obj_inv in H as (fs' & H & ->).
        assert (Hy : exists y, obj st en "CallExpression" [("callee"%string, a_node a_expression f); ("arguments"%string, a_list a_expression args)] = Done y).
        { unfold obj. rewrite H. cbn. eauto. }
        destruct Hy as [y Hy]. assert (Gy := K st en L y Hy). apply obj_inv in Hy as (fs2 & H2 & ->). rewrite H in H2. injection H2 as <-.
        apply obj_in_gen.
        -- intros ty fields X. injection X as _ <-. exists st, en. split; [apply in_or_app; right; left; reflexivity|].
           split; [apply in_or_app; right; right; left; reflexivity|exact L].
        -- constructor; [apply leaf_in; discriminate|]. apply Forall_forall. intros [k u] Iu y P. apply Gy. eapply part_field; [right; exact Iu|exact P].
    + destruct t as [es qs]. cbn [a_template children_template] in *. parts F. apply good_obj; [assumption|].
      apply Forall_cons; [cbn [snd]; eapply Q; reflexivity|goods].
    + now apply func_good.
    + now apply class_good.
  - destruct i as [es qs]. cbn [a_template children_template] in *. parts F. apply good_obj; [assumption|].
    apply Forall_cons; [cbn [snd]; eapply Q; reflexivity|goods].
  - destruct i as [s|k v|k v|z]; cbn [a_property] in *; unfold a_identifier; parts F; gobj.
  - destruct i as [s|k|v]; cbn [a_key] in *; unfold a_identifier; parts F; try gobj. good1.
  - destruct i as [|s|ps|es|z|l r]; cbn [a_pattern] in *; unfold a_identifier; parts F; try gobj. apply good_panic.
  - now apply func_good.
  - destruct i as [|b k kd v|b k v]; cbn [a_member] in *; try apply good_panic. parts F. gobj.
  - unfold a_block. cbn [n_start n_end n_item]. gobj.
  - gobj.
  - apply (good_list len a_case A_Case _ (placed len) F). intros n K. exact (placed_any len (A_Case n) K).
  - destruct i as [| |e|k ds|v|l|l|v|t f a|t b|b t|i t u b|l r b|l r b|b h f|b|l b|f|f|d f|ss src]; cbn [a_statement children_statement] in *;
      try solve [parts F; gobj].
    + now apply func_good.
    + now apply class_good.
    + apply good_obj; [assumption|]. apply Forall_cons; [|goods]. cbn [snd]. apply good_arr, Forall_forall. intros v I.
      apply in_map_iff in I as (n & <- & I). exact (placed_any len (A_Spec n) (proj1 (Forall_forall _ _) F _ (in_map A_Spec _ _ I))).
  - destruct i as [p i]. cbn [a_declarator] in *. parts F; gobj.
  - destruct i as [k ds|e]; cbn [a_for_init] in *; [parts F; gobj|]. apply Forall_inv in F as [F _]. now apply F.
  - destruct i as [t b]. cbn [a_case] in *. parts F; gobj.
  - destruct i as [p b]. cbn [a_catch] in *. parts F; gobj.
  - unfold a_specifier. destruct i; cbn [n_start n_end n_item] in *; parts F; gobj.
Qed.
Lemma placed_tree len a : (forall d, within d a -> place_ok len d) -> placed len a.
Proof.
  revert a. apply (tree_ind (fun a => (forall d, within d a -> place_ok len d) -> placed len a)). intros a IH H.
  apply placed_step; [apply H; constructor|]. apply Forall_forall. intros c I.
  apply (proj1 (Forall_forall _ _) IH _ I). intros d W. apply H. eapply within_child; eauto.
Qed.
