(** The JSON of a module: C49, C50, C51.  The vocabulary is in SpecJson.v. *)
From Coq Require Import List NArith Bool String Lia.
From Coq.Strings Require Import Byte.
From Verif Require Import Bytes Token Lexer Ast SpecTokens SpecChunks SpecTree SpecPos SpecRead SpecAst Parser Structure NodeText PosFacts Astgen AstFacts SpecJson JsonFacts PropAst LexerFacts.
Import ListNotations.
Open Scope list_scope.

Lemma within_parent a b : within a b -> a = b \/ exists p, within p b /\ In a (children p).
Proof.
  induction 1 as [a|a b c I W [->|(p & Wp & Ip)]]; [now left| |].
  - right. exists b. split; [constructor|exact I].
  - right. exists p. split; [eapply within_child; eauto|exact Ip].
Qed.
Lemma module_parts m j : a_module m = Done j -> exists fields l, j = J_Obj fields /\ In (bs "body", J_Arr l) fields /\
  seq_list (map (a_node a_statement) m) = Done l.
Proof.
  unfold a_module. intros H. apply obj_inv in H as (fs' & H & ->). cbn [seq_fields] in H.
  apply obind_done in H as (b & Hb & H). apply obind_done in H as (r & Hr & H). injection Hr as <-. injection H as <-.
  unfold a_list, jarr in Hb. apply obind_done in Hb as (l & Hl & Hb). injection Hb as <-.
  do 2 eexists. split; [reflexivity|]. split; [right; left; reflexivity|exact Hl].
Qed.
Lemma stmt_shown m j s : a_module m = Done j -> In s m -> exists y, a_any (A_Stmt s) = Done y /\ part_of y j.
Proof.
  intros H I. destruct (module_parts _ _ H) as (fields & l & -> & Ib & Hl).
  destruct (seq_list_in _ _ _ Hl (in_map (a_node a_statement) _ _ I)) as (y & Ey & Iy).
  exists y. split; [exact Ey|]. eapply part_field; [exact Ib|]. eapply part_elem; [exact Iy|constructor].
Qed.
Lemma shown_in m j d p : a_module m = Done j -> in_module p m -> In d (children p) -> ~ is_void d -> ~ absorbed d p ->
  exists y, a_any d = Done y /\ part_of y j.
Proof.
  intros H (s & I & W) Id V A. destruct (stmt_shown _ _ _ H I) as (x & Ex & P).
  destruct (tree_shown (A_Stmt s) x Ex p d W Id V A) as (y & Ey & Py & _). exists y. split; [exact Ey|eapply part_trans; eauto].
Qed.
(** Where the JSON of a node is. *)
Lemma node_shown m j a : a_module m = Done j -> in_module a m -> ~ is_void a ->
  (exists x, a_any a = Done x /\ part_of x j) \/
  (exists f e, in_module (A_ForInit f) m /\ n_item f = FI_Expression e /\ a = A_Expr e /\
     exists x, a_expression (n_start f) (n_end f) (n_item e) = Done x /\ part_of x j) \/
  (exists p e f args, in_module (A_Expr p) m /\ n_item p = E_Prefix O_New e /\ n_item e = E_Call f args /\ a = A_Expr e) \/
  (exists p i, in_module p m /\ template_of p <> None /\ In (A_Ident i) (children p) /\ a = A_Ident i).
Proof.
  intros H (s & I & W) V. destruct (within_parent _ _ W) as [->|(p & Wp & Ip)].
  { left. now apply (stmt_shown m). }
  assert (Mp : in_module p m) by (exists s; auto).
  destruct (absorbed_dec a p) as [[(q & z & f & args & -> & E & Ez)|[(q & z & -> & E)|(T & i & ->)]]|A].
  - right. right. left. exists q, z, f, args. split; [exact Mp|split; [exact E|split; [exact Ez|]]].
    cbn [children] in Ip. rewrite E in Ip. destruct Ip as [<-|[]]. reflexivity.
  - right. left. exists q, z. split; [exact Mp|]. split; [exact E|].
    cbn [children] in Ip. rewrite E in Ip. destruct Ip as [<-|[]]. split; [reflexivity|].
    destruct (within_parent _ _ Wp) as [X|(p2 & Wp2 & Ip2)]; [discriminate X|].
    destruct (shown_in m j (A_ForInit q) p2 H) as (y & Ey & P); [exists s; auto|exact Ip2|intros (n & X & _); discriminate X| |].
    + intros [(q1 & z1 & f & args & -> & E1 & Ez)|[(q1 & z1 & -> & E1)|(T & i & X)]].
      * cbn [children] in Ip2. rewrite E1 in Ip2. destruct Ip2 as [X|[]]. discriminate X.
      * cbn [children] in Ip2. rewrite E1 in Ip2. destruct Ip2 as [X|[]]. discriminate X.
      * discriminate X.
    + exists y. split; [|exact P]. cbn [a_any] in Ey. unfold a_node in Ey. rewrite E in Ey. exact Ey.
  - right. right. right. exists p, i. auto.
  - left. now apply (shown_in m j a p).
Qed.

Lemma moved_wf e st en : well_formed (A_Expr e) -> well_formed (A_Expr (Node st en (n_item e))).
Proof.
  intros [W S]. split; [exact W|]. intros x y I E. destruct (S x y I E) as [A|A].
  - left. destruct A as (n & es & Ea & En). injection Ea as <-. do 2 eexists. split; [reflexivity|exact En].
  - right. destruct A as (n & c & es & Ea & En & Ie). injection Ea as <-. do 3 eexists. split; [reflexivity|split; [exact En|exact Ie]].
Qed.
(** ** C49: every node is in the JSON, with its ESTree type, its offsets and its texts; but a call
    operand of [new] is part of the object of the [new] expression, the expression that initialises a
    [for] loop has the offsets of the initialiser, and template chunks are elements (C51). *)
Theorem C49_nodes_written : forall (alnum : N -> bool) (src : str) (m : module) (j : json) (a : any),
  parses_to alnum src (ParseOk m) -> a_module m = Done j -> in_module a m -> estree_type a <> None ->
  (exists x, part_of x j /\ object_of a x) \/
  (exists f e, in_module (A_ForInit f) m /\ n_item f = FI_Expression e /\ a = A_Expr e /\
     exists x, part_of x j /\ object_of (A_Expr (Node (n_start f) (n_end f) (n_item e))) x) \/
  (exists p e f args, in_module (A_Expr p) m /\ n_item p = E_Prefix O_New e /\ n_item e = E_Call f args /\ a = A_Expr e) \/
  (exists p i, in_module p m /\ template_of p <> None /\ In (A_Ident i) (children p) /\ a = A_Ident i).
Proof.
  intros alnum src m j a P H I T.
  assert (W := proj2 (proj2 (proj2 (parse_nodes alnum src m _ P I)))).
  assert (V : ~ is_void a) by (intros (n & -> & E); apply T; cbn; rewrite E; reflexivity).
  destruct (node_shown m j a H I V) as [(x & Ex & Px)|[(f & e & Mf & Ef & -> & x & Ex & Px)|[X|X]]].
  - left. exists x. split; [exact Px|]. now apply own_object.
  - right. left. exists f, e. split; [exact Mf|]. split; [exact Ef|]. split; [reflexivity|]. exists x. split; [exact Px|].
    apply own_object; [exact Ex|now apply moved_wf|exact T].
  - right. right. now left.
  - right. right. now right.
Qed.
Print Assumptions C49_nodes_written.

(** ** C50: the offsets of every object lie in the source, in order *)
Lemma chunk_places src opening qs : List.length opening = 1 -> chunks src opening qs ->
  Forall (fun q => (n_start q + 1 <= n_end q - 1)%N) qs.
Proof.
  intros Lo H.
  assert (G : forall t o q, List.length o = 1 -> chunk_of src t o q -> (n_start q + 1 <= n_end q - 1)%N).
  { intros t o q No [_ C]. unfold source_of, substring in C. cbn [start_of end_of any_span fst snd] in C.
    assert (L : List.length (firstn (N.to_nat (n_end q) - N.to_nat (n_start q)) (skipn (N.to_nat (n_start q)) src)) >= 2).
    { change (start_of (A_Ident q)) with (n_start q) in C. change (end_of (A_Ident q)) with (n_end q) in C.
      destruct t; try contradiction C; rewrite C, !app_length, No; [change (List.length (bs "${")) with 2|change (List.length (bs "`")) with 1]; lia. }
    rewrite firstn_length in L. lia. }
  revert Lo. induction H as [o q C|o q qs C H IH]; intros No; constructor; eauto.
Qed.
Lemma parsed_places alnum src m a : (N.of_nat (List.length src) < 4294967296)%N -> parses_to alnum src (ParseOk m) -> in_module a m ->
  place_ok (N.of_nat (List.length src)) a.
Proof.
  intros S P I. assert (L := proj1 (parse_located alnum src m a S P I)). split; [exact L|]. intros es qs T.
  assert (C := proj1 (proj2 (proj2 (parse_spelled alnum src m a S P I))) es qs T).
  assert (F := chunk_places src (bs "`") qs eq_refl C). apply Forall_forall. intros q Iq. split; [exact (proj1 (Forall_forall _ _) F _ Iq)|].
  assert (Iq' : In (A_Ident q) (children a)).
  { destruct a as [n|n|n|n|n|n|n|n|n|n|n|n|n|n|n|n|n]; try discriminate T; cbn [template_of children] in *.
    - destruct (n_item n); try discriminate T. injection T as ->. cbn [children_expression children_template]. apply in_or_app. right. now apply in_map.
    - injection T as T. rewrite T. cbn [children_template]. apply in_or_app. right. now apply in_map. }
  destruct I as (s & Is & W).
  assert (Mq : in_module (A_Ident q) m).
  { exists s. split; [exact Is|]. clear - W Iq'. induction W as [a|a b c I W IH]; [eapply within_child; [exact Iq'|constructor]|eapply within_child; eauto]. }
  exact (proj2 (proj1 (parse_located alnum src m _ S P Mq))).
Qed.
Theorem C50_offsets : forall (alnum : N -> bool) (src : str) (m : module) (j x : json),
  (N.of_nat (List.length src) < 4294967296)%N -> parses_to alnum src (ParseOk m) -> a_module m = Done j ->
  part_of x j -> offsets_in (N.of_nat (List.length src)) x.
Proof.
  intros alnum src m j x S P H. enough (G : good (N.of_nat (List.length src)) (a_module m)) by exact (G j H x).
  destruct (parse_positions alnum src m S P) as [_ A].
  assert (F : Forall (placed (N.of_nat (List.length src))) (map A_Stmt m)).
  { apply Forall_forall. intros a Ia. apply in_map_iff in Ia as (s & <- & Is). apply placed_tree. intros d W.
    apply (parsed_places alnum src m d S P). exists s. auto. }
  unfold a_module. apply good_obj.
  - destruct m as [|n m]; [cbn; lia|]. destruct (rev (n :: m)) as [|l r] eqn:R.
    { apply (f_equal (@List.length _)) in R. rewrite rev_length in R. discriminate R. }
    assert (Il : In l (n :: m)) by (apply in_rev; rewrite R; now left).
    assert (Ll := proj2 (proj1 (Forall_forall _ _) F _ (in_map A_Stmt _ _ Il))).
    change (n_start l <= n_end l <= N.of_nat (List.length src))%N in Ll.
    assert (B : (n_start n <= n_start l)%N).
    { destruct Il as [->|Il]; [lia|]. exact (proj1 (Forall_forall _ _) (proj1 A) _ (in_map (@n_start statement) _ _ Il)). }
    lia.
  - constructor; [|constructor]. cbn [snd]. apply (good_list _ a_statement A_Stmt m _ F).
    intros n K. exact (placed_any _ (A_Stmt n) K).
Qed.
Print Assumptions C50_offsets.

(** ** C51: the elements of templates *)
Definition element_span (src : str) (text : str) (last : bool) (st en : N) : Prop :=
  substring src (N.to_nat st) (N.to_nat en) = if last then text else text ++ bs "$".
Lemma template_fields a x es qs : ser a x -> template_of a = Some (Template es qs) ->
  exists l, part_of (J_Arr l) x /\ seq_list (a_quasis qs) = Done l.
Proof.
  intros H T.
  assert (G : forall st en, a_template st en (Template es qs) = Done x -> exists l, part_of (J_Arr l) x /\ seq_list (a_quasis qs) = Done l).
  { intros st en Hx. cbn [a_template] in Hx. apply obj_inv in Hx as (fs' & Hf & ->).
    destruct (seq_fields_in _ _ "quasis" _ Hf (or_introl eq_refl)) as (y & Ey & I).
    unfold jarr in Ey. apply obind_done in Ey as (l & Hl & E). injection E as <-. exists l. split; [|exact Hl].
    eapply part_field; [right; apply in_or_app; left; exact I|constructor]. }
  destruct a as [n|n|n|n|n|n|n|n|n|n|n|n|n|n|n|n|n]; try discriminate T; cbn [template_of ser a_any] in *.
  - destruct H as (st & en & H). destruct (n_item n); try discriminate T. injection T as ->. eapply G. exact H.
  - injection T as T. unfold a_node in H. rewrite T in H. eapply G. exact H.
Qed.
Lemma skipn_next {A : Type} n (l : list A) : skipn (1 + n) l = skipn 1 (skipn n l).
Proof. revert l. induction n as [|n IH]; intros l; [reflexivity|]. destruct l as [|x l]; [reflexivity|]. exact (IH l). Qed.
Lemma substring_mid src a b o t e : substring src a b = o ++ t ++ e -> b <= List.length src -> List.length o = 1 -> List.length e >= 1 ->
  substring src (a + 1) (b - 1) = t ++ firstn (List.length e - 1) e.
Proof.
  unfold substring. intros H Bd Lo Le. assert (Lb : List.length (firstn (b - a) (skipn a src)) = 1 + List.length t + List.length e).
  { rewrite H, !app_length, Lo. lia. }
  replace (a + 1) with (1 + a) by lia. rewrite skipn_next. rewrite firstn_length in Lb.
  rewrite skipn_length in Lb. set (X := skipn a src) in *. set (k := b - a) in *.
  assert (E : firstn (b - 1 - (1 + a)) (skipn 1 X) = firstn (k - 2) (skipn 1 (firstn k X))).
  { rewrite skipn_firstn_comm, firstn_firstn. f_equal. unfold k. lia. }
  rewrite E, H. destruct o as [|o1 [|o2 o]]; try discriminate Lo. cbn [skipn app].
  replace (k - 2) with (List.length t + (List.length e - 1)) by lia. apply firstn_app_2.
Qed.
Lemma quasi_elements src opening qs l : Forall (fun q => (n_end q <= N.of_nat (List.length src))%N) qs ->
  List.length opening = 1 -> chunks src opening qs -> seq_list (a_quasis qs) = Done l ->
  elements (element_span src) qs l.
Proof.
  intros F Lo C. revert l Lo F. induction C as [o q C|o q qs C Cs IH]; intros l Lo F H; assert (Bq := Forall_inv F); cbn beta in Bq; apply Forall_inv_tail in F; cbn [a_quasis seq_list] in H;
    apply obind_done in H as (x & Hx & H); apply obind_done in H as (r & Hr & H); injection H as <-;
    (destruct (N.eqb (n_end q) 0) eqn:Z; [discriminate Hx|]); apply obj_inv in Hx as (fs' & Hf & ->); injection Hf as <-.
  - injection Hr as <-. eapply el_last; [reflexivity|left; reflexivity|right; left; reflexivity|right; right; left; reflexivity|right; right; right; left; reflexivity|].
    destruct C as [_ C]. unfold source_of in C. apply substring_mid in C; [|change (end_of (A_Ident q)) with (n_end q); lia|exact Lo|change (List.length (bs "`")) with 1; lia].
    unfold element_span. cbn [List.length] in C. change (firstn _ (bs "`")) with (@nil byte) in C. rewrite app_nil_r in C. rewrite <- C.
    f_equal; change (start_of (A_Ident q)) with (n_start q); change (end_of (A_Ident q)) with (n_end q); lia.
  - destruct qs as [|q' qs]; [inversion Cs|].
    eapply el_more; [reflexivity|left; reflexivity|right; left; reflexivity|right; right; left; reflexivity|right; right; right; left; reflexivity| |].
    + destruct C as [_ C]. unfold source_of in C. apply substring_mid in C; [|change (end_of (A_Ident q)) with (n_end q); lia|exact Lo|change (List.length (bs "${")) with 2; lia].
      unfold element_span. change (firstn _ (bs "${")) with (bs "$") in C. rewrite <- C.
      f_equal; change (start_of (A_Ident q)) with (n_start q); change (end_of (A_Ident q)) with (n_end q); lia.
    + apply IH; [reflexivity|exact F|exact Hr].
Qed.
(** Every template is written as the list of its chunks; the offsets of an element delimit its text,
    followed by the dollar sign if another element follows. *)
Theorem C51_template_elements_partial : forall (alnum : N -> bool) (src : str) (m : module) (j : json) (a : any) (es : list expr_node) (qs : list (node str)),
  (N.of_nat (List.length src) < 4294967296)%N -> parses_to alnum src (ParseOk m) -> a_module m = Done j ->
  in_module a m -> template_of a = Some (Template es qs) ->
  exists l, part_of (J_Arr l) j /\ elements (element_span src) qs l.
Proof.
  intros alnum src m j a es qs S P H I T.
  assert (C := proj1 (proj2 (proj2 (parse_spelled alnum src m a S P I))) es qs T).
  assert (V : ~ is_void a) by (intros (n & -> & E); cbn [template_of] in T; rewrite E in T; discriminate T).
  assert (G : exists x, ser a x /\ part_of x j).
  { destruct (node_shown m j a H I V) as [(x & Ex & Px)|[(f & e & Mf & Ef & -> & x & Ex & Px)|[(p & e & f & args & Mp & Ep & Ee & ->)|(p & i & Mp & Tp & Ip & ->)]]].
    - exists x. split; [now apply any_ser|exact Px].
    - exists x. split; [do 2 eexists; eauto|exact Px].
    - cbn [template_of] in T. rewrite Ee in T. discriminate T.
    - discriminate T. }
  destruct G as (x & Sx & Px). destruct (template_fields a x es qs Sx T) as (l & Pl & Hl).
  exists l. split; [eapply part_trans; eauto|]. apply (quasi_elements src (bs "`")); [|reflexivity|exact C|exact Hl].
  assert (F := proj2 (parsed_places alnum src m a S P I) es qs T). revert F. apply Forall_impl. tauto.
Qed.
Print Assumptions C51_template_elements_partial.
(** So the offsets do not delimit the text of an element that another one follows: *)
Definition template_sample : str := bs "`ab${x}c`".
Theorem C51_offsets_refuted : forall alnum : N -> bool, exists m j fields,
  parses_to alnum template_sample (ParseOk m) /\ a_module m = Done j /\
  part_of (J_Obj ((bs "type", J_Str (bs "TemplateElement")) :: fields)) j /\
  In (bs "value", J_Obj [(bs "raw", J_Str (bs "ab")); (bs "cooked", J_Str (bs "ab"))]) fields /\
  In (bs "start", J_Int 1) fields /\ In (bs "end", J_Int 4) fields /\
  substring template_sample 1 4 = bs "ab$".
Proof.
  intros alnum. do 3 eexists. split; [exists 100; vm_compute; reflexivity|]. split; [vm_compute; reflexivity|]. split.
  { eapply part_field; [right; left; reflexivity|]. eapply part_elem; [left; reflexivity|].
    eapply part_field; [right; left; reflexivity|]. eapply part_field; [right; left; reflexivity|].
    eapply part_elem; [left; reflexivity|]. constructor. }
  split; [right; left; reflexivity|]. split; [right; right; left; reflexivity|]. split; [right; right; right; left; reflexivity|reflexivity].
Qed.
Print Assumptions C51_offsets_refuted.

(** ** The hypotheses are met *)
Definition json_sample : str := bs "for(i=0;;){`a${new X(b.c,...d)}`}
class A extends B{static m(x=1){return [1,,{k:2}]}}".
Example json_nonvacuous : exists m j, parses_to (fun _ => true) json_sample (ParseOk m) /\ a_module m = Done j /\ m <> [].
Proof. do 2 eexists. split; [exists 1000; vm_compute; reflexivity|]. split; [vm_compute; reflexivity|discriminate]. Qed.
