(** C55, C56: what the objects of the JSON say. *)
From Coq Require Import List NArith Bool Lia Arith String.
From Coq.Strings Require Import Byte.
From Verif Require Import Bytes Token Lexer Ast Astgen Prog Parser SpecTree SpecPos SpecJson SpecMirror AstFacts JsonFacts MirrorFacts Structure PropJson LexerFacts SpecAst PropAst SpecUtf8 SpecError ErrorFmt MessageFacts PropMessage ErrorFacts.
Import ListNotations.
Open Scope list_scope.

Lemma all_displayed es src ds : display_all es src = Done ds -> messages src es ds.
Proof.
  revert ds. induction es as [|e es IH]; intros ds D; cbn [display_all] in D; [injection D as <-; constructor|].
  destruct (display_error src (err_start e) (err_end e)) as [x| | |] eqn:Ex; try discriminate D. cbn [obind] in D.
  destruct (display_all es src) as [ys| | |] eqn:Ey; try discriminate D. injection D as <-. constructor; [exact Ex|now apply IH].
Qed.

(** ** C55: the JSON of a parsed module describes its tree, field by field *)
Theorem C55_json_mirrors_tree : forall (alnum : N -> bool) (src : str) (m : module) (j : json),
  parses_to alnum src (ParseOk m) -> a_module m = Done j -> program_json m j.
Proof.
  intros alnum src m j P H. unfold a_module in H. apply obj_inv in H as (fs' & H & ->).
  cbn [seq_fields] in H. apply obind_done in H as (b & Hb & H). injection H as <-.
  unfold a_list in Hb. apply jarr_inv in Hb as (xs & Hb & ->).
  exists xs. do 2 eexists. split; [|split; [reflexivity|]].
  - assert (F2 : Forall2 (fun n x => mirrors (A_Stmt n) x) m xs).
    { apply seq_list_all2 with (f := a_node a_statement); [|exact Hb]. apply Forall_forall. intros s I x Hx.
      apply (tree_mirrored (A_Stmt s)); [|exact Hx]. intros d W.
      assert (Id : in_module d m) by (exists s; auto).
      exact (proj2 (proj2 (proj2 (parse_nodes alnum src m _ P Id)))). }
    clear - F2. induction F2; cbn [map]; constructor; auto.
  - split; [destruct m; reflexivity|]. split; [intros ->; reflexivity|]. intros l s ->. rewrite rev_app_distr. reflexivity.
Qed.
Print Assumptions C55_json_mirrors_tree.

(** [mirrors] leaves no freedom in the fields it specifies: *)
Lemma field_unique (fields : list (str * json)) k v w : NoDup (map fst fields) -> In (k, v) fields -> In (k, w) fields -> v = w.
Proof.
  induction fields as [|[k1 v1] fs IH]; cbn [map fst]; intros N I J; [destruct I|].
  apply NoDup_cons_iff in N as [N1 N2]. destruct I as [I|I], J as [J|J].
  - congruence.
  - injection I as -> ->. exfalso. apply N1. apply in_map_iff. exists (k, w). auto.
  - injection J as -> ->. exfalso. apply N1. apply in_map_iff. exists (k, v). auto.
  - auto.
Qed.
(** ** C56: the [computed] flag of a property *)
Theorem C56_computed_partial : forall (alnum : N -> bool) (src : str) (m : module) (j : json) (n : node property) (k : node property_key) (v : node expression),
  parses_to alnum src (ParseOk m) -> a_module m = Done j -> in_module (A_Prop n) m -> n_item n = P_Literal k v ->
  exists fields, part_of (J_Obj ((bs "type", J_Str (bs "Property")) :: fields)) j /\
    mirrors (A_Prop n) (J_Obj ((bs "type", J_Str (bs "Property")) :: fields)) /\
    forall w, In (bs "computed", w) fields <-> w = J_Bool (computed_key k).
Proof.
  intros alnum src m j n k v P H I E.
  destruct (node_shown m j _ H I) as [(x & Ex & Px)|[(f & e & _ & _ & X & _)|[(p & e & f & args & _ & _ & _ & X)|(p & i & _ & _ & _ & X)]]]; try discriminate X.
  { intros (n' & X & _). discriminate X. }
  assert (M : mirrors (A_Prop n) x).
  { apply (tree_mirrored (A_Prop n)); [|exact Ex]. intros d W. destruct I as (s & Is & Ws).
    assert (Id : in_module d m).
    { exists s. split; [exact Is|]. clear - W Ws. induction Ws as [a|a b c J Ws IH]; [exact W|eapply within_child; eauto]. }
    exact (proj2 (proj2 (proj2 (parse_nodes alnum src m _ P Id)))). }
  inversion M as [a ty fields y T O D S N K F Ea Ey| |]. subst a y. cbn [estree_type] in T. rewrite E in T. injection T as <-. unfold estree_node in O. subst x.
  exists fields. split; [exact Px|]. split; [exact M|].
  destruct (F "computed"%string (Flag (computed_key k))) as (z & Iz & Hz); [cbn [slots]; rewrite E; right; right; left; reflexivity|].
  inversion Hz as [| | | | | |s Es|b Eb Ez| |]. subst. intros w. split; [|intros ->; exact Iz].
  intros Iw. apply NoDup_cons_iff in D as [_ D]. eapply field_unique; eauto.
Qed.
Print Assumptions C56_computed_partial.
(** A method with a computed key is written as one with a plain key: *)
Definition computed_sample : str := bs "({[a](){}})".
Theorem C56_computed_refuted : forall alnum : N -> bool, exists m j n k f fields,
  parses_to alnum computed_sample (ParseOk m) /\ a_module m = Done j /\ in_module (A_Prop n) m /\
  n_item n = P_Method k f /\ computed_key k = true /\
  part_of (J_Obj ((bs "type", J_Str (bs "Property")) :: fields)) j /\
  In (bs "start", J_Int (n_start n)) fields /\ In (bs "end", J_Int (n_end n)) fields /\
  In (bs "computed", J_Bool false) fields.
Proof.
  intros alnum. do 6 eexists. split; [exists 200; vm_compute; reflexivity|]. split; [vm_compute; reflexivity|]. split.
  { eexists. split; [left; reflexivity|]. eapply within_child; [left; reflexivity|]. eapply within_child; [left; reflexivity|]. constructor. }
  split; [reflexivity|]. split; [reflexivity|]. split.
  { eapply part_field; [right; left; reflexivity|]. eapply part_elem; [left; reflexivity|].
    eapply part_field; [right; left; reflexivity|]. eapply part_field; [right; left; reflexivity|].
    eapply part_elem; [left; reflexivity|]. constructor. }
  cbn [n_start n_end]. split; [find|split; find].
Qed.
Print Assumptions C56_computed_refuted.

(** ** C57: the AST functions of the two packages *)
(** What [generateASTEstree] returns: the JSON of the program, or the messages for its errors; *)
Theorem C57_estree : forall (alnum : N -> bool) (n : nat) (src : str) (r : estree_result),
  wasm_estree alnum n src = Done r ->
  match r with
  | EstreeValue j => exists m, parses_to alnum src (ParseOk m) /\ program_json m j
  | EstreeError s => exists es msgs, parses_to alnum src (ParseErr es) /\ es <> [] /\ messages src es msgs /\
      s = bs "Error: " ++ SpecError.join [LF] msgs
  end.
Proof.
  intros alnum n src r H. unfold wasm_estree in H. destruct (parse_fuel alnum n src) as [p| | |] eqn:E; try discriminate H.
  assert (P : parses_to alnum src p) by now exists n. cbn [obind] in H. destruct p as [m|es].
  - destruct (a_module m) as [j| | |] eqn:Em; try discriminate H. injection H as <-. exists m. split; [exact P|].
    exact (C55_json_mirrors_tree alnum src m j P Em).
  - unfold format_errors in H. destruct (display_all es src) as [ds| | |] eqn:D; try discriminate H. injection H as <-.
    exists es, ds. split; [exact P|]. split; [apply errors_in_source in P as [P _]; exact P|]. split; [now apply all_displayed|now rewrite join_same].
Qed.
Print Assumptions C57_estree.
(** [generateASTEstree] returns when the parser does, unless a node of the program cannot be written (C35). *)
Theorem C57_estree_answers : forall (alnum : N -> bool) (n : nat) (src : str) (p : parse_result),
  utf8 src -> (N.of_nat (List.length src) < 4294967296)%N -> parse_fuel alnum n src = Done p ->
  match p with
  | ParseOk m => (exists j, wasm_estree alnum n src = Done (EstreeValue j)) <-> (forall a, in_module a m -> writable a)
  | ParseErr es => exists s, wasm_estree alnum n src = Done (EstreeError s)
  end.
Proof.
  intros alnum n src p V L E. assert (P : parses_to alnum src p) by now exists n. unfold wasm_estree. rewrite E. cbn [obind].
  destruct p as [m|es].
  - rewrite <- (C35_serialises_partial alnum src m L P). split.
    + intros [j H]. destruct (a_module m) as [j'| | |]; try discriminate H. eauto.
    + intros [j H]. rewrite H. cbn [obind]. eauto.
  - destruct (all_messages alnum src es V P) as (msgs & D & _). unfold format_errors. rewrite D. cbn [obind]. eauto.
Qed.
Print Assumptions C57_estree_answers.
(** The same for the [ast] function of the Node.js package, which throws the messages. *)
Theorem C57_node_ast : forall (alnum : N -> bool) (n : nat) (src : str) (r : js_result json),
  ffi_ast alnum n src = Done r ->
  match r with
  | JsValue j => exists m, parses_to alnum src (ParseOk m) /\ program_json m j
  | JsTypeError s => exists es msgs, parses_to alnum src (ParseErr es) /\ es <> [] /\ messages src es msgs /\ s = SpecError.join [LF] msgs
  end.
Proof.
  intros alnum n src r H. unfold ffi_ast in H. destruct (parse_fuel alnum n src) as [p| | |] eqn:E; try discriminate H.
  assert (P : parses_to alnum src p) by now exists n. cbn [obind] in H. destruct p as [m|es].
  - destruct (a_module m) as [j| | |] eqn:Em; try discriminate H. injection H as <-. exists m. split; [exact P|].
    exact (C55_json_mirrors_tree alnum src m j P Em).
  - unfold ffi_format_errors in H. destruct (display_all es src) as [ds| | |] eqn:D; try discriminate H. injection H as <-.
    exists es, ds. split; [exact P|]. split; [apply errors_in_source in P as [P _]; exact P|]. split; [now apply all_displayed|now rewrite join_same].
Qed.
Print Assumptions C57_node_ast.
Theorem C57_node_ast_answers : forall (alnum : N -> bool) (n : nat) (src : str) (p : parse_result),
  utf8 src -> (N.of_nat (List.length src) < 4294967296)%N -> parse_fuel alnum n src = Done p ->
  match p with
  | ParseOk m => (exists j, ffi_ast alnum n src = Done (JsValue j)) <-> (forall a, in_module a m -> writable a)
  | ParseErr es => exists s, ffi_ast alnum n src = Done (JsTypeError s)
  end.
Proof.
  intros alnum n src p V L E. assert (P : parses_to alnum src p) by now exists n. unfold ffi_ast. rewrite E. cbn [obind].
  destruct p as [m|es].
  - rewrite <- (C35_serialises_partial alnum src m L P). split.
    + intros [j H]. destruct (a_module m) as [j'| | |]; try discriminate H. eauto.
    + intros [j H]. rewrite H. cbn [obind]. eauto.
  - destruct (all_messages alnum src es V P) as (msgs & D & _). unfold ffi_format_errors. rewrite D. cbn [obind]. eauto.
Qed.
Print Assumptions C57_node_ast_answers.

(** ** The hypotheses are met *)
Definition mirror_sample : str := bs "for(i=0;;){`a${new X(b.c,...d)}`}
class A extends B{static m(x=1){return [1,,{k:2,[p]:c?d:e},,]}}".
Example mirror_nonvacuous : exists m j n k v, parses_to (fun _ => true) mirror_sample (ParseOk m) /\ a_module m = Done j /\
  in_module (A_Prop n) m /\ n_item n = P_Literal k v /\ computed_key k = true.
Proof.
  do 5 eexists. split; [exists 1000; vm_compute; reflexivity|]. split; [vm_compute; reflexivity|]. split.
  {  eexists. split; [right; left; reflexivity|].
  eapply within_child; [right; right; left; reflexivity|]. (* class body *)
  eapply within_child; [left; reflexivity|].
  eapply within_child; [right; left; reflexivity|]. (* function *)
  eapply within_child; [right; left; reflexivity|]. (* body *)
  eapply within_child; [left; reflexivity|].
  eapply within_child; [left; reflexivity|]. (* array *)
  eapply within_child; [right; right; left; reflexivity|].
  eapply within_child; [right; left; reflexivity|]. constructor. }
  split; reflexivity.
Qed.
Example ast_nonvacuous : exists j s, wasm_estree (fun _ => true) 1000 mirror_sample = Done (EstreeValue j) /\
  wasm_estree (fun _ => true) 1000 (bs "a ] b") = Done (EstreeError s).
Proof. do 2 eexists. split; vm_compute; reflexivity. Qed.
