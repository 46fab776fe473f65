(** Properties of the code generator: C04, C05, C06, C07, C39, C42, C45.
    The vocabulary is in SpecCodegen.v; trees and [in_module] are in Ast.v. *)
From Coq Require Import List NArith Bool String.
From Coq.Strings Require Import Byte.
From Verif Require Import Bytes Token Lexer Ast AstInd SpecTokens SpecTree SpecCodegen Parser Codegen CodegenFacts Structure PropTree ParseFacts.
Import ListNotations.
Open Scope nat_scope.

(** ** C05: minified output is pretty output without (some) white space *)
Theorem C05_minified_is_pretty_without_blanks : forall m : module,
  (codegen m true = Panicked /\ codegen m false = Panicked) \/
  exists pieces, codegen m false = Done (pretty_of pieces) /\ codegen m true = Done (minified_of pieces) /\
    blanks pieces.
Proof.
  intros m. destruct (codegen_behaves m) as [P|(sg & B & E1 & E2)]; [left; exact P|right].
  exists sg. destruct B as (_ & _ & B & _). auto.
Qed.
Print Assumptions C05_minified_is_pretty_without_blanks.

(** The texts of the tree (names, numbers, strings, raw template parts, ...)
    are never cut: each of them is one of the pieces, unchanged in both
    outputs. *)
Theorem C05_texts_kept : forall (alnum : N -> bool) (src : str) (m : module),
  parses_to alnum src (ParseOk m) ->
  exists pieces, codegen m false = Done (pretty_of pieces) /\ codegen m true = Done (minified_of pieces) /\
    blanks pieces /\
    forall a x, in_module a m -> own_text a x -> exists white, In (x, white) pieces.
Proof.
  intros alnum src m H. destruct (codegen_behaves m) as [[P _]|(sg & B & E1 & E2)].
  - exfalso. assert (C : clean (c_module m)).
    { apply clean_module. intros x I. destruct (C08_no_placeholders alnum src m _ H I) as [K _]. now apply K. }
    destruct (tidy_behaves _ (tidy_module m) C 0) as (sg & _ & M & _). specialize (M []). rewrite app_nil_r in M.
    unfold codegen in P. rewrite M in P. discriminate.
  - exists sg. destruct B as (_ & _ & B & T). split; [auto|split; [auto|split; [auto|]]]. intros a x I O.
    assert (W : In (GBytes x) (c_module m)).
    { eapply texts_module; eauto. intros b Ib. exact (C09_templates_complete alnum src m b H Ib). }
    apply T in W. apply in_map_iff in W as ([x' wh] & E & W). simpl in E. subst x'. now exists wh.
Qed.
Print Assumptions C05_texts_kept.

(** ** C06 *)
Theorem C06_codegen_ignores_locations : forall (m1 m2 : module) (minify : bool),
  same_tree m1 m2 -> codegen m1 minify = codegen m2 minify.
Proof.
  intros m1 m2 b E. unfold codegen. rewrite <- (module_unmoved m1), <- (module_unmoved m2). now rewrite E.
Qed.
Print Assumptions C06_codegen_ignores_locations.

(** ** C07 *)
Theorem C07_codegen_total : forall (alnum : N -> bool) (src : str) (m : module) (minify : bool),
  parses_to alnum src (ParseOk m) -> exists out, codegen m minify = Done out.
Proof.
  intros alnum src m b H. destruct (C05_texts_kept alnum src m H) as (sg & E1 & E2 & _). destruct b; eauto.
Qed.
Print Assumptions C07_codegen_total.

(** ** C39 *)
Lemma rest_min l : forall outs, Forall2 (fun s o => codegen [s] true = Done o) l outs ->
  run_min (c_block_rest c_statement l) = Done (List.concat outs).
Proof.
  induction l as [|s l IH]; intros outs H; inversion H as [|? o ? outs' Hs Hl]; subst; [reflexivity|].
  simpl. unfold codegen in Hs. simpl in Hs. rewrite app_nil_r in Hs.
  destruct (panic_dec (c_node c_statement s)) as [P|C].
  { destruct (tidy_panics _ (tidy_any (A_Stmt s)) P 0 []) as [_ E]. rewrite app_nil_r in E. cbn [c_any] in E. unfold c_node in Hs. rewrite E in Hs. discriminate. }
  destruct (tidy_behaves _ (tidy_any (A_Stmt s)) C 0) as (sg & _ & M & _). cbn [c_any] in M.
  unfold c_node in *. rewrite M, (IH _ Hl). simpl. specialize (M []). rewrite app_nil_r in M. rewrite M in Hs. simpl in Hs.
  rewrite app_nil_r in Hs. congruence.
Qed.
Lemma rest_pretty l : forall outs, Forall2 (fun s o => codegen [s] false = Done o) l outs ->
  run_pretty 0 (c_block_rest c_statement l) = Done (List.concat (map (fun o => x0a :: o) outs)).
Proof.
  induction l as [|s l IH]; intros outs H; inversion H as [|? o ? outs' Hs Hl]; subst; [reflexivity|].
  simpl. unfold codegen in Hs. simpl in Hs. rewrite app_nil_r in Hs.
  destruct (panic_dec (c_node c_statement s)) as [P|C].
  { destruct (tidy_panics _ (tidy_any (A_Stmt s)) P 0 []) as [E _]. rewrite app_nil_r in E. cbn [c_any] in E. unfold c_node in Hs. rewrite E in Hs. discriminate. }
  destruct (tidy_behaves _ (tidy_any (A_Stmt s)) C 0) as (sg & M & _). cbn [c_any] in M.
  unfold c_node in *. rewrite M, (IH _ Hl). simpl. specialize (M []). rewrite app_nil_r in M. rewrite M in Hs. simpl in Hs.
  rewrite app_nil_r in Hs. injection Hs as <-. reflexivity.
Qed.
Lemma join_concat sep o outs : join sep (o :: outs) = o ++ List.concat (map (fun o => sep ++ o) outs).
Proof.
  revert o. induction outs as [|p outs IH]; intros o; [simpl; now rewrite app_nil_r|].
  change (join sep (o :: p :: outs)) with (o ++ sep ++ join sep (p :: outs)). rewrite IH. simpl. now rewrite <- app_assoc.
Qed.
Theorem C39_statements_compose : forall (m : module) (minify : bool) (outs : list str),
  Forall2 (fun s out => codegen [s] minify = Done out) m outs ->
  codegen m minify = Done (if minify then List.concat outs else join [x0a] outs).
Proof.
  intros m b outs H. destruct H as [|s o m outs Hs Hm]; [destruct b; reflexivity|].
  destruct (panic_dec (c_node c_statement s)) as [P|C].
  { destruct (tidy_panics _ (tidy_any (A_Stmt s)) P 0 []) as [E1 E2]. rewrite app_nil_r in *.
    unfold codegen in Hs. simpl in Hs. rewrite app_nil_r in Hs. unfold c_node in Hs. cbn [c_any] in *.
    destruct b; congruence. }
  destruct (tidy_behaves _ (tidy_any (A_Stmt s)) C 0) as (sg & P & M & _). cbn [c_any] in *.
  unfold codegen in *. cbn [c_module]. cbn [c_module c_block_rest] in Hs. unfold c_node in *. rewrite app_nil_r in Hs. destruct b.
  - rewrite M, (rest_min _ _ Hm). specialize (M []). rewrite app_nil_r in M. rewrite M in Hs. simpl in *.
    rewrite app_nil_r in Hs. injection Hs as <-. reflexivity.
  - rewrite P, (rest_pretty _ _ Hm), join_concat. specialize (P []). rewrite app_nil_r in P. rewrite P in Hs. simpl in *.
    rewrite app_nil_r in Hs. injection Hs as <-. reflexivity.
Qed.
Print Assumptions C39_statements_compose.

(** ** The hypotheses are met *)
Example C05_nonvacuous : exists m a, parses_to (fun _ => true) (bs "{ throw f(0x1f) }") (ParseOk m) /\
  in_module a m /\ own_text a (bs "0x1f") /\
  codegen m true = Done (bs "{throw f(0x1f);}") /\
  codegen m false = Done (bs "{" ++ [x0a] ++ bs "    throw f(0x1f);" ++ [x0a] ++ bs "}").
Proof.
  do 2 eexists. split; [exists 60; vm_compute; reflexivity|]. split.
  { eexists. split; [left; reflexivity|]. eapply within_child; [left; reflexivity|].
    eapply within_child; [left; reflexivity|]. eapply within_child; [right; left; reflexivity|]. apply within_refl. }
  split; [reflexivity|]. split; vm_compute; reflexivity.
Qed.
Example C06_nonvacuous : exists m1 m2, parses_to (fun _ => true) (bs "a  +  b") (ParseOk m1) /\
  parses_to (fun _ => true) (bs "a+b") (ParseOk m2) /\ m1 <> m2 /\ same_tree m1 m2.
Proof.
  do 2 eexists. split; [exists 100; vm_compute; reflexivity|]. split; [exists 100; vm_compute; reflexivity|].
  split; [discriminate|reflexivity].
Qed.
Example C39_nonvacuous : exists s1 s2 m, parses_to (fun _ => true) (bs "a;{b;c}") (ParseOk m) /\ m = [s1; s2] /\
  Forall2 (fun s out => codegen [s] false = Done out) m [bs "a;"; bs "{" ++ [x0a] ++ bs "    b;" ++ [x0a] ++ bs "    c;" ++ [x0a] ++ bs "}"].
Proof.
  do 3 eexists. split; [exists 100; vm_compute; reflexivity|]. split; [reflexivity|].
  constructor; [vm_compute; reflexivity|]. constructor; [vm_compute; reflexivity|constructor].
Qed.

(** ** C04: the whole-language round trip does not hold *)
(** The source is accepted, but the code generated for it is rejected or is
    another program. *)
Definition changed_by_codegen (alnum : N -> bool) (minify : bool) (src : str) : Prop :=
  exists m out, parses_to alnum src (ParseOk m) /\ codegen m minify = Done out /\
    forall m', parses_to alnum out (ParseOk m') -> ~ same_tree m m'.
Ltac changed := do 2 eexists; split; [exists 60; vm_compute; reflexivity|]; split; [vm_compute; reflexivity|];
  let m := fresh in let H := fresh in let E := fresh in
  intros m H E;
  match type of H with parses_to ?alnum ?out _ =>
    let r := eval vm_compute in (parse_fuel alnum 60 out) in
    match r with Done ?r =>
      let K := fresh in assert (K : parses_to alnum out r) by (exists 60; vm_compute; reflexivity);
      generalize (parses_det _ _ _ _ H K); clear H K; intros K; first [discriminate K | injection K as ->; vm_compute in E; discriminate E]
    end
  end.
Definition broken_programs : list str :=
  [ bs "!(a&&b)"; bs "-(-x)"; bs "(a=>b)()"; bs "(a?b:c)?d:e"; bs "()=>({})"; bs "f((a,b))"; bs "(1).foo"; bs "(a=>b)||c";
    bs "try{}catch(e){}finally{}"; bs "function*f(){}"; bs "while(x);a"; bs "({}).a"; bs "(function(){})()";
    bs "[(a,b)]"; bs "typeof(a+b)"; bs "a?(b,c):d" ].
Theorem C04_round_trip_refuted : forall (alnum : N -> bool) (minify : bool),
  Forall (changed_by_codegen alnum minify) broken_programs.
Proof.
  intros alnum minify. unfold broken_programs. destruct minify; repeat (constructor; [changed|]); constructor.
Qed.
Print Assumptions C04_round_trip_refuted.
(** Only in minified output: spaces that are needed are left out. *)
Theorem C04_round_trip_refuted_minified : forall alnum : N -> bool,
  Forall (changed_by_codegen alnum true) [bs "a-(-b*c)"; bs "a / /re/"; bs "debugger;a"].
Proof. intros alnum. repeat (constructor; [changed|]); constructor. Qed.
Print Assumptions C04_round_trip_refuted_minified.

(** ** C42: what the generator loses *)
Theorem C42_kinds_refuted : forall alnum : N -> bool,
  Forall (changed_by_codegen alnum true) [bs "function*f(){}"; bs "(function*(){})"; bs "try{}finally{}"; bs "while(x);a"; bs "if(x);else y"].
Proof. intros alnum. repeat (constructor; [changed|]); constructor. Qed.
Print Assumptions C42_kinds_refuted.
(** ... for generators and empty statements, whatever the rest of the program
    is: the flag and the statement are not written at all. *)
Theorem C42_generator_flag_lost : forall s e n ps b s' e' minify,
  codegen [Node s e (St_Function (Func n true ps b))] minify = codegen [Node s' e' (St_Function (Func n false ps b))] minify.
Proof. reflexivity. Qed.
Theorem C42_empty_statement_lost : forall s e minify, codegen [Node s e St_Empty] minify = Done [].
Proof. intros s e [|]; reflexivity. Qed.

(** ** C45: the two outputs of a module are not always the same program *)
Theorem C45_modes_agree_refuted : forall alnum : N -> bool, exists m p q m',
  parses_to alnum (bs "a-(-b*c)") (ParseOk m) /\
  codegen m false = Done p /\ codegen m true = Done q /\
  parses_to alnum p (ParseOk m') /\ same_tree m m' /\ forall m'', ~ parses_to alnum q (ParseOk m'').
Proof.
  intros alnum. do 4 eexists. split; [exists 60; vm_compute; reflexivity|]. split; [vm_compute; reflexivity|].
  split; [vm_compute; reflexivity|]. split; [exists 60; vm_compute; reflexivity|]. split; [reflexivity|].
  intros m'' H. match type of H with parses_to ?alnum ?out _ =>
    let r := eval vm_compute in (parse_fuel alnum 60 out) in
    match r with Done ?r => assert (K : parses_to alnum out r) by (exists 60; vm_compute; reflexivity) end end.
  generalize (parses_det _ _ _ _ H K). discriminate.
Qed.
Print Assumptions C45_modes_agree_refuted.
