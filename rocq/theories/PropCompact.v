(** How compact minified code is: C65, C66. *)
From Coq Require Import List NArith Bool String Lia.
From Coq.Strings Require Import Byte.
From Verif Require Import Bytes Token Lexer Ast SpecTree Parser Codegen SpecCodegen PropCodegen.
Import ListNotations.
Open Scope nat_scope.
Open Scope list_scope.

(** The minified code of an expression, of a statement. *)
Definition expression_code (e : expression) (s : str) : Prop := run_min (c_expression e) = Done s.
Definition statement_code (t : statement) (s : str) : Prop := codegen [Node 0 0 t] true = Done s.

Lemma run_min_app c1 c2 s : run_min (c1 ++ c2) = Done s <-> exists s1 s2, run_min c1 = Done s1 /\ run_min c2 = Done s2 /\ s = s1 ++ s2.
Proof.
  split.
  - revert s. induction c1 as [|g c1 IH]; intros s H; [exists [], s; auto|]. destruct g as [x|b| | | |]; cbn [run_min app] in *; try (apply IH; exact H).
    + destruct (run_min (c1 ++ c2)) as [r| | |] eqn:E; cbn [obind] in H; try discriminate. injection H as <-.
      destruct (IH r eq_refl) as (s1 & s2 & E1 & E2 & ->). exists (x ++ s1), s2. rewrite E1. cbn. split; [reflexivity|]. split; [exact E2|]. now rewrite app_assoc.
    + discriminate.
  - intros (s1 & s2 & H1 & H2 & ->). revert s1 H1. induction c1 as [|g c1 IH]; intros s1 H1; cbn [run_min app] in *.
    + injection H1 as <-. exact H2.
    + destruct g as [x|b| | | |]; try (apply IH; exact H1); try discriminate.
      destruct (run_min c1) as [r| | |] eqn:E; cbn [obind] in H1; try discriminate. injection H1 as <-. rewrite (IH r eq_refl). cbn. now rewrite app_assoc.
Qed.
Lemma run_bound f n bp s : run_min (c_bound f n bp) = Done s -> exists t, run_min (f (n_item n)) = Done t /\ (s = t \/ s = bs "(" ++ t ++ bs ")").
Proof.
  unfold c_bound. destruct (Nat.ltb _ _); intros H; [|eauto].
  apply run_min_app in H as (s1 & s2 & E1 & H & ->). apply run_min_app in H as (s3 & s4 & E2 & H & ->).
  cbn in E1, H. injection E1 as <-. injection H as <-. exists s3. auto.
Qed.
Lemma run_space c s : run_min (space_if c) = Done s -> s = if c then bs " " else [].
Proof. destruct c; cbn; congruence. Qed.

(** ** C65: spaces around operators only where they are needed

    Beside [in] and [instanceof] there is a space; beside another operator there
    is one only where the code of the operand has that sign at that end. *)
Definition word_operators : list operator := [O_In; O_Instanceof].
Ltac absurd_op I := solve [exfalso; clear -I; cbn in I; repeat (destruct I as [I|I]; [discriminate I|]); destruct I].
Theorem C65_spaces_around_operators : forall op l r s, In op binary_operators ->
  expression_code (E_Binary op l r) s ->
  exists tl tr cl cr before after, expression_code (n_item l) tl /\ expression_code (n_item r) tr /\
    (cl = tl \/ cl = bs "(" ++ tl ++ bs ")") /\ (cr = tr \/ cr = bs "(" ++ tr ++ bs ")") /\
    s = cl ++ before ++ operator_str op ++ after ++ cr /\
    (In op word_operators -> before = bs " " /\ after = bs " ") /\
    (~ In op word_operators ->
       (before = [] \/ before = bs " " /\ exists sign t, operator_str op = [sign] /\ tl = t ++ [sign]) /\
       (after = [] \/ after = bs " " /\ exists sign t, operator_str op = [sign] /\ tr = sign :: t)).
Proof.
  intros op l r s I H. unfold expression_code in H. cbn [c_expression] in H.
  apply run_min_app in H as (cl & s1 & L & H & ->). apply run_min_app in H as (before & s2 & B & H & ->).
  apply run_min_app in H as (o & s3 & O & H & ->). apply run_min_app in H as (after & cr & A & R & ->).
  cbn in O. injection O as <-. rewrite app_nil_r.
  destruct (run_bound _ _ _ _ L) as (tl & EL & HL). destruct (run_bound _ _ _ _ R) as (tr & ER & HR).
  apply run_space in B. apply run_space in A.
  exists tl, tr, cl, cr, before, after. split; [exact EL|]. split; [exact ER|]. split; [exact HL|]. split; [exact HR|]. split; [reflexivity|].
  split.
  - intros W. destruct W as [<-|[<-|[]]]; subst before after; split; reflexivity.
  - intros NW. split.
    + subst before. destruct (spacing_left op (n_item l)) eqn:S; [right; split; [reflexivity|]|now left].
      unfold spacing_left in S. destruct (operator_category op) eqn:C; try discriminate.
      * destruct (n_item l); try discriminate. cbn [c_expression] in EL. apply run_min_app in EL as (t1 & t2 & _ & E2 & ->).
        destruct op0; try discriminate; destruct op; try discriminate; try (absurd_op I); cbn in E2; injection E2 as <-;
        first [solve [exists "+"%byte, (t1 ++ bs "+"); split; [reflexivity|rewrite <- app_assoc; reflexivity]]
              |solve [exists "-"%byte, (t1 ++ bs "-"); split; [reflexivity|rewrite <- app_assoc; reflexivity]]
              |solve [exists "+"%byte, t1; split; reflexivity]|solve [exists "-"%byte, t1; split; reflexivity]].
      * destruct (n_item l); try discriminate. cbn [c_expression] in EL. apply run_min_app in EL as (t1 & t2 & _ & E2 & ->).
        destruct op0; try discriminate; destruct op; try discriminate; try (absurd_op I); cbn in E2; injection E2 as <-;
        first [solve [exists "+"%byte, (t1 ++ bs "+"); split; [reflexivity|rewrite <- app_assoc; reflexivity]]
              |solve [exists "-"%byte, (t1 ++ bs "-"); split; [reflexivity|rewrite <- app_assoc; reflexivity]]
              |solve [exists "+"%byte, t1; split; reflexivity]|solve [exists "-"%byte, t1; split; reflexivity]].
      * destruct op; try discriminate C; exfalso; first [apply NW; cbn; tauto | absurd_op I].
    + subst after. destruct (spacing_right op (n_item r)) eqn:S; [right; split; [reflexivity|]|now left].
      unfold spacing_right in S. destruct (operator_category op) eqn:C; try discriminate.
      * destruct (n_item r); try discriminate. cbn [c_expression] in ER. apply run_min_app in ER as (t1 & t2 & E1 & _ & ->).
        destruct op0; try discriminate; destruct op; try discriminate; try (absurd_op I); cbn in E1; injection E1 as <-;
        first [solve [exists "+"%byte; eexists; split; reflexivity]|solve [exists "-"%byte; eexists; split; reflexivity]].
      * destruct (n_item r); try discriminate. cbn [c_expression] in ER. apply run_min_app in ER as (t1 & t2 & E1 & _ & ->).
        destruct op0; try discriminate; destruct op; try discriminate; try (absurd_op I); cbn in E1; injection E1 as <-;
        first [solve [exists "+"%byte; eexists; split; reflexivity]|solve [exists "-"%byte; eexists; split; reflexivity]].
      * destruct op; try discriminate C; exfalso; first [apply NW; cbn; tauto | absurd_op I].
Qed.
Print Assumptions C65_spaces_around_operators.
(** The same for [else] and [do]: a space only beside a statement that is not a block. *)
Definition gap_for (t : statement) (gap : str) : Prop :=
  (exists b, t = St_Block b) /\ gap = [] \/ (forall b, t <> St_Block b) /\ gap = bs " ".
Lemma gap_ok t s : run_min (space_if (negb (is_block t))) = Done s -> gap_for t s.
Proof. destruct t; cbn; intros H; injection H as <-; first [left; split; [eauto|reflexivity]|right; split; [discriminate|reflexivity]]. Qed.
Lemma statement_min t s : statement_code t s <-> run_min (c_statement t) = Done s.
Proof. unfold statement_code, codegen. cbn [c_module c_node n_item c_block_rest]. now rewrite app_nil_r. Qed.
Theorem C65_spaces_around_else : forall test c a s, statement_code (St_If test c (Some a)) s ->
  exists t tc ta g1 g2, expression_code (n_item test) t /\ statement_code (n_item c) tc /\ statement_code (n_item a) ta /\
    gap_for (n_item c) g1 /\ gap_for (n_item a) g2 /\
    s = bs "if(" ++ t ++ bs ")" ++ tc ++ g1 ++ bs "else" ++ g2 ++ ta.
Proof.
  intros test c a s H. apply statement_min in H. cbn [c_statement] in H.
  repeat match goal with K : run_min (_ ++ _) = Done _ |- _ => apply run_min_app in K; destruct K as (? & ? & ? & K & ->) end.
  cbn in *. repeat match goal with K : Done _ = Done _ |- _ => injection K as <- end.
  do 5 eexists. rewrite !statement_min. split; [eassumption|]. split; [eassumption|]. split; [eassumption|].
  split; [apply gap_ok; eassumption|]. split; [apply gap_ok; eassumption|]. cbn. reflexivity.
Qed.
Print Assumptions C65_spaces_around_else.
Theorem C65_space_after_do : forall b test s, statement_code (St_Do b test) s ->
  exists t tb g, expression_code (n_item test) t /\ statement_code (n_item b) tb /\ gap_for (n_item b) g /\
    s = bs "do" ++ g ++ tb ++ bs "while(" ++ t ++ bs ")".
Proof.
  intros b test s H. apply statement_min in H. cbn [c_statement] in H.
  repeat match goal with K : run_min (_ ++ _) = Done _ |- _ => apply run_min_app in K; destruct K as (? & ? & ? & K & ->) end.
  cbn in *. repeat match goal with K : Done _ = Done _ |- _ => injection K as <- end.
  do 3 eexists. rewrite !statement_min. split; [eassumption|]. split; [eassumption|]. split; [apply gap_ok; eassumption|]. cbn. reflexivity.
Qed.
Print Assumptions C65_space_after_do.
Example spaces : exists m, parses_to (fun _ => true) (bs "if (a - -b) { c++ + +d } else e in f") (ParseOk m) /\
  codegen m true = Done (bs "if(a- -b){c++ + +d;}else e in f;").
Proof. eexists. split; [exists 60; vm_compute; reflexivity|vm_compute; reflexivity]. Qed.

(** ** C66: minified code is not longer than pretty code; but it can be longer
    than the source *)
Theorem C66_minified_shorter_partial : forall (m : module) (p q : str),
  codegen m false = Done p -> codegen m true = Done q -> List.length q <= List.length p.
Proof.
  intros m p q P Q. destruct (C05_minified_is_pretty_without_blanks m) as [[E _]|(sg & E1 & E2 & _)]; [congruence|].
  rewrite P in E1. rewrite Q in E2. injection E1 as ->. injection E2 as ->.
  unfold pretty_of, minified_of. clear. induction sg as [|x sg IH]; [cbn; lia|]. cbn [map List.concat]. change (List.length (fst x ++ List.concat (map fst sg)) <= List.length ((fst x ++ snd x) ++ List.concat (map (fun p => fst p ++ snd p) sg))). rewrite !app_length. revert IH. unfold str. lia.
Qed.
Print Assumptions C66_minified_shorter_partial.
Theorem C66_shorter_than_source_refuted : forall alnum : N -> bool, exists m q,
  parses_to alnum (bs "a.b.c;") (ParseOk m) /\ codegen m true = Done q /\ List.length (bs "a.b.c;") < List.length q.
Proof. intros alnum. do 2 eexists. split; [exists 60; vm_compute; reflexivity|]. split; [vm_compute; reflexivity|vm_compute; lia]. Qed.
Print Assumptions C66_shorter_than_source_refuted.
