(** How compact minified code is: the statements that [PropCompact] leaves out (C65). *)
From Coq Require Import List NArith Bool String Lia.
From Coq.Strings Require Import Byte.
From Verif Require Import Bytes Token Lexer Ast Parser Codegen SpecError PropCompact.
Import ListNotations.
Open Scope nat_scope.
Open Scope list_scope.

(** The minified code of a pattern, of the head of a loop, of a list of cases. *)
Definition pattern_code (p : pattern) (s : str) : Prop := run_min (c_pattern p) = Done s.
Definition init_code (i : for_init) (s : str) : Prop := run_min (c_for_init i) = Done s.
Definition declarator_code (d : declarator) (s : str) : Prop := run_min (c_declarator d) = Done s.
(** ... of a part that may be missing. *)
Definition optional {A : Set} (code : A -> str -> Prop) (x : option (node A)) (s : str) : Prop :=
  match x with Some x => code (n_item x) s | None => s = [] end.

Ltac shape H :=
  apply statement_min in H; cbn [c_statement c_catch] in H; unfold c_node in H;
  repeat match goal with K : run_min (_ ++ _) = Done _ |- _ => apply run_min_app in K; destruct K as (? & ? & ? & K & ->) end;
  repeat match goal with K : run_min (w _) = Done _ |- _ => cbn in K; injection K as <- | K : run_min sp = Done _ |- _ => cbn in K; injection K as <- end.

Theorem C65_while : forall t b s, statement_code (St_While t b) s ->
  exists ct cb, expression_code (n_item t) ct /\ statement_code (n_item b) cb /\
    s = bs "while(" ++ ct ++ bs ")" ++ cb.
Proof. intros t b s H. shape H. do 2 eexists. rewrite statement_min. split; [eassumption|]. split; [eassumption|]. reflexivity. Qed.
Print Assumptions C65_while.

Theorem C65_for : forall i t u b s, statement_code (St_For i t u b) s ->
  exists ci ct cu cb, optional init_code i ci /\ optional expression_code t ct /\ optional expression_code u cu /\
    statement_code (n_item b) cb /\
    s = bs "for(" ++ ci ++ bs ";" ++ ct ++ bs ";" ++ cu ++ bs ")" ++ cb.
Proof.
  intros i t u b s H. shape H. do 4 eexists. rewrite statement_min.
  split. { destruct i; cbn in *; [eassumption|]. match goal with K : Done [] = Done ?x |- ?x = [] => injection K as <-; reflexivity end. }
  split. { destruct t; cbn in *; [eassumption|]. match goal with K : Done [] = Done ?x |- ?x = [] => injection K as <-; reflexivity end. }
  split. { destruct u; cbn in *; [eassumption|]. match goal with K : Done [] = Done ?x |- ?x = [] => injection K as <-; reflexivity end. }
  split; [eassumption|]. reflexivity.
Qed.
Print Assumptions C65_for.

Theorem C65_for_in : forall l r b s, statement_code (St_ForIn l r b) s ->
  exists cl cr cb, init_code (n_item l) cl /\ expression_code (n_item r) cr /\ statement_code (n_item b) cb /\
    s = bs "for(" ++ cl ++ bs " in " ++ cr ++ bs ")" ++ cb.
Proof. intros l r b s H. shape H. do 3 eexists. rewrite statement_min. split; [eassumption|]. split; [eassumption|]. split; [eassumption|]. reflexivity. Qed.
Print Assumptions C65_for_in.

Theorem C65_for_of : forall l r b s, statement_code (St_ForOf l r b) s ->
  exists cl cr cb, init_code (n_item l) cl /\ expression_code (n_item r) cr /\ statement_code (n_item b) cb /\
    s = bs "for(" ++ cl ++ bs " of " ++ cr ++ bs ")" ++ cb.
Proof. intros l r b s H. shape H. do 3 eexists. rewrite statement_min. split; [eassumption|]. split; [eassumption|]. split; [eassumption|]. reflexivity. Qed.
Print Assumptions C65_for_of.

Theorem C65_labeled : forall l b s, statement_code (St_Labeled l b) s ->
  exists cb, statement_code (n_item b) cb /\ s = l ++ bs ":" ++ cb.
Proof.
  intros l b s H. shape H. eexists. rewrite statement_min. split; [eassumption|].
  match goal with K : run_min (wstr _) = Done _ |- _ => cbn in K; injection K as <- end. now rewrite app_nil_r.
Qed.
Print Assumptions C65_labeled.

(** [try] and [catch]; a [finally] is written without its keyword, see C42. *)
Theorem C65_try : forall b h p c s, statement_code (St_Try b (Some h) None) s -> n_item h = CatchClause p c ->
  exists cb cp cc, statement_code (St_Block (n_item b)) cb /\ pattern_code (n_item p) cp /\ statement_code (St_Block (n_item c)) cc /\
    s = bs "try" ++ cb ++ bs "catch(" ++ cp ++ bs ")" ++ cc.
Proof.
  intros b h p c s H E. apply statement_min in H. cbn [c_statement] in H. unfold c_node in H. rewrite E in H. cbn [c_catch] in H. unfold c_node in H.
  repeat match goal with K : run_min (_ ++ _) = Done _ |- _ => apply run_min_app in K; destruct K as (? & ? & ? & K & ->) end.
  repeat match goal with K : run_min (w _) = Done _ |- _ => cbn in K; injection K as <- | K : run_min sp = Done _ |- _ => cbn in K; injection K as <- | K : run_min [] = Done _ |- _ => cbn in K; injection K as <- end.
  do 3 eexists. rewrite !statement_min. cbn [c_statement]. split; [eassumption|]. split; [eassumption|]. split; [eassumption|].
  cbn [app]. now rewrite app_nil_r.
Qed.
Print Assumptions C65_try.

(** ** Lists: a comma between two elements, nothing else *)
Lemma list_text {A : Set} (f : A -> code) l : forall s, run_min (c_list f l) = Done s ->
  exists ts, Forall2 (fun n t => run_min (f (n_item n)) = Done t) l ts /\ s = join (bs ",") ts.
Proof.
  assert (R : forall l s, run_min (c_list_rest f l) = Done s -> exists ts, Forall2 (fun n t => run_min (f (n_item n)) = Done t) l ts /\ forall x, x ++ s = join (bs ",") (x :: ts)).
  { clear l. induction l as [|n l IH]; intros s H; cbn [c_list_rest] in H.
    - cbn in H. injection H as <-. exists []. split; [constructor|]. intros x. cbn. apply app_nil_r.
    - unfold c_node in H. repeat match goal with K : run_min (_ ++ _) = Done _ |- _ => apply run_min_app in K; destruct K as (? & ? & ? & K & ->) end.
      repeat match goal with K : run_min (w _) = Done _ |- _ => cbn in K; injection K as <- | K : run_min sp = Done _ |- _ => cbn in K; injection K as <- end.
      match goal with K : run_min (c_list_rest f l) = Done _ |- _ => destruct (IH _ K) as (ts & F & J) end.
      eexists (_ :: ts). split; [constructor; [eassumption|exact F]|]. intros x. cbn [app]. rewrite J. reflexivity. }
  intros s H. destruct l as [|n l].
  - cbn in H. injection H as <-. exists []. split; [constructor|reflexivity].
  - cbn [c_list] in H. unfold c_node in H. apply run_min_app in H as (s1 & s2 & H1 & H2 & ->). destruct (R _ _ H2) as (ts & F & J).
    exists (s1 :: ts). split; [constructor; assumption|]. apply J.
Qed.
Lemma rest_text {A : Set} (f : A -> code) l : forall s, run_min (c_block_rest f l) = Done s ->
  exists ts, Forall2 (fun n t => run_min (f (n_item n)) = Done t) l ts /\ s = List.concat ts.
Proof.
  induction l as [|n l IH]; intros s H; cbn [c_block_rest] in H.
  - cbn in H. injection H as <-. exists []. split; [constructor|reflexivity].
  - unfold c_node in H. cbn [app run_min] in H. apply run_min_app in H as (s1 & s2 & H1 & H2 & ->). destruct (IH _ H2) as (ts & F & ->).
    exists (s1 :: ts). split; [constructor; assumption|reflexivity].
Qed.

Theorem C65_array : forall l s, expression_code (E_Array l) s ->
  exists ts, Forall2 (fun n t => expression_code (n_item n) t) l ts /\ s = bs "[" ++ join (bs ",") ts ++ bs "]".
Proof.
  intros l s H. unfold expression_code in H. cbn [c_expression] in H.
  apply run_min_app in H as (s1 & s2 & H1 & H & ->). apply run_min_app in H as (s3 & s4 & H2 & H3 & ->).
  cbn in H1, H3. injection H1 as <-. injection H3 as <-. apply list_text in H2 as (ts & F & ->). exists ts. split; [exact F|reflexivity].
Qed.
Print Assumptions C65_array.

Theorem C65_call : forall c l s, expression_code (E_Call c l) s ->
  exists cc ts, expression_code (n_item c) cc /\ Forall2 (fun n t => expression_code (n_item n) t) l ts /\ s = cc ++ bs "(" ++ join (bs ",") ts ++ bs ")".
Proof.
  intros c l s H. unfold expression_code in H. cbn [c_expression] in H. unfold c_node at 1 in H. apply run_min_app in H as (s0 & s5 & H0 & H & ->).
  apply run_min_app in H as (s1 & s2 & H1 & H & ->). apply run_min_app in H as (s3 & s4 & H2 & H3 & ->).
  cbn in H1, H3. injection H1 as <-. injection H3 as <-. apply list_text in H2 as (ts & F & ->). exists s0, ts. split; [exact H0|]. split; [exact F|reflexivity].
Qed.
Print Assumptions C65_call.

Theorem C65_conditional : forall t c a s, expression_code (E_Conditional t c a) s ->
  exists ct cc ca, expression_code (n_item t) ct /\ expression_code (n_item c) cc /\ expression_code (n_item a) ca /\
    s = ct ++ bs "?" ++ cc ++ bs ":" ++ ca.
Proof.
  intros t c a s H. unfold expression_code in H. cbn [c_expression] in H. unfold c_node in H.
  repeat match goal with K : run_min (_ ++ _) = Done _ |- _ => apply run_min_app in K; destruct K as (? & ? & ? & K & ->) end.
  repeat match goal with K : run_min (w _) = Done _ |- _ => cbn in K; injection K as <- | K : run_min sp = Done _ |- _ => cbn in K; injection K as <- end.
  do 3 eexists. split; [eassumption|]. split; [eassumption|]. split; [eassumption|]. reflexivity.
Qed.
Print Assumptions C65_conditional.

(** A block: its statements one after the other between braces. *)
Theorem C65_block : forall b s, statement_code (St_Block b) s ->
  exists ts, Forall2 (fun n t => statement_code (n_item n) t) (b_body b) ts /\ s = bs "{" ++ List.concat ts ++ bs "}".
Proof.
  intros [l] s H. apply statement_min in H. cbn [c_statement] in H. unfold c_block in H. cbn [b_body] in *.
  apply run_min_app in H as (s1 & s2 & H1 & H & ->). apply run_min_app in H as (s3 & s4 & H2 & H3 & ->).
  cbn in H1, H3. injection H1 as <-. injection H3 as <-.
  assert (E : exists ts, Forall2 (fun n t => run_min (c_statement (n_item n)) = Done t) l ts /\ s3 = List.concat ts).
  { destruct l as [|n l]; [cbn in H2; injection H2 as <-; exists []; split; [constructor|reflexivity]|].
    cbn [c_items app run_min] in H2. unfold c_node in H2. apply run_min_app in H2 as (s5 & s6 & H4 & H5 & ->). apply run_min_app in H5 as (s7 & s8 & H5 & H6 & ->).
    cbn in H6. injection H6 as <-. apply rest_text in H5 as (ts & F & ->). exists (s5 :: ts). split; [constructor; assumption|]. cbn. now rewrite app_nil_r. }
  destruct E as (ts & F & ->). exists ts. split; [|reflexivity].
  clear H2. induction F; constructor; [now apply statement_min|assumption].
Qed.
Print Assumptions C65_block.

(** A whole program: its statements one after the other. *)
Theorem C65_program : forall m s, codegen m true = Done s ->
  exists ts, Forall2 (fun n t => statement_code (n_item n) t) m ts /\ s = List.concat ts.
Proof.
  intros m s H. assert (E : run_min (c_block_rest c_statement m) = Done s) by (destruct m; exact H).
  apply rest_text in E as (ts & F & ->). exists ts. split; [|reflexivity]. clear H. induction F; constructor; [now apply statement_min|assumption].
Qed.
Print Assumptions C65_program.

Theorem C65_declaration : forall k ds s, statement_code (St_Declaration k ds) s ->
  exists ts, Forall2 (fun n t => declarator_code (n_item n) t) ds ts /\
    s = (match k with DK_Var => bs "var " | DK_Let => bs "let " | DK_Const => bs "const " end) ++ join (bs ",") ts ++ bs ";".
Proof.
  intros k ds s H. apply statement_min in H. cbn [c_statement] in H.
  apply run_min_app in H as (s1 & s2 & H1 & H & ->). apply run_min_app in H as (s3 & s4 & H2 & H3 & ->).
  cbn in H3. injection H3 as <-. apply list_text in H2 as (ts & F & ->). exists ts. split; [exact F|]. destruct k; cbn in H1; injection H1 as <-; reflexivity.
Qed.
Print Assumptions C65_declaration.
Theorem C65_declarator : forall p v s, declarator_code (Declarator p (Some v)) s ->
  exists cp cv, pattern_code (n_item p) cp /\ expression_code (n_item v) cv /\ s = cp ++ bs "=" ++ cv.
Proof.
  intros p v s H. unfold declarator_code in H. cbn [c_declarator] in H. unfold c_node in H.
  repeat match goal with K : run_min (_ ++ _) = Done _ |- _ => apply run_min_app in K; destruct K as (? & ? & ? & K & ->) end.
  repeat match goal with K : run_min (w _) = Done _ |- _ => cbn in K; injection K as <- | K : run_min sp = Done _ |- _ => cbn in K; injection K as <- end.
  do 2 eexists. split; [eassumption|]. split; [eassumption|]. reflexivity.
Qed.
Print Assumptions C65_declarator.

(** Not vacuous. *)
Example compact_statements_nonvacuous : exists m,
  parses_to (fun _ => true) (bs "for ( var i = 0 ; i ; i ++ ) while ( x ) l : try { } catch ( e ) { a ; }") (ParseOk m) /\
  codegen m true = Done (bs "for(var i=0;i;i++)while(x)l:try{}catch(e){a;}").
Proof. eexists. split; [exists 60; vm_compute; reflexivity|vm_compute; reflexivity]. Qed.
