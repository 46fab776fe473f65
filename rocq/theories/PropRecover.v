(** C72: the JSON of a program determines the program. *)
From Coq Require Import List NArith Bool String.
From Coq.Strings Require Import Byte.
From Verif Require Import Bytes Token Lexer Ast Astgen Prog Parser SpecTree SpecMirror SpecRecover Structure PropTree PropGap JsonInj.
Import ListNotations.
Open Scope nat_scope.
Open Scope list_scope.

(** C72: two accepted sources with the same ESTree JSON, positions aside, have the same tree, if the JSON shows every node of both. *)
Theorem C72_json_determines_partial : forall (alnum : N -> bool) (src src' : str) (m m' : module) (j j' : json),
  parses_to alnum src (ParseOk m) -> parses_to alnum src' (ParseOk m') ->
  (forall a, in_module a m -> shown a) -> (forall a, in_module a m' -> shown a) ->
  a_module m = Done j -> a_module m' = Done j' -> without_positions j = without_positions j' -> same_tree m m'.
Proof.
  intros alnum src src' m m' j j' P P' S S' E E' Q. apply (module_inj (fun t => t) m m' j j'); [| |exact E|exact E'|now rewrite !wo_without, Q]; intros a I; (split; [|auto]).
  - exact (C11_well_formed _ _ _ _ P I).
  - exact (C11_well_formed _ _ _ _ P' I).
Qed.
Print Assumptions C72_json_determines_partial.

(** Without that condition it is false, even for JSON that is the same with its positions: a hole at the end of an array is
    lost, ... *)
Theorem C72_determines_refuted : forall alnum : N -> bool, exists m m' j,
  parses_to alnum (bs "[a, ]") (ParseOk m) /\ parses_to alnum (bs "[a,,]") (ParseOk m') /\ a_module m = Done j /\ a_module m' = Done j /\ ~ same_tree m m'.
Proof.
  intros alnum. do 3 eexists. split; [exists 100; vm_compute; reflexivity|]. split; [exists 100; vm_compute; reflexivity|].
  split; [vm_compute; reflexivity|]. split; [vm_compute; reflexivity|]. intros Q. vm_compute in Q. discriminate Q.
Qed.
Print Assumptions C72_determines_refuted.
(** ... and so is the argument list of [new] before a literal. *)
Theorem C72_determines_refuted_new : forall alnum : N -> bool, exists m m' j,
  parses_to alnum (bs "new 5  ") (ParseOk m) /\ parses_to alnum (bs "new 5()") (ParseOk m') /\ a_module m = Done j /\ a_module m' = Done j /\ ~ same_tree m m'.
Proof.
  intros alnum. do 3 eexists. split; [exists 100; vm_compute; reflexivity|]. split; [exists 100; vm_compute; reflexivity|].
  split; [vm_compute; reflexivity|]. split; [vm_compute; reflexivity|]. intros Q. vm_compute in Q. discriminate Q.
Qed.
Print Assumptions C72_determines_refuted_new.
(** The brackets around the key of a method change only positions. *)
Theorem C72_determines_refuted_key : forall alnum : N -> bool, exists m m' j j',
  parses_to alnum (bs "({ a (){}})") (ParseOk m) /\ parses_to alnum (bs "({[a](){}})") (ParseOk m') /\ a_module m = Done j /\ a_module m' = Done j' /\
  without_positions j = without_positions j' /\ ~ same_tree m m'.
Proof.
  intros alnum. do 4 eexists. split; [exists 100; vm_compute; reflexivity|]. split; [exists 100; vm_compute; reflexivity|].
  split; [vm_compute; reflexivity|]. split; [vm_compute; reflexivity|]. split; [vm_compute; reflexivity|]. intros Q. vm_compute in Q. discriminate Q.
Qed.
Print Assumptions C72_determines_refuted_key.

(** ** A case: all nodes of this program are shown; it is written in two ways. *)
Fixpoint last_item (es : list (node expression)) : option expression := match es with [] => None | [n] => Some (n_item n) | _ :: r => last_item r end.
Lemma last_shown es : last_item es <> Some E_Void -> forall before n, es = before ++ [n] -> n_item n <> E_Void.
Proof.
  intros H before n -> E. apply H. clear H. induction before as [|b before IH]; cbn [app last_item]; [now rewrite E|]. destruct (before ++ [n]) eqn:X; [destruct before; discriminate X|exact IH].
Qed.
Definition first_way : str := bs "class A extends B { get c() { return [1, , 0b1] } } for (let x of new D(y)) o = {k: x ** 2, 'l': `t${x}u`, m() {}};".
Definition second_way : str := bs "class A extends(B){get c(){return[1,,(0b1)];}}for(let x of new D((y)))o=({k:x**2,'l':`t${x}u`,m(){}})".
Definition tree_of (s : str) : module := match parse_fuel letters 200 s with Done (ParseOk m) => m | _ => [] end.
Fixpoint all_shown (k : nat) (x : any) : Prop := match k with 0 => False | S k => shown x /\ Forall (all_shown k) (children x) end.
Lemma all_shown_within n : forall a b, all_shown n b -> within a b -> shown a.
Proof.
  induction n as [|n IH]; intros a b H W; [destruct H|]. destruct H as [H1 H2]. destruct W as [a|a b c I W]; [exact H1|]. rewrite Forall_forall in H2. eapply IH; [apply H2, I|exact W].
Qed.
Lemma shown_module k m : Forall (fun s => all_shown k (A_Stmt s)) m -> forall a, in_module a m -> shown a.
Proof. intros F a (s & I & W). rewrite Forall_forall in F. exact (all_shown_within k _ _ (F _ I) W). Qed.
Ltac show_all := apply (shown_module 30); let m := fresh "m" in match goal with |- Forall _ ?t => let v := eval vm_compute in t in change t with v end;
  repeat match goal with
  | |- Forall _ _ => first [apply Forall_nil | apply Forall_cons]
  | |- all_shown _ _ => split
  | |- Forall _ (children _) => cbn [children children_expression children_statement children_func children_class children_template children_name n_item b_body map app opt]
  | |- shown _ => cbn [shown n_item computed_key]; solve [exact Logic.I | reflexivity | apply last_shown; discriminate | intros ? ?X; discriminate X]
  end.
Example C72_case : exists m m' j j', parses_to letters first_way (ParseOk m) /\ parses_to letters second_way (ParseOk m') /\
  (forall a, in_module a m -> shown a) /\ (forall a, in_module a m' -> shown a) /\ a_module m = Done j /\ a_module m' = Done j' /\
  without_positions j = without_positions j' /\ j <> j' /\ List.length m = 2.
Proof.
  exists (tree_of first_way), (tree_of second_way). do 2 eexists. split; [exists 200; vm_compute; reflexivity|]. split; [exists 200; vm_compute; reflexivity|].
  split; [show_all|]. split; [show_all|]. split; [vm_compute; reflexivity|]. split; [vm_compute; reflexivity|]. split; [vm_compute; reflexivity|]. split; [discriminate|reflexivity].
Qed.
