(** Properties of the trees of successful parses: C08, C09, C10, C11.
    [in_module a m] ranges over every node of the tree (Ast.v); the predicates
    on nodes are defined in SpecTree.v. *)
From Coq Require Import List NArith Bool String.
From Verif Require Import Bytes Token Lexer Ast SpecTokens SpecTree Parser Structure.
Import ListNotations.
Open Scope nat_scope.

Theorem C08_no_placeholders : forall (alnum : N -> bool) (src : str) (m : module) (a : any),
  parses_to alnum src (ParseOk m) -> in_module a m -> placeholder_free a.
Proof. intros alnum src m a H I. exact (proj1 (parse_nodes alnum src m a H I)). Qed.
Print Assumptions C08_no_placeholders.

Theorem C09_templates_complete : forall (alnum : N -> bool) (src : str) (m : module) (a : any),
  parses_to alnum src (ParseOk m) -> in_module a m -> template_complete a.
Proof. intros alnum src m a H I. exact (proj1 (proj2 (parse_nodes alnum src m a H I))). Qed.
Print Assumptions C09_templates_complete.

Theorem C10_targets_valid : forall (alnum : N -> bool) (src : str) (m : module) (a : any),
  parses_to alnum src (ParseOk m) -> in_module a m -> targets_valid a.
Proof. intros alnum src m a H I. exact (proj1 (proj2 (proj2 (parse_nodes alnum src m a H I)))). Qed.
Print Assumptions C10_targets_valid.

Theorem C11_well_formed : forall (alnum : N -> bool) (src : str) (m : module) (a : any),
  parses_to alnum src (ParseOk m) -> in_module a m -> well_formed a.
Proof. intros alnum src m a H I. exact (proj2 (proj2 (proj2 (parse_nodes alnum src m a H I)))). Qed.
Print Assumptions C11_well_formed.

(** ** The hypotheses are met *)
Definition sample : str := bs "
  class A extends B { static get x() { return `a${b}c${d}e`; } constructor(p, ...q) {} y = 1; }
  [a, , b] = [1, , ...c]; x++; o.p += f(...r, /re/g);
  try { new.target; } catch ({ e }) {} finally { for (let i of j) label: break; }
  import d, { n as m } from 'm'; switch (x) { case 1: default: throw 0x1f; }
  ".
Definition sample_module : module :=
  match parse_fuel (fun _ => true) 200 sample with Done (ParseOk m) => m | _ => [] end.
Example sample_parses : parses_to (fun _ => true) sample (ParseOk sample_module).
Proof. exists 200. vm_compute. reflexivity. Qed.

Example templates_nonvacuous : exists m a es qs, parses_to (fun _ => true) (bs "x(`a${b}c${d}e`)") (ParseOk m) /\
  in_module a m /\ template_of a = Some (Template es qs) /\ List.length es = 2 /\ List.length qs = 3.
Proof.
  eexists. do 3 eexists. split; [exists 100; vm_compute; reflexivity|]. split.
  { eexists. split; [left; reflexivity|]. eapply within_child; [left; reflexivity|].
    eapply within_child; [right; left; reflexivity|]. apply within_refl. }
  split; [reflexivity|]. split; reflexivity.
Qed.
(** Array holes and spreads do occur, and the placeholders do occur in trees
    that are thrown away with an [Err]: the theorems are not about trees that
    cannot contain such things. *)
Example holes_occur : exists m a e, parses_to (fun _ => true) (bs "[,...x]") (ParseOk m) /\
  in_module a m /\ In (A_Expr e) (children a) /\ n_item e = E_Void.
Proof.
  eexists. do 2 eexists. split; [exists 100; vm_compute; reflexivity|]. split.
  { eexists. split; [left; reflexivity|]. eapply within_child; [left; reflexivity|]. apply within_refl. }
  split; [left; reflexivity|reflexivity].
Qed.
Example targets_occur : exists m a n l r, parses_to (fun _ => true) (bs "a.b += c") (ParseOk m) /\
  in_module a m /\ a = A_Expr n /\ n_item n = E_Binary O_AddAssign l r /\ In O_AddAssign assignment_operators.
Proof.
  eexists. do 4 eexists. split; [exists 100; vm_compute; reflexivity|]. split.
  { eexists. split; [left; reflexivity|]. eapply within_child; [left; reflexivity|]. apply within_refl. }
  split; [reflexivity|]. split; [reflexivity|]. simpl. auto.
Qed.
Example invalid_target_rejected : exists es, parses_to (fun _ => true) (bs "f() += 1") (ParseErr es).
Proof. eexists. exists 100. vm_compute. reflexivity. Qed.
