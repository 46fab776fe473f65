(** Exactly which scopes the analysis builds, and which lists of statements a
    traversal reports: C63, C64.  The vocabulary is in SpecScope.v. *)
From Coq Require Import List NArith Bool String Permutation.
From Coq.Strings Require Import Byte.
From Verif Require Import Bytes Token Lexer Ast SpecTree Parser Visitor SpecVisit SpecScope VisitFacts ScopeFacts ListFacts PropTree.
Import ListNotations.
Open Scope nat_scope.

Lemma members_fine alnum src m : parses_to alnum src (ParseOk m) ->
  forall x, in_module (A_Member x) m -> n_item x <> CM_Error.
Proof. intros H x I E. destruct (C08_no_placeholders alnum src m _ H I) as [K _]. exact (K _ eq_refl E). Qed.

(** ** C63: the scope tree is the one the program describes *)
Theorem C63_scope_tree : forall (alnum : N -> bool) (src : str) (m : module) t u d c,
  parses_to alnum src (ParseOk m) ->
  (analyze m = Done (Scope SK_Function t u d c, []) <-> reads (map Here (map A_Stmt m)) t u d c).
Proof.
  intros alnum src m t u d c H. destruct (analyze_reads m (members_fine _ _ _ H)) as (t' & u' & d' & c' & E & R). split.
  - intros K. rewrite E in K. injection K as <- <- <- <-. exact R.
  - intros K. destruct (reads_unique _ _ _ _ _ R _ _ _ _ K) as (<- & <- & <- & <-). exact E.
Qed.
Print Assumptions C63_scope_tree.
(** In words: the scopes are those of the regions of the program, and the
    scope of a region says whether [this] occurs directly in the region, and
    which names are used and declared directly in it. *)
Definition describes (s : scope) (k : scope_kind) (l : list any) : Prop :=
  sc_kind s = k /\ (sc_used_this s = true <-> directly This (map Here l)) /\
  (forall x, In x (sc_used s) <-> directly (Uses x) (map Here l)) /\
  (forall x, In x (sc_declared s) <-> directly (Declares x) (map Here l)).
Theorem C63_scopes_describe_regions : forall (alnum : N -> bool) (src : str) (m : module) (root : scope),
  parses_to alnum src (ParseOk m) -> analyze m = Done (root, []) ->
  (forall s, scope_in s root -> exists k l, region m k l /\ describes s k l) /\
  (forall k l, region m k l -> exists s, scope_in s root /\ describes s k l).
Proof.
  intros alnum src m root H E. destruct (analyze_reads m (members_fine _ _ _ H)) as (t & u & d & c & E' & R).
  rewrite E in E'. injection E' as ->. destruct (regions _ _ _ _ _ R) as [A B]. split.
  - intros s I. destruct (A s I) as (k & l & Rg & K & M). exists k, l. split; [exact Rg|]. split; [exact K|]. exact (reads_directly _ _ _ _ _ M).
  - intros k l Rg. destruct (B k l Rg) as (s & I & K & M). exists s. split; [exact I|]. split; [exact K|]. exact (reads_directly _ _ _ _ _ M).
Qed.
Print Assumptions C63_scopes_describe_regions.
Example scope_tree : exists m,
  parses_to (fun _ => true) (bs "x; class A { f(a) { this.b } } { let c = () => this } function g(){}") (ParseOk m) /\
  analyze m = Done (Scope SK_Function false [bs "x"] [bs "A"; bs "g"]
    [Scope SK_Function true [] [bs "a"] [];
     Scope SK_Block true [] [bs "c"] [];
     Scope SK_Function false [] [] []], []).
Proof. eexists. split; [exists 90; vm_compute; reflexivity|reflexivity]. Qed.

(** ** C64: every list of statements is reported once *)
Theorem C64_statement_lists : forall (m : module) (l : list any), module_preorder m l ->
  Permutation (reported_lists (visit_module m)) (flat_map lists_of l).
Proof. exact rl_module. Qed.
Print Assumptions C64_statement_lists.
Example lists_occur : exists m l1 l2 l3, parses_to (fun _ => true) (bs "if (a) { b; c } switch (d) { case function(){ e }: f }") (ParseOk m) /\
  reported_lists (visit_module m) = [l1; l2; l3] /\ List.length l1 = 2 /\ List.length l2 = 1 /\ List.length l3 = 1.
Proof. do 4 eexists. split; [exists 90; vm_compute; reflexivity|]. split; [reflexivity|]. split; [reflexivity|split; reflexivity]. Qed.
