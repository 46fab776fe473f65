(** C79: where the nodes of an accepted source begin and end. *)
From Coq Require Import List NArith Bool Lia Arith String.
From Coq.Strings Require Import Byte.
From Verif Require Import Bytes Token Lexer Ast SpecTree SpecPos SpecEdges Prog Parser EdgeFacts.
Import ListNotations.
Open Scope list_scope.

(** A node of a kind that begins with a keyword, an operator or a bracket begins exactly there. *)
Theorem C79_begins : forall (alnum : N -> bool) (src : str) (m : module) (a : any) (w : str),
  (N.of_nat (List.length src) < 4294967296)%N ->
  parses_to alnum src (ParseOk m) -> in_module a m -> first_word a = Some w -> text_at src (start_of a) w.
Proof. intros alnum src m a w S H I. exact (ed_first _ _ (parse_edges alnum src m a S H I) w). Qed.
Print Assumptions C79_begins.

(** A node of a kind that ends with a keyword, an operator or a bracket ends right after it. *)
Theorem C79_ends : forall (alnum : N -> bool) (src : str) (m : module) (a : any) (w : str),
  (N.of_nat (List.length src) < 4294967296)%N ->
  parses_to alnum src (ParseOk m) -> in_module a m -> last_word a = Some w -> text_before src (end_of a) w.
Proof. intros alnum src m a w S H I. exact (ed_last _ _ (parse_edges alnum src m a S H I) w). Qed.
Print Assumptions C79_ends.

(** Blocks and bodies end right after their closing brace, or with the program. *)
Theorem C79_braces : forall (alnum : N -> bool) (src : str) (m : module) (a : any),
  (N.of_nat (List.length src) < 4294967296)%N ->
  parses_to alnum src (ParseOk m) -> in_module a m -> braced a = true ->
  text_before src (end_of a) (bs "}") \/ program_end src (end_of a).
Proof. intros alnum src m a S H I. exact (ed_braced _ _ (parse_edges alnum src m a S H I)). Qed.
Print Assumptions C79_braces.

(** Holes of arrays take up no room. *)
Theorem C79_holes : forall (alnum : N -> bool) (src : str) (m : module) (a : any),
  (N.of_nat (List.length src) < 4294967296)%N ->
  parses_to alnum src (ParseOk m) -> in_module a m -> hole a = true -> start_of a = end_of a.
Proof. intros alnum src m a S H I. exact (ed_hole _ _ (parse_edges alnum src m a S H I)). Qed.
Print Assumptions C79_holes.

(** A node that begins with another node begins where that one does; one that ends with another node
    ends where that one does; a template spans its pieces. *)
Theorem C79_first_part : forall (alnum : N -> bool) (src : str) (m : module) (a c : any),
  (N.of_nat (List.length src) < 4294967296)%N ->
  parses_to alnum src (ParseOk m) -> in_module a m -> first_part a = Some c -> start_of a = start_of c.
Proof. intros alnum src m a c S H I. exact (ed_first_part _ _ (parse_edges alnum src m a S H I) c). Qed.
Print Assumptions C79_first_part.
Theorem C79_last_part : forall (alnum : N -> bool) (src : str) (m : module) (a c : any),
  (N.of_nat (List.length src) < 4294967296)%N ->
  parses_to alnum src (ParseOk m) -> in_module a m -> last_part a = Some c -> end_of a = end_of c.
Proof. intros alnum src m a c S H I. exact (ed_last_part _ _ (parse_edges alnum src m a S H I) c). Qed.
Print Assumptions C79_last_part.
Theorem C79_templates : forall (alnum : N -> bool) (src : str) (m : module) (a : any) (es : list expr_node) (qs : list (node str)),
  (N.of_nat (List.length src) < 4294967296)%N ->
  parses_to alnum src (ParseOk m) -> in_module a m -> template_of a = Some (Template es qs) ->
  exists q more, qs = q :: more /\ start_of a = n_start q /\ end_of a = n_end (List.last more q).
Proof. intros alnum src m a es qs S H I. exact (ed_template _ _ (parse_edges alnum src m a S H I) es qs). Qed.
Print Assumptions C79_templates.

(** The key of a property or method that is a name, a string or a number lies exactly at its text; that of a getter
    or setter at the word get or set. *)
Theorem C79_keys : forall (alnum : N -> bool) (src : str) (m : module) (a : any) (k : node property_key) (w : str),
  (N.of_nat (List.length src) < 4294967296)%N ->
  parses_to alnum src (ParseOk m) -> in_module a m -> key_word a = Some (k, w) ->
  text_at src (n_start k) w /\ text_before src (n_end k) w.
Proof. intros alnum src m a k w S H I. exact (ed_key _ _ (parse_edges alnum src m a S H I) k w). Qed.
Print Assumptions C79_keys.
(** So the key of a getter is not located at its own name. *)
Theorem C79_getter_refuted : forall alnum : N -> bool, exists m n k f,
  parses_to alnum (bs "class A{get b(){}}") (ParseOk m) /\ in_module (A_Member n) m /\
  n_item n = CM_Method false k MK_Get f /\ n_item k = Key_Literal (bs "b") /\
  source_of (bs "class A{get b(){}}") (A_Key k) = bs "get".
Proof.
  intros alnum. do 4 eexists. split; [exists 100; vm_compute; reflexivity|]. split.
  { eexists. split; [left; reflexivity|]. eapply within_child; [right; left; reflexivity|].
    eapply within_child; [left; reflexivity|]. apply within_refl. }
  split; [reflexivity|]. split; vm_compute; reflexivity.
Qed.
Print Assumptions C79_getter_refuted.

(** An import ends right after the quoted name of the module; one without specifiers is just that name. *)
Theorem C79_imports : forall (alnum : N -> bool) (src : str) (m : module) (a : any) (specs : list (node import_specifier)) (source : str),
  (N.of_nat (List.length src) < 4294967296)%N ->
  parses_to alnum src (ParseOk m) -> in_module a m -> import_of a = Some (specs, source) ->
  exists q, (q = """"%byte \/ q = "'"%byte) /\ text_before src (end_of a) (quoted_name q source) /\
    (specs = [] -> text_at src (start_of a) (quoted_name q source)).
Proof. intros alnum src m a specs source S H I. exact (ed_import _ _ (parse_edges alnum src m a S H I) specs source). Qed.
Print Assumptions C79_imports.
(** So an import without specifiers does not begin with the word import. *)
Theorem C79_import_refuted : forall alnum : N -> bool, exists m n,
  parses_to alnum (bs "import 'a';") (ParseOk m) /\ in_module (A_Stmt n) m /\
  n_item n = St_Import [] (bs "a") /\ source_of (bs "import 'a';") (A_Stmt n) = bs "'a'".
Proof.
  intros alnum. do 2 eexists. split; [exists 100; vm_compute; reflexivity|]. split.
  { eexists. split; [left; reflexivity|]. apply within_refl. }
  split; vm_compute; reflexivity.
Qed.
Print Assumptions C79_import_refuted.

(** The other kinds of nodes do not end with their last word: [a[b]] in [a[b]+c] ends after the plus sign. *)
Theorem C79_overrun_refuted : forall alnum : N -> bool, exists m n o p,
  parses_to alnum (bs "a[b]+c") (ParseOk m) /\ in_module (A_Expr n) m /\ n_item n = E_ComputedMember o p /\
  source_of (bs "a[b]+c") (A_Expr n) = bs "a[b]+".
Proof.
  intros alnum. do 4 eexists. split; [exists 100; vm_compute; reflexivity|]. split.
  { eexists. split; [left; reflexivity|]. eapply within_child; [left; reflexivity|].
    eapply within_child; [left; reflexivity|]. apply within_refl. }
  split; [reflexivity|]. vm_compute. reflexivity.
Qed.
Print Assumptions C79_overrun_refuted.

Definition samples79 : str := bs "if (a) { f(this, [], `x${1}y`) } else switch (b) { case 1: default: c++ }
class A { static m() { return } }".
Example C79_nonvacuous : forall alnum : N -> bool, exists m,
  parses_to alnum samples79 (ParseOk m) /\
  exists a, in_module a m /\ first_word a = Some (bs "if") /\ start_of a = 0%N.
Proof.
  intros alnum. eexists. split; [exists 300; vm_compute; reflexivity|].
  eexists. split; [eexists; split; [left; reflexivity|]; apply within_refl|]. split; vm_compute; reflexivity.
Qed.
