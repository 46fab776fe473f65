(** C03, C04, C41, C45: reading back generated code. *)
From Coq Require Import List NArith PeanoNat Bool String Lia.
From Coq.Strings Require Import Byte.
From Verif Require Import Bytes Token Lexer SpecTokens SpecChunks SpecTree SpecUtf8 SpecHazard SpecPrec SpecRound SpecPlain
  Ast Parser Codegen ParseFacts RoundTrip PlainFacts PropCodegen PropPrec.
Import ListNotations.
Open Scope nat_scope.
Open Scope list_scope.

(** A module that is one expression. *)
Definition just (e : expression) : module := [Node 0 0 (St_Expression (Node 0 0 e))].

(** ** C03 *)
(** Expressions of the grammar [plain]: whatever their size, code is generated
    for them, it is accepted, and it is the same expression. *)
Theorem C03_plain_expressions_partial : forall (alnum : N -> bool) (e : expression) (minify : bool), plain alnum e ->
  exists s m', codegen (just e) minify = Done s /\ parses_to alnum s (ParseOk m') /\ same_tree m' (just e).
Proof.
  intros alnum e minify P.
  assert (F : fits alnum (just e)) by (apply plain_module_fits; constructor; [now constructor|constructor]).
  destruct (fits_generates _ _ minify F) as (s & E). destruct (round_trip alnum _ minify s F E) as (m' & H & S). eauto.
Qed.
Print Assumptions C03_plain_expressions_partial.

(** The same for every expression, statement and declaration whose nodes satisfy
    the conditions of SpecRound.v (which [plain] trees do, see below). *)
Theorem C03_round_trip_partial : forall (alnum : N -> bool) (m : module) (minify : bool), fits alnum m ->
  exists s m', codegen m minify = Done s /\ parses_to alnum s (ParseOk m') /\ same_tree m' m.
Proof.
  intros alnum m minify F. destruct (fits_generates _ _ minify F) as (s & E).
  destruct (round_trip alnum _ minify s F E) as (m' & H & S). eauto.
Qed.
Print Assumptions C03_round_trip_partial.
Theorem C03_plain_programs_partial : forall (alnum : N -> bool) (m : module) (minify : bool), plain_statements alnum m ->
  exists s m', codegen m minify = Done s /\ parses_to alnum s (ParseOk m') /\ same_tree m' m.
Proof. intros alnum m minify P. apply C03_round_trip_partial. now apply plain_module_fits. Qed.
Print Assumptions C03_plain_programs_partial.

(** The property without conditions is false: for all identifiers, the code for
    [-(-x)] is that of [--x], and the code for [(x ? y : z) ? u : v] is that of
    [x ? y : (z ? u : v)]; both are read back as the latter. *)
Definition node0 (e : expression) : node expression := Node 0 0 e.
Definition ident (s : str) : node expression := node0 (E_Identifier s).
Definition changed (alnum : N -> bool) (e e' : expression) : Prop :=
  forall minify, exists s m', codegen (just e) minify = Done s /\ parses_to alnum s (ParseOk m') /\
    same_tree m' (just e') /\ ~ same_tree m' (just e).
Lemma changes alnum e e' : plain alnum e' -> (forall minify, codegen (just e) minify = codegen (just e') minify) ->
  strip_expression e <> strip_expression e' -> changed alnum e e'.
Proof.
  intros P C N minify. destruct (C03_plain_expressions_partial alnum e' minify P) as (s & m' & E & H & S).
  exists s, m'. rewrite C. split; [exact E|]. split; [exact H|]. split; [exact S|].
  intros S2. apply N. unfold same_tree in *. rewrite S in S2. cbn in S2. injection S2 as S2. now rewrite S2.
Qed.
Theorem C03_round_trip_refuted : forall alnum x y z u v,
  identifier_name alnum x -> identifier_name alnum y -> identifier_name alnum z -> identifier_name alnum u -> identifier_name alnum v ->
  changed alnum (E_Prefix O_Subtraction (node0 (E_Prefix O_Subtraction (ident x)))) (E_Prefix O_Decrement (ident x)) /\
  changed alnum (E_Conditional (node0 (E_Conditional (ident x) (ident y) (ident z))) (ident u) (ident v))
                (E_Conditional (ident x) (ident y) (node0 (E_Conditional (ident z) (ident u) (ident v)))).
Proof.
  intros alnum x y z u v X Y Z U V. split; apply changes.
  - constructor; [cbn; tauto|now constructor|now left].
  - intros minify. unfold codegen. destruct minify; cbn [c_module just c_node c_statement n_item];
      destruct x; reflexivity.
  - discriminate.
  - constructor; try reflexivity; try (now constructor); [constructor; try reflexivity; try (now constructor)|]; cbn; auto.
  - intros minify. unfold codegen. destruct minify; cbn; rewrite ?app_assoc; reflexivity.
  - discriminate.
Qed.
Print Assumptions C03_round_trip_refuted.

(** ** C04 *)
(** Every source that parses to a tree satisfying the conditions is preserved. *)
Theorem C04_round_trip_partial : forall (alnum : N -> bool) (src : str) (m : module) (minify : bool),
  parses_to alnum src (ParseOk m) -> fits alnum m ->
  exists s m', codegen m minify = Done s /\ parses_to alnum s (ParseOk m') /\ same_tree m' m.
Proof. intros alnum src m minify _ F. now apply C03_round_trip_partial. Qed.
Print Assumptions C04_round_trip_partial.

(** ** C41 *)
(** Reading the generated code back and generating again gives the same text;
    generating in the other mode gives the text the first tree has in that mode. *)
Theorem C41_codegen_idempotent : forall (alnum : N -> bool) (m : module) (minify : bool), fits alnum m ->
  exists s m', codegen m minify = Done s /\ parses_to alnum s (ParseOk m') /\ codegen m' minify = Done s /\
    forall other, codegen m' other = codegen m other.
Proof.
  intros alnum m minify F. destruct (C03_round_trip_partial alnum m minify F) as (s & m' & E & H & S).
  exists s, m'. split; [exact E|]. split; [exact H|].
  assert (K : forall other, codegen m' other = codegen m other) by (intros other; now apply C06_codegen_ignores_locations).
  split; [now rewrite K|exact K].
Qed.
Print Assumptions C41_codegen_idempotent.
(** ... for every result of reading back, which is unique. *)
Theorem C41_every_reading : forall (alnum : N -> bool) (m m' : module) (minify : bool) (s : str), fits alnum m ->
  codegen m minify = Done s -> parses_to alnum s (ParseOk m') -> codegen m' minify = Done s.
Proof.
  intros alnum m m' minify s F E H. destruct (C41_codegen_idempotent alnum m minify F) as (s2 & m2 & E2 & H2 & K & _).
  rewrite E in E2. injection E2 as <-. assert (D := parses_det _ _ _ _ H H2). injection D as ->. exact K.
Qed.
Print Assumptions C41_every_reading.

(** ** C45 *)
Theorem C45_modes_agree_partial : forall (alnum : N -> bool) (m : module), fits alnum m ->
  exists short long m1 m2, codegen m true = Done short /\ codegen m false = Done long /\
    parses_to alnum short (ParseOk m1) /\ parses_to alnum long (ParseOk m2) /\ same_tree m1 m2.
Proof.
  intros alnum m F. destruct (C03_round_trip_partial alnum m true F) as (s & m1 & E1 & H1 & S1).
  destruct (C03_round_trip_partial alnum m false F) as (l & m2 & E2 & H2 & S2).
  exists s, l, m1, m2. split; [exact E1|]. split; [exact E2|]. split; [exact H1|]. split; [exact H2|].
  unfold same_tree in *. congruence.
Qed.
Print Assumptions C45_modes_agree_partial.

(** ** The hypotheses are met *)
Ltac number_tac := eexists; first
  [ apply n_plain; first [apply m_zero | apply (m_int _ []); [reflexivity|constructor] | apply (m_int _ [_]); [reflexivity|repeat constructor]] ].
Ltac string_tac := first [apply si_nil | apply si_plain; [discriminate|discriminate|discriminate|string_tac] | apply si_escape; [discriminate|string_tac]].
Ltac chunk_tac := first [apply ti_nil | apply ti_plain; [discriminate|discriminate|discriminate|chunk_tac]].
Ltac quoted_tac := match goal with
  | |- quoted (?q :: ?r) => let i := eval vm_compute in (removelast r) in exists q, i; split; [auto|split; [string_tac|reflexivity]] end.
Ltac ident_tac := apply letter_identifier; reflexivity.
Ltac in_tac := cbn; tauto.
Ltac list_tac := first [apply plain_nil | apply plain_cons; [plain_tac|reflexivity|list_tac]]
with plain_tac := cbn [n_item]; first
  [ apply plain_this
  | apply plain_identifier; ident_tac
  | apply plain_literal; [cbn [literal_fits]; first [exact I | number_tac | quoted_tac]|discriminate]
  | apply plain_array; list_tac
  | apply plain_member; [plain_tac|cbn; tauto|cbn [n_item]; split; [repeat constructor|do 2 eexists; split; reflexivity]]
  | apply plain_index; plain_tac
  | apply plain_call; [plain_tac|reflexivity|list_tac]
  | apply plain_template; [list_tac|reflexivity|repeat (constructor; [cbn [n_item]; chunk_tac|]); constructor]
  | apply plain_assignment; [in_tac|reflexivity|plain_tac|plain_tac]
  | apply plain_binary; [in_tac|plain_tac|plain_tac|first [discriminate | intros _ _; left; reflexivity | intros _ _; right; cbn; lia | cbn; intuition discriminate]]
  | apply plain_prefix; [in_tac|plain_tac|first [left; reflexivity|right; left; reflexivity|right; right; split; [reflexivity|cbn; intuition discriminate]]]
  | apply plain_postfix; [in_tac|reflexivity|plain_tac]
  | apply plain_conditional; [plain_tac|plain_tac|plain_tac|reflexivity|reflexivity|cbn; intuition discriminate|reflexivity|reflexivity]
  | apply plain_sequence; [cbn; lia|list_tac] ].
Ltac option_tac := cbn; first [exact I | plain_tac | ident_tac].
Ltac declarator_tac := cbn; split; [eexists; split; [reflexivity|ident_tac]|first [exact I | split; [plain_tac|reflexivity]]].
Ltac declarators_tac := first [apply Forall_nil | apply Forall_cons; [declarator_tac|declarators_tac]].
Ltac params_tac := first [apply Forall_nil | apply Forall_cons; [eexists; split; [reflexivity|ident_tac]|params_tac]].
Ltac single_tac := do 2 eexists; split; [reflexivity|split; [reflexivity|ident_tac]].
Ltac stmts_tac := cbn [b_body n_item]; first [apply plain_none | apply plain_more; [stmt_tac|stmts_tac]]
with stmt_tac := cbn [n_item]; first
  [ apply plain_expression; plain_tac
  | apply plain_declaration; [discriminate|declarators_tac]
  | apply plain_return; option_tac
  | apply plain_throw; plain_tac
  | apply plain_break; option_tac
  | apply plain_continue; option_tac
  | apply plain_if; [plain_tac|stmt_tac]
  | apply plain_if_else; [plain_tac|stmt_tac|stmt_tac|reflexivity]
  | apply plain_while; [plain_tac|stmt_tac]
  | apply plain_do; [stmt_tac|plain_tac]
  | apply plain_for; [option_tac|option_tac|stmt_tac]
  | eapply plain_for_var; [reflexivity|discriminate|declarators_tac|option_tac|option_tac|stmt_tac]
  | eapply plain_for_expression; [reflexivity|plain_tac|reflexivity|option_tac|option_tac|stmt_tac]
  | eapply plain_for_in; [reflexivity|single_tac|plain_tac|stmt_tac]
  | eapply plain_for_of; [reflexivity|single_tac|plain_tac|stmt_tac]
  | apply plain_block; stmts_tac
  | apply plain_labeled; [ident_tac|stmt_tac]
  | apply plain_function; [ident_tac|params_tac|stmts_tac]
  | eapply plain_try; [reflexivity|eexists; split; [reflexivity|ident_tac]|stmts_tac|stmts_tac]
  | apply plain_switch; [plain_tac|cases_tac] ]
with cases_tac := cbn [b_body n_item]; first [apply plain_no_case | eapply plain_case; [reflexivity|option_tac|stmts_tac|cases_tac]].

Definition program : str := bs (
"var k = (1 + x.y) * -z, q = [1, 'two', this];
function f(a, b) {
  for (let i = 0; i < b.length; i++) {
    if (a[i] === b && !(a in b).c || typeof a == null) return -i; else s += `x${ i }y${ a + ++b }`;
  }
  out: while (true) { if (p) break out; do f(a, (1, 2)[0]); while (q) continue }
  switch (a ? b : c = 2) { case 1: f(g)(h); break; default: throw a - (b - c) - -d }
}
for (var x in y) for (const z of x) try { f(a, 'x\'') } catch (e) { (a, b)[a = b ? c : d] }")%string.
Example C03_example : forall alnum, exists m, parses_to alnum program (ParseOk m) /\ plain_statements alnum m.
Proof.
  intros alnum. eexists. split; [exists 100; vm_compute; reflexivity|]. stmts_tac.
Qed.
(** Conditions beyond [plain]: objects, methods, functions, arrow functions,
    classes, destructuring, imports and regular expressions fit as well. *)
Lemma not_in_b (s : str) l : forallb (fun x => negb (str_eqb s x)) l = true -> ~ In s l.
Proof.
  intros H I. rewrite forallb_forall in H. specialize (H s I). apply negb_true_iff in H.
  assert (E : str_eqb s s = true) by (apply str_eqb_eq; reflexivity). congruence.
Qed.
Lemma word_b s : match s with b :: _ => word_first b | [] => false end = true -> forallb word_byte s = true -> ascii_word s.
Proof.
  intros H1 H2. destruct s as [|b r]; [discriminate|]. split; [apply Forall_forall; apply forallb_forall; exact H2|eauto].
Qed.
Lemma no_stick op c b : first c = Some b -> one_of ["+"; "-"; "/"]%byte b = false -> ~ sticks op c.
Proof. intros F Q [[_ S]|[[_ S]|[_ S]]]; rewrite F in S; injection S as ->; discriminate Q. Qed.
Ltac regex_tac := match goal with |- exists b body flags, _ /\ _ =>
  exists "["%byte, (bs "/]x"), (bs "g"); split; [reflexivity|split; [apply ri_open, ri_slash, ri_close, ri_plain; [cbn; intuition discriminate|apply ri_nil]|split; [cbn; intuition discriminate|repeat constructor]]] end.
Ltac fit := cbn [n_item]; lazymatch goal with
  | |- True => exact I
  | |- _ /\ _ => split; fit
  | |- Forall _ [] => apply Forall_nil
  | |- Forall _ (_ :: _) => apply Forall_cons; fit
  | |- identifier_name _ _ => ident_tac
  | |- ascii_word _ => apply word_b; reflexivity
  | |- key_word _ _ => split; [left; apply word_b; reflexivity|apply not_in_b; reflexivity]
  | |- quoted _ => quoted_tac
  | |- string_inside _ _ => string_tac
  | |- exists more, number _ _ more => number_tac
  | |- element _ => split; apply Nat.leb_le; vm_compute; reflexivity
  | |- _ < _ => apply Nat.ltb_lt; vm_compute; reflexivity
  | |- _ <= _ => apply Nat.leb_le; vm_compute; reflexivity
  | |- @eq bool _ _ => vm_compute; reflexivity
  | |- @eq _ _ _ => vm_compute; reflexivity
  | |- In _ _ => cbn; tauto
  | |- ~ sticks _ _ => eapply no_stick; reflexivity
  | |- _ \/ _ => first [solve [left; fit] | solve [right; fit]]
  | |- exists b body flags, _ /\ _ => regex_tac
  | |- exists _, _ => eexists; fit
  | |- _ <> _ => discriminate
  | |- forall x, [?y] = [x] -> _ => intros ? E; injection E as <-; fit
  | |- _ -> False => first [discriminate | cbn; tauto | cbn; intuition discriminate]
  | |- _ -> _ => intros ?; fit
  | |- ~ _ => first [discriminate | cbn; tauto | cbn; intuition discriminate]
  | |- _ => progress hnf; fit
  end.
Definition modern : str := bs (
"import d, { a as b, c } from 'm'
class A extends B.c { constructor(x, ...y) { this.x = { a, 'k': 1, f(a = 2) { return /[/]x/g }, [k + 1]: [, a] } }
  static get z() { return function (){ } } }
var { p, q } = d, [r, s] = (a, b = 1) => { a(...r) }, t = x => x ? y => 1 : new B")%string.
Example C41_example : forall alnum, exists m, parses_to alnum modern (ParseOk m) /\ fits alnum m.
Proof.
  intros alnum. eexists. split; [exists 100; vm_compute; reflexivity|].
  apply fits_module. repeat (apply Forall_cons || apply Forall_nil).
  all: repeat (apply fits_all_intro; [|cbn; repeat (apply Forall_cons || apply Forall_nil)]).
  all: solve [fit].
Qed.
(** Identifiers and keys that start with a character outside ASCII. *)
Lemma foreign_b alnum s : match s with [a; b] => existsb (byte_eqb a) [xc3; xc4] && byte_in x80 xbf b && alnum ((byte_val a - 192) * 64 + (byte_val b - 128))%N | _ => false end = true ->
  Forall (fun b => word_byte b = true) s /\ foreign_start alnum s.
Proof.
  intros H. destruct s as [|a [|b [|? ?]]]; try discriminate. apply andb_true_iff in H as [H A]. apply andb_true_iff in H as [H1 H2].
  assert (T : tail_byte b) by (unfold byte_in in H2; apply andb_true_iff in H2 as [L U]; apply N.leb_le in L, U; split; assumption).
  assert (D : between xc2 xdf a) by (apply existsb_exists in H1 as (y & [<-|[<-|[]]] & E); apply byte_eqb_eq in E; subst a; split; discriminate).
  split.
  - constructor; [|constructor; [|constructor]]; unfold word_byte.
    + apply existsb_exists in H1 as (y & [<-|[<-|[]]] & E); apply byte_eqb_eq in E; subst a; reflexivity.
    + assert (byte_in x80 xff b = true) as ->; [|apply orb_true_r].
      unfold byte_in in *. apply andb_true_iff in H2 as [L U]. rewrite L. destruct b; vm_compute in U |- *; congruence.
  - split; [exists 1; apply (ch_cons 0 [a; b] []); [now constructor|constructor]|].
    exists a, [b], ((byte_val a - 192) * 64 + (byte_val b - 128))%N. split; [reflexivity|]. split; [|split; [now constructor|exact A]].
    apply existsb_exists in H1 as (y & [<-|[<-|[]]] & E); apply byte_eqb_eq in E; subst a; reflexivity.
Qed.
Definition accents : str := bs "é=[ñ,{é:1}]".
Definition accented (c : N) : bool := (N.eqb c 233 || N.eqb c 241)%bool.
Lemma accented_name a b : existsb (byte_eqb a) [xc3; xc4] && byte_in x80 xbf b && accented ((byte_val a - 192) * 64 + (byte_val b - 128))%N = true ->
  keyword_or_identifier [a; b] = T_Identifier -> identifier_name accented [a; b].
Proof.
  intros H K. destruct (foreign_b accented [a; b] H) as [W F]. split; [|now right]. split; [|exact K].
  exists a, [b]. split; [reflexivity|]. split; [exact W|].
  apply andb_true_iff in H as [H _]. apply andb_true_iff in H as [H _].
  apply existsb_exists in H as (y & [<-|[<-|[]]] & E); apply byte_eqb_eq in E; subst a; reflexivity.
Qed.
Lemma accented_key a b : existsb (byte_eqb a) [xc3; xc4] && byte_in x80 xbf b && accented ((byte_val a - 192) * 64 + (byte_val b - 128))%N = true ->
  ~ In [a; b] not_keys -> key_word accented [a; b].
Proof. intros H N. split; [right; now apply (foreign_b accented [a; b])|exact N]. Qed.
Example C03_example_foreign : exists m, parses_to accented accents (ParseOk m) /\ fits accented m.
Proof.
  eexists. split; [exists 100; vm_compute; reflexivity|].
  apply fits_module. repeat (apply Forall_cons || apply Forall_nil).
  all: repeat (apply fits_all_intro; [|cbn; repeat (apply Forall_cons || apply Forall_nil)]).
  all: try solve [fit].
  1, 2: apply accented_name; reflexivity.
  cbn. split; [|split; apply Nat.leb_le; vm_compute; reflexivity]. left. apply accented_key; [reflexivity|apply not_in_b; reflexivity].
Qed.
