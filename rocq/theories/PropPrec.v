(** C01 and C02: the grouping of chains of binary operators. *)
From Coq Require Import List NArith PeanoNat Bool String Lia.
From Coq.Strings Require Import Byte.
From Verif Require Import Bytes Token Lexer SpecLexer SpecTokens SpecPrec Ast Prog Parser ParseFacts Chain.
Import ListNotations.
Open Scope nat_scope.
Open Scope list_scope.

(** C01.  A chain of identifiers and binary operators, with any white space
    (line breaks too) between them, is accepted as one expression statement; its
    tree reads as the chain, and is grouped by the table [BINARY], to the left
    among operators of one level. *)
Theorem C01_chains_parse_grouped : forall alnum ws0 wsn x0 ls,
  Forall white ws0 -> Forall white wsn -> identifier_name alnum x0 -> Forall (link_ok alnum) ls ->
  exists a b e, parses_to alnum (ws0 ++ chain_text x0 ls ++ wsn) (ParseOk [Node a b (St_Expression e)]) /\
    reads_as (n_item e) x0 (chain_reading ls) /\ grouped (n_item e).
Proof. exact chain_parses. Qed.
Print Assumptions C01_chains_parse_grouped.

(** There is only one such tree, up to locations. *)
Theorem C01_grouped_tree_unique : forall alnum x0 ls e1 e2, Forall (link_ok alnum) ls ->
  reads_as e1 x0 (chain_reading ls) -> reads_as e2 x0 (chain_reading ls) -> grouped e1 -> grouped e2 ->
  strip_expression e1 = strip_expression e2.
Proof.
  intros alnum x0 ls e1 e2 OK R1 R2 G1 G2. apply (grouped_unique e1 G1 e2 x0 (chain_reading ls)); auto.
  intros op x I. apply in_map_iff in I as (l & E & I). injection E as <- <-.
  rewrite Forall_forall in OK. destruct (OK l I) as (_ & _ & _ & H & _). eauto.
Qed.
Print Assumptions C01_grouped_tree_unique.

(** The hypotheses hold of a chain that mixes levels, words and line breaks. *)
Definition sample : list link :=
  [ Link [] (bs "||") [] (bs "b") O_LogicalOr 1;
    Link [x0a] (bs "in") (bs " ") (bs "c_1") O_In 7;
    Link (bs " ") (bs "*") (bs " ") (bs "$d") O_Multiplication 10;
    Link [] (bs "-") (bs "  ") (bs "e") O_Subtraction 9 ]%string.
Lemma letter_identifier alnum s : match s with b :: _ => word_first b | [] => false end = true ->
  forallb word_byte s = true -> keyword_or_identifier s = T_Identifier -> identifier_name alnum s.
Proof.
  intros H1 H2 H3. destruct s as [|b r]; [discriminate|]. split; [|left; exists b, r; auto]. split; [|exact H3].
  exists b, r. split; [reflexivity|]. split; [apply Forall_forall; apply forallb_forall; exact H2|].
  revert H1. destruct b; vm_compute; congruence.
Qed.
Lemma white_b s : forallb (fun b => ((1 <=? byte_val b) && (byte_val b <=? 32))%N%bool) s = true -> Forall white s.
Proof.
  intros H. apply Forall_forall. intros b I. rewrite forallb_forall in H. specialize (H b I).
  apply andb_true_iff in H as [H1 H2]. apply N.leb_le in H1, H2. split; assumption.
Qed.
Lemma sample_ok alnum : Forall (link_ok alnum) sample.
Proof.
  assert (B : forall s op n, existsb (fun x => str_eqb (fst (fst x)) s && operator_eqb (snd (fst x)) op && (snd x =? n)) BINARY = true -> In (s, op, n) BINARY).
  { intros s op n H. apply existsb_exists in H as ([[s' op'] n'] & I & E). cbn [fst snd] in E.
    apply andb_true_iff in E as [E E3]. apply andb_true_iff in E as [E1 E2].
    apply str_eqb_eq in E1. apply operator_eqb_eq in E2. apply Nat.eqb_eq in E3. now subst. }
  repeat apply Forall_cons; try apply Forall_nil; (split; [apply white_b; reflexivity|]); (split; [apply white_b; reflexivity|]);
    (split; [apply letter_identifier; reflexivity|]); (split; [apply B; vm_compute; reflexivity|]); cbn [l_op l_before l_after].
  all: try (split; discriminate).
  all: intros (b & r & E & H & _); injection E as <- <-; inversion H as [|? ? W _]; vm_compute in W; discriminate W.
Qed.
Example C01_example : exists a b e,
  parses_to (fun _ => false) (bs "a||b" ++ [x0a] ++ bs "in c_1 * $d-  e") (ParseOk [Node a b (St_Expression e)]) /\
  reads_as (n_item e) (bs "a") (chain_reading sample) /\ grouped (n_item e).
Proof.
  apply (C01_chains_parse_grouped (fun _ => false) [] [] (bs "a") sample); auto.
  - apply letter_identifier; reflexivity.
  - apply sample_ok.
Qed.

(** C02 is false: whatever the identifiers, [x ** y ** z] groups to the left. *)
Definition unlocated (e : expression) : node expression := Node 0 0 e.
Definition exponent (l r : expression) : expression := E_Binary O_Exponent (unlocated l) (unlocated r).
Theorem C02_exponent_right_assoc_refuted : forall alnum x y z,
  identifier_name alnum x -> identifier_name alnum y -> identifier_name alnum z ->
  exists a b e, parses_to alnum (x ++ bs "**" ++ y ++ bs "**" ++ z) (ParseOk [Node a b (St_Expression e)]) /\
    strip_expression (n_item e) = exponent (exponent (E_Identifier x) (E_Identifier y)) (E_Identifier z) /\
    strip_expression (n_item e) <> exponent (E_Identifier x) (exponent (E_Identifier y) (E_Identifier z)).
Proof.
  intros alnum x y z X Y Z.
  assert (L : forall w, identifier_name alnum w -> link_ok alnum (Link [] (bs "**") [] w O_Exponent 11)).
  { intros w W. split; [constructor|]. split; [constructor|]. split; [exact W|]. split.
    - unfold BINARY. apply in_map_iff. exists ("**"%string, O_Exponent, 11). split; [reflexivity|]. cbn. tauto.
    - cbn [l_op l_before l_after]. intros (b & r & E & H & _). injection E as <- <-. inversion H as [|? ? W' _]. vm_compute in W'. discriminate W'. }
  set (ls := [Link [] (bs "**") [] y O_Exponent 11; Link [] (bs "**") [] z O_Exponent 11]).
  assert (OK : Forall (link_ok alnum) ls) by (constructor; [|constructor]; auto).
  destruct (C01_chains_parse_grouped alnum [] [] x ls) as (a & b & e & H & R & G); auto.
  cbn [app] in H. rewrite app_nil_r in H. unfold chain_text, ls, link_text in H.
  cbn [flat_map l_before l_op l_after l_name app] in H. rewrite app_nil_r, <- app_assoc in H.
  exists a, b, e. split; [exact H|].
  set (w := exponent (exponent (E_Identifier x) (E_Identifier y)) (E_Identifier z)).
  assert (S : strip_expression (n_item e) = strip_expression w).
  { apply (C01_grouped_tree_unique alnum x ls); auto.
    - apply (ra_binary O_Exponent _ _ x [(O_Exponent, y)] z []); [|constructor].
      apply (ra_binary O_Exponent _ _ x [] y []); constructor.
    - assert (BB : forall s s' n n', In (s, O_Exponent, n) BINARY -> In (s', O_Exponent, n') BINARY -> n <= n').
      { intros s s' n n' I I'. rewrite (binary_prec _ _ _ _ _ I I'). auto. }
      constructor; cbn; auto; constructor; cbn; auto; constructor. }
  change (strip_expression w) with w in S. rewrite S. split; [reflexivity|]. discriminate.
Qed.
Print Assumptions C02_exponent_right_assoc_refuted.
