(** C61, C62: a source is accepted exactly if it is a program of the grammar, and with that tree. *)
From Coq Require Import List NArith Bool Lia String.
From Coq.Strings Require Import Byte.
From Verif Require Import Bytes Token Lexer Ast Prog Parser ParseFacts SpecSyntax SpecReading CompStream SoundRun PropGap.
Import ListNotations.
Open Scope nat_scope.
Open Scope list_scope.

(** C61: if the lexemes of a source make up a program of the grammar, [parse] accepts the source and returns the program's
    tree (up to positions). *)
Theorem C61_programs_accepted : forall (alnum : N -> bool) (src : str) (lx : lexer) (ls : list lexeme) (m : module),
  lexer_new alnum src = Done lx -> reading alnum lx ls -> program ls m -> exists m', parses_to alnum src (ParseOk m') /\ same_tree m m'.
Proof. exact program_accepted. Qed.
Print Assumptions C61_programs_accepted.

(** C62: conversely, the lexemes of every source that [parse] accepts make up a program of the grammar, the one whose tree it returns. *)
Theorem C62_accepted_is_program : forall (alnum : N -> bool) (src : str) (lx : lexer) (m : module),
  lexer_new alnum src = Done lx -> parses_to alnum src (ParseOk m) -> exists ls, reading alnum lx ls /\ program ls m.
Proof. exact accepted_reading. Qed.
Print Assumptions C62_accepted_is_program.
(** Both together. *)
Theorem C62_exactly : forall (alnum : N -> bool) (src : str) (lx : lexer) (m : module), lexer_new alnum src = Done lx ->
  ((exists m', parses_to alnum src (ParseOk m') /\ same_tree m m') <-> (exists ls m', reading alnum lx ls /\ program ls m' /\ same_tree m m')).
Proof.
  intros alnum src lx m E. split.
  - intros (m' & H & Q). destruct (accepted_reading _ _ _ _ E H) as (ls & R & Pg). exists ls, m'. auto.
  - intros (ls & m' & R & Pg & Q). destruct (program_accepted _ _ _ _ _ E R Pg) as (m2 & H & Q2). exists m2. split; [exact H|]. unfold same_tree in *. congruence.
Qed.
Print Assumptions C62_exactly.

Lemma parses_one alnum src r1 r2 : parses_to alnum src r1 -> parses_to alnum src r2 -> r1 = r2.
Proof.
  intros [n1 H1] [n2 H2]. assert (G1 := parse_more _ _ _ _ _ (PeanoNat.Nat.le_max_l n1 n2) H1 ltac:(discriminate)). assert (G2 := parse_more _ _ _ _ _ (PeanoNat.Nat.le_max_r n1 n2) H2 ltac:(discriminate)). congruence.
Qed.
(** The grammar is unambiguous: however the slashes and braces of a source are read, there is at most one tree. *)
Theorem C61_unambiguous : forall (alnum : N -> bool) (src : str) (lx : lexer) (ls1 ls2 : list lexeme) (m1 m2 : module),
  lexer_new alnum src = Done lx -> reading alnum lx ls1 -> program ls1 m1 -> reading alnum lx ls2 -> program ls2 m2 -> same_tree m1 m2.
Proof.
  intros alnum src lx ls1 ls2 m1 m2 E R1 P1 R2 P2. destruct (program_accepted _ _ _ _ _ E R1 P1) as (n1 & H1 & S1), (program_accepted _ _ _ _ _ E R2 P2) as (n2 & H2 & S2).
  assert (Q := parses_one _ _ _ _ H1 H2). injection Q as <-. unfold same_tree in *. congruence.
Qed.
Print Assumptions C61_unambiguous.
(** What is rejected is not a program of the grammar. *)
Theorem C61_rejected_not_program : forall (alnum : N -> bool) (src : str) (lx : lexer) (ls : list lexeme) (m : module) (errors : list error),
  lexer_new alnum src = Done lx -> parses_to alnum src (ParseErr errors) -> reading alnum lx ls -> ~ program ls m.
Proof.
  intros alnum src lx ls m errors E H R P. destruct (program_accepted _ _ _ _ _ E R P) as (n & H1 & _). assert (Q := parses_one _ _ _ _ H H1). discriminate Q.
Qed.
Print Assumptions C61_rejected_not_program.

(** ** Cases *)
Ltac read_on := repeat first [apply rd_end; vm_compute; reflexivity | eapply rd_next; [vm_compute; reflexivity|]].
Definition nd {A : Set} (a : A) : node A := Node 0 0 a.
Definition wd (s : string) (b : bool) : word := Word (bs s) b.
(** The division [a / b++], a line break, and [if (c) x => d; else e]; both semicolons that are missing can be left out. *)
Definition small : str := bs "a / b++" ++ x0a :: bs "if (c) x => d; else e".
Definition small_lexemes : list lexeme :=
  [(T_Identifier, wd "a" false); (T_OperatorDivision, wd "/" false); (T_Identifier, wd "b" false); (T_OperatorIncrement, wd "++" false);
   (T_If, wd "if" true); (T_ParenOpen, wd "(" false); (T_Identifier, wd "c" false); (T_ParenClose, wd ")" true);
   (T_Identifier, wd "x" false); (T_OperatorFatArrow, wd "=>" false); (T_Identifier, wd "d" false); (T_Semicolon, wd ";" false);
   (T_Else, wd "else" false); (T_Identifier, wd "e" false); (T_EndOfProgram, Word [] true)].
Definition name (s : string) : node expression := nd (E_Identifier (bs s)).
Definition small_tree : module :=
  [nd (St_Expression (nd (E_Binary O_Division (name "a") (nd (E_Postfix O_Increment (name "b"))))));
   nd (St_If (name "c") (nd (St_Expression (nd (E_Arrow [nd (Pat_Identifier (bs "x"))] (AB_Expression (name "d")))))) (Some (nd (St_Expression (name "e")))))].
Example C61_small_reading : exists lx, lexer_new letters small = Done lx /\ reading letters lx small_lexemes.
Proof. eexists. split; [vm_compute; reflexivity|]. unfold small_lexemes. read_on. Qed.
Lemma name_expr s b : expr 18 false [(T_Identifier, wd s b)] (n_item (name s)).
Proof. exact (x_atom _ _ _ (at_name (wd s b))). Qed.
Lemma weak n m o l e : Nat.leb n m = true -> expr m o l e -> expr n o l e.
Proof. intros L. apply x_weaker. now apply PeanoNat.Nat.leb_le. Qed.
Ltac ending := left; cbn; intuition discriminate.
Example C61_small_program : program small_lexemes small_tree.
Proof.
  apply (pg_program _ (removelast small_lexemes)). cbn [removelast small_lexemes].
  apply (ss_cons _ (firstn 4 small_lexemes) (firstn 10 (skipn 4 small_lexemes))); cbn [firstn skipn small_lexemes].
  - cbn [next nd n_item]. apply (st_expression _ false [_; _; _; _] []); [|cbn; intuition discriminate|now apply se_none|ending].
    apply (weak 0 14); [reflexivity|]. apply (x_infix _ _ _ 14 false [_] [_; _]); [cbn; tauto|eapply weak; [|apply name_expr]; reflexivity|].
    apply (weak _ 17); [reflexivity|]. apply (x_postfix _ _ _ [_]); [cbn; tauto|left; eexists; reflexivity|reflexivity|]. eapply weak; [|apply name_expr]; reflexivity.
  - apply (ss_cons _ [_; _; _; _; _; _; _; _; _; _] []); [|constructor]. cbn [next nd n_item].
    apply (st_if_else _ false _ _ _ _ [_] [_; _; _; _] [_]).
    + eapply weak; [|apply name_expr]; reflexivity.
    + cbn [nd n_item]. apply (st_expression _ true [_; _; _] [_]); [|cbn; intuition discriminate|apply se_some|ending].
      apply (weak 0 17); [reflexivity|]. apply (x_arrow true [_] [_] _ (E_Identifier (bs "x"))).
      * eapply weak; [|apply name_expr]; reflexivity.
      * apply pa_one. constructor.
      * apply (to_expr false); [|cbn; intuition discriminate]. eapply weak; [|apply name_expr]; reflexivity.
    + cbn [nd n_item]. apply (st_expression _ false [_] []); [|cbn; intuition discriminate|now apply se_none|ending]. eapply weak; [|apply name_expr]; reflexivity.
Qed.
Example C61_small_accepted : exists m, parses_to letters small (ParseOk m) /\ same_tree small_tree m.
Proof. destruct C61_small_reading as (lx & E & R). exact (C61_programs_accepted _ _ _ _ _ E R C61_small_program). Qed.
(** Where a semicolon cannot be left out the source is rejected. *)
Example C61_no_semicolon : exists errors lx, lexer_new letters (bs "a b") = Done lx /\ parses_to letters (bs "a b") (ParseErr errors) /\
  reading letters lx [(T_Identifier, wd "a" false); (T_Identifier, wd "b" false); (T_EndOfProgram, Word [] true)].
Proof. do 2 eexists. split; [vm_compute; reflexivity|]. split; [exists 60; vm_compute; reflexivity|]. read_on. Qed.
(** An accepted source in which a slash, a template and a line break matter. *)
Definition tricky : str := bs "x=/a/" ++ x0a :: bs "y=`${{}}`" ++ x0a :: bs "++z".
Example C62_tricky : exists lx m ls, lexer_new letters tricky = Done lx /\ parses_to letters tricky (ParseOk m) /\ List.length m = 3 /\ reading letters lx ls /\ program ls m.
Proof.
  destruct (lexer_new letters tricky) as [lx| | |] eqn:E; [|vm_compute in E; discriminate E..].
  destruct (parse_fuel letters 60 tricky) as [[m|errs]| | |] eqn:H; try (vm_compute in H; discriminate H).
  assert (L : List.length m = 3) by (vm_compute in H; injection H as <-; reflexivity).
  destruct (C62_accepted_is_program letters tricky lx m E (ex_intro _ 60 H)) as (ls & R & Pg).
  exists lx, m, ls. split; [reflexivity|]. split; [now exists 60|]. auto.
Qed.
