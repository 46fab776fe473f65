(** Property C68: programs one after the other. *)
From Coq Require Import List NArith Bool Lia String.
From Coq.Strings Require Import Byte.
From Verif Require Import Bytes Token Lexer Ast Parser SpecSyntax SpecReading ConcatGram ConcatLex PropSyntax PropGap.
Import ListNotations.
Open Scope nat_scope.
Open Scope list_scope.

(** The lexemes of the source [src] are [l] and the end of the program, which is not reached before. *)
Definition lexemes_of (alnum : N -> bool) (src : str) (l : list lexeme) (e : lexeme) : Prop :=
  ~ In T_EndOfProgram (map fst l) /\ exists lx, lexer_new alnum src = Done lx /\ reading alnum lx (l ++ [e]).
(** The last of these lexemes. *)
Definition final (l : list lexeme) (x : lexeme) : Prop := exists l0, l = l0 ++ [x].
(** The first lexeme of a source. *)
Definition begins (alnum : N -> bool) (src : str) (x : lexeme) : Prop := exists lx, lexer_new alnum src = Done lx /\ current lx = x.

Lemma lexemes_inner alnum src l e m : lexemes_of alnum src l e -> program (l ++ [e]) m -> Forall (fun x => inner (fst x)) l.
Proof.
  intros [N _] P. inversion P as [s k m1 H E1 E2]. apply app_inj_tail in E1 as [<- _]. assert (F := statements_sound _ _ _ H). rewrite Forall_forall in *. intros x I. destruct (F x I) as [F1 F2].
  split; [exact F1|]. split; [exact F2|]. intros E. apply N. rewrite <- E. now apply in_map.
Qed.
Lemma program_end ls m : program ls m -> exists l s, ls = l ++ [(T_EndOfProgram, s)] /\ statements (T_EndOfProgram, s) l m.
Proof. destruct 1 as [s l m H]. eauto. Qed.
Lemma same_app m1 m2 n1 n2 : same_tree m1 n1 -> same_tree m2 n2 -> same_tree (m1 ++ m2) (n1 ++ n2).
Proof. unfold same_tree, strip_module. intros E1 E2. rewrite !map_app. now rewrite E1, E2. Qed.
Lemma remarked_reword ls ls' : remarked ls ls' -> exists x, ls' = reword ls x.
Proof. destruct 1 as [t s x x' l]. now exists x'. Qed.
Lemma final_ending l x : final l x -> l <> [] /\ ending l = x.
Proof. intros [l0 ->]. split; [destruct l0; discriminate|]. now rewrite ending_app. Qed.
(** A line feed before a program changes nothing. *)
Lemma line_program alnum b m lx : lexer_new alnum b = Done lx -> parses_to alnum b (ParseOk m) -> exists lx' ls, lexer_new alnum (x0a :: b) = Done lx' /\ reading alnum lx' ls /\ program ls m.
Proof.
  intros E H. destruct (C62_accepted_is_program _ _ _ _ E H) as (ls & R & P). destruct (new_line _ _ _ _ E R) as (lx' & ls' & E' & R' & M). exists lx', ls'. split; [exact E'|]. split; [exact R'|].
  destruct (remarked_reword _ _ M) as [x ->]. now apply program_reword.
Qed.
Lemma accepted_new alnum b m : parses_to alnum b (ParseOk m) -> exists lx, lexer_new alnum b = Done lx.
Proof. intros [n H]. unfold parse_fuel in H. destruct (lexer_new alnum b) as [lx| | |] eqn:E; try discriminate. eauto. Qed.
Lemma reading_begins alnum lx x ls : reading alnum lx (x :: ls) -> x = current lx \/ lx_token lx = T_OperatorDivision \/ lx_token lx = T_BraceClose.
Proof. inversion 1; auto. Qed.
Lemma concatenated alnum a b l e m1 lxb lb m2 : ~ In x00 a -> lexemes_of alnum a l e -> program (l ++ [e]) m1 ->
  lexer_new alnum (x0a :: b) = Done lxb -> reading alnum lxb lb -> program lb m2 ->
  (forall x r, lb = x :: r -> fst x <> T_Else -> apart l x \/ l = []) ->
  exists m, parses_to alnum (a ++ x0a :: b) (ParseOk m) /\ same_tree (m1 ++ m2) m.
Proof.
  intros Nn La P1 Eb Rb P2 Ap. assert (In_ := lexemes_inner _ _ _ _ _ La P1). destruct La as (Ne & lxa & Ea & Ra).
  destruct (new_app alnum a b Nn lxb lb Eb Rb lxa l e Ea Ra In_) as (lx & E & R).
  destruct (program_end _ _ P2) as (l2 & s2 & -> & S2).
  assert (P : program (l ++ l2 ++ [(T_EndOfProgram, s2)]) (m1 ++ m2)).
  { eapply programs_app; [exact P1|exact P2|]. destruct l2 as [|y l2]; cbn [next].
    - apply (Ap _ []); [reflexivity|discriminate].
    - apply (Ap _ (l2 ++ [(T_EndOfProgram, s2)])); [reflexivity|]. destruct y as [ty wy]. exact (statements_first _ _ _ S2 ltac:(discriminate)). }
  destruct (C61_programs_accepted _ _ _ _ _ E R P) as (m & H & Q). eauto.
Qed.

(** C68, first part: a line feed before a program changes nothing. *)
Theorem C68_leading_line : forall (alnum : N -> bool) (b : str) (m : module),
  parses_to alnum b (ParseOk m) -> exists m', parses_to alnum (x0a :: b) (ParseOk m') /\ same_tree m m'.
Proof.
  intros alnum b m H. destruct (accepted_new _ _ _ H) as [lx E]. destruct (line_program _ _ _ _ E H) as (lx' & ls & E' & R & P). exact (C61_programs_accepted _ _ _ _ _ E' R P).
Qed.
Print Assumptions C68_leading_line.
(** Second part: a program [a] whose last token is a semicolon, or which has no tokens at all, a line feed, and a
    program [b] together are a program, with the statements of both.  [program (l ++ [e]) m1] says that [a] is accepted
    with the tree [m1] (properties C61 and C62), and [lexemes_of] that no block of [a] is closed by the end of the source. *)
Theorem C68_after_semicolon : forall (alnum : N -> bool) (a b : str) (l : list lexeme) (e : lexeme) (m1 m2 : module),
  ~ In x00 a -> lexemes_of alnum a l e -> program (l ++ [e]) m1 -> parses_to alnum b (ParseOk m2) ->
  l = [] \/ (exists s, final l (T_Semicolon, s)) ->
  exists m, parses_to alnum (a ++ x0a :: b) (ParseOk m) /\ same_tree (m1 ++ m2) m.
Proof.
  intros alnum a b l e m1 m2 Nn La P1 Hb F. destruct (accepted_new _ _ _ Hb) as [lx E]. destruct (line_program _ _ _ _ E Hb) as (lx' & ls & E' & R & P).
  eapply concatenated; [exact Nn|exact La|exact P1|exact E'|exact R|exact P|]. intros x r _ Nx. destruct F as [->|[s F]]; [now right|]. destruct (final_ending _ _ F) as [F1 F2].
  left. split; [exact Nx|]. left. split; [exact F1|]. now rewrite F2.
Qed.
Print Assumptions C68_after_semicolon.
(** Third part: the same for a program [a] that need not end with a semicolon, if the first token of [b] is marked as one
    before which a semicolon can be left out and cannot continue an expression. *)
Theorem C68_after_line : forall (alnum : N -> bool) (a b : str) (l : list lexeme) (e : lexeme) (m1 m2 : module) (x : lexeme),
  ~ In x00 a -> lexemes_of alnum a l e -> program (l ++ [e]) m1 -> parses_to alnum b (ParseOk m2) ->
  begins alnum (x0a :: b) x -> w_break (snd x) = true -> ends 0 x -> fst x <> T_BraceClose ->
  exists m, parses_to alnum (a ++ x0a :: b) (ParseOk m) /\ same_tree (m1 ++ m2) m.
Proof.
  intros alnum a b l e m1 m2 x Nn La P1 Hb (lx0 & E0 & C0) B Ex Nb. destruct (accepted_new _ _ _ Hb) as [lx E]. destruct (line_program _ _ _ _ E Hb) as (lx' & ls & E' & R & P).
  rewrite E' in E0. injection E0 as <-.
  eapply concatenated; [exact Nn|exact La|exact P1|exact E'|exact R|exact P|]. intros y r -> Ny. left. split; [exact Ny|]. right.
  destruct (reading_begins _ _ _ _ R) as [->|[D|D]].
  - rewrite C0. split; assumption.
  - exfalso. rewrite <- C0 in Ex. unfold current in Ex. rewrite D in Ex. destruct Ex as [Ex|[[Ex _]|[Ex _]]]; [apply Ex; cbn; tauto|cbn in Ex; intuition discriminate|discriminate Ex].
  - exfalso. apply Nb. rewrite <- C0. exact D.
Qed.
Print Assumptions C68_after_line.

(** ** Cases *)
Definition name1 (s : string) (x : bool) : lexeme := (T_Identifier, wd s x).
Lemma name_program s : program [name1 s false; (T_EndOfProgram, Word [] true)] [nd (St_Expression (name s))].
Proof.
  apply (pg_program _ [_]). apply (ss_cons _ [_] []); [|constructor]. apply (st_expression _ false [_] []); [|cbn; intuition discriminate|now apply se_none|ending].
  eapply weak; [|apply name_expr]; reflexivity.
Qed.
Lemma name_semi_program s : program [name1 s false; (T_Semicolon, wd ";" false); (T_EndOfProgram, Word [] true)] [nd (St_Expression (name s))].
Proof.
  apply (pg_program _ [_; _]). apply (ss_cons _ [_; _] []); [|constructor]. apply (st_expression _ false [_] [_]); [|cbn; intuition discriminate|apply se_some|ending].
  eapply weak; [|apply name_expr]; reflexivity.
Qed.
(** [a; // no] and a parenthesised call: with the semicolon nothing of [b] continues [a]. *)
Example C68_semicolon_case : exists m, parses_to letters (bs "a; // no" ++ x0a :: bs "(b)(c)") (ParseOk m) /\ List.length m = 2.
Proof.
  destruct (parse_fuel letters 60 (bs "(b)(c)")) as [[m2|errs]| | |] eqn:H; try (vm_compute in H; discriminate H).
  assert (L : List.length m2 = 1) by (vm_compute in H; injection H as <-; reflexivity).
  destruct (C68_after_semicolon letters (bs "a; // no") (bs "(b)(c)") [name1 "a" false; (T_Semicolon, wd ";" false)] (T_EndOfProgram, Word [] true) [nd (St_Expression (name "a"))] m2) as (m & P & Q).
  - cbn. intuition discriminate.
  - split; [cbn; intuition discriminate|]. eexists. split; [vm_compute; reflexivity|]. read_on.
  - apply name_semi_program.
  - now exists 60.
  - right. eexists. now exists [name1 "a" false].
  - exists m. split; [exact P|]. apply (f_equal (@List.length _)) in Q. unfold strip_module in Q. rewrite !map_length, app_length, L in Q. now symmetry.
Qed.
(** Without a semicolon, before [++b]. *)
Example C68_line_case : exists m, parses_to letters (bs "a" ++ x0a :: bs "++b") (ParseOk m) /\ List.length m = 2.
Proof.
  destruct (parse_fuel letters 60 (bs "++b")) as [[m2|errs]| | |] eqn:H; try (vm_compute in H; discriminate H).
  assert (L : List.length m2 = 1) by (vm_compute in H; injection H as <-; reflexivity).
  destruct (C68_after_line letters (bs "a") (bs "++b") [name1 "a" false] (T_EndOfProgram, Word [] true) [nd (St_Expression (name "a"))] m2 (T_OperatorIncrement, wd "++" true)) as (m & P & Q).
  - cbn. intuition discriminate.
  - split; [cbn; intuition discriminate|]. eexists. split; [vm_compute; reflexivity|]. read_on.
  - apply name_program.
  - now exists 60.
  - eexists. split; vm_compute; reflexivity.
  - reflexivity.
  - right. left. cbn. auto.
  - discriminate.
  - exists m. split; [exact P|]. apply (f_equal (@List.length _)) in Q. unfold strip_module in Q. rewrite !map_length, app_length, L in Q. now symmetry.
Qed.
(** The hypotheses are needed: [(b)] continues [a], a comment hides the line break, and a block left open takes what follows. *)
Example C68_continued : exists m, parses_to letters (bs "a" ++ x0a :: bs "(b)") (ParseOk m) /\ List.length m = 1.
Proof.
  destruct (parse_fuel letters 60 (bs "a" ++ x0a :: bs "(b)")) as [[m|errs]| | |] eqn:H; try (vm_compute in H; discriminate H).
  exists m. split; [now exists 60|]. vm_compute in H. injection H as <-. reflexivity.
Qed.
Example C68_comment : exists m errors, parses_to letters (bs "/**/b") (ParseOk m) /\ parses_to letters (bs "a" ++ x0a :: bs "/**/b") (ParseErr errors).
Proof. do 2 eexists. split; exists 60; vm_compute; reflexivity. Qed.
Example C68_open_block : exists m, parses_to letters (bs "{a;") (ParseOk m) /\ exists m', parses_to letters (bs "{a;" ++ x0a :: bs "b") (ParseOk m') /\ List.length m' = 1.
Proof.
  eexists. split; [exists 60; vm_compute; reflexivity|].
  destruct (parse_fuel letters 60 (bs "{a;" ++ x0a :: bs "b")) as [[m|errs]| | |] eqn:H; try (vm_compute in H; discriminate H).
  exists m. split; [now exists 60|]. vm_compute in H. injection H as <-. reflexivity.
Qed.
