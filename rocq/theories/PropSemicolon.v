(** Property C78: a semicolon on a line of its own separates any two programs. *)
From Coq Require Import List NArith Bool Lia String.
From Coq.Strings Require Import Byte.
From Verif Require Import Bytes Token Lexer Ast Parser SpecLexer StateFacts LexProps LexerFacts ConsumeFacts SpecSyntax SpecReading ConcatGram ConcatLex PropSyntax PropGap PropConcat PropWrap.
Import ListNotations.
Open Scope nat_scope.
Open Scope list_scope.

(** ** In the grammar *)
Lemma declarator_shift nx nx' l d : declarator_of nx l d -> ends 1 nx' -> declarator_of nx' l d.
Proof. intros H E. destruct H; [now constructor|econstructor; eassumption]. Qed.
Lemma declarators_shift nx l ds : declarators nx l ds -> forall nx', ends 1 nx' -> declarators nx' l ds.
Proof.
  induction 1 as [nx l d D|nx s l1 l2 d ds D Ds IH]; intros nx' E; [constructor; eapply declarator_shift; eassumption|]. apply ds_cons; [exact D|auto].
Qed.
Definition semicolon_of (w : word) : lexeme := (T_Semicolon, w).
Lemma ends_semicolon n w : n <= 1 -> ends n (semicolon_of w).
Proof. intros L. destruct n as [|[|n]]; [..|lia]; left; cbn; intuition discriminate. Qed.
(** A semicolon after a statement is its own, if it has none and could have one, or nobody's. *)
Lemma stmt_semicolon nx l s : stmt nx l s -> forall w nx', fst nx' <> T_Else -> stmt nx' (l ++ [semicolon_of w]) s \/ stmt (semicolon_of w) l s.
Proof.
  induction 1; intros w nx' N; try solve [right; econstructor; eassumption];
    try solve [match goal with S : semi _ ?l2 |- _ => destruct S as [B|s0]; [left|right]; [cbn [app]; repeat (rewrite <- app_assoc; cbn [app]) | ]; econstructor; first [eassumption|apply se_some|cbn [next]; apply ends_semicolon; lia|eapply declarators_shift; [eassumption|apply ends_semicolon; lia]] end];
    try solve [match goal with I : forall w nx', _ -> stmt nx' _ _ \/ _ |- _ => destruct (I w nx' N) as [J|J]; [left; cbn [app]; repeat (rewrite <- app_assoc; cbn [app])|right]; econstructor; first [eassumption|discriminate] end].
Qed.
Definition empty_statement : node statement := nd St_Empty.
Lemma statements_semicolon nx l ms : statements nx l ms -> forall w nx', fst nx' <> T_Else ->
  statements nx' (l ++ [semicolon_of w]) ms \/ statements nx' (l ++ [semicolon_of w]) (ms ++ [empty_statement]).
Proof.
  assert (Sc : forall w nx', statements nx' [semicolon_of w] [empty_statement]).
  { intros w nx'. change [semicolon_of w] with ([semicolon_of w] ++ []). apply ss_cons; [|constructor]. apply st_empty. }
  induction 1 as [nx|nx l1 l2 x xs Hx Hs IH]; intros w nx' N.
  - right. apply Sc.
  - destruct l2 as [|y l2].
    + assert (xs = []) as ->.
      { inversion Hs; [reflexivity|]. exfalso. match goal with H0 : _ ++ _ = [] |- _ => apply app_eq_nil in H0 as [-> _] end. eapply stmt_some; [eassumption|reflexivity]. }
      rewrite app_nil_r. cbn [next] in Hx. destruct (stmt_semicolon _ _ _ Hx w nx' N) as [J|J]; [left|right; cbn [app]].
      * rewrite <- (app_nil_r (l1 ++ _)). apply ss_cons; [exact J|constructor].
      * apply ss_cons; [exact J|apply Sc].
    + rewrite <- app_assoc. cbn [app]. destruct (IH w nx' N) as [J|J]; [left|right]; (apply ss_cons; [exact Hx|exact J]).
Qed.
(** Two programs with a semicolon between them. *)
Definition separated (m1 m2 m : module) : Prop := same_tree (m1 ++ m2) m \/ same_tree (m1 ++ empty_statement :: m2) m.
Lemma programs_semicolon l1 m1 e w l2 m2 : program (l1 ++ [e]) m1 -> program l2 m2 ->
  program (l1 ++ semicolon_of w :: l2) (m1 ++ m2) \/ program (l1 ++ semicolon_of w :: l2) (m1 ++ empty_statement :: m2).
Proof.
  intros P1 P2. destruct (program_end _ _ P1) as (k1 & v1 & E1 & S1). apply app_inj_tail in E1 as [<- ->]. destruct (program_end _ _ P2) as (k2 & v2 & -> & S2).
  assert (N : fst (next k2 (T_EndOfProgram, v2)) <> T_Else).
  { destruct k2 as [|[t y] k2]; [discriminate|]. exact (statements_first _ _ _ S2 ltac:(discriminate)). }
  assert (E : forall l1 l2 : list lexeme, l1 ++ semicolon_of w :: l2 ++ [(T_EndOfProgram, v2)] = ((l1 ++ [semicolon_of w]) ++ l2) ++ [(T_EndOfProgram, v2)]) by (intros; now rewrite <- !app_assoc).
  rewrite E. destruct (statements_semicolon _ _ _ S1 w _ N) as [J|J]; [left|right]; apply pg_program.
  - now apply statements_app.
  - change (empty_statement :: m2) with ([empty_statement] ++ m2). rewrite app_assoc. now apply statements_app.
Qed.

(** ** In sources *)
(** C78: [a], then a line with a semicolon, then [b]: a program if [a] and [b] are, with the statements of both and perhaps
    an empty one between them, whatever [a] ends with and [b] begins with. *)
Theorem C78_separates : forall (alnum : N -> bool) (a b : str) (l : list lexeme) (e : lexeme) (m1 m2 : module),
  ~ In x00 a -> lexemes_of alnum a l e -> program (l ++ [e]) m1 -> parses_to alnum b (ParseOk m2) ->
  exists m, parses_to alnum (a ++ x0a :: bs ";" ++ x0a :: b) (ParseOk m) /\ separated m1 m2 m.
Proof.
  intros alnum a b l e m1 m2 Nn La P1 Hb. assert (Fi := lexemes_inner _ _ _ _ _ La P1). destruct La as (Ne & lxa & Ea & Ra).
  destruct (accepted_new _ _ _ Hb) as [lxb Eb]. destruct (line_program _ _ _ _ Eb Hb) as (lxb' & lb & Eb' & Rb & P2).
  assert (Sl : exists lx, lexer_new alnum (bs ";") = Done lx /\ reading alnum lx ([(T_Semicolon, wd ";" false)] ++ [end_mark])).
  { eexists. split; [vm_compute; reflexivity|]. read_on. }
  destruct Sl as (lxs & Es & Rs).
  destruct (new_app alnum (bs ";") b ltac:(cbn; intuition discriminate) lxb' lb Eb' Rb lxs [(T_Semicolon, wd ";" false)] end_mark Es Rs) as (lx1 & E1 & R1).
  { constructor; [|constructor]. cbn [fst]. split; [discriminate|]. split; discriminate. }
  destruct (new_line alnum _ _ _ E1 R1) as (lx2 & ls2 & E2 & R2 & M). destruct (remarked_reword _ _ M) as [x ->].
  cbn [app reword w_text wd] in R2.
  destruct (new_app alnum a (bs ";" ++ x0a :: b) Nn lx2 _ E2 R2 lxa l e Ea Ra Fi) as (lx & E & R).
  destruct (programs_semicolon l m1 e (Word (bs ";") x) lb m2 P1 P2) as [P|P].
  - destruct (C61_programs_accepted _ _ _ _ _ E R P) as (m & H & T). exists m. split; [exact H|now left].
  - destruct (C61_programs_accepted _ _ _ _ _ E R P) as (m & H & T). exists m. split; [exact H|now right].
Qed.
Print Assumptions C78_separates.
(** At the end of a program, a line with a semicolon adds at most an empty statement. *)
Theorem C78_at_the_end : forall (alnum : N -> bool) (a : str) (l : list lexeme) (e : lexeme) (m : module),
  ~ In x00 a -> lexemes_of alnum a l e -> program (l ++ [e]) m ->
  exists m', parses_to alnum (a ++ x0a :: bs ";" ++ [x0a]) (ParseOk m') /\ (same_tree m m' \/ same_tree (m ++ [empty_statement]) m').
Proof.
  intros alnum a l e m Nn La P. assert (H : parses_to alnum [] (ParseOk [])) by (exists 5; vm_compute; reflexivity).
  destruct (C78_separates alnum a [] l e m [] Nn La P H) as (m' & H' & [S|S]); exists m'; (split; [exact H'|]); [left; now rewrite app_nil_r in S|now right].
Qed.
Print Assumptions C78_at_the_end.

(** ** Cases *)
Definition count_of (s : str) : option nat := match parse_fuel letters 60 s with Done (ParseOk m) => Some (List.length m) | _ => None end.
(** [a] and [(b)(c)]: the theorem applies, and there are two statements; without the semicolon there is one. *)
Example C78_case : exists m m2, parses_to letters (bs "(b)(c)") (ParseOk m2) /\
  parses_to letters (bs "a // no" ++ x0a :: bs ";" ++ x0a :: bs "(b)(c)") (ParseOk m) /\ separated [nd (St_Expression (name "a"))] m2 m.
Proof.
  destruct (parse_fuel letters 60 (bs "(b)(c)")) as [[m2|errs]| | |] eqn:H; try (vm_compute in H; discriminate H).
  assert (P2 : parses_to letters (bs "(b)(c)") (ParseOk m2)) by now exists 60.
  destruct (C78_separates letters (bs "a // no") (bs "(b)(c)") [name1 "a" false] (T_EndOfProgram, Word [] true) [nd (St_Expression (name "a"))] m2) as (m & P & Q).
  - cbn. intuition discriminate.
  - split; [cbn; intuition discriminate|]. eexists. split; [vm_compute; reflexivity|]. read_on.
  - apply name_program.
  - exact P2.
  - exists m, m2. split; [exact P2|]. split; [exact P|exact Q].
Qed.
Example C78_without : count_of (bs "a" ++ x0a :: bs "(b)(c)") = Some 1 /\ count_of (bs "a" ++ x0a :: bs ";" ++ x0a :: bs "(b)(c)") = Some 2.
Proof. split; vm_compute; reflexivity. Qed.
(** Both outcomes occur: the semicolon belongs to [a], but not to [debugger], which has none in this parser, nor to a block. *)
Example C78_both : count_of (bs "a" ++ x0a :: bs ";" ++ x0a :: bs "b") = Some 2 /\ count_of (bs "debugger" ++ x0a :: bs ";" ++ x0a :: bs "b") = Some 3 /\
  count_of (bs "{}" ++ x0a :: bs ";" ++ x0a :: bs "b") = Some 3.
Proof. repeat split; vm_compute; reflexivity. Qed.
(** An open block, which the end of the source closes, takes the semicolon and [b] in: hence the condition on the lexemes. *)
Example C78_open : count_of (bs "{a;") = Some 1 /\ count_of (bs "{a;" ++ x0a :: bs ";" ++ x0a :: bs "b") = Some 1.
Proof. split; vm_compute; reflexivity. Qed.
