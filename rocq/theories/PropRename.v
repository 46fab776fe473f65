(** Property C77: renaming. *)
From Coq Require Import List NArith Bool Lia String.
From Coq.Strings Require Import Byte.
From Verif Require Import Bytes Token Lexer Ast Parser SpecSyntax SpecReading SpecRename RenameFacts CompRun PropSyntax PropGap.
Import ListNotations.
Open Scope nat_scope.
Open Scope list_scope.

Lemma program_renamed r ls m : renaming r ls -> program ls m -> program (map (rename_lexeme r) ls) (rename_module r m).
Proof.
  intros [K F] P. destruct P as [s l m H]. rewrite map_app. apply pg_program. apply (statements_r r K _ _ _ H).
  apply Forall_forall. intros [t w] I E. apply F with t; [apply in_app_iff; now left|exact E].
Qed.

(** C77: the lexemes [ls] of every source that [parse] accepts are such that any source [src'] that has the same lexemes, but
    with other names, is accepted too and is the same program with these names. *)
Theorem C77_renaming : forall (alnum : N -> bool) (src : str) (lx : lexer) (m : module),
  lexer_new alnum src = Done lx -> parses_to alnum src (ParseOk m) ->
  exists ls, reading alnum lx ls /\
    forall (r : str -> str) (src' : str) (lx' : lexer), renaming r ls ->
      lexer_new alnum src' = Done lx' -> reading alnum lx' (map (rename_lexeme r) ls) ->
      exists m', parses_to alnum src' (ParseOk m') /\ same_tree (rename_module r m) m'.
Proof.
  intros alnum src lx m E H. destruct (C62_accepted_is_program _ _ _ _ E H) as (ls & R & P). exists ls. split; [exact R|].
  intros r src' lx' N E' R'. exact (C61_programs_accepted _ _ _ _ _ E' R' (program_renamed _ _ _ N P)).
Qed.
Print Assumptions C77_renaming.
(** The same for a program of the grammar. *)
Theorem C77_programs : forall (alnum : N -> bool) (src src' : str) (lx lx' : lexer) (ls : list lexeme) (m : module) (r : str -> str),
  lexer_new alnum src = Done lx -> reading alnum lx ls -> program ls m -> renaming r ls ->
  lexer_new alnum src' = Done lx' -> reading alnum lx' (map (rename_lexeme r) ls) ->
  exists m1 m2, parses_to alnum src (ParseOk m1) /\ same_tree m m1 /\ parses_to alnum src' (ParseOk m2) /\ same_tree (rename_module r m) m2.
Proof.
  intros alnum src src' lx lx' ls m r E R P N E' R'.
  destruct (C61_programs_accepted _ _ _ _ _ E R P) as (m1 & H1 & T1), (C61_programs_accepted _ _ _ _ _ E' R' (program_renamed _ _ _ N P)) as (m2 & H2 & T2).
  exists m1, m2. auto.
Qed.
Print Assumptions C77_programs.

(** ** Two names exchanged *)
Definition swap (x y s : str) : str := if str_eqb s x then y else if str_eqb s y then x else s.
Lemma swap_swap x y s : swap x y (swap x y s) = s.
Proof.
  unfold swap. destruct (str_eqb s x) eqn:A.
  - apply str_eqb_eq in A as ->. destruct (str_eqb y x) eqn:B; [apply str_eqb_eq in B as ->; reflexivity|]. destruct (str_eqb y y) eqn:C; [reflexivity|].
    exfalso. assert (Q := proj2 (str_eqb_eq y y) eq_refl). congruence.
  - destruct (str_eqb s y) eqn:B.
    + apply str_eqb_eq in B as ->. assert (Q := proj2 (str_eqb_eq x x) eq_refl). now rewrite Q.
    + now rewrite A, B.
Qed.
Lemma swap_other x y s : s <> x -> s <> y -> swap x y s = s.
Proof.
  intros A B. unfold swap. destruct (str_eqb s x) eqn:C; [apply str_eqb_eq in C; congruence|]. destruct (str_eqb s y) eqn:D; [apply str_eqb_eq in D; congruence|]. reflexivity.
Qed.
(** [x] and [y] are texts of names only. *)
Definition free (x : str) (ls : list lexeme) : Prop := ~ In x known_words /\ forall t w, In (t, w) ls -> is_name t = false -> w_text w <> x.
Lemma swap_renaming x y ls : free x ls -> free y ls -> renaming (swap x y) ls.
Proof.
  intros [A1 A2] [B1 B2]. split.
  - intros k s I. assert (K : swap x y k = k) by (apply swap_other; intros ->; contradiction). split; [|now intros ->].
    intros E. rewrite <- (swap_swap x y s), E. exact K.
  - intros t w I N. apply swap_other; [now apply A2 with t|now apply B2 with t].
Qed.
Lemma free_swap x y ls : free x ls -> free y ls -> free x (map (rename_lexeme (swap x y)) ls) /\ free y (map (rename_lexeme (swap x y)) ls).
Proof.
  intros [A1 A2] [B1 B2]. split; (split; [assumption|]); intros t w I N; apply in_map_iff in I as ([t' w'] & E & I); injection E as <- <-; cbn [fst snd] in *; unfold rename_word; rewrite N; [now apply A2 with t'|now apply B2 with t'].
Qed.
Lemma lexemes_swap x y ls : map (rename_lexeme (swap x y)) (map (rename_lexeme (swap x y)) ls) = ls.
Proof.
  rewrite map_map. rewrite <- (map_id ls) at 2. apply map_ext. intros [t [s b]]. unfold rename_lexeme, rename_word. cbn [fst snd]. destruct (is_name t); [|reflexivity]. cbn [w_text w_break]. now rewrite swap_swap.
Qed.
(** Whether two names that are not otherwise used are exchanged makes no difference to whether a source is a program, and to the tree only this one. *)
Theorem C77_swap : forall (x y : str) (ls : list lexeme), free x ls -> free y ls ->
  (forall m, program ls m -> program (map (rename_lexeme (swap x y)) ls) (rename_module (swap x y) m)) /\
  ((exists m, program ls m) <-> (exists m, program (map (rename_lexeme (swap x y)) ls) m)).
Proof.
  intros x y ls A B. assert (N := swap_renaming _ _ _ A B). assert (F : forall m, program ls m -> program (map (rename_lexeme (swap x y)) ls) (rename_module (swap x y) m)) by (intros m P; now apply program_renamed).
  split; [exact F|]. split; intros [m P]; [eauto|]. destruct (free_swap _ _ _ A B) as [A' B'].
  assert (Q := program_renamed _ _ _ (swap_renaming _ _ _ A' B') P). rewrite lexemes_swap in Q. eauto.
Qed.
Print Assumptions C77_swap.
(** For two sources: [src'] with the names [x] and [y] exchanged is accepted exactly if [src] is. *)
Theorem C77_sources : forall (alnum : N -> bool) (src src' : str) (lx lx' : lexer) (x y : str) (ls : list lexeme) (m : module),
  lexer_new alnum src = Done lx -> reading alnum lx ls -> free x ls -> free y ls -> program ls m ->
  lexer_new alnum src' = Done lx' -> reading alnum lx' (map (rename_lexeme (swap x y)) ls) ->
  exists m1 m2, parses_to alnum src (ParseOk m1) /\ same_tree m m1 /\ parses_to alnum src' (ParseOk m2) /\ same_tree (rename_module (swap x y) m) m2.
Proof. intros alnum src src' lx lx' x y ls m E R A B P E' R'. eapply C77_programs; eauto. now apply swap_renaming. Qed.
Print Assumptions C77_sources.

(** ** Cases *)
(** [var a = {b}; a.b(c)] and the same with [a] and [b] exchanged, and the white space, too, is another. *)
Definition first_source : str := bs "var a = {b}; a.b(c)".
Definition second_source : str := bs "var b={a};b . a(c)".
Definition first_lexemes : list lexeme :=
  [(T_DeclarationVar, wd "var" false); (T_Identifier, wd "a" false); (T_OperatorAssign, wd "=" false); (T_BraceOpen, wd "{" false); (T_Identifier, wd "b" false);
   (T_BraceClose, wd "}" true); (T_Semicolon, wd ";" false); (T_Identifier, wd "a" false); (T_Accessor, wd "b" false); (T_ParenOpen, wd "(" false);
   (T_Identifier, wd "c" false); (T_ParenClose, wd ")" true); (T_EndOfProgram, Word [] true)].
Example C77_first : exists lx, lexer_new letters first_source = Done lx /\ reading letters lx first_lexemes.
Proof. eexists. split; [vm_compute; reflexivity|]. unfold first_lexemes. read_on. Qed.
Example C77_second : exists lx, lexer_new letters second_source = Done lx /\ reading letters lx (map (rename_lexeme (swap (bs "a") (bs "b"))) first_lexemes).
Proof. eexists. split; [vm_compute; reflexivity|]. cbv [first_lexemes map]. read_on. Qed.
Example C77_free : free (bs "a") first_lexemes /\ free (bs "b") first_lexemes.
Proof.
  split; (split; [cbn; intuition discriminate|]); intros t w I N E; cbn in I; repeat (destruct I as [I|I]; [injection I as <- <-; try discriminate N; vm_compute in E; discriminate E|]); exact I.
Qed.
Definition tree_of (s : str) : option module := match parse_fuel letters 60 s with Done (ParseOk m) => Some m | _ => None end.
Example C77_case : exists m1 m2, tree_of first_source = Some m1 /\ tree_of second_source = Some m2 /\ same_tree (rename_module (swap (bs "a") (bs "b")) m1) m2 /\ ~ same_tree m1 m2.
Proof. do 2 eexists. split; [vm_compute; reflexivity|]. split; [vm_compute; reflexivity|]. split; [vm_compute; reflexivity|]. vm_compute. discriminate. Qed.
(** The known words are not like other names: renamed to [get], the method [q] becomes a getter, and the loop over [x] needs the word [of]. *)
Example C77_known_get : exists errors m, parses_to letters (bs "class A { q x() {} }") (ParseErr errors) /\ parses_to letters (bs "class A { get x() {} }") (ParseOk m).
Proof. do 2 eexists. split; exists 60; vm_compute; reflexivity. Qed.
Example C77_known_of : exists errors m, parses_to letters (bs "for (x q y) z;") (ParseErr errors) /\ parses_to letters (bs "for (x of y) z;") (ParseOk m).
Proof. do 2 eexists. split; exists 60; vm_compute; reflexivity. Qed.
