(** Property C76: an expression in other places. *)
From Coq Require Import List NArith Bool Lia String.
From Coq.Strings Require Import Byte.
From Verif Require Import Bytes Token Lexer Ast Parser SpecLexer StateFacts LexProps LexerFacts ConsumeFacts SpecSyntax SpecReading ConcatGram ConcatLex PropSyntax PropGap PropConcat PropWrap.
Import ListNotations.
Open Scope nat_scope.
Open Scope list_scope.

(** [h], any expression, and [t] make up the program [f e]: [lh] are the lexemes of [h] and [lt] those of [t]. *)
Definition place (lh lt : list lexeme) (f : expression -> module) : Prop :=
  forall o l e, expr 0 o l e -> program (lh ++ l ++ lt) (f e).

Lemma this_expr s : expr 0 false [(T_This, s)] E_This.
Proof. eapply (weak 0 18); [reflexivity|]. constructor. constructor. Qed.
Lemma place_inner lh lt f : place lh lt f -> ~ In T_EndOfProgram (map fst lh) -> Forall (fun x => inner (fst x)) lh.
Proof.
  intros F N. destruct (program_end _ _ (F _ _ _ (this_expr w0))) as (l & v & E & St). assert (K := statements_sound _ _ _ St).
  rewrite Forall_forall in K. apply Forall_forall. intros x I.
  assert (Il : In x l).
  { assert (I2 : In x (l ++ [(T_EndOfProgram, v)])) by (rewrite <- E; apply in_app_iff; now left). apply in_app_iff in I2 as [I2|[I2|[]]]; [exact I2|].
    exfalso. apply N. apply in_map_iff. exists x. split; [now rewrite <- I2|exact I]. }
  destruct (K x Il) as [K1 K2]. split; [exact K1|]. split; [exact K2|]. intros Ex. apply N. rewrite <- Ex. now apply in_map.
Qed.
Lemma expr_inner n o l e : expr n o l e -> ~ In T_EndOfProgram (map fst l) -> Forall (fun x => inner (fst x)) l.
Proof.
  intros X N. assert (St : stmt (T_EndOfProgram, w0) (((T_ParenOpen, w0) :: l ++ [(T_ParenClose, w0)]) ++ [(T_Semicolon, w0)]) (St_Expression (nd e))).
  { eapply st_expression with (o := false); [|cbn; intuition discriminate|apply se_some|cbn [next]; left; cbn; intuition discriminate].
    eapply (weak 0 18); [reflexivity|]. cbn [nd n_item]. eapply x_paren. eapply x_weaker; [|exact X]. lia. }
  assert (Ss : statements (T_EndOfProgram, w0) ((((T_ParenOpen, w0) :: l ++ [(T_ParenClose, w0)]) ++ [(T_Semicolon, w0)]) ++ []) [nd (St_Expression (nd e))]) by (apply ss_cons; [exact St|constructor]).
  assert (K := statements_sound _ _ _ Ss). rewrite Forall_forall in K. apply Forall_forall. intros x I. destruct (K x) as [K1 K2].
  { rewrite !in_app_iff. left. left. right. apply in_app_iff. now left. }
  split; [exact K1|]. split; [exact K2|]. intros Ex. apply N. rewrite <- Ex. now apply in_map.
Qed.
Lemma current_head alnum lx x ls : reading alnum lx (x :: ls) -> fst x <> T_LiteralRegEx -> ~ In (fst x) [T_TemplateOpen; T_TemplateClosed] -> x = current lx.
Proof.
  intros R N1 N2. inversion R as [lx0 E1 E2|lx0 lx1 ls0 C H E1|lx0 v lx1 lx2 ls0 E1 Rx E2 C H E3|lx0 lx1 lx2 ls0 E1 Rt E2 C H E3]; subst; auto.
  - exfalso. apply N1. exact E2.
  - exfalso. apply N2. exact E2.
Qed.

Lemma read_piece alnum lx lx1 lx2 x ls : lx_token lx = T_BraceClose -> read_template_kind lx = Done lx1 -> current lx1 = x -> In (lx_token lx1) [T_TemplateOpen; T_TemplateClosed] ->
  consume alnum lx1 = Done lx2 -> reading alnum lx2 ls -> reading alnum lx (x :: ls).
Proof. intros E R <- T C H. now apply rd_piece with lx2. Qed.
(** C76: an expression [a], on lines of its own, means the same between [h] and [t] as by itself. *)
Theorem C76_in_place : forall (alnum : N -> bool) (h a t : str) (lh lt la : list lexeme) (eh ea : lexeme) (o : bool) (e : expression) (f : expression -> module),
  place lh lt f ->
  ~ In x00 h -> lexemes_of alnum h lh eh ->
  (exists lx, lexer_new alnum (x0a :: t) = Done lx /\ reading alnum lx lt) ->
  ~ In x00 a -> lexemes_of alnum a la ea -> expr 0 o la e ->
  exists m, parses_to alnum (h ++ x0a :: a ++ x0a :: t) (ParseOk m) /\ same_tree (f e) m.
Proof.
  intros alnum h a t lh lt la eh ea o e f F Nh (Nl & lxh & Eh & Rh) (lxt & Et & Rt) Na (Ne & lxa & Ea & Ra) X.
  destruct (new_app alnum a t Na lxt _ Et Rt lxa la ea Ea Ra (expr_inner _ _ _ _ X Ne)) as (lx1 & E1 & R1).
  destruct (new_line alnum _ _ _ E1 R1) as (lx2 & ls2 & E2 & R2 & M). destruct (remarked_reword _ _ M) as [x ->].
  rewrite reword_app in R2 by (eapply expr_some; exact X).
  destruct (new_app alnum h (a ++ x0a :: t) Nh lx2 _ E2 R2 lxh lh eh Eh Rh (place_inner _ _ _ F Nl)) as (lx & E & R).
  exact (C61_programs_accepted _ _ _ _ _ E R (F _ _ _ (expr_reword _ _ _ _ x X))).
Qed.
Print Assumptions C76_in_place.

(** ** Places *)
Lemma program_as ls ls' m : ls = ls' -> program ls' m -> program ls m.
Proof. now intros ->. Qed.
Definition only (e : expression) : module := [nd (St_Expression (nd e))].
(** Parentheses. *)
Lemma place_parens s1 s2 : place [(T_ParenOpen, s1)] [(T_ParenClose, s2); end_mark] only.
Proof.
  intros o l e X.
  assert (E : [(T_ParenOpen, s1)] ++ l ++ [(T_ParenClose, s2); end_mark] = ((((T_ParenOpen, s1) :: l ++ [(T_ParenClose, s2)]) ++ []) ++ []) ++ [end_mark]).
  { cbn [app]. repeat (rewrite app_nil_r). rewrite <- app_assoc. reflexivity. }
  refine (program_as _ _ _ E _). apply pg_program. apply ss_cons; [|constructor]. cbn [nd n_item next]. eapply st_expression with (o := false); [|cbn; intuition discriminate|apply se_none; reflexivity|cbn [next end_mark]; ending].
  eapply (weak 0 18); [reflexivity|]. cbn [nd n_item]. eapply x_paren. exact X.
Qed.
(** The condition of an if statement: [if (] and [) go();]. *)
Definition go_call : list lexeme := [(T_Identifier, wd "go" false); (T_ParenOpen, wd "(" false); (T_ParenClose, wd ")" true); (T_Semicolon, wd ";" false)].
Definition condition (e : expression) : module := [nd (St_If (nd e) (nd (St_Expression (nd (E_Call (nd (E_Identifier (bs "go"))) [])))) None)].
Lemma place_if s1 s2 s3 : place [(T_If, s1); (T_ParenOpen, s2)] ((T_ParenClose, s3) :: go_call ++ [end_mark]) condition.
Proof.
  intros o l e X.
  assert (E : [(T_If, s1); (T_ParenOpen, s2)] ++ l ++ (T_ParenClose, s3) :: go_call ++ [end_mark] = (((T_If, s1) :: (T_ParenOpen, s2) :: l ++ (T_ParenClose, s3) :: go_call) ++ []) ++ [end_mark]).
  { cbn [app]. rewrite app_nil_r. rewrite <- app_assoc. reflexivity. }
  refine (program_as _ _ _ E _). apply pg_program. apply ss_cons; [|constructor]. cbn [nd n_item next]. eapply st_if; [exact X| |cbn; discriminate].
  cbn [nd n_item]. change go_call with ([(T_Identifier, wd "go" false); (T_ParenOpen, wd "(" false); (T_ParenClose, wd ")" true)] ++ [(T_Semicolon, wd ";" false)]).
  apply st_expression with (o := false); [|cbn; intuition discriminate|apply se_some|cbn [next]; ending].
  eapply (weak 0 17); [reflexivity|]. cbn [nd n_item]. apply (x_call [_] []); [|constructor]. eapply (weak 17 18); [reflexivity|]. cbn [nd n_item]. apply x_atom. apply (at_name (wd "go" false)).
Qed.
(** An index: [x\[] and [\];]. *)
Definition indexed (e : expression) : module := only (E_ComputedMember (nd (E_Identifier (bs "x"))) (nd e)).
Lemma place_index b s1 s2 s3 : place [(T_Identifier, wd "x" b); (T_BracketOpen, s1)] [(T_BracketClose, s2); (T_Semicolon, s3); end_mark] indexed.
Proof.
  intros o l e X.
  assert (E : [(T_Identifier, wd "x" b); (T_BracketOpen, s1)] ++ l ++ [(T_BracketClose, s2); (T_Semicolon, s3); end_mark] =
    ((([(T_Identifier, wd "x" b)] ++ (T_BracketOpen, s1) :: l ++ [(T_BracketClose, s2)]) ++ [(T_Semicolon, s3)]) ++ []) ++ [end_mark]).
  { cbn [app]. rewrite app_nil_r. repeat (rewrite <- app_assoc; cbn [app]). reflexivity. }
  refine (program_as _ _ _ E _). apply pg_program. apply ss_cons; [|constructor]. cbn [nd n_item next]. eapply st_expression with (o := false); [|cbn; intuition discriminate|apply se_some|cbn [next]; ending].
  eapply (weak 0 17); [reflexivity|]. cbn [nd n_item]. eapply x_computed; [|exact X]. eapply (weak 17 18); [reflexivity|]. cbn [nd n_item]. apply x_atom. apply (at_name (wd "x" b)).
Qed.
(** The substitution of a template: [`${] and [}`;]. *)
Definition substituted (e : expression) : module := only (E_Template (Template [nd e] [nd []; nd []])).
Lemma place_template b1 b2 s3 : place [(T_TemplateOpen, wd "`${" b1)] [(T_TemplateClosed, wd "}`" b2); (T_Semicolon, s3); end_mark] substituted.
Proof.
  intros o l e X.
  assert (E : [(T_TemplateOpen, wd "`${" b1)] ++ l ++ [(T_TemplateClosed, wd "}`" b2); (T_Semicolon, s3); end_mark] =
    ((((T_TemplateOpen, wd "`${" b1) :: l ++ [(T_TemplateClosed, wd "}`" b2)]) ++ [(T_Semicolon, s3)]) ++ []) ++ [end_mark]).
  { cbn [app]. rewrite app_nil_r. repeat (rewrite <- app_assoc; cbn [app]). reflexivity. }
  refine (program_as _ _ _ E _). apply pg_program. apply ss_cons; [|constructor]. cbn [nd n_item next]. eapply st_expression with (o := false); [|cbn; intuition discriminate|apply se_some|cbn [next]; ending].
  eapply (weak 0 18); [reflexivity|]. cbn [nd n_item]. apply x_template. eapply tm_more; [reflexivity|exact X|]. apply tm_last. reflexivity.
Qed.

(** ** Corollaries *)
(** A program that is one expression without a semicolon. *)
Lemma one_expression la ea x e : program (la ++ [ea]) [x] -> n_item x = St_Expression e -> fst (ending la) <> T_Semicolon -> not_first [T_Import] la -> exists o, expr 0 o la (n_item e).
Proof.
  intros P Ex Nl Nf. destruct (program_end _ _ P) as (la' & v & E0 & St). apply app_inj_tail in E0 as [<- ->].
  inversion St as [|nx l1 l2 y ys S1 S2 E1 E2]; subst. inversion S2; subst. rewrite app_nil_r in *. cbn [next] in S1. rewrite Ex in S1. clear Ex St S2 P.
  revert Nl Nf. remember (St_Expression e) as st eqn:Es. destruct S1; try discriminate Es; injection Es as <-; intros Nl Nf.
  - exists o. match goal with H : semi _ ?l |- _ => destruct H as [B|s] end; [now rewrite app_nil_r|]. exfalso. apply Nl. now rewrite ending_app.
  - exfalso. apply Nf. now left.
Qed.
(** Parentheses around a program that is an expression change nothing. *)
Theorem C76_parentheses : forall (alnum : N -> bool) (a : str) (la : list lexeme) (ea : lexeme) (x : node statement) (e : node expression),
  ~ In x00 a -> lexemes_of alnum a la ea -> program (la ++ [ea]) [x] -> n_item x = St_Expression e ->
  fst (ending la) <> T_Semicolon -> not_first [T_Import] la ->
  exists m, parses_to alnum (bs "(" ++ x0a :: a ++ x0a :: bs ")") (ParseOk m) /\ same_tree [x] m.
Proof.
  intros alnum a la ea x e N La P Ex Nl Nf. destruct (one_expression _ _ _ _ P Ex Nl Nf) as [o X].
  destruct (C76_in_place alnum (bs "(") a (bs ")") [(T_ParenOpen, wd "(" false)] [(T_ParenClose, wd ")" true); end_mark] la end_mark ea o (n_item e) only (place_parens _ _)) as (m & H & T); auto.
  - cbn. intuition discriminate.
  - split; [cbn; intuition discriminate|]. eexists. split; [vm_compute; reflexivity|]. read_on.
  - eexists. split; [vm_compute; reflexivity|]. read_on.
  - exists m. split; [exact H|]. unfold same_tree in *. rewrite <- T. destruct x as [b1 b2 x]. cbn [n_item] in Ex. subst x. destruct e as [c1 c2 e]. reflexivity.
Qed.
Print Assumptions C76_parentheses.
(** Any expression as a condition, an index and a substitution. *)
Theorem C76_condition : forall (alnum : N -> bool) (a : str) (la : list lexeme) (ea : lexeme) (o : bool) (e : expression),
  ~ In x00 a -> lexemes_of alnum a la ea -> expr 0 o la e ->
  exists m, parses_to alnum (bs "if (" ++ x0a :: a ++ x0a :: bs ") go();") (ParseOk m) /\ same_tree (condition e) m.
Proof.
  intros alnum a la ea o e N La X.
  apply (C76_in_place alnum (bs "if (") a (bs ") go();") [(T_If, wd "if" false); (T_ParenOpen, wd "(" false)] ((T_ParenClose, wd ")" true) :: go_call ++ [end_mark]) la end_mark ea o e condition (place_if _ _ _)); auto.
  - cbn. intuition discriminate.
  - split; [cbn; intuition discriminate|]. eexists. split; [vm_compute; reflexivity|]. read_on.
  - eexists. split; [vm_compute; reflexivity|]. unfold go_call. cbn [app]. read_on.
Qed.
Print Assumptions C76_condition.
Theorem C76_index : forall (alnum : N -> bool) (a : str) (la : list lexeme) (ea : lexeme) (o : bool) (e : expression),
  ~ In x00 a -> lexemes_of alnum a la ea -> expr 0 o la e ->
  exists m, parses_to alnum (bs "x[" ++ x0a :: a ++ x0a :: bs "];") (ParseOk m) /\ same_tree (indexed e) m.
Proof.
  intros alnum a la ea o e N La X.
  apply (C76_in_place alnum (bs "x[") a (bs "];") [(T_Identifier, wd "x" false); (T_BracketOpen, wd "[" false)] [(T_BracketClose, wd "]" true); (T_Semicolon, wd ";" false); end_mark] la end_mark ea o e indexed (place_index _ _ _ _)); auto.
  - cbn. intuition discriminate.
  - split; [cbn; intuition discriminate|]. eexists. split; [vm_compute; reflexivity|]. read_on.
  - eexists. split; [vm_compute; reflexivity|]. read_on.
Qed.
Print Assumptions C76_index.
Theorem C76_substitution : forall (alnum : N -> bool) (a : str) (la : list lexeme) (ea : lexeme) (o : bool) (e : expression),
  ~ In x00 a -> lexemes_of alnum a la ea -> expr 0 o la e ->
  exists m, parses_to alnum (bs "`${" ++ x0a :: a ++ x0a :: bs "}`;") (ParseOk m) /\ same_tree (substituted e) m.
Proof.
  intros alnum a la ea o e N La X.
  apply (C76_in_place alnum (bs "`${") a (bs "}`;") [(T_TemplateOpen, wd "`${" false)] [(T_TemplateClosed, wd "}`" true); (T_Semicolon, wd ";" false); end_mark] la end_mark ea o e substituted (place_template _ _ _)); auto.
  - cbn. intuition discriminate.
  - split; [cbn; intuition discriminate|]. eexists. split; [vm_compute; reflexivity|]. read_on.
  - eexists. split; [vm_compute; reflexivity|]. eapply read_piece; [vm_compute; reflexivity|vm_compute; reflexivity|vm_compute; reflexivity|vm_compute; now right; left|vm_compute; reflexivity|]. read_on.
Qed.
Print Assumptions C76_substitution.

(** ** Cases *)
(** [a, b // no]: with its comment it is still the same between parentheses, thanks to the line feed; a semicolon inside is not. *)
Definition pair_lexemes : list lexeme := [(T_Identifier, wd "a" false); (T_Comma, wd "," false); (T_Identifier, wd "b" false)].
Lemma pair_expr : expr 0 false pair_lexemes (E_Sequence [nd (E_Identifier (bs "a")); nd (E_Identifier (bs "b"))]).
Proof.
  change pair_lexemes with ([(T_Identifier, wd "a" false)] ++ [(T_Comma, wd "," false); (T_Identifier, wd "b" false)]).
  eapply x_sequence with (o := false); [|discriminate|].
  - eapply (weak 1 18); [reflexivity|]. apply x_atom. apply (at_name (wd "a" false)).
  - apply (me_cons false _ [_] []); [|constructor]. eapply (weak 1 18); [reflexivity|]. apply x_atom. apply (at_name (wd "b" false)).
Qed.
Lemma pair_lexed : lexemes_of letters (bs "a, b // no") pair_lexemes end_mark.
Proof. split; [cbn; intuition discriminate|]. eexists. split; [vm_compute; reflexivity|]. read_on. Qed.
Example C76_case : exists m, parses_to letters (bs "if (" ++ x0a :: bs "a, b // no" ++ x0a :: bs ") go();") (ParseOk m) /\
  same_tree (condition (E_Sequence [nd (E_Identifier (bs "a")); nd (E_Identifier (bs "b"))])) m.
Proof. apply (C76_condition letters _ pair_lexemes end_mark false); [cbn; intuition discriminate|exact pair_lexed|exact pair_expr]. Qed.
Example C76_case_template : exists m, parses_to letters (bs "`${" ++ x0a :: bs "a, b // no" ++ x0a :: bs "}`;") (ParseOk m) /\
  same_tree (substituted (E_Sequence [nd (E_Identifier (bs "a")); nd (E_Identifier (bs "b"))])) m.
Proof. apply (C76_substitution letters _ pair_lexemes end_mark false); [cbn; intuition discriminate|exact pair_lexed|exact pair_expr]. Qed.
Example C76_case_parentheses : exists m, parses_to letters (bs "(" ++ x0a :: bs "a, b // no" ++ x0a :: bs ")") (ParseOk m) /\
  same_tree (only (E_Sequence [nd (E_Identifier (bs "a")); nd (E_Identifier (bs "b"))])) m.
Proof.
  apply (C76_parentheses letters _ pair_lexemes end_mark (nd (St_Expression (nd (E_Sequence [nd (E_Identifier (bs "a")); nd (E_Identifier (bs "b"))])))) (nd (E_Sequence [nd (E_Identifier (bs "a")); nd (E_Identifier (bs "b"))]))).
  - cbn. intuition discriminate.
  - exact pair_lexed.
  - change (pair_lexemes ++ [end_mark]) with (((pair_lexemes ++ []) ++ []) ++ [end_mark]). apply pg_program. apply ss_cons; [|constructor].
    cbn [nd n_item next]. eapply st_expression with (o := false); [exact pair_expr|cbn; intuition discriminate|apply se_none; reflexivity|cbn [next end_mark]; ending].
  - reflexivity.
  - cbn. discriminate.
  - cbn. intuition discriminate.
Qed.
(** The conditions cannot be left out: with a semicolon it is not an expression, without the line feed the comment
    hides the parenthesis, and [import(a)] is a call as a statement but not between parentheses. *)
Example C76_semicolon : exists m errors, parses_to letters (bs "a;") (ParseOk m) /\ parses_to letters (bs "(" ++ x0a :: bs "a;" ++ x0a :: bs ")") (ParseErr errors).
Proof. do 2 eexists. split; exists 60; vm_compute; reflexivity. Qed.
Example C76_no_line : exists errors, parses_to letters (bs "(" ++ x0a :: bs "a // no" ++ bs ")") (ParseErr errors).
Proof. eexists. exists 60. vm_compute. reflexivity. Qed.
Example C76_import : exists m errors, parses_to letters (bs "import(a)") (ParseOk m) /\ parses_to letters (bs "(" ++ x0a :: bs "import(a)" ++ x0a :: bs ")") (ParseErr errors).
Proof. do 2 eexists. split; exists 60; vm_compute; reflexivity. Qed.
