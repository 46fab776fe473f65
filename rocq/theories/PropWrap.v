(** Property C73: a program between braces. *)
From Coq Require Import List NArith Bool Lia String.
From Coq.Strings Require Import Byte.
From Verif Require Import Bytes Token Lexer Ast Parser SpecLexer StateFacts LexProps LexerFacts ConsumeFacts SpecSyntax SpecReading ConcatGram ConcatLex PropSyntax PropGap PropConcat.
Import ListNotations.
Open Scope nat_scope.
Open Scope list_scope.

(** [h], braces with any statements between them, and [t] make up the program [f ss]: [lh ++ [(T_BraceOpen, s)]] are the lexemes
    of [h] and [(T_BraceClose, w) :: lt] those of [t]. *)
Definition frame (lh : list lexeme) (s w : word) (lt : list lexeme) (f : module -> module) : Prop :=
  forall l ss, body_of ((T_BraceOpen, s) :: l ++ [(T_BraceClose, w)]) (Block ss) -> program (lh ++ (T_BraceOpen, s) :: l ++ (T_BraceClose, w) :: lt) (f ss).

Lemma empty_body s w : body_of ((T_BraceOpen, s) :: [] ++ [(T_BraceClose, w)]) (Block []).
Proof. constructor; constructor. Qed.
Lemma frame_end lh s w lt f : frame lh s w lt f -> exists lt' v, lt = lt' ++ [(T_EndOfProgram, v)].
Proof.
  intros F. destruct (program_end _ _ (F [] [] (empty_body s w))) as (l & v & E & _). cbn [app] in E.
  destruct lt as [|y lt] using rev_ind; [|exists lt, v].
  - rewrite (app_assoc lh [(T_BraceOpen, s)] [(T_BraceClose, w)]) in E || idtac.
    assert (E2 := f_equal (@rev _) E). rewrite !rev_app_distr in E2. cbn in E2. discriminate E2.
  - assert (E2 := f_equal (@rev _) E). rewrite !rev_app_distr in E2. cbn in E2. rewrite rev_app_distr in E2. cbn in E2. injection E2 as -> _. reflexivity.
Qed.
Lemma frame_inner lh s w lt f : frame lh s w lt f -> ~ In T_EndOfProgram (map fst lh) -> Forall (fun x => inner (fst x)) (lh ++ [(T_BraceOpen, s)]).
Proof.
  intros F N. destruct (program_end _ _ (F [] [] (empty_body s w))) as (l & v & E & St). assert (K := statements_sound _ _ _ St). cbn [app] in E.
  destruct (frame_end _ _ _ _ _ F) as (lt' & v' & ->).
  assert (E1 : (lh ++ [(T_BraceOpen, s); (T_BraceClose, w)] ++ lt') ++ [(T_EndOfProgram, v')] = l ++ [(T_EndOfProgram, v)]).
  { rewrite <- E, <- !app_assoc. reflexivity. }
  apply app_inj_tail in E1 as [<- _]. rewrite Forall_forall in K. apply Forall_forall. intros x I. destruct (K x) as [K1 K2].
  { apply in_app_iff in I. apply in_app_iff. destruct I as [I|[<-|[]]]; [now left|]. right. apply in_app_iff. left. now left. }
  split; [exact K1|]. split; [exact K2|]. intros Ex. apply in_app_iff in I as [I|[<-|[]]]; [|discriminate Ex]. apply N. rewrite <- Ex. now apply in_map.
Qed.
Lemma statements_close l m s w : statements (T_EndOfProgram, s) l m -> w_break w = true -> statements (T_BraceClose, w) l m.
Proof.
  intros H W. apply (statements_apart _ _ _ H). left. split; [discriminate|]. right. split; [exact W|]. left. cbn. intuition discriminate.
Qed.
Lemma remarked_length x l ls : remarked (x :: l) ls -> List.length ls = S (List.length l).
Proof. inversion 1. reflexivity. Qed.
Lemma body_remarked l m s s' w ls lt : statements (T_EndOfProgram, s) l m -> w_break w = true -> remarked (l ++ (T_BraceClose, w) :: lt) ls ->
  exists l' w', ls = l' ++ (T_BraceClose, w') :: lt /\ body_of ((T_BraceOpen, s') :: l' ++ [(T_BraceClose, w')]) (Block m) /\ (w' = w \/ l = []).
Proof.
  intros H W R. destruct (remarked_reword _ _ R) as [x ->]. destruct l as [|y l].
  - exists [], (Word (w_text w) x). split; [reflexivity|]. split; [|now right]. inversion H; subst; [apply empty_body|].
    exfalso. match goal with H0 : _ ++ _ = [] |- _ => apply app_eq_nil in H0; destruct H0 as [-> _] end. eapply stmt_some; [eassumption|reflexivity].
  - exists (reword (y :: l) x), w. rewrite reword_app by discriminate. split; [reflexivity|]. split; [|now left]. apply bo_body; [|constructor].
    apply statements_reword. eapply statements_close; eassumption.
Qed.
Lemma brace_marked alnum src lx w ls : lexer_new alnum src = Done lx -> reading alnum lx ((T_BraceClose, w) :: ls) -> w_break w = true.
Proof.
  intros E R. assert (C : current lx = (T_BraceClose, w)).
  { inversion R as [lx0 E1 E2|lx0 lx1 ls0 C H E1|lx0 v lx1 lx2 ls0 E1 Rx E2 C H E3|lx0 lx1 lx2 ls0 E1 Rt E2 C H E3]; subst.
    - reflexivity.
    - reflexivity.
    - exfalso. unfold current in *. congruence.
    - exfalso. cbn in E2. unfold current in *. intuition congruence. }
  unfold current in C. injection C as T <-. cbn [w_break]. unfold lexer_new in E.
  assert (I := init_inv src). destruct (consume_asi _ _ _ (li_ok _ _ I) E) as (g1 & ws & A & W & K & ->). rewrite T. reflexivity.
Qed.
(** C73: a program [a] between [h] and [t], on lines of its own, is read as the statements between the braces. *)
Theorem C73_wrapped : forall (alnum : N -> bool) (h a t : str) (lh : list lexeme) (s w : word) (lt la : list lexeme) (eh e : lexeme) (f : module -> module) (ss : module),
  frame lh s w lt f ->
  ~ In x00 h -> lexemes_of alnum h (lh ++ [(T_BraceOpen, s)]) eh ->
  (exists lx, lexer_new alnum (x0a :: t) = Done lx /\ reading alnum lx ((T_BraceClose, w) :: lt)) ->
  ~ In x00 a -> lexemes_of alnum a la e -> program (la ++ [e]) ss ->
  exists m, parses_to alnum (h ++ x0a :: a ++ x0a :: t) (ParseOk m) /\ same_tree (f ss) m.
Proof.
  intros alnum h a t lh s w lt la eh e f ss F Nh (Nl & lxh & Eh & Rh) (lxt & Et & Rt) Na La P.
  assert (Wt := brace_marked _ _ _ _ _ Et Rt).
  assert (In_ := lexemes_inner _ _ _ _ _ La P). destruct La as (Ne & lxa & Ea & Ra).
  destruct (new_app alnum a t Na lxt _ Et Rt lxa la e Ea Ra In_) as (lx1 & E1 & R1).
  destruct (new_line alnum _ _ _ E1 R1) as (lx2 & ls2 & E2 & R2 & M).
  destruct (program_end _ _ P) as (la' & v & E0 & St). apply app_inj_tail in E0 as [<- ->].
  destruct (body_remarked la ss v s w ls2 lt St Wt M) as (l' & w' & -> & B & D).
  assert (W' : w' = w).
  { destruct D as [D| ->]; [exact D|]. cbn [app] in M. destruct l' as [|y l']; cbn [app] in *.
    - assert (W2 := brace_marked _ _ _ _ _ E2 R2). inversion M as [t0 s0 x x' l0 Ew El]; subst. cbn in W2, Wt. congruence.
    - exfalso. assert (L : List.length (y :: l' ++ (T_BraceClose, w') :: lt) = S (List.length lt)) by (apply (remarked_length _ _ _ M)). cbn [List.length] in L. rewrite app_length in L. cbn [List.length] in L. unfold lexeme in *. lia. }
  subst w'.
  destruct (new_app alnum h (a ++ x0a :: t) Nh lx2 _ E2 R2 lxh (lh ++ [(T_BraceOpen, s)]) eh Eh Rh) as (lx & E & R).
  { eapply frame_inner; [exact F|]. intros I. apply Nl. rewrite map_app. apply in_app_iff. now left. }
  apply F in B. rewrite <- app_assoc in R. cbn [app] in R. exact (C61_programs_accepted _ _ _ _ _ E R B).
Qed.
Print Assumptions C73_wrapped.

(** ** Frames *)
Definition end_mark : lexeme := (T_EndOfProgram, Word [] true).
(** A block. *)
Lemma frame_block s w : frame [] s w [end_mark] (fun ss => [nd (St_Block (Block ss))]).
Proof.
  intros l ss B. cbn [app].
  assert (E : (T_BraceOpen, s) :: l ++ [(T_BraceClose, w); end_mark] = (((T_BraceOpen, s) :: l ++ [(T_BraceClose, w)]) ++ []) ++ [end_mark]) by (rewrite app_nil_r; cbn; now rewrite <- app_assoc).
  rewrite E. apply pg_program. apply ss_cons; [|constructor]. apply st_block. exact B.
Qed.
(** An anonymous function that is called: [(function() {] and [})();]. *)
Definition call_open : list lexeme := [(T_ParenOpen, wd "(" false); (T_Function, wd "function" false); (T_ParenOpen, wd "(" false); (T_ParenClose, wd ")" true)].
Definition call_close : list lexeme := [(T_ParenClose, wd ")" true); (T_ParenOpen, wd "(" false); (T_ParenClose, wd ")" true); (T_Semicolon, wd ";" false); end_mark].
Definition called (ss : module) : module := [nd (St_Expression (nd (E_Call (nd (E_Function (Func (Name_Optional None) false [] (nd (Block ss))))) [])))].
Lemma frame_call s w : frame call_open s w call_close called.
Proof.
  intros l ss B. set (bl := (T_BraceOpen, s) :: l ++ [(T_BraceClose, w)]) in *.
  assert (E : call_open ++ (T_BraceOpen, s) :: l ++ (T_BraceClose, w) :: call_close =
    ((((T_ParenOpen, wd "(" false) :: ((T_Function, wd "function" false) :: [] ++ [(T_ParenOpen, wd "(" false); (T_ParenClose, wd ")" true)] ++ bl) ++ [(T_ParenClose, wd ")" true)]) ++
      (T_ParenOpen, wd "(" false) :: [] ++ [(T_ParenClose, wd ")" true)]) ++ [(T_Semicolon, wd ";" false)]) ++ [] ++ [end_mark]).
  { unfold bl, call_open, call_close. cbn [app]. repeat (rewrite <- app_assoc; cbn [app]). reflexivity. }
  rewrite E, app_assoc. apply pg_program. apply ss_cons; [|constructor]. cbn [next nd n_item].
  apply (st_expression _ false _ [_]); [|cbn; intuition discriminate|apply se_some|ending].
  eapply (weak 0 17); [reflexivity|]. apply x_call; [|constructor]. eapply (weak 17 18); [reflexivity|]. cbn [nd n_item]. eapply x_paren with (o := false).
  eapply (weak 0 18); [reflexivity|]. apply x_function. apply fu_plain; [constructor|constructor|exact B].
Qed.
Lemma alone : ~ In x00 (bs "{") /\ ~ In x00 (bs "(function() {").
Proof. split; cbn; intuition discriminate. Qed.
(** Corollaries: a program as a block, and as the body of a function that is called at once. *)
Theorem C73_block : forall (alnum : N -> bool) (a : str) (la : list lexeme) (e : lexeme) (ss : module),
  ~ In x00 a -> lexemes_of alnum a la e -> program (la ++ [e]) ss ->
  exists m, parses_to alnum (bs "{" ++ x0a :: a ++ x0a :: bs "}") (ParseOk m) /\ same_tree [nd (St_Block (Block ss))] m.
Proof.
  intros alnum a la e ss N La P.
  eapply (C73_wrapped alnum (bs "{") a (bs "}") [] (wd "{" false) (wd "}" true) [end_mark] la end_mark e _ ss (frame_block _ _) (proj1 alone)); [| |exact N|exact La|exact P].
  - split; [cbn; intuition discriminate|]. eexists. split; [vm_compute; reflexivity|]. read_on.
  - eexists. split; [vm_compute; reflexivity|]. read_on.
Qed.
Print Assumptions C73_block.
Theorem C73_called : forall (alnum : N -> bool) (a : str) (la : list lexeme) (e : lexeme) (ss : module),
  ~ In x00 a -> lexemes_of alnum a la e -> program (la ++ [e]) ss ->
  exists m, parses_to alnum (bs "(function() {" ++ x0a :: a ++ x0a :: bs "})();") (ParseOk m) /\ same_tree (called ss) m.
Proof.
  intros alnum a la e ss N La P.
  eapply (C73_wrapped alnum (bs "(function() {") a (bs "})();") call_open (wd "{" false) (wd "}" true) call_close la end_mark e _ ss (frame_call _ _) (proj2 alone)); [| |exact N|exact La|exact P].
  - split; [cbn; intuition discriminate|]. eexists. split; [vm_compute; reflexivity|]. unfold call_open. read_on.
  - eexists. split; [vm_compute; reflexivity|]. unfold call_close. read_on.
Qed.
Print Assumptions C73_called.
(** The line feed after [a] is needed: a comment at the end of [a] would hide what follows; and so is that no
    block of [a] is left open: it would take the brace. *)
Example C73_case : exists m, parses_to letters (bs "(function() {" ++ x0a :: bs "a // no" ++ x0a :: bs "})();") (ParseOk m) /\ same_tree (called [nd (St_Expression (name "a"))]) m.
Proof.
  apply (C73_called letters (bs "a // no") [name1 "a" false] end_mark).
  - cbn. intuition discriminate.
  - split; [cbn; intuition discriminate|]. eexists. split; [vm_compute; reflexivity|]. read_on.
  - apply name_program.
Qed.
Example C73_no_line : exists errors, parses_to letters (bs "(function() {" ++ x0a :: bs "a // no" ++ bs "})();") (ParseErr errors).
Proof. eexists. exists 60. vm_compute. reflexivity. Qed.
Example C73_open_block : exists m errors, parses_to letters (bs "{a;") (ParseOk m) /\ parses_to letters (bs "(function() {" ++ x0a :: bs "{a;" ++ x0a :: bs "})();") (ParseErr errors).
Proof. do 2 eexists. split; exists 60; vm_compute; reflexivity. Qed.
