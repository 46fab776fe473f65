(** C60: the tokens of an accepted program make up its tree. *)
From Coq Require Import List NArith Bool Lia String.
From Coq.Strings Require Import Byte.
From Verif Require Import Bytes Token Lexer Ast Prog Parser SpecTokens SpecChunks SpecRead SpecTrace SpecGrammar SpecLexemes GramA GramRun PropGap.
Import ListNotations.
Open Scope nat_scope.
Open Scope list_scope.

(** C60: if [parse] accepts a source with the tree [m], the lexemes of the source make up [m] by the rules of the grammar. *)
Theorem C60_tokens_make_tree : forall (alnum : N -> bool) (src : str) (m : module) (l : list spot),
  parse_tokens alnum src (ParseOk m) l -> exists ls, lexemes src l ls /\ program ls m.
Proof. exact accepted_program. Qed.
Print Assumptions C60_tokens_make_tree.

(** The lexemes are determined by the source and its tokens. *)
Lemma words_apart (ws1 ws2 n1 n2 : str) : Forall (fun b => (byte_val b <= 32)%N) ws1 -> Forall (fun b => (byte_val b <= 32)%N) ws2 -> word_text n1 -> word_text n2 -> ws1 ++ n1 = ws2 ++ n2 -> n1 = n2.
Proof.
  assert (W : forall n, word_text n -> exists b w, n = b :: w /\ ~ (byte_val b <= 32)%N).
  { intros n (b & w & E & F & _). exists b, w. split; [exact E|]. subst n. inversion F as [|? ? F1 F2]; subst. destruct b; vm_compute in F1 |- *; congruence. }
  revert ws2. induction ws1 as [|b ws1 IH]; intros [|b2 ws2] F1 F2 N1 N2 E; cbn [app] in E.
  - exact E.
  - exfalso. destruct (W _ N1) as (c & w & -> & L). injection E as -> _. inversion F2; auto.
  - exfalso. destruct (W _ N2) as (c & w & -> & L). injection E as <- _. inversion F1; auto.
  - injection E as -> E. inversion F1; inversion F2; subst. eauto.
Qed.
Lemma spells_unique src x a b : spells src x a -> spells src x b -> a = b.
Proof.
  destruct a as [t1 s1], b as [t2 s2]. unfold spells. cbn [fst snd]. intros [-> A] [-> B]. f_equal. generalize dependent (substring src (s_start x) (s_end x)). intros s A B.
  assert (C : forall t, (t = T_TemplateOpen \/ t = T_TemplateClosed) -> (exists opening, (opening = bs "`" \/ opening = bs "}") /\ chunk t opening s1 s) -> (exists opening, (opening = bs "`" \/ opening = bs "}") /\ chunk t opening s2 s) -> s1 = s2).
  { intros t Ht (o1 & O1 & _ & C1) (o2 & O2 & _ & C2).
    destruct Ht as [-> | ->]; subst s; destruct O1 as [-> | ->], O2 as [-> | ->]; cbn [bs app] in C2; try discriminate C2; injection C2 as C2; apply app_inv_tail in C2; auto. }
  destruct (s_token x); try congruence; try exact (C _ (or_introl eq_refl) A B); try exact (C _ (or_intror eq_refl) A B).
  destruct A as (W1 & ws1 & -> & F1), B as (W2 & ws2 & E & F2). injection E as E. exact (words_apart _ _ _ _ F1 F2 W1 W2 E).
Qed.
Theorem C60_lexemes_unique : forall (src : str) (l : list spot) (ls1 ls2 : list lexeme), lexemes src l ls1 -> lexemes src l ls2 -> ls1 = ls2.
Proof.
  intros src l ls1 ls2 H. revert ls2. induction H as [x a S1|x y l a ls S1 N1 H IH|x y l ls R1 H IH]; intros ls2 H2; inversion H2; subst; try contradiction; f_equal; eauto using spells_unique.
Qed.
Print Assumptions C60_lexemes_unique.

(** ** Cases *)
Definition sample : str := bs "import a, {b as c} from 'm'; class A extends B { static get x() { return this.y } constructor(q = 1, ...r) { f(...r) } } for (let i in o) if (i > 2) x[i]++; else { (p, s = [q,, s]) => `t${ {u, 'v': w} }z` } l: do g(/re/.test(1)); while (a ? b : c) try { } catch (e) { new.target }".
Example C60_nonvacuous : exists m, parse_tokens letters sample (ParseOk m) (trace_of sample).
Proof. eexists; exists 60; eexists _, _, _, _; split; [vm_compute; reflexivity|]; split; [vm_compute; reflexivity|]; split; vm_compute; reflexivity. Qed.
Example C60_lexemes : lexemes (bs "x. y = `a${b}c`") (trace_of (bs "x. y = `a${b}c`"))
  [(T_Identifier, bs "x"); (T_Accessor, bs "y"); (T_OperatorAssign, bs "="); (T_TemplateOpen, bs "a"); (T_Identifier, bs "b"); (T_TemplateClosed, bs "c"); (T_EndOfProgram, [])].
Proof.
  let l := eval vm_compute in (trace_of (bs "x. y = `a${b}c`")) in change (trace_of (bs "x. y = `a${b}c`")) with l.
  assert (I : forall c, c <> "`"%byte -> c <> "$"%byte -> c <> "\"%byte -> template_inside [c]) by (intros c C1 C2 C3; apply ti_plain; [assumption..|constructor]).
  repeat first [apply ls_last; split; [reflexivity|vm_compute; reflexivity]
    | apply ls_again; [split; [reflexivity|right; reflexivity]|]
    | apply ls_next; [split; [reflexivity|]|intros [X _]; discriminate X|]].
  all: try (vm_compute; reflexivity).
  - split; [exists "y"%byte, []; repeat split; repeat constructor|]. exists [" "%byte]. split; [reflexivity|]. repeat constructor. vm_compute. discriminate.
  - exists (bs "`"). split; [now left|]. split; [apply I; discriminate|vm_compute; reflexivity].
  - exists (bs "}"). split; [now right|]. split; [apply I; discriminate|vm_compute; reflexivity].
Qed.
(** The grammar is tight where the tokens leave one choice: a name alone is a program of one expression statement. *)
Lemma body_cons l b : body_of l b -> exists s r, l = (T_BraceOpen, s) :: r.
Proof. intros H. destruct H. eauto. Qed.
Lemma expr_name n o l e : expr n o l e -> forall s, l = [(T_Identifier, s)] -> e = E_Identifier s.
Proof.
  induction 1; intros s' Q; auto.
  all: try match goal with Q : ?l ++ _ = [_], X : expr _ _ ?l _ |- _ => assert (N := expr_cons _ _ _ _ X); destruct l as [|y [|z l]]; [now contradiction N|cbn [app] in Q; try discriminate Q; injection Q as -> Q|discriminate Q] end.
  all: try discriminate Q.
  - injection Q as -> ->. match goal with A : atom _ _ _ |- _ => inversion A; reflexivity end.
  - injection Q as -> -> ->. match goal with A : In _ _ |- _ => cbn in A; intuition congruence end.
  - subst. match goal with A : more_exprs [] _ |- _ => inversion A; subst; contradiction end.
  - match goal with A : template_of _ _ |- _ => apply template_cons in A as (? & ? & ? & Q' & N') end. rewrite Q in Q'. injection Q' as <- _ _. now contradiction N'.
  - subst. match goal with A : template_of _ _ |- _ => apply template_cons in A as (? & ? & ? & Q & N'); discriminate Q end.
Qed.
Lemma stmt_cons l x : stmt l x -> l <> [].
Proof.
  intros H. inversion H; subst; try discriminate.
  - match goal with A : body_of _ _ |- _ => apply body_cons in A as (? & ? & ->); discriminate end.
  - intros Q. apply app_eq_nil in Q as [Q _]. match goal with A : expr _ _ _ _ |- _ => exact (expr_cons _ _ _ _ A Q) end.
Qed.
Example C60_one_name : forall (s e : str) (m : module), program [(T_Identifier, s); (T_EndOfProgram, e)] m ->
  exists x y, m = [x] /\ n_item x = St_Expression y /\ n_item y = E_Identifier s.
Proof.
  intros s e m H. inversion H as [s' l m' Hs Q]; subst. change ([(T_Identifier, s); (T_EndOfProgram, e)]) with ([(T_Identifier, s)] ++ [(T_EndOfProgram, e)]) in Q. apply app_inj_tail in Q as [-> _].
  inversion Hs as [|l1 l2 x xs H1 H2 Q]; subst. assert (N := stmt_cons _ _ H1). destruct l1 as [|a [|b l1]]; [now contradiction N| |discriminate Q]. injection Q as -> ->.
  assert (xs = []) as ->. { inversion H2 as [|l3 l4 x' xs' H3 H4 Q]; [reflexivity|]. apply app_eq_nil in Q as [-> _]. now contradiction (stmt_cons _ _ H3). }
  exists x. inversion H1 as [| |l b B|o' l3 l4 y E F Sm Q Q2| |t s0 k l3 l4 ds I| | | | | | | | | | | | | | | | | | | |]; try (apply body_cons in B as (? & ? & E); discriminate E).
  - exists y. split; [reflexivity|]. split; [reflexivity|]. assert (N' := expr_cons _ _ _ _ E). destruct l3 as [|c [|d l3]]; [now contradiction N'| |discriminate Q]. injection Q as -> _. now apply (expr_name _ _ _ _ E).
  - subst. cbn in I. intuition congruence.
Qed.
