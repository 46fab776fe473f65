(** The grammar: what a statement depends on of what follows it. *)
From Coq Require Import List NArith Bool Lia Arith String.
From Coq.Strings Require Import Byte.
From Verif Require Import Bytes Token Ast SpecSyntax Structure Comp CompRun.
Import ListNotations.
Open Scope nat_scope.
Open Scope list_scope.

(** ** Tokens of the grammar are valid *)
Definition sound (x : lexeme) : Prop := fst x <> T_UnexpectedToken /\ fst x <> T_UnexpectedEndOfProgram.
Lemma sound_tok (f : token -> bool) t s : f t = true -> f T_UnexpectedToken = false -> f T_UnexpectedEndOfProgram = false -> sound (t, s).
Proof. intros H A B. split; cbn; intros ->; congruence. Qed.
Lemma sound_in {B} (l : list (token * B)) t b s : In (t, b) l -> ~ In T_UnexpectedToken (map fst l) -> ~ In T_UnexpectedEndOfProgram (map fst l) -> sound (t, s).
Proof. intros I N1 N2. apply (in_map fst) in I. cbn in I. split; cbn; intros ->; contradiction. Qed.
Lemma sound_in2 t op p s : In (t, op, p) infix_operators -> sound (t, s).
Proof.
  intros I. apply (in_map (fun x => fst (fst x))) in I. cbn [fst] in I.
  assert (N : forallb (fun t => match t with T_UnexpectedToken | T_UnexpectedEndOfProgram => false | _ => true end) (map (fun x => fst (fst x)) infix_operators) = true) by reflexivity.
  rewrite forallb_forall in N. specialize (N t I). split; cbn; intros ->; discriminate N.
Qed.
Lemma sound_atom t s e : atom t s e -> sound (t, s).
Proof. destruct 1; split; discriminate. Qed.
Lemma sound_semi nx l : semi nx l -> Forall sound l.
Proof. destruct 1; repeat constructor; discriminate. Qed.
Lemma sound_optional l : optional_semi l -> Forall sound l.
Proof. destruct 1; repeat constructor; discriminate. Qed.
Lemma sound_name k l n : name_of k l n -> Forall sound l.
Proof. destruct 1; repeat constructor; discriminate. Qed.
Lemma sound_label l o : label l o -> Forall sound l.
Proof. destruct 1; repeat constructor; discriminate. Qed.
Lemma sound_closes A (xs : list A) c : closes xs c -> sound c.
Proof. destruct 1; split; discriminate. Qed.
Ltac snd1 := first [assumption | split; discriminate | eapply sound_atom; eassumption | eapply sound_closes; eassumption
  | eapply sound_in; [eassumption|cbn; intuition discriminate|cbn; intuition discriminate]
  | eapply sound_in2; eassumption | eapply (sound_tok is_word); [eassumption|reflexivity|reflexivity]
  | match goal with I : In _ [T_Comma; T_ParenOpen] |- _ => destruct I as [<-|[<-|[]]]; split; discriminate end ].
Ltac snds := repeat first [apply Forall_nil | apply Forall_app; split | apply Forall_cons; [solve [snd1]|]
  | assumption | eapply sound_semi; eassumption | eapply sound_optional; eassumption | eapply sound_name; eassumption | eapply sound_label; eassumption ].
Lemma sound_import_name l x : import_name l x -> Forall sound l.
Proof. destruct 1; snds. Qed.
Lemma sound_imported l x : imported l x -> Forall sound l.
Proof. induction 1; snds; eapply sound_import_name; eassumption. Qed.
Lemma sound_import_more l x : import_more l x -> Forall sound l.
Proof. destruct 1; snds. eapply sound_imported; eassumption. Qed.
Lemma sound_import_clause l x : import_clause l x -> Forall sound l.
Proof. destruct 1; snds; eapply sound_import_more; eassumption. Qed.

Definition Q {A} (l : list lexeme) (x : A) : Prop := Forall sound l.
Definition Q1 {B A} (b : B) (l : list lexeme) (x : A) : Prop := Forall sound l.
Lemma statements_sound nx l ss : statements nx l ss -> Forall sound l.
Proof.
  apply (statements_cind
    (fun n o l e => Forall sound l) Q Q Q Q Q Q Q Q1 Q1 Q Q Q Q Q Q Q Q Q Q Q Q Q1 Q1 Q Q1 Q1
    (fun l st k x => Forall sound l) (fun l st k x => Forall sound l) Q Q1 Q1 Q1 Q1 Q1 Q1 Q Q Q Q Q1 Q1); unfold Q, Q1; intros;
  repeat match goal with H : Forall sound (_ :: _) |- _ => apply Forall_cons_iff in H as [? H] end; snds.
  eapply sound_import_clause; eassumption.
Qed.

(** ** How expressions and statements begin and end *)
Definition w0 : word := Word [] false.
Definition ending (l : list lexeme) : lexeme := last l (T_Semicolon, w0).
Definition good_last (l : list lexeme) : Prop := fst (ending l) <> T_Semicolon.
Definition good_first (l : list lexeme) : Prop := match l with (t, _) :: _ => t <> T_Else | [] => False end.
Lemma ending_cons x y l : ending (x :: y :: l) = ending (y :: l).
Proof. reflexivity. Qed.
Lemma ending_app l1 x l2 : ending (l1 ++ x :: l2) = ending (x :: l2).
Proof. induction l1 as [|y l1 IH]; [reflexivity|]. cbn [app]. destruct l1 as [|z l1]; [reflexivity|]. exact IH. Qed.
Lemma good_app l1 l2 : good_last l2 -> good_last (l1 ++ l2).
Proof. unfold good_last. destruct l2 as [|x l2]; [intros H; destruct H; reflexivity|]. now rewrite ending_app. Qed.
Lemma good_cons x l : good_last l -> good_last (x :: l).
Proof. apply (good_app [x]). Qed.
Lemma good_one t s : t <> T_Semicolon -> good_last [(t, s)].
Proof. intros H. exact H. Qed.
Lemma first_app l1 l2 : good_first l1 -> good_first (l1 ++ l2).
Proof. destruct l1 as [|[t s] l1]; [intros []|]. exact (fun H => H). Qed.
Definition edges (l : list lexeme) : Prop := good_first l /\ good_last l.
Lemma body_last l b : body_of l b -> good_last l.
Proof. destruct 1 as [s l ss c H C]. apply good_cons, good_app. destruct C; discriminate. Qed.
Lemma class_last l b : class_body l b -> good_last l.
Proof. destruct 1 as [s l ss c H C]. apply good_cons, good_app. destruct C; discriminate. Qed.
Lemma function_last k l f : function k l f -> good_last l.
Proof. destruct 1; [|apply good_cons]; apply good_app, good_app; eapply body_last; eassumption. Qed.
Lemma class_of_last k l c : class_of k l c -> good_last l.
Proof. destruct 1; apply good_app; [|apply good_cons, good_app]; eapply class_last; eassumption. Qed.
Lemma atom_edges t s e : atom t s e -> edges [(t, s)].
Proof. destruct 1; split; discriminate. Qed.
Lemma in_edge {B} (l : list (token * B)) t b : In (t, b) l -> ~ In T_Else (map fst l) -> ~ In T_Semicolon (map fst l) -> t <> T_Else /\ t <> T_Semicolon.
Proof. intros I N1 N2. apply (in_map fst) in I. cbn in I. split; intros ->; contradiction. Qed.
Definition R {A} (l : list lexeme) (x : A) : Prop := True.
Definition R1 {B A} (b : B) (l : list lexeme) (x : A) : Prop := True.
Ltac clean := repeat match goal with
  | H : _ /\ _ |- _ => destruct H
  | H : In (?t, _) prefix_operators |- _ => apply in_edge in H; [|cbn; intuition discriminate|cbn; intuition discriminate]
  | H : In (?t, _) postfix_operators |- _ => apply in_edge in H; [|cbn; intuition discriminate|cbn; intuition discriminate]
  | H : In (?t, _) declarations |- _ => apply in_edge in H; [|cbn; intuition discriminate|cbn; intuition discriminate]
  end.
Ltac lasts := repeat first [assumption | eapply body_last; eassumption | eapply function_last; eassumption | eapply class_of_last; eassumption
  | solve [apply good_one; first [assumption | discriminate]] | solve [auto] | apply good_cons | apply good_app].
Ltac firsts := first [assumption | solve [apply first_app; assumption] | discriminate | exact I | solve [auto]].
Ltac edges_by c := apply (c
    (fun n o l e => edges l) (fun l es => es <> [] -> good_last l) R R R R R R (fun o l t => edges l) (fun o l b => good_last l) R R R R (fun l p => good_last l) R R R R R R R R1 R1 R R1 R1
    (fun l st k x => True) (fun l st k x => True) R (fun nx l ss => l <> [] -> good_first l) (fun nx l s => good_first l) (fun nx l ds => good_last l) (fun nx l d => good_last l) R1 R1 R R R R R1 R1); unfold R, R1; intros; try exact I;
  unfold edges in *; try solve [eapply atom_edges; eassumption]; clean; try match goal with |- good_first _ /\ good_last _ => split end; try solve [lasts]; try solve [firsts].
Lemma more_last s l1 l2 es : good_last l1 -> more_exprs l2 es -> (es <> [] -> good_last l2) -> good_last ((T_Comma, s) :: l1 ++ l2).
Proof. intros G H K. destruct H as [|o s2 l3 l4 e es X Y]; [rewrite app_nil_r; now apply good_cons|]. apply good_cons, good_app, K. discriminate. Qed.
Lemma body_first l b : body_of l b -> good_first l.
Proof. destruct 1. discriminate. Qed.
Ltac edges_all c := edges_by c; try congruence; try solve [eapply more_last; eassumption]; eapply body_first; eassumption.
Lemma expr_edges n o l e : expr n o l e -> edges l.
Proof. edges_all expr_cind. Qed.
Lemma declarators_last nx l ds : declarators nx l ds -> good_last l.
Proof. edges_all declarators_cind. Qed.
Lemma statements_first nx l ss : statements nx l ss -> l <> [] -> good_first l.
Proof. edges_all statements_cind. Qed.

(** ** What a statement depends on of what follows *)
(** [l] is followed by [nx]: by no else, and it ends with a semicolon, or [nx] is on a new line and does not continue an expression. *)
Definition apart (l : list lexeme) (nx : lexeme) : Prop :=
  fst nx <> T_Else /\ ((l <> [] /\ fst (ending l) = T_Semicolon) \/ (w_break (snd nx) = true /\ ends 0 nx)).
Lemma ends_weaker nx : ends 0 nx -> ends 1 nx.
Proof. intros [H|[H|[H _]]]; [left; exact H|right; left; exact H|discriminate H]. Qed.
Lemma apart_tail l1 l2 nx : l2 <> [] -> apart (l1 ++ l2) nx -> apart l2 nx.
Proof. intros N [A [[_ B]|B]]; split; auto. left. split; [exact N|]. destruct l2 as [|x l2]; [congruence|]. now rewrite ending_app in B. Qed.
Lemma apart_cons t s l2 nx : t <> T_Semicolon -> apart ((t, s) :: l2) nx -> apart l2 nx.
Proof. intros N A. destruct l2 as [|x l2]; [|apply (apart_tail [(t, s)]); [discriminate|exact A]]. destruct A as [A [[_ B]|B]]; [cbn in B; congruence|]. split; auto. Qed.
Lemma apart_after l1 t s l2 nx : t <> T_Semicolon -> apart (l1 ++ (t, s) :: l2) nx -> apart l2 nx.
Proof. intros N A. apply apart_cons with t s; [exact N|]. apply (apart_tail l1); [discriminate|exact A]. Qed.
(** The end of a statement. *)
Lemma semi_apart nx nx' l1 l2 : semi nx l2 -> apart (l1 ++ l2) nx' -> good_last l1 -> semi nx' l2 /\ (l2 <> [] \/ ends 0 nx').
Proof.
  intros [B|s] [_ A] G; [|split; [constructor|left; discriminate]]. rewrite app_nil_r in A. destruct A as [[_ A]|[B' E]]; [contradiction|]. split; [now constructor|auto].
Qed.
Lemma ends_apart n nx nx' l2 : ends n (next l2 nx) -> (l2 <> [] \/ ends 0 nx') -> n <= 1 -> ends n (next l2 nx').
Proof. destruct l2 as [|x l2]; cbn [next]; [|auto]. intros _ [H|H] L; [congruence|]. destruct n as [|[|n]]; [exact H|now apply ends_weaker|lia]. Qed.
Lemma stmt_first nx l s : stmt nx l s -> good_first l.
Proof. edges_all stmt_cind. Qed.
Ltac some := let H := fresh in intros H; first [discriminate H | apply app_eq_nil in H; destruct H as [_ H]; discriminate H].
Ltac peel H := repeat match type of H with
  | apart (?x :: ?r) _ => apply (apart_tail [x] r) in H; [|solve [some]]
  | apart (?l1 ++ ?x :: ?r) _ => apply (apart_tail l1 (x :: r)) in H; [|solve [some]]
  end; try (apply apart_cons in H; [|discriminate]).
Ltac by_body := match goal with A : apart _ _ |- _ => peel A end; econstructor; try eassumption; match goal with IH : forall _, apart _ _ -> _ |- _ => apply IH; assumption end.
Lemma semi_cons nx nx' x l1 l2 : semi nx l2 -> apart (x :: l1 ++ l2) nx' -> good_last (x :: l1) -> semi nx' l2 /\ (l2 <> [] \/ ends 0 nx').
Proof. intros H A G. now apply (semi_apart nx nx' (x :: l1)). Qed.
Lemma label_last x l o : label l o -> fst x <> T_Semicolon -> good_last (x :: l).
Proof. intros H N. destruct H; [exact N|discriminate]. Qed.
Lemma statements_apart nx l ss : statements nx l ss -> forall nx', apart l nx' \/ l = [] -> statements nx' l ss.
Proof.
  apply (statements_cind
    (fun n o l e => True) R R R R R R R R1 R1 R R R R R R R R R R R R R1 R1 R R1 R1
    (fun l st k x => True) (fun l st k x => True) R (fun nx l ss => forall nx', apart l nx' \/ l = [] -> statements nx' l ss) (fun nx l s => forall nx', apart l nx' -> stmt nx' l s)
    (fun nx l ds => forall nx', ends 1 nx' -> declarators nx' l ds) (fun nx l d => forall nx', ends 1 nx' -> declarator_of nx' l d) R1 R1 R R R R R1 R1); unfold R, R1; clear nx l ss; intros; try exact I.
  - constructor.
  - rename H into Hs, H0 into IH, H1 into Hss, H2 into IHs, H3 into A. constructor.
    + destruct l2 as [|y l2]; cbn [next] in *; [|exact Hs]. rewrite app_nil_r in A. destruct A as [A| ->]; [now apply IH|]. apply stmt_first in Hs. destruct Hs.
    + apply IHs. destruct l2 as [|y l2]; [now right|]. left. destruct A as [A|A]; [|apply app_eq_nil in A; destruct A; discriminate]. apply (apart_tail l1); [discriminate|exact A].
  - constructor.
  - constructor.
  - now constructor.
  - destruct (semi_apart _ nx' l1 l2 H2 H4 (proj2 (expr_edges _ _ _ _ H))) as [S1 S2]. econstructor; eauto using ends_apart.
  - destruct (semi_apart nx nx' ((T_Import, s) :: (t, s') :: l1) l2 H2 H4) as [S1 S2]. { apply good_cons.  apply expr_edges in H. exact (proj2 H). } econstructor; eauto using ends_apart.
  - destruct (semi_cons nx nx' (t, s) l1 l2 H2 H3) as [S1 S2]. { apply good_cons. eapply declarators_last; eassumption. } econstructor; eauto. destruct l2 as [|y l2]; cbn [next] in *; [|exact H0]. apply H1. destruct S2 as [S2|S2]; [congruence|now apply ends_weaker].
  - destruct (semi_cons nx nx' (T_Return, s) [] l H H0) as [S1 _]; [discriminate|]. now constructor.
  - destruct (semi_cons nx nx' (T_Return, s) l1 l2 H2 H4) as [S1 S2]. { apply good_cons. exact (proj2 (expr_edges _ _ _ _ H)). } econstructor; eauto using ends_apart.
  - destruct (semi_cons nx nx' (T_Break, s) l1 l2 H0 H1) as [S1 S2]. { eapply label_last; [eassumption|discriminate]. } now constructor.
  - destruct (semi_cons nx nx' (T_Continue, s) l1 l2 H0 H1) as [S1 S2]. { eapply label_last; [eassumption|discriminate]. } now constructor.
  - destruct (semi_cons nx nx' (T_Throw, s) l1 l2 H1 H3) as [S1 S2]. { apply good_cons. exact (proj2 (expr_edges _ _ _ _ H)). } econstructor; eauto using ends_apart.
  - by_body.
  - now constructor.
  - now constructor.
  - assert (N := proj1 H4). by_body.
  - by_body.
  - by_body.
  - econstructor; eassumption.
  - by_body.
  - by_body.
  - by_body.
  - by_body.
  - now constructor.
  - econstructor; eassumption.
  - now constructor.
  - now constructor.
  - constructor. auto.
  - constructor; auto.
  - now constructor.
  - econstructor; eauto.
Qed.

(** ** Programs one after the other *)
Lemma statements_app nx l1 m1 : forall l2 m2, statements (next l2 nx) l1 m1 -> statements nx l2 m2 -> statements nx (l1 ++ l2) (m1 ++ m2).
Proof.
  intros l2 m2 H H2. remember (next l2 nx) as nx1 eqn:E. induction H as [nx1|nx1 k1 k2 x xs Hx Hs IH]; subst; [exact H2|].
  rewrite <- app_assoc. cbn [app]. apply ss_cons; [|auto]. destruct k2 as [|y k2]; [exact Hx|exact Hx].
Qed.
Lemma programs_app l1 m1 e l2 s2 m2 : program (l1 ++ [e]) m1 -> program (l2 ++ [(T_EndOfProgram, s2)]) m2 -> apart l1 (next l2 (T_EndOfProgram, s2)) \/ l1 = [] ->
  program (l1 ++ l2 ++ [(T_EndOfProgram, s2)]) (m1 ++ m2).
Proof.
  intros H1 H2 A. inversion H1 as [s k1 k2 S1 E1]. inversion H2 as [s' k1' k2' S2 E2]. subst.
  apply app_inj_tail in E1 as [-> <-]. apply app_inj_tail in E2 as [-> E2]. injection E2 as <-. rewrite app_assoc. constructor. apply statements_app; [|exact S2].
  eapply statements_apart; eassumption.
Qed.

(** ** The mark on the first lexeme does not matter *)
Definition reword (l : list lexeme) (x : bool) : list lexeme := match l with (t, w) :: r => (t, Word (w_text w) x) :: r | [] => [] end.
Lemma reword_app l1 l2 x : l1 <> [] -> reword (l1 ++ l2) x = reword l1 x ++ l2.
Proof. destruct l1 as [|[t w] l1]; [congruence|reflexivity]. Qed.
Lemma not_first_reword ts l x : not_first ts l -> not_first ts (reword l x).
Proof. destruct l as [|[t w] l]; exact (fun H => H). Qed.
Lemma expr_some n o l e : expr n o l e -> l <> [].
Proof. intros H ->. destruct (expr_edges _ _ _ _ H) as [[] _]. Qed.
Lemma stmt_some nx l s : stmt nx l s -> l <> [].
Proof. intros H ->. destruct (stmt_first _ _ _ H). Qed.
Lemma atom_reword t s e x : atom t s e -> atom t (Word (w_text s) x) e.
Proof. destruct 1; match goal with |- atom ?t ?w (E_Identifier _) => exact (at_name w) | |- atom T_LiteralString ?w _ => exact (at_string w) | |- atom T_LiteralNumber ?w _ => exact (at_number w) | |- atom T_LiteralBinary ?w _ => exact (at_binary w) | |- atom T_LiteralRegEx ?w _ => exact (at_regex w) | _ => constructor end. Qed.
Lemma body_reword l b x : body_of l b -> body_of (reword l x) b.
Proof. destruct 1. now constructor. Qed.
Lemma template_reword op l t x : template_of op l t -> template_of op (reword l x) t.
Proof. destruct 1; [apply tm_last; assumption|]. eapply tm_more; eassumption. Qed.
Lemma expr_reword n o l e x : expr n o l e -> expr n o (reword l x) e.
Proof.
  induction 1; rewrite ?reword_app by (eapply expr_some; eassumption); try (econstructor; eassumption).
  - apply x_atom. now apply atom_reword.
  - apply x_template. now apply template_reword.
Qed.
Lemma stmt_reword nx l s x : stmt nx l s -> stmt nx (reword l x) s.
Proof.
  induction 1; try (econstructor; eassumption).
  - apply st_block. now apply body_reword.
  - rewrite reword_app by (eapply expr_some; eassumption). eapply st_expression; eauto using expr_reword, not_first_reword.
  - apply (st_import_name nx o (Word (w_text s) x)); auto. exact (expr_reword _ _ _ _ x H).
  - exact (st_labeled nx (Word (w_text s1) x) s2 l b H).
Qed.
Lemma statements_reword nx l ss x : statements nx l ss -> statements nx (reword l x) ss.
Proof. destruct 1; [constructor|]. rewrite reword_app by (eapply stmt_some; eassumption). apply ss_cons; [now apply stmt_reword|assumption]. Qed.
Lemma program_reword l m x : program l m -> program (reword l x) m.
Proof.
  destruct 1 as [s l m H]. destruct l as [|y l].
  - cbn. inversion H; subst; [apply (pg_program _ []); constructor|]. exfalso. match goal with H0 : _ ++ _ = [] |- _ => apply app_eq_nil in H0; destruct H0 as [-> _] end. eapply stmt_some; [eassumption|reflexivity].
  - rewrite reword_app by discriminate. constructor. now apply statements_reword.
Qed.
