(** Facts about generated code. *)
From Coq Require Import List NArith Bool String Lia.
From Coq.Strings Require Import Byte.
From Verif Require Import Bytes Token Lexer Ast AstInd SpecTree SpecCodegen Codegen.
Import ListNotations.
Open Scope nat_scope.

Definition c_any (a : any) : code :=
  match a with
  | A_Ident n => c_ident n
  | A_Expr n => c_expression (n_item n)
  | A_Tpl n => c_template (n_item n)
  | A_Prop n => c_property (n_item n)
  | A_Key n => c_key (n_item n)
  | A_Pat n => c_pattern (n_item n)
  | A_Func n => c_func (n_item n)
  | A_Member n => c_member (n_item n)
  | A_Body n => c_block c_statement (n_item n)
  | A_ClassBody n => c_block c_member (n_item n)
  | A_Cases n => c_block c_case (n_item n)
  | A_Stmt n => c_statement (n_item n)
  | A_Declarator n => c_declarator (n_item n)
  | A_ForInit n => c_for_init (n_item n)
  | A_Case n => c_case (n_item n)
  | A_Catch n => c_catch (n_item n)
  | A_Spec n => c_specifier (n_item n)
  end.

(** ** Properties of code closed under sequencing *)
Section Closed.
  Variable T : code -> Prop.
  Hypothesis T_nil : T [].
  Hypothesis T_app : forall c d, T c -> T d -> T (c ++ d).
  Hypothesis T_bytes : forall s, T [GBytes s].
  Hypothesis T_sp : T [GPretty x20].
  Hypothesis T_nl : T [GNewLine].
  Hypothesis T_nest : forall c, T c -> T (GIndent :: c ++ [GDedent]).

  Lemma T_cb s c : T c -> T (GBytes s :: c). Proof. apply (T_app [_]); auto. Qed.
  Lemma T_cs c : T c -> T (GPretty x20 :: c). Proof. apply (T_app [_]); auto. Qed.
  Lemma T_cn c : T c -> T (GNewLine :: c). Proof. apply (T_app [_]); auto. Qed.
  Ltac conses := repeat first [assumption | apply T_nil | apply T_cb | apply T_cs | apply T_cn | apply T_app].

  Section L.
    Context {A : Set} (f : A -> code).
    Definition Tn (n : node A) : Prop := T (f (n_item n)).
    Lemma T_list_rest l : Forall Tn l -> T (c_list_rest f l).
    Proof. induction 1 as [|n l Hn Hl IH]; simpl; conses. Qed.
    Lemma T_list l : Forall Tn l -> T (c_list f l).
    Proof. destruct 1 as [|n l Hn Hl]; simpl; auto. apply T_app; auto. now apply T_list_rest. Qed.
    Lemma T_block_rest l : Forall Tn l -> T (c_block_rest f l).
    Proof. induction 1 as [|n l Hn Hl IH]; simpl; conses. Qed.
    Lemma T_items l : Forall Tn l -> T (c_items f l).
    Proof.
      destruct 1 as [|n l Hn Hl]; simpl; auto.
      replace (GIndent :: GNewLine :: c_node f n ++ c_block_rest f l ++ [GDedent; GNewLine])
        with ((GIndent :: ([GNewLine] ++ c_node f n ++ c_block_rest f l) ++ [GDedent]) ++ [GNewLine])
        by (simpl; rewrite <- !app_assoc; reflexivity).
      apply T_app; auto. apply T_nest. apply T_app; auto. apply T_app; auto. now apply T_block_rest.
    Qed.
    Lemma T_block l : Forall Tn l -> T (c_block f (Block l)).
    Proof. intros H. unfold c_block. apply T_app; [apply T_bytes|]. apply T_app; [now apply T_items|apply T_bytes]. Qed.
    Lemma T_props_rest l : Forall Tn l -> T (c_props_rest f l).
    Proof. induction 1 as [|n l Hn Hl IH]; simpl; conses. Qed.
    Lemma T_props l : Forall Tn l -> T (c_props f l).
    Proof.
      destruct 1 as [|n l Hn Hl]; [apply T_bytes|]. simpl. unfold w.
      replace (GBytes (bs "{") :: GIndent :: GNewLine :: c_node f n ++ c_props_rest f l ++ GDedent :: GNewLine :: [GBytes (bs "}")])
        with ([GBytes (bs "{")] ++ (GIndent :: ([GNewLine] ++ c_node f n ++ c_props_rest f l) ++ [GDedent]) ++ [GNewLine] ++ [GBytes (bs "}")])
        by (simpl; rewrite <- !app_assoc; reflexivity).
      apply T_app; auto. apply T_app; auto. apply T_nest. apply T_app; auto. apply T_app; auto. now apply T_props_rest.
    Qed.
    Lemma T_template_rest l : Forall Tn l -> forall qs, T (c_template_rest f qs l).
    Proof.
      induction 1 as [|n l Hn Hl IH]; intros [|q qs]; simpl; auto.
      conses. apply IH.
    Qed.
  End L.
  Lemma T_bound n k : T (c_expression (n_item n)) -> T (c_bound c_expression n k).
  Proof.
    unfold c_bound. destruct (Nat.ltb _ _); auto. intros H. apply T_app; [apply T_bytes|]. apply T_app; [auto|apply T_bytes].
  Qed.
  Lemma T_w s : T (w s). Proof. apply T_bytes. Qed.
  Lemma T_wstr s : T (wstr s). Proof. apply T_bytes. Qed.
  Lemma T_spc : T sp. Proof. apply T_sp. Qed.
  Lemma T_space b : T (space_if b). Proof. destruct b; [apply T_bytes|apply T_sp]. Qed.
  Lemma T_id n : T (c_ident n). Proof. apply T_bytes. Qed.
  Lemma T_name n : T (c_name n). Proof. destruct n as [|[n|]|n]; simpl; conses. Qed.
  Lemma T_keyword s n : T (c_keyword s n). Proof. destruct n; simpl; conses. Qed.
  Lemma T_kind k : T (c_kind k). Proof. destruct k; apply T_bytes. Qed.
  Lemma T_literal l : T (c_literal l). Proof. destruct l; apply T_bytes. Qed.
  Lemma T_jump s l : T (c_jump s l).
  Proof. destruct l; simpl; conses. Qed.
  Lemma T_spec s : T (c_specifier s).
  Proof.
    destruct s; simpl; [destruct (str_eqb _ _)| |]; conses.
  Qed.
  Lemma T_specs l : T (c_list c_specifier l).
  Proof. apply T_list. apply Forall_forall. intros n _. apply T_spec. Qed.

  Ltac sub H := match type of H with
    | Forall _ (_ :: _) => let H1 := fresh in let H2 := fresh in
        inversion H as [|? ? H1 H2]; subst; clear H; sub H2
    | Forall _ (_ ++ _) => let H1 := fresh in let H2 := fresh in
        apply Forall_app in H as [H1 H2]; sub H1; sub H2
    | Forall _ (map _ _) => rewrite Forall_map in H
    | Forall _ [] => clear H
    | _ => idtac
    end.
  Ltac close :=
    repeat first [assumption | apply T_w | apply T_wstr | apply T_spc | apply T_space | apply T_id | apply T_name | apply T_keyword
      | apply T_kind | apply T_literal | apply T_jump | apply T_spec | apply T_nil | apply T_specs
      | apply T_bound | apply T_list | apply T_items | apply T_block | apply T_props | apply T_template_rest | apply T_app | apply T_cb | apply T_cs | apply T_cn
      | match goal with |- T (match operator_category ?x with _ => _ end) => destruct (operator_category x) end ].

  Lemma T_func f : Forall (fun a => T (c_any a)) (children_func f) -> T (c_func f).
  Proof. destruct f as [n g ps [s e b]]. simpl. intros H. apply Forall_app in H as [H0 H]. apply Forall_app in H as [H1 H2]. sub H1. inversion H2; subst. close. Qed.
  Lemma T_class f : Forall (fun a => T (c_any a)) (children_class f) -> T (c_class f).
  Proof.
    destruct f as [n [x|] [s e b]]; simpl; intros H; apply Forall_app in H as [H0 H].
    - inversion H as [|? ? H1 H2]; subst. inversion H2; subst. close.
    - inversion H; subst. close.
  Qed.
  Lemma T_template_lit t : Forall (fun a => T (c_any a)) (children_template t) -> T (c_template t).
  Proof.
    destruct t as [es qs]. simpl. intros H. apply Forall_app in H as [H0 _]. sub H0.
    destruct qs as [|q [|q' qs]]; close.
  Qed.

  Theorem code_closed a : (forall m, within (A_Member m) a -> n_item m = CM_Error -> T [GPanic]) -> T (c_any a).
  Proof.
    revert a. apply (tree_ind (fun a => (forall m, within (A_Member m) a -> n_item m = CM_Error -> T [GPanic]) -> T (c_any a))).
    intros a IH HE.
    assert (K : Forall (fun a => T (c_any a)) (children a)).
    { rewrite Forall_forall in *. intros c Hc. apply IH; auto. intros m W. apply HE. econstructor; eauto. }
    clear IH. destruct a as [n|n|n|n|n|n|n|n|n|n|n|n|n|n|n|n|n]; destruct n as [s e x]; cbn [c_any n_item children] in *.
    - close.
    - destruct x as [| | | | | | | | | | | | | | | | |ps [x|x]| | | ]; simpl in K |- *; try solve [sub K; close].
      + now apply T_template_lit.
      + sub K. destruct ps as [|p [|p' ps]]; [close|destruct (n_item p) eqn:Ep; close|close].
      + sub K. destruct ps as [|p [|p' ps]]; [close|destruct (n_item p) eqn:Ep; close|close].
      + now apply T_func.
      + now apply T_class.
    - now apply T_template_lit.
    - destruct x; sub K; simpl; close.
    - destruct x; sub K; simpl; close.
    - destruct x; sub K; simpl; close.
    - now apply T_func.
    - destruct x as [|st k kd v|st k v]; [apply (HE _ (within_refl _)); reflexivity| |]; sub K; simpl; destruct st; try destruct kd; close.
    - destruct x. sub K. close.
    - destruct x. sub K. close.
    - destruct x. sub K. close.
    - destruct x as [| |x|k ds|[v|]|l|l|v|t c [a|]|t b|b t|[i|] [t|] [u|] b|l r b|l r b|b [h|] [f|]|[b]|l b|f|c|d c|ss src]; cbn [c_statement children_statement app opt b_body] in K |- *; try solve [sub K; close].
      + sub K. destruct (is_allowed_as_bare_statement _); close.
      + now apply T_func.
      + now apply T_class.
      + apply T_app; [close|]. destruct ss; [close|]. set (l := _ :: _). clearbody l. destruct (filter is_named_specifier l), (filter _ l); close.
    - destruct x as [p [i|]]; sub K; simpl; close.
    - destruct x; sub K; simpl; close.
    - destruct x as [[t|] b]; cbn [opt app c_case] in *; sub K; close.
    - destruct x; cbn [c_catch]; sub K; close.
    - close.
  Qed.
End Closed.

(** ** Running generated code *)
Inductive tidy : code -> Prop :=
| tidy_nil : tidy []
| tidy_app c d : tidy c -> tidy d -> tidy (c ++ d)
| tidy_bytes s : tidy [GBytes s]
| tidy_sp : tidy [GPretty x20]
| tidy_nl : tidy [GNewLine]
| tidy_nest c : tidy c -> tidy (GIndent :: c ++ [GDedent])
| tidy_panic : tidy [GPanic].

Definition clean (c : code) : Prop := ~ In GPanic c.

Lemma pretty_of_app a b : pretty_of (a ++ b) = pretty_of a ++ pretty_of b.
Proof. unfold pretty_of. now rewrite map_app, concat_app. Qed.
Lemma minified_of_app a b : minified_of (a ++ b) = minified_of a ++ minified_of b.
Proof. unfold minified_of. now rewrite map_app, concat_app. Qed.
Lemma blank_indentation n : Forall blank (indentation n).
Proof. unfold indentation. induction n; simpl; repeat constructor; auto. Qed.

Lemma obind_assoc {A B C} (m : outcome A) (f : A -> outcome B) (g : B -> outcome C) :
  obind (obind m f) g = obind m (fun x => obind (f x) g).
Proof. destruct m; reflexivity. Qed.
Lemma obind_ext {A B} (m : outcome A) (f g : A -> outcome B) : (forall x, f x = g x) -> obind m f = obind m g.
Proof. intros H. destruct m; simpl; auto. Qed.
Lemma obind_ret {A} (m : outcome A) : obind m (fun x => Done x) = m.
Proof. destruct m; reflexivity. Qed.

Definition behaves (c : code) (dent : nat) (sg : list (str * str)) : Prop :=
  (forall d, run_pretty dent (c ++ d) = (r <~ run_pretty dent d ;; Done (pretty_of sg ++ r))) /\
  (forall d, run_min (c ++ d) = (r <~ run_min d ;; Done (minified_of sg ++ r))) /\
  blanks sg /\ (forall s, In (GBytes s) c -> In s (map fst sg)).
Lemma tidy_behaves c : tidy c -> clean c -> forall dent, exists sg, behaves c dent sg.
Proof.
  induction 1 as [|c d Hc IHc Hd IHd|s| | |c Hc IHc|]; intros K dent.
  - exists []. split; [|split; [|split]]; simpl; intros; try rewrite obind_ret; auto. constructor.
  - assert (Kc : clean c) by (intros I; apply K, in_app_iff; auto).
    assert (Kd : clean d) by (intros I; apply K, in_app_iff; auto).
    destruct (IHc Kc dent) as (s1 & P1 & M1 & B1 & I1). destruct (IHd Kd dent) as (s2 & P2 & M2 & B2 & I2).
    exists (s1 ++ s2). split; [|split; [|split]].
    + intros x. rewrite <- app_assoc, P1, P2, obind_assoc. apply obind_ext. intros r. simpl. now rewrite pretty_of_app, app_assoc.
    + intros x. rewrite <- app_assoc, M1, M2, obind_assoc. apply obind_ext. intros r. simpl. now rewrite minified_of_app, app_assoc.
    + apply Forall_app; auto.
    + intros s I. rewrite map_app. apply in_app_iff. apply in_app_iff in I as [I|I]; auto.
  - exists [(s, [])]. split; [|split; [|split]]; simpl.
    + intros d. apply obind_ext. intros r. unfold pretty_of. simpl. now rewrite !app_nil_r.
    + intros d. apply obind_ext. intros r. unfold minified_of. simpl. now rewrite !app_nil_r.
    + repeat constructor.
    + intros x [E|[]]. injection E as ->. auto.
  - exists [([], [x20])]. split; [|split; [|split]]; simpl.
    + intros d. apply obind_ext. reflexivity.
    + intros d. now rewrite obind_ret.
    + repeat constructor.
    + intros x [E|[]]. discriminate.
  - exists [([], x0a :: indentation dent)]. split; [|split; [|split]]; simpl.
    + intros d. apply obind_ext. intros r. unfold pretty_of. simpl. now rewrite !app_nil_r.
    + intros d. now rewrite obind_ret.
    + constructor; [|constructor]. constructor; [right; auto|]. apply blank_indentation.
    + intros x [E|[]]. discriminate.
  - assert (Kc : clean c) by (intros I; apply K; right; apply in_app_iff; auto).
    destruct (IHc Kc (S dent)) as (sg & P1 & M1 & B1 & I1). exists sg. split; [|split; [|split]]; auto.
    + intros d. simpl. rewrite <- app_assoc, P1. reflexivity.
    + intros d. simpl. rewrite <- app_assoc, M1. reflexivity.
    + intros s [E|I]; [discriminate|]. apply in_app_iff in I as [I|[E|[]]]; [auto|discriminate].
  - destruct K. left. reflexivity.
Qed.
Lemma tidy_panics c : tidy c -> In GPanic c -> forall dent d,
  run_pretty dent (c ++ d) = Panicked /\ run_min (c ++ d) = Panicked.
Proof.
  induction 1 as [|c d Hc IHc Hd IHd|s| | |c Hc IHc|]; intros K dent x; simpl in K; try (intuition discriminate).
  - rewrite <- app_assoc.
    assert (D : In GPanic c \/ clean c).
    { unfold clean. clear. induction c as [|o c IH]; [right; intros []|]. destruct IH as [IH|IH]; [left; right; auto|].
      destruct o; try (right; intros [E|I]; [discriminate|auto]). left. left. reflexivity. }
    destruct D as [D|D]; [now apply IHc|].
    apply in_app_iff in K as [K|K]; [contradiction|].
    destruct (tidy_behaves c Hc D dent) as (sg & P1 & M1 & _). rewrite P1, M1.
    destruct (IHd K dent x) as [-> ->]. split; reflexivity.
  - destruct K as [K|K]; [discriminate|]. apply in_app_iff in K as [K|[K|[]]]; [|discriminate].
    simpl. rewrite <- app_assoc. apply (IHc K (S dent)).
Qed.
Lemma tidy_any a : tidy (c_any a).
Proof. apply code_closed; intros; constructor; auto. Qed.
Lemma clean_any a : (forall m, within (A_Member m) a -> n_item m <> CM_Error) -> clean (c_any a).
Proof.
  intros H. apply code_closed.
  - intros [].
  - intros c d Hc Hd I. apply in_app_iff in I. unfold clean in *. tauto.
  - intros s [E|[]]. discriminate.
  - intros [E|[]]. discriminate.
  - intros [E|[]]. discriminate.
  - intros c Hc [E|I]; [discriminate|]. apply in_app_iff in I as [I|[E|[]]]; [auto|discriminate].
  - intros m W E. destruct (H m W E).
Qed.
Lemma tidy_block_rest l : tidy (c_block_rest c_statement l).
Proof.
  induction l as [|n l IH]; [constructor|]. simpl. apply (tidy_app [_]); [constructor|]. apply tidy_app; auto.
  apply (tidy_any (A_Stmt n)).
Qed.
Lemma tidy_module m : tidy (c_module m).
Proof.
  destruct m as [|s m]; simpl; [constructor|]. apply tidy_app; [apply (tidy_any (A_Stmt s))|apply tidy_block_rest].
Qed.
Lemma clean_module m : (forall x, in_module (A_Member x) m -> n_item x <> CM_Error) -> clean (c_module m).
Proof.
  intros H. assert (K : forall l, incl l m -> clean (c_block_rest c_statement l)).
  { induction l as [|n l IH]; simpl; intros Hl; [intros []|]. intros [E|I]; [discriminate|].
    apply in_app_iff in I as [I|I].
    - revert I. apply (clean_any (A_Stmt n)). intros x W. apply H. exists n. split; auto. apply Hl. left; auto.
    - revert I. apply IH. intros z Hz. apply Hl. right; auto. }
  destruct m as [|s m]; simpl; [intros []|]. intros I. apply in_app_iff in I as [I|I].
  - revert I. apply (clean_any (A_Stmt s)). intros x W. apply H. exists s. split; auto. left; auto.
  - revert I. apply K. intros z Hz. right; auto.
Qed.
Lemma panic_dec c : In GPanic c \/ clean c.
Proof.
  unfold clean. induction c as [|o c IH]; [right; intros []|]. destruct IH as [IH|IH]; [left; right; auto|].
  destruct o; try (right; intros [E|I]; [discriminate|auto]). left. left. reflexivity.
Qed.
Lemma codegen_behaves m : 
  (codegen m true = Panicked /\ codegen m false = Panicked) \/
  exists sg, behaves (c_module m) 0 sg /\ codegen m false = Done (pretty_of sg) /\ codegen m true = Done (minified_of sg).
Proof.
  unfold codegen. destruct (panic_dec (c_module m)) as [P|C].
  - left. destruct (tidy_panics _ (tidy_module m) P 0 []) as [E1 E2]. rewrite app_nil_r in *. auto.
  - right. destruct (tidy_behaves _ (tidy_module m) C 0) as (sg & B). exists sg. split; auto.
    destruct B as (P1 & M1 & _). specialize (P1 []). specialize (M1 []). rewrite app_nil_r in *. simpl in *.
    rewrite P1, M1, !app_nil_r. auto.
Qed.

(** ** The texts of a tree are written *)
Lemma own_written a x : own_text a x -> In (GBytes x) (c_any a).
Proof.
  destruct a as [n|n|n|n|n|n|n|n|n|n|n|n|n|n|n|n|n]; simpl; try tauto; destruct n as [s e y]; cbn [n_item].
  - intros ->. left. reflexivity.
  - destruct y; try tauto; [|destruct l]; try tauto; intros ->; left; reflexivity.
  - destruct y; try tauto; intros ->; left; reflexivity.
  - destruct y; try tauto; intros ->; left; reflexivity.
  - destruct y; try tauto; intros ->; left; reflexivity.
  - destruct y; try tauto; intros ->; [left; reflexivity|]. simpl. right. 
    destruct specifiers; [right; left; reflexivity|]. set (l := _ :: _). clearbody l.
    rewrite !in_app_iff. right. right. right. left. reflexivity.
Qed.

Section Incl.
  Context {A : Set} (f : A -> code).
  Lemma incl_list_rest n l : In n l -> incl (f (n_item n)) (c_list_rest f l).
  Proof.
    induction l as [|m l IH]; simpl; intros []; subst; intros z Hz; right; right; apply in_app_iff; [left; exact Hz|right; apply IH; auto].
  Qed.
  Lemma incl_list n l : In n l -> incl (f (n_item n)) (c_list f l).
  Proof.
    destruct l as [|m l]; simpl; intros []; subst; intros z Hz; apply in_app_iff; [left; exact Hz|right; eapply incl_list_rest; eauto].
  Qed.
  Lemma incl_block_rest n l : In n l -> incl (f (n_item n)) (c_block_rest f l).
  Proof.
    induction l as [|m l IH]; simpl; intros []; subst; intros z Hz; right; apply in_app_iff; [left; exact Hz|right; apply IH; auto].
  Qed.
  Lemma incl_items n l : In n l -> incl (f (n_item n)) (c_items f l).
  Proof.
    destruct l as [|m l]; simpl; intros []; subst; intros z Hz; right; right; apply in_app_iff; [left; exact Hz|right].
    apply in_app_iff. left. eapply incl_block_rest; eauto.
  Qed.
  Lemma incl_block n l : In n l -> incl (f (n_item n)) (c_block f (Block l)).
  Proof. intros H z Hz. unfold c_block. apply in_app_iff. right. apply in_app_iff. left. eapply incl_items; eauto. Qed.
  Lemma incl_props_rest n l : In n l -> incl (f (n_item n)) (c_props_rest f l).
  Proof.
    induction l as [|m l IH]; simpl; intros []; subst; intros z Hz; right; right; apply in_app_iff; [left; exact Hz|right; apply IH; auto].
  Qed.
  Lemma incl_props n l : In n l -> incl (f (n_item n)) (c_props f l).
  Proof.
    destruct l as [|m l]; [intros []|]. intros H z Hz. simpl in H. unfold c_props. rewrite !in_app_iff. right. right.
    destruct H as [->|H]; [left; exact Hz|right; left]. eapply incl_props_rest; eauto.
  Qed.
  Lemma incl_template_e n l qs : In n l -> List.length qs = List.length l -> incl (f (n_item n)) (c_template_rest f qs l).
  Proof.
    revert qs. induction l as [|m l IH]; intros [|q qs]; simpl; intros I L; try discriminate; [destruct I..|].
    intros z Hz. right. right. apply in_app_iff. destruct I as [->|I]; [left; exact Hz|right].
    right. right. right. apply (IH qs); auto.
  Qed.
  Lemma incl_template_q q l qs : In q qs -> List.length qs = List.length l -> incl (c_ident q) (c_template_rest f qs l).
  Proof.
    revert qs. induction l as [|m l IH]; intros [|q' qs]; simpl; intros I L; try discriminate; [destruct I..|].
    intros z Hz. right. right. apply in_app_iff. right. right. right. destruct I as [->|I].
    - simpl in Hz. destruct Hz as [<-|[]]. left. reflexivity.
    - right. apply (IH qs); auto.
  Qed.
End Incl.
Lemma incl_bound n k : incl (c_expression (n_item n)) (c_bound c_expression n k).
Proof. unfold c_bound. destruct (Nat.ltb _ _); intros z Hz; auto. rewrite !in_app_iff. auto. Qed.
Lemma incl_name c n : In c (children_name n) -> incl (c_any c) (c_name n).
Proof. destruct n as [|[n|]|n]; simpl; intros H; try tauto; destruct H as [<-|[]]; intros z Hz; right; exact Hz. Qed.
Lemma incl_func c f : In c (children_func f) -> incl (c_any c) (c_func f).
Proof.
  destruct f as [n g ps b]. simpl. intros H z Hz. rewrite !in_app_iff in *. destruct H as [H|[H|[<-|[]]]].
  - right. left. eapply incl_name; eauto.
  - apply in_map_iff in H as (p & <- & H). right. right. right. apply in_app_iff. left. eapply incl_list; eauto.
  - right. right. right. apply in_app_iff. right. right. right. exact Hz.
Qed.
Lemma incl_class c f : In c (children_class f) -> incl (c_any c) (c_class f).
Proof.
  destruct f as [n x b]. simpl. intros H z Hz. rewrite !in_app_iff in *. destruct H as [H|[H|[<-|[]]]].
  - right. left. eapply incl_name; eauto.
  - destruct x as [x|]; [|destruct H]. destruct H as [<-|[]]. right. right. left. right. exact Hz.
  - right. right. right. right. exact Hz.
Qed.
Lemma incl_template c es qs : List.length qs = S (List.length es) -> In c (children_template (Template es qs)) ->
  incl (c_any c) (c_template (Template es qs)).
Proof.
  simpl. intros L H z Hz. destruct qs as [|q qs]; [discriminate|]. simpl in L. injection L as L.
  assert (G : In z (c_ident q ++ c_template_rest c_expression qs es)).
  { apply in_app_iff. apply in_app_iff in H as [H|H].
    - apply in_map_iff in H as (e & <- & H). right. eapply (incl_template_e c_expression e); eauto.
    - apply in_map_iff in H as (i & <- & H). destruct H as [<-|H]; [left; exact Hz|right].
      eapply (incl_template_q c_expression i); eauto. }
  right. apply in_app_iff. left. destruct qs; [|exact G].
  apply in_app_iff in G as [G|G]; [exact G|]. destruct es; [destruct G|discriminate].
Qed.

Lemma child_written a c : template_complete a -> In c (children a) -> incl (c_any c) (c_any a).
Proof.
  intros HT H z Hz.
  Ltac spl H := match type of H with
    | In _ (_ :: _) => let H' := fresh "H" in destruct H as [H'|H]; [subst|spl H]
    | In _ [] => destruct H
    | In _ (_ ++ _) => let H' := fresh "H" in apply in_app_iff in H as [H'|H]; [spl H'|spl H]
    | In _ (map _ _) => let n := fresh "n" in let H' := fresh "H" in apply in_map_iff in H as (n & <- & H')
    | _ => idtac
    end.
  Ltac fin Hz := cbn [c_any] in Hz; unfold c_node; rewrite ?in_app_iff; tauto.
  destruct a as [n|n|n|n|n|n|n|n|n|n|n|n|n|n|n|n|n]; destruct n as [s e x]; cbn [c_any n_item children] in *.
  - destruct H.
  - destruct x as [| | |l|b|b|o p|o p|m p|f args|op l r|op x|op x|t q a|t|t q|x|ps b|b|f|f];
      cbn [c_expression children_expression] in *; try solve [spl H; try (eapply (incl_list c_expression) in Hz; [|eassumption]); fin Hz].
    + spl H; [apply (incl_bound o 19) in Hz|]; fin Hz.
    + spl H; [apply (incl_bound o 19) in Hz|]; fin Hz.
    + spl H; [apply (incl_bound l (operator_bp op)) in Hz|apply (incl_bound r (operator_bp op + 1)) in Hz]; fin Hz.
    + destruct t as [es qs]. eapply incl_template; eauto. 
    + assert (Hb : In c (map A_Pat ps) \/ incl (c_any c) (c_arrow_body b)).
      { destruct b as [x|x]; simpl in H; spl H.
        - left. now apply in_map. - right. apply incl_refl. - left. now apply in_map. - right. apply incl_refl. }
      destruct Hb as [Hb|Hb]; [|apply Hb in Hz; fin Hz]. spl Hb.
      apply in_app_iff. left.
      assert (G : In z (w "(" ++ c_list c_pattern ps ++ w ")")).
      { eapply (incl_list c_pattern) in Hz; [|exact H0]. fin Hz. }
      destruct ps as [|p [|p' ps]]; auto. destruct (n_item p) eqn:Ep; auto.
      destruct H0 as [->|[]]. cbn [c_any] in Hz. rewrite Ep in Hz. exact Hz.
    + spl H. eapply (incl_props c_property) in Hz; eauto.
    + eapply incl_func; eauto.
    + eapply incl_class; eauto.
  - destruct x as [es qs]. eapply incl_template; eauto.
  - destruct x; cbn [c_property] in *; spl H; fin Hz.
  - destruct x; cbn [c_key] in *; spl H; fin Hz.
  - destruct x; cbn [c_pattern] in *; spl H; try (fin Hz).
    + eapply (incl_list c_property) in Hz; eauto. fin Hz.
    + eapply (incl_list c_pattern) in Hz; eauto. fin Hz.
  - eapply incl_func; eauto.
  - destruct x; cbn [c_member] in *; spl H; fin Hz.
  - destruct x. spl H. eapply (incl_block c_statement) in Hz; eauto.
  - destruct x. spl H. eapply (incl_block c_member) in Hz; eauto.
  - destruct x. spl H. eapply (incl_block c_case) in Hz; eauto.
  - destruct x as [| |x|k ds|[v|]|[l|]|[l|]|v|t q [a|]|t b|b t|[i|] [t|] [u|] b|l r b|l r b|b [h|] [f|]|[b]|l b|f|f|d q|ss src];
      cbn [c_statement children_statement opt app b_body c_jump] in *; try solve [spl H; fin Hz].
    + spl H. cbn [c_any] in Hz. destruct (is_allowed_as_bare_statement (n_item x)); fin Hz.
    + spl H. eapply (incl_list c_declarator) in Hz; eauto. fin Hz.
    + spl H. eapply (incl_block c_statement) in Hz; eauto.
    + eapply incl_func; eauto.
    + eapply incl_class; eauto.
    + spl H. cbn [c_any] in Hz.
      assert (L : exists a l, ss = a :: l) by (destruct ss; [destruct H0|eauto]).
      apply in_app_iff. right.
      replace (match ss with [] => _ | _ => _ end) with
        (c_list c_specifier (filter (fun s => negb (is_named_specifier s)) ss) ++
          match filter is_named_specifier ss with
          | [] => []
          | _ => (match filter (fun s => negb (is_named_specifier s)) ss with [] => [] | _ => w "," end)
                 ++ w "{" ++ c_list c_specifier (filter is_named_specifier ss) ++ w "}"
          end ++ w " from '" ++ wstr src ++ w "'") by (destruct L as (a & l & ->); reflexivity).
      apply in_app_iff. destruct (is_named_specifier n) eqn:En.
      * right. apply in_app_iff. left.
        assert (F : In n (filter is_named_specifier ss)) by (apply filter_In; auto).
        eapply (incl_list c_specifier) in Hz; [|exact F].
        destruct (filter is_named_specifier ss) eqn:Ef; [destruct F|]. fin Hz.
      * left. eapply (incl_list c_specifier); [|exact Hz]. apply filter_In. rewrite En. auto.
  - destruct x as [p [i|]]; cbn [c_declarator opt] in *; spl H; fin Hz.
  - destruct x; cbn [c_for_init] in *; spl H; try (fin Hz). eapply (incl_list c_declarator) in Hz; eauto. fin Hz.
  - destruct x as [[t|] b]; cbn [c_case opt app] in *; spl H; try (fin Hz);
      (eapply (incl_items c_statement) in Hz; [|eassumption]; fin Hz).
  - destruct x; cbn [c_catch] in *; spl H; fin Hz.
  - destruct x as [i l|l|l]; cbn [c_specifier] in *; spl H; try (fin Hz).
    + destruct (str_eqb _ _); [exact Hz|fin Hz].
    + destruct (str_eqb (n_item i) (n_item l)) eqn:E; [|fin Hz]. apply str_eqb_eq in E. cbn [c_any] in Hz.
      unfold c_ident in *. now rewrite E.
Qed.

Lemma texts_written a : (forall b, within b a -> template_complete b) ->
  forall b x, within b a -> own_text b x -> In (GBytes x) (c_any a).
Proof.
  intros HT b x W. induction W as [a|b a c Hc W IH]; intros O; [now apply own_written|].
  eapply child_written; [apply HT; constructor|exact Hc|]. apply IH; auto.
  intros d Wd. apply HT. econstructor; eauto.
Qed.
Lemma texts_module m : (forall b, in_module b m -> template_complete b) ->
  forall b x, in_module b m -> own_text b x -> In (GBytes x) (c_module m).
Proof.
  intros HT b x (s & I & W) O.
  assert (G : In (GBytes x) (c_any (A_Stmt s))).
  { eapply texts_written; eauto. intros d Wd. apply HT. exists s. auto. }
  destruct m as [|s' m]; [destruct I|]. simpl. apply in_app_iff. destruct I as [->|I]; [left; exact G|right].
  eapply (incl_block_rest c_statement); eauto.
Qed.

(** ** Locations do not matter *)
Definition strip_any (a : any) : any :=
  match a with
  | A_Ident n => A_Ident (strip_id n)
  | A_Expr n => A_Expr (strip_node strip_expression n)
  | A_Tpl n => A_Tpl (strip_node strip_template n)
  | A_Prop n => A_Prop (strip_node strip_property n)
  | A_Key n => A_Key (strip_node strip_property_key n)
  | A_Pat n => A_Pat (strip_node strip_pattern n)
  | A_Func n => A_Func (strip_node strip_func n)
  | A_Member n => A_Member (strip_node strip_class_member n)
  | A_Body n => A_Body (strip_node (strip_block strip_statement) n)
  | A_ClassBody n => A_ClassBody (strip_node (strip_block strip_class_member) n)
  | A_Cases n => A_Cases (strip_node (strip_block strip_case) n)
  | A_Stmt n => A_Stmt (strip_node strip_statement n)
  | A_Declarator n => A_Declarator (strip_node strip_declarator n)
  | A_ForInit n => A_ForInit (strip_node strip_for_init n)
  | A_Case n => A_Case (strip_node strip_case n)
  | A_Catch n => A_Catch (strip_node strip_catch n)
  | A_Spec n => A_Spec (strip_node strip_specifier n)
  end.
Definition unmoved (a : any) : Prop := c_any (strip_any a) = c_any a.
Section Strip.
  Context {A : Set} (f : A -> code) (g : A -> A).
  Definition fixed (n : node A) : Prop := f (g (n_item n)) = f (n_item n).
  Lemma strip_list_rest l : Forall fixed l -> c_list_rest f (map (strip_node g) l) = c_list_rest f l.
  Proof. induction 1 as [|n l E H IH]; simpl; auto. unfold c_node. cbn [strip_node n_item]. now rewrite E, IH. Qed.
  Lemma strip_list l : Forall fixed l -> c_list f (map (strip_node g) l) = c_list f l.
  Proof. destruct 1 as [|n l E H]; simpl; auto. unfold c_node. cbn [strip_node n_item]. rewrite E. f_equal. now apply strip_list_rest. Qed.
  Lemma strip_block_rest l : Forall fixed l -> c_block_rest f (map (strip_node g) l) = c_block_rest f l.
  Proof. induction 1 as [|n l E H IH]; simpl; auto. unfold c_node. cbn [strip_node n_item]. now rewrite E, IH. Qed.
  Lemma strip_items l : Forall fixed l -> c_items f (map (strip_node g) l) = c_items f l.
  Proof. destruct 1 as [|n l E H]; simpl; auto. unfold c_node. cbn [strip_node n_item]. rewrite E. now rewrite strip_block_rest. Qed.
  Lemma strip_c_block l : Forall fixed l -> c_block f (strip_block g (Block l)) = c_block f (Block l).
  Proof. intros H. unfold c_block, strip_block. cbn [b_body]. now rewrite strip_items. Qed.
  Lemma strip_props_rest l : Forall fixed l -> c_props_rest f (map (strip_node g) l) = c_props_rest f l.
  Proof. induction 1 as [|n l E H IH]; simpl; auto. unfold c_node. cbn [strip_node n_item]. now rewrite E, IH. Qed.
  Lemma strip_props l : Forall fixed l -> c_props f (map (strip_node g) l) = c_props f l.
  Proof. destruct 1 as [|n l E H]; simpl; auto. unfold c_node. cbn [strip_node n_item]. rewrite E. now rewrite strip_props_rest. Qed.
  Lemma strip_template_rest l qs : Forall fixed l ->
    c_template_rest f (map strip_id qs) (map (strip_node g) l) = c_template_rest f qs l.
  Proof.
    intros H. revert qs. induction H as [|n l E H IH]; intros [|q qs]; simpl; auto.
    unfold c_node. cbn [strip_node n_item]. now rewrite E, IH.
  Qed.
End Strip.
Lemma strip_bp e : expression_bp (strip_expression e) = expression_bp e.
Proof. destruct e; reflexivity. Qed.
Lemma strip_bound n k : fixed c_expression strip_expression n ->
  c_bound c_expression (strip_node strip_expression n) k = c_bound c_expression n k.
Proof. unfold fixed, c_bound. intros E. cbn [strip_node n_item]. now rewrite strip_bp, E. Qed.
Lemma strip_spacing_l op e : spacing_left op (strip_expression e) = spacing_left op e.
Proof. destruct e; reflexivity. Qed.
Lemma strip_spacing_r op e : spacing_right op (strip_expression e) = spacing_right op e.
Proof. destruct e; reflexivity. Qed.
Lemma strip_c_name n : c_name (strip_name n) = c_name n.
Proof. destruct n as [|[n|]|n]; reflexivity. Qed.
Lemma strip_c_keyword s n : c_keyword s (strip_name n) = c_keyword s n.
Proof. destruct n; reflexivity. Qed.
Lemma strip_bare e : is_allowed_as_bare_statement (strip_expression e) = is_allowed_as_bare_statement e.
Proof. destruct e; reflexivity. Qed.
Lemma strip_is_block e : is_block (strip_statement e) = is_block e.
Proof. destruct e; reflexivity. Qed.
Lemma strip_c_specifier n : c_specifier (strip_specifier n) = c_specifier n.
Proof. destruct n; reflexivity. Qed.
Lemma strip_is_named n : is_named_specifier (strip_node strip_specifier n) = is_named_specifier n.
Proof. destruct n as [s e []]; reflexivity. Qed.

Ltac sub H := match type of H with
  | Forall _ (_ :: _) => let H1 := fresh in let H2 := fresh in
      inversion H as [|? ? H1 H2]; subst; clear H; sub H2
  | Forall _ (_ ++ _) => let H1 := fresh in let H2 := fresh in
      apply Forall_app in H as [H1 H2]; sub H1; sub H2
  | Forall _ (map _ _) => rewrite Forall_map in H
  | Forall _ [] => clear H
  | _ => idtac
  end.
Ltac eqs := repeat match goal with
  | H : unmoved _ |- _ => unfold unmoved in H; cbn [strip_any c_any n_item strip_node] in H; rewrite ?H; clear H
  end.
Lemma unmoved_func f : Forall unmoved (children_func f) -> c_func (strip_func f) = c_func f.
Proof.
  destruct f as [n g ps [s e b]]. cbn [children_func strip_func c_func]. intros K. apply Forall_app in K as [_ K]. sub K.
  rewrite strip_c_name, strip_c_keyword, (strip_list c_pattern strip_pattern) by exact H.
  unfold c_node. cbn [n_item strip_node]. eqs. reflexivity.
Qed.
Lemma unmoved_class f : Forall unmoved (children_class f) -> c_class (strip_class f) = c_class f.
Proof.
  destruct f as [n [x|] [s e b]]; cbn [children_class strip_class c_class opt option_map]; intros K; apply Forall_app in K as [_ K]; sub K;
    rewrite strip_c_name, strip_c_keyword; unfold c_node; cbn [n_item strip_node]; eqs; reflexivity.
Qed.
Lemma unmoved_template t : Forall unmoved (children_template t) -> c_template (strip_template t) = c_template t.
Proof.
  destruct t as [es qs]. cbn [children_template strip_template c_template]. intros K. apply Forall_app in K as [K _]. sub K.
  destruct qs as [|q [|q' qs]]; cbn [map]; auto.
  change (strip_id q' :: map strip_id qs) with (map strip_id (q' :: qs)).
  now rewrite (strip_template_rest c_expression strip_expression) by exact K.
Qed.
Theorem code_unmoved a : unmoved a.
Proof.
  apply tree_ind. clear a. intros a K.
  unfold unmoved. destruct a as [n|n|n|n|n|n|n|n|n|n|n|n|n|n|n|n|n]; destruct n as [s e x]; cbn [strip_any c_any n_item children strip_node] in *.
  - reflexivity.
  - destruct x as [| | |l|b|b|o p|o p|m p|f args|op l r|op x|op x|t q a|t|t q|x|ps b|b|f|f];
      cbn [strip_expression c_expression children_expression] in *; auto.
    + sub K. now rewrite (strip_list c_expression strip_expression) by exact K.
    + sub K. now rewrite (strip_list c_expression strip_expression) by exact K.
    + sub K. rewrite strip_bound by assumption. reflexivity.
    + sub K. rewrite strip_bound by assumption. unfold c_node. cbn [n_item strip_node]. eqs. reflexivity.
    + sub K. rewrite (strip_list c_expression strip_expression) by assumption. unfold c_node. cbn [n_item strip_node]. eqs. reflexivity.
    + sub K. rewrite !strip_bound by assumption. cbn [n_item strip_node]. now rewrite strip_spacing_l, strip_spacing_r.
    + sub K. unfold c_node. cbn [n_item strip_node]. eqs. reflexivity.
    + sub K. unfold c_node. cbn [n_item strip_node]. eqs. reflexivity.
    + sub K. unfold c_node. cbn [n_item strip_node]. eqs. reflexivity.
    + now apply unmoved_template.
    + sub K. unfold c_node. cbn [n_item strip_node]. eqs. reflexivity.
    + sub K. unfold c_node. cbn [n_item strip_node]. eqs. reflexivity.
    + assert (Kb : Forall unmoved (map A_Pat ps) /\ c_arrow_body (strip_arrow_body b) = c_arrow_body b).
      { destruct b as [x|x]; simpl in K; apply Forall_app in K as [K1 K2]; split; auto; sub K2; cbn [strip_arrow_body c_arrow_body]; unfold c_node; cbn [n_item strip_node]; eqs; reflexivity. }
      destruct Kb as [Kp ->]. sub Kp. f_equal.
      assert (E := strip_list c_pattern strip_pattern ps Kp).
      destruct ps as [|[s1 e1 p] [|p' ps]]; auto.
      * cbn [map] in *. cbn [strip_node n_item] in *. destruct p; cbn [strip_pattern] in *; auto; now rewrite E.
      * cbn [map] in *. now rewrite E.
    + sub K. now rewrite (strip_props c_property strip_property) by exact K.
    + now apply unmoved_func.
    + now apply unmoved_class.
  - now apply unmoved_template.
  - destruct x; cbn [strip_property c_property] in *; sub K; unfold c_node; cbn [n_item strip_node]; eqs; reflexivity.
  - destruct x; cbn [strip_property_key c_key] in *; sub K; unfold c_node; cbn [n_item strip_node]; eqs; reflexivity.
  - destruct x; cbn [strip_pattern c_pattern] in *; sub K; auto.
    + now rewrite (strip_list c_property strip_property) by exact K.
    + now rewrite (strip_list c_pattern strip_pattern) by exact K.
    + unfold c_node; cbn [n_item strip_node]; eqs; reflexivity.
  - now apply unmoved_func.
  - destruct x; cbn [strip_class_member c_member] in *; sub K; unfold c_node; cbn [n_item strip_node]; eqs; reflexivity.
  - destruct x. sub K. now apply strip_c_block.
  - destruct x. sub K. now apply strip_c_block.
  - destruct x. sub K. now apply strip_c_block.
  - destruct x as [| |x|k ds|[v|]|[l|]|[l|]|v|t q [a|]|t b|b t|[i|] [t|] [u|] b|l r b|l r b|b [h|] [f|]|[b]|l b|f|f|d q|ss src];
      cbn [c_statement strip_statement children_statement opt option_map app b_body] in *; auto;
      try solve [sub K; unfold c_node; cbn [n_item strip_node]; rewrite ?strip_is_block, ?strip_bare; eqs; reflexivity].
    + sub K. now rewrite (strip_list c_declarator strip_declarator) by exact K.
    + sub K. now apply strip_c_block.
    + now apply unmoved_func.
    + now apply unmoved_class.
    + assert (E : forall p, (forall n, p (strip_node strip_specifier n) = p n) ->
        c_list c_specifier (filter p (map (strip_node strip_specifier) ss)) = c_list c_specifier (filter p ss) /\
        (filter p (map (strip_node strip_specifier) ss) = [] <-> filter p ss = [])).
      { intros p Hp. assert (F : filter p (map (strip_node strip_specifier) ss) = map (strip_node strip_specifier) (filter p ss)).
        { clear K. induction ss as [|n ss IH]; simpl; auto. rewrite Hp. destruct (p n); simpl; now rewrite IH. }
        rewrite F. split.
        - apply strip_list. apply Forall_forall. intros n _. apply strip_c_specifier.
        - destruct (filter p ss); simpl; split; congruence. }
      destruct (E is_named_specifier strip_is_named) as [E1 E2].
      destruct (E (fun s => negb (is_named_specifier s))) as [E3 E4]. { intros n. now rewrite strip_is_named. }
      destruct ss as [|s0 ss]; auto. cbn [map] in *.
      set (l := s0 :: ss) in *. set (l' := strip_node strip_specifier s0 :: map (strip_node strip_specifier) ss) in *. clearbody l l'.
      rewrite E1, E3. f_equal. f_equal.
      destruct (filter is_named_specifier l'), (filter is_named_specifier l); try (destruct E2; intuition congruence).
      destruct (filter _ l'), (filter _ l); try (destruct E4; intuition congruence).
  - destruct x as [p [i|]]; cbn [strip_declarator option_map opt c_declarator] in *; sub K; unfold c_node; cbn [n_item strip_node]; eqs; reflexivity.
  - destruct x; cbn [strip_for_init c_for_init] in *; sub K.
    + now rewrite (strip_list c_declarator strip_declarator) by exact K.
    + unfold c_node; cbn [n_item strip_node]; eqs; reflexivity.
  - destruct x as [[t|] b]; cbn [strip_case option_map opt app c_case] in *; sub K;
      rewrite (strip_items c_statement strip_statement) by assumption; unfold c_node; cbn [n_item strip_node]; eqs; reflexivity.
  - destruct x; cbn [strip_catch c_catch] in *; sub K; unfold c_node; cbn [n_item strip_node]; eqs; reflexivity.
  - apply strip_c_specifier.
Qed.
Lemma module_unmoved m : c_module (strip_module m) = c_module m.
Proof.
  destruct m as [|s m]; simpl; auto. unfold c_node. cbn [n_item strip_node]. f_equal; [apply (code_unmoved (A_Stmt s))|].
  apply strip_block_rest. apply Forall_forall. intros n _. apply (code_unmoved (A_Stmt n)).
Qed.
