(** Code generated from valid UTF-8 texts is valid UTF-8. *)
From Coq Require Import List NArith Bool String Lia.
From Coq.Strings Require Import Byte.
From Verif Require Import Bytes Token Lexer Ast AstInd SpecTree SpecCodegen SpecUtf8 Codegen CodegenFacts Boundary Utf8Facts.
Import ListNotations.
Open Scope nat_scope.

Definition op_utf8 (o : gop) : Prop :=
  match o with GBytes s => utf8 s | GPretty b => ascii b = true | _ => True end.
Definition T (c : code) : Prop := Forall op_utf8 c.

Lemma T_nil : T [].
Proof. constructor. Qed.
Lemma T_app c d : T c -> T d -> T (c ++ d).
Proof. intros. apply Forall_app. auto. Qed.
Lemma T_cons o c : op_utf8 o -> T c -> T (o :: c).
Proof. now constructor. Qed.
Lemma T_one s : utf8 s -> T [GBytes s].
Proof. intros. apply T_cons; [assumption|constructor]. Qed.
Lemma T_wstr s : utf8 s -> T (wstr s).
Proof. apply T_one. Qed.
Lemma T_wb s : forallb ascii (bs s) = true -> T (w s).
Proof. intros H. apply T_one. now apply utf8_ascii. Qed.
Ltac word := match goal with |- T (w _) => apply T_wb; reflexivity end.
Lemma T_spc : T sp.
Proof. apply T_cons; [reflexivity|constructor]. Qed.
Lemma T_space b : T (space_if b).
Proof. destruct b; [apply T_one; now apply utf8_ascii|apply T_spc]. Qed.
Lemma T_op o : T (wstr (operator_str o)).
Proof. apply T_one. destruct o; now apply utf8_ascii. Qed.
Lemma T_cat o : T (match operator_category o with CatWord => w " " | _ => [] end).
Proof. destruct (operator_category o); first [word|apply T_nil]. Qed.

Section L.
  Context {A : Set} (f : A -> code).
  Definition Tn (n : node A) : Prop := T (f (n_item n)).
  Lemma T_node n : Tn n -> T (c_node f n).
  Proof. auto. Qed.
  Lemma T_list_rest l : Forall Tn l -> T (c_list_rest f l).
  Proof. induction 1 as [|n l Hn Hl IH]; cbn [c_list_rest]; [apply T_nil|]. apply T_app; [word|]. apply T_app; [apply T_spc|]. now apply T_app. Qed.
  Lemma T_list l : Forall Tn l -> T (c_list f l).
  Proof. destruct 1 as [|n l Hn Hl]; cbn [c_list]; [apply T_nil|]. apply T_app; [exact Hn|]. now apply T_list_rest. Qed.
  Lemma T_block_rest l : Forall Tn l -> T (c_block_rest f l).
  Proof. induction 1 as [|n l Hn Hl IH]; cbn [c_block_rest]; [apply T_nil|]. apply T_cons; [exact I|]. now apply T_app. Qed.
  Lemma T_items l : Forall Tn l -> T (c_items f l).
  Proof.
    destruct 1 as [|n l Hn Hl]; cbn [c_items]; [apply T_nil|]. apply T_cons; [exact I|]. apply T_cons; [exact I|].
    apply T_app; [exact Hn|]. apply T_app; [now apply T_block_rest|]. apply T_cons; [exact I|]. apply T_cons; [exact I|apply T_nil].
  Qed.
  Lemma T_block l : Forall Tn l -> T (c_block f (Block l)).
  Proof. intros H. unfold c_block. apply T_app; [word|]. apply T_app; [now apply T_items|word]. Qed.
  Lemma T_props_rest l : Forall Tn l -> T (c_props_rest f l).
  Proof. induction 1 as [|n l Hn Hl IH]; cbn [c_props_rest]; [apply T_nil|]. apply T_app; [word|]. apply T_cons; [exact I|]. now apply T_app. Qed.
  Lemma T_props l : Forall Tn l -> T (c_props f l).
  Proof.
    destruct 1 as [|n l Hn Hl]; cbn [c_props]; [word|]. apply T_app; [word|]. apply T_cons; [exact I|]. apply T_cons; [exact I|].
    apply T_app; [exact Hn|]. apply T_app; [now apply T_props_rest|]. apply T_cons; [exact I|]. apply T_cons; [exact I|word].
  Qed.
  Lemma T_template_rest l : Forall Tn l -> forall qs, Forall (fun q => T (c_ident q)) qs -> T (c_template_rest f qs l).
  Proof.
    induction 1 as [|n l Hn Hl IH]; intros qs Q; destruct Q as [|q qs Q1 Q2]; cbn [c_template_rest]; try apply T_nil.
    apply T_app; [word|]. apply T_app; [apply T_spc|]. apply T_app; [exact Hn|]. apply T_app; [apply T_spc|]. apply T_app; [word|].
    apply T_app; [exact Q1|]. now apply IH.
  Qed.
End L.
Lemma T_bound n k : T (c_expression (n_item n)) -> T (c_bound c_expression n k).
Proof. unfold c_bound. destruct (Nat.ltb _ _); auto. intros H. apply T_app; [word|]. apply T_app; [auto|word]. Qed.
Notation ch l := (Forall (fun a => T (c_any a)) l).
Lemma T_name n : ch (children_name n) -> T (c_name n).
Proof.
  destruct n as [|[n|]|n]; cbn [children_name opt c_name]; intros H; try (apply Forall_inv in H); try apply T_nil; try apply T_spc; apply T_app; try word; exact H.
Qed.
Lemma T_keyword s n : forallb ascii (bs s) = true -> T (c_keyword s n).
Proof. destruct n; cbn [c_keyword]; intros H; [apply T_nil| |]; now apply T_wb. Qed.
Lemma T_kind k : T (c_kind k). Proof. destruct k; cbn [c_kind]; word. Qed.
Lemma T_jump s l : forallb ascii (bs s) = true -> ch (opt A_Ident l) -> T (c_jump s l).
Proof.
  destruct l; cbn [opt c_jump]; intros E H.
  - apply T_app; [now apply T_wb|]. apply T_app; [word|]. apply T_app; [exact (Forall_inv H)|word].
  - apply T_app; [now apply T_wb|word].
Qed.
Lemma T_spec s : ch (children (A_Spec s)) -> T (c_specifier (n_item s)).
Proof.
  destruct s as [a b s]. cbn [children n_item]. destruct s; cbn [c_specifier]; intros H.
  - assert (H1 := Forall_inv H). assert (H2 := Forall_inv (Forall_inv_tail H)). destruct (str_eqb _ _); [exact H1|].
    apply T_app; [exact H1|]. apply T_app; [word|exact H2].
  - exact (Forall_inv H).
  - apply T_app; [word|]. exact (Forall_inv H).
Qed.
Lemma T_specs l k : Forall (fun s => T (c_any (A_Spec s))) l -> T (c_list c_specifier (filter k l)).
Proof.
  intros H. apply T_list. rewrite Forall_forall in *. intros n Hn. apply filter_In in Hn as [Hn _]. exact (H n Hn).
Qed.
Ltac sub H := match type of H with
  | Forall _ (_ :: _) => let H1 := fresh in let H2 := fresh in
      inversion H as [|? ? H1 H2]; subst; clear H; sub H2
  | Forall _ (_ ++ _) => let H1 := fresh in let H2 := fresh in
      apply Forall_app in H as [H1 H2]; sub H1; sub H2
  | Forall _ (map _ _) => rewrite Forall_map in H
  | Forall _ [] => clear H
  | _ => idtac
  end.
Ltac close :=
  repeat first [assumption | word | apply T_op | apply T_spc | apply T_space | apply T_cat | apply T_keyword; reflexivity
    | apply T_kind | apply T_jump; [reflexivity|assumption] | apply T_nil | apply T_specs | apply T_wstr; assumption
    | apply T_bound | apply T_list | apply T_items | apply T_block | apply T_props | apply T_template_rest | apply T_name; assumption | apply T_app ].
Lemma T_func f : ch (children_func f) -> T (c_func f).
Proof. destruct f as [n g ps [s e [b]]]. cbn [children_func c_func]. intros H. apply Forall_app in H as [H0 H]. apply Forall_app in H as [H1 H2]. sub H1. assert (H3 := Forall_inv H2). cbn [c_any n_item] in H3. close. Qed.
Lemma T_class f : ch (children_class f) -> T (c_class f).
Proof.
  destruct f as [n [x|] [s e [b]]]; cbn [children_class c_class opt app]; intros H; apply Forall_app in H as [H0 H].
  - assert (H1 := Forall_inv H). assert (H2 := Forall_inv (Forall_inv_tail H)). cbn [c_any n_item] in *. close.
  - assert (H1 := Forall_inv H). cbn [c_any n_item] in *. close.
Qed.
Lemma T_template_lit t : ch (children_template t) -> T (c_template t).
Proof.
  destruct t as [es qs]. cbn [children_template c_template]. intros H. apply Forall_app in H as [H0 H1]. sub H0. sub H1.
  destruct H1 as [|q qs Q1 Q2]; [close|]. destruct qs as [|q' qs]; close.
Qed.
Definition fine (a : any) : Prop := forall b x, within b a -> own_text b x -> utf8 x.
Theorem code_utf8 a : fine a -> T (c_any a).
Proof.
  revert a. apply (tree_ind (fun a => fine a -> T (c_any a))). intros a IH HE.
  assert (K : ch (children a)).
  { rewrite Forall_forall in *. intros c Hc. apply IH; auto. intros b x W. apply HE. econstructor; eauto. }
  assert (O : forall x, own_text a x -> utf8 x) by (intros x; apply HE; constructor). clear IH HE.
  destruct a as [n|n|n|n|n|n|n|n|n|n|n|n|n|n|n|n|n]; destruct n as [s e x]; cbn [c_any n_item children own_text] in *.
  - apply T_wstr. now apply O.
  - destruct x as [| |i|l| | | | | | | | | | | | | |ps [x|x]| | | ]; cbn [children_expression c_expression] in K |- *; try solve [sub K; cbn [c_any n_item] in *; unfold c_node; close].
    + apply T_wstr. now apply O.
    + destruct l; cbn [c_literal]; try word; apply T_wstr; now apply O.
    + now apply T_template_lit.
    + sub K. cbn [c_arrow_body]. match goal with H : Forall _ ps |- _ => rename H into Hps end.
      destruct ps as [|p [|p' ps]]; [close|assert (Hp := Forall_inv Hps); cbn [c_any] in Hp; destruct (n_item p) eqn:Ep; cbn [c_pattern] in Hp; close|close].
    + sub K. cbn [c_arrow_body]. match goal with H : Forall _ ps |- _ => rename H into Hps end.
      destruct ps as [|p [|p' ps]]; [close|assert (Hp := Forall_inv Hps); cbn [c_any] in Hp; destruct (n_item p) eqn:Ep; cbn [c_pattern] in Hp; close|close].
    + now apply T_func.
    + now apply T_class.
  - now apply T_template_lit.
  - destruct x; cbn [c_property]; [apply T_wstr; now apply O|..]; sub K; close.
  - destruct x; cbn [c_key]; [sub K; close|apply T_wstr; now apply O|apply T_wstr; now apply O].
  - destruct x; cbn [c_pattern]; try (apply T_wstr; now apply O); sub K; close.
  - now apply T_func.
  - destruct x as [|st k kd v|st k v]; cbn [c_member]; [apply T_cons; [exact I|apply T_nil]| |]; sub K; destruct st; try destruct kd; close.
  - destruct x. sub K. close.
  - destruct x. sub K. close.
  - destruct x. sub K. close.
  - destruct x as [| |x|k ds|[v|]|l|l|v|t c [a|]|t b|b t|[i|] [t|] [u|] b|l r b|l r b|b [h|] [f|]|[b]|l b|f|c|d c|ss src]; cbn [c_statement children_statement app opt b_body] in K |- *; try solve [sub K; close].
    + sub K. destruct (is_allowed_as_bare_statement _); close.
    + specialize (O _ eq_refl). sub K. close.
    + now apply T_func.
    + now apply T_class.
    + specialize (O _ eq_refl). sub K. apply T_app; [close|]. destruct ss as [|x ss]; [close|].
      revert K. generalize (x :: ss). intros l K.
      assert (G1 := T_specs l is_named_specifier K). assert (G2 := T_specs l (fun s => negb (is_named_specifier s)) K). cbn beta in G1, G2.
      destruct (filter is_named_specifier l), (filter _ l); close.
  - destruct x as [p [i|]]; cbn [c_declarator]; cbn [opt] in K; sub K; close.
  - destruct x; cbn [c_for_init]; sub K; close.
  - destruct x as [[t|] b]; cbn [opt app c_case] in *; sub K; close.
  - destruct x; cbn [c_catch]; sub K; close.
  - apply (T_spec (Node s e x)). exact K.
Qed.
Lemma code_module_utf8 m : (forall a x, in_module a m -> own_text a x -> utf8 x) -> T (c_module m).
Proof.
  intros H. assert (K : Forall (Tn c_statement) m).
  { apply Forall_forall. intros s Hs. apply (code_utf8 (A_Stmt s)). intros b x W. apply H. exists s. auto. }
  destruct K as [|s m Hs K]; cbn [c_module]; [apply T_nil|]. apply T_app; [exact Hs|]. now apply T_block_rest.
Qed.
Lemma min_utf8 c : T c -> forall s, run_min c = Done s -> utf8 s.
Proof.
  induction 1 as [|o c Ho Hc IH]; intros s E; cbn [run_min] in E; [injection E as <-; apply utf8_nil|].
  destruct o; auto; try discriminate. destruct (run_min c) as [r| | |]; try discriminate. injection E as <-. apply utf8_app; auto.
Qed.
Lemma indentation_utf8 n : utf8 (indentation n).
Proof. apply utf8_ascii. unfold indentation. induction n as [|n IH]; [reflexivity|]. exact IH. Qed.
Lemma pretty_utf8 c : T c -> forall d s, run_pretty d c = Done s -> utf8 s.
Proof.
  induction 1 as [|o c Ho Hc IH]; intros d s E; cbn [run_pretty] in E; [injection E as <-; apply utf8_nil|].
  destruct o; eauto; try discriminate.
  - destruct (run_pretty d c) as [r| | |] eqn:R; try discriminate. injection E as <-. apply utf8_app; eauto.
  - destruct (run_pretty d c) as [r| | |] eqn:R; try discriminate. injection E as <-. apply (utf8_app [b]); eauto. now apply utf8_ascii1.
  - destruct (run_pretty d c) as [r| | |] eqn:R; try discriminate. injection E as <-. apply (utf8_app [x0a]); [now apply utf8_ascii1|].
    apply utf8_app; [apply indentation_utf8|eauto].
  - destruct d; [discriminate|eauto].
Qed.
Lemma codegen_utf8 m minify s : (forall a x, in_module a m -> own_text a x -> utf8 x) -> codegen m minify = Done s -> utf8 s.
Proof.
  intros H E. apply code_module_utf8 in H. unfold codegen in E. destruct minify; [eapply min_utf8|eapply pretty_utf8]; eauto.
Qed.
