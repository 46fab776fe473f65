From Coq Require Import List NArith Bool Lia String.
From Coq.Strings Require Import Byte.
From Verif Require Import Bytes Token Tables Lexer Ast Prog Parser ProgFacts Structure LexEval Erase Valid.
From Verif Require Import Grammar SpecSyntax Sound.
Import ListNotations.
Open Scope nat_scope.
Open Scope list_scope.
Lemma expr_no_spread n o l e : expr n o l e -> match e with E_Spread _ => False | _ => True end.
Proof. induction 1; try exact I; try assumption. destruct H; exact I. Qed.
Lemma template_cons d l t : template_of d l t -> exists t s r, l = (t, s) :: r /\ t <> T_Identifier.
Proof. intros H. destruct H; do 3 eexists; (split; [reflexivity|discriminate]). Qed.
Lemma expr_cons n o l e : expr n o l e -> l <> [].
Proof.
  induction 1; try assumption; try discriminate; try (intros Q; apply app_eq_nil in Q as [? ?]; congruence).
  apply template_cons in H as (? & ? & ? & -> & _). discriminate.
Qed.
Lemma expr_lvalue n o l e : expr n o l e -> is_lvalue e = true -> expr 17 false l e.
Proof.
  induction 1; intros L; try discriminate L; auto; try (match goal with |- expr 17 false ?l ?e => apply (x_weaker 17 18 false l e); [lia|] end; solve [eauto with syn]).
  all: eauto with syn.
Qed.
Lemma expr_assignable n o l e : expr n o l e -> is_lvalue e = true -> assignable e.
Proof. intros H L. apply expr_no_spread in H. unfold assignable. destruct e; try discriminate L; try contradiction H; eauto 10. Qed.
Lemma ok_needs b v h m o : handler b v = Some h -> OK v m o -> h <> N_SEQ -> need h <= m /\ o = false.
Proof. intros H K N. destruct (K _ _ H) as [K1 K2]. split; [exact K1|]. destruct o; [exfalso; auto|reflexivity]. Qed.
Lemma same_break b v h : handler b v = Some h -> In h [N_INC; N_DEC] -> breaks v = false.
Proof.
  intros H I. assert (E := pre_nested _ _ _ H). unfold handler, breaks in *. destruct (v_asi v); auto. exfalso. unfold on in E. unfold is in H.
  destruct I as [<-|[<-|[]]]; cbn [ntoken] in E; rewrite E in H; discriminate H.
Qed.
Ltac lift K := match type of K with _ <= ?m => match goal with H : expr m _ ?l _ |- _ => exact (x_weaker _ m _ l _ K H) end end.
Lemma g_nested_handler h lf : gbody (F_nested_handler h lf).
Proof.
  destruct h; go; destruct Hp as [b0 Hp]; assert (Ho := pre_nested _ _ _ Hp); cbn [ntoken] in Ho.
  all: try (match goal with |- _ /\ (exists _, _) => idtac end; split; [|solve [norm; first [eexists; reflexivity | tauto]]]).
  all: try (intros m o ?l ?H K; try (apply (ok_needs _ _ _ _ _ Hp) in K; [destruct K as [K ->]; cbn [need] in K|discriminate])).
  all: fin. 
  all: cbn [lev Grammar.lev need] in *.
  all: try (match goal with E : expr ?n ?o ?l (n_item ?r) |- exists o', expr _ _ _ (E_Binary _ _ ?r) /\ _ => exists o end; split;
    [first [eapply x_infix; [cbn; tauto|lift K|eassumption]
           |eapply x_assign; [cbn; tauto|eapply expr_assignable; eassumption|eapply expr_lvalue; eassumption|eassumption]]
    |eapply ok_right; [eassumption|eassumption|lia|cbn [num]; lia]]).
  all: try (exists false; split; [first
    [eapply x_postfix; [cbn; tauto|eapply expr_assignable; eassumption|apply (same_break _ _ _ Hp); cbn; tauto|eapply expr_lvalue; eassumption]
    |eapply x_call; [lift K|assumption]
    |eapply x_computed; [lift K|eassumption]
    |eapply x_tagged; [lift K|assumption]
    |apply (x_member _ _ lf (in_loc v0 (v_accessor v))); [lift K|reflexivity]]|apply ok_top; lia]).
  - exists false. split; [|now apply ok_sequence]. match goal with K : OK v _ _ |- _ => destruct (K _ _ Hp) as [K1 _] end. cbn [need] in K1.
    match goal with X : expr m o l1 _ |- _ => apply (x_weaker _ _ _ _ _ K1) in X; apply (x_sequence o _ _ lf (r :: r0) X) end; [discriminate|]. now apply (me_cons x0).
  - subst r. match goal with X : arrow_to ?o _ _ |- _ => exists o end. split; [|assumption]. eapply x_arrow; [lift K| |eassumption].
    match goal with X : patterns_of _ _ |- _ => rename X into Hpat end.
    destruct (n_item lf) eqn:En; try (apply pa_many; assumption).
    all: inversion Hpat as [|? p ? ps Hp1 Hp2]; subst; inversion Hp2; subst; rewrite En in Hp1; now apply pa_one.
  - eexists. split; [eapply x_conditional; [lift K|eassumption|eassumption]|].
    eapply ok_right; [eassumption|eassumption|lia|cbn [num]; lia].
Qed.
