(** From a cut of the trace to the simulation. *)
From Coq Require Import List NArith Bool Lia Arith String.
From Coq.Strings Require Import Byte.
From Verif Require Import Bytes Token Tables Lexer Ast Prog Parser SpecLexer SpecGap SpecTrace SpecUtf8 LexerFacts ConsumeFacts LexEval StateFacts TokenText Local LocalLex LocalConsume Cross Erase TraceFacts GapSim Boundary Utf8Facts.
Import ListNotations.
Open Scope nat_scope.
Open Scope list_scope.

Lemma parse_tokens_run alnum src r l : parse_tokens alnum src r l -> parses_to alnum src r.
Proof.
  intros (n & lx & m & s & l1 & E & T & -> & _). exists n. unfold parse_fuel. rewrite E. cbn [obind]. rewrite trun_run, T. reflexivity.
Qed.
Lemma parses_tokens alnum src r : parses_to alnum src r -> exists l, parse_tokens alnum src r l.
Proof.
  intros (n & E). unfold parse_fuel in E. ob E as lx E1 E2. ob E2 as [m s] E3 E4. injection E4 as <-. rewrite trun_run in E3. destruct (trun alnum body n _ _) as [[[m1 s1] l]| | |] eqn:T; try discriminate E3.
  injection E3 as -> ->. exists (spot_of lx :: l). exists n, lx, m, s, l. auto.
Qed.
Lemma gap_head g rest : gap g rest -> g = [] \/ exists b r, g = b :: r /\ stop b.
Proof. intros H. inversion H; subst; [left; reflexivity|right..]; eauto; do 2 eexists; (split; [reflexivity|]); [left; assumption|right; reflexivity|right; reflexivity]. Qed.
Lemma stop_lead c : stop c -> is_continuation c = false.
Proof. intros [W| ->]; [|reflexivity]. apply white_in in W. cbn in W. repeat (destruct W as [<-|W]; [reflexivity|]). destruct W. Qed.
Lemma gap_heads g g' b : gap g (b ++ [x00]) -> gap g' (b ++ [x00]) -> g' <> [] -> utf8 b -> heads (g ++ b ++ [x00]) (g' ++ b ++ [x00]).
Proof.
  intros H H' N U. right. destruct (gap_head _ _ H') as [E|(c & r' & -> & S')]; [now destruct N|].
  assert (X : exists x r, g ++ b ++ [x00] = x :: r /\ is_continuation x = false).
  { destruct (gap_head _ _ H) as [->|(x & r & -> & S1)].
    - destruct b as [|x r]; [exists x00, []; split; reflexivity|]. exists x, (r ++ [x00]). split; [reflexivity|]. exact (utf8_start _ U).
    - exists x, (r ++ b ++ [x00]). split; [reflexivity|]. now apply stop_lead. }
  destruct X as (x & r & E & C). exists x, r, c, (r' ++ b ++ [x00]). auto.
Qed.
Section Cut.
  Variables (a g g' : str).
  Notation inB := (inB a g').
  Notation inA := (inA a g).
  Notation st := (st a g g').
  Lemma chain_after l : forall x, (forall y, In y l -> inA y) -> inA x -> chain st x l.
  Proof.
    induction l as [|y l IH]; intros x H Hx; [exact I|]. split; [|apply IH; [intros w Hw; apply H; now right|apply H; now left]].
    intros (B & _). exfalso. unfold GapSim.inA in Hx. rewrite app_length in Hx. lia.
  Qed.
  Lemma chain_cut l1 : forall x l2, (forall y, In y (x :: l1) -> inB y) -> s_end (last l1 x) = List.length a -> (forall y, In y l2 -> inA y) -> chain st x (l1 ++ l2).
  Proof.
    induction l1 as [|y l1 IH]; intros x l2 HB HE HA; cbn [app].
    - destruct l2 as [|y l2]; [exact I|]. split; [|apply chain_after; [intros w Hw; apply HA; now right|apply HA; now left]]. intros _. right. split; [apply HA; now left|exact HE].
    - split; [intros _; left; apply HB; right; now left|]. apply IH; [intros w Hw; apply HB; now right| |exact HA]. rewrite <- HE. symmetry. f_equal. apply last_cons.
  Qed.
End Cut.
Lemma same_result_refl r : same_result r r.
Proof. destruct r as [m|es]; cbn; [reflexivity|]. induction es; constructor; auto. split; reflexivity. Qed.
Lemma gap_replaced alnum a g g' b r l1 l2 : parse_tokens alnum (a ++ g ++ b) r (l1 ++ l2) -> cut a g l1 l2 ->
  (forall x, In x l1 -> s_end x = List.length a -> fine g' (s_token x)) ->
  gap g (b ++ [x00]) -> gap g' (b ++ [x00]) -> (g' = [] -> g = []) -> (ends_line g <-> ends_line g') -> utf8 b ->
  exists r', parses_to alnum (a ++ g' ++ b) r' /\ same_result r r'.
Proof.
  intros H [C1 C2 C3] Hf G G' N L U. destruct g' as [|c w] eqn:Eg.
  { rewrite (N eq_refl) in H. exists r. split; [exact (parse_tokens_run _ _ _ _ H)|apply same_result_refl]. }
  rewrite <- Eg in *. assert (Ne : g' <> []) by (rewrite Eg; discriminate). clear Eg.
  destruct H as (n & lx & m & s & l & E & T & -> & El).
  assert (HB : forall y, In y l1 -> inB a g' y). { intros y Y. rewrite Forall_forall in C1. destruct (C1 y Y) as [Q1 Q2]. split; [exact Q1|]. split; [exact Q2|]. now apply Hf. }
  assert (HA : forall y, In y l2 -> inA a g y). { intros y Y. rewrite Forall_forall in C3. exact (C3 y Y). }
  assert (X : (inB a g' (spot_of lx) \/ (inA a g (spot_of lx) /\ a = [])) /\ chain (st a g g') (spot_of lx) l).
  { destruct l1 as [|x l1].
    - destruct C2 as [Ea|(l0 & x & X & _)]; [|destruct l0; discriminate X]. cbn [app] in El. subst l2. assert (Y := HA (spot_of lx) ltac:(now left)). split; [right; auto|]. apply chain_after; [|exact Y]. intros y Hy. apply HA. now right.
    - cbn [app] in El. injection El as -> <-. split; [left; apply HB; now left|]. apply chain_cut; [exact HB| |exact HA]. destruct C2 as [Ea|(l0 & x & X & Q)].
      + exfalso. destruct (HB (spot_of lx) ltac:(now left)) as (Z & _). rewrite Ea in Z. cbn in Z. lia.
      + rewrite <- (last_cons l1 (spot_of lx) x), X, last_last. exact Q. }
  destruct X as [X1 X2]. destruct (gap_run alnum a g g' b G G' L (gap_heads _ _ _ G G' Ne U) Ne n lx m s l E T X1 X2) as (lx' & m' & s' & l' & E' & T' & Sm & Se).
  exists (match p_errors s' with [] => ParseOk m' | errs => ParseErr errs end). split.
  - exists n. unfold parse_fuel. rewrite E'. cbn [obind]. rewrite trun_run, T'. cbn [omap fst obind]. reflexivity.
  - destruct Se; [exact Sm|]. cbn. now constructor.
Qed.
