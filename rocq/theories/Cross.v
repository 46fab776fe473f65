(** [consume] goes over a gap, and sees of it only whether it ends a line. *)
From Coq Require Import List NArith Bool Lia Arith String.
From Coq.Strings Require Import Byte.
From Verif Require Import Bytes Token Tables Lexer SpecLexer SpecGap LexerFacts ConsumeFacts LexEval TokenText Local LocalLex LocalConsume.
Import ListNotations.
Open Scope nat_scope.
Open Scope list_scope.

Lemma block_comment_intro body : forall p r, (forall u v, body ++ ["*"%byte] <> u ++ "*"%byte :: "/"%byte :: v) -> ~ In x00 body ->
  scan_block_comment p (body ++ "*" :: "/" :: r)%byte = Done (true, Cur (p + List.length body + 2) r).
Proof.
  induction body as [|x body IH]; intros p r B N.
  - cbn. repeat f_equal. lia.
  - assert (B' : forall u v, body ++ ["*"%byte] <> u ++ "*"%byte :: "/"%byte :: v). { intros u v E. apply (B (x :: u) v). cbn. now rewrite E. }
    assert (N' : ~ In x00 body) by (intros I; apply N; now right). specialize (IH (S p) r B' N').
    replace (S p + List.length body + 2) with (p + List.length (x :: body) + 2) in IH by (cbn; lia). cbn [app scan_block_comment]. destruct (byte_eqb x "*") eqn:E1.
    + apply byte_eqb_eq in E1. subst x. destruct body as [|y body].
      * cbn [app] in *. change (byte_eqb "*" "/") with false. change (byte_eqb "*" x00) with false. cbv iota. exact IH.
      * cbn [app] in *. destruct (byte_eqb y "/") eqn:E2. { apply byte_eqb_eq in E2. subst y. exfalso. apply (B [] (body ++ ["*"%byte])). reflexivity. }
        destruct (byte_eqb y x00) eqn:E3; [|exact IH]. apply byte_eqb_eq in E3. subst y. exfalso. apply N'. now left.
    + destruct (byte_eqb x x00) eqn:E3; [|exact IH]. apply byte_eqb_eq in E3. subst x. exfalso. apply N. now left.
Qed.
Section Cross.
  Variable alnum : N -> bool.
  Definition from (a : asi) (lx : lexer) : outcome lexer := once_from alnum (consume alnum) a lx.
  Lemma consume_from lx : consume alnum lx = from NoSemicolon lx.
  Proof. apply consume_unfold. Qed.
  Lemma loc_from_consume a : loc (from a).
  Proof. apply loc_from; [apply loc_consume|apply drops_consume]. Qed.
  (** What was known about the previous token does not matter. *)
  Lemma from_forget a t x lx : from a (set_tok t (set_asi x lx)) = from a lx.
  Proof. reflexivity. Qed.
  Definition after (n : nat) (lx : lexer) : lexer := set_cur (cur_advance n (lx_cur lx)) lx.
  Lemma after_0 lx : after 0 lx = lx.
  Proof. destruct lx as [buf t x [p q] tok acc qu]. unfold after, cur_advance. cbn [set_cur lx_cur pos rem skipn]. replace (p + 0) with p by lia. reflexivity. Qed.
  Lemma skip_skip {A} n m (l : list A) : skipn n (skipn m l) = skipn (m + n) l.
  Proof. revert l. induction m as [|m IH]; intros l; [reflexivity|]. destruct l as [|x l]; [now rewrite !skipn_nil|]. cbn [Nat.add skipn]. apply IH. Qed.
  Lemma after_after n m lx : after n (after m lx) = after (m + n) lx.
  Proof. destruct lx as [buf t x [p q] tok acc qu]. unfold after, cur_advance. cbn [set_cur lx_cur pos rem]. rewrite skip_skip. replace (n + (m + p)) with (m + n + p) by lia. reflexivity. Qed.
  Definition carries (g : str) (a a' : asi) : Prop :=
    (ends_line g -> a' = ImplicitSemicolon) /\ (~ ends_line g -> (Forall white g -> a' = a) /\ (~ Forall white g -> a' = NoSemicolon)).
  Lemma whites_dec g : Forall white g \/ ~ Forall white g.
  Proof.
    induction g as [|c g [IH|IH]]; [left; constructor| |right; intros H; apply IH; exact (Forall_inv_tail H)].
    destruct (handler_from_byte c) eqn:E; [right; intros H; apply Forall_inv, handler_None in H; congruence|left; constructor; [now apply handler_None|exact IH]].
  Qed.
  Lemma ends_line_cons b g : ends_line (b :: g) <-> ends_line g \/ (b = x0a /\ Forall white g).
  Proof.
    split.
    - intros ([|c h] & w & E & W); [right; cbn in E; injection E; intros; subst; auto|left]. cbn in E. injection E. intros; subst. exists h, w. auto.
    - intros [(h & w & -> & W)|[-> W]]; [exists (b :: h), w|exists [], g]; auto.
  Qed.
  Lemma ends_line_dec g : ends_line g \/ ~ ends_line g.
  Proof.
    induction g as [|b g [IH|IH]].
    - right. intros (h & w & E & _). destruct h; discriminate E.
    - left. destruct IH as (h & w & -> & W). exists (b :: h), w. auto.
    - destruct (byte_eqb b x0a) eqn:E; [apply byte_eqb_eq in E; subst b; destruct (whites_dec g) as [D|D]|apply byte_eqb_neq in E].
      + left. apply ends_line_cons. auto.
      + right. rewrite ends_line_cons. tauto.
      + right. rewrite ends_line_cons. tauto.
  Qed.
  Lemma ends_line_app s g : ~ In x0a s -> ends_line (s ++ g) <-> ends_line g.
  Proof.
    intros N. induction s as [|b s IH]; [reflexivity|]. cbn [app]. rewrite ends_line_cons, IH by (intros I; apply N; now right). split; [|tauto]. intros [H|[-> _]]; [exact H|]. destruct N. now left.
  Qed.
  Lemma ends_line_block s g : (exists c r, s = c :: r) -> ~ white (last s x00) -> ends_line (s ++ g) <-> ends_line g.
  Proof.
    induction s as [|b s IH]; intros (c & r & E) N; [discriminate|]. destruct s as [|b2 s].
    - cbn [app] in *. rewrite ends_line_cons. cbn in N. split; [|tauto]. intros [H|[-> _]]; [exact H|]. exfalso. apply N. unfold white. cbn. lia.
    - cbn [app]. rewrite ends_line_cons. change (b2 :: s ++ g) with ((b2 :: s) ++ g). rewrite IH; [|eauto|exact N]. split; [|tauto]. intros [H|[_ W]]; [exact H|]. exfalso. apply N.
      apply Forall_app in W as [W _]. clear - W. revert b2 W. induction s as [|x s IHs]; intros b2 W; [exact (Forall_inv W)|]. apply (IHs x). exact (Forall_inv_tail W).
  Qed.
  Lemma skip_block body r : skipn (4 + List.length body) ("/" :: "*" :: body ++ "*" :: "/" :: r)%byte = r.
  Proof.
    change (4 + List.length body) with (S (S (2 + List.length body))). cbn [skipn]. replace (2 + List.length body) with (List.length (body ++ ["*"; "/"]%byte)) by (rewrite app_length; cbn; lia).
    change (body ++ "*" :: "/" :: r)%byte with (body ++ ["*"; "/"]%byte ++ r). rewrite (app_assoc body), skipn_app, skipn_all, Nat.sub_diag. reflexivity.
  Qed.
  Lemma gap_from g rest : gap g rest -> forall a lx, rem (lx_cur lx) = g ++ rest -> exists a', from a lx = from a' (after (List.length g) lx) /\ carries g a a'.
  Proof.
    induction 1 as [rest|b s rest W G IH|body s rest N1 N2 (b & r & Eb & Hb) G IH|body s rest B N G IH]; intros a lx Er.
    - exists a. split. { cbn [List.length]. now rewrite after_0. }
      split. { intros (h & w & E & _). destruct h; discriminate E. } intros _. split; [reflexivity|]. intros X. destruct X. constructor.
    - destruct (IH (if byte_eqb b x0a then ImplicitSemicolon else a) (after 1 lx)) as (a' & E & C). { cbn. rewrite Er. reflexivity. }
      exists a'. split.
      + replace (from a lx) with (from (if byte_eqb b x0a then ImplicitSemicolon else a) (after 1 lx)).
        * rewrite E, after_after. reflexivity.
        * unfold from, once_from, after, cur_advance. cbn [set_cur lx_cur pos rem]. rewrite Er. cbn [app scan_token_start skipn]. apply handler_None in W. rewrite W. replace (pos (lx_cur lx) + 1) with (S (pos (lx_cur lx))) by lia. reflexivity.
      + destruct C as [C1 C2]. split; [|intros M].
        * rewrite ends_line_cons. intros [H|[-> H]]; [auto|]. destruct (ends_line_dec s) as [X|X]; [auto|]. destruct (C2 X) as [C3 _]. exact (C3 H).
        * rewrite ends_line_cons in M. destruct (C2 ltac:(tauto)) as [C3 C4]. split.
          -- intros F. rewrite (C3 (Forall_inv_tail F)). destruct (byte_eqb b x0a) eqn:E0; [|reflexivity]. apply byte_eqb_eq in E0. exfalso. apply M. right. split; [exact E0|exact (Forall_inv_tail F)].
          -- intros F. apply C4. intros X. apply F. constructor; auto.
    - destruct (IH NoSemicolon (after (2 + List.length body) lx)) as (a' & E & C). { cbn [after set_cur lx_cur cur_advance rem]. rewrite Er. cbn [app Nat.add skipn]. rewrite <- app_assoc, skipn_app, skipn_all, Nat.sub_diag. reflexivity. }
      exists a'. split.
      + transitivity (from NoSemicolon (after (2 + List.length body) lx)).
        * assert (Sk : scan_while not_line_end (S (S (pos (lx_cur lx)))) (body ++ s ++ rest) = Done (Cur (S (S (pos (lx_cur lx))) + List.length body) (s ++ rest))).
          { rewrite Eb. apply scan_while_intro.
            - apply forallb_forall. intros x I. unfold not_line_end. apply negb_true_iff, orb_false_iff. split; apply byte_eqb_neq; intros ->; tauto.
            - unfold not_line_end. destruct Hb as [-> | ->]; reflexivity. }
          unfold from at 1, once_from. rewrite Er. cbn [app scan_token_start]. change (handler_from_byte "/") with (Some H_SLH). cbv iota. cbn [obind run_handler].
          unfold h_SLH, next_byte, read_byte, skip_while. cbn [bump set_tok set_cur set_asi lx_cur cur_bump rem pos tl obind]. change (byte_eqb "/" "/") with true. cbv iota. rewrite <- app_assoc, Sk. cbn [obind].
          rewrite consume_from. unfold after, cur_advance. rewrite Er. cbn [app Nat.add skipn]. rewrite <- app_assoc, skipn_app, skipn_all, Nat.sub_diag. cbn [app skipn].
          unfold from, once_from. cbn [set_cur set_tok set_asi lx_cur pos rem]. replace (S (S (List.length body + pos (lx_cur lx)))) with (S (S (pos (lx_cur lx))) + List.length body) by lia. reflexivity.
        * rewrite E, after_after. cbn [List.length]. rewrite app_length. do 2 f_equal; lia.
      + assert (F : ~ Forall white (("/" :: "/" :: body ++ s)%byte)) by (intros F; apply Forall_inv in F; vm_compute in F; destruct F as [_ F]; now apply F).
        assert (L : ends_line ("/" :: "/" :: body ++ s)%byte <-> ends_line s). { apply (ends_line_app ("/" :: "/" :: body)%byte). intros [X|[X|X]]; [discriminate X..|tauto]. }
        destruct C as [C1 C2]. split; [tauto|]. intros M. split; [tauto|]. intros _. destruct (C2 ltac:(tauto)) as [C3 C4]. destruct (whites_dec s); auto.
    - destruct (IH NoSemicolon (after (4 + List.length body) lx)) as (a' & E & C).
      { unfold after, cur_advance. cbn [set_cur lx_cur rem]. rewrite Er. cbn [app]. rewrite <- app_assoc. apply skip_block. }
      exists a'. split.
      + transitivity (from NoSemicolon (after (4 + List.length body) lx)).
        * unfold from at 1, once_from. rewrite Er. cbn [app scan_token_start]. change (handler_from_byte "/") with (Some H_SLH). cbv iota. cbn [obind run_handler].
          unfold h_SLH, next_byte, read_byte. cbn [bump set_tok set_cur set_asi lx_cur cur_bump rem pos tl obind]. change (byte_eqb "*" "/") with false. change (byte_eqb "*" "*") with true. cbv iota zeta. rewrite <- app_assoc. cbn [app].
          rewrite (block_comment_intro body _ (s ++ rest) B N). cbn [obind].
          rewrite consume_from. unfold after, cur_advance. rewrite Er. cbn [app]. rewrite <- app_assoc. cbn [app]. rewrite skip_block.
          unfold from, once_from. cbn [set_cur set_tok set_asi lx_cur pos rem]. replace (4 + List.length body + pos (lx_cur lx)) with (S (S (pos (lx_cur lx))) + List.length body + 2) by lia. reflexivity.
        * rewrite E, after_after. cbn [List.length]. rewrite app_length. cbn [List.length]. do 2 f_equal; lia.
      + assert (F : ~ Forall white (("/" :: "*" :: body ++ "*" :: "/" :: s)%byte)) by (intros F; apply Forall_inv in F; vm_compute in F; destruct F as [_ F]; now apply F).
        assert (L : ends_line ("/" :: "*" :: body ++ "*" :: "/" :: s)%byte <-> ends_line s).
        { replace ("/" :: "*" :: body ++ "*" :: "/" :: s)%byte with (("/" :: "*" :: body ++ ["*"; "/"])%byte ++ s) by (cbn; rewrite <- app_assoc; reflexivity). apply ends_line_block; [eauto|].
          replace ("/" :: "*" :: body ++ ["*"; "/"])%byte with (("/" :: "*" :: body ++ ["*"])%byte ++ ["/"%byte]) by (cbn; rewrite <- app_assoc; reflexivity). rewrite last_last. intros F2. vm_compute in F2. destruct F2 as [_ F2]. now apply F2. }
        destruct C as [C1 C2]. split; [tauto|]. intros M. split; [tauto|]. intros _. destruct (C2 ltac:(tauto)) as [C3 C4]. destruct (whites_dec s); auto.
  Qed.
End Cross.
