(** Parsing takes a number of operations proportional to the length of the source. *)
From Coq Require Import List NArith ZArith Bool Lia Arith String.
From Coq.Strings Require Import Byte.
From Verif Require Import Bytes Token Tables Lexer Prog Parser ProgFacts SpecLexer SpecTokens SpecRead LexerFacts ConsumeFacts LexEval TokenText
  LexProps StateFacts ChunkText SpecUtf8 Boundary Utf8Facts SpecChunks SpecHazard HazardFacts Returns ReturnFacts SpecCost Cost Chain TraceFacts.
Import ListNotations.
Open Scope nat_scope.
Open Scope list_scope.

Section Run.
  Variable alnum : N -> bool.
  Notation tick m := (obind m (fun x => match x with (a, s1, c) => Done (a, s1, S c) end)).
  Section Gen.
    Variable F : Set -> Type.
    Variable body : forall R, F R -> prog F R.
    Notation crun := (crun alnum body).
    Notation run := (run alnum body).
    Section Eqs.
      Variables (n : nat) (A : Type).
      Lemma crun_Ret (a : A) s : crun n (Ret a) s = Done (a, s, 0).
      Proof. destruct n; reflexivity. Qed.
      Lemma crun_Look (k : view -> prog F A) s : crun n (Look k) s = tick (crun n (k (view_of (p_lexer s))) s).
      Proof. destruct n; reflexivity. Qed.
      Lemma crun_Consume (k : prog F A) s : crun n (Consume k) s = s' <~ op_consume alnum s ;; tick (crun n k s').
      Proof. destruct n; reflexivity. Qed.
      Lemma crun_Template (k : prog F A) s : crun n (ReadTemplate k) s = s' <~ op_template s ;; tick (crun n k s').
      Proof. destruct n; reflexivity. Qed.
      Lemma crun_Regex (k : str -> prog F A) s : crun n (ReadRegex k) s = '(v, s') <~ op_regex s ;; tick (crun n (k v) s').
      Proof. destruct n; reflexivity. Qed.
      Lemma crun_Error (k : prog F A) s : crun n (PushError k) s = s' <~ op_error alnum s ;; tick (crun n k s').
      Proof. destruct n; reflexivity. Qed.
      Lemma crun_Abort s : crun n (Abort (A := A)) s = Panicked.
      Proof. destruct n; reflexivity. Qed.
      Lemma crun_Call0 (R : Set) (f : F R) (k : R -> prog F A) s : crun 0 (Call f k) s = OutOfFuel.
      Proof. reflexivity. Qed.
      Lemma crun_CallS (R : Set) (f : F R) (k : R -> prog F A) s :
        crun (S n) (Call f k) s = '(r, s', c1) <~ crun n (body R f) s ;; '(a, s1, c2) <~ crun (S n) (k r) s' ;; Done (a, s1, S (c1 + c2)).
      Proof. reflexivity. Qed.
    End Eqs.
    (** The counter changes nothing. *)
    Lemma crun_run n : forall A (p : prog F A) s, run n p s = omap fst (crun n p s).
    Proof.
      induction n as [|n IHn]; intros A p;
      induction p as [a0|k IH|k IH|k IH|k IH|k IH| |T f k IH]; intros s.
      all: rewrite ?run_Ret, ?run_Look, ?run_Consume, ?run_Template, ?run_Regex, ?run_Error, ?run_Abort, ?run_Call0, ?run_CallS,
        ?crun_Ret, ?crun_Look, ?crun_Consume, ?crun_Template, ?crun_Regex, ?crun_Error, ?crun_Abort, ?crun_Call0, ?crun_CallS, ?omap_bind; try reflexivity; auto.
      all: try (rewrite IH; destruct (crun _ _ _) as [[[? ?] ?]| | |]; reflexivity).
      all: try (apply obind_ext; intros s'; rewrite ?omap_bind, IH; destruct (crun _ _ _) as [[[? ?] ?]| | |]; reflexivity).
      all: try (apply obind_ext; intros [v s']; rewrite ?omap_bind, IH; destruct (crun _ _ _) as [[[? ?] ?]| | |]; reflexivity).
      rewrite IHn, bind_omap. apply obind_ext. intros [[r s'] l]. cbn [fst]. rewrite IH, omap_bind. destruct (crun _ _ _) as [[[? ?] ?]| | |]; reflexivity.
    Qed.
  End Gen.
End Run.

Section Source.
  Variable alnum : N -> bool.
  Variable src : str.
  Hypothesis valid : utf8 src.
  Notation tp := (has_template src).
  Notation hv := (hv alnum src).
  Notation meas := (meas src).

  (** The lexer stands before a character it cannot pass. *)
  Definition stuck (lx : lexer) : Prop :=
    lx_token lx = T_UnexpectedToken /\ exists b r c n, rem (lx_cur lx) = b :: r /\ (127 < byte_val b)%N /\ decode_char (b :: r) = Some (c, n) /\ alnum c = false.
  Lemma uni_byte b : (127 < byte_val b)%N -> handler_from_byte b = Some H_UNI.
  Proof.
    intros H. assert (A : forallb (fun b => negb (127 <? byte_val b)%N || match handler_from_byte b with Some H_UNI => true | _ => false end)%bool all_bytes = true) by (vm_compute; reflexivity).
    rewrite forallb_forall in A. specialize (A b (in_all_bytes b)). apply N.ltb_lt in H. rewrite H in A. cbn [negb orb] in A.
    destruct (handler_from_byte b) as [[]|]; try discriminate A. reflexivity.
  Qed.
  Lemma stuck_consume lx lx' : stuck lx -> consume alnum lx = Done lx' -> stuck lx'.
  Proof.
    intros (E & b & r & c & n & Er & Hb & D & Ac) H. unfold consume in H. cbn [consume_fuel] in H. unfold consume_once in H. rewrite Er in H. cbn [scan_token_start] in H.
    rewrite (uni_byte _ Hb) in H. cbn [obind run_handler] in H. unfold h_UNI in H. cbn [set_tok set_cur set_asi lx_cur rem] in H. rewrite D, Ac in H. injection H as <-.
    split; [reflexivity|]. exists b, r, c, n. cbn. auto.
  Qed.
  Lemma step_done lx lx' : hv lx -> consume alnum lx = Done lx' -> hv lx' /\
    (stuck lx' \/ (meas lx' <= meas lx /\ (live (view_of lx) -> meas lx' < meas lx))) /\ (~ live (view_of lx) -> ~ live (view_of lx')).
  Proof.
    intros Hx H. assert (R := h_reach _ _ _ Hx). assert (U := reach_uinv alnum src valid _ R). assert (Iv := u_inv _ _ U).
    assert (R' : lexer_reach alnum src lx') by (eapply lr_consume; eauto).
    split; [eapply hv_consumed; [exact Iv|exact H|exact R'|eapply vi_next; [apply (h_visited _ _ _ Hx)|exact H]]|].
    assert (U' := reach_uinv alnum src valid _ R'). assert (Iv' := u_inv _ _ U').
    assert (L := lex_inv_pos _ _ Iv). assert (L' := lex_inv_pos _ _ Iv').
    assert (Le : pos (lx_cur lx) <= pos (lx_cur lx')) by (destruct (consume_inv _ _ _ _ Iv H) as (_ & F & _); apply fwd_pos in F; assert (T := lex_inv_tok_pos _ _ Iv'); lia).
    destruct (token_eq_dec (lx_token lx) T_EndOfProgram) as [E|N].
    - destruct (eop_forever _ _ _ R E) as (lx2 & H2 & E2 & _ & P2). rewrite H in H2. injection H2 as <-. split.
      + right. split; [rewrite !meas_end by assumption; lia|]. intros Lv. now destruct Lv.
      + intros _ X. now apply X.
    - split; [|intros X; now destruct X].
      destruct (consume_progress _ _ _ _ R H) as [P|[E|(Et & Ep & b & r & c & n & Es & Nb & D & A)]].
      + right. rewrite (meas_live src lx N). destruct (token_eq_dec (lx_token lx') T_EndOfProgram) as [E|N']; [rewrite meas_end by assumption|rewrite meas_live by assumption]; split; lia.
      + right. rewrite (meas_live src lx N), (meas_end src lx' E). split; lia.
      + left. split; [exact Et|]. exists b, (r ++ [x00]), c, n. split; [|auto].
        rewrite <- (on_skipn _ _ (li_cur _ _ Iv')), (li_buf _ _ Iv'), skipn_app, Es. replace (pos (lx_cur lx') - List.length src) with 0 by lia. reflexivity.
  Qed.
  Lemma consume_step s s' : hv (p_lexer s) -> op_consume alnum s = Done s' -> hv (p_lexer s') /\ (stuck (p_lexer s) -> stuck (p_lexer s')) /\
    (stuck (p_lexer s') \/ (meas (p_lexer s') <= meas (p_lexer s) /\ (live (view_of (p_lexer s)) -> meas (p_lexer s') < meas (p_lexer s)))) /\ (~ live (view_of (p_lexer s)) -> ~ live (view_of (p_lexer s'))).
  Proof.
    intros H E. unfold op_consume in E. destruct (consume alnum (p_lexer s)) as [lx| | |] eqn:C; try discriminate E. injection E as <-. cbn [p_lexer].
    destruct (step_done _ _ H C) as (A & B & D). split; [exact A|]. split; [|auto]. intros St. eapply stuck_consume; eauto.
  Qed.
  Lemma error_step s s' : hv (p_lexer s) -> op_error alnum s = Done s' -> hv (p_lexer s') /\ (stuck (p_lexer s) -> stuck (p_lexer s')) /\
    (stuck (p_lexer s') \/ (meas (p_lexer s') <= meas (p_lexer s) /\ (live (view_of (p_lexer s)) -> meas (p_lexer s') < meas (p_lexer s)))) /\ (~ live (view_of (p_lexer s)) -> ~ live (view_of (p_lexer s'))).
  Proof.
    intros H E. unfold op_error, invalid_token in E. destruct (token_eq_dec (lx_token (p_lexer s)) T_EndOfProgram) as [Et|N].
    - rewrite Et in E. cbn in E. injection E as <-. cbn [p_lexer]. split; [exact H|]. split; [auto|]. split; [right; split; [lia|intros L; now destruct L]|auto].
    - assert (C : exists lx, consume alnum (p_lexer s) = Done lx /\ p_lexer s' = lx).
      { destruct (lx_token (p_lexer s)); try (now destruct N); destruct (consume alnum (p_lexer s)) as [lx| | |]; try discriminate E; cbn in E; injection E as <-; eauto. }
      destruct C as (lx & C & ->). destruct (step_done _ _ H C) as (A & B & D). split; [exact A|]. split; [|auto]. intros St. eapply stuck_consume; eauto.
  Qed.

  Notation sv s := (view_of (p_lexer s)).
  Notation ms s := (Z.of_nat (meas (p_lexer s))).
  Record good {A} (s : pstate) (Q : A -> view -> Z -> nat -> Prop) (c : nat) (a : A) (s' : pstate) (d : nat) : Prop := Good {
    g_hv : hv (p_lexer s');
    g_stuck : stuck (p_lexer s) -> stuck (p_lexer s');
    g_end : ~ live (sv s) -> ~ live (sv s');
    g_post : ~ stuck (p_lexer s') -> Q a (sv s') (ms s') (c + d)
  }.
  Lemma stuck_live lx : stuck lx -> live (view_of lx).
  Proof. intros [E _] X. cbn in X. congruence. Qed.
  Lemma stuck_dec lx : stuck lx \/ ~ stuck lx.
  Proof.
    destruct (token_eq_dec (lx_token lx) T_UnexpectedToken) as [E|N]; [|right; intros [X _]; congruence].
    destruct (rem (lx_cur lx)) as [|b r] eqn:Er; [right; intros (_ & b & r & c & n & X & _); congruence|].
    destruct (N.lt_decidable 127 (byte_val b)) as [L|L]; [|right; intros (_ & b1 & r1 & c & n & X & Y & _); congruence].
    destruct (decode_char (b :: r)) as [[c n]|] eqn:D; [|right; intros (_ & b1 & r1 & c & n & X & Y & Z & _); congruence].
    destruct (alnum c) eqn:Ac; [right; intros (_ & b1 & r1 & c1 & n1 & X & Y & Z & W); congruence|].
    left. split; [exact E|]. exists b, r, c, n. auto.
  Qed.
  Definition moved (s s1 : pstate) : Prop :=
    hv (p_lexer s1) /\ (stuck (p_lexer s) -> stuck (p_lexer s1)) /\
    (stuck (p_lexer s1) \/ (meas (p_lexer s1) <= meas (p_lexer s) /\ (live (sv s) -> meas (p_lexer s1) < meas (p_lexer s)))) /\
    (~ live (sv s) -> ~ live (sv s1)).
  (** One step, then the rest. *)
  Lemma good_step {A} (s s1 : pstate) (k : Z) (Q : A -> view -> Z -> nat -> Prop) c (a : A) s' d :
    moved s s1 -> (stuck (p_lexer s) \/ ms s = k) ->
    (forall k', (k' <= k)%Z -> (live (sv s) -> (k' < k)%Z) -> (stuck (p_lexer s1) \/ ms s1 = k') -> good s1 Q (S c) a s' d) ->
    good s Q c a s' (S d).
  Proof.
    intros (H1 & H2 & H3 & H4) Ek G.
    assert (X : good s1 Q (S c) a s' d).
    { destruct (stuck_dec (p_lexer s1)) as [St|Ns].
      - apply (G (k - 1)%Z); [lia|lia|now left].
      - destruct H3 as [?|[L1 L2]]; [contradiction|]. destruct Ek as [St|<-]; [exfalso; auto|].
        apply (G (ms s1)); [lia|intros L; specialize (L2 L); lia|now right]. }
    destruct X as [X1 X2 X3 X4]. constructor; auto. intros N. replace (c + S d) with (S c + d) by lia. auto.
  Qed.
  Lemma cost_run n : forall A Q v k c (p : P A), K tp Q v k c p -> forall s, hv (p_lexer s) -> sv s = v -> (stuck (p_lexer s) \/ ms s = k) ->
    forall a s' d, crun alnum body n p s = Done (a, s', d) -> good s Q c a s' d.
  Proof.
    induction n as [n IHn] using lt_wf_ind. intros A Q v k c p Hk.
    induction Hk as [v k c a Hq|v k c p Hp IH|v k c p Hp IH|v k c p Ht Hv Hp IH|v k c p Hv Hp IH|v k c p Hp IH|v k c|v k c R f p Hf Hp IH]; intros s Hs Ev Ek a' s' d H.
    - rewrite crun_Ret in H. injection H as <- <- <-. constructor; auto. intros Ns. rewrite Nat.add_0_r, Ev. destruct Ek as [St| ->]; [contradiction|exact Hq].
    - rewrite crun_Look, Ev in H. destruct (crun alnum body n (p v) s) as [[[a1 s1] d1]| | |] eqn:E; try discriminate H. injection H as <- <- <-.
      destruct (IH s Hs Ev Ek _ _ _ E) as [X1 X2 X3 X4]. constructor; auto. intros N. replace (c + S d1) with (S c + d1) by lia. auto.
    - rewrite crun_Consume in H. destruct (op_consume alnum s) as [s1| | |] eqn:O; try discriminate H. cbn [obind] in H.
      destruct (crun alnum body n p s1) as [[[a1 s2] d1]| | |] eqn:E; try discriminate H. injection H as <- <- <-.
      assert (M : moved s s1) by exact (consume_step _ _ Hs O). subst v. assert (M' := M). destruct M' as (H1 & _ & _ & H4).
      apply (good_step s s1 k); auto. intros k' L1 L2 Ek1. exact (IH (sv s1) k' (h_tinv _ _ _ H1) L1 L2 H4 s1 H1 eq_refl Ek1 _ _ _ E).
    - rewrite crun_Template in H. destruct (op_template s) as [s1| | |] eqn:O; try discriminate H. cbn [obind] in H.
      destruct (crun alnum body n p s1) as [[[a1 s2] d1]| | |] eqn:E; try discriminate H. injection H as <- <- <-.
      subst v. assert (G := template_op alnum src valid s Hs Ht Hv). rewrite O in G. destruct G as [G1 G2].
      assert (M : moved s s1).
      { split; [exact G1|]. split; [intros [X _]; cbn in Hv; congruence|]. split; [right; lia|]. intros X. destruct X. intros X. cbn in *. congruence. }
      assert (Lv : live (sv s)) by (intros X; congruence).
      apply (good_step s s1 k); auto. intros k' L1 L2 Ek1. exact (IH (sv s1) k' (h_tinv _ _ _ G1) (L2 Lv) s1 G1 eq_refl Ek1 _ _ _ E).
    - rewrite crun_Regex in H. destruct (op_regex s) as [[w s1]| | |] eqn:O; try discriminate H. cbn [obind] in H.
      destruct (crun alnum body n (p w) s1) as [[[a1 s2] d1]| | |] eqn:E; try discriminate H. injection H as <- <- <-.
      subst v. assert (G := regex_op alnum src valid s Hs Hv). rewrite O in G. destruct G as [G1 G2]. cbn [snd] in *.
      assert (M : moved s s1).
      { split; [exact G1|]. split; [intros [X _]; cbn in Hv; congruence|]. split; [right; lia|]. intros X. destruct X. intros X. cbn in *. congruence. }
      assert (Lv : live (sv s)) by (intros X; congruence).
      apply (good_step s s1 k); auto. intros k' L1 L2 Ek1. exact (IH w (sv s1) k' (h_tinv _ _ _ G1) (L2 Lv) s1 G1 eq_refl Ek1 _ _ _ E).
    - rewrite crun_Error in H. destruct (op_error alnum s) as [s1| | |] eqn:O; try discriminate H. cbn [obind] in H.
      destruct (crun alnum body n p s1) as [[[a1 s2] d1]| | |] eqn:E; try discriminate H. injection H as <- <- <-.
      assert (M : moved s s1) by exact (error_step _ _ Hs O). subst v. assert (M' := M). destruct M' as (H1 & _ & _ & H4).
      apply (good_step s s1 k); auto. intros k' L1 L2 Ek1. exact (IH (sv s1) k' (h_tinv _ _ _ H1) L1 L2 H4 s1 H1 eq_refl Ek1 _ _ _ E).
    - rewrite crun_Abort in H. discriminate H.
    - destruct n as [|n]; [rewrite crun_Call0 in H; discriminate H|]. rewrite crun_CallS in H.
      destruct (crun alnum body n (body R f) s) as [[[r s1] d1]| | |] eqn:E1; try discriminate H. cbn [obind] in H.
      destruct (crun alnum body (S n) (p r) s1) as [[[a2 s2] d2]| | |] eqn:E2; try discriminate H. injection H as <- <- <-.
      subst v.
      destruct (IHn n (Nat.lt_succ_diag_r n) R _ (sv s) k 0 (body R f) (body_cost tp R f (sv s) k (h_tinv _ _ _ Hs) Hf) s Hs eq_refl Ek r s1 d1 E1) as [B1 B2 B3 B4].
      assert (X : good s1 Q (S (c + d1)) a2 s2 d2).
      { destruct (stuck_dec (p_lexer s1)) as [St|Ns].
        - set (k' := (k - Z.of_nat (d1 + 3 * pot f r + spare f + 1))%Z).
          assert (Lv : live (sv s)) by (destruct (live_dec (sv s)) as [L|L]; [exact L|exfalso; exact (B3 L (stuck_live _ St))]).
          apply (IH r (sv s1) k' d1 (h_tinv _ _ _ B1)); auto. constructor; auto; unfold k', price; intros; lia.
        - apply (IH r (sv s1) (ms s1) d1 (h_tinv _ _ _ B1)); auto. }
      destruct X as [X1 X2 X3 X4]. constructor; auto. intros N. replace (c + S (d1 + d2)) with (S (c + d1) + d2) by lia. auto.
  Qed.
  Lemma parse_to_end n : forall s m s' c, crun alnum body n (body _ F_parse) s = Done (m, s', c) -> lx_token (p_lexer s') = T_EndOfProgram.
  Proof.
    induction n as [|n IH]; intros s m s' c H; cbn [body] in H; unfold body_parse, look, call in H; cbn [bind] in H; rewrite crun_Look in H;
      (destruct (is T_EndOfProgram (view_of (p_lexer s))) eqn:E; [rewrite crun_Ret in H; cbn [obind] in H; injection H as _ <- _; exact (Erase.is_eq _ _ E)|]).
    - rewrite crun_Call0 in H. discriminate H.
    - rewrite crun_CallS in H. destruct (crun alnum body n (body _ F_statement) s) as [[[r1 s1] c1]| | |]; try discriminate H. cbn [obind bind] in H.
      rewrite crun_CallS in H. destruct (crun alnum body n (body _ F_parse) s1) as [[[r2 s2] c2]| | |] eqn:E2; try discriminate H. cbn [obind bind] in H.
      rewrite crun_Ret in H. cbn [obind] in H. injection H as _ <- _. exact (IH _ _ _ _ E2).
  Qed.
  Lemma parse_linear r c : parse_steps alnum src r c -> c <= 100 * (List.length src + 1) + 1.
  Proof.
    intros (n & lx & m & s & E & H & _).
    assert (Hx : hv lx) by (eapply hv_consumed; [apply init_inv|exact E|now apply lr_new|now apply vi_new]).
    destruct (cost_run n _ _ _ _ _ _ (body_cost tp _ F_parse (view_of lx) (Z.of_nat (meas lx)) (h_tinv _ _ _ Hx) I) (PState lx []) Hx eq_refl (or_intror eq_refl) _ _ _ H) as [_ _ _ X].
    assert (Et := parse_to_end _ _ _ _ _ H).
    assert (Ns : ~ stuck (p_lexer s)) by (intros [Y _]; congruence). specialize (X Ns). apply kp_idle in X. cbn [pot arg idle] in X.
    assert (M : meas lx <= List.length src + 1) by (unfold ReturnFacts.meas; destruct (lx_token lx); lia).
    unfold price in X. lia.
  Qed.
  Lemma parse_counted r : parses_to alnum src r <-> exists c, parse_steps alnum src r c.
  Proof.
    unfold parses_to, parse_fuel, parse_steps. split.
    - intros [n H]. destruct (lexer_new alnum src) as [lx| | |] eqn:E; try discriminate H. cbn [obind] in H. rewrite crun_run in H.
      destruct (crun alnum body n (body _ F_parse) (PState lx [])) as [[[m s] c]| | |] eqn:C; try discriminate H. cbn [omap fst obind] in H. injection H as <-.
      exists c, n, lx, m, s. auto.
    - intros (c & n & lx & m & s & E & C & ->). exists n. rewrite E. cbn [obind]. rewrite crun_run, C. reflexivity.
  Qed.
  (** Errors are recorded one at a time. *)
  Notation ne s := (List.length (p_errors s)).
  Lemma e_consume s s' : op_consume alnum s = Done s' -> ne s' <= S (ne s).
  Proof. unfold op_consume. destruct (consume alnum (p_lexer s)); try discriminate. cbn. intros H. injection H as <-. cbn. lia. Qed.
  Lemma e_template s s' : op_template s = Done s' -> ne s' <= S (ne s).
  Proof. unfold op_template. destruct (read_template_kind (p_lexer s)); try discriminate. cbn. intros H. injection H as <-. cbn. lia. Qed.
  Lemma e_regex s v s' : op_regex s = Done (v, s') -> ne s' <= S (ne s).
  Proof. unfold op_regex. destruct (read_regular_expression (p_lexer s)) as [[w lx]| | |]; try discriminate. cbn. intros H. injection H as _ <-. cbn. lia. Qed.
  Lemma e_error s s' : op_error alnum s = Done s' -> ne s' <= S (ne s).
  Proof. unfold op_error. destruct (invalid_token alnum (p_lexer s)) as [[e lx]| | |]; try discriminate. cbn. intros H. injection H as <-. cbn. rewrite app_length. cbn. lia. Qed.
  Lemma crun_errors n : forall A (p : P A) s a s' c, crun alnum body n p s = Done (a, s', c) -> ne s' <= ne s + c.
  Proof.
    induction n as [n IHn] using lt_wf_ind. intros A p. induction p as [a0|k IH|k IH|k IH|k IH|k IH| |T f k IH]; intros s a s' c H.
    - rewrite crun_Ret in H. injection H as _ <- <-. lia.
    - rewrite crun_Look in H. destruct (crun alnum body n (k (sv s)) s) as [[[a1 s1] c1]| | |] eqn:E; try discriminate H. injection H as _ <- <-. apply IH in E. lia.
    - rewrite crun_Consume in H. destruct (op_consume alnum s) as [s0| | |] eqn:O; try discriminate H. cbn [obind] in H. apply e_consume in O.
      destruct (crun alnum body n k s0) as [[[a1 s1] c1]| | |] eqn:E; try discriminate H. injection H as _ <- <-. apply IH in E. lia.
    - rewrite crun_Template in H. destruct (op_template s) as [s0| | |] eqn:O; try discriminate H. cbn [obind] in H. apply e_template in O.
      destruct (crun alnum body n k s0) as [[[a1 s1] c1]| | |] eqn:E; try discriminate H. injection H as _ <- <-. apply IH in E. lia.
    - rewrite crun_Regex in H. destruct (op_regex s) as [[w s0]| | |] eqn:O; try discriminate H. cbn [obind] in H. apply e_regex in O.
      destruct (crun alnum body n (k w) s0) as [[[a1 s1] c1]| | |] eqn:E; try discriminate H. injection H as _ <- <-. apply IH in E. lia.
    - rewrite crun_Error in H. destruct (op_error alnum s) as [s0| | |] eqn:O; try discriminate H. cbn [obind] in H. apply e_error in O.
      destruct (crun alnum body n k s0) as [[[a1 s1] c1]| | |] eqn:E; try discriminate H. injection H as _ <- <-. apply IH in E. lia.
    - rewrite crun_Abort in H. discriminate H.
    - destruct n as [|n]; [rewrite crun_Call0 in H; discriminate H|]. rewrite crun_CallS in H.
      destruct (crun alnum body n (body _ f) s) as [[[r1 s1] c1]| | |] eqn:E1; try discriminate H. cbn [obind] in H.
      destruct (crun alnum body (S n) (k r1) s1) as [[[a2 s2] c2]| | |] eqn:E2; try discriminate H. injection H as _ <- <-.
      apply (IHn n (Nat.lt_succ_diag_r n)) in E1. apply IH in E2. lia.
  Qed.
  Lemma errors_linear errs : parses_to alnum src (ParseErr errs) -> List.length errs <= 100 * (List.length src + 1) + 1.
  Proof.
    intros H. apply parse_counted in H as [c H]. assert (L := parse_linear _ _ H). destruct H as (n & lx & m & s & E & C & Er).
    apply crun_errors in C. cbn [p_errors List.length] in C. destruct (p_errors s); [discriminate Er|]. injection Er as ->. lia.
  Qed.
End Source.
