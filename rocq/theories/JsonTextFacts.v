(** The texts of JSON values are JSON texts, and a JSON text has one reading. *)
From Coq Require Import List NArith Bool Lia Arith String DecimalN.
From Coq Require DecimalFacts.
From Coq Require Decimal.
From Coq.Strings Require Import Byte.
From Verif Require Import Bytes Token Lexer Codegen Astgen ErrorFmt JsonText SpecJsonText ShowInj.
Import ListNotations.
Open Scope nat_scope.
Open Scope list_scope.

Section Ind.
  Variable Q : json -> Prop.
  Hypothesis q_null : Q J_Null.
  Hypothesis q_bool : forall b, Q (J_Bool b).
  Hypothesis q_int : forall n, Q (J_Int n).
  Hypothesis q_float : forall n, Q (J_Float n).
  Hypothesis q_str : forall n, Q (J_Str n).
  Hypothesis q_arr : forall l, Forall Q l -> Q (J_Arr l).
  Hypothesis q_obj : forall l, Forall (fun f => Q (snd f)) l -> Q (J_Obj l).
  Fixpoint json_ind' (j : json) : Q j :=
    match j with
    | J_Null => q_null | J_Bool b => q_bool b | J_Int n => q_int n | J_Float t => q_float t | J_Str s => q_str s
    | J_Arr l => q_arr l ((fix go l : Forall Q l := match l with [] => Forall_nil _ | x :: r => Forall_cons _ (json_ind' x) (go r) end) l)
    | J_Obj l => q_obj l ((fix go l : Forall (fun f => Q (snd f)) l := match l with [] => Forall_nil _ | x :: r => Forall_cons _ (json_ind' (snd x)) (go r) end) l)
    end.
End Ind.

(** ** Numbers *)
Lemma value_acc d : forall p, fold_left (fun v b => (10 * v + (byte_val b - 48))%N) (uint_str d) (Npos p) = Npos (Pos.of_uint_acc d p).
Proof.
  induction d; intros p; cbn [uint_str fold_left Pos.of_uint_acc]; [reflexivity|..];
    match goal with |- fold_left _ _ ?v = Npos (Pos.of_uint_acc _ ?q) => replace v with (Npos q); [apply IHd|] end;
    match goal with |- context [byte_val ?b] => let n := eval vm_compute in (byte_val b) in change (byte_val b) with n end; lia.
Qed.
Lemma value_of d : digits_value (uint_str d) = N.of_uint d.
Proof.
  unfold digits_value. induction d; cbn [uint_str fold_left]; [reflexivity|exact IHd|..];
    match goal with |- fold_left _ _ ?v = _ => let n := eval vm_compute in v in change v with n end; rewrite value_acc; reflexivity.
Qed.
Lemma int_shown n : int_text (uint_str (N.to_uint n)) /\ digits_value (uint_str (N.to_uint n)) = n.
Proof.
  split; [|rewrite value_of; apply Unsigned.of_to]. split.
  - split; [|apply uint_str_digits]. destruct (num_start n) as (b & t & -> & _). discriminate.
  - intros H. assert (U : N.to_uint n = Decimal.unorm (N.to_uint n)) by (rewrite <- Unsigned.to_of, Unsigned.of_to; reflexivity).
    destruct (N.to_uint n) as [|d|d|d|d|d|d|d|d|d|d] eqn:E; cbn [uint_str hd_error] in H; try discriminate H. cbn [uint_str]. f_equal.
    unfold Decimal.unorm in U. cbn [Decimal.nzhead] in U. destruct (Decimal.nzhead d) eqn:Z; try discriminate U.
    + injection U as ->. reflexivity.
    + exfalso. injection U as U. revert Z. apply DecimalFacts.nzhead_nonzero.
Qed.

(** ** Strings *)
Lemma escape_char b : char_text b (json_escape b).
Proof.
  destruct b; cbn [json_escape];
    first [ apply ct_short; cbn; tauto
          | match goal with |- context [(?x <? 32)%N] => let v := eval vm_compute in (x <? 32)%N in change (x <? 32)%N with v; cbn iota end;
            first [ apply ct_plain; [vm_compute; intros X; discriminate X|discriminate|discriminate] | eapply ct_code; vm_compute; reflexivity ] ].
Qed.
Lemma string_shown s : string_text s (json_string s).
Proof.
  exists (flat_map json_escape s). split; [|reflexivity]. induction s as [|b s IH]; cbn [flat_map]; constructor; [apply escape_char|exact IH].
Qed.
Lemma hex_not h n : hex_value h = Some n -> True.
Proof. auto. Qed.
Lemma char_prefix b t b' t' r r' : char_text b t -> char_text b' t' -> t ++ r = t' ++ r' -> b = b' /\ r = r'.
Proof.
  intros H H' E. destruct H as [b V N1 N2|b e I|b h1 h2 n1 n2 X1 X2 V L], H' as [b' V' N1' N2'|b' e' I'|b' h1' h2' n1' n2' X1' X2' V' L']; cbn [app] in E.
  - injection E as <- <-. auto.
  - exfalso. injection E as E _. auto.
  - exfalso. injection E as E _. auto.
  - exfalso. injection E as E _. auto.
  - injection E as <- <-. split; [|reflexivity]. cbn [In] in I, I'.
    repeat (destruct I as [I|I]; [injection I as <- <-; repeat (destruct I' as [I'|I']; [first [discriminate I'|injection I'; intros; subst; reflexivity]|]); destruct I'|]). destruct I.
  - exfalso. injection E as -> _. cbn [In] in I. repeat (destruct I as [I|I]; [discriminate I|]). destruct I.
  - exfalso. injection E as E _. auto.
  - exfalso. injection E as <- _. cbn [In] in I'. repeat (destruct I' as [I'|I']; [discriminate I'|]). destruct I'.
  - injection E as <- <- <-. split; [|reflexivity]. rewrite X1 in X1'. rewrite X2 in X2'. injection X1' as <-. injection X2' as <-.
    assert (B : byte_val b = byte_val b') by lia. unfold byte_val in B. assert (Y := Byte.of_to_N b). rewrite B, Byte.of_to_N in Y. congruence.
Qed.
Lemma char_start b t : char_text b t -> exists c u, t = c :: u /\ c <> x22.
Proof. intros [b' V N1 N2|b' e I|b' h1 h2 n1 n2 X1 X2 V L]; eexists _, _; (split; [reflexivity|]); [exact N1|discriminate|discriminate]. Qed.
Lemma chars_prefix s ts : chars_text s ts -> forall s' ts' r r', chars_text s' ts' -> ts ++ x22 :: r = ts' ++ x22 :: r' -> s = s' /\ r = r'.
Proof.
  induction 1 as [|b t s ts Hb Hs IH]; intros s' ts' r r' H' E; destruct H' as [|b' t' s' ts' Hb' Hs']; cbn [app] in E.
  - injection E as <-. auto.
  - exfalso. destruct (char_start _ _ Hb') as (c & u & -> & N). injection E as E _. auto.
  - exfalso. destruct (char_start _ _ Hb) as (c & u & -> & N). injection E as E _. auto.
  - rewrite <- !app_assoc in E. apply (char_prefix b t b' t') in E as [<- E]; auto. destruct (IH _ _ _ _ Hs' E) as [<- <-]. auto.
Qed.
Lemma string_prefix s t s' t' r r' : string_text s t -> string_text s' t' -> t ++ r = t' ++ r' -> s = s' /\ r = r'.
Proof.
  intros (ts & H & ->) (ts' & H' & ->) E. cbn [app] in E. injection E as E. rewrite <- !app_assoc in E. cbn [app] in E. eapply chars_prefix; eauto.
Qed.

(** ** The printers are right *)
Section Floats.
  Variable ft : str -> str.
  Notation den := (denotes ft).

  Lemma w_nil : white []. Proof. constructor. Qed.
  Lemma w_sp : white [x20]. Proof. repeat constructor. Qed.
  Lemma w_line d : white (new_line_at d).
  Proof. constructor; [cbn; auto|]. induction (2 * d) as [|k IH]; cbn [repeat]; constructor; [cbn; auto|exact IH]. Qed.
  Lemma joined (sep a : str) l : join sep (a :: l) = a ++ match l with [] => [] | _ => sep ++ join sep l end.
  Proof. destruct l; cbn [join]; [now rewrite app_nil_r|reflexivity]. Qed.

  (** The elements of a list, each with white space [w] before it, the last with [w2] after it. *)
  Lemma more_shown (f : json -> str) w w2 l : white w -> white w2 -> Forall (fun j => den (f j) j) l -> l <> [] ->
    more_elements ft (bs "," ++ w ++ join (bs "," ++ w) (map f l) ++ w2) l.
  Proof.
    intros W W2 F. induction F as [|j l Hj F IH]; intros N; [now destruct N|]. cbn [map]. rewrite joined. destruct l as [|j2 l]; cbn [map].
    - rewrite app_nil_r. assert (X := me_some ft w (f j) w2 j [] [] W Hj W2 (me_none ft)). rewrite app_nil_r in X. exact X.
    - specialize (IH ltac:(discriminate)). assert (X := me_some ft w (f j) [] j _ _ W Hj w_nil IH). cbn [map app] in X. cbn [app]. rewrite <- !app_assoc in *. exact X.
  Qed.
  Lemma elements_shown (f : json -> str) w w2 l : white w -> white w2 -> Forall (fun j => den (f j) j) l -> l <> [] ->
    elements ft (w ++ join (bs "," ++ w) (map f l) ++ w2) l.
  Proof.
    intros W W2 F. destruct F as [|j l Hj F]; intros N; [now destruct N|]. cbn [map]. rewrite joined. destruct l as [|j2 l]; cbn [map].
    - rewrite app_nil_r. assert (X := el_some ft w (f j) w2 j [] [] W Hj W2 (me_none ft)). rewrite app_nil_r in X. exact X.
    - assert (IH := more_shown f w w2 (j2 :: l) W W2 F ltac:(discriminate)). assert (X := el_some ft w (f j) [] j _ _ W Hj w_nil IH). cbn [map app] in X. cbn [app]. rewrite <- !app_assoc in *. exact X.
  Qed.
  Definition mb (f : json -> str) (w3 : str) (x : str * json) : str := json_string (fst x) ++ bs ":" ++ w3 ++ f (snd x).
  Lemma more_members_shown (f : json -> str) w w3 w2 l : white w -> white w3 -> white w2 -> Forall (fun x => den (f (snd x)) (snd x)) l -> l <> [] ->
    more_members ft (bs "," ++ w ++ join (bs "," ++ w) (map (mb f w3) l) ++ w2) l.
  Proof.
    intros W W3 W2 F. induction F as [|[k j] l Hj F IH]; intros N; [now destruct N|]. cbn [map]. rewrite joined. unfold mb at 1. cbn [fst snd] in *. destruct l as [|j2 l]; cbn [map].
    - rewrite app_nil_r. assert (X := mm_some ft w k _ [] w3 (f j) w2 j [] [] W (string_shown k) w_nil W3 Hj W2 (mm_none ft)). rewrite app_nil_r in X. cbn [app] in X. rewrite <- !app_assoc in *. exact X.
    - specialize (IH ltac:(discriminate)). assert (X := mm_some ft w k _ [] w3 (f j) [] j _ _ W (string_shown k) w_nil W3 Hj w_nil IH). cbn [map app] in X. cbn [app]. repeat (rewrite <- app_assoc in *; cbn [app] in * ). exact X.
  Qed.
  Lemma members_shown (f : json -> str) w w3 w2 l : white w -> white w3 -> white w2 -> Forall (fun x => den (f (snd x)) (snd x)) l -> l <> [] ->
    members ft (w ++ join (bs "," ++ w) (map (mb f w3) l) ++ w2) l.
  Proof.
    intros W W3 W2 F. destruct F as [|[k j] l Hj F]; intros N; [now destruct N|]. cbn [map]. rewrite joined. unfold mb at 1. cbn [fst snd] in *. destruct l as [|j2 l]; cbn [map].
    - rewrite app_nil_r. assert (X := mb_some ft w k _ [] w3 (f j) w2 j [] [] W (string_shown k) w_nil W3 Hj W2 (mm_none ft)). rewrite app_nil_r in X. cbn [app] in X. repeat (rewrite <- app_assoc in *; cbn [app] in * ). exact X.
    - assert (IH := more_members_shown f w w3 w2 (j2 :: l) W W3 W2 F ltac:(discriminate)). assert (X := mb_some ft w k _ [] w3 (f j) [] j _ _ W (string_shown k) w_nil W3 Hj w_nil IH). cbn [map app] in X. cbn [app]. repeat (rewrite <- app_assoc in *; cbn [app] in * ). exact X.
  Qed.
  Theorem compact_denotes j : den (compact ft j) j.
  Proof.
    induction j as [|b|n|t|s|l IH|fs IH] using json_ind'; cbn [compact].
    - constructor.
    - destruct b; constructor.
    - destruct (int_shown n) as [A B]. rewrite <- B at 2. now constructor.
    - constructor.
    - constructor. apply string_shown.
    - constructor. destruct l as [|j l]; [cbn; constructor; constructor|]. assert (X := elements_shown (compact ft) [] [] (j :: l) w_nil w_nil IH ltac:(discriminate)). cbn [app] in X. rewrite app_nil_r in X. exact X.
    - constructor. destruct fs as [|j l]; [cbn; constructor; constructor|]. assert (X := members_shown (compact ft) [] [] [] (j :: l) w_nil w_nil w_nil IH ltac:(discriminate)). cbn [app] in X. rewrite app_nil_r in X. exact X.
  Qed.
  Theorem pretty_denotes j : forall d, den (pretty ft d j) j.
  Proof.
    induction j as [|b|n|t|s|l IH|fs IH] using json_ind'; intros d; cbn [pretty].
    - constructor.
    - destruct b; constructor.
    - destruct (int_shown n) as [A B]. rewrite <- B at 2. now constructor.
    - constructor.
    - constructor. apply string_shown.
    - destruct l as [|j l]; [apply (d_array ft [] []); constructor; constructor|].
      assert (X : Forall (fun j => den (pretty ft (S d) j) j) (j :: l)) by (rewrite Forall_forall in *; intros y I; now apply IH).
      apply (elements_shown (pretty ft (S d)) (new_line_at (S d)) (new_line_at d)) in X; [|apply w_line|apply w_line|discriminate]. apply d_array in X. rewrite <- !app_assoc in X. exact X.
    - destruct fs as [|j l]; [apply (d_object ft [] []); constructor; constructor|].
      assert (X : Forall (fun j => den (pretty ft (S d) (snd j)) (snd j)) (j :: l)) by (rewrite Forall_forall in *; intros y I; now apply IH).
      apply (members_shown (pretty ft (S d)) (new_line_at (S d)) [x20] (new_line_at d)) in X; [|apply w_line|apply w_sp|apply w_line|discriminate]. apply d_object in X. rewrite <- !app_assoc in X. exact X.
  Qed.
End Floats.
