(** A JSON text has one reading. *)
From Coq Require Import List NArith Bool Lia Arith String.
From Coq.Strings Require Import Byte.
From Verif Require Import Bytes Lexer Astgen SpecJsonText ShowInj JsonTextFacts.
Import ListNotations.
Open Scope nat_scope.
Open Scope list_scope.

Definition is_white (b : byte) : bool := byte_eqb b x20 || byte_eqb b x09 || byte_eqb b x0a || byte_eqb b x0d.
Lemma white_forallb w : white w -> forallb is_white w = true.
Proof. intros H. apply forallb_forall. unfold white in H. rewrite Forall_forall in H. intros b I. specialize (H b I). cbn [In] in H. repeat (destruct H as [<-|H]; [reflexivity|]). destruct H. Qed.
Definition delim (r : str) : Prop := match r with [] => True | b :: _ => is_white b = true \/ In b [","; "]"; "}"]%byte end.
Definition numc (b : byte) : bool := is_digit b || byte_eqb b "." || byte_eqb b "e" || byte_eqb b "E" || byte_eqb b "+" || byte_eqb b "-".
Lemma delim_not (c : byte -> bool) r b : (forall x, In x [x20; x09; x0a; x0d; ","; "]"; "}"]%byte -> c x = false) -> delim r -> hd_error r = Some b -> c b = false.
Proof.
  intros H D E. destruct r as [|x r]; [discriminate E|]. injection E as ->. apply H. destruct D as [D|D].
  - unfold is_white in D. repeat (apply orb_prop in D as [D|D]); apply byte_eqb_eq in D; subst; cbn; tauto.
  - cbn [In] in *. tauto.
Qed.
Lemma delim_digit r b : delim r -> hd_error r = Some b -> is_digit b = false.
Proof. apply delim_not. intros x I. cbn [In] in I. repeat (destruct I as [<-|I]; [reflexivity|]). destruct I. Qed.
Lemma delim_numc r b : delim r -> hd_error r = Some b -> numc b = false.
Proof. apply delim_not. intros x I. cbn [In] in I. repeat (destruct I as [<-|I]; [reflexivity|]). destruct I. Qed.
Lemma white_split w w' r r' : white w -> white w' -> (forall b, hd_error r = Some b -> is_white b = false) -> (forall b, hd_error r' = Some b -> is_white b = false) -> w ++ r = w' ++ r' -> w = w' /\ r = r'.
Proof. intros W W'. apply span; now apply white_forallb. Qed.
Lemma white_delim w r : white w -> delim r -> delim (w ++ r).
Proof. intros W D. destruct w as [|b w]; [exact D|]. left. apply white_forallb in W. cbn [forallb] in W. now apply andb_prop in W as [W _]. Qed.

(** ** Numbers *)
Lemma digits_numc s : forallb is_digit s = true -> forallb numc s = true.
Proof. induction s as [|b s IH]; cbn [forallb]; [auto|]. intros H. apply andb_prop in H as [A B]. unfold numc. rewrite A. cbn [orb andb]. auto. Qed.
Lemma float_numc s : float_number s -> forallb numc s = true /\ exists b r, s = b :: r /\ is_digit b = true.
Proof.
  intros (i & f & e & -> & ((Ni & Di) & _) & F & X & _). split.
  - rewrite !forallb_app, (digits_numc i Di). cbn [andb]. apply andb_true_intro. split.
    + destruct F as [|ds [_ D]]; [reflexivity|]. cbn [forallb]. now rewrite (digits_numc ds D).
    + destruct X as [|e sg ds He Hs [_ D]]; [reflexivity|]. cbn [forallb]. rewrite forallb_app, (digits_numc ds D). cbn [In] in He, Hs.
      assert (A : numc e = true) by (repeat (destruct He as [<-|He]; [reflexivity|]); destruct He). rewrite A.
      repeat (destruct Hs as [<-|Hs]; [reflexivity|]). destruct Hs.
  - destruct i as [|b i]; [now destruct Ni|]. exists b, (i ++ f ++ e). split; [reflexivity|]. cbn [forallb] in Di. now apply andb_prop in Di as [Di _].
Qed.
Lemma float_not_int s f r r' : int_text s -> float_number f -> delim r -> s ++ r = f ++ r' -> False.
Proof.
  intros ((Ns & Ds) & _) (i & fr & e & -> & ((Ni & Di) & _) & F & X & N) D E. rewrite <- !app_assoc in E.
  assert (H : exists b t, fr ++ e ++ r' = b :: t /\ In b ["."; "e"; "E"]%byte).
  { destruct F as [|ds _]; [|cbn; eauto]. destruct X as [|ex sg ds He _ _]; [now destruct N|]. cbn [app]. eexists ex, _. split; [reflexivity|]. cbn [In] in *. tauto. }
  destruct H as (b & t & H & I). rewrite H in E. apply (span is_digit) in E as [_ E]; [|exact Ds|exact Di| |].
  - subst r. cbn [delim] in D. cbn [In] in I. repeat (destruct I as [<-|I]; [destruct D as [D|D]; [discriminate D|cbn [In] in D; repeat (destruct D as [D|D]; [discriminate D|]); destruct D]|]). destruct I.
  - intros c Q. eapply delim_digit; [exact D|exact Q].
  - intros c Q. injection Q as <-. cbn [In] in I. repeat (destruct I as [<-|I]; [reflexivity|]). destruct I.
Qed.

Section Read.
  Variable ft : str -> str.
  Hypothesis floats : float_printer ft.
  Notation den := (denotes ft).
  Notation pr := (printed ft).
  Scheme den_m := Minimality for denotes Sort Prop
    with el_m := Minimality for elements Sort Prop
    with mel_m := Minimality for more_elements Sort Prop
    with mb_m := Minimality for members Sort Prop
    with mmb_m := Minimality for more_members Sort Prop.
  Combined Scheme den_ind_all from den_m, el_m, mel_m, mb_m, mmb_m.

  (** The first byte of a value. *)
  Inductive start_kind := K_null | K_true | K_false | K_num | K_str | K_arr | K_obj.
  Definition starts_as (k : start_kind) (b : byte) : Prop :=
    match k with K_null => b = "n"%byte | K_true => b = "t"%byte | K_false => b = "f"%byte | K_num => is_digit b = true | K_str => b = x22 | K_arr => b = "["%byte | K_obj => b = "{"%byte end.
  Lemma starts_same k k' b : starts_as k b -> starts_as k' b -> k = k'.
  Proof. destruct k, k'; cbn [starts_as]; intros H H'; try reflexivity; exfalso; subst; discriminate. Qed.
  Definition of_kind (k : start_kind) (j : json) (s : str) : Prop :=
    match k, j with
    | K_null, J_Null => True | K_null, J_Float t => ft t = bs "null"
    | K_true, J_Bool b => b = true | K_false, J_Bool b => b = false
    | K_num, J_Int _ => int_text s | K_num, J_Float _ => float_number s
    | K_str, J_Str _ => True | K_arr, J_Arr _ => True | K_obj, J_Obj _ => True
    | _, _ => False
    end.
  Lemma den_start s j : den s j -> exists k b t, s = b :: t /\ starts_as k b /\ of_kind k j s.
  Proof.
    intros [ | | |s1 ((N & D) & Z)|t|s1 t (ts & _ & ->)|l t _|fs t _].
    - exists K_null. eexists _, _. split; [reflexivity|]. split; [reflexivity|exact I].
    - exists K_true. eexists _, _. split; [reflexivity|]. split; reflexivity.
    - exists K_false. eexists _, _. split; [reflexivity|]. split; reflexivity.
    - destruct s1 as [|b t]; [now destruct N|]. exists K_num, b, t. split; [reflexivity|]. split; [|split; [split|]; assumption]. cbn [forallb] in D. now apply andb_prop in D as [D _].
    - destruct (floats t) as [E|F].
      + exists K_null. rewrite E. eexists _, _. split; [reflexivity|]. split; [reflexivity|exact E].
      + destruct (float_numc _ F) as (_ & b & r & E & D). exists K_num, b, r. auto.
    - exists K_str. eexists _, _. split; [reflexivity|]. split; [reflexivity|exact I].
    - exists K_arr. eexists _, _. split; [reflexivity|]. split; [reflexivity|exact I].
    - exists K_obj. eexists _, _. split; [reflexivity|]. split; [reflexivity|exact I].
  Qed.
  Lemma kind_not_white k b : starts_as k b -> is_white b = false.
  Proof. destruct k; cbn [starts_as]; intros H; try (subst; reflexivity). destruct b; try discriminate H; reflexivity. Qed.
  Lemma den_not_white s j r b : den s j -> hd_error (s ++ r) = Some b -> is_white b = false.
  Proof. intros D E. destruct (den_start s j D) as (k & c & t & -> & K & _). injection E as <-. now apply kind_not_white with k. Qed.
  Lemma den_not_close s j r : den s j -> forall b, hd_error (s ++ r) = Some b -> b <> "]"%byte.
  Proof. intros D b E ->. destruct (den_start s j D) as (k & c & t & -> & K & _). injection E as ->. destruct k; discriminate K. Qed.
  Lemma string_head k kt : string_text k kt -> exists t, kt = x22 :: t.
  Proof. intros (ts & _ & ->). eexists. reflexivity. Qed.

  Definition P0 (s : str) (j : json) : Prop := forall s' j' r r', den s' j' -> delim r -> delim r' -> s ++ r = s' ++ r' -> pr j = pr j' /\ r = r'.
  Definition P1 (s : str) (l : list json) : Prop := forall s' l' r r', elements ft s' l' -> s ++ "]"%byte :: r = s' ++ "]"%byte :: r' -> map pr l = map pr l' /\ r = r'.
  Definition P2 (s : str) (l : list json) : Prop := forall s' l' r r', more_elements ft s' l' -> s ++ "]"%byte :: r = s' ++ "]"%byte :: r' -> map pr l = map pr l' /\ r = r'.
  Definition prf (f : str * json) := (fst f, pr (snd f)).
  Definition P3 (s : str) (l : list (str * json)) : Prop := forall s' l' r r', members ft s' l' -> s ++ "}"%byte :: r = s' ++ "}"%byte :: r' -> map prf l = map prf l' /\ r = r'.
  Definition P4 (s : str) (l : list (str * json)) : Prop := forall s' l' r r', more_members ft s' l' -> s ++ "}"%byte :: r = s' ++ "}"%byte :: r' -> map prf l = map prf l' /\ r = r'.
  Lemma pr_null t : ft t = bs "null" -> pr (J_Float t) = J_Null.
  Proof. intros E. cbn [printed]. now rewrite E. Qed.
  Lemma more_delim rest l r : more_elements ft rest l -> delim (rest ++ "]"%byte :: r).
  Proof. intros M; destruct M; right; cbn; auto. Qed.
  Lemma more_not_white rest l r b : more_elements ft rest l -> hd_error (rest ++ "]"%byte :: r) = Some b -> is_white b = false.
  Proof. intros M E; destruct M; injection E as <-; reflexivity. Qed.
  Lemma mmore_delim rest l r : more_members ft rest l -> delim (rest ++ "}"%byte :: r).
  Proof. intros M; destruct M; right; cbn; auto. Qed.
  Lemma mmore_not_white rest l r b : more_members ft rest l -> hd_error (rest ++ "}"%byte :: r) = Some b -> is_white b = false.
  Proof. intros M E; destruct M; injection E as <-; reflexivity. Qed.

  Lemma value_step w1 t w2 j rest l r w1' t' w2' j' rest' l' r' : P0 t j -> P2 rest l -> white w1 -> white w2 -> white w1' -> white w2' -> den t j -> den t' j' ->
    more_elements ft rest l -> more_elements ft rest' l' ->
    (w1 ++ t ++ w2 ++ rest) ++ "]"%byte :: r = (w1' ++ t' ++ w2' ++ rest') ++ "]"%byte :: r' -> map pr (j :: l) = map pr (j' :: l') /\ r = r'.
  Proof.
    intros H0 H2 W1 W2 W1' W2' D D' M M' E. rewrite <- !app_assoc in E.
    apply white_split in E as [_ E]; [|exact W1|exact W1'|intros b; now apply (den_not_white t j)|intros b; now apply (den_not_white t' j')].
    apply (H0 t' j') in E as [A E]; [|exact D'|apply white_delim; [exact W2|now apply more_delim with l]|apply white_delim; [exact W2'|now apply more_delim with l']].
    apply white_split in E as [_ E]; [|exact W2|exact W2'|intros b; now apply (more_not_white rest l)|intros b; now apply (more_not_white rest' l')].
    apply (H2 rest' l') in E as [B E]; [|exact M']. split; [|exact E]. cbn [map]. now rewrite A, B.
  Qed.
  Lemma member_step w1 kt k w2 w3 t w4 j rest l r w1' kt' k' w2' w3' t' w4' j' rest' l' r' : P0 t j -> P4 rest l -> white w1 -> white w2 -> white w3 -> white w4 -> white w1' -> white w2' -> white w3' -> white w4' ->
    string_text k kt -> string_text k' kt' -> den t j -> den t' j' -> more_members ft rest l -> more_members ft rest' l' ->
    (w1 ++ kt ++ w2 ++ bs ":" ++ w3 ++ t ++ w4 ++ rest) ++ "}"%byte :: r = (w1' ++ kt' ++ w2' ++ bs ":" ++ w3' ++ t' ++ w4' ++ rest') ++ "}"%byte :: r' -> map prf ((k, j) :: l) = map prf ((k', j') :: l') /\ r = r'.
  Proof.
    intros H0 H4 W1 W2 W3 W4 W1' W2' W3' W4' K K' D D' M M' E. rewrite <- !app_assoc in E.
    apply white_split in E as [_ E]; [|exact W1|exact W1'| |]; [|intros b Q; destruct (string_head _ _ K) as [q ->]; injection Q as <-; reflexivity|intros b Q; destruct (string_head _ _ K') as [q ->]; injection Q as <-; reflexivity].
    apply (string_prefix k kt k' kt') in E as [<- E]; auto.
    apply white_split in E as [_ E]; [|exact W2|exact W2'|intros b Q; injection Q as <-; reflexivity|intros b Q; injection Q as <-; reflexivity].
    change (bs ":") with [":"%byte] in E. cbn [app] in E. injection E as E.
    apply white_split in E as [_ E]; [|exact W3|exact W3'|intros b; now apply (den_not_white t j)|intros b; now apply (den_not_white t' j')].
    apply (H0 t' j') in E as [A E]; [|exact D'|apply white_delim; [exact W4|now apply mmore_delim with l]|apply white_delim; [exact W4'|now apply mmore_delim with l']].
    apply white_split in E as [_ E]; [|exact W4|exact W4'|intros b; now apply (mmore_not_white rest l)|intros b; now apply (mmore_not_white rest' l')].
    apply (H4 rest' l') in E as [B E]; [|exact M']. split; [|exact E]. cbn [map]. unfold prf at 1 3. cbn [fst snd]. now rewrite A, B.
  Qed.
  (** The kinds of two values that are read at the same place. *)
  Lemma same_kind s j s' j' r r' : den s j -> den s' j' -> s ++ r = s' ++ r' -> exists k, of_kind k j s /\ of_kind k j' s'.
  Proof.
    intros D D' E. destruct (den_start s j D) as (k & b & t & -> & K & O). destruct (den_start s' j' D') as (k' & b' & t' & -> & K' & O').
    injection E as <- _. assert (k = k') by (eapply starts_same; eauto). subst k'. eauto.
  Qed.
  Ltac other_kind := exfalso; match goal with H : of_kind ?k _ _, H' : of_kind ?k _ _ |- _ => destruct k; cbn in H, H'; try contradiction; try discriminate; congruence end.
  Theorem reading : (forall s j, den s j -> P0 s j) /\ (forall s l, elements ft s l -> P1 s l) /\ (forall s l, more_elements ft s l -> P2 s l) /\
    (forall s l, members ft s l -> P3 s l) /\ (forall s l, more_members ft s l -> P4 s l).
  Proof.
    apply den_ind_all.
    - intros s' j' r r' D D1 D2 E. destruct (same_kind _ _ _ _ _ _ (d_null ft) D E) as (k & O & O'). destruct k; cbn in O; try contradiction. destruct j'; cbn in O'; try contradiction.
      + inversion D; subst. apply app_inv_head in E. auto.
      + inversion D; subst. rewrite O' in E. apply app_inv_head in E. rewrite (pr_null _ O'). auto.
    - intros s' j' r r' D D1 D2 E. destruct (same_kind _ _ _ _ _ _ (d_true ft) D E) as (k & O & O'). destruct k; cbn in O; try contradiction; try discriminate O. destruct j'; cbn in O'; try contradiction. subst b.
      inversion D; subst. apply app_inv_head in E. auto.
    - intros s' j' r r' D D1 D2 E. destruct (same_kind _ _ _ _ _ _ (d_false ft) D E) as (k & O & O'). destruct k; cbn in O; try contradiction; try discriminate O. destruct j'; cbn in O'; try contradiction. subst b.
      inversion D; subst. apply app_inv_head in E. auto.
    - intros s I s' j' r r' D D1 D2 E. destruct (same_kind _ _ _ _ _ _ (d_int ft s I) D E) as (k & O & O'). destruct k; cbn in O; try contradiction. destruct j'; cbn in O'; try contradiction.
      + inversion D as [| | |s2 I2| | | |]; subst. apply (span is_digit) in E as [-> ->]; [auto|exact (proj2 (proj1 I))|exact (proj2 (proj1 I2))|intros b; now apply delim_digit|intros b; now apply delim_digit].
      + exfalso. exact (float_not_int _ _ _ _ I O' D1 E).
    - intros t s' j' r r' D D1 D2 E. destruct (same_kind _ _ _ _ _ _ (d_float ft t) D E) as (k & O & O'). destruct k; cbn in O; try contradiction; destruct j'; cbn in O'; try contradiction.
      + inversion D; subst. rewrite O in E. apply app_inv_head in E. rewrite (pr_null _ O). auto.
      + inversion D; subst. rewrite O, O' in E. apply app_inv_head in E. now rewrite (pr_null _ O), (pr_null _ O').
      + exfalso. symmetry in E. exact (float_not_int _ _ _ _ O' O D2 E).
      + inversion D; subst. apply (span numc) in E as [A ->]; [|exact (proj1 (float_numc _ O))|exact (proj1 (float_numc _ O'))|intros b; now apply delim_numc|intros b; now apply delim_numc].
        cbn [printed]. rewrite A. auto.
    - intros s t S1 s' j' r r' D D1 D2 E. destruct (same_kind _ _ _ _ _ _ (d_string ft s t S1) D E) as (k & O & O'). destruct k; cbn in O; try contradiction. destruct j'; cbn in O'; try contradiction.
      inversion D as [| | | | |s2 t2 S2| |]; subst. destruct (string_prefix _ _ _ _ _ _ S1 S2 E) as [-> ->]. auto.
    - intros l t El IH s' j' r r' D D1 D2 E. destruct (same_kind _ _ _ _ _ _ (d_array ft l t El) D E) as (k & O & O'). destruct k; cbn in O; try contradiction. destruct j'; cbn in O'; try contradiction.
      inversion D as [| | | | | |l2 t2 S2|]; subst. rewrite <- !app_assoc in E. cbn [bs list_byte_of_string app] in E. injection E as E. apply (IH _ _ _ _ S2) in E as [A B]. cbn [printed]. rewrite A. auto.
    - intros l t El IH s' j' r r' D D1 D2 E. destruct (same_kind _ _ _ _ _ _ (d_object ft l t El) D E) as (k & O & O'). destruct k; cbn in O; try contradiction. destruct j'; cbn in O'; try contradiction.
      inversion D as [| | | | | | |l2 t2 S2]; subst. rewrite <- !app_assoc in E. cbn [bs list_byte_of_string app] in E. injection E as E. apply (IH _ _ _ _ S2) in E as [A B]. cbn [printed]. split; [|exact B]. f_equal. exact A.
    - intros w W s' l' r r' M E. destruct M as [w' W'|w1 t w2 j rest l W1 D W2 M].
      + apply white_split in E as [_ E]; [|exact W|exact W'|intros b Q; injection Q as <-; reflexivity|intros b Q; injection Q as <-; reflexivity]. injection E as ->. auto.
      + exfalso. rewrite <- !app_assoc in E. apply white_split in E as [_ E]; [|exact W|exact W1|intros b Q; injection Q as <-; reflexivity|intros b; now apply (den_not_white t j)].
        apply (den_not_close t j (w2 ++ rest ++ "]"%byte :: r') D "]"%byte); [now rewrite <- E|reflexivity].
    - intros w1 t w2 j rest l W1 D H0 W2 M H2 s' l' r r' M' E. destruct M' as [w' W'|w1' t' w2' j' rest' l' W1' D' W2' M'].
      + exfalso. rewrite <- !app_assoc in E. apply white_split in E as [_ E]; [|exact W1|exact W'|intros b; now apply (den_not_white t j)|intros b Q; injection Q as <-; reflexivity].
        apply (den_not_close t j (w2 ++ rest ++ "]"%byte :: r) D "]"%byte); [now rewrite E|reflexivity].
      + exact (value_step w1 t w2 j rest l r w1' t' w2' j' rest' l' r' H0 H2 W1 W2 W1' W2' D D' M M' E).
    - intros s' l' r r' M E. destruct M as [|w1 t w2 j rest l W1 D W2 M]; [|discriminate E]. injection E as ->. auto.
    - intros w1 t w2 j rest l W1 D H0 W2 M H2 s' l' r r' M' E. destruct M' as [|w1' t' w2' j' rest' l' W1' D' W2' M']; [discriminate E|].
      change (bs ",") with [","%byte] in E. cbn [app] in E. injection E as E. exact (value_step w1 t w2 j rest l r w1' t' w2' j' rest' l' r' H0 H2 W1 W2 W1' W2' D D' M M' E).
    - intros w W s' l' r r' M E. destruct M as [w' W'|w1 k kt w2 w3 t w4 j rest l W1 K W2 W3 D W4 M].
      + apply white_split in E as [_ E]; [|exact W|exact W'|intros b Q; injection Q as <-; reflexivity|intros b Q; injection Q as <-; reflexivity]. injection E as ->. auto.
      + exfalso. destruct (string_head _ _ K) as [q ->]. rewrite <- !app_assoc in E. apply white_split in E as [_ E]; [discriminate E|exact W|exact W1|intros b Q; injection Q as <-; reflexivity|intros b Q; injection Q as <-; reflexivity].
    - intros w1 k kt w2 w3 t w4 j rest l W1 K W2 W3 D H0 W4 M H4 s' l' r r' M' E. destruct M' as [w' W'|w1' k' kt' w2' w3' t' w4' j' rest' l' W1' K' W2' W3' D' W4' M'].
      + exfalso. destruct (string_head _ _ K) as [q ->]. rewrite <- !app_assoc in E. apply white_split in E as [_ E]; [discriminate E|exact W1|exact W'|intros b Q; injection Q as <-; reflexivity|intros b Q; injection Q as <-; reflexivity].
      + exact (member_step w1 kt k w2 w3 t w4 j rest l r w1' kt' k' w2' w3' t' w4' j' rest' l' r' H0 H4 W1 W2 W3 W4 W1' W2' W3' W4' K K' D D' M M' E).
    - intros s' l' r r' M E. destruct M as [|w1 k kt w2 w3 t w4 j rest l W1 K W2 W3 D W4 M]; [|discriminate E]. injection E as ->. auto.
    - intros w1 k kt w2 w3 t w4 j rest l W1 K W2 W3 D H0 W4 M H4 s' l' r r' M' E. destruct M' as [|w1' k' kt' w2' w3' t' w4' j' rest' l' W1' K' W2' W3' D' W4' M']; [discriminate E|].
      change (bs ",") with [","%byte] in E. cbn [app] in E. injection E as E.
      exact (member_step w1 kt k w2 w3 t w4 j rest l r w1' kt' k' w2' w3' t' w4' j' rest' l' r' H0 H4 W1 W2 W3 W4 W1' W2' W3' W4' K K' D D' M M' E).
  Qed.
  Theorem one_reading s j j' : json_document ft s j -> json_document ft s j' -> pr j = pr j'.
  Proof.
    intros (w1 & t & w2 & -> & W1 & W2 & D) (w1' & t' & w2' & E & W1' & W2' & D').
    apply white_split in E as [_ E]; [|exact W1|exact W1'|intros b; now apply (den_not_white t j)|intros b; now apply (den_not_white t' j')].
    assert (N : forall w, white w -> delim w) by (intros w W; rewrite <- (app_nil_r w); apply white_delim; [exact W|exact I]).
    exact (proj1 (proj1 reading _ _ D t' j' w2 w2' D' (N w2 W2) (N w2' W2') E)).
  Qed.
End Read.
