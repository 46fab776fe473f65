(** The compact [Debug] text determines what is shown. *)
From Coq Require Import List NArith Bool Lia Arith String DecimalN.
From Coq Require Decimal.
From Coq.Strings Require Import Byte.
From Verif Require Import Bytes ErrorFmt SpecUtf8 DebugFmt SpecDebug.
Import ListNotations.
Open Scope nat_scope.
Open Scope list_scope.

Definition letter (b : byte) : bool := byte_in "a" "z" b || byte_in "A" "Z" b || byte_eqb b "_".
Definition word (s : string) : Prop := bs s <> [] /\ forallb letter (bs s) = true.

Inductive good : dval -> Prop :=
| g_unit n : word n -> good (D_Unit n)
| g_tuple n x : word n -> good x -> good (D_Tuple n x)
| g_struct n fs : word n -> fs <> [] -> Forall (fun f => word (fst f) /\ good (snd f)) fs -> good (D_Struct n fs)
| g_list l : Forall good l -> good (D_List l)
| g_str s : utf8 s -> good (D_Str s)
| g_num n : good (D_Num n).

Section Ind.
  Variable Q : dval -> Prop.
  Hypothesis q_unit : forall n, Q (D_Unit n).
  Hypothesis q_tuple : forall n x, Q x -> Q (D_Tuple n x).
  Hypothesis q_struct : forall n fs, Forall (fun f => Q (snd f)) fs -> Q (D_Struct n fs).
  Hypothesis q_list : forall l, Forall Q l -> Q (D_List l).
  Hypothesis q_str : forall s, Q (D_Str s).
  Hypothesis q_num : forall n, Q (D_Num n).
  Fixpoint dval_ind' (v : dval) : Q v :=
    match v with
    | D_Unit n => q_unit n
    | D_Tuple n x => q_tuple n x (dval_ind' x)
    | D_Struct n fs => q_struct n fs ((fix go l : Forall (fun f => Q (snd f)) l := match l with [] => Forall_nil _ | f :: l' => Forall_cons _ (dval_ind' (snd f)) (go l') end) fs)
    | D_List l => q_list l ((fix go l : Forall Q l := match l with [] => Forall_nil _ | f :: l' => Forall_cons _ (dval_ind' f) (go l') end) l)
    | D_Str s => q_str s
    | D_Num n => q_num n
    end.
End Ind.

Lemma bs_inj s t : bs s = bs t -> s = t.
Proof. unfold bs. intros H. apply (f_equal string_of_list_byte) in H. now rewrite !string_of_list_byte_of_string in H. Qed.

(** What may follow a value: nothing, a comma, a closing bracket, or a space and a closing brace. *)
Definition ends (r : str) : Prop :=
  match r with
  | [] => True
  | b :: r => b = ","%byte \/ b = ")"%byte \/ b = "]"%byte \/ (b = " "%byte /\ exists r', r = "}"%byte :: r')
  end.

(** A prefix of bytes of a class, up to the first that is not. *)
Lemma span (c : byte -> bool) (u u' r r' : str) : forallb c u = true -> forallb c u' = true -> (forall b, hd_error r = Some b -> c b = false) ->
  (forall b, hd_error r' = Some b -> c b = false) -> u ++ r = u' ++ r' -> u = u' /\ r = r'.
Proof.
  revert u'. induction u as [|b u IH]; intros [|b' u'] F F' N N' E; cbn [app] in E.
  - auto.
  - cbn [forallb] in F'. apply andb_prop in F' as [F' _]. specialize (N b'). rewrite E in N. rewrite N in F'; [discriminate F'|reflexivity].
  - cbn [forallb] in F. apply andb_prop in F as [F _]. specialize (N' b). rewrite <- E in N'. rewrite N' in F; [discriminate F|reflexivity].
  - cbn [forallb] in F, F'. apply andb_prop in F as [_ F]. apply andb_prop in F' as [_ F']. injection E as <- E. destruct (IH u' F F' N N' E) as [<- <-]. auto.
Qed.
Lemma ends_letter r b : ends r -> hd_error r = Some b -> letter b = false.
Proof. destruct r as [|c r]; intros H E; [discriminate E|]. injection E as ->. destruct H as [->|[->|[->|[-> _]]]]; reflexivity. Qed.
Lemma ends_digit r b : ends r -> hd_error r = Some b -> is_digit b = false.
Proof. destruct r as [|c r]; intros H E; [discriminate E|]. injection E as ->. destruct H as [->|[->|[->|[-> _]]]]; reflexivity. Qed.
Lemma word_split n n' r r' : word n -> word n' -> (forall b, hd_error r = Some b -> letter b = false) -> (forall b, hd_error r' = Some b -> letter b = false) ->
  bs n ++ r = bs n' ++ r' -> n = n' /\ r = r'.
Proof. intros [_ W] [_ W'] N N' E. destruct (span letter _ _ _ _ W W' N N' E) as [A B]. split; [now apply bs_inj|exact B]. Qed.

(** ** Numbers *)
Lemma uint_str_inj d : forall d', uint_str d = uint_str d' -> d = d'.
Proof. induction d; intros d' E; destruct d'; try discriminate E; try reflexivity; cbn [uint_str] in E; injection E as E; f_equal; auto. Qed.
Lemma uint_str_digits d : forallb is_digit (uint_str d) = true.
Proof. induction d; cbn [uint_str forallb]; auto; rewrite IHd; reflexivity. Qed.
Lemma num_inj n n' : uint_str (N.to_uint n) = uint_str (N.to_uint n') -> n = n'.
Proof. intros E. apply uint_str_inj in E. apply (f_equal N.of_uint) in E. now rewrite !Unsigned.of_to in E. Qed.
Lemma num_start n : exists b t, uint_str (N.to_uint n) = b :: t /\ is_digit b = true.
Proof.
  assert (D := uint_str_digits (N.to_uint n)). destruct (uint_str (N.to_uint n)) as [|b t] eqn:E.
  - exfalso. destruct (N.to_uint n) eqn:X; try discriminate E. assert (Y := Unsigned.of_to n). rewrite X in Y. cbn in Y. subst n. discriminate X.
  - exists b, t. split; [reflexivity|]. cbn [forallb] in D. now apply andb_prop in D as [D _].
Qed.

Section Show.
  Variable quote : str -> str.
  Hypothesis unamb : unambiguous quote.
  Notation sh := (show quote).

  Lemma quote_start s : exists t, quote s = x22 :: t.
  Proof. assert (H := proj1 unamb s). destruct (quote s) as [|b t]; [discriminate H|]. injection H as ->. eauto. Qed.

  Definition first (v : dval) (b : byte) : Prop :=
    match v with
    | D_Unit _ | D_Tuple _ _ | D_Struct _ _ => letter b = true
    | D_List _ => b = "["%byte | D_Str _ => b = x22 | D_Num _ => is_digit b = true
    end.
  Lemma word_start n : word n -> exists b t, bs n = b :: t /\ letter b = true.
  Proof. intros [A B]. destruct (bs n) as [|b t]; [destruct A; reflexivity|]. exists b, t. split; [reflexivity|]. cbn [forallb] in B. now apply andb_prop in B as [B _]. Qed.
  Lemma show_start v : good v -> exists b t, sh v = b :: t /\ first v b.
  Proof.
    intros G. destruct G as [n W|n x W _|n fs W _ _|l _|s _|n]; cbn [show first].
    - now apply word_start.
    - destruct (word_start n W) as (b & t & -> & H). cbn [app]. eauto.
    - destruct (word_start n W) as (b & t & -> & H). cbn [app]. eauto.
    - cbn. eauto.
    - destruct (quote_start s) as (t & ->). eauto.
    - apply num_start.
  Qed.
  Definition cls (v : dval) : nat := match v with D_Unit _ | D_Tuple _ _ | D_Struct _ _ => 0 | D_List _ => 1 | D_Str _ => 2 | D_Num _ => 3 end.
  Lemma first_cls v v' b : first v b -> first v' b -> cls v = cls v'.
  Proof. destruct v, v'; cbn [first cls]; intros H H'; try reflexivity; exfalso; subst; try discriminate; destruct b; discriminate. Qed.
  Lemma first_not v b : first v b -> b <> "]"%byte.
  Proof. destruct v; cbn [first]; intros H ->; discriminate H. Qed.

  Definition one (v : dval) : Prop := forall v' r r', good v -> good v' -> ends r -> ends r' -> sh v ++ r = sh v' ++ r' -> v = v' /\ r = r'.

  (** Lists: after the opening bracket. *)
  Lemma joined_cons (a : str) l : join (bs ", ") (a :: l) = a ++ match l with [] => [] | _ => bs ", " ++ join (bs ", ") l end.
  Proof. destruct l; cbn [join]; [now rewrite app_nil_r|reflexivity]. Qed.
  Lemma joined_cons' (a : str) l : join (bs ",") (a :: l) = a ++ match l with [] => [] | _ => bs "," ++ join (bs ",") l end.
  Proof. destruct l; cbn [join]; [now rewrite app_nil_r|reflexivity]. Qed.
  Lemma list_go l : Forall one l -> forall l' r r', Forall good l -> Forall good l' -> l <> [] -> l' <> [] ->
    join (bs ", ") (map sh l) ++ "]"%byte :: r = join (bs ", ") (map sh l') ++ "]"%byte :: r' -> l = l' /\ r = r'.
  Proof.
    induction l as [|v l IH]; intros O l' r r' G G' N N' E; [now destruct N|]. destruct l' as [|v' l']; [now destruct N'|]. cbn [map] in E. rewrite !joined_cons, <- !app_assoc in E.
    assert (X : v = v' /\ match map sh l with [] => [] | _ => bs ", " ++ join (bs ", ") (map sh l) end ++ "]"%byte :: r = match map sh l' with [] => [] | _ => bs ", " ++ join (bs ", ") (map sh l') end ++ "]"%byte :: r').
    { apply (Forall_inv O v'); [exact (Forall_inv G)|exact (Forall_inv G')| | |exact E]; [destruct l|destruct l']; cbn; auto. }
    destruct X as [<- X]. destruct l as [|w l], l' as [|w' l']; cbn [map] in X.
    - cbn in X. injection X as ->. auto.
    - discriminate X.
    - discriminate X.
    - cbn [bs list_byte_of_string app] in X. injection X as X. change (sh w :: map sh l) with (map sh (w :: l)) in X. change (sh w' :: map sh l') with (map sh (w' :: l')) in X.
      destruct (IH (Forall_inv_tail O) (w' :: l') r r' (Forall_inv_tail G) (Forall_inv_tail G') ltac:(discriminate) ltac:(discriminate) X) as [A B]. split; [now f_equal|exact B].
  Qed.
  Definition sf (f : string * dval) : str := bs " " ++ bs (fst f) ++ bs ": " ++ sh (snd f).
  Lemma fields_go l : Forall (fun f => one (snd f)) l -> forall l' r r', Forall (fun f => word (fst f) /\ good (snd f)) l -> Forall (fun f => word (fst f) /\ good (snd f)) l' -> l <> [] -> l' <> [] ->
    join (bs ",") (map sf l) ++ bs " }" ++ r = join (bs ",") (map sf l') ++ bs " }" ++ r' -> l = l' /\ r = r'.
  Proof.
    induction l as [|[k v] l IH]; intros O l' r r' G G' N N' E; [now destruct N|]. destruct l' as [|[k' v'] l']; [now destruct N'|]. cbn [map] in E. rewrite !joined_cons' in E.
    destruct (Forall_inv G) as [W1 W2], (Forall_inv G') as [W1' W2']. cbn [fst snd] in *. change (sf (k, v)) with (bs " " ++ bs k ++ bs ": " ++ sh v) in E. change (sf (k', v')) with (bs " " ++ bs k' ++ bs ": " ++ sh v') in E. rewrite <- !app_assoc in E. change (bs " ") with [" "%byte] in E. change (bs ": ") with [":"%byte; " "%byte] in E. change (bs " }") with [" "%byte; "}"%byte] in E. change (bs ",") with [","%byte] in E. cbn [app] in E. injection E as E.
    change (list_byte_of_string k) with (bs k) in E. change (list_byte_of_string k') with (bs k') in E.
    apply word_split in E as [<- E]; [|exact W1|exact W1'|intros b X; injection X as <-; reflexivity|intros b X; injection X as <-; reflexivity]. injection E as E.
    apply (Forall_inv O v') in E as [<- E]; [|exact W2|exact W2'|destruct l; cbn; eauto 8|destruct l'; cbn; eauto 8].
    destruct l as [|w l], l' as [|w' l']; cbn [map app] in E.
    - injection E as ->. auto.
    - discriminate E.
    - discriminate E.
    - injection E as E. change (sf w :: map sf l) with (map sf (w :: l)) in E. change (sf w' :: map sf l') with (map sf (w' :: l')) in E. change [","%byte] with (bs ",") in E. change (" "%byte :: "}"%byte :: r) with (bs " }" ++ r) in E. change (" "%byte :: "}"%byte :: r') with (bs " }" ++ r') in E.
      destruct (IH (Forall_inv_tail O) (w' :: l') r r' (Forall_inv_tail G) (Forall_inv_tail G') ltac:(discriminate) ltac:(discriminate) E) as [A B]. split; [now f_equal|exact B].
  Qed.

  Lemma show_one v : one v.
  Proof.
    induction v as [n|n x IH|n fs IH|l IH|s|n] using dval_ind'; intros v' r r' G G' N N' E.
    all: destruct (show_start _ G) as (b & t & S1 & S2); destruct (show_start _ G') as (b' & t' & S1' & S2');
      assert (B : b = b') by (rewrite S1, S1' in E; injection E; auto); subst b'; assert (C := first_cls _ _ _ S2 S2'); clear S1 S2 S1' S2' b t t'.
    - inversion G as [m W| | | | |]; subst. destruct v' as [n'|n' x'|n' fs'|l'|s'|n']; try discriminate C; cbn [show] in E.
      + inversion G' as [m' W'| | | | |]; subst. apply word_split in E as [<- ->]; auto. intros b X. eapply ends_letter; [|exact X]; assumption. intros b X. eapply ends_letter; [|exact X]; assumption.
      + exfalso. inversion G' as [|m' y W' GY| | | |]; subst. rewrite <- !app_assoc in E. apply word_split in E as [_ ->]; auto.
        * destruct N as [N|[N|[N|[N _]]]]; discriminate N.
        * intros b X. eapply ends_letter; [|exact X]; assumption.
        * intros b X. injection X as <-. reflexivity.
      + exfalso. inversion G' as [| |m' y W' GY| | |]; subst. rewrite <- !app_assoc in E. apply word_split in E as [_ ->]; auto.
        * destruct N as [N|[N|[N|[_ [z N]]]]]; discriminate N.
        * intros b X. eapply ends_letter; [|exact X]; assumption.
        * intros b X. injection X as <-. reflexivity.
    - inversion G as [|m y W GY| | | |]; subst. destruct v' as [n'|n' x'|n' fs'|l'|s'|n']; try discriminate C; cbn [show] in E; rewrite <- !app_assoc in E.
      + exfalso. inversion G' as [m' W'| | | | |]; subst. apply word_split in E as [_ E]; auto.
        * subst r'. destruct N' as [X|[X|[X|[X _]]]]; discriminate X.
        * intros b X. injection X as <-. reflexivity.
        * intros b X. eapply ends_letter; [|exact X]; assumption.
      + inversion G' as [|m' y' W' GY'| | | |]; subst. apply word_split in E as [<- E]; auto.
        * cbn [bs list_byte_of_string app] in E. injection E as E. apply IH in E as [<- E]; auto; [|cbn; auto|cbn; auto]. injection E as ->. auto.
        * intros b X. injection X as <-. reflexivity.
        * intros b X. injection X as <-. reflexivity.
      + exfalso. inversion G' as [| |m' y' W' GY'| | |]; subst. apply word_split in E as [_ E]; auto.
        * discriminate E.
        * intros b X. injection X as <-. reflexivity.
        * intros b X. injection X as <-. reflexivity.
    - inversion G as [| |m y W GN GY| | |]; subst. destruct v' as [n'|n' x'|n' fs'|l'|s'|n']; try discriminate C; cbn [show] in E; rewrite <- !app_assoc in E.
      + exfalso. inversion G' as [m' W'| | | | |]; subst. apply word_split in E as [_ E]; auto.
        * subst r'. destruct N' as [X|[X|[X|[_ [z X]]]]]; discriminate X.
        * intros b X. injection X as <-. reflexivity.
        * intros b X. eapply ends_letter; [|exact X]; assumption.
      + exfalso. inversion G' as [|m' y' W' GY'| | | |]; subst. apply word_split in E as [_ E]; auto.
        * discriminate E.
        * intros b X. injection X as <-. reflexivity.
        * intros b X. injection X as <-. reflexivity.
      + inversion G' as [| |m' y' W' GN' GY'| | |]; subst. apply word_split in E as [<- E]; auto.
        * change (bs " {") with [" "%byte; "{"%byte] in E. cbn [app] in E. injection E as E. change (fun f : string * dval => " "%byte :: bs (fst f) ++ bs ": " ++ sh (snd f)) with sf in E.
          destruct (fields_go fs IH fs' r r' GY GY' GN GN' E) as [-> ->]. auto.
        * intros b X. injection X as <-. reflexivity.
        * intros b X. injection X as <-. reflexivity.
    - inversion G as [| | |m GL| |]; subst. destruct v' as [n'|n' x'|n' fs'|l'|s'|n']; try discriminate C; cbn [show] in E; rewrite <- !app_assoc in E.
      inversion G' as [| | |m' GL'| |]; subst. cbn [bs list_byte_of_string app] in E. injection E as E.
      destruct l as [|v l], l' as [|v' l'].
      + cbn in E. injection E as ->. auto.
      + exfalso. cbn [map] in E. rewrite joined_cons in E. destruct (show_start _ (Forall_inv GL')) as (b & t & S1 & S2). rewrite S1 in E. cbn [join app] in E. injection E as <- _. now apply first_not in S2.
      + exfalso. cbn [map] in E. rewrite joined_cons in E. destruct (show_start _ (Forall_inv GL)) as (b & t & S1 & S2). rewrite S1 in E. cbn [join app] in E. injection E as -> _. now apply first_not in S2.
      + apply list_go in E as [-> ->]; auto; discriminate.
    - inversion G as [| | | |m U|]; subst. destruct v' as [n'|n' x'|n' fs'|l'|s'|n']; try discriminate C. inversion G' as [| | | |m' U'|]; subst. cbn [show] in E. apply (proj2 unamb) in E as [-> ->]; auto.
    - destruct v' as [n'|n' x'|n' fs'|l'|s'|n']; try discriminate C. cbn [show] in E. apply (span is_digit) in E as [E ->]; auto using uint_str_digits.
      + apply num_inj in E. now subst.
      + intros b X. eapply ends_digit; [|exact X]; assumption.
      + intros b X. eapply ends_digit; [|exact X]; assumption.
  Qed.
  Theorem show_inj v v' : good v -> good v' -> sh v = sh v' -> v = v'.
  Proof. intros G G' E. apply (show_one v v' [] []); auto; [exact I|exact I|now rewrite E]. Qed.
End Show.
