(** When serialisation succeeds. *)
From Coq Require Import List NArith Bool Lia Arith String.
From Coq.Strings Require Import Byte.
From Verif Require Import Bytes Token Lexer Ast AstInd SpecTokens SpecTree SpecAst Astgen LexerFacts.
Import ListNotations.
Open Scope list_scope.

Definition done {A : Type} (o : outcome A) : Prop := exists a, o = Done a.

Lemma done_bind {A B} (m : outcome A) (k : A -> outcome B) :
  done (obind m k) <-> exists a, m = Done a /\ done (k a).
Proof.
  split.
  - intros [b H]. apply obind_done in H as (a & H1 & H2). exists a. split; [auto|exists b; auto].
  - intros (a & -> & [b H]). exists b. exact H.
Qed.
Lemma done_Done {A} (a : A) : done (Done a) <-> True.
Proof. split; auto. intros _. now exists a. Qed.
Lemma done_Panicked {A} : done (@Panicked A) <-> False.
Proof. split; [|tauto]. now intros [a H]. Qed.
Lemma done_fields fs : done (seq_fields fs) <-> Forall (fun f => done (snd f)) fs.
Proof.
  induction fs as [|[k v] fs IH]; simpl.
  - rewrite done_Done. split; auto.
  - rewrite done_bind, Forall_cons_iff, <- IH. split.
    + intros (a & H1 & H2). rewrite done_bind in H2. destruct H2 as (b & H2 & _). split; [exists a|exists b]; auto.
    + intros [[a H1] [b H2]]. exists a. split; [auto|]. rewrite done_bind. exists b. split; [auto|]. eexists; eauto.
Qed.
Lemma done_obj st en ty fs : done (obj st en ty fs) <-> Forall (fun f => done (snd f)) fs.
Proof.
  unfold obj. rewrite done_bind, <- done_fields. split; [intros (a & H & _); exists a; auto|].
  intros [a H]. exists a. split; [auto|eexists; eauto].
Qed.
Lemma done_list l : done (seq_list l) <-> Forall done l.
Proof.
  induction l as [|v l IH]; simpl.
  - rewrite done_Done. split; auto.
  - rewrite done_bind, Forall_cons_iff, <- IH. split.
    + intros (a & H1 & H2). rewrite done_bind in H2. destruct H2 as (b & H2 & _). split; [exists a|exists b]; auto.
    + intros [[a H1] [b H2]]. exists a. split; [auto|]. rewrite done_bind. exists b. split; [auto|]. eexists; eauto.
Qed.
Lemma done_arr l : done (jarr l) <-> Forall done l.
Proof.
  unfold jarr. rewrite done_bind, <- done_list. split; [intros (a & H & _); exists a; auto|].
  intros [a H]. exists a. split; [auto|eexists; eauto].
Qed.

(** The serialised form of any node (of the ones that have one of their own). *)
Definition a_block (n : node (block statement)) : outcome json :=
  obj (n_start n) (n_end n) "BlockStatement" [("body"%string, a_list a_statement (b_body (n_item n)))].
Definition a_specifier (n : node import_specifier) : outcome json :=
  match n_item n with
  | IS_Named i l =>
      obj (n_start n) (n_end n) "ImportSpecifier" [("imported"%string, a_ident i); ("local"%string, a_ident l)]
  | IS_Default l => obj (n_start n) (n_end n) "ImportDefaultSpecifier" [("local"%string, a_ident l)]
  | IS_Namespace l => obj (n_start n) (n_end n) "ImportNamespaceSpecifier" [("local"%string, a_ident l)]
  end.
Definition a_any (a : any) : outcome json :=
  match a with
  | A_Ident n => a_ident n
  | A_Expr n => a_node a_expression n
  | A_Tpl n => a_node a_template n
  | A_Prop n => a_node a_property n
  | A_Key n => a_node a_key n
  | A_Pat n => a_node a_pattern n
  | A_Func n => a_node a_func n
  | A_Member n => a_node a_member n
  | A_Body n => a_block n
  | A_ClassBody n => obj (n_start n) (n_end n) "ClassBody" [("body"%string, a_list a_member (b_body (n_item n)))]
  | A_Cases n => a_list a_case (b_body (n_item n))
  | A_Stmt n => a_node a_statement n
  | A_Declarator n => a_node a_declarator n
  | A_ForInit n => a_node a_for_init n
  | A_Case n => a_node a_case n
  | A_Catch n => a_node a_catch n
  | A_Spec n => a_specifier n
  end.

Definition written (a : any) : Prop := done (a_any a).
Lemma written_list {A : Set} (f : N -> N -> A -> outcome json) (g : node A -> any) l :
  (forall n, a_any (g n) = a_node f n) ->
  done (a_list f l) <-> Forall written (map g l).
Proof.
  intros H. unfold a_list. rewrite done_arr, !Forall_map.
  split; apply Forall_impl; intros n; unfold written; now rewrite H.
Qed.

(** ** Numbers *)
Lemma digit_of_value radix b d : digit_of radix b = Some d -> d = digit_value b /\ (d < radix)%N.
Proof.
  unfold digit_of. intros H.
  assert (G : forall o, match o with Some d => if N.ltb d radix then Some d else None | None => None end = Some d ->
    o = Some d /\ (d < radix)%N).
  { intros [x|] E; [|discriminate]. destruct (N.ltb x radix) eqn:L; [|discriminate]. injection E as <-.
    split; [auto|now apply N.ltb_lt]. }
  apply G in H as [H L]. split; [|exact L].
  clear - H. destruct b; vm_compute in H; try discriminate H; injection H as <-; reflexivity.
Qed.
Lemma digits_value_some radix s : forall acc v, digits_value radix acc s = Some v ->
  v = fold_left (fun v d => v * radix + digit_value d)%N s acc /\ Forall (fun b => digit_of radix b <> None) s.
Proof.
  induction s as [|b s IH]; simpl; intros acc v H.
  - injection H as <-. auto.
  - destruct (digit_of radix b) as [d|] eqn:E; [|discriminate]. destruct (digit_of_value _ _ _ E) as [-> _].
    apply IH in H as [-> H]. split; [reflexivity|]. constructor; [congruence|exact H].
Qed.
Lemma digits_value_intro radix s : Forall (fun b => digit_of radix b = Some (digit_value b)) s ->
  forall acc, digits_value radix acc s = Some (fold_left (fun v d => v * radix + digit_value d)%N s acc).
Proof.
  induction s as [|b s IH]; simpl; intros F acc; [auto|].
  rewrite (Forall_inv F). apply IH. exact (Forall_inv_tail F).
Qed.
Lemma radix_intro radix limit s : s <> [] -> Forall (fun b => digit_of radix b = Some (digit_value b)) s ->
  (value_of radix s <= limit)%N -> from_str_radix radix limit s = Some (value_of radix s).
Proof.
  intros N F L. unfold from_str_radix. destruct s as [|b s]; [congruence|].
  rewrite (digits_value_intro _ _ F). apply N.leb_le in L. unfold value_of in *. now rewrite L.
Qed.
Lemma radix_some radix limit s v : from_str_radix radix limit s = Some v ->
  v = value_of radix s /\ s <> [] /\ (v <= limit)%N /\ Forall (fun b => digit_of radix b <> None) s.
Proof.
  unfold from_str_radix. destruct s as [|b s]; [discriminate|]. intros H.
  destruct (digits_value radix 0 (b :: s)) as [x|] eqn:E; [|discriminate].
  destruct (N.leb x limit) eqn:L; [|discriminate]. injection H as <-.
  apply digits_value_some in E as [-> F]. split; [reflexivity|]. split; [discriminate|]. split; [now apply N.leb_le|exact F].
Qed.
Definition as_int (r : option N) : outcome json := match r with Some v => Done (J_Int v) | None => Panicked end.
Definition radix_letter (x : byte) : Prop := In x ["x"; "X"; "o"; "O"]%byte.
Lemma plain_value s : (forall x r, s = "0"%byte :: x :: r -> ~ radix_letter x) ->
  number_value s = if is_float s then (if f64_parses s then Done (J_Float s) else Panicked) else as_int (from_str_radix 10 i64_max s).
Proof.
  intros H. unfold number_value. cbv zeta.
  destruct (Nat.ltb 2 (List.length s)) eqn:L; [|reflexivity]. cbn [andb].
  destruct s as [|a [|x r]]; [discriminate L|discriminate L|]. cbn [firstn].
  destruct (byte_eqb a "0") eqn:Ea.
  - byte_cases. specialize (H x r eq_refl).
    replace (str_eqb ["0"%byte; x] (bs "0x")) with (byte_eqb x "x") by (clear; destruct x; reflexivity).
    replace (str_eqb ["0"%byte; x] (bs "0X")) with (byte_eqb x "X") by (clear; destruct x; reflexivity).
    replace (str_eqb ["0"%byte; x] (bs "0o")) with (byte_eqb x "o") by (clear; destruct x; reflexivity).
    replace (str_eqb ["0"%byte; x] (bs "0O")) with (byte_eqb x "O") by (clear; destruct x; reflexivity).
    destruct (byte_eqb x "x") eqn:E1; [byte_cases; exfalso; apply H; left; auto|].
    destruct (byte_eqb x "X") eqn:E2; [byte_cases; exfalso; apply H; right; left; auto|].
    destruct (byte_eqb x "o") eqn:E3; [byte_cases; exfalso; apply H; right; right; left; auto|].
    destruct (byte_eqb x "O") eqn:E4; [byte_cases; exfalso; apply H; right; right; right; left; auto|].
    reflexivity.
  - assert (G : forall p, hd_error (bs p) = Some "0"%byte -> str_eqb [a; x] (bs p) = false).
    { intros p G. destruct (str_eqb [a; x] (bs p)) eqn:E; [|auto]. apply str_eqb_eq in E. rewrite <- E in G.
      injection G as ->. discriminate. }
    rewrite !G by reflexivity. reflexivity.
Qed.

Lemma digits_10 ds : digits ds -> Forall (fun b => digit_of 10 b = Some (digit_value b)) ds.
Proof. apply Forall_impl. intros b. clear. destruct b; vm_compute; congruence. Qed.
Lemma digits_not_float ds : digits ds -> is_float ds = false.
Proof.
  intros D. unfold is_float. apply not_true_iff_false. intros E. apply existsb_exists in E as (x & I & E).
  apply byte_eqb_eq in E. subst x. assert (F := proj1 (Forall_forall _ _) D _ I). discriminate F.
Qed.
Lemma float_in s : is_float s = true <-> In "."%byte s.
Proof.
  unfold is_float. rewrite existsb_exists. split.
  - intros (x & I & E). apply byte_eqb_eq in E. now subst.
  - intros I. exists "."%byte. auto.
Qed.
Lemma radix_value x radix is_digit ds : In (x, radix, is_digit) radix_mark_value -> ds <> [] ->
  number_value ("0"%byte :: x :: ds) = as_int (from_str_radix radix i32_max ds).
Proof.
  intros I N. destruct ds as [|d ds]; [congruence|].
  repeat (destruct I as [I|I]; [injection I as <- <- <-; reflexivity|]). destruct I.
Qed.
Lemma integer_value s v : integer s v -> number_value s = Done (J_Int v).
Proof.
  intros [x radix f ds I N F L|ds N D L].
  - rewrite (radix_value _ _ _ _ I N), radix_intro; [reflexivity|exact N| |unfold i32_max; lia].
    revert F. apply Forall_impl. clear - I. intros b.
    repeat (destruct I as [I|I]; [injection I as <- <- <-; destruct b; vm_compute; congruence|]). destruct I.
  - rewrite plain_value.
    2:{ intros y r ->. assert (Y := Forall_inv (Forall_inv_tail D)). clear - Y. intros I.
        repeat (destruct I as [<-|I]; [discriminate Y|]). destruct I. }
    rewrite (digits_not_float _ D), radix_intro; [reflexivity|exact N|exact (digits_10 _ D)|unfold i64_max; lia].
Qed.
Lemma drop_digits_app ds r : digits ds -> drop_digits (ds ++ r) = drop_digits r.
Proof.
  induction ds as [|d ds IH]; simpl; intros D; [auto|]. change (is_digit d) with (digit d).
  rewrite (Forall_inv D). apply IH. exact (Forall_inv_tail D).
Qed.
Lemma drop_digits_all ds : digits ds -> drop_digits ds = [].
Proof. intros D. rewrite <- (app_nil_r ds), (drop_digits_app _ _ D). reflexivity. Qed.
(** The exponent, if any, has a digit. *)
Definition whole_exponent (t : str) : Prop :=
  t = [] \/ exists e d ds, In e exponent_mark /\ digit d = true /\ digits ds /\
    (t = e :: d :: ds \/ exists sign, In sign ["+"; "-"]%byte /\ t = e :: sign :: d :: ds).
Lemma whole_exponent_ok t : whole_exponent t -> is_exponent t = true.
Proof.
  intros [->|(e & d & ds & He & Hd & D & H)]; [reflexivity|].
  assert (G : (starts_with_digit (d :: ds) && match drop_digits (d :: ds) with [] => true | _ => false end)%bool = true).
  { simpl. change (is_digit d) with (digit d). now rewrite Hd, (drop_digits_all _ D). }
  assert (Hs : (byte_eqb d "+" || byte_eqb d "-")%bool = false) by (clear - Hd; destruct d; vm_compute in *; congruence).
  unfold is_exponent. destruct H as [->|(sign & Hs' & ->)].
  - rewrite Hs. destruct He as [<-|[<-|[]]]; exact G.
  - replace (byte_eqb sign x2b || byte_eqb sign x2d)%bool with true by (destruct Hs' as [<-|[<-|[]]]; reflexivity).
    destruct He as [<-|[<-|[]]]; exact G.
Qed.
Lemma is_exponent_whole e t : In e exponent_mark -> is_exponent (e :: t) = true -> whole_exponent (e :: t).
Proof.
  intros He H. right.
  assert (G : forall u, (starts_with_digit u && match drop_digits u with [] => true | _ => false end = true)%bool ->
    exists d ds, u = d :: ds /\ digit d = true /\ digits ds).
  { intros [|d ds] G; [discriminate|]. simpl in G. change (is_digit d) with (digit d) in G.
    destruct (digit d) eqn:Ed; [|discriminate]. exists d, ds. split; [auto|split; [auto|]]. simpl in G.
    clear - G. induction ds as [|x ds IH]; [constructor|]. simpl in G. destruct (is_digit x) eqn:E; [|discriminate].
    constructor; [exact E|exact (IH G)]. }
  unfold is_exponent in H. replace (byte_eqb e x65 || byte_eqb e x45)%bool with true in H by (destruct He as [<-|[<-|[]]]; reflexivity).
  destruct t as [|c t]; [discriminate H|].
  destruct (byte_eqb c x2b || byte_eqb c x2d)%bool eqn:E; apply G in H as (d & ds & Eu & Hd & D).
  - exists e, d, ds. split; [auto|split; [auto|split; [auto|]]]. right. exists c. split; [|now subst].
    apply orb_true_iff in E as [E|E]; byte_cases; simpl; auto.
  - injection Eu as -> ->. exists e, d, ds. auto.
Qed.
Lemma fraction_spec s : decimal_fraction s <-> exists m more t, mantissa m more /\ In "."%byte m /\ whole_exponent t /\ s = m ++ t.
Proof.
  split.
  - intros [m more M P|m more e d ds M P He Hd D|m more e sign d ds M P He Hs Hd D].
    + exists m, more, []. rewrite app_nil_r. split; [auto|split; [auto|split; [now left|auto]]].
    + exists m, more, (e :: d :: ds). split; [auto|split; [auto|split; [|auto]]]. right. exists e, d, ds. auto.
    + exists m, more, (e :: sign :: d :: ds). split; [auto|split; [auto|split; [|auto]]]. right. exists e, d, ds.
      split; [auto|split; [auto|split; [auto|right; exists sign; auto]]].
  - intros (m & more & t & M & P & [->|(e & d & ds & He & Hd & D & [->|(sign & Hs & ->)])] & ->).
    + rewrite app_nil_r. eapply df_plain; eauto.
    + eapply df_exponent; eauto.
    + eapply df_signed; eauto.
Qed.
(** Mantissas with and without a point. *)
Definition tail_ok (t : str) : Prop := t = [] \/ exists e r, In e exponent_mark /\ t = e :: r.
Lemma point_digits ds : digits ds -> ~ In "."%byte ds.
Proof. intros D I. assert (F := proj1 (Forall_forall _ _) D _ I). discriminate F. Qed.
Lemma mantissa_kinds m more : mantissa m more ->
  (~ In "."%byte m /\ m <> [] /\ digits m) \/
  (In "."%byte m /\ forall t, tail_ok t -> f64_parses (m ++ t) = is_exponent t).
Proof.
  assert (T : forall t, tail_ok t -> drop_digits t = t).
  { intros t [->|(e & r & He & ->)]; [reflexivity|]. destruct He as [<-|[<-|[]]]; reflexivity. }
  intros [|d ds Hd D|d ds Hd D|d ds f Hd D Df|d f Hd Df].
  - left. split; [intros [I|[]]; discriminate I|]. split; [discriminate|repeat constructor].
  - left. assert (D' : digits ("0"%byte :: d :: ds)) by (constructor; [reflexivity|constructor; auto]).
    split; [now apply point_digits|]. split; [discriminate|auto].
  - left. assert (D' : digits (d :: ds)) by (constructor; [clear - Hd; destruct d; vm_compute in *; congruence|auto]).
    split; [now apply point_digits|]. split; [discriminate|auto].
  - right. split; [simpl; right; apply in_or_app; right; left; reflexivity|]. intros t Ht.
    assert (D' : digits (d :: ds)) by (constructor; auto).
    unfold f64_parses. change ((d :: ds ++ "."%byte :: f) ++ t) with (((d :: ds) ++ "."%byte :: f) ++ t).
    rewrite <- app_assoc, (drop_digits_app _ _ D'). cbn [app starts_with_digit drop_digits].
    change (is_digit d) with (digit d). rewrite Hd. change (is_digit ".") with false. cbv iota.
    change (byte_eqb "." ".") with true. cbn [orb andb].
    rewrite (drop_digits_app _ _ Df), (T _ Ht). reflexivity.
  - right. split; [left; reflexivity|]. intros t Ht. assert (D' : digits (d :: f)) by (constructor; auto).
    change ("."%byte :: d :: f) with ("."%byte :: (d :: f)). unfold f64_parses. cbn [app].
    change (d :: f ++ t) with ((d :: f) ++ t).
    change (drop_digits ("."%byte :: (d :: f) ++ t)) with ("."%byte :: (d :: f) ++ t). cbv iota.
    change (byte_eqb "." ".") with true. cbv iota.
    rewrite (drop_digits_app _ _ D'), (T _ Ht). cbn [app starts_with_digit]. change (is_digit d) with (digit d). rewrite Hd. reflexivity.
Qed.
Lemma mantissa_second m more t : mantissa m more -> tail_ok t ->
  forall x r, m ++ t = "0"%byte :: x :: r -> ~ radix_letter x.
Proof.
  intros M Ht x r E.
  assert (G : digit x = true \/ In x ["."; "e"; "E"]%byte).
  { destruct M as [|d ds Hd D|d ds Hd D|d ds f Hd D Df|d f Hd Df].
    - simpl in E. injection E as E. destruct Ht as [->|(e & r' & He & ->)]; [discriminate|]. injection E as <- _.
      right. destruct He as [<-|[<-|[]]]; simpl; auto.
    - injection E as <- _. auto.
    - injection E as -> _. discriminate Hd.
    - injection E as -> E. destruct ds as [|y ds]; injection E as <- _; [right; simpl; auto|left; exact (Forall_inv D)].
    - discriminate E. }
  intros I. clear - G I. repeat (destruct I as [<-|I]; [destruct G as [G|G]; [discriminate G|simpl in G; intuition discriminate]|]). destruct I.
Qed.

Lemma whole_tail t : whole_exponent t -> tail_ok t.
Proof.
  intros [->|(e & d & ds & He & _ & _ & [->|(sign & _ & ->)])]; [now left|right|right]; eexists; eexists; split; eauto.
Qed.
Lemma fraction_value s : decimal_fraction s -> number_value s = Done (J_Float s).
Proof.
  intros H. apply fraction_spec in H as (m & more & t & M & P & W & ->).
  rewrite plain_value by (intros x r; apply (mantissa_second m more); auto using whole_tail).
  rewrite (proj2 (float_in (m ++ t))) by (apply in_or_app; auto).
  destruct (mantissa_kinds m more M) as [[Q _]|[_ Q]]; [tauto|].
  rewrite Q by auto using whole_tail. now rewrite (whole_exponent_ok _ W).
Qed.
(** A number with a serialised form is an integer or a fraction. *)
Lemma mantissa_done m more t : mantissa m more -> tail_ok t -> ~ In "."%byte t -> done (number_value (m ++ t)) ->
  (exists v, integer (m ++ t) v) \/ decimal_fraction (m ++ t).
Proof.
  intros M Ht Np [j H].
  rewrite plain_value in H by (intros x r; apply (mantissa_second m more); auto).
  destruct (mantissa_kinds m more M) as [(Q & N & D)|[P Q]].
  - left. assert (F : is_float (m ++ t) = false).
    { apply not_true_iff_false. rewrite float_in. intros I. apply in_app_or in I. tauto. }
    rewrite F in H. unfold as_int in H. destruct (from_str_radix 10 i64_max (m ++ t)) as [v|] eqn:E; [|discriminate].
    apply radix_some in E as (-> & _ & L & G).
    assert (Et : t = []).
    { destruct Ht as [->|(e & r & He & ->)]; [auto|]. exfalso. apply Forall_app in G as [_ G].
      apply Forall_inv in G. apply G. destruct He as [<-|[<-|[]]]; reflexivity. }
    subst t. rewrite app_nil_r in *. exists (value_of 10 m). apply int_decimal; auto. unfold i64_max in L. lia.
  - right. rewrite (proj2 (float_in (m ++ t))) in H by (apply in_or_app; auto). rewrite (Q _ Ht) in H.
    destruct (is_exponent t) eqn:E; [|discriminate]. apply fraction_spec. exists m, more, t.
    split; [auto|split; [auto|split; [|auto]]]. destruct Ht as [->|(e & r & He & ->)]; [now left|now apply is_exponent_whole].
Qed.
Lemma number_done s : number_text s T_LiteralNumber -> done (number_value s) -> (exists v, integer s v) \/ decimal_fraction s.
Proof.
  assert (R : forall x radix is_digit ds, In (x, radix, is_digit) radix_mark_value -> Forall (fun b => is_digit b = true) ds ->
    done (number_value ("0"%byte :: x :: ds)) -> exists v, integer ("0"%byte :: x :: ds) v).
  { intros x radix f ds I F [j H]. destruct ds as [|d ds].
    - exfalso. clear - I H. repeat (destruct I as [I|I]; [injection I as <- _ _; discriminate H|]). destruct I.
    - rewrite (radix_value _ _ _ _ I) in H by discriminate. unfold as_int in H.
      destruct (from_str_radix radix i32_max (d :: ds)) as [v|] eqn:E; [|discriminate].
      apply radix_some in E as (-> & N & L & _). eexists. eapply int_radix; eauto. unfold i32_max in L. lia. }
  intros [[more H]|(_ & m & more & e & M & He & ->)] D.
  - remember T_LiteralNumber as k eqn:Ek. destruct H as [m more M|m more e d ds M He Hd Dd|m more e sign ds M He Hs Dd|x ds I F|x ds I F|x ds I F].
    + assert (G := mantissa_done m more [] M (or_introl eq_refl)). rewrite app_nil_r in G. apply G; auto.
    + eapply mantissa_done; eauto; [right; eauto|]. intros [I|I]; [subst e; destruct He as [E|[E|[]]]; discriminate E|].
      apply (point_digits (d :: ds)); [constructor; auto|exact I].
    + eapply mantissa_done; eauto; [right; eauto|]. intros [I|[I|I]]; [subst e; destruct He as [E|[E|[]]]; discriminate E| |].
      * subst sign. destruct Hs as [E|[E|[]]]; discriminate E.
      * now apply (point_digits ds).
    + discriminate Ek.
    + left. destruct I as [<-|[<-|[]]]; (eapply R; [|exact F|exact D]); simpl; auto.
    + left. destruct I as [<-|[<-|[]]]; (eapply R; [|exact F|exact D]); simpl; auto.
  - eapply mantissa_done; eauto; [right; eauto|]. intros [I|[]]. subst e. destruct He as [E|[E|[]]]; discriminate E.
Qed.
Lemma binary_value s v : binary_integer s v -> from_str_radix 2 i32_max (skipn 2 s) = Some v.
Proof.
  intros (x & ds & _ & -> & N & F & L & ->). cbn [skipn]. apply radix_intro; auto; [|unfold i32_max; lia].
  revert F. apply Forall_impl. intros b. clear. destruct b; vm_compute; congruence.
Qed.
Lemma binary_done s v : number_text s T_LiteralBinary -> from_str_radix 2 i32_max (skipn 2 s) = Some v -> binary_integer s v.
Proof.
  intros [[more H]|(E & _)] D; [|discriminate E].
  remember T_LiteralBinary as k eqn:Ek. destruct H as [m more M|m more e d ds M He Hd Dd|m more e sign ds M He Hs Dd|x ds I F|x ds I F|x ds I F]; try discriminate Ek.
  cbn [skipn] in D. apply radix_some in D as (-> & N & L & _). exists x, ds. unfold i32_max in L.
  split; [auto|split; [auto|split; [auto|split; [auto|split; [lia|auto]]]]].
Qed.

(** ** Trees *)
Lemma written_opt {A : Set} (f : N -> N -> A -> outcome json) (g : node A -> any) o :
  (forall n, a_any (g n) = a_node f n) -> done (a_opt f o) <-> Forall written (opt g o).
Proof.
  intros H. destruct o as [n|]; simpl.
  - unfold written. rewrite Forall_cons_iff, H. split; [intros D; split; auto|tauto].
  - unfold jnull. rewrite done_Done. split; auto.
Qed.
Lemma written_ident n : written (A_Ident n) <-> True.
Proof. unfold written. simpl. unfold a_ident, a_identifier, jstr. rewrite done_obj. split; auto. intros _. repeat constructor. now exists (J_Str (n_item n)). Qed.
Lemma done_ident n : done (a_ident n) <-> True.
Proof. apply written_ident. Qed.
Lemma done_identifier st en s : done (a_identifier st en s) <-> True.
Proof. exact (written_ident (Node st en s)). Qed.
Lemma done_name n : done (a_name n) <-> Forall written (children_name n).
Proof.
  destruct n as [|[n|]|n]; cbn [a_name children_name opt]; rewrite ?done_ident, ?Forall_cons_iff, ?written_ident; unfold jnull;
    rewrite ?done_Done; split; auto.
Qed.
Lemma idents_written l : Forall written (map A_Ident l) <-> True.
Proof. split; auto. intros _. apply Forall_map, Forall_forall. intros x _. now apply written_ident. Qed.
Lemma quasis_done qs : Forall (fun q => n_end q <> 0%N) qs -> Forall done (a_quasis qs).
Proof.
  induction qs as [|q qs IH]; cbn [a_quasis]; intros H; constructor; [|apply IH; exact (Forall_inv_tail H)].
  apply Forall_inv in H. apply N.eqb_neq in H. rewrite H. rewrite done_obj. repeat constructor; cbn [snd]; unfold jbool; eexists; reflexivity.
Qed.

Lemma expr_at st en st' en' e : done (a_expression st en e) <-> done (a_expression st' en' e).
Proof.
  destruct e as [| | |l| | | | | | | |op x|op x| |t| | | | |f|c]; cbn [a_expression]; try (rewrite !done_obj; tauto); try tauto.
  - rewrite !done_identifier. tauto.
  - destruct l; cbn [a_literal]; rewrite !done_obj; tauto.
  - destruct op; try (rewrite !done_obj; tauto). destruct (n_item x); rewrite ?done_obj; tauto.
  - destruct t. cbn [a_template]. rewrite !done_obj. tauto.
  - destruct f. cbn [a_func]. rewrite !done_obj. tauto.
  - destruct c. cbn [a_class]. rewrite !done_obj. tauto.
Qed.

Lemma Forall_fields (k : string) v fs : Forall (fun f => @done json (snd f)) ((k, v) :: fs) <-> done v /\ Forall (fun f => done (snd f)) fs.
Proof. rewrite Forall_cons_iff. reflexivity. Qed.
Lemma Forall_nil' {A} (P : A -> Prop) : Forall P [] <-> True.
Proof. split; auto. Qed.
Lemma Forall_one {A} (P : A -> Prop) a : Forall P [a] <-> P a.
Proof. rewrite Forall_cons_iff, Forall_nil'. tauto. Qed.
Lemma done_str s : done (jstr s) <-> True. Proof. apply done_Done. Qed.
Lemma done_bool s : done (jbool s) <-> True. Proof. apply done_Done. Qed.
Lemma done_null : done jnull <-> True. Proof. apply done_Done. Qed.
Lemma done_kind k : done (a_decl_kind k) <-> True. Proof. apply done_Done. Qed.
Lemma done_mkind k : done (a_method_kind k) <-> True. Proof. apply done_Done. Qed.
Lemma w_exprs l : done (a_list a_expression l) <-> Forall written (map A_Expr l).
Proof. now apply written_list. Qed.
Lemma w_pats l : done (a_list a_pattern l) <-> Forall written (map A_Pat l).
Proof. now apply written_list. Qed.
Lemma w_props l : done (a_list a_property l) <-> Forall written (map A_Prop l).
Proof. now apply written_list. Qed.
Lemma w_stmts l : done (a_list a_statement l) <-> Forall written (map A_Stmt l).
Proof. now apply written_list. Qed.
Lemma w_members l : done (a_list a_member l) <-> Forall written (map A_Member l).
Proof. now apply written_list. Qed.
Lemma w_cases l : done (a_list a_case l) <-> Forall written (map A_Case l).
Proof. now apply written_list. Qed.
Lemma w_decls l : done (a_list a_declarator l) <-> Forall written (map A_Declarator l).
Proof. now apply written_list. Qed.
Lemma w_oexpr o : done (a_opt a_expression o) <-> Forall written (opt A_Expr o).
Proof. now apply written_opt. Qed.
Lemma w_ostmt o : done (a_opt a_statement o) <-> Forall written (opt A_Stmt o).
Proof. now apply written_opt. Qed.
Lemma w_oinit o : done (a_opt a_for_init o) <-> Forall written (opt A_ForInit o).
Proof. now apply written_opt. Qed.
Lemma w_ocatch o : done (a_opt a_catch o) <-> Forall written (opt A_Catch o).
Proof. now apply written_opt. Qed.
Lemma w_expr n : done (a_node a_expression n) <-> written (A_Expr n). Proof. reflexivity. Qed.
Lemma w_tpl n : done (a_node a_template n) <-> written (A_Tpl n). Proof. reflexivity. Qed.
Lemma w_key n : done (a_node a_key n) <-> written (A_Key n). Proof. reflexivity. Qed.
Lemma w_pat n : done (a_node a_pattern n) <-> written (A_Pat n). Proof. reflexivity. Qed.
Lemma w_func n : done (a_node a_func n) <-> written (A_Func n). Proof. reflexivity. Qed.
Lemma w_stmt n : done (a_node a_statement n) <-> written (A_Stmt n). Proof. reflexivity. Qed.
Lemma w_init n : done (a_node a_for_init n) <-> written (A_ForInit n). Proof. reflexivity. Qed.
Lemma w_body n : done (obj (n_start n) (n_end n) "BlockStatement" [("body"%string, a_list a_statement (b_body (n_item n)))]) <-> written (A_Body n).
Proof. reflexivity. Qed.
Lemma w_cbody n : done (obj (n_start n) (n_end n) "ClassBody" [("body"%string, a_list a_member (b_body (n_item n)))]) <-> written (A_ClassBody n).
Proof. reflexivity. Qed.

Definition quasis_end (a : any) : Prop :=
  forall es qs, template_of a = Some (Template es qs) -> Forall (fun q => n_end q <> 0%N) qs.
Definition is_void (a : any) : Prop := exists n, a = A_Expr n /\ n_item n = E_Void.

Ltac wr := repeat (rewrite ?w_body, ?w_cbody, ?done_obj, ?done_arr, ?Forall_fields, ?Forall_nil', ?Forall_one, ?Forall_app, ?Forall_cons_iff, ?done_str, ?done_bool, ?done_null,
    ?done_kind, ?done_mkind, ?done_identifier, ?done_ident, ?written_ident, ?idents_written, ?done_name, ?w_exprs, ?w_pats, ?w_props, ?w_stmts, ?w_members, ?w_cases, ?w_decls,
    ?w_oexpr, ?w_ostmt, ?w_oinit, ?w_ocatch, ?w_expr, ?w_tpl, ?w_key, ?w_pat, ?w_func, ?w_stmt, ?w_init).
Lemma func_step st en f : done (a_func st en f) <-> Forall written (children_func f).
Proof. destruct f as [n g ps b]. cbn [a_func children_func]. wr. tauto. Qed.
Lemma class_step st en c : done (a_class st en c) <-> Forall written (children_class c).
Proof. destruct c as [n e b]. cbn [a_class children_class]. wr. tauto. Qed.

Lemma last_slash_none s : Forall (fun b => b <> "/"%byte) s -> forall i o, last_slash s i o = o.
Proof.
  induction s as [|b s IH]; simpl; intros F i o; [auto|].
  assert (E : byte_eqb b x2f = false) by (apply byte_eqb_neq; exact (Forall_inv F)). rewrite E. apply IH. exact (Forall_inv_tail F).
Qed.
Lemma last_slash_at s t : Forall (fun b => b <> "/"%byte) t -> forall i o, last_slash (s ++ "/"%byte :: t) i o = Some (i + List.length s).
Proof.
  intros F. induction s as [|b s IH]; cbn [app last_slash List.length]; intros i o.
  - change (byte_eqb "/" x2f) with true. cbv iota. rewrite (last_slash_none _ F). f_equal. lia.
  - rewrite IH. f_equal. lia.
Qed.
Lemma parse_regex_parts body flags : Forall (fun b => b <> "/"%byte) flags ->
  parse_regex ("/"%byte :: body ++ "/"%byte :: flags) = Done (body, flags).
Proof.
  intros F. unfold parse_regex. change ("/"%byte :: body ++ "/"%byte :: flags) with (("/"%byte :: body) ++ "/"%byte :: flags).
  rewrite (last_slash_at _ _ F). cbn [List.length]. cbn [app].
  replace (Nat.ltb (0 + S (List.length body)) 1) with false by (symmetry; apply Nat.ltb_ge; lia).
  replace (0 + S (List.length body) - 1) with (List.length body) by lia.
  replace (0 + S (List.length body) + 1) with (S (S (List.length body))) by lia.
  assert (E1 : forall l r : str, firstn (List.length l) (l ++ r) = l).
  { intros l r. rewrite firstn_app, Nat.sub_diag, firstn_all. cbn [firstn]. apply app_nil_r. }
  assert (E2 : forall l r : str, skipn (List.length l) (l ++ r) = r).
  { intros l r. rewrite skipn_app, skipn_all, Nat.sub_diag. reflexivity. }
  change (skipn 1 ("/"%byte :: body ++ "/"%byte :: flags)) with (body ++ "/"%byte :: flags). rewrite E1.
  change (skipn (S (S (List.length body))) ("/"%byte :: body ++ "/"%byte :: flags)) with (skipn (S (List.length body)) (body ++ "/"%byte :: flags)).
  replace (S (List.length body)) with (List.length (body ++ ["/"%byte])) by (rewrite app_length; simpl; lia).
  replace (body ++ "/"%byte :: flags) with ((body ++ ["/"%byte]) ++ flags) by (rewrite <- app_assoc; reflexivity).
  now rewrite E2.
Qed.
Lemma flags_no_slash flags : Forall (fun b => one_of regex_flags b = true) flags -> Forall (fun b => b <> "/"%byte) flags.
Proof. apply Forall_impl. intros b H ->. discriminate H. Qed.

Lemma written_step a : well_formed a -> quasis_end a -> ~ is_void a -> ~ is_array a ->
  (written a <-> writable a /\ Forall written (children a)).
Proof.
  intros W Q V A. change (done (a_any a) <-> writable a /\ Forall written (children a)).
  destruct a as [n|n|n|n|n|n|n|n|n|n|n|n|n|n|n|n|n]; cbn [a_any writable children]; unfold a_node.
  - rewrite done_ident. rewrite Forall_nil'. tauto.
  - destruct n as [st en e]; cbn [n_start n_end n_item] in *.
    destruct e as [| | |l|b|b|o p|o p|m p|c args|op l r|op x|op x|t c a|t|t q|x|ps [x|b]|b|f|c];
      cbn [a_expression children_expression]; try solve [wr; tauto].
    + exfalso. apply V. eexists. split; reflexivity.
    + (* literals *)
      destruct l as [| | | |s|s|s|s]; cbn [a_literal]; try solve [wr; tauto].
      * wr. apply proj1 in W. cbn [expression_wf n_item] in W. split.
        -- intros [D _]. split; [|auto]. apply number_done; [exact W|exact D].
        -- intros [[[v H]|H] _]; (split; [|auto]); [exists (J_Int v); now apply integer_value|exists (J_Float s); now apply fraction_value].
      * wr. apply proj1 in W. cbn [expression_wf n_item] in W. split.
        -- intros [D _]. split; [|auto]. destruct D as [j D].
           destruct (from_str_radix 2 i32_max (skipn 2 s)) as [v|] eqn:E; [|discriminate]. exists v. now apply binary_done.
        -- intros [[v H] _]. split; auto. apply binary_value in H. rewrite H. eexists; reflexivity.
      * wr. apply proj1 in W. cbn [expression_wf n_item] in W. destruct W as (body & flags & -> & F). split; [tauto|]. intros _. split; [|tauto].
        rewrite (parse_regex_parts _ _ (flags_no_slash _ F)). eexists; reflexivity.
    + exfalso. apply A. do 2 eexists. split; reflexivity.
    + (* prefix *) destruct op; try solve [wr; tauto].
      destruct x as [xs xe x]. cbn [n_item]. rewrite Forall_one.
      destruct x as [| | |l| | | | | |c args| | | | | | | | | | |];
        try (rewrite done_Panicked; split; [tauto|intros [[(c9 & a9 & E)|(l9 & E)] _]; discriminate E]).
      * wr. unfold written. cbn [a_any]. split; [intros [D _]; split; [right; eauto|exact D]|intros [_ D]; auto].
      * unfold written. cbn [a_any]. unfold a_node. cbn [a_expression n_start n_end n_item]. rewrite !done_obj.
        split; [intros D; split; [left; eauto|exact D]|tauto].
    + (* template *) destruct t as [es qs]. cbn [a_template children_template]. wr.
      assert (D := quasis_done qs (Q es qs eq_refl)). tauto.
    + rewrite func_step. tauto.
    + rewrite class_step. tauto.
  - destruct n as [st en [es qs]]; cbn [n_start n_end n_item a_template children_template]. wr.
    assert (D := quasis_done qs (Q es qs eq_refl)). tauto.
  - destruct n as [st en e]; cbn [n_start n_end n_item]. destruct e as [s|k v|k v|x]; cbn [a_property]; wr; tauto.
  - destruct n as [st en e]; cbn [n_start n_end n_item]. destruct e as [s|k|v]; cbn [a_key]; wr; tauto.
  - destruct n as [st en e]; cbn [n_start n_end n_item]. destruct e as [|s|ps|es|x|l r]; cbn [a_pattern]; wr; try solve [split; [intros D; split; [discriminate|tauto]|tauto]].
    rewrite done_Panicked. split; [tauto|]. intros [H _]. congruence.
  - destruct n as [st en e]; cbn [n_start n_end n_item]. rewrite func_step. tauto.
  - destruct n as [st en e]; cbn [n_start n_end n_item]. destruct e as [|b k kd v|b k v]; cbn [a_member].
    + rewrite done_Panicked. split; [tauto|]. intros [(? & ? & ? & ? & E) _]. discriminate E.
    + wr. split; [intros D; split; [eauto 6|tauto]|tauto].
    + rewrite done_Panicked. split; [tauto|]. intros [(? & ? & ? & ? & E) _]. discriminate E.
  - unfold a_block. rewrite done_obj. wr. tauto.
  - rewrite done_obj. wr. tauto.
  - wr. tauto.
  - destruct n as [st en e]; cbn [n_start n_end n_item].
    destruct e as [| |e|k ds|v|l|l|v|t c a|t b|b t|i t u b|l r b|l r b|b h f|b|l b|f|c|d c|ss src]; cbn [a_statement children_statement].
    all: try solve [wr; tauto].
    + rewrite done_obj, Forall_fields. destruct l; cbn [opt]; wr; tauto.
    + rewrite done_obj, Forall_fields. destruct l; cbn [opt]; wr; tauto.
    + rewrite done_obj, !Forall_fields. destruct f; cbn [opt]; wr; tauto.
    + rewrite func_step. tauto.
    + rewrite class_step. tauto.
    + wr. unfold written. cbn [a_any]. rewrite w_cases. tauto.
    + rewrite done_obj, !Forall_fields, done_arr, !Forall_map, done_str, Forall_nil'.
      assert (G : forall l, Forall (fun x => done (a_specifier x)) l <-> True).
      { intros l. split; auto. intros _. apply Forall_forall. intros [s1 e1 [i l1|l1|l1]] _; unfold a_specifier; cbn [n_item]; wr; tauto. }
      split; [intros _; split; [exact I|exact (proj2 (G ss) I)]|intros _; split; [exact (proj2 (G ss) I)|auto]].
  - destruct n as [st en [p i]]; cbn [n_start n_end n_item a_declarator]. wr. tauto.
  - destruct n as [st en [k ds|e]]; cbn [n_start n_end n_item a_for_init]; [wr; tauto|].
    rewrite Forall_one. rewrite (expr_at _ _ (n_start e) (n_end e)). unfold written. cbn [a_any]. unfold a_node. tauto.
  - destruct n as [st en [t c]]; cbn [n_start n_end n_item a_case]. wr. tauto.
  - destruct n as [st en [p b]]; cbn [n_start n_end n_item a_catch]. wr. tauto.
  - destruct n as [s1 e1 [i l1|l1|l1]]; unfold a_specifier; cbn [n_item]; wr; tauto.
Qed.

Lemma drop_trailing_done l : Forall (fun o => done (hole o)) (drop_trailing l) <-> Forall (fun o => done (hole o)) l.
Proof.
  assert (D : done (hole None)) by (eexists; reflexivity).
  induction l as [|x l IH]; [reflexivity|]. rewrite Forall_cons_iff, <- IH. cbn [drop_trailing].
  destruct (drop_trailing l) as [|y r] eqn:E; [destruct x as [x|]|].
  - rewrite Forall_cons_iff. reflexivity.
  - split; auto.
  - rewrite Forall_cons_iff. destruct x; reflexivity.
Qed.
Lemma array_step st en es :
  written (A_Expr (Node st en (E_Array es))) <-> Forall (fun e => n_item e = E_Void \/ written (A_Expr e)) es.
Proof.
  unfold written. cbn [a_any]. unfold a_node. cbn [a_expression n_start n_end n_item].
  rewrite done_obj, Forall_one. cbn [snd]. rewrite done_arr, Forall_map, drop_trailing_done, Forall_map.
  assert (G : forall e : node expression, done (hole (match n_item e with E_Void => None | _ => Some (a_node a_expression e) end)) <->
    (n_item e = E_Void \/ done (a_node a_expression e))).
  { intros e. destruct (n_item e) eqn:E; cbn [hole]; try (split; [auto|intros [H|H]; [discriminate H|exact H]]).
    split; [auto|]. intros _. eexists; reflexivity. }
  split; apply Forall_impl; intros e; rewrite <- (G e); unfold a_node; auto.
Qed.

Definition node_ok (a : any) : Prop := placeholder_free a /\ well_formed a /\ quasis_end a.
Lemma array_dec a : is_array a \/ ~ is_array a.
Proof.
  destruct a as [n|[st en e]|n|n|n|n|n|n|n|n|n|n|n|n|n|n|n]; try (right; intros (m & es & E & _); discriminate E).
  destruct e; try (right; intros (m & es & E & H); injection E as <-; discriminate H).
  left. do 2 eexists. split; reflexivity.
Qed.
Lemma void_dec a : is_void a \/ ~ is_void a.
Proof.
  destruct a as [n|[st en e]|n|n|n|n|n|n|n|n|n|n|n|n|n|n|n]; try (right; intros (m & E & _); discriminate E).
  destruct e; try (right; intros (m & E & H); injection E as <-; discriminate H).
  left. eexists. split; reflexivity.
Qed.
Lemma void_writable a d : is_void a -> within d a -> writable d.
Proof.
  intros (n & -> & E) W. inversion W as [x|x b c I W' Ex Eb]; subst.
  - cbn [writable]. now rewrite E.
  - cbn [children] in I. rewrite E in I. destruct I.
Qed.
Lemma within_children d a : within d a <-> d = a \/ exists c, In c (children a) /\ within d c.
Proof.
  split.
  - intros W. inversion W as [x|x b c I W' Ex Eb]; subst; [now left|right; eauto].
  - intros [->|(c & I & W)]; [apply within_refl|eapply within_child; eauto].
Qed.

Lemma written_tree a : (forall d, within d a -> node_ok d) -> ~ is_void a -> (written a <-> forall d, within d a -> writable d).
Proof.
  revert a. apply (tree_ind (fun a => (forall d, within d a -> node_ok d) -> ~ is_void a -> (written a <-> forall d, within d a -> writable d))).
  intros a IH OK V.
  assert (OKc : forall c, In c (children a) -> forall d, within d c -> node_ok d).
  { intros c I d W. apply OK. eapply within_child; eauto. }
  assert (IHc : forall c, In c (children a) -> ~ is_void c -> (written c <-> forall d, within d c -> writable d)).
  { intros c I. apply (proj1 (Forall_forall _ _) IH c I). exact (OKc c I). }
  destruct (OK a (within_refl a)) as (PF & WF & QE).
  destruct (array_dec a) as [A|A].
  - destruct A as ([st en e] & es & -> & E). cbn [n_item] in E. subst e. rewrite array_step.
    cbn [children n_item children_expression] in IHc. split.
    + intros F d W. apply within_children in W as [->|(c & I & W)]; [exact I|].
      cbn [children n_item children_expression] in I. apply in_map_iff in I as (e & <- & I).
      destruct (proj1 (Forall_forall _ _) F e I) as [Ev|Hw].
      * eapply void_writable; [|exact W]. exists e. auto.
      * destruct (void_dec (A_Expr e)) as [Hv|Hv]; [eapply void_writable; eauto|].
        apply (proj1 (IHc (A_Expr e) ltac:(apply in_map; auto) Hv) Hw _ W).
    + intros F. apply Forall_forall. intros e I. destruct (void_dec (A_Expr e)) as [Hv|Hv].
      * left. destruct Hv as (n & Hn & Hv). now injection Hn as <-.
      * right. apply (proj2 (IHc (A_Expr e) ltac:(apply in_map; auto) Hv)). intros d W. apply F.
        eapply within_child; [|exact W]. cbn. now apply in_map.
  - assert (NV : forall c, In c (children a) -> ~ is_void c).
    { intros c I (n & -> & E). apply A. exact (proj1 (proj2 (proj2 (proj2 PF))) n I E). }
    rewrite (written_step a WF QE V A), Forall_forall. split.
    + intros [Wa F] d W. apply within_children in W as [->|(c & I & W)]; [exact Wa|].
      exact (proj1 (IHc c I (NV c I)) (F c I) d W).
    + intros F. split; [apply F, within_refl|]. intros c I. apply (proj2 (IHc c I (NV c I))).
      intros d W. apply F. eapply within_child; eauto.
Qed.
Lemma written_module m : (forall d, in_module d m -> node_ok d) ->
  (done (a_module m) <-> forall d, in_module d m -> writable d).
Proof.
  intros OK. unfold a_module. rewrite done_obj, Forall_one. cbn [snd]. rewrite w_stmts, Forall_map, Forall_forall.
  assert (V : forall s, ~ is_void (A_Stmt s)) by (intros s (n & E & _); discriminate E).
  split.
  - intros F d (s & I & W). specialize (F s I). rewrite written_tree in F; auto. intros x X. apply OK. exists s. auto.
  - intros F s I. rewrite written_tree; auto.
    + intros d W. apply F. exists s. auto.
    + intros d W. apply OK. exists s. auto.
Qed.
