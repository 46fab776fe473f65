(** Properties C14, C15, C16: what holds.  [PropParse] shows that parsing need not end, can read past
    the end of the source and can panic; here, that it does so only on sources with certain texts. *)
From Coq Require Import List NArith Bool Lia Arith String.
From Coq.Strings Require Import Byte.
From Verif Require Import Bytes Token Lexer Parser SpecUtf8 SpecChunks SpecHazard Boundary Utf8Facts ParseFacts ReturnFacts PropGap.
Import ListNotations.
Open Scope nat_scope.
Open Scope list_scope.

(** ** C14: parsing a source comes to an end unless the lexer comes to a token [switch] in it or it has a character
    outside ASCII that is not alphanumeric. *)
Theorem C14_ends_partial : forall (alnum : N -> bool) (src : str), utf8 src ->
  ~ may_loop alnum src -> exists n, forall m, n <= m -> parse_fuel alnum m src <> OutOfFuel.
Proof.
  intros alnum src U N. destruct (parse_ends alnum src U) as [L|[n E]]; [contradiction|]. exists n. intros m L. rewrite (parse_more alnum src n m _ L eq_refl E). exact E.
Qed.
Print Assumptions C14_ends_partial.

(** There is no such token if the source does not have the text [switch]. *)
Theorem C14_no_switch_partial : forall (alnum : N -> bool) (src : str), utf8 src ->
  (forall a r, src <> a ++ bs "switch" ++ r) -> ~ may_stick alnum src -> ~ may_loop alnum src.
Proof.
  intros alnum src U N C [(lx & V & E)|L]; [|exact (C L)]. destruct (switch_text alnum src lx (visited_reach alnum src lx V) E) as (a & r & E2). exact (N _ _ E2).
Qed.
Print Assumptions C14_no_switch_partial.

(** ** C15: it reads past the end only from a period at the end of the source, an unfinished regular
    expression or an unfinished template. *)
Theorem C15_reads_inside_partial : forall (alnum : N -> bool) (src : str), utf8 src ->
  ~ may_read_past src -> forall n, parse_fuel alnum n src <> ReadPastEnd.
Proof. intros alnum src U N n E. assert (G := parse_outcomes alnum src U n). rewrite E in G. exact (N G). Qed.
Print Assumptions C15_reads_inside_partial.

(** ** C16: it panics only at a period followed by a character outside ASCII. *)
Theorem C16_no_panic_partial : forall (alnum : N -> bool) (src : str), utf8 src ->
  ~ may_panic src -> forall n, parse_fuel alnum n src <> Panicked.
Proof. intros alnum src U N n E. assert (G := parse_outcomes alnum src U n). rewrite E in G. exact (N G). Qed.
Print Assumptions C16_no_panic_partial.

(** ** The three together: [parse] returns a [Result]. *)
Theorem C14_returns_partial : forall (alnum : N -> bool) (src : str), utf8 src ->
  ~ may_loop alnum src -> ~ may_read_past src -> ~ may_panic src -> exists r, parses_to alnum src r.
Proof. intros alnum src U A B C. destruct (parse_returns alnum src U) as [R|R]; [exact R|tauto]. Qed.
Print Assumptions C14_returns_partial.

(** ** A class of sources that is easy to recognise *)
Lemma regex_open_last k s : regex_open k s -> ~ In "\"%byte s -> last s x00 <> x0a.
Proof.
  induction 1 as [k|k s H IH|k s H IH|s H IH|k c s Hc H IH|k b s Hb H IH]; intros N.
  - discriminate.
  - destruct s; [discriminate|]. apply IH. intros I. apply N. now right.
  - destruct s; [discriminate|]. apply IH. intros I. apply N. now right.
  - destruct s; [discriminate|]. apply IH. intros I. apply N. now right.
  - destruct N. now left.
  - destruct s as [|x s]; [cbn; intros ->; apply Hb; cbn; tauto|]. apply IH. intros I. apply N. now right.
Qed.
Theorem C14_lines_partial : forall (alnum : N -> bool) (text : str),
  let src := text ++ [x0a] in
  utf8 text ->
  (forall a r c, text = a ++ r -> code_point r c -> alnum c = true) ->
  (forall a r, text <> a ++ bs "switch" ++ r) ->
  ~ In "`"%byte text -> ~ In "\"%byte text ->
  (forall a r, text = a ++ "."%byte :: r -> exists ws b r', r = ws ++ b :: r' /\ Forall blank ws /\ ~ blank b /\ ~ not_ascii b) ->
  exists r, parses_to alnum src r.
Proof.
  intros alnum text src U A Sw Q B Pd. assert (Us : utf8 src) by (apply utf8_app; [exact U|now apply utf8_ascii1]).
  assert (Last : forall a r, src = a ++ r -> r = [] \/ exists r', r = r' ++ [x0a] /\ text = a ++ r').
  { intros a r E. destruct r as [|x r]; [now left|]. right. destruct (exists_last (l := x :: r)) as (r' & z & Ez); [discriminate|]. rewrite Ez in E |- *.
    unfold src in E. rewrite app_assoc in E. apply app_inj_tail in E as [E ->]. exists r'. auto. }
  assert (Per : forall a s, src = a ++ "."%byte :: s -> exists ws b r, s = ws ++ b :: r /\ Forall blank ws /\ ~ blank b /\ ~ not_ascii b).
  { intros a s E. apply Last in E as [E|(r' & E1 & E2)]; [discriminate|]. destruct r' as [|x r']; [discriminate E1|]. injection E1 as <- ->.
    destruct (Pd _ _ E2) as (ws & b & r2 & -> & F & N1 & N2). exists ws, b, (r2 ++ [x0a]). rewrite <- app_assoc. auto. }
  apply C14_returns_partial; auto.
  - apply C14_no_switch_partial; [exact Us| |].
    + intros a r E. apply Last in E as [E|(r' & E1 & E2)]; [destruct r; discriminate E|]. destruct r as [|x r].
      { rewrite app_nil_r in E1. change (bs "switch") with ((bs "switc" ++ ["h"%byte])) in E1. apply app_inj_tail in E1 as [_ E1]. discriminate E1. }
      destruct (exists_last (l := x :: r)) as (r2 & z & Ez); [discriminate|]. rewrite Ez, app_assoc in E1. apply app_inj_tail in E1 as [<- _]. exact (Sw _ _ E2).
    + intros (a & r & c & E & C & F).
      apply Last in E as [->|(r' & -> & E2)]; [inversion C|]. enough (code_point r' c) by (rewrite (A _ _ _ E2 H) in F; discriminate F).
      assert (U2 : utf8 r').
      { assert (V := U). rewrite E2 in V. apply utf8_split in V; [apply V|]. destruct r' as [|x r']; [exact I|]. cbn [app] in C. unfold start.
        inversion C; subst; match goal with H : between _ _ ?x |- _ => clear - H; destruct x; try reflexivity; exfalso; destruct H as [H1 H2]; vm_compute in H1, H2; congruence end. }
      destruct r' as [|x r']; [cbn [app] in C; inversion C|].
      assert (Nx : not_ascii x) by (cbn [app] in C; inversion C; subst; match goal with H : between _ _ ?x |- _ => clear - H; destruct H as [H _]; unfold not_ascii; cbn in H |- *; lia end).
      clear - U2 Nx C. destruct (HazardFacts.first_char _ _ U2 Nx) as (c' & n & _ & C').
      assert (D : forall s t d d', code_point s d -> code_point (s ++ t) d' -> d = d').
      { clear. intros s t d d' H K. destruct H; cbn [app] in K; inversion K; subst; auto; exfalso;
          unfold between in *; change (byte_val xc2) with 194%N in *; change (byte_val xdf) with 223%N in *; change (byte_val xe0) with 224%N in *;
          change (byte_val xef) with 239%N in *; change (byte_val xf0) with 240%N in *; change (byte_val xf4) with 244%N in *; lia. }
      rewrite (D _ _ _ _ C' C) in C'. exact C'.
  - intros (a & r & E & R). destruct R as [ws F|s F|s F|s F I].
    + destruct (Per _ _ E) as (w & b & r & -> & _ & N & _). apply Forall_app in F as [_ F]. apply Forall_inv in F. contradiction.
    + apply Last in E as [E|(r' & E1 & E2)]; [discriminate|]. destruct r' as [|x r']; [discriminate E1|]. injection E1 as <- ->.
      apply (regex_open_last _ _ F); [|now rewrite last_last]. intros I. apply in_app_or in I as [I|[I|[]]]; [|discriminate I]. apply B. rewrite E2. apply in_or_app. right. now right.
    + apply Last in E as [E|(r' & E1 & E2)]; [discriminate|]. destruct r' as [|x r']; [discriminate E1|]. injection E1 as <- ->. apply Q. rewrite E2. apply in_or_app. right. now left.
    + apply in_app_or in I as [I|[I|[]]]; [exact (Q I)|discriminate I].
  - intros (a & ws & b & r & E & F & N). destruct (Per _ _ E) as (w & b' & r' & E2 & F' & N1 & N2).
    clear - E2 F F' N N1 N2. revert w E2 F'. induction F as [|x ws Fx F IH]; intros [|y w] E2 F'; cbn [app] in E2; injection E2; intros; subst.
    + contradiction. + apply Forall_inv in F'. unfold blank, not_ascii in *. lia. + contradiction.
    + eapply IH; [eassumption|]. now apply Forall_inv_tail in F'.
Qed.
Print Assumptions C14_lines_partial.

(** A source that meets the hypotheses, and is neither trivial nor accepted. *)
Definition sample : str :=
  bs "for (var i = 0; i < a.b.length; ++i) { f(/x[/]y/.test(i) ? 'a' : {b: 1.5}) ) } " ++ [xc3; xa9] ++ bs " = (".
Fixpoint suffixes (s : str) : list str := s :: match s with [] => [] | _ :: s' => suffixes s' end.
Lemma suffixes_in a r : In r (suffixes (a ++ r)).
Proof. induction a as [|x a IH]; [destruct r; now left|now right]. Qed.
Definition period_ok (r : str) : bool :=
  match r with
  | "."%byte :: b :: _ => (byte_in x21 x7f b)
  | "."%byte :: [] => false
  | _ => true
  end.
Definition starts_switch (r : str) : bool := str_eqb (firstn 6 r) (bs "switch").
Example C14_nonvacuous :
  utf8 sample /\ (forall a r, sample <> a ++ bs "switch" ++ r) /\ ~ In "`"%byte sample /\ ~ In "\"%byte sample /\
  (forall a r, sample = a ++ "."%byte :: r -> exists ws b r', r = ws ++ b :: r' /\ Forall blank ws /\ ~ blank b /\ ~ not_ascii b) /\
  exists es, parses_to (fun _ => true) (sample ++ [x0a]) (ParseErr es).
Proof.
  split; [|split; [|split; [|split; [|split]]]].
  - unfold sample. apply utf8_app; [now apply utf8_ascii|]. apply utf8_app; [|now apply utf8_ascii].
    exists 1. apply (ch_cons 0 [xc3; xa9] []); [|constructor]. apply u2; split; discriminate.
  - intros a r E. assert (G : forallb (fun x => negb (starts_switch x)) (suffixes sample) = true) by (vm_compute; reflexivity).
    rewrite forallb_forall in G. rewrite E in G. specialize (G _ (suffixes_in _ _)). discriminate G.
  - intros I. assert (G : existsb (fun b => byte_eqb b "`") sample = true) by (apply existsb_exists; exists "`"%byte; auto). vm_compute in G. discriminate G.
  - intros I. assert (G : existsb (fun b => byte_eqb b "\") sample = true) by (apply existsb_exists; exists "\"%byte; auto). vm_compute in G. discriminate G.
  - intros a r E. assert (G : forallb period_ok (suffixes sample) = true) by (vm_compute; reflexivity).
    rewrite forallb_forall in G. rewrite E in G. specialize (G _ (suffixes_in _ _)). destruct r as [|b r]; [discriminate G|].
    exists [], b, r. split; [reflexivity|]. split; [constructor|]. cbn in G. clear - G. unfold blank, not_ascii.
    split; intros H; destruct b; vm_compute in G; try discriminate G; vm_compute in H; congruence.
  - eexists. exists 200. vm_compute. reflexivity.
Qed.

(** The word [switch] in a longer word, in a string and in a comment. *)
Definition no_token : str := bs "switcher('switch') // switch".
Example C14_switch_case : ~ may_loop letters no_token /\ exists r, parses_to letters no_token r.
Proof.
  split; [|eexists; exists 60; vm_compute; reflexivity]. intros [(lx & V & E)|(a & r & c & E & C & _)].
  - assert (G : forall lx, visited letters no_token lx -> forall x, lexer_new letters no_token = Done x -> exists n, n <= 4 /\ Nat.iter n (fun o => obind o (consume letters)) (Done x) = Done lx).
    { clear. intros lx V x X. induction V as [lx N|lx lx1 V IH N|lx lx1 V IH T N|lx v lx1 V IH T N].
      - exists 0. split; [lia|]. rewrite X in N. exact N.
      - destruct IH as (n & L & In_). destruct (Nat.eq_dec n 4) as [->|D].
        + exists 4. split; [lia|]. vm_compute in X. injection X as <-. vm_compute in In_. injection In_ as <-. vm_compute in N. injection N as <-. vm_compute. reflexivity.
        + exists (S n). split; [lia|]. cbn [Nat.iter]. change (Nat.iter (S n) ?f ?y) with (f (Nat.iter n f y)). cbn beta. rewrite In_. exact N.
      - exfalso. destruct IH as (n & L & In_). vm_compute in X. injection X as <-. do 5 (destruct n as [|n]; [vm_compute in In_; injection In_ as <-; discriminate T|]). lia.
      - exfalso. destruct IH as (n & L & In_). vm_compute in X. injection X as <-. do 5 (destruct n as [|n]; [vm_compute in In_; injection In_ as <-; discriminate T|]). lia. }
    destruct (lexer_new letters no_token) as [x| | |] eqn:X; try discriminate X. destruct (G _ V x eq_refl) as (n & L & In_). clear G. vm_compute in X. injection X as <-.
    do 5 (destruct n as [|n]; [vm_compute in In_; injection In_ as <-; discriminate E|]). lia.
  - assert (G : forallb (fun b => N.leb (byte_val b) 127) no_token = true) by reflexivity. rewrite E, forallb_app in G. apply andb_true_iff in G as [_ G].
    inversion C; subst; cbn [forallb] in G; apply andb_true_iff in G as [G _]; apply N.leb_le in G; match goal with H : between _ _ ?x |- _ => destruct H as [H _]; unfold byte_val in *; cbn in H; lia end.
Qed.
