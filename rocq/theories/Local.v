(** What the lexer reads: a token, and not more than one character after it;
    and it stops before white space or a comment. *)
From Coq Require Import List NArith Bool Lia Arith String.
From Coq.Strings Require Import Byte.
From Verif Require Import Bytes Token Tables Lexer SpecLexer LexerFacts ConsumeFacts LexEval TokenText.
Import ListNotations.
Open Scope nat_scope.
Open Scope list_scope.

Notation size lx := (List.length (rem (lx_cur lx))).

(** Two continuations that begin with the same character. *)
Fixpoint looks (u u' : str) : Prop :=
  match u, u' with
  | b :: r, b' :: r' => b = b' /\ ((byte_val b < 128)%N \/ looks r r')
  | _, _ => False
  end.
(** A byte that ends a token: white space, or the beginning of a comment. *)
Definition stop (c : byte) : Prop := white c \/ c = "/"%byte.
(** [u] is replaced by [u']: the same character follows, or else something that ends a token. *)
Definition heads (u u' : str) : Prop :=
  looks u u' \/ (exists b r c r', u = b :: r /\ u' = c :: r' /\ is_continuation b = false /\ stop c).
(** Tokens that do end there. *)
Definition calm (u u' : str) (t : token) : Prop :=
  looks u u' \/ (t <> T_UnexpectedToken /\ t <> T_UnexpectedEndOfProgram /\ t <> T_EndOfProgram /\ (forall r, u' = "/"%byte :: r -> t <> T_OperatorDivision)).

Lemma looks_cons u u' : looks u u' -> exists b r r', u = b :: r /\ u' = b :: r'.
Proof. destruct u as [|b r], u' as [|b' r']; try contradiction. intros [-> _]. eauto. Qed.
Lemma looks_app t u u' : looks u u' -> looks (t ++ u) (t ++ u').
Proof. induction t as [|b t IH]; [auto|]. intros H. split; auto. Qed.
Lemma looks_same b r r' : (byte_val b < 128)%N -> looks (b :: r) (b :: r').
Proof. intros H. split; auto. Qed.
Lemma heads_cons u u' : heads u u' -> exists b r b' r', u = b :: r /\ u' = b' :: r' /\ (b' = b \/ stop b').
Proof. intros [H|(b & r & c & r' & -> & -> & _ & S)]; [destruct (looks_cons _ _ H) as (b & r & r' & -> & ->)|]; eauto 9. Qed.
Lemma heads_len u u' : heads u u' -> 0 < List.length u.
Proof. intros H. destruct (heads_cons _ _ H) as (b & r & b' & r' & -> & _). cbn. lia. Qed.

Definition whites : list byte :=
  [x01;x02;x03;x04;x05;x06;x07;x08;x09;x0a;x0b;x0c;x0d;x0e;x0f;x10;x11;x12;x13;x14;x15;x16;x17;x18;x19;x1a;x1b;x1c;x1d;x1e;x1f;x20].
Lemma white_in b : white b -> In b whites.
Proof. intros W. apply handler_None in W. destruct b; try discriminate W; cbn; tauto. Qed.
(** A test that all stops fail. *)
Definition halts (f : byte -> bool) : Prop := forall c, stop c -> f c = false.
Lemma halts_by (f : byte -> bool) : forallb (fun b => negb (f b)) whites = true -> f "/"%byte = false -> halts f.
Proof. intros H E c [W| ->]; [|exact E]. rewrite forallb_forall in H. apply negb_true_iff, H, white_in, W. Qed.
Ltac halt := apply halts_by; reflexivity.

(** Corresponding positions in two sources that differ from [u] and [u'] on. *)
Definition crel (u u' : str) (d d' : nat) (c c' : cursor) : Prop :=
  exists t, rem c = t ++ u /\ rem c' = t ++ u' /\ pos c + d' = pos c' + d.
(** [P]: whether the positions of accessor names, the texts of the template pieces read last, and the marks of semicolon insertion are known to correspond. *)
Record hrel (P : Prop * Prop * Prop) (u u' : str) (d d' : nat) (lx lx' : lexer) : Prop := HRel {
  hr_cur : crel u u' d d' (lx_cur lx) (lx_cur lx');
  hr_tok : crel u u' d d' (lx_tok lx) (lx_tok lx');
  hr_asi : snd P -> lx_asi lx' = lx_asi lx;
  hr_quasi : snd (fst P) -> lx_quasi lx' = lx_quasi lx;
  hr_acc : fst (fst P) -> crel u u' d d' (lx_acc lx) (lx_acc lx')
}.
Record erel (P : Prop * Prop * Prop) (u u' : str) (d d' : nat) (lx lx' : lexer) : Prop := ERel {
  er_rel : hrel P u u' d d' lx lx';
  er_token : lx_token lx' = lx_token lx;
  er_acc : lx_token lx = T_Accessor -> crel u u' d d' (lx_acc lx) (lx_acc lx')
}.

(** [F] reads at most one character after where it stops. *)
Definition mono (F : lexer -> outcome lexer) : Prop := forall lx lx1, F lx = Done lx1 -> size lx1 <= size lx.
Definition eats (b : byte) (F : lexer -> outcome lexer) : Prop := forall lx lx1, head lx b -> F lx = Done lx1 -> size lx1 < size lx.
Definition loc (F : lexer -> outcome lexer) : Prop :=
  forall lx lx1, F lx = Done lx1 ->
  size lx1 <= size lx /\
  forall P u u' d d' lx', heads u u' -> hrel P u u' d d' lx lx' -> List.length u <= size lx1 -> (List.length u = size lx1 -> calm u u' (lx_token lx1)) ->
  exists lx1', F lx' = Done lx1' /\ erel P u u' d d' lx1 lx1'.
Lemma loc_mono F : loc F -> mono F.
Proof. intros L lx lx1 E. apply (L _ _ E). Qed.

Lemma hrel_cur P u u' d d' lx lx' c c' : hrel P u u' d d' lx lx' -> crel u u' d d' c c' -> hrel P u u' d d' (set_cur c lx) (set_cur c' lx').
Proof. intros [A B C D E] H. constructor; auto. Qed.
Lemma hrel_token P u u' d d' lx lx' t t' : hrel P u u' d d' lx lx' -> hrel P u u' d d' (set_token t lx) (set_token t' lx').
Proof. intros [A B C D E]. constructor; auto. Qed.
Lemma hrel_asi P u u' d d' lx lx' a : hrel P u u' d d' lx lx' -> hrel P u u' d d' (set_asi a lx) (set_asi a lx').
Proof. intros [A B C D E]. constructor; auto. Qed.
Lemma hrel_quasi P u u' d d' lx lx' q : hrel P u u' d d' lx lx' -> hrel P u u' d d' (set_quasi q lx) (set_quasi q lx').
Proof. intros [A B C D E]. constructor; auto. Qed.
Lemma hrel_acc P u u' d d' lx lx' c c' : hrel P u u' d d' lx lx' -> crel u u' d d' c c' -> hrel P u u' d d' (set_acc c lx) (set_acc c' lx').
Proof. intros [A B C D E] H. constructor; auto. Qed.
Lemma erel_token P u u' d d' lx lx' t : t <> T_Accessor -> hrel P u u' d d' lx lx' -> erel P u u' d d' (set_token t lx) (set_token t lx').
Proof. intros N H. constructor; [now apply hrel_token|reflexivity|]. cbn. congruence. Qed.

(** ** Rules *)
Lemma loc_ext F G : (forall lx, F lx = G lx) -> loc G -> loc F.
Proof. intros E L lx lx1 H. rewrite E in H. destruct (L _ _ H) as [S K]. split; [exact S|]. intros P u u' d d' lx' Hh R Z C. destruct (K P u u' d d' lx' Hh R Z C) as (lx1' & E1 & R1). exists lx1'. rewrite E. auto. Qed.
Lemma loc_fail : loc (fun _ => Panicked).
Proof. intros lx lx1 E. discriminate. Qed.
Lemma loc_done t : t <> T_Accessor -> loc (fun lx => Done (set_token t lx)).
Proof.
  intros N lx lx1 E. injection E as <-. split; [cbn; lia|]. intros P u u' d d' lx' Hh R _ _. eexists. split; [reflexivity|]. now apply erel_token.
Qed.
Lemma loc_asi t a : t <> T_Accessor -> loc (fun lx => Done (set_token t (set_asi a lx))).
Proof.
  intros N lx lx1 E. injection E as <-. split; [cbn; lia|]. intros P u u' d d' lx' Hh R _ _. eexists. split; [reflexivity|]. apply erel_token, hrel_asi; auto.
Qed.
Lemma crel_bump u u' d d' c c' : crel u u' d d' c c' -> List.length u < List.length (rem c) -> crel u u' d d' (cur_bump c) (cur_bump c').
Proof.
  intros (t & E & E' & Q) L. rewrite E, app_length in L. destruct t as [|b t]; [cbn in L; lia|].
  exists t. unfold cur_bump. cbn [rem pos]. rewrite E, E'. cbn. split; [reflexivity|]. split; [reflexivity|lia].
Qed.
Lemma tl_length {A} (l : list A) : List.length (tl l) = List.length l - 1.
Proof. destruct l; cbn; lia. Qed.
Lemma loc_bump F : loc F -> loc (fun lx => F (bump lx)).
Proof.
  intros L lx lx1 E. destruct (L _ _ E) as [S K]. cbn in S. rewrite tl_length in S. split; [lia|].
  intros P u u' d d' lx' Hh R Z C. apply K; auto. apply hrel_cur; [exact R|]. apply crel_bump; [apply R|]. apply heads_len in Hh. lia.
Qed.
Lemma eats_bump b F : mono F -> eats b (fun lx => F (bump lx)).
Proof. intros M lx lx1 (r & Er) E. apply M in E. cbn in E. rewrite Er in *. cbn in *. lia. Qed.
Lemma eats_next {A} b (f : byte -> A) (K : A -> lexer -> outcome lexer) : (forall a, mono (K a)) -> eats b (fun lx => obind (next_byte lx) (fun p => match p with (b, lx1) => K (f b) lx1 end)).
Proof. intros M lx lx1 (r & Er) E. unfold next_byte in E. ob E as [b1 lx2] E1 E2. ob E1 as b2 E3 E4. injection E4 as -> <-. apply M in E2. cbn in E2. rewrite Er in *. cbn in *. lia. Qed.
Lemma eats_fail b : eats b (fun _ => Panicked).
Proof. intros lx lx1 _ E. discriminate. Qed.
(** Reading a byte: it is the same, or it is where the sources differ. *)
Lemma read_rel u u' d d' c c' b r : heads u u' -> crel u u' d d' c c' -> rem c = b :: r ->
  exists b' r', rem c' = b' :: r' /\ (b' = b \/ (rem c = u /\ rem c' = u' /\ stop b' /\ ~ looks u u')).
Proof.
  intros Hh (t & E & E' & Q) Er. destruct t as [|x t].
  - cbn in E, E'. destruct Hh as [H|(y & s & y' & s' & -> & -> & _ & S)].
    + destruct (looks_cons _ _ H) as (y & s & s' & -> & ->). rewrite E in Er. injection Er as -> ->. eauto.
    + exists y', s'. split; [exact E'|]. rewrite Er in E. injection E as <- <-. destruct (byte_eqb y' b) eqn:Eb; [left; now apply byte_eqb_eq|right].
      apply byte_eqb_neq in Eb. split; [exact Er|]. split; [exact E'|]. split; [exact S|]. intros [X _]. congruence.
  - rewrite Er in E. injection E as <- ->. exists b, (t ++ u'). split; [exact E'|left; reflexivity].
Qed.
Lemma loc_read {A} (f : byte -> A) (K : A -> lexer -> outcome lexer) : (forall b c, stop c -> f b = f c \/ eats b (K (f b))) -> (forall a, loc (K a)) ->
  loc (fun lx => obind (read_byte lx) (fun b => K (f b) lx)).
Proof.
  intros W L lx lx1 E. ob E as b E1 E2. destruct (L _ _ _ E2) as [S Kk]. split; [exact S|].
  intros P u u' d d' lx' Hh R Z C. unfold read_byte in *. destruct (rem (lx_cur lx)) as [|x r] eqn:Er; [discriminate|]. injection E1 as ->.
  destruct (read_rel _ _ _ _ _ _ _ _ Hh (hr_cur _ _ _ _ _ _ _ R) Er) as (b' & r' & Er' & X). rewrite Er'. cbn [obind].
  assert (Y : f b = f b').
  { destruct X as [->|(E3 & _ & St & _)]; [reflexivity|]. destruct (W b b' St) as [Y|Y]; [exact Y|]. exfalso. assert (X := Y lx lx1 ltac:(exists r; exact Er) E2). rewrite E3 in X. lia. }
  rewrite <- Y. now apply Kk.
Qed.
Lemma loc_next {A} (f : byte -> A) (K : A -> lexer -> outcome lexer) : (forall b c, stop c -> f b = f c \/ eats b (K (f b))) -> (forall a, loc (K a)) ->
  loc (fun lx => obind (next_byte lx) (fun p => match p with (b, lx1) => K (f b) lx1 end)).
Proof.
  intros W L. assert (B := loc_bump _ (loc_read f K W L)). eapply loc_ext; [|exact B]. intros lx. cbv beta. unfold next_byte. destruct (read_byte (bump lx)) as [b| | |]; reflexivity.
Qed.
(** Loops. *)
Lemma past u t (b : byte) r : b :: r = t ++ u -> List.length u <= List.length r -> exists t1, t = b :: t1 /\ r = t1 ++ u.
Proof. intros E L. destruct t as [|x t]; [cbn in E; subst u; cbn in L; lia|]. injection E as <- ->. eauto. Qed.
Lemma crel_at u u' d d' t p p' : p + d' = p' + d -> crel u u' d d' (Cur p (t ++ u)) (Cur p' (t ++ u')).
Proof. intros Q. exists t. auto. Qed.
Lemma scan_while_loc f r : forall p c, scan_while f p r = Done c ->
  List.length (rem c) <= List.length r /\
  forall u u' d d' t p', heads u u' -> r = t ++ u -> p + d' = p' + d -> List.length u <= List.length (rem c) -> halts f \/ looks u u' \/ List.length u < List.length (rem c) ->
  exists c', scan_while f p' (t ++ u') = Done c' /\ crel u u' d d' c c'.
Proof.
  induction r as [|b r IH]; intros p c E; cbn [scan_while] in E; [discriminate|].
  destruct (f b) eqn:Fb.
  - destruct (IH _ _ E) as [S0 K]. split; [cbn; lia|]. intros u u' d d' t p' Hh Er Q Z H.
    destruct (past _ _ _ _ Er) as (t1 & -> & ->); [lia|]. cbn [app scan_while]. rewrite Fb. apply (K u u' d d' t1 (S p')); auto. lia.
  - injection E as <-. split; [cbn; lia|]. intros u u' d d' t p' Hh Er Q Z H. cbn [rem] in *.
    assert (R := read_rel u u' d d' (Cur p (b :: r)) (Cur p' (t ++ u')) b r Hh ltac:(exists t; auto) eq_refl). destruct R as (b' & r' & E' & C). cbn [rem] in E', C.
    exists (Cur p' (t ++ u')). split; [|exists t; auto]. rewrite E'. cbn [scan_while].
    assert (f b' = false) as ->; [|reflexivity]. destruct C as [->|(E1 & E2 & St & N)]; [exact Fb|]. destruct H as [H|[H|H]]; [exact (H b' St)|contradiction|rewrite E1 in H; lia].
Qed.
Lemma loc_skip f F : halts f -> loc F -> loc (fun lx => obind (skip_while f lx) F).
Proof.
  intros W L lx lx1 E. ob E as lx2 E1 E2. unfold skip_while in E1. ob E1 as c E3 E4. injection E4 as <-. destruct (L _ _ E2) as [S K]. cbn in S.
  destruct (scan_while_loc f _ _ _ E3) as [S1 K1]. split; [lia|]. intros P u u' d d' lx' Hh R Z Ca.
  destruct (hr_cur _ _ _ _ _ _ _ R) as (t & Et & Et' & Q). destruct (K1 u u' d d' t (pos (lx_cur lx')) Hh Et Q ltac:(lia) ltac:(auto)) as (c' & E' & C).
  destruct (K P u u' d d' (set_cur c' lx') Hh (hrel_cur _ _ _ _ _ _ _ _ _ R C) Z Ca) as (lx1' & E1' & R1). exists lx1'. split; [|exact R1].
  unfold skip_while. rewrite Et', E'. exact E1'.
Qed.
Lemma eats_skip b f F : f b = true -> mono F -> eats b (fun lx => obind (skip_while f lx) F).
Proof.
  intros Fb M lx lx1 (r & Er) E. ob E as lx2 E1 E2. unfold skip_while in E1. ob E1 as c E3 E4. injection E4 as <-. apply M in E2. cbn in E2. rewrite Er in *. cbn [scan_while] in E3. rewrite Fb in E3.
  apply scan_while_rem in E3. cbn. lia.
Qed.
Lemma mono_skip f F : mono F -> mono (fun lx => obind (skip_while f lx) F).
Proof.
  intros M lx lx1 E. ob E as lx2 E1 E2. unfold skip_while in E1. ob E1 as c E3 E4. injection E4 as <-. apply M in E2. cbn in E2. apply scan_while_rem in E3. lia.
Qed.

Lemma loc_next_if f F G : halts f -> (forall b, f b = true -> eats b F) -> loc F -> loc G ->
  loc (fun lx => obind (next_byte lx) (fun p => match p with (b, lx1) => if f b : bool then F lx1 else G lx1 end)).
Proof.
  intros W EF LF LG. apply (loc_next f (fun (a : bool) lx1 => if a then F lx1 else G lx1)); [|intros [|]; assumption].
  intros b c S. rewrite (W c S). destruct (f b) eqn:Fb; auto.
Qed.
Lemma loc_read_if f F G : halts f -> (forall b, f b = true -> eats b F) -> loc F -> loc G ->
  loc (fun lx => obind (read_byte lx) (fun b => if f b : bool then F lx else G lx)).
Proof.
  intros W EF LF LG. apply (loc_read f (fun (a : bool) lx1 => if a then F lx1 else G lx1)); [|intros [|]; assumption].
  intros b c S. rewrite (W c S). destruct (f b) eqn:Fb; auto.
Qed.
Lemma loc_next_if2 f g F G H : halts f -> halts g -> (forall b, f b = true -> eats b F) -> (forall b, g b = true -> eats b G) -> loc F -> loc G -> loc H ->
  loc (fun lx => obind (next_byte lx) (fun p => match p with (b, lx1) => if f b : bool then F lx1 else if g b : bool then G lx1 else H lx1 end)).
Proof.
  intros Wf Wg EF EG LF LG LH. refine (loc_next (fun b => (f b, g b)) (fun a lx1 => if fst a then F lx1 else if snd a then G lx1 else H lx1) _ _).
  - intros b c S. rewrite (Wf c S), (Wg c S). destruct (f b) eqn:Fb; [right; now apply EF|]. destruct (g b) eqn:Gb; [right; now apply EG|]. left; reflexivity.
  - intros [[|] [|]]; assumption.
Qed.
Lemma loc_next_if3 f g h F G H I : halts f -> halts g -> halts h -> (forall b, f b = true -> eats b F) -> (forall b, g b = true -> eats b G) -> (forall b, h b = true -> eats b H) ->
  loc F -> loc G -> loc H -> loc I ->
  loc (fun lx => obind (next_byte lx) (fun p => match p with (b, lx1) => if f b : bool then F lx1 else if g b : bool then G lx1 else if h b : bool then H lx1 else I lx1 end)).
Proof.
  intros Wf Wg Wh EF EG EH LF LG LH LI. refine (loc_next (fun b => (f b, g b, h b)) (fun a lx1 => if fst (fst a) then F lx1 else if snd (fst a) then G lx1 else if snd a then H lx1 else I lx1) _ _).
  - intros b c S. rewrite (Wf c S), (Wg c S), (Wh c S). destruct (f b) eqn:Fb; [right; now apply EF|]. destruct (g b) eqn:Gb; [right; now apply EG|]. destruct (h b) eqn:Hb; [right; now apply EH|]. left; reflexivity.
  - intros [[[|] [|]] [|]]; assumption.
Qed.
Lemma loc_read_if2 f g F G H : halts f -> halts g -> (forall b, f b = true -> eats b F) -> (forall b, g b = true -> eats b G) -> loc F -> loc G -> loc H ->
  loc (fun lx => obind (read_byte lx) (fun b => if f b : bool then F lx else if g b : bool then G lx else H lx)).
Proof.
  intros Wf Wg EF EG LF LG LH. refine (loc_read (fun b => (f b, g b)) (fun a lx1 => if fst a then F lx1 else if snd a then G lx1 else H lx1) _ _).
  - intros b c S. rewrite (Wf c S), (Wg c S). destruct (f b) eqn:Fb; [right; now apply EF|]. destruct (g b) eqn:Gb; [right; now apply EG|]. left; reflexivity.
  - intros [[|] [|]]; assumption.
Qed.
(** Branches that take a byte. *)
Lemma eats_tok b t : eats b (fun lx => Done (set_token t (bump lx))).
Proof. apply (eats_bump b (fun lx => Done (set_token t lx))). intros lx lx1 E. injection E as <-. cbn. lia. Qed.
Lemma mono_done t : mono (fun lx => Done (set_token t lx)).
Proof. intros lx lx1 E. injection E as <-. cbn. lia. Qed.
Lemma eats_if b f F G : mono F -> mono G -> eats b (fun lx => obind (next_byte lx) (fun p => match p with (b, lx1) => if f b : bool then F lx1 else G lx1 end)).
Proof. intros MF MG. apply (eats_next b f (fun (a : bool) lx1 => if a then F lx1 else G lx1)). intros [|]; assumption. Qed.
Lemma eats_if2 b f g F G H : mono F -> mono G -> mono H -> eats b (fun lx => obind (next_byte lx) (fun p => match p with (b, lx1) => if f b : bool then F lx1 else if g b : bool then G lx1 else H lx1 end)).
Proof. intros MF MG MH. apply (eats_next b (fun b => (f b, g b)) (fun a lx1 => if fst a then F lx1 else if snd a then G lx1 else H lx1)). intros [[|] [|]]; assumption. Qed.
Lemma mono_eats F : (forall b, eats b F) -> (forall lx, rem (lx_cur lx) = [] -> forall lx1, F lx <> Done lx1) -> mono F.
Proof. intros H N lx lx1 E. destruct (rem (lx_cur lx)) as [|b r] eqn:Er; [now apply N in E|]. assert (X := H b lx lx1 ltac:(exists r; exact Er) E). rewrite Er in X. cbn in *. lia. Qed.
Ltac ends := first [ apply loc_done; discriminate | apply (loc_bump (fun lx => Done (set_token _ lx))); apply loc_done; discriminate ].
Ltac monos := first [apply mono_done | apply loc_mono; ends].
Ltac eat := intros ?b _; first [ apply eats_tok | apply eats_if; monos ].
(** ** Handlers *)
Lemma loc_single t : t <> T_Accessor -> loc (h_single t).
Proof. intros N. apply (loc_bump (fun lx => Done (set_token t lx))). now apply loc_done. Qed.
Lemma loc_SEM : loc h_SEM.
Proof. apply (loc_bump (fun lx => Done (set_token T_Semicolon (set_asi ExplicitSemicolon lx)))). apply loc_asi. discriminate. Qed.
Lemma loc_closing t : t <> T_Accessor -> loc (h_closing t).
Proof. intros N. apply (loc_bump (fun lx => Done (set_token t (set_asi ImplicitSemicolon lx)))). now apply loc_asi. Qed.
Lemma loc_EOF : loc h_EOF.
Proof. apply loc_asi. discriminate. Qed.
Lemma loc_EQL : loc h_EQL.
Proof.
  unfold h_EQL. apply (loc_next_if2 (fun b => byte_eqb b "=") (fun b => byte_eqb b ">")); [halt|halt|eat|eat| |ends|ends].
  apply (loc_next_if (fun b => byte_eqb b "=")); [halt|eat|ends|ends].
Qed.
Lemma loc_EXL : loc h_EXL.
Proof.
  unfold h_EXL. apply (loc_next_if (fun b => byte_eqb b "=")); [halt|eat| |ends].
  apply (loc_next_if (fun b => byte_eqb b "=")); [halt|eat|ends|ends].
Qed.
Lemma loc_LSS : loc h_LSS.
Proof.
  unfold h_LSS. apply (loc_next_if2 (fun b => byte_eqb b "<") (fun b => byte_eqb b "=")); [halt|halt|eat|eat| |ends|ends].
  apply (loc_next_if (fun b => byte_eqb b "=")); [halt|eat|ends|ends].
Qed.
Lemma loc_MOR : loc h_MOR.
Proof.
  assert (L : loc (fun lx => obind (next_byte lx) (fun p => match p with (b3, lx3) => if byte_eqb b3 "=" then Done (set_token T_OperatorUBSRAssign (bump lx3)) else Done (set_token T_OperatorUBitShiftRight lx3) end))).
  { apply (loc_next_if (fun b => byte_eqb b "=")); [halt|eat|ends|ends]. }
  unfold h_MOR. apply (loc_next_if2 (fun b => byte_eqb b ">") (fun b => byte_eqb b "=")); [halt|halt| |eat| |ends|ends].
  - intros b _. apply eats_if2; [exact (loc_mono _ L)|monos|monos].
  - apply (loc_next_if2 (fun b => byte_eqb b ">") (fun b => byte_eqb b "=")); [halt|halt|eat|eat|exact L|ends|ends].
Qed.
Lemma loc_op_assign t1 t2 : t1 <> T_Accessor -> t2 <> T_Accessor -> loc (h_op_assign t1 t2).
Proof.
  intros N1 N2. unfold h_op_assign. apply (loc_next_if (fun b => byte_eqb b "=")); [halt|eat| |now apply loc_done].
  apply (loc_bump (fun lx => Done (set_token _ lx))). now apply loc_done.
Qed.
Lemma loc_op_double c t1 t2 t3 : halts (fun b => byte_eqb b c) -> t1 <> T_Accessor -> t2 <> T_Accessor -> t3 <> T_Accessor -> loc (h_op_double c t1 t2 t3).
Proof.
  intros W N1 N2 N3. unfold h_op_double. apply (loc_next_if2 (fun b => byte_eqb b c) (fun b => byte_eqb b "=")); [exact W|halt|eat|eat| | |now apply loc_done];
    apply (loc_bump (fun lx => Done (set_token _ lx))); now apply loc_done.
Qed.
Lemma loc_ATR : loc h_ATR.
Proof.
  unfold h_ATR. apply (loc_next_if2 (fun b => byte_eqb b "*") (fun b => byte_eqb b "=")); [halt|halt|eat|eat| |ends|ends].
  apply (loc_next_if (fun b => byte_eqb b "=")); [halt|eat|ends|ends].
Qed.
Lemma halt_digit : halts is_digit. Proof. halt. Qed.
Lemma halt_label : halts legal_in_label. Proof. halt. Qed.
Lemma loc_scientific : loc read_scientific.
Proof.
  assert (L : loc (fun lx => obind (skip_while is_digit lx) (fun lx2 => Done (set_token T_LiteralNumber lx2)))) by (apply loc_skip; [exact halt_digit|ends]).
  unfold read_scientific. eapply loc_ext; [|apply (loc_read_if (fun b => (byte_eqb b "-" || byte_eqb b "+")%bool)
     (fun lx => obind (skip_while is_digit (bump lx)) (fun lx2 => Done (set_token T_LiteralNumber lx2)))
     (fun lx => obind (skip_while is_digit lx) (fun lx2 => Done (set_token T_LiteralNumber lx2)))); [halt| | |exact L]].
  - intros lx. cbv beta zeta. destruct (read_byte lx) as [b| | |]; [|reflexivity..]. cbn [obind]. destruct (byte_eqb b "-" || byte_eqb b "+")%bool; reflexivity.
  - intros b _. apply (eats_bump b (fun lx => obind (skip_while is_digit lx) (fun lx2 => Done (set_token T_LiteralNumber lx2)))), loc_mono, L.
  - apply (loc_bump (fun lx => obind (skip_while is_digit lx) (fun lx2 => Done (set_token T_LiteralNumber lx2)))), L.
Qed.
Lemma loc_float : loc read_float.
Proof.
  unfold read_float. apply (loc_skip is_digit); [exact halt_digit|]. apply (loc_read_if (fun b => (byte_eqb b "e" || byte_eqb b "E")%bool)); [halt| | |ends].
  - intros b _. apply (eats_bump b read_scientific), loc_mono, loc_scientific.
  - apply (loc_bump read_scientific), loc_scientific.
Qed.
Lemma loc_decimal : loc read_decimal.
Proof.
  unfold read_decimal. apply (loc_skip is_digit); [exact halt_digit|].
  apply (loc_read_if2 (fun b => byte_eqb b ".") (fun b => (byte_eqb b "e" || byte_eqb b "E")%bool)); [halt|halt| | | | |ends].
  - intros b _. apply (eats_bump b read_float), loc_mono, loc_float.
  - intros b _. apply (eats_bump b read_scientific), loc_mono, loc_scientific.
  - apply (loc_bump read_float), loc_float.
  - apply (loc_bump read_scientific), loc_scientific.
Qed.
Lemma loc_radix f t : halts f -> t <> T_Accessor -> loc (read_radix f t).
Proof. intros W N. unfold read_radix. apply loc_skip; [exact W|now apply loc_done]. Qed.
Lemma loc_ZER : loc h_ZER.
Proof.
  unfold h_ZER. apply (loc_next_if3 (fun b => (byte_eqb b "b" || byte_eqb b "B")%bool) (fun b => (byte_eqb b "o" || byte_eqb b "O")%bool) (fun b => (byte_eqb b "x" || byte_eqb b "X")%bool));
    [halt|halt|halt| | | | | | |exact loc_decimal].
  1-3: intros b _; apply (eats_bump b (read_radix _ _)), loc_mono, loc_radix; [halt|discriminate].
  all: apply (loc_bump (read_radix _ _)), loc_radix; [halt|discriminate].
Qed.
Lemma loc_DIG : loc h_DIG.
Proof. apply (loc_bump read_decimal), loc_decimal. Qed.
Lemma loc_IDT : loc h_IDT.
Proof. unfold h_IDT. apply (loc_bump (fun lx => obind (read_label lx) (fun lx1 => Done (set_token T_Identifier lx1)))). apply loc_skip; [exact halt_label|ends]. Qed.
(** [accessor]: the cursor of the name is noted. *)
Lemma loc_name : loc (fun lx => obind (read_label (set_acc (lx_cur lx) lx)) (fun lx3 => Done (set_token T_Accessor lx3))).
Proof.
  intros lx lx1 E. ob E as lx3 E1 E2. injection E2 as <-. unfold read_label, skip_while in E1. ob E1 as c E3 E4. injection E4 as <-. cbn [set_acc lx_cur] in E3.
  destruct (scan_while_loc _ _ _ _ E3) as [S1 K1]. split; [exact S1|]. intros P u u' d d' lx' Hh R Z _. cbn in Z.
  destruct (hr_cur _ _ _ _ _ _ _ R) as (t & Et & Et' & Q). destruct (K1 u u' d d' t (pos (lx_cur lx')) Hh Et Q Z (or_introl halt_label)) as (c' & E' & C).
  exists (set_token T_Accessor (set_cur c' (set_acc (lx_cur lx') lx'))). split.
  - unfold read_label, skip_while. cbn [set_acc lx_cur]. rewrite Et', E'. reflexivity.
  - constructor; [|reflexivity|intros _; exact (hr_cur _ _ _ _ _ _ _ R)]. apply hrel_token, hrel_cur; [|exact C]. apply hrel_acc; [exact R|exact (hr_cur _ _ _ _ _ _ _ R)].
Qed.
Lemma loc_no_name : loc (fun lx => Done (set_token T_UnexpectedToken (set_acc (lx_cur lx) lx))).
Proof.
  intros lx lx1 E. injection E as <-. split; [cbn; lia|]. intros P u u' d d' lx' Hh R _ _. eexists. split; [reflexivity|]. apply erel_token; [discriminate|].
  apply hrel_acc; [exact R|exact (hr_cur _ _ _ _ _ _ _ R)].
Qed.
Lemma accessor_legal b : nth (byte_index b) ACCESSOR_TABLE false = true -> legal_in_label b = true.
Proof. destruct b; intros E; vm_compute in E; try discriminate E; reflexivity. Qed.
Lemma loc_after_dot : loc (fun lx => obind (read_byte lx) (fun b => if (127 <? byte_val b)%N then Panicked else if nth (byte_index b) ACCESSOR_TABLE false
   then obind (read_label (set_acc (lx_cur lx) lx)) (fun lx3 => Done (set_token T_Accessor lx3)) else Done (set_token T_UnexpectedToken (set_acc (lx_cur lx) lx)))).
Proof.
  apply (loc_read_if2 (fun b => (127 <? byte_val b)%N) (fun b => nth (byte_index b) ACCESSOR_TABLE false) (fun _ => Panicked)
    (fun lx => obind (read_label (set_acc (lx_cur lx) lx)) (fun lx3 => Done (set_token T_Accessor lx3)))
    (fun lx => Done (set_token T_UnexpectedToken (set_acc (lx_cur lx) lx)))); [halt|halt| | |exact loc_fail|exact loc_name|exact loc_no_name].
  - intros b _. apply eats_fail.
  - intros b Hb lx lx1 (r & Er) E. apply accessor_legal in Hb.
    assert (X := eats_skip b legal_in_label (fun lx3 => Done (set_token T_Accessor lx3)) Hb ltac:(monos) (set_acc (lx_cur lx) lx) lx1 ltac:(exists r; exact Er) E). exact X.
Qed.
Lemma loc_accessor : loc read_accessor.
Proof.
  intros lx lx1 E. unfold read_accessor in E. ob E as lx2 E1 E2. cbv zeta in E2. unfold skip_while in E1. ob E1 as c E3 E4. injection E4 as <-. destruct (loc_after_dot (set_cur c lx) lx1 E2) as [S K]. cbn in S.
  destruct (scan_while_loc _ _ _ _ E3) as [S1 K1]. split; [lia|]. intros P u u' d d' lx' Hh R Z Ca.
  destruct (hr_cur _ _ _ _ _ _ _ R) as (t & Et & Et' & Q).
  assert (Y : looks u u' \/ List.length u < List.length (rem c)).
  { destruct (Nat.eq_dec (List.length u) (List.length (rem c))) as [Eu|]; [|right; lia]. left.
    assert (Eu2 : List.length u = size lx1) by lia. destruct (Ca Eu2) as [Y|(N & _)]; [exact Y|]. exfalso.
    unfold read_byte in E2. cbn [set_acc set_cur lx_cur] in E2. destruct (rem c) as [|b r] eqn:Er; [discriminate|]. cbn [obind] in E2. destruct (127 <? byte_val b)%N; [discriminate|].
    destruct (nth (byte_index b) ACCESSOR_TABLE false) eqn:Ea.
    - apply accessor_legal in Ea. assert (X := eats_skip b legal_in_label (fun lx3 => Done (set_token T_Accessor lx3)) Ea ltac:(monos) (set_acc c (set_cur c lx)) lx1 ltac:(exists r; exact Er) E2). cbn in X. rewrite Er in X. cbn in X. cbn in Eu. lia.
    - injection E2 as <-. apply N. reflexivity. }
  destruct (K1 u u' d d' t (pos (lx_cur lx')) Hh Et Q ltac:(lia) (or_intror Y)) as (c' & E' & C).
  destruct (K P u u' d d' (set_cur c' lx') Hh (hrel_cur _ _ _ _ _ _ _ _ _ R C) Z Ca) as (lx1' & E1' & R1). exists lx1'. split; [|exact R1].
  unfold read_accessor, skip_while. rewrite Et', E'. exact E1'.
Qed.
Lemma loc_PRD : loc h_PRD.
Proof.
  unfold h_PRD. apply (loc_next_if2 is_digit (fun b => byte_eqb b ".")); [exact halt_digit|halt| |eat| | |exact loc_accessor].
  - intros b _. apply (eats_bump b read_float), loc_mono, loc_float.
  - apply (loc_bump read_float), loc_float.
  - apply (loc_next_if (fun b => byte_eqb b ".")); [halt|eat|ends|ends].
Qed.
