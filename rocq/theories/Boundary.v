(** Token boundaries are character boundaries. *)
From Coq Require Import List NArith Bool Lia Arith String.
From Coq.Strings Require Import Byte.
From Verif Require Import Bytes Token Tables Lexer SpecLexer SpecTokens SpecUtf8 LexerFacts ConsumeFacts LexEval TokenText.
Import ListNotations.
Open Scope nat_scope.
Open Scope list_scope.

Definition ascii (b : byte) : bool := byte_in x00 x7f b.
(** No continuation byte after an ASCII byte. *)
Fixpoint asc (r : str) : Prop :=
  match r with
  | x :: r' => (ascii x = true -> match r' with y :: _ => is_continuation y = false | [] => True end) /\ asc r'
  | [] => True
  end.
Definition start (r : str) : Prop := match r with y :: _ => is_continuation y = false | [] => True end.
Definition bd (r : str) : Prop := start r /\ asc r.
Lemma asc_app s r : asc (s ++ r) -> asc r.
Proof. induction s as [|x s IH]; [auto|]. intros [_ H]. auto. Qed.
Lemma bd_cons x r : asc (x :: r) -> ascii x = true -> bd r.
Proof. intros [H1 H2] A. exact (conj (H1 A) H2). Qed.
Lemma bd_ascii x r : asc (x :: r) -> ascii x = true -> bd (x :: r).
Proof. intros H A. split; [|exact H]. clear - A. destruct x; vm_compute in A |- *; congruence. Qed.
Lemma bd_asc r : bd r -> asc r.
Proof. now intros []. Qed.
Lemma asc_fwd c c' : fwd c c' -> asc (rem c) -> asc (rem c').
Proof. intros [s [E _]] H. rewrite E in H. now apply asc_app in H. Qed.
Lemma not_label_ascii b : legal_in_label b = false -> ascii b = true.
Proof. destruct b; vm_compute; congruence. Qed.

Definition Bd (lx : lexer) : Prop := bd (rem (lx_cur lx)).
Definition As (lx : lexer) : Prop := asc (rem (lx_cur lx)).
Definition Hd (lx : lexer) : Prop := exists b r, rem (lx_cur lx) = b :: r /\ ascii b = true /\ asc (b :: r).
Lemma Hd_As lx : Hd lx -> As lx.
Proof. intros (b & r & E & _ & A). unfold As. now rewrite E. Qed.
Lemma Hd_Bd lx : Hd lx -> Bd lx.
Proof. intros (b & r & E & A & S). unfold Bd. rewrite E. now apply bd_ascii. Qed.
Lemma Bd_As lx : Bd lx -> As lx.
Proof. now intros []. Qed.
Lemma head_Hd lx b : As lx -> head lx b -> ascii b = true -> Hd lx.
Proof. intros A [r E] Hb. exists b, r. unfold As in A. rewrite E in A. auto. Qed.
Lemma bump_Bd lx : Hd lx -> Bd (bump lx).
Proof. intros (b & r & E & A & S). unfold Bd, bump. destruct lx as [buf t a [p r0] tok acc q]. cbn in *. subst. cbn. eapply bd_cons; eauto. Qed.
Lemma bump_As lx : As lx -> As (bump lx).
Proof. unfold As, bump. destruct lx as [buf t a [p r0] tok acc q]. cbn. destruct r0; cbn; tauto. Qed.
Lemma next_Bd lx b lx' : Hd lx -> next_byte lx = Done (b, lx') -> Bd lx' /\ head lx' b.
Proof.
  unfold next_byte. intros A N. ob N as x E1 E2. injection E2 as <- <-. split; [now apply bump_Bd|now apply read_byte_head].
Qed.
Lemma next_As lx b lx' : As lx -> next_byte lx = Done (b, lx') -> As lx' /\ head lx' b.
Proof.
  unfold next_byte. intros A N. ob N as x E1 E2. injection E2 as <- <-. split; [now apply bump_As|now apply read_byte_head].
Qed.
Lemma skip_As f lx lx' : As lx -> skip_while f lx = Done lx' -> As lx' /\ exists b, head lx' b /\ f b = false.
Proof.
  unfold skip_while. intros A S. ob S as c E1 E2. injection E2 as <-.
  apply scan_while_spec in E1 as (s & b & r' & E & -> & _ & Fb). split.
  - unfold As in *. cbn [set_cur lx_cur rem]. rewrite E in A. now apply asc_app in A.
  - exists b. split; [exists r'; reflexivity|exact Fb].
Qed.
Lemma skip_Bd f lx lx' : (forall b, f b = true -> ascii b = true) -> Bd lx -> skip_while f lx = Done lx' -> Bd lx'.
Proof.
  unfold skip_while. intros Hf A S. ob S as c E1 E2. injection E2 as <-.
  apply scan_while_spec in E1 as (s & b & r' & E & -> & F & Fb). unfold Bd in *. cbn [set_cur lx_cur rem].
  rewrite E in A. clear E. revert A. induction s as [|x s IH]; [auto|]. cbn [forallb] in F. apply andb_true_iff in F as [F1 F2].
  intros [_ A]. apply IH; [exact F2|]. eapply bd_cons; [exact A|auto].
Qed.
Lemma label_Bd lx lx' : As lx -> read_label lx = Done lx' -> Bd lx'.
Proof.
  intros A R. destruct (skip_As _ _ _ A R) as (A' & b & Hb & F). apply Hd_Bd. eapply head_Hd; eauto. now apply not_label_ascii.
Qed.
Lemma set_token_Bd t lx : Bd lx -> Bd (set_token t lx).
Proof. auto. Qed.

(** ** Handlers *)
Ltac asciis := first [reflexivity | assumption | solve [match goal with E : byte_eqb ?b _ = true |- ascii ?b = true => apply byte_eqb_eq in E; subst; reflexivity end]
  | solve [match goal with E : (byte_eqb ?b _ || byte_eqb ?b _)%bool = true |- ascii ?b = true => apply orb_true_iff in E as [E|E]; apply byte_eqb_eq in E; subst; reflexivity end] ].
Ltac hd := match goal with
  | |- Hd ?l => assumption
  | B : Bd ?l, K : head ?l ?b |- Hd ?l => apply (head_Hd l b (Bd_As l B) K); asciis
  end.
Ltac bds := match goal with
  | |- Bd ?l => assumption
  | |- Bd (set_token _ ?l) => change (Bd l); bds
  | |- Bd (set_asi _ ?l) => change (Bd l); bds
  | |- Bd (set_acc _ ?l) => change (Bd l); bds
  | |- Bd (bump ?l) => apply bump_Bd; hd
  end.
Ltac nexts := repeat match goal with
  | N : next_byte ?l = Done ?p |- _ => let b := fresh "b" in let l1 := fresh "l" in
      destruct p as [b l1]; apply next_Bd in N; [destruct N|hd]; cbn beta iota zeta in *
  | K : (if ?c then _ else _) = Done _ |- _ => destruct c eqn:?
  | K : obind _ _ = Done _ |- _ => odone K; cbn beta iota zeta in *
  | K : Done _ = Done _ |- _ => injection K as K; subst
  end.
Ltac simple_handler := intros A K; nexts; try discriminate; try bds.

Lemma single_bd t lx lx' : Hd lx -> h_single t lx = Done lx' -> Bd lx'.
Proof. unfold h_single. simple_handler. Qed.
Lemma SEM_bd lx lx' : Hd lx -> h_SEM lx = Done lx' -> Bd lx'.
Proof. unfold h_SEM. simple_handler. Qed.
Lemma closing_bd t lx lx' : Hd lx -> h_closing t lx = Done lx' -> Bd lx'.
Proof. unfold h_closing. simple_handler. Qed.
Lemma EOF_bd lx lx' : Hd lx -> h_EOF lx = Done lx' -> Bd lx'.
Proof. unfold h_EOF. intros A K. injection K as <-. now apply Hd_Bd in A. Qed.
Lemma EQL_bd lx lx' : Hd lx -> h_EQL lx = Done lx' -> Bd lx'.
Proof. unfold h_EQL. simple_handler. Qed.
Lemma EXL_bd lx lx' : Hd lx -> h_EXL lx = Done lx' -> Bd lx'.
Proof. unfold h_EXL. simple_handler. Qed.
Lemma LSS_bd lx lx' : Hd lx -> h_LSS lx = Done lx' -> Bd lx'.
Proof. unfold h_LSS. simple_handler. Qed.
Lemma MOR_bd lx lx' : Hd lx -> h_MOR lx = Done lx' -> Bd lx'.
Proof. unfold h_MOR. simple_handler. Qed.
Lemma op_assign_bd t1 t2 lx lx' : Hd lx -> h_op_assign t1 t2 lx = Done lx' -> Bd lx'.
Proof. unfold h_op_assign. simple_handler. Qed.
Lemma op_double_bd c t1 t2 t3 lx lx' : ascii c = true -> Hd lx -> h_op_double c t1 t2 t3 lx = Done lx' -> Bd lx'.
Proof. unfold h_op_double. intros Ac. intros A K. nexts; try bds. apply byte_eqb_eq in Heqb0. subst. bds. Qed.
Lemma ATR_bd lx lx' : Hd lx -> h_ATR lx = Done lx' -> Bd lx'.
Proof. unfold h_ATR. simple_handler. Qed.
Lemma digit_ascii b : is_digit b = true -> ascii b = true.
Proof. destruct b; vm_compute; congruence. Qed.
Lemma read_head_bd lx b : Bd lx -> read_byte lx = Done b -> ascii b = true -> Bd (bump lx).
Proof. intros B R A. apply bump_Bd. eapply head_Hd; [now apply Bd_As|apply read_byte_head; eassumption|exact A]. Qed.
Lemma scientific_bd lx lx' : Bd lx -> read_scientific lx = Done lx' -> Bd lx'.
Proof.
  unfold read_scientific. intros B K. ob K as b R K1. ob K1 as lx2 S K2. injection K2 as <-. apply set_token_Bd.
  eapply skip_Bd; [exact digit_ascii| |exact S]. destruct (byte_eqb b "-" || byte_eqb b "+")%bool eqn:E; [|exact B].
  eapply read_head_bd; eauto. asciis.
Qed.
Lemma float_bd lx lx' : Bd lx -> read_float lx = Done lx' -> Bd lx'.
Proof.
  unfold read_float. intros B K. ob K as lx1 S K1. apply skip_Bd in S; [|exact digit_ascii|exact B]. ob K1 as b R K2.
  destruct (byte_eqb b "e" || byte_eqb b "E")%bool eqn:E; [|injection K2 as <-; exact S].
  eapply scientific_bd; [|exact K2]. eapply read_head_bd; eauto. asciis.
Qed.
Lemma decimal_bd lx lx' : Bd lx -> read_decimal lx = Done lx' -> Bd lx'.
Proof.
  unfold read_decimal. intros B K. ob K as lx1 S K1. apply skip_Bd in S; [|exact digit_ascii|exact B]. ob K1 as b R K2.
  destruct (byte_eqb b ".") eqn:E0; [|destruct (byte_eqb b "e" || byte_eqb b "E")%bool eqn:E; [|injection K2 as <-; exact S]].
  - eapply float_bd; [|exact K2]. eapply read_head_bd; eauto. asciis.
  - eapply scientific_bd; [|exact K2]. eapply read_head_bd; eauto. asciis.
Qed.
Lemma DIG_bd lx lx' : Hd lx -> h_DIG lx = Done lx' -> Bd lx'.
Proof. unfold h_DIG. intros A. apply decimal_bd. now apply bump_Bd. Qed.
Lemma radix_bd f t lx lx' : (forall b, f b = true -> ascii b = true) -> Bd lx -> read_radix f t lx = Done lx' -> Bd lx'.
Proof. unfold read_radix. intros F B K. ob K as lx1 S K1. injection K1 as <-. apply set_token_Bd. eapply skip_Bd; eauto. Qed.
Lemma ZER_bd lx lx' : Hd lx -> h_ZER lx = Done lx' -> Bd lx'.
Proof.
  unfold h_ZER. intros A K. ob K as [b lx1] N K1. apply next_Bd in N as [B Hb]; [|exact A].
  destruct (byte_eqb b "b" || byte_eqb b "B")%bool eqn:E1.
  { refine (radix_bd _ _ _ _ _ _ K1); [|bds]. intros x. destruct x; vm_compute; congruence. }
  destruct (byte_eqb b "o" || byte_eqb b "O")%bool eqn:E2.
  { refine (radix_bd _ _ _ _ _ _ K1); [|bds]. intros x. destruct x; vm_compute; congruence. }
  destruct (byte_eqb b "x" || byte_eqb b "X")%bool eqn:E3.
  { refine (radix_bd _ _ _ _ _ _ K1); [|bds]. intros x. destruct x; vm_compute; congruence. }
  eapply decimal_bd; eauto.
Qed.
Lemma accessor_bd lx lx' : Bd lx -> read_accessor lx = Done lx' -> Bd lx'.
Proof.
  unfold read_accessor. intros B K. ob K as lx1 S K1. apply skip_Bd in S; [|intros x; destruct x; vm_compute; congruence|exact B].
  cbv zeta in K1. ob K1 as b R K2. destruct (127 <? byte_val b)%N; [discriminate K2|].
  destruct (nth _ _ _); [|injection K2 as <-; exact S]. ob K2 as lx3 L K3. injection K3 as <-.
  apply set_token_Bd. eapply label_Bd; [|exact L]. apply Bd_As. exact S.
Qed.
Lemma PRD_bd lx lx' : Hd lx -> h_PRD lx = Done lx' -> Bd lx'.
Proof.
  unfold h_PRD. intros A K. ob K as [b lx1] N K1. apply next_Bd in N as [B Hb]; [|exact A].
  destruct (is_digit b) eqn:E1; [eapply float_bd; [|exact K1]; apply bump_Bd; eapply head_Hd; [now apply Bd_As|exact Hb|now apply digit_ascii]|].
  destruct (byte_eqb b ".") eqn:E2; [|eapply accessor_bd; eauto].
  ob K1 as [b2 lx2] N2 K2. apply next_Bd in N2 as [B2 Hb2]; [|hd]. destruct (byte_eqb b2 ".") eqn:E3; injection K2 as <-; bds.
Qed.
Lemma scan_string_bd q r : ascii q = true -> forall p k c, asc r -> scan_string q p r = Done (k, c) -> bd (rem c).
Proof.
  intros Aq. induction r as [r IH] using length_ind. destruct r as [|b r]; cbn [scan_string]; intros p k c A K; [discriminate|].
  destruct (byte_eqb b q) eqn:E1. { injection K as <- <-. apply byte_eqb_eq in E1. subst. eapply bd_cons; eauto. }
  destruct (byte_eqb b "\") eqn:E2.
  - destruct r as [|x r]; [discriminate|]. destruct (byte_eqb x x00) eqn:E3.
    + injection K as <- <-. apply byte_eqb_eq in E3. subst. apply bd_ascii; [apply A|reflexivity].
    + eapply IH; [| |exact K]; [cbn; lia|apply A].
  - destruct (byte_eqb b x00) eqn:E3.
    + injection K as <- <-. apply byte_eqb_eq in E3. subst. apply bd_ascii; [apply A|reflexivity].
    + eapply IH; [| |exact K]; [cbn; lia|apply A].
Qed.
Lemma QOT_bd lx lx' : Hd lx -> h_QOT lx = Done lx' -> Bd lx'.
Proof.
  unfold h_QOT. intros A K. ob K as b R K1. cbv zeta in K1. ob K1 as [k c] S K2. injection K2 as <-.
  unfold Bd. cbn [set_token set_cur lx_cur]. eapply scan_string_bd; [| |exact S].
  - destruct A as (b' & r & E & Ab & _). unfold read_byte in R. rewrite E in R. injection R as <-. exact Ab.
  - apply Bd_As. now apply bump_Bd.
Qed.
Lemma scan_template_bd r : forall p k e c, asc r -> scan_template p r = Done (k, e, c) -> bd (rem c).
Proof.
  induction r as [r IH] using length_ind. destruct r as [|b r]; cbn [scan_template]; intros p k e c A K; [discriminate|].
  destruct (byte_eqb b "`") eqn:E1. { injection K as <- <- <-. apply byte_eqb_eq in E1. subst. eapply bd_cons; [exact A|reflexivity]. }
  destruct (byte_eqb b "$") eqn:E2.
  - destruct r as [|x r]; [discriminate|]. destruct (byte_eqb x "{") eqn:E3.
    + injection K as <- <- <-. apply byte_eqb_eq in E3. subst. cbn [rem]. eapply bd_cons; [apply A|reflexivity].
    + eapply IH; [| |exact K]; [cbn; lia|apply A].
  - destruct (byte_eqb b "\") eqn:E3.
    + destruct r as [|x r]; [discriminate|]. destruct (byte_eqb x x00) eqn:E4.
      * injection K as <- <- <-. apply byte_eqb_eq in E4. subst. apply bd_ascii; [apply A|reflexivity].
      * eapply IH; [| |exact K]; [cbn; lia|apply A].
    + eapply IH; [| |exact K]; [cbn; lia|apply A].
Qed.
Lemma template_bd lx lx' : As lx -> read_template_kind lx = Done lx' -> Bd lx'.
Proof.
  unfold read_template_kind. intros A K. cbv zeta in K. ob K as [[k e] c] S K1. apply scan_template_bd in S; [|exact A].
  destruct k; injection K1 as <-; exact S.
Qed.
Lemma scan_regex_bd r : forall i p k c, asc r -> scan_regex i p r = Done (k, c) -> bd (rem c).
Proof.
  induction r as [r IH] using length_ind. destruct r as [|b r]; cbn [scan_regex]; intros i p k c A K; [discriminate|].
  destruct (byte_eqb b "["). { eapply IH; [| |exact K]; [cbn; lia|apply A]. }
  destruct (byte_eqb b "]"). { eapply IH; [| |exact K]; [cbn; lia|apply A]. }
  destruct (byte_eqb b "/") eqn:E1.
  { destruct i; [eapply IH; [| |exact K]; [cbn; lia|apply A]|]. injection K as <- <-. apply byte_eqb_eq in E1. subst. eapply bd_cons; [exact A|reflexivity]. }
  destruct (byte_eqb b "\") eqn:E3.
  { destruct r as [|x r]; [discriminate|]. destruct (byte_eqb x x00) eqn:E4.
    - injection K as <- <-. apply byte_eqb_eq in E4. subst. apply bd_ascii; [apply A|reflexivity].
    - eapply IH; [| |exact K]; [cbn; lia|apply A]. }
  destruct (byte_eqb b x0a) eqn:E5; [|eapply IH; [| |exact K]; [cbn; lia|apply A]].
  injection K as <- <-. apply byte_eqb_eq in E5. subst. eapply bd_cons; [exact A|reflexivity].
Qed.
Lemma regex_bd lx v lx' : As lx -> read_regular_expression lx = Done (v, lx') -> Bd lx'.
Proof.
  unfold read_regular_expression. intros A K. cbv zeta in K. ob K as [k c] S K1. apply scan_regex_bd in S; [|exact A].
  destruct k; try (injection K1 as <- <-; exact S). ob K1 as lx2 F K2. injection K2 as <- <-. apply set_token_Bd.
  eapply skip_Bd; [| |exact F]; [|exact S]. intros x. destruct x; vm_compute; congruence.
Qed.
Lemma match_seq_bd l : forall lx k lx', As lx -> match_seq l lx = Done (k, lx') -> As lx' /\ (k = true -> Bd lx').
Proof.
  induction l as [|x l IH]; cbn [match_seq]; intros lx k lx' A K.
  - cbv zeta in K. ob K as b R K1. injection K1 as <- <-. split; [now apply bump_As|]. intros E. apply negb_true_iff in E.
    apply Hd_Bd. eapply head_Hd; [now apply bump_As|apply read_byte_head; exact R|now apply not_label_ascii].
  - ob K as [b lx1] N K1. apply next_As in N as [A1 _]; [|exact A]. destruct (byte_eqb b x); [eapply IH; eauto|].
    injection K1 as <- <-. split; [exact A1|discriminate].
Qed.
Fixpoint match_label_bd (k : ktrie) : forall lx t lx', As lx -> match_label k lx = Done (t, lx') -> As lx' /\ (t <> None -> Bd lx').
Proof.
  destruct k as [l t0|d branches]; intros lx t lx' A K; cbn [match_label] in K.
  - ob K as [b lx1] M K1. apply match_seq_bd in M as [A1 B1]; [|exact A]. injection K1 as <- <-. split; [exact A1|].
    destruct b; [auto|congruence].
  - ob K as [b lx1] N K1. apply next_As in N as [A1 Hb]; [|exact A].
    induction branches as [|[m k'] l IH].
    + injection K1 as <- <-. split; [exact A1|]. destruct d; [|congruence]. destruct (legal_in_label b) eqn:E; [congruence|].
      intros _. apply Hd_Bd. eapply head_Hd; eauto. now apply not_label_ascii.
    + destruct (byte_eqb b m); [eapply match_label_bd; eauto|auto].
Qed.
Lemma keyword_bd k lx lx' : As lx -> label_or_keyword k lx = Done lx' -> Bd lx'.
Proof.
  unfold label_or_keyword. intros A K. ob K as [t lx1] M K1. apply match_label_bd in M as [A1 B1]; [|exact A].
  destruct t; [injection K1 as <-; apply set_token_Bd, B1; discriminate|]. ob K1 as lx2 L K2. injection K2 as <-.
  apply set_token_Bd. eapply label_Bd; eauto.
Qed.
Lemma IDT_bd lx lx' : As lx -> h_IDT lx = Done lx' -> Bd lx'.
Proof.
  unfold h_IDT. intros A K. ob K as lx1 L K1. injection K1 as <-. apply set_token_Bd. eapply label_Bd; [|exact L]. now apply bump_As.
Qed.
Lemma UNI_bd alnum lx lx' : Bd lx -> h_UNI alnum lx = Done lx' -> Bd lx'.
Proof.
  unfold h_UNI. intros B K. destruct (decode_char _) as [[c n]|]; [|discriminate]. destruct (alnum c); [|injection K as <-; exact B].
  ob K as lx1 L K1. injection K1 as <-. apply set_token_Bd. eapply label_Bd; [|exact L].
  unfold As. cbn [set_cur lx_cur cur_advance rem]. apply Bd_As in B. unfold As in B.
  rewrite <- (firstn_skipn (n - 1) (rem (lx_cur lx))) in B. now apply asc_app in B.
Qed.
Lemma scan_comment_bd r : forall p k c, asc r -> scan_block_comment p r = Done (k, c) -> bd (rem c).
Proof.
  induction r as [|b r IH]; cbn [scan_block_comment]; intros p k c A K; [discriminate|].
  destruct (byte_eqb b "*") eqn:E1.
  - destruct r as [|x r]; [discriminate|]. destruct (byte_eqb x "/") eqn:E2.
    + injection K as <- <-. apply byte_eqb_eq in E2. subst. cbn [rem]. eapply bd_cons; [apply A|reflexivity].
    + destruct (byte_eqb x x00) eqn:E3; [|eapply IH; [|exact K]; apply A].
      injection K as <- <-. apply byte_eqb_eq in E3. subst. apply bd_ascii; [apply A|reflexivity].
  - destruct (byte_eqb b x00) eqn:E3; [|eapply IH; [|exact K]; apply A].
    injection K as <- <-. apply byte_eqb_eq in E3. subst. apply bd_ascii; [apply A|reflexivity].
Qed.
(** ** [consume] *)
Lemma white_ascii b : handler_from_byte b = None -> ascii b = true.
Proof. destruct b; vm_compute; congruence. Qed.
Lemma handler_ascii b h : handler_from_byte b = Some h -> h <> H_UNI -> ascii b = true.
Proof. destruct b; vm_compute; congruence. Qed.
Lemma scan_start_bd r : forall a p h a' c, bd r -> scan_token_start a p r = Done (h, a', c) ->
  bd (rem c) /\ exists b r', rem c = b :: r' /\ handler_from_byte b = Some h.
Proof.
  induction r as [|b r IH]; cbn [scan_token_start]; intros a p h a' c B K; [discriminate|].
  destruct (handler_from_byte b) as [h0|] eqn:E.
  - injection K as <- <- <-. split; [exact B|]. exists b, r. auto.
  - eapply IH; [|exact K]. eapply bd_cons; [apply B|]. now apply white_ascii.
Qed.
Lemma consume_fuel_bd alnum n : forall lx lx', ok lx -> Bd lx -> consume_fuel alnum n lx = Done lx' -> Bd lx' /\ bd (rem (lx_tok lx')).
Proof.
  induction n as [|n IH]; cbn [consume_fuel]; intros lx lx' O B K; [discriminate|].
  unfold consume_once in K. ob K as [[h a] c] S K1.
  assert (Sp := S). apply scan_token_start_spec in Sp as (s & b0 & r0 & Er0 & _ & _ & Ec & _).
  apply scan_start_bd in S as (Bc & b & r' & Er & Hh); [|exact B].
  set (lx0 := set_tok c (set_cur c (set_asi a lx))) in *.
  assert (B0 : Bd lx0) by exact Bc.
  assert (O0 : ok lx0).
  { unfold ok in *. change (ends (rem c)). rewrite Ec. cbn [rem]. rewrite Er0 in O. apply ends_suffix in O; [exact O|discriminate]. }
  assert (Hb : head lx0 b) by (exists r'; exact Er).
  assert (A0 : h <> H_UNI -> Hd lx0).
  { intros Nu. exists b, r'. split; [exact Er|]. split; [eapply handler_ascii; eauto|]. rewrite <- Er. apply Bc. }
  assert (G : Bd lx' /\ bd (rem (lx_tok lx')) \/ lx_tok lx' = c).
  { assert (K2 := K1). apply (handler_handled alnum _ b) in K2; auto. destruct K2 as [S _|_ ->|? ? ? ? _ _ _ _ ->|body lx2 Av _ _ (x & Hx & Ex) E2 K2|body lx2 Av _ _ E2 K2].
    - right. destruct S as ([_ T _ _] & _). exact T.
    - right. reflexivity.
    - right. reflexivity.
    - left. apply IH in K2; [exact K2| |].
      + destruct Av as [Ev _]. unfold ok in *. rewrite Ev in O0. destruct Hx as [y Ey]. apply ends_suffix in O0; [exact O0|rewrite Ey; discriminate].
      + apply Hd_Bd. eapply head_Hd; [|exact Hx|destruct Ex as [->| ->]; reflexivity].
        unfold As. destruct Av as [Ev _]. apply Bd_As in B0. unfold As in B0. rewrite Ev in B0. now apply asc_app in B0.
    - left. apply Bd_As in B0. unfold As in B0. destruct Av as [Ev _].
      replace ("/" :: "*" :: body ++ ["*"; "/"])%byte with (("/" :: "*" :: body ++ ["*"]) ++ ["/"])%byte in Ev by (cbn; rewrite <- app_assoc; reflexivity).
      assert (Bx : Bd lx2).
      { unfold Bd. rewrite Ev in B0. rewrite <- app_assoc in B0. apply asc_app in B0. eapply bd_cons; [exact B0|reflexivity]. }
      apply IH in K2; [exact K2| |exact Bx].
      unfold ok in *. rewrite Ev in O0. destruct (rem (lx_cur lx2)) as [|y z] eqn:Ey.
      + exfalso. rewrite app_nil_r in O0. destruct O0 as [w Ew]. apply app_inj_tail in Ew as [_ Ew]. discriminate Ew.
      + apply ends_suffix in O0; [exact O0|discriminate]. }
  destruct G as [G|T]; [exact G|]. split; [|now rewrite T].
  destruct (match h with H_UNI => true | _ => false end) eqn:Eu.
  { destruct h; try discriminate Eu. eapply UNI_bd; eauto. }
  assert (A1 : Hd lx0) by (apply A0; intros ->; discriminate Eu). clear A0. assert (A2 := Hd_As _ A1).
  destruct h; try discriminate Eu; cbn [run_handler] in K1.
  all: try solve [ eapply single_bd; eauto | eapply closing_bd; eauto | eapply SEM_bd; eauto | eapply EOF_bd; eauto
               | eapply EQL_bd; eauto | eapply EXL_bd; eauto | eapply LSS_bd; eauto | eapply MOR_bd; eauto
               | eapply op_assign_bd; eauto | eapply op_double_bd; [|exact A1|exact K1]; reflexivity | eapply ATR_bd; eauto | eapply ZER_bd; eauto
               | eapply DIG_bd; eauto | eapply PRD_bd; eauto | eapply QOT_bd; eauto | eapply keyword_bd; eauto | eapply IDT_bd; eauto ].
  - unfold h_SLH in K1. ob K1 as [x lx1] N K2. assert (S1 := sstep_next _ _ _ O0 N). destruct S1 as [S1 _]. assert (O1 : ok lx1) by ok_of. clear S1.
    apply next_Bd in N as [B1 Hx]; [|exact A1].
    destruct (byte_eqb x "/") eqn:E1; [|destruct (byte_eqb x "*") eqn:E2].
    + ob K2 as lx2 F K3. apply byte_eqb_eq in E1. subst x. assert (O2 : ok (bump lx1)) by ok_of.
      assert (As2 : As (bump lx1)) by (apply Bd_As; bds).
      destruct (skip_As _ _ _ As2 F) as (A3 & y & Hy & Fy). apply step_skip in F; [|exact O2]. destruct F as [_ O3].
      apply IH in K3; [apply K3|exact O3|]. apply Hd_Bd. eapply head_Hd; eauto. clear - Fy. destruct y; vm_compute in Fy |- *; congruence.
    + cbv zeta in K2. ob K2 as [k c2] F K3. apply byte_eqb_eq in E2. subst x. assert (O2 : ok (bump lx1)) by ok_of.
      assert (F' := F). apply scan_comment_bd in F'; [|apply Bd_As; bds].
      destruct k; [|injection K3 as <-; exact F'].
      destruct (scan_block_comment_fwd _ _ _ _ O2 F) as [Fw Nn].
      apply IH in K3; [apply K3| |exact F'].
      destruct Fw as [s1 [Fw _]]. unfold ok in *. cbn [lx_cur set_cur].
      change (rem (lx_cur (bump lx1)) = s1 ++ rem c2) in Fw. rewrite Fw in O2. apply ends_suffix in O2; auto.
    + destruct (byte_eqb x "=") eqn:E3; injection K2 as <-; bds.
  - unfold h_TPL in K1. eapply template_bd; [|exact K1]. now apply bump_As.
Qed.
Lemma consume_bd alnum lx lx' : ok lx -> Bd lx -> consume alnum lx = Done lx' -> Bd lx' /\ bd (rem (lx_tok lx')).
Proof. apply consume_fuel_bd. Qed.

(** ** UTF-8 *)
Lemma between_in lo hi b : between lo hi b -> byte_in lo hi b = true.
Proof. intros [L U]. unfold byte_in. apply andb_true_iff. split; now apply N.leb_le. Qed.
Definition lead (b : byte) : Prop := is_continuation b = false.
Lemma char_shape c : utf8_char c -> exists a s, c = a :: s /\ lead a /\ (ascii a = true -> s = []) /\ Forall (fun b => is_continuation b = true /\ ascii b = false) s.
Proof.
  assert (T : forall b, is_continuation b = true -> is_continuation b = true /\ ascii b = false).
  { intros b. destruct b; vm_compute; auto; discriminate. }
  assert (R : forall lo hi a, (byte_val x80 <= byte_val lo)%N -> (byte_val hi <= byte_val xbf)%N -> between lo hi a -> is_continuation a = true).
  { intros lo hi a L U [La Ua]. apply between_in. split; lia. }
  intros K. destruct K as [a H|a b H Hb|b c H Hc|a b c H Hb Hc|b c H Hc|a b c H Hb Hc|b c d H Hc Hd0|a b c d H Hb Hc Hd0|b c d H Hc Hd0];
    apply between_in in H;
    repeat match goal with X : tail_byte _ |- _ => apply between_in in X end.
  - exists a, []. split; [reflexivity|]. split; [|split; [auto|constructor]]. clear - H. unfold lead. destruct a; vm_compute in H |- *; congruence.
  - exists a, [b]. split; [reflexivity|]. clear - H T Hb. split; [destruct a; vm_compute in H |- *; congruence|]. split; [destruct a; vm_compute in H |- *; congruence|]. constructor; [apply T; exact Hb|constructor].
  - exists xe0, [b; c]. split; [reflexivity|]. split; [reflexivity|]. split; [discriminate|].
    constructor; [apply T; clear - H; destruct b; vm_compute in H |- *; congruence|]. constructor; [apply T; exact Hc|constructor].
  - exists a, [b; c]. split; [reflexivity|]. clear - H T Hb Hc. split; [destruct a; vm_compute in H |- *; congruence|]. split; [destruct a; vm_compute in H |- *; congruence|].
    constructor; [apply T; exact Hb|]. constructor; [apply T; exact Hc|constructor].
  - exists xed, [b; c]. split; [reflexivity|]. split; [reflexivity|]. split; [discriminate|].
    constructor; [apply T; clear - H; destruct b; vm_compute in H |- *; congruence|]. constructor; [apply T; exact Hc|constructor].
  - exists a, [b; c]. split; [reflexivity|]. clear - H T Hb Hc. split; [destruct a; vm_compute in H |- *; congruence|]. split; [destruct a; vm_compute in H |- *; congruence|].
    constructor; [apply T; exact Hb|]. constructor; [apply T; exact Hc|constructor].
  - exists xf0, [b; c; d]. split; [reflexivity|]. split; [reflexivity|]. split; [discriminate|].
    constructor; [apply T; clear - H; destruct b; vm_compute in H |- *; congruence|]. constructor; [apply T; exact Hc|]. constructor; [apply T; exact Hd0|constructor].
  - exists a, [b; c; d]. split; [reflexivity|]. clear - H T Hb Hc Hd0. split; [destruct a; vm_compute in H |- *; congruence|]. split; [destruct a; vm_compute in H |- *; congruence|].
    constructor; [apply T; exact Hb|]. constructor; [apply T; exact Hc|]. constructor; [apply T; exact Hd0|constructor].
  - exists xf4, [b; c; d]. split; [reflexivity|]. split; [reflexivity|]. split; [discriminate|].
    constructor; [apply T; clear - H; destruct b; vm_compute in H |- *; congruence|]. constructor; [apply T; exact Hc|]. constructor; [apply T; exact Hd0|constructor].
Qed.
Lemma characters_app n m s t : characters n s -> characters m t -> characters (n + m) (s ++ t).
Proof. induction 1 as [|n c s C K IH]; [auto|]. intros T. rewrite <- app_assoc. cbn [Nat.add]. constructor; auto. Qed.
Lemma utf8_bd n s : characters n s -> bd s.
Proof.
  induction 1 as [|n c s C K [S A]]; [split; exact I|].
  destruct (char_shape _ C) as (a & t & -> & L & Sh & F). split; [exact L|]. cbn [app]. clear C K.
  assert (G : asc (t ++ s)).
  { clear L Sh. induction F as [|b t [_ Fb] F IH]; [exact A|]. cbn [app asc]. split; [congruence|exact IH]. }
  split; [|exact G]. intros E. rewrite (Sh E). exact S.
Qed.
(** Where a text splits before a byte that is not a continuation byte, both parts are UTF-8. *)
Lemma split_utf8 n s : characters n s -> forall a b, s = a ++ b -> start b -> exists n1 n2, characters n1 a /\ characters n2 b /\ n = n1 + n2.
Proof.
  induction 1 as [|n c s C K IH]; intros a b E St.
  - symmetry in E. apply app_eq_nil in E as [-> ->]. exists 0, 0. repeat constructor.
  - destruct (char_shape _ C) as (x & t & -> & L & Sh & F). destruct a as [|y a].
    + cbn [app] in E. subst b. exists 0, (S n). split; [constructor|]. split; [exact (ch_cons _ _ _ C K)|reflexivity].
    + injection E as <- E.
      assert (G : exists a', a = t ++ a' /\ s = a' ++ b).
      { clear C K IH Sh L. revert a E. induction F as [|z t [Fz _] F IHF]; intros a E; [exists a; auto|].
        destruct a as [|w a]; cbn [app] in E.
        - subst b. cbn [start] in St. congruence.
        - injection E as <- E. destruct (IHF a E) as (a' & -> & ->). exists a'. auto. }
      destruct G as (a' & -> & Es). destruct (IH a' b Es St) as (n1 & n2 & K1 & K2 & ->).
      exists (S n1), n2. split; [change (x :: t ++ a') with ((x :: t) ++ a'); now constructor|]. auto.
Qed.
