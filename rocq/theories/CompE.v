(** Every program of the grammar is accepted: classes. *)
From Coq Require Import List NArith Bool Lia Arith String.
From Coq.Strings Require Import Byte.
From Verif Require Import Bytes Token Tables Lexer Ast Prog Parser Structure SpecSyntax Erase Comp CompA CompB CompC CompD.
Import ListNotations.
Open Scope nat_scope.
Open Scope list_scope.

(** ** The lexeme that comes next *)
Lemma next_tok s l nx tk r : feeds s l -> spells tk nx -> exists tk2 u, s ++ tk :: r = tk2 :: u /\ spells tk2 (next l nx).
Proof. intros F S. destruct F as [|tk2 a s l Sa F]; cbn [app next]; eauto. Qed.
Lemma spells_not tk nx t : spells tk nx -> fst nx <> t -> t <> T_OperatorDivision -> t <> T_BraceClose -> v_token (tv tk) <> t.
Proof. intros S N N1 N2. destruct S as [v|v w A1|v w A1]; cbn [tv lexeme_of fst] in *; congruence. Qed.
Lemma spells_is tk nx : spells tk nx -> plain (fst nx) = true -> v_token (tv tk) = fst nx.
Proof.
  intros S Pt. destruct nx as [t w]. destruct (spells_plain tk t w S Pt) as (a & st & en & tx & ac & q & -> & _). reflexivity.
Qed.
Lemma spells_tok tk nx : spells tk nx -> plain (fst nx) = true -> exists v, tk = Plain v /\ v_token v = fst nx.
Proof.
  intros S Pt. destruct nx as [t w]. destruct (spells_plain tk t w S Pt) as (a & st & en & tx & ac & q & -> & _). eauto.
Qed.

(** ** Class members *)
Lemma c_mk_constructor t w : is_word t = true -> w_text w = bs "constructor" -> P_member_key [(t, w)] false MK_Constructor (Key_Literal (bs "constructor")).
Proof.
  intros Hw Ec s tk r start F W. assert (Pt := word_plain t Hw). feed. assert (Etx : tx = bs "constructor") by (destruct t; try discriminate Hw; congruence). clear Et. subst tx.
  exists (in_loc (View t a st en (bs "constructor") ac q) (Key_Literal (bs "constructor"))). split; [strips|].
  intros x u H. unfold member_tail, look, call. cbn [app bind]. apply X_look. cbn [tv v_token]. rewrite Hw. cbn [bind]. apply X_consume. apply X_look.
  assert (is_word (v_token (tv tk)) = false) as -> by (destruct W as [-> | ->]; reflexivity). cbn [v_text negb andb]. eapply X_call; [exact H|apply X_ret].
Qed.
Lemma c_mk_word t w st : is_word t = true -> (st = true \/ w_text w <> bs "constructor") -> P_member_key [(t, w)] st MK_Method (Key_Literal (w_text w)).
Proof.
  intros Hw Ec s tk r start F W. assert (Pt := word_plain t Hw). feed. assert (Etx : w_text w = tx) by (destruct t; try discriminate Hw; congruence). clear Et. rewrite Etx in *.
  exists (in_loc (View t a st0 en tx ac q) (Key_Literal tx)). split; [strips|].
  intros x u H. unfold member_tail, look, call. cbn [app bind]. apply X_look. cbn [tv v_token]. rewrite Hw. cbn [bind]. apply X_consume. apply X_look.
  assert (is_word (v_token (tv tk)) = false) as -> by (destruct W as [-> | ->]; reflexivity). cbn [v_text].
  assert ((negb st && str_eqb tx (bs "constructor"))%bool = false) as ->.
  { destruct Ec as [-> |Ec]; [reflexivity|]. destruct (str_eqb tx (bs "constructor")) eqn:E; [|apply andb_false_r]. apply str_eqb_eq in E. contradiction. }
  eapply X_call; [exact H|apply X_ret].
Qed.
Lemma c_mk_get t1 t2 w1 w st : is_word t1 = true -> is_word t2 = true -> w_text w1 = bs "get" -> P_member_key [(t1, w1); (t2, w)] st MK_Get (Key_Literal (w_text w)).
Proof.
  intros Hw1 Hw2 Eg s tk r start F W. assert (Pt1 := word_plain t1 Hw1). assert (Pt2 := word_plain t2 Hw2). inversion F as [|tk1 x1 s1 l1 S1 F1]; subst. inversion F1 as [|tk2 x2 s2 l2 S2 F2]; subst. inversion F2; subst. clear F F1 F2.
  destruct (spells_plain _ _ _ S1 Pt1) as (a1 & st1 & en1 & tx1 & ac1 & q1 & -> & Et1 & _). destruct (spells_plain _ _ _ S2 Pt2) as (a2 & st2 & en2 & tx2 & ac2 & q2 & -> & Et2 & _).
  assert (tx1 = bs "get") by (destruct t1; try discriminate Hw1; congruence). assert (Etx : w_text w = tx2) by (destruct t2; try discriminate Hw2; congruence). rewrite Etx. subst tx1.
  eexists. split; [|intros x u H; unfold member_tail, look, call; cbn [app bind]; apply X_look; cbn [tv v_token]; rewrite Hw1; cbn [bind]; apply X_consume; apply X_look; cbn [tv v_token v_text]; rewrite Hw2; tsimp; cbn [bind]; apply X_consume; eapply X_call; [exact H|apply X_ret]].
  strips.
Qed.
Lemma c_mk_set t1 t2 w1 w st : is_word t1 = true -> is_word t2 = true -> w_text w1 = bs "set" -> P_member_key [(t1, w1); (t2, w)] st MK_Set (Key_Literal (w_text w)).
Proof.
  intros Hw1 Hw2 Eg s tk r start F W. assert (Pt1 := word_plain t1 Hw1). assert (Pt2 := word_plain t2 Hw2). inversion F as [|tk1 x1 s1 l1 S1 F1]; subst. inversion F1 as [|tk2 x2 s2 l2 S2 F2]; subst. inversion F2; subst. clear F F1 F2.
  destruct (spells_plain _ _ _ S1 Pt1) as (a1 & st1 & en1 & tx1 & ac1 & q1 & -> & Et1 & _). destruct (spells_plain _ _ _ S2 Pt2) as (a2 & st2 & en2 & tx2 & ac2 & q2 & -> & Et2 & _).
  assert (tx1 = bs "set") by (destruct t1; try discriminate Hw1; congruence). assert (Etx : w_text w = tx2) by (destruct t2; try discriminate Hw2; congruence). rewrite Etx. subst tx1.
  eexists. split; [|intros x u H; unfold member_tail, look, call; cbn [app bind]; apply X_look; cbn [tv v_token]; rewrite Hw1; cbn [bind]; apply X_consume; apply X_look; cbn [tv v_token v_text]; rewrite Hw2; tsimp; cbn [bind]; apply X_consume; eapply X_call; [exact H|apply X_ret]].
  strips.
Qed.
Lemma c_mk_number w st : P_member_key [(T_LiteralNumber, w)] st MK_Method (Key_Literal (w_text w)).
Proof.
  intros s tk r start F W. feed. eexists. split; [|intros x u H; unfold member_tail, look, call; cbn [app bind]; apply X_look; xsimp; apply X_consume; eapply X_call; [exact H|apply X_ret]]. strips.
Qed.
Lemma c_mk_binary w st : P_member_key [(T_LiteralBinary, w)] st MK_Method (Key_Binary (w_text w)).
Proof.
  intros s tk r start F W. feed. eexists. split; [|intros x u H; unfold member_tail, look, call; cbn [app bind]; apply X_look; xsimp; apply X_consume; eapply X_call; [exact H|apply X_ret]]. strips.
Qed.
Lemma c_mk_computed o w1 w2 l e st : P_expr 0 o l (n_item e) -> P_member_key ((T_BracketOpen, w1) :: l ++ [(T_BracketClose, w2)]) st MK_Method (Key_Computed e).
Proof.
  intros He s tk r start F W. feed. norm. inside He o l T_BracketClose.
  eexists. split; [|intros x0 u H; unfold member_tail, look, call, get_end, expect, consume_; cbn [app bind]; apply X_look; xsimp; apply X_consume; eapply X_call; [exact Hx|]; apply X_look; cbn [bind tv]; apply X_look; xsimp; apply X_consume; eapply X_call; [exact H|apply X_ret]].
  unfold same in *. strips.
Qed.
Lemma c_mn_static w l kind k : P_member_key l true kind k -> P_member_name ((T_Static, w) :: l) true kind k.
Proof.
  intros H s tk r F W. feed. match goal with F1 : Forall2 spells ?s1 l |- _ => destruct (H s1 tk r st F1 W) as (k' & Sk & Hk) end.
  exists st, k'. split; [exact Sk|]. intros x u Hx. specialize (Hk x u Hx). unfold member_tail in Hk. revert Hk. bodies. intros Hk. apply X_look. cbn [tv v_start bind]. apply X_look. xsimp. apply X_consume. exact Hk.
Qed.
Lemma member_key_nonempty l st kind k : member_key l st kind k -> l <> [].
Proof. intros D. destruct D; discriminate. Qed.
Lemma c_mn_plain l kind k : member_key l false kind k -> P_member_key l false kind k -> not_first [T_Static] l -> P_member_name l false kind k.
Proof.
  intros D H N s tk r F W. assert (N' := member_key_nonempty _ _ _ _ D). destruct l as [|[t w] l']; [contradiction|]. inversion F as [|tk0 x s' l0 S F']; subst.
  destruct (H (tk0 :: s') tk r (v_start (tv tk0)) F W) as (k' & Sk & Hk). exists (v_start (tv tk0)), k'. split; [exact Sk|]. intros x u Hx. specialize (Hk x u Hx). cbn [app] in *.
  assert (Ns : v_token (tv tk0) <> T_Static). { apply (spells_not _ _ _ S); [cbn; cbn in N; intros Q; apply N; now left|discriminate|discriminate]. }
  unfold member_tail in Hk. revert Hk. bodies. intros Hk. apply X_look. cbn [bind]. apply X_look. rewrite (is_not _ _ Ns). cbn [bind]. exact Hk.
Qed.
Lemma optional_then l3 s3 tk nx r : optional_semi l3 -> feeds s3 l3 -> spells tk nx -> fst nx <> T_Semicolon -> exists tk2 u, s3 ++ tk :: r = tk2 :: u /\ spells tk2 (next l3 nx) /\
  forall start e_end (m : class_member), X (bind look (fun v' => bind (if is T_Semicolon v' then consume_ else Ret tt) (fun _ => Ret (Node start e_end m)))) (tk2 :: u) (Node start e_end m) (tk :: r).
Proof.
  intros D F S N. assert (Nt : v_token (tv tk) <> T_Semicolon) by (apply (spells_not _ _ _ S); [exact N|discriminate|discriminate]). destruct D.
  - feed. exists tk, r. split; [reflexivity|]. split; [exact S|]. intros. unfold look, consume_. cbn [bind]. apply X_look. rewrite (is_not _ _ Nt). cbn [bind]. apply X_ret.
  - inversion F as [|tk2 x s' l' S2 F']; subst. inversion F'; subst. eexists _, _. split; [reflexivity|]. split; [exact S2|]. clear F F'. feed. intros. unfold look, consume_. cbn [bind]. apply X_look. xsimp. apply X_consume. apply X_ret.
Qed.
Lemma c_mb_method nx l1 l2 l3 st kind k f : P_member_name l1 st kind (n_item k) -> function Nameless l2 (n_item f) -> P_function Nameless l2 (n_item f) -> optional_semi l3 -> P_member nx (l1 ++ l2 ++ l3) (CM_Method st k kind f).
Proof.
  intros H1 D H2 D3 s tk r F S N. apply Forall2_app_inv_r in F as (s1 & s23 & F1 & F & ->). apply Forall2_app_inv_r in F as (s2 & s3 & F2 & F3 & ->). norm.
  destruct (optional_then l3 s3 tk nx r D3 F3 S N) as (tk2 & u & E & _ & Ho). rewrite E.
  destruct (H2 s2 (tk2 :: u) F2) as (f' & Hf & Sf). destruct (function_paren s2 l2 _ (tk2 :: u) D F2) as (v & s4 & E2 & Ev). rewrite E2 in *.
  destruct (H1 s1 (Plain v) s4 F1 (or_introl Ev)) as (start & k' & Sk & Hk). cbn [nk] in Hf.
  eexists. split; [apply Hk|].
  - bodies. cbn [bind]. apply X_look. cbn [tv]. rewrite (is_yes _ _ Ev). cbn [bind]. eapply X_call; [bodies; cbn [bind]; apply X_look; eapply X_call; [exact Hf|apply X_ret]|]. apply Ho.
  - stripb.
Qed.
Lemma c_mb_field nx o l1 l2 l3 w st kind k e : P_member_name l1 st kind (n_item k) -> P_expr 1 o l2 (n_item e) -> optional_semi l3 -> ends 1 (next l3 nx) -> P_member nx (l1 ++ (T_OperatorAssign, w) :: l2 ++ l3) (CM_Literal st k e).
Proof.
  intros H1 H2 D3 En s tk r F S N. apply Forall2_app_inv_r in F as (s1 & s23 & F1 & F & ->). inversion F as [|tkx x s4 l' Sx F']; subst. clear F. apply Forall2_app_inv_r in F' as (s2 & s3 & F2 & F3 & ->). feed. norm.
  destruct (optional_then l3 s3 tk nx r D3 F3 S N) as (tk2 & u & E & S2 & Ho). rewrite E. assert (W := ends_b0 _ _ S2 En).
  destruct (use_b0 o l2 _ s2 tk2 u CtxDefault H2 F2 W) as (y & Hy & Sy).
  match goal with |- context [s1 ++ Plain ?v :: ?rr] => destruct (H1 s1 (Plain v) rr F1 (or_intror eq_refl)) as (start & k' & Sk & Hk) end.
  eexists. split; [apply Hk|].
  - bodies. cbn [bind]. apply X_look. xsimp. apply X_consume. eapply X_call; [exact Hy|]. apply Ho.
  - unfold same in *. strips.
Qed.
Lemma member_first tk s m u : X (body _ F_class_member) (tk :: s) m u -> v_token (tv tk) <> T_BraceClose /\ v_token (tv tk) <> T_EndOfProgram.
Proof.
  intros H. split; intros Q; revert H; bodies; cbn [bind]; intros H; apply X_inv in H as (t0 & s0 & E & H); injection E as <- <-; apply X_inv in H as (t0 & s0 & E & H); injection E as <- <-;
    rewrite (is_not T_Static) in H by (rewrite Q; discriminate); cbn [bind] in H; apply X_inv in H as (t0 & s0 & E & H); injection E as <- <-;
    rewrite Q in H; cbn [is_word] in H; rewrite !(is_not _ (tv tk)) in H by (rewrite Q; discriminate); now apply X_inv in H.
Qed.
Lemma c_mm_nil nx : P_members nx [] [].
Proof.
  intros s tk r F S W. feed. exists []. split; [|reflexivity]. assert (V : v_token (tv tk) = fst nx) by (apply spells_is; [exact S|destruct W as [-> | ->]; reflexivity]). bodies. cbn [bind app]. apply X_look.
  destruct W as [W|W]; rewrite W in V; rewrite (is_yes _ _ V), ?orb_true_r; cbn [orb]; apply X_ret.
Qed.
Lemma c_mm_cons nx l1 l2 m ms : member (next l2 nx) l1 (n_item m) -> P_member (next l2 nx) l1 (n_item m) -> members nx l2 ms -> P_members nx l2 ms -> P_members nx (l1 ++ l2) (m :: ms).
Proof.
  intros D1 H1 D2 H2 s tk r F S W. apply Forall2_app_inv_r in F as (s1 & s2 & F1 & F2 & ->). norm.
  destruct (H2 s2 tk r F2 S W) as (ms' & Hms & Sms). destruct (next_tok s2 l2 nx tk r F2 S) as (tk2 & u & E & S2). rewrite E in *.
  assert (N : fst (next l2 nx) <> T_Semicolon).
  { destruct D2 as [|nx l3 l4 m2 ms2 D3 _]; [cbn; destruct W as [W|W]; rewrite W; discriminate|]. destruct (member_begins _ _ _ D3) as (t & w & q & -> & I). cbn. intros ->. revert I. vm_compute. intuition discriminate. }
  destruct (H1 s1 tk2 u F1 S2 N) as (m' & Hm & Sm).
  assert (Ne : l1 <> []) by (destruct (member_begins _ _ _ D1) as (? & ? & ? & -> & _); discriminate). assert (Ne' := feeds_nonempty _ _ F1 Ne). destruct s1 as [|tk0 s0]; [contradiction|]. cbn [app] in *.
  destruct (member_first _ _ _ _ Hm) as [N1 N2]. exists (m' :: ms'). split; [|cbn [map]; rewrite Sms; unfold strip_node; now rewrite Sm].
  bodies. cbn [bind]. apply X_look. rewrite (is_not _ _ N1), (is_not _ _ N2). cbn [orb bind]. eapply X_call; [bodies; cbn [bind]; eapply X_call; [exact Hm|apply X_ret]|]. eapply X_call; [exact Hms|]. apply X_ret.
Qed.
Lemma raw_of_items (T : Set) (i : item T) s x xs s' : X (body _ (F_items i)) s (x :: xs) s' -> X (body _ (F_raw_block i)) s (Block (x :: xs)) s'.
Proof.
  intros H. change (body _ (F_items i)) with (body_items i) in H. change (body _ (F_raw_block i)) with (body_raw_block i). unfold body_items, body_raw_block, look, call in *. cbn [bind] in *.
  apply X_inv in H as (tk & s0 & -> & H). apply X_look. destruct (is T_BraceClose (tv tk)) eqn:E; cbn [orb] in H; [apply X_inv in H as [Q _]; discriminate Q|].
  destruct (is T_EndOfProgram (tv tk)); [apply X_inv in H as [Q _]; discriminate Q|]. cbn [bind] in *.
  apply X_inv in H as (y & s1 & H1 & H). apply X_inv in H as (ys & s2 & H2 & H). apply X_inv in H as [Q <-]. injection Q as -> ->.
  eapply X_call; [exact H1|]. eapply X_call; [exact H2|]. apply X_ret.
Qed.
Lemma raw_of_none (T : Set) (i : item T) s vc r : X (body _ (F_items i)) (s ++ Plain vc :: r) [] (Plain vc :: r) -> v_token vc = T_BraceClose -> X (body _ (F_raw_block i)) (s ++ Plain vc :: r) (Block []) (Plain vc :: r).
Proof.
  intros H Ec. change (body _ (F_items i)) with (body_items i) in H. change (body _ (F_raw_block i)) with (body_raw_block i). unfold body_items, body_raw_block, look, call in *. cbn [bind] in *.
  apply X_inv in H as (tk & s0 & E & H). cbv beta in H. destruct (is T_BraceClose (tv tk) || is T_EndOfProgram (tv tk))%bool.
  - apply X_inv in H as [_ H]. destruct s as [|t s]; [|assert (L := f_equal (@List.length tok) H); cbn [app List.length] in L; rewrite app_length in L; cbn [List.length] in L; lia].
    cbn [app]. apply X_look. cbn [tv]. rewrite (is_yes _ _ Ec). apply X_ret.
  - cbn [bind] in H. apply X_inv in H as (? & ? & _ & H). apply X_inv in H as (? & ? & _ & H). apply X_inv in H as [Q _]. discriminate Q.
Qed.
Lemma c_cb_body w l ms c : P_members c l ms -> closes ms c -> P_class_body ((T_BraceOpen, w) :: l ++ [c]) (Block ms).
Proof.
  intros H C s r F. inversion F as [|tk0 x s' l' S0 F']; subst. clear F. apply Forall2_app_inv_r in F' as (s1 & sc & F1 & F2 & ->). inversion F2 as [|tkc x2 s2 l2 Sc F3]; subst. inversion F3; subst. clear F2 F3. feed. norm.
  assert (W : fst c = T_BraceClose \/ fst c = T_EndOfProgram) by (destruct C; auto).
  destruct (H s1 tkc r F1 Sc W) as (ms' & Hms & Sms). destruct (spells_tok tkc c Sc) as (vc & -> & Ec); [destruct W as [-> | ->]; reflexivity|].
  assert (G : X (body _ (F_raw_block I_Member)) (s1 ++ Plain vc :: r) (Block ms') (Plain vc :: r)).
  { destruct ms' as [|m' ms']; [|now apply raw_of_items]. destruct ms; [|discriminate Sms]. destruct C as [wc|wc NC]; [|now contradiction NC]. exact (raw_of_none _ _ _ _ _ Hms Ec). }
  eexists. split; [xgo|]. cbn [n_item]. unfold strip_block. cbn [b_body]. now rewrite Sms.
Qed.
Lemma class_open l b s r : class_body l b -> feeds s l -> exists v s', s ++ r = Plain v :: s' /\ v_token v = T_BraceOpen.
Proof. intros D F. destruct D. feed. eexists _, _; split; reflexivity. Qed.
Lemma c_cs_plain k l1 l2 n b : name_of k l1 n -> class_body l2 (n_item b) -> P_class_body l2 (n_item b) -> P_class k (l1 ++ l2) (Class n None b).
Proof.
  intros Dn Db Hb s r F. apply Forall2_app_inv_r in F as (s1 & s2 & F1 & F2 & ->). norm. destruct (Hb s2 r F2) as (b' & Xb & Sb).
  destruct (class_open _ _ s2 r Db F2) as (v & s' & E & Ev). rewrite E in *.
  destruct (named k l1 n s1 (Plain v) s' Dn F1) as (n' & Xn & Sn); [cbn [tv]; rewrite Ev; discriminate|].
  eexists. split; [bodies; cbn [bind]; eapply X_call; [exact Xn|]; apply X_look; cbn [tv]; rewrite (is_not T_Extends v) by (rewrite Ev; discriminate); cbn [bind]; eapply X_call; [exact Xb|]; apply X_ret|stripb].
Qed.
Lemma c_cs_extends o k l1 l2 l3 w n e b : name_of k l1 n -> P_expr 1 o l2 (n_item e) -> class_body l3 (n_item b) -> P_class_body l3 (n_item b) -> P_class k (l1 ++ (T_Extends, w) :: l2 ++ l3) (Class n (Some e) b).
Proof.
  intros Dn He Db Hb s r F. apply Forall2_app_inv_r in F as (s1 & s23 & F1 & F & ->). inversion F as [|tkx x s4 l' Sx F']; subst. clear F. apply Forall2_app_inv_r in F' as (s2 & s3 & F2 & F3 & ->). feed. norm.
  destruct (Hb s3 r F3) as (b' & Xb & Sb). destruct (class_open _ _ s3 r Db F3) as (v & s' & E & Ev). rewrite E in *.
  destruct (use_b0 o l2 _ s2 (Plain v) s' CtxDefault He F2) as (y & Hy & Sy); [apply stops_follow; cbn [tv]; now rewrite Ev|].
  match goal with |- context [s1 ++ Plain ?vv :: ?rr] => destruct (named k l1 n s1 (Plain vv) rr Dn F1 ltac:(discriminate)) as (n' & Xn & Sn) end.
  eexists. split; [bodies; cbn [bind]; eapply X_call; [exact Xn|]; apply X_look; xsimp; apply X_consume; eapply X_call; [exact Hy|]; eapply X_call; [exact Xb|]; apply X_ret|unfold same in *; stripb].
Qed.
