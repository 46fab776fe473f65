(** Trees of the grammar in SpecPlain.v satisfy [fits]. *)
From Coq Require Import List NArith PeanoNat Bool String Lia.
From Coq.Strings Require Import Byte.
From Verif Require Import Bytes Token Lexer SpecTokens SpecChunks SpecTree SpecUtf8 SpecHazard SpecPrec SpecRound SpecPlain
  Ast AstInd Codegen CodegenFacts Levels RoundTrip.
Import ListNotations.
Open Scope nat_scope.
Open Scope list_scope.

Scheme plain_mind := Induction for plain Sort Prop with plain_list_mind := Induction for plain_list Sort Prop.
Combined Scheme plain_both from plain_mind, plain_list_mind.
Scheme plain_statement_mind := Induction for plain_statement Sort Prop
  with plain_statements_mind := Induction for plain_statements Sort Prop
  with plain_cases_mind := Induction for plain_cases Sort Prop.
Combined Scheme plain_statement_all from plain_statement_mind, plain_statements_mind, plain_cases_mind.

Section Plain.
Variable alnum : N -> bool.
Notation identifier_name := (identifier_name alnum).
Notation statement_fits := (statement_fits alnum).
Notation fits_node := (fits_node alnum).
Notation fits := (fits alnum).
Notation plain := (plain alnum).
Notation plain_list := (plain_list alnum).
Notation plain_option := (plain_option alnum).
Notation plain_declarator := (plain_declarator alnum).
Notation plain_param := (plain_param alnum).
Notation plain_statement := (plain_statement alnum).
Notation plain_statements := (plain_statements alnum).
Notation plain_cases := (plain_cases alnum).

(** ** Generating never fails on trees that fit *)
Lemma fits_generates m minify : fits m -> exists s, codegen m minify = Done s.
Proof.
  intros F. destruct (codegen_behaves m) as [[P _]|(sg & _ & E1 & E2)].
  - exfalso. assert (C : clean (c_module m)).
    { apply clean_module. intros x I E. apply F in I. cbn [fits_node] in I. rewrite E in I. exact I. }
    destruct (tidy_behaves _ (tidy_module m) C 0) as (sg & _ & M & _). specialize (M []). rewrite app_nil_r in M.
    unfold codegen in P. rewrite M in P. discriminate.
  - destruct minify; eauto.
Qed.

(** ** All nodes of a tree *)
Definition fits_all (a : any) : Prop := forall b, within b a -> fits_node b.
Lemma fits_all_intro a : fits_node a -> Forall fits_all (children a) -> fits_all a.
Proof.
  intros H K b W. inversion W as [|? ? c I W']; subst; [exact H|]. rewrite Forall_forall in K. exact (K c I b W').
Qed.
Lemma fits_module m : Forall (fun s => fits_all (A_Stmt s)) m -> fits m.
Proof. intros H a (s & I & W). rewrite Forall_forall in H. exact (H s I a W). Qed.
Lemma fits_ident i : fits_all (A_Ident i).
Proof. apply fits_all_intro; [exact I|constructor]. Qed.

(** ** The two edges *)
Lemma other_level op : In op other_operators -> olevel op = operator_bp op /\ rlevel op = operator_bp op /\ 5 <= operator_bp op /\ operator_bp op <= 14.
Proof.
  intros H. assert (G : forallb (fun op => (olevel op =? operator_bp op) && (rlevel op =? operator_bp op) && (5 <=? operator_bp op) && (operator_bp op <=? 14)) other_operators = true) by (vm_compute; reflexivity).
  rewrite forallb_forall in G. specialize (G op H). apply andb_true_iff in G as [G G4]. apply andb_true_iff in G as [G G3]. apply andb_true_iff in G as [G1 G2].
  apply Nat.eqb_eq in G1, G2. apply Nat.leb_le in G3, G4. auto.
Qed.
Lemma assignment_level op : In op assignment_operators -> olevel op = 3 /\ rlevel op = 1 /\ operator_bp op = 3.
Proof.
  intros H. assert (G : forallb (fun op => (olevel op =? 3) && (rlevel op =? 1) && (operator_bp op =? 3)) assignment_operators = true) by (vm_compute; reflexivity).
  rewrite forallb_forall in G. specialize (G op H). apply andb_true_iff in G as [G G3]. apply andb_true_iff in G as [G1 G2].
  apply Nat.eqb_eq in G1, G2, G3. auto.
Qed.
Lemma other_binary op : In op other_operators -> In op binary_operators /\ ~ In op assignment_operators.
Proof.
  intros H. split; [|intros A; destruct (other_level op H) as (_ & _ & ? & _); destruct (assignment_level op A) as (_ & _ & ?); lia].
  unfold binary_operators. apply in_or_app. left. cbn in H |- *. tauto.
Qed.


Definition is_binary (e : expression) : bool := match e with E_Binary _ _ _ => true | _ => false end.
Inductive edges (e : expression) : Prop :=
| edges_primary : primary e = true \/ is_postfix e = true -> 16 <= expression_bp e -> ll e = 100 -> rl e = 100 -> edges e
| edges_prefix : is_prefix e = true -> expression_bp e = 15 -> ll e = 100 -> rl e = 15 -> edges e
| edges_other : is_binary e = true -> 5 <= expression_bp e <= 14 -> ll e = expression_bp e -> rl e = expression_bp e -> edges e
| edges_assignment : is_assignment e -> expression_bp e = 3 -> ll e = 3 -> rl e = 1 -> edges e
| edges_conditional : is_conditional e = true -> expression_bp e = 4 -> ll e = 4 -> rl e = 1 -> edges e
| edges_sequence : is_sequence e = true -> expression_bp e = 0 -> ll e = 1 -> rl e = 0 -> edges e.

Lemma edges_in k e : edges e -> 16 <= k -> is_postfix e = false -> k <= expression_bp e \/ expression_bp e < k ->
  rl_in k e = 100 /\ ll_in k e = 100.
Proof.
  intros E K P _. unfold rl_in, ll_in, in_parens. destruct (expression_bp e <? k) eqn:B; [auto|]. apply Nat.ltb_ge in B.
  destruct E; auto; lia.
Qed.
Lemma edges_in19 e : edges e -> rl_in 19 e = 100 /\ ll_in 19 e = 100.
Proof.
  intros E. unfold rl_in, ll_in, in_parens. destruct (expression_bp e <? 19) eqn:B; [auto|]. apply Nat.ltb_ge in B.
  destruct E; auto; lia.
Qed.
Lemma edges_left op e : edges e -> 5 <= operator_bp op <= 14 -> operator_bp op <= ll_in (operator_bp op) e /\ operator_bp op <= rl_in (operator_bp op) e.
Proof.
  intros E K. unfold rl_in, ll_in, in_parens, closed_level. destruct (expression_bp e <? operator_bp op) eqn:B; [lia|]. apply Nat.ltb_ge in B.
  destruct E; lia.
Qed.
Lemma edges_right op e : edges e -> 5 <= operator_bp op <= 14 -> operator_bp op < ll_in (operator_bp op + 1) e /\ operator_bp op < rl_in (operator_bp op + 1) e.
Proof.
  intros E K. unfold rl_in, ll_in, in_parens, closed_level. destruct (expression_bp e <? operator_bp op + 1) eqn:B; [lia|]. apply Nat.ltb_ge in B.
  destruct E; lia.
Qed.
Lemma edges_value e : edges e -> 3 < ll_in 4 e /\ 1 <= rl_in 4 e.
Proof.
  intros E. unfold rl_in, ll_in, in_parens, closed_level. destruct (expression_bp e <? 4) eqn:B; [lia|]. apply Nat.ltb_ge in B.
  destruct E; lia.
Qed.
Lemma edges_single e : edges e -> is_sequence e = false -> 1 < ll e /\ 1 <= rl e.
Proof. intros E S. destruct E; try lia. congruence. Qed.
Lemma edges_some e : edges e -> 0 < ll e.
Proof. intros E. destruct E; lia. Qed.
Lemma edges_element e : edges e -> is_sequence e = false -> element e.
Proof. apply edges_single. Qed.
Lemma edges_of_primary e : edges e -> primary e = true -> ll e = 100 /\ rl e = 100.
Proof. intros E P. destruct E; auto; destruct e; discriminate || contradiction. Qed.
Lemma lvalue_primary e : plain e -> is_lvalue e = true -> primary e = true.
Proof. intros P. destruct P; cbn; auto. Qed.

Lemma plain_edges : (forall e, plain e -> edges e) /\ (forall es, plain_list es -> Forall (fun x => edges (n_item x) /\ is_sequence (n_item x) = false) es).
Proof.
  apply plain_both.
  - apply edges_primary; cbn; auto; lia.
  - intros s S. apply edges_primary; cbn; auto; lia.
  - intros l S R. apply edges_primary; cbn; auto; lia.
  - intros es P _. apply edges_primary; cbn; auto; lia.
  - intros o p P IH N W. destruct (edges_in19 _ IH) as [R L]. apply edges_primary; cbn [primary expression_bp ll rl]; auto; lia.
  - intros o p P IH P2 IH2. destruct (edges_in19 _ IH) as [R L]. apply edges_primary; cbn [primary expression_bp ll rl]; auto; lia.
  - intros f args P IH F A _. destruct (edges_of_primary _ IH F) as [L R]. apply edges_primary; cbn [primary expression_bp ll rl]; auto; lia.
  - intros es qs P _ L Q. apply edges_primary; cbn; auto; lia.
  - intros op l r O P IHl P2 IHr S. destruct (other_level op O) as (O1 & O2 & O3 & O4).
    destruct (edges_left op _ IHl) as [L1 L2]; [lia|]. destruct (edges_right op _ IHr) as [R1 R2]; [lia|].
    apply edges_other; cbn [is_binary expression_bp ll rl]; auto.
    + rewrite O1. unfold ll_in in L1. lia.
    + rewrite O2. unfold rl_in in R2. lia.
  - intros op l r O V P IHl P2 IHr. destruct (assignment_level op O) as (O1 & O2 & O3).
    destruct (edges_of_primary _ IHl (lvalue_primary _ P V)) as [L1 L2]. destruct (edges_value _ IHr) as [R1 R2].
    apply edges_assignment; cbn [is_assignment expression_bp ll rl]; auto.
    + rewrite O1, L1. destruct (in_parens _ _); unfold closed_level; lia.
    + rewrite O2, O3. unfold rl_in in R2. cbn [Nat.add] in *. lia.
  - intros op x O P IH C. apply edges_prefix; cbn [is_prefix expression_bp ll rl]; auto.
    assert (15 <= rl (n_item x)); [|lia]. destruct C as [C|[C|[C _]]]; destruct IH; try lia; destruct (n_item x); cbn in *; discriminate || contradiction || lia.
  - intros op x O V P IH. destruct (edges_of_primary _ IH (lvalue_primary _ P V)) as [L R].
    apply edges_primary; cbn [primary is_postfix expression_bp ll rl]; auto.
    cbn in O. destruct O as [<-|[<-|[]]]; cbn; lia.
  - intros t c a P IHt P2 IHc P3 IHa S1 C1 A1 S2 S3. destruct (edges_single _ IHa S3) as [_ R].
    apply edges_conditional; cbn [is_conditional expression_bp ll rl]; auto; [|lia].
    assert (4 <= ll (n_item t)); [|lia]. destruct IHt; try lia; congruence || contradiction.
  - intros es L P H. apply edges_sequence; cbn [is_sequence expression_bp ll rl]; auto.
  - constructor.
  - intros x es P IH S PL IHL. constructor; auto.
Qed.
Lemma plain_edge e : plain e -> edges e.
Proof. apply plain_edges. Qed.

(** ** First bytes *)
Definition first_of (e : expression) : option byte := first (c_expression e).
Definition quiet (b : byte) : bool := negb (one_of ["+"; "-"; "/"]%byte b).
Lemma word_quiet b : (word_first b || (127 <? byte_val b)%N)%bool = true -> quiet b = true.
Proof. destruct b; vm_compute; congruence. Qed.
Lemma number_quiet s t more : number s t more -> exists b r, s = b :: r /\ quiet b = true.
Proof.
  assert (SB : forall b, (digit b || byte_eqb b "."%byte)%bool = true -> quiet b = true) by (intros b; destruct b; vm_compute; auto).
  assert (M : forall m mo, mantissa m mo -> exists x y, m = x :: y /\ (digit x || byte_eqb x "."%byte)%bool = true).
  { intros m mo [|d ds D _|d ds D _|d ds f D _ _|d f D _]; do 2 eexists; split; try reflexivity.
    - cbn [app]. destruct d; vm_compute in D |- *; try discriminate; reflexivity.
    - rewrite D. reflexivity. }
  intros [m mo HM|m mo e d ds HM _ _ _|m mo e sg ds HM _ _ _|x ds _ _|x ds _ _|x ds _ _].
  1-3: destruct (M _ _ HM) as (x & y & -> & D); do 2 eexists; split; [reflexivity|apply SB, D].
  all: do 2 eexists; split; reflexivity.
Qed.
Definition starts_quiet (c : code) : Prop := exists b, first c = Some b /\ quiet b = true.
Lemma quiet_app c d : starts_quiet c -> starts_quiet (c ++ d).
Proof. intros (b & F & S). exists b. split; [apply first_app, F|exact S]. Qed.
Lemma quiet_bytes b x c : quiet b = true -> starts_quiet (GBytes (b :: x) :: c).
Proof. intros H. exists b. split; [reflexivity|exact H]. Qed.

(** Either the text starts quietly or it starts with a prefix operator. *)
Definition begins (e : expression) : Prop :=
  (starts_prefixed e = false /\ starts_quiet (c_expression e)) \/
  (starts_prefixed e = true /\ exists op x, leftmost e = E_Prefix op x /\ In op prefix_operators /\ first (c_expression e) = first (c_expression (E_Prefix op x))).
Lemma quiet_bound n k : in_parens k (n_item n) = true -> starts_quiet (c_bound c_expression n k).
Proof. intros H. unfold c_bound. unfold in_parens in H. rewrite H. apply quiet_bytes. reflexivity. Qed.
Lemma open_bound n k : in_parens k (n_item n) = false -> c_bound c_expression n k = c_expression (n_item n).
Proof. intros H. unfold c_bound. unfold in_parens in H. now rewrite H. Qed.
Lemma begins_app e e' d : c_expression e' = c_expression e ++ d -> leftmost e' = leftmost e -> begins e -> begins e'.
Proof.
  intros C L [[P Q]|(P & op & x & E & O & F)]; [left|right]; (split; [unfold starts_prefixed in *; now rewrite L|]).
  - rewrite C. now apply quiet_app.
  - exists op, x. rewrite L, C. split; [exact E|]. split; [exact O|]. rewrite <- F.
    assert (G : exists b, first (c_expression e) = Some b).
    { rewrite F. cbn [c_expression]. cbn in O. repeat (destruct O as [<-|O]; [eexists; reflexivity|]). destruct O. }
    destruct G as (b & G). rewrite G. now apply first_app.
Qed.
Lemma begins_bound n e' k d : c_expression e' = c_bound c_expression n k ++ d ->
  leftmost e' = (if in_parens k (n_item n) then E_This else leftmost (n_item n)) -> begins (n_item n) -> begins e'.
Proof.
  intros C L B. destruct (in_parens k (n_item n)) eqn:I.
  - left. unfold starts_prefixed. rewrite L. split; [reflexivity|]. rewrite C. apply quiet_app, quiet_bound, I.
  - rewrite open_bound in C by exact I. eapply begins_app; eauto.
Qed.
Lemma quiet_begins e : starts_quiet (c_expression e) -> leftmost e = e -> is_prefix e = false -> begins e.
Proof. intros Q L P. left. unfold starts_prefixed. rewrite L. auto. Qed.

Lemma plain_begins : (forall e, plain e -> begins e) /\ (forall es, plain_list es -> match es with x :: _ => begins (n_item x) | [] => True end).
Proof.
  apply plain_both.
  - apply quiet_begins; auto. now apply quiet_bytes.
  - intros s [S F0]. assert (F1 : exists b r, s = b :: r /\ (word_first b || (127 <? byte_val b)%N)%bool = true).
    { destruct F0 as [(b & r & E & F)|(_ & b & r & c0 & E & F & _)]; exists b, r; split; auto; [now rewrite F|].
      apply N.ltb_lt in F. rewrite F. apply orb_true_r. }
    destruct F1 as (b & r & -> & W). apply quiet_begins; auto. apply quiet_bytes. now apply word_quiet.
  - intros l S R. apply quiet_begins; auto. cbn [c_expression c_literal]. destruct l; cbn [literal_fits] in S; cbn [c_literal]; try (now apply quiet_bytes).
    + destruct S as (mo & S). destruct (number_quiet _ _ _ S) as (b & r & -> & Q). now apply quiet_bytes.
    + destruct S as (mo & S). destruct (number_quiet _ _ _ S) as (b & r & -> & Q). now apply quiet_bytes.
    + destruct S as (q & i & [->| ->] & _ & ->); now apply quiet_bytes.
    + destruct (R _ eq_refl).
  - intros es P _. apply quiet_begins; auto. now apply quiet_bytes.
  - intros o p P IH N W. now apply (begins_bound o _ 19 (w "." ++ c_ident p)).
  - intros o p P IH P2 IH2. now apply (begins_bound o _ 19 (w "[" ++ c_node c_expression p ++ w "]")).
  - intros f args P IH F A _. now apply (begins_app (n_item f) _ (w "(" ++ c_list c_expression args ++ w ")")).
  - intros es qs P _ L Q. apply quiet_begins; auto. destruct qs as [|q [|q' qs]]; [discriminate L| |]; destruct es; try discriminate L; now apply quiet_bytes.
  - intros op l r O P IHl P2 IHr S. eapply begins_bound; [|reflexivity|exact IHl]. reflexivity.
  - intros op l r O V P IHl P2 IHr. eapply begins_bound; [|reflexivity|exact IHl]. reflexivity.
  - intros op x O P IH C. right. split; [reflexivity|]. exists op, x. auto.
  - intros op x O V P IH. now apply (begins_app (n_item x) _ (wstr (operator_str op))).
  - intros t c a P IHt P2 IHc P3 IHa S1 C1 A1 S2 S3. eapply (begins_app (n_item t)); [reflexivity|reflexivity|exact IHt].
  - intros es L P H. destruct es as [|x es]; [cbn in L; lia|]. eapply (begins_app (n_item x)); [reflexivity|reflexivity|exact H].
  - exact I.
  - intros x es P IH S PL IHL. exact IH.
Qed.
Lemma plain_begin e : plain e -> begins e.
Proof. apply plain_begins. Qed.
Lemma quiet_sticks op c : starts_quiet c -> ~ sticks op c.
Proof. intros (b & F & Q) [[_ S]|[[_ S]|[_ S]]]; rewrite F in S; injection S as ->; discriminate Q. Qed.

Lemma plain_bare e : plain e -> is_allowed_as_bare_statement (leftmost e) = true.
Proof.
  revert e. apply (proj1 (plain_both alnum (fun e _ => is_allowed_as_bare_statement (leftmost e) = true)
    (fun es _ => match es with x :: _ => is_allowed_as_bare_statement (leftmost (n_item x)) = true | [] => True end)
  ltac:(reflexivity) ltac:(reflexivity) ltac:(reflexivity) ltac:(reflexivity)
  ltac:(intros o p ? IH ? ?; cbn [leftmost]; destruct (in_parens _ _); auto)
  ltac:(intros o p ? IH ? ?; cbn [leftmost]; destruct (in_parens _ _); auto)
  ltac:(auto) ltac:(reflexivity)
  ltac:(intros; cbn [leftmost]; destruct (in_parens _ _); auto)
  ltac:(intros; cbn [leftmost]; destruct (in_parens _ _); auto)
  ltac:(reflexivity) ltac:(auto) ltac:(auto)
  ltac:(intros es L P H; destruct es; [reflexivity|exact H]) I ltac:(auto))).
Qed.

(** ** The nodes fit *)
Lemma binary_sticks op r : In op other_operators -> plain (n_item r) ->
  (In op signs -> starts_prefixed (n_item r) = true -> is_prefix (n_item r) = true \/ expression_bp (n_item r) <= operator_bp op) ->
  spacing_right op (n_item r) = true \/ ~ sticks op (c_bound c_expression r (operator_bp op + 1)).
Proof.
  intros O P S. destruct (in_parens (operator_bp op + 1) (n_item r)) eqn:I.
  { right. apply quiet_sticks, quiet_bound, I. }
  rewrite open_bound by exact I. unfold in_parens in I. apply Nat.ltb_ge in I.
  destruct (plain_begin _ P) as [[_ Q]|(B & po & x & L & PO & F)]; [right; now apply quiet_sticks|].
  destruct (spacing_right op (n_item r)) eqn:SR; [auto|right].
  intros ST. unfold sticks in ST. rewrite F in ST.
  assert (SG : In op signs).
  { destruct ST as [[E _]|[[E _]|[_ E]]].
    - cbn in O. repeat (destruct O as [<-|O]; [try discriminate E; cbn; tauto|]). destruct O.
    - cbn in O. repeat (destruct O as [<-|O]; [try discriminate E; cbn; tauto|]). destruct O.
    - cbn in PO. repeat (destruct PO as [<-|PO]; [discriminate E|]). destruct PO. }
  destruct (S SG B) as [S'|S']; [|lia].
  destruct (n_item r) as [| | | | | | | | | | |po' x'| | | | | | | | | ] eqn:ER; try discriminate S'. cbn [leftmost] in L. injection L as -> ->.
  cbn in SG. cbn in PO. unfold spacing_right in SR.
  destruct SG as [<-|[<-|[<-|[<-|[]]]]]; cbn [operator_category] in SR;
    repeat (destruct PO as [<-|PO]; [try discriminate SR; destruct ST as [[A C]|[[A C]|[A C]]]; try discriminate A; discriminate C|]); destruct PO.
Qed.
Lemma assign_no_stick op c : In op assignment_operators -> ~ sticks op c.
Proof.
  intros A ST. cbn in A. repeat (destruct A as [<-|A]; [destruct ST as [[E _]|[[E _]|[E _]]]; discriminate E|]). destruct A.
Qed.
Lemma prefix_sticks op x : In op prefix_operators -> plain (n_item x) ->
  (primary (n_item x) = true \/ is_postfix (n_item x) = true \/ (is_prefix (n_item x) = true /\ ~ In op signs)) ->
  operator_category op = CatWord \/ ~ sticks op (c_expression (n_item x)).
Proof.
  intros O P C. right. intros ST.
  assert (SG : In op signs).
  { destruct ST as [[E _]|[[E _]|[E _]]]; cbn in O; repeat (destruct O as [<-|O]; [try discriminate E; cbn; tauto|]); destruct O. }
  destruct (plain_begin _ P) as [[_ Q]|(B & po & y & L & PO & F)]; [exact (quiet_sticks _ _ Q ST)|].
  assert (NP : forall e, plain e -> primary e = true \/ is_postfix e = true -> starts_prefixed e = false).
  { clear. assert (MO : forall o : node expression, plain (n_item o) -> (primary (n_item o) = true \/ is_postfix (n_item o) = true -> starts_prefixed (n_item o) = false) ->
      is_prefix (if in_parens 19 (n_item o) then E_This else leftmost (n_item o)) = false).
    { intros o P IH. destruct (in_parens 19 (n_item o)) eqn:I; [reflexivity|]. apply IH.
      unfold in_parens in I. apply Nat.ltb_ge in I. destruct (plain_edge _ P) as [A| | | | |]; try lia. exact A. }
    intros e P. induction P as [| | | |o p P IH ? ?|o p P IH P2 IH2|f args P IH F A| | | | |op x O V P IH| |]; cbn [primary is_postfix]; intros Q;
      try reflexivity; try (destruct Q as [Q|Q]; discriminate Q).
    - exact (MO o P IH).
    - exact (MO o P IH).
    - apply IH. now left.
    - apply IH. left. now apply lvalue_primary. }
  destruct C as [C|[C|[C N]]]; [| |contradiction]; rewrite (NP _ P) in B; auto; discriminate B.
Qed.

Lemma plain_fits : (forall e, plain e -> forall n, n_item n = e -> fits_all (A_Expr n)) /\
  (forall es, plain_list es -> Forall (fun x => fits_all (A_Expr x)) es).
Proof.
  assert (EL : forall es, plain_list es -> Forall (fun x => element (n_item x)) es).
  { intros es H. apply plain_edges in H. eapply Forall_impl; [|exact H]. intros x [E S]. now apply edges_element. }
  assert (MF : forall es, Forall (fun x => fits_all (A_Expr x)) es -> Forall fits_all (map A_Expr es)).
  { intros es H. induction H; cbn; constructor; auto. }
  apply plain_both; cbv beta.
  - intros n E. apply fits_all_intro; cbn [fits_node children]; rewrite E; [exact I|constructor].
  - intros s S n E. apply fits_all_intro; cbn [fits_node children]; rewrite E; [exact S|constructor].
  - intros l S R n E. apply fits_all_intro; cbn [fits_node children]; rewrite E; [exact S|constructor].
  - intros es P IH n E. apply fits_all_intro; cbn [fits_node children]; rewrite E; [|now apply MF].
    assert (H := EL es P). split.
    + eapply Forall_impl; [|exact H]. intros x Hx. right. left. exact Hx.
    + intros x -> V. apply Forall_inv in H. rewrite V in H. destruct H as [H _]. cbn in H. lia.
  - intros o p P IH N W n E. destruct (edges_in19 _ (plain_edge _ P)) as [R L].
    apply fits_all_intro; cbn [fits_node children]; rewrite E.
    + split; [exact W|]. split; [apply edges_some, plain_edge, P|]. split; assumption.
    + constructor; [now apply IH|]. constructor; [apply fits_ident|constructor].
  - intros o p P IH P2 IH2 n E. destruct (edges_in19 _ (plain_edge _ P)) as [R L].
    apply fits_all_intro; cbn [fits_node children]; rewrite E.
    + split; [apply edges_some, plain_edge, P|]. split; [exact R|apply edges_some, plain_edge, P2].
    + constructor; [now apply IH|]. constructor; [now apply IH2|constructor].
  - intros f args P IH F A IHA n E. apply fits_all_intro; cbn [fits_node children]; rewrite E.
    + split; [apply (edges_of_primary _ (plain_edge _ P) F)|]. eapply Forall_impl; [|exact (EL _ A)]. intros x Hx. now left.
    + constructor; [now apply IH|now apply MF].
  - intros es qs P IH L Q n E. apply fits_all_intro; cbn [fits_node children]; rewrite E.
    + split; [exact L|]. split; [exact Q|]. eapply Forall_impl; [|exact (EL _ P)]. intros x [Hx _]. lia.
    + cbn [children_expression children_template]. apply Forall_app. split; [now apply MF|].
      clear. induction qs; constructor; auto. apply fits_ident.
  - intros op l r O P IHl P2 IHr S n E. destruct (other_level op O) as (O1 & O2 & O3 & O4). destruct (other_binary op O) as [OB NA].
    apply fits_all_intro; cbn [fits_node children]; rewrite E.
    + split; [exact OB|]. split; [apply edges_some, plain_edge, P|]. split; [apply edges_some, plain_edge, P2|].
      rewrite O1, O2. split; [apply edges_left; [apply plain_edge, P|lia]|]. split; [apply edges_right; [apply plain_edge, P2|lia]|].
      split; [intros A; contradiction|]. now apply binary_sticks.
    + constructor; [now apply IHl|]. constructor; [now apply IHr|constructor].
  - intros op l r O V P IHl P2 IHr n E. destruct (assignment_level op O) as (O1 & O2 & O3).
    destruct (edges_of_primary _ (plain_edge _ P) (lvalue_primary _ P V)) as [L1 L2].
    apply fits_all_intro; cbn [fits_node children]; rewrite E.
    + split; [unfold binary_operators; apply in_or_app; now right|]. split; [lia|]. split; [apply edges_some, plain_edge, P2|].
      rewrite O1, O2, O3. split; [unfold rl_in; destruct (in_parens _ _); unfold closed_level; lia|].
      split; [destruct (edges_value _ (plain_edge _ P2)); cbn [Nat.add]; lia|].
      split; [auto|]. right. now apply assign_no_stick.
    + constructor; [now apply IHl|]. constructor; [now apply IHr|constructor].
  - intros op x O P IH C n E. apply fits_all_intro; cbn [fits_node children]; rewrite E.
    + split; [exact O|]. split; [|now apply prefix_sticks].
      destruct (plain_edge _ P); try lia; destruct C as [C|[C|[C _]]]; destruct (n_item x); discriminate || contradiction.
    + constructor; [now apply IH|constructor].
  - intros op x O V P IH n E. apply fits_all_intro; cbn [fits_node children]; rewrite E.
    + split; [exact O|]. split; [exact V|]. apply (edges_of_primary _ (plain_edge _ P) (lvalue_primary _ P V)).
    + constructor; [now apply IH|constructor].
  - intros t c a P IHt P2 IHc P3 IHa S1 C1 A1 S2 S3 n E. apply fits_all_intro; cbn [fits_node children]; rewrite E.
    + split; [destruct (plain_edge _ P); try lia; congruence || contradiction|].
      split; apply edges_single; auto; now apply plain_edge.
    + constructor; [now apply IHt|]. constructor; [now apply IHc|]. constructor; [now apply IHa|constructor].
  - intros es L P IH n E. apply fits_all_intro; cbn [fits_node children]; rewrite E.
    + split; [exact L|]. now apply EL.
    + now apply MF.
  - constructor.
  - intros x es P IH S PL IHL. constructor; auto.
Qed.
Lemma plain_fit n : plain (n_item n) -> fits_all (A_Expr n).
Proof. intros P. now apply (proj1 plain_fits (n_item n)). Qed.

(** ** Statements *)
Lemma plain_pos e : plain e -> 0 < ll e.
Proof. intros P. apply edges_some, plain_edge, P. Qed.
Lemma plain_element e : plain e -> is_sequence e = false -> element e.
Proof. intros P. apply edges_element, plain_edge, P. Qed.
Lemma fits_option o : plain_option o -> Forall fits_all (opt A_Expr o).
Proof. destruct o; cbn; intros H; constructor; [now apply plain_fit|constructor]. Qed.
Lemma pos_option o : plain_option o -> match o with Some e => 0 < ll (n_item e) | None => True end.
Proof. destruct o; cbn; [apply plain_pos|trivial]. Qed.
Lemma fits_labels (o : option (node str)) : Forall fits_all (opt A_Ident o).
Proof. destruct o; constructor; [apply fits_ident|constructor]. Qed.
Lemma fits_param p : plain_param p -> fits_all (A_Pat p).
Proof.
  intros (s & E & H). apply fits_all_intro; cbn [fits_node children]; rewrite E; [exact H|constructor].
Qed.
Lemma base_param p : plain_param p -> base_pattern (n_item p).
Proof. intros (s & E & H). rewrite E. exact I. Qed.
Lemma fits_declarator d : plain_declarator d -> fits_all (A_Declarator d).
Proof.
  unfold plain_declarator. intros H. apply fits_all_intro; cbn [fits_node children]; destruct (n_item d) as [p i]; destruct H as [P Q].
  - split; [now apply base_param|]. destruct i; [|exact I]. now apply plain_element.
  - constructor; [now apply fits_param|]. destruct i; cbn [opt]; constructor; [now apply plain_fit|constructor].
Qed.
Lemma fits_map {A : Type} (f : A -> any) (Q : A -> Prop) l : (forall x, Q x -> fits_all (f x)) -> Forall Q l -> Forall fits_all (map f l).
Proof. intros H K. induction K; cbn; constructor; auto. Qed.
Lemma fits_init_declaration i k ds : n_item i = FI_Declaration k ds -> Forall plain_declarator ds -> fits_all (A_ForInit i).
Proof.
  intros E H. apply fits_all_intro; cbn [fits_node children]; [exact I|]. rewrite E. exact (fits_map _ _ _ fits_declarator H).
Qed.
Lemma fits_init_expression i e : n_item i = FI_Expression e -> plain (n_item e) -> fits_all (A_ForInit i).
Proof.
  intros E H. apply fits_all_intro; cbn [fits_node children]; [exact I|]. rewrite E. constructor; [now apply plain_fit|constructor].
Qed.
Lemma single_declarator p : (exists x s, n_item p = Declarator x None /\ n_item x = Pat_Identifier s /\ identifier_name s) -> plain_declarator p.
Proof. intros (x & s & E & E2 & H). unfold plain_declarator. rewrite E. split; [eauto|exact I]. Qed.

Lemma plain_statement_fits :
  (forall s, plain_statement s -> forall n, n_item n = s -> fits_all (A_Stmt n)) /\
  (forall ss, plain_statements ss -> Forall fits_all (map A_Stmt ss)) /\
  (forall cs, plain_cases cs -> Forall fits_all (map A_Case cs)).
Proof.
  assert (B : forall b, Forall fits_all (map A_Stmt (b_body (n_item b))) -> fits_all (A_Body b)).
  { intros b H. apply fits_all_intro; [exact I|exact H]. }
  apply plain_statement_all; cbv beta.
  - intros e P n E. apply fits_all_intro; cbn [fits_node children]; rewrite E.
    + split; [now apply plain_pos|]. intros _. unfold starts_bare. now apply plain_bare.
    + constructor; [now apply plain_fit|constructor].
  - intros k ds N D n E. apply fits_all_intro; cbn [fits_node children]; rewrite E; [exact N|exact (fits_map _ _ _ fits_declarator D)].
  - intros e P n E. apply fits_all_intro; cbn [fits_node children]; rewrite E; [exact (pos_option e P)|exact (fits_option e P)].
  - intros e P n E. apply fits_all_intro; cbn [fits_node children]; rewrite E; [exact (plain_pos _ P)|].
    constructor; [now apply plain_fit|constructor].
  - intros l L n E. apply fits_all_intro; cbn [fits_node children]; rewrite E; [exact L|apply fits_labels].
  - intros l L n E. apply fits_all_intro; cbn [fits_node children]; rewrite E; [exact L|apply fits_labels].
  - intros t c P S IH n E. apply fits_all_intro; cbn [fits_node children]; rewrite E.
    + split; [now apply plain_pos|]. intros H; now destruct H.
    + cbn [children_statement opt app]. constructor; [now apply plain_fit|]. constructor; [now apply IH|constructor].
  - intros t c a P S IHc S2 IHa O n E. apply fits_all_intro; cbn [fits_node children]; rewrite E.
    + split; [now apply plain_pos|]. auto.
    + cbn [children_statement opt app]. constructor; [now apply plain_fit|]. constructor; [now apply IHc|]. constructor; [now apply IHa|constructor].
  - intros t b P S IH n E. apply fits_all_intro; cbn [fits_node children]; rewrite E; [now apply plain_pos|].
    constructor; [now apply plain_fit|]. constructor; [now apply IH|constructor].
  - intros b t S IH P n E. apply fits_all_intro; cbn [fits_node children]; rewrite E; [now apply plain_pos|].
    constructor; [now apply IH|]. constructor; [now apply plain_fit|constructor].
  - intros t u b T U S IH n E. apply fits_all_intro; cbn [fits_node children]; rewrite E.
    + split; [exact I|]. split; now apply pos_option.
    + cbn [children_statement opt app]. apply Forall_app. split; [now apply fits_option|]. apply Forall_app. split; [now apply fits_option|].
      constructor; [now apply IH|constructor].
  - intros i k ds t u b F N D T U S IH n E. apply fits_all_intro; cbn [fits_node children]; rewrite E.
    + cbn [statement_fits]. rewrite F. split; [exact N|]. split; now apply pos_option.
    + cbn [children_statement opt app]. constructor; [now apply (fits_init_declaration i k ds)|]. apply Forall_app. split; [now apply fits_option|]. apply Forall_app. split; [now apply fits_option|].
      constructor; [now apply IH|constructor].
  - intros i e t u b F P N T U S IH n E. apply fits_all_intro; cbn [fits_node children]; rewrite E.
    + cbn [statement_fits]. rewrite F. split; [split; [now apply plain_pos|exact N]|]. split; now apply pos_option.
    + cbn [children_statement opt app]. constructor; [now apply (fits_init_expression i e)|]. apply Forall_app. split; [now apply fits_option|]. apply Forall_app. split; [now apply fits_option|].
      constructor; [now apply IH|constructor].
  - intros i k p r b F D P S IH n E. apply fits_all_intro; cbn [fits_node children]; rewrite E.
    + cbn [statement_fits]. rewrite F. split; [now apply plain_pos|]. destruct D as (x & s & D & _). eauto.
    + constructor; [apply (fits_init_declaration i k [p]); auto; constructor; [now apply single_declarator|constructor]|].
      constructor; [now apply plain_fit|]. constructor; [now apply IH|constructor].
  - intros i k p r b F D P S IH n E. apply fits_all_intro; cbn [fits_node children]; rewrite E.
    + cbn [statement_fits]. rewrite F. split; [now apply plain_pos|]. discriminate.
    + constructor; [apply (fits_init_declaration i k [p]); auto; constructor; [now apply single_declarator|constructor]|].
      constructor; [now apply plain_fit|]. constructor; [now apply IH|constructor].
  - intros b S IH n E. apply fits_all_intro; cbn [fits_node children]; rewrite E; [exact I|exact IH].
  - intros l b L S IH n E. apply fits_all_intro; cbn [fits_node children]; rewrite E; [exact L|]. constructor; [now apply IH|constructor].
  - intros f ps b F PS S IH n E. apply fits_all_intro; cbn [fits_node children]; rewrite E.
    + split; [exists f; auto|]. split; [reflexivity|]. clear - PS. induction PS as [|p ps P PS IH]; [exact I|]. split; [|exact IH].
      left. left. now apply base_param.
    + cbn [children_statement children_func children_name app]. constructor; [apply fits_ident|]. apply Forall_app.
      split; [exact (fits_map _ _ _ fits_param PS)|]. constructor; [now apply B|constructor].
  - intros b c h p H P S IHb S2 IHc n E. apply fits_all_intro; cbn [fits_node children]; rewrite E.
    + split; [discriminate|reflexivity].
    + cbn [children_statement opt app]. constructor; [now apply B|]. constructor; [|constructor].
      apply fits_all_intro; cbn [fits_node children]; rewrite H; [now apply base_param|].
      constructor; [now apply fits_param|]. constructor; [now apply B|constructor].
  - intros d cs P C IH n E. apply fits_all_intro; cbn [fits_node children]; rewrite E; [now apply plain_pos|].
    constructor; [now apply plain_fit|]. constructor; [|constructor]. apply fits_all_intro; [exact I|exact IH].
  - constructor.
  - intros s ss S IH SS IHS. cbn [map]. constructor; [now apply IH|exact IHS].
  - constructor.
  - intros c t b cs E T S IH C IHC. cbn [map]. constructor; [|exact IHC].
    apply fits_all_intro; cbn [fits_node children]; rewrite E; [exact (pos_option t T)|].
    apply Forall_app. split; [now apply fits_option|exact IH].
Qed.
Lemma plain_module_fits m : plain_statements m -> fits m.
Proof.
  intros H. apply fits_module. apply plain_statement_fits in H. clear -H. induction m; constructor; inversion H; auto.
Qed.
End Plain.
