(** The scope analysis finds what SpecScope.v describes. *)
From Coq Require Import List NArith Bool String Lia.
From Verif Require Import Bytes Token Lexer Ast AstInd Visitor SpecVisit VisitFacts SpecScope.
Import ListNotations.
Open Scope nat_scope.

(** What a part of a traversal adds to the current scope. *)
Definition adds (v : visit) (t : bool) (u d : list str) (c : list scope) : Prop :=
  forall k t0 u0 d0 c0 ps, analyzer_run (Scope k t0 u0 d0 c0, ps) v =
    Done (Scope k (t0 || t) (u0 ++ u) (d0 ++ d) (c0 ++ c), ps).
Definition finds (v : visit) (ps : list piece) : Prop := exists t u d c, reads ps t u d c /\ adds v t u d c.

Lemma adds_nil : adds [] false [] [] [].
Proof. intros k t u d c ps. now rewrite orb_false_r, !app_nil_r. Qed.
Lemma adds_app v t u d c v' t' u' d' c' : adds v t u d c -> adds v' t' u' d' c' ->
  adds (v ++ v') (t || t') (u ++ u') (d ++ d') (c ++ c').
Proof.
  intros H H' k t0 u0 d0 c0 ps. rewrite analyzer_run_app, H. cbn [obind]. rewrite H'. now rewrite !app_assoc, orb_assoc.
Qed.
Lemma reads_app ps ps' : forall t u d c t' u' d' c', reads ps t u d c -> reads ps' t' u' d' c' ->
  reads (ps ++ ps') (t || t') (u ++ u') (d ++ d') (c ++ c').
Proof.
  intros t u d c t' u' d' c' H H'. induction H; cbn [app]; rewrite <- ?orb_assoc, <- ?app_assoc; cbn [orb]; try assumption; try (econstructor; eauto; fail).
Qed.
Lemma finds_nil : finds [] [].
Proof. exists false, [], [], []. split; [constructor|apply adds_nil]. Qed.
Lemma finds_app v v' ps ps' : finds v ps -> finds v' ps' -> finds (v ++ v') (ps ++ ps').
Proof.
  intros (t & u & d & c & R & A) (t' & u' & d' & c' & R' & A'). do 4 eexists. split; [eapply reads_app; eassumption|now apply adds_app].
Qed.
Lemma finds_quiet c v ps : (forall st, analyzer_step st c = Done st) -> finds v ps -> finds (c :: v) ps.
Proof.
  intros Q (t & u & d & cs & R & A). exists t, u, d, cs. split; [exact R|]. intros k t0 u0 d0 c0 st. cbn [analyzer_run]. rewrite Q. cbn [obind]. apply A.
Qed.
Lemma finds_end c v ps : (forall st, analyzer_step st c = Done st) -> finds v ps -> finds (v ++ [c]) ps.
Proof. intros Q H. rewrite <- (app_nil_r ps). apply finds_app; [exact H|]. apply finds_quiet; [exact Q|apply finds_nil]. Qed.
Lemma finds_here v a : finds v (pieces a) -> finds v [Here a].
Proof.
  intros (t & u & d & c & R & A). exists t, u, d, c. split; [|exact A].
  generalize (reads_here a [] t u d c false [] [] [] R reads_nil). now rewrite orb_false_r, !app_nil_r.
Qed.
Lemma finds_use x : finds [V_reference_use x] [Uses x].
Proof.
  exists false, [x], [], []. split; [constructor; constructor|]. intros k t u d c ps. cbn. now rewrite orb_false_r, !app_nil_r.
Qed.
Lemma finds_declare x : finds [V_reference_declaration x] [Declares x].
Proof.
  exists false, [], [x], []. split; [constructor; constructor|]. intros k t u d c ps. cbn. now rewrite orb_false_r, !app_nil_r.
Qed.
Lemma finds_inner k v l : finds v (map Here l) -> finds (V_enter_scope k :: v ++ [V_leave_scope]) [Inner k l].
Proof.
  intros (t & u & d & c & R & A). exists false, [], [], [Scope k t u d c]. split.
  - apply (reads_inner k l [] t u d c false [] [] [] R). constructor.
  - intros k0 t0 u0 d0 c0 ps. cbn [analyzer_run analyzer_step obind]. rewrite analyzer_run_app.
    unfold scope_new. rewrite A. cbn. now rewrite orb_false_r, !app_nil_r.
Qed.
Lemma finds_list {A : Set} (g : A -> visit) (h : node A -> any) l : (forall n, v_any (h n) = g (n_item n)) ->
  Forall (fun a => finds (v_any a) (pieces a)) (map h l) -> finds (v_list g l) (map Here (map h l)).
Proof.
  intros E H. induction l as [|n l IH]; cbn [v_list map] in *; [apply finds_nil|]. inversion H; subst.
  apply (finds_app _ _ [Here (h n)]); [apply finds_here; now rewrite <- E|auto].
Qed.
Lemma finds_flat {A : Set} (g : node A -> visit) (h : node A -> any) l : (forall n, v_any (h n) = g n) ->
  Forall (fun a => finds (v_any a) (pieces a)) (map h l) -> finds (flat_map g l) (map Here (map h l)).
Proof.
  intros E H. induction l as [|n l IH]; cbn [flat_map map] in *; [apply finds_nil|]. inversion H; subst.
  apply (finds_app _ _ [Here (h n)]); [apply finds_here; now rewrite <- E|auto].
Qed.
Lemma finds_idents l v ps : finds v ps -> finds v (ps ++ map Here (map A_Ident l)).
Proof.
  intros (t & u & d & c & R & A). exists t, u, d, c. split; [|exact A].
  assert (K : reads (map Here (map A_Ident l)) false [] [] []).
  { clear. induction l as [|n l IH]; [constructor|]. cbn [map]. apply (reads_here (A_Ident n) _ false [] [] [] false [] [] []); [constructor|exact IH]. }
  generalize (reads_app _ _ _ _ _ _ _ _ _ _ R K). now rewrite orb_false_r, !app_nil_r.
Qed.
Lemma finds_name n : finds (v_name n) (pieces_name n).
Proof. destruct n; cbn; first [apply finds_nil|apply finds_declare]. Qed.
Lemma finds_expr n v ps : n_item n <> E_This -> finds v ps -> finds (v_with_parent n v) ps.
Proof.
  intros N H. unfold v_with_parent. cbn [app]. apply finds_quiet; [intros [? ?]; cbn; destruct (n_item n); congruence|].
  apply finds_quiet; [intros [? ?]; reflexivity|]. apply finds_end; [intros [? ?]; reflexivity|exact H].
Qed.
Lemma finds_stmt n v ps : finds v ps -> finds (v_stmt_with_parent n v) ps.
Proof.
  intros H. unfold v_stmt_with_parent. cbn [app]. apply finds_quiet; [intros [? ?]; reflexivity|].
  apply finds_quiet; [intros [? ?]; reflexivity|]. apply finds_end; [intros [? ?]; reflexivity|exact H].
Qed.
Notation good := (fun a => finds (v_any a) (pieces a)).
Lemma finds_block b k : good (A_Body b) ->
  finds (([V_enter_scope k; V_statement_list (b_body (n_item b))]
          ++ flat_map (fun n => v_statement (n_start n) (n_end n) (n_item n)) (b_body (n_item b))) ++ [V_leave_scope])
        [Inner k [A_Body b]].
Proof.
  intros H. apply (finds_inner k (V_statement_list _ :: flat_map visit_statement _)).
  apply finds_quiet; [intros [? ?]; reflexivity|]. apply finds_here. exact H.
Qed.
Ltac sub H := match type of H with
  | Forall _ (_ :: _) => let H1 := fresh in let H2 := fresh in
      inversion H as [|? ? H1 H2]; subst; clear H; sub H2
  | Forall _ (_ ++ _) => let H1 := fresh in let H2 := fresh in
      apply Forall_app in H as [H1 H2]; sub H1; sub H2
  | Forall _ [] => clear H
  | _ => idtac
  end.
Lemma finds_func g : Forall good (children_func g) -> finds (v_func g) (pieces_func g).
Proof.
  destruct g as [n ge ps b]. cbn [children_func v_func pieces_func]. intros H. sub H. apply finds_app; [apply finds_name|].
  assert (K : finds (v_list v_pattern ps ++ V_statement_list (b_body (n_item b)) :: flat_map visit_statement (b_body (n_item b)))
                    (map Here (map A_Pat ps ++ [A_Body b]))).
  { rewrite map_app. apply finds_app; [now apply finds_list|]. apply finds_quiet; [intros [? ?]; reflexivity|]. now apply finds_here. }
  apply finds_inner with (k := SK_Function) in K. cbn [app]. rewrite <- app_assoc in K. exact K.
Qed.
Lemma finds_class g : Forall good (children_class g) -> finds (v_class g) (pieces_class g).
Proof.
  destruct g as [n o b]. cbn [children_class v_class pieces_class]. intros H. apply finds_app; [apply finds_name|].
  destruct o; cbn [opt app map] in *; sub H.
  - apply (finds_app _ _ [_] [_]); apply finds_here; assumption.
  - apply finds_here; assumption.
Qed.
Lemma finds_template g : Forall good (children_template g) -> finds (v_template g) (map Here (children_template g)).
Proof.
  destruct g as [es qs]. cbn [children_template v_template]. intros H. sub H. rewrite map_app. apply finds_idents. now apply finds_flat.
Qed.
Lemma finds_opt {A : Set} (g : node A -> visit) (h : node A -> any) o : (forall n, v_any (h n) = g n) -> Forall good (opt h o) ->
  finds (match o with Some n => g n | None => [] end) (map Here (opt h o)).
Proof. intros E H. destruct o; cbn [opt map] in *; [|apply finds_nil]. sub H. apply finds_here. now rewrite <- E. Qed.
Lemma finds_specs l : finds (v_list v_specifier l) (map Here (map A_Spec l)).
Proof.
  induction l as [|n l IH]; [apply finds_nil|]. cbn [v_list map]. apply (finds_app _ _ [Here (A_Spec n)]); [|exact IH].
  apply finds_here. cbn [pieces]. destruct (n_item n); cbn [v_specifier]; unfold v_ident; try apply finds_use.
  apply (finds_app [_] [_] [_] [_]); apply finds_use.
Qed.
Ltac two := match goal with |- finds _ (?p :: _ :: _) => apply (finds_app _ _ [p]) | |- finds _ (map _ (?p :: ?x :: ?y)) => change (finds) with finds; apply (finds_app _ _ (map Here [p]) (map Here (x :: y))) end.
Ltac close := repeat first [assumption | apply finds_nil
  | (eapply (finds_flat _ A_Expr); [reflexivity|eassumption])
  | (eapply (finds_flat _ A_Stmt); [reflexivity|eassumption])
  | (eapply (finds_list v_pattern A_Pat); [reflexivity|eassumption])
  | (eapply (finds_list v_property A_Prop); [reflexivity|eassumption])
  | (eapply (finds_list v_member A_Member); [reflexivity|eassumption])
  | (eapply (finds_list v_declarator A_Declarator); [reflexivity|eassumption])
  | (eapply (finds_list v_case A_Case); [reflexivity|eassumption])
  | (apply finds_here; assumption)
  | apply finds_use | apply finds_declare | apply finds_specs
  | apply (finds_opt _ A_Expr); [reflexivity|assumption]
  | apply (finds_opt _ A_Stmt); [reflexivity|assumption]
  | apply (finds_opt _ A_ForInit); [reflexivity|assumption]
  | (apply finds_quiet; [intros [? ?]; reflexivity|])
  | rewrite map_app | apply finds_app | two ].
Theorem finds_any a : (forall m, within (A_Member m) a -> n_item m <> CM_Error) -> finds (v_any a) (pieces a).
Proof.
  revert a. apply (tree_ind (fun a => (forall m, within (A_Member m) a -> n_item m <> CM_Error) -> finds (v_any a) (pieces a))).
  intros a IH HE.
  assert (K : Forall good (children a)).
  { rewrite Forall_forall in *. intros c Hc. apply IH; auto. intros m W. apply HE. econstructor; eauto. }
  clear IH. destruct a as [n|n|n|n|n|n|n|n|n|n|n|n|n|n|n|n|n]; destruct n as [s e x]; cbn [v_any n_item children pieces] in *.
  - apply finds_nil.
  - unfold visit_expression; cbn [n_item n_start n_end].
    destruct x as [| | |l|b|b|o p|o p|m p|g args|op l r|op x|op x|t q a|t|t q|x|ps [x|b]|b|g|g];
      cbn [v_expression children_expression] in *; try (apply finds_expr; [discriminate|]); try solve [sub K; cbn [map]; close].
    + exists true, [], [], []. split; [apply (reads_this [] false); constructor|]. intros k t u d c ps. cbn. now rewrite orb_true_r, !app_nil_r.
    + sub K. apply (finds_idents [p] _ [Here (A_Expr o)]). close.
    + sub K. cbn [map]. match goal with |- finds _ (?p :: _) => apply (finds_app _ _ [p]) end; close.
    + now apply finds_template.
    + now apply finds_func.
    + now apply finds_class.
  - now apply finds_template.
  - destruct x; sub K; cbn [v_property map]; close.
  - destruct x; sub K; cbn [v_key map]; close.
  - destruct x; sub K; cbn [v_pattern map]; close.
  - now apply finds_func.
  - destruct x; sub K; cbn [v_member map]; [destruct (HE _ (within_refl _) eq_refl)|close|close].
  - destruct x. close.
  - destruct x. close.
  - destruct x. close.
  - unfold visit_statement; cbn [n_item n_start n_end].
    destruct x as [| |x|k ds|v|l|l|v|t q a|t b|b t|i t u b|l r b|l r b|b h f|b|l b|g|g|d q|ss src];
      cbn [v_statement children_statement] in *; try (apply finds_stmt); try solve [sub K; cbn [map app]; close].
    + destruct l as [l|]; [apply (finds_idents [l] [] [])|]; apply finds_nil.
    + destruct l as [l|]; [apply (finds_idents [l] [] [])|]; apply finds_nil.
    + destruct a; cbn [opt app map] in *; sub K; apply (finds_app _ _ [_]); try (apply finds_here; assumption).
      * apply (finds_app _ _ [_]); apply finds_here; assumption.
      * rewrite app_nil_r. apply finds_here; assumption.
    + sub K. apply finds_app; [|apply finds_app].
      * generalize (finds_block b SK_Block). rewrite <- app_assoc. auto.
      * destruct h; cbn [opt] in *; [|apply finds_nil]. match goal with K : Forall _ [A_Catch _] |- _ => inversion K; subst end. apply finds_here; assumption.
      * destruct f as [f|]; cbn [opt] in *; [|apply finds_nil]. match goal with K : Forall _ [A_Body f] |- _ => inversion K; subst end. match goal with K : finds (v_any (A_Body f)) _ |- _ => generalize (finds_block f SK_Block K) end.
        rewrite <- app_assoc. auto.
    + apply (finds_inner SK_Block (V_statement_list _ :: flat_map visit_statement _)). apply finds_quiet; [intros [? ?]; reflexivity|]. now apply finds_flat.
    + now apply finds_func.
    + now apply finds_class.
    + sub K. apply (finds_app _ _ [_]); [now apply finds_here|]. apply (finds_inner SK_Block). now apply finds_here.
    + cbn [app]. apply finds_quiet; [intros [? ?]; reflexivity|]. apply (finds_app [_] _ [_]); [apply finds_use|]. apply finds_end; [intros [? ?]; reflexivity|]. apply finds_specs.
  - destruct x as [p i]; cbn [v_declarator] in *. destruct i; cbn [opt] in *; sub K; cbn [map].
    + apply (finds_app _ _ [_]); apply finds_here; assumption.
    + rewrite app_nil_r. apply finds_here; assumption.
  - destruct x; cbn [v_for_init] in *; sub K; close.
  - destruct x as [t b]; cbn [v_case] in *. destruct t; cbn [opt app] in *; sub K; cbn [map].
    + apply (finds_app _ _ [_]); close.
    + close.
  - destruct x as [p b]; cbn [v_catch] in *; sub K. apply (finds_app _ _ [_]); [now apply finds_here|].
    match goal with K : finds (v_any (A_Body b)) _ |- _ => generalize (finds_block b SK_Block K) end. rewrite <- app_assoc. auto.
  - change (finds (v_specifier x) (pieces (A_Spec (Node s e x)))). cbn [pieces n_item]. destruct x; cbn [v_specifier]; unfold v_ident; try apply finds_use.
    apply (finds_app [_] [_] [_] [_]); apply finds_use.
Qed.

Theorem analyze_reads m : (forall x, in_module (A_Member x) m -> n_item x <> CM_Error) ->
  exists t u d c, analyze m = Done (Scope SK_Function t u d c, []) /\ reads (map Here (map A_Stmt m)) t u d c.
Proof.
  intros H. assert (K : finds (visit_module m) (map Here (map A_Stmt m))).
  { apply finds_flat; [reflexivity|]. apply Forall_forall. intros a I. apply finds_any. intros x W. apply H.
    apply in_map_iff in I as (s & <- & I). exists s. auto. }
  destruct K as (t & u & d & c & R & A). exists t, u, d, c. split; [|exact R]. exact (A SK_Function false [] [] [] []).
Qed.
Lemma reads_unique ps t u d c : reads ps t u d c -> forall t' u' d' c', reads ps t' u' d' c' -> t = t' /\ u = u' /\ d = d' /\ c = c'.
Proof.
  induction 1 as [|a ps t u d c t1 u1 d1 c1 R1 I1 R2 I2|k l ps t u d c t1 u1 d1 c1 R1 I1 R2 I2|x ps t u d c R IH|x ps t u d c R IH|ps t u d c R IH];
    intros t' u' d' c' K; inversion K; subst.
  - auto.
  - match goal with K : reads (pieces a) _ _ _ _ |- _ => apply I1 in K end.
    match goal with K : reads ps _ _ _ _ |- _ => apply I2 in K end. intuition congruence.
  - match goal with K : reads (map Here l) _ _ _ _ |- _ => apply I1 in K end.
    match goal with K : reads ps _ _ _ _ |- _ => apply I2 in K end. intuition congruence.
  - match goal with K : reads ps _ _ _ _ |- _ => apply IH in K end. intuition congruence.
  - match goal with K : reads ps _ _ _ _ |- _ => apply IH in K end. intuition congruence.
  - match goal with K : reads ps _ _ _ _ |- _ => apply IH in K end. intuition congruence.
Qed.

(** What [reads] collects is what occurs directly. *)
Lemma directly_cons p q ps : directly p (q :: ps) <-> p = q \/ (exists a, q = Here a /\ directly p (pieces a)) \/ directly p ps.
Proof.
  split.
  - intros H. inversion H as [? ? I|? a ? I D]; subst.
    + destruct I as [<-|I]; [auto|]. right. right. now apply directly_here.
    + destruct I as [->|I]; [right; left; eauto|]. right. right. eapply directly_below; eauto.
  - intros [->|[(a & -> & D)|D]].
    + apply directly_here. now left.
    + eapply directly_below; [left; reflexivity|exact D].
    + inversion D as [? ? I|? a ? I D']; subst; [apply directly_here; now right|eapply directly_below; [right; exact I|exact D']].
Qed.
Lemma directly_nil p : ~ directly p [].
Proof. intros H. inversion H as [? ? I|? a ? I D]; destruct I. Qed.
Lemma reads_directly ps t u d c : reads ps t u d c ->
  (t = true <-> directly This ps) /\ (forall x, In x u <-> directly (Uses x) ps) /\ (forall x, In x d <-> directly (Declares x) ps).
Proof.
  induction 1 as [|a ps t u d c t1 u1 d1 c1 R1 (A1 & B1 & C1) R2 (A2 & B2 & C2)|k l ps t u d c t1 u1 d1 c1 R1 I1 R2 (A2 & B2 & C2)
    |x ps t u d c R (A & B & C)|x ps t u d c R (A & B & C)|ps t u d c R (A & B & C)].
  - split; [|split]; [split; [discriminate|intros K; destruct (directly_nil _ K)]|intros x|intros x];
    (split; [intros []|intros K; destruct (directly_nil _ K)]).
  - split; [|split]; [|intros x|intros x]; rewrite directly_cons, ?in_app_iff, ?orb_true_iff, ?A1, ?A2, ?B1, ?B2, ?C1, ?C2;
    (split; [intros [K|K]; [right; left; eauto|right; right; exact K]|intros [K|[(a' & E & K)|K]]; [discriminate|injection E as ->; auto|auto]]).
  - split; [|split]; [|intros x|intros x]; rewrite directly_cons, ?A2, ?B2, ?C2;
    (split; [intros K; right; right; exact K|intros [K|[(a' & E & K)|K]]; [discriminate|discriminate|exact K]]).
  - split; [|split]; [|intros y|intros y]; rewrite directly_cons; cbn [In]; rewrite ?A, ?B, ?C.
    + split; [intros K; right; right; exact K|intros [K|[(a' & E & K)|K]]; [discriminate|discriminate|exact K]].
    + split; [intros K; right; right; exact K|intros [K|[(a' & E & K)|K]]; [discriminate|discriminate|exact K]].
    + split; [intros [<-|K]; auto|intros [K|[(a' & E & K)|K]]; [injection K as ->; auto|discriminate|auto]].
  - split; [|split]; [|intros y|intros y]; rewrite directly_cons; cbn [In]; rewrite ?A, ?B, ?C.
    + split; [intros K; right; right; exact K|intros [K|[(a' & E & K)|K]]; [discriminate|discriminate|exact K]].
    + split; [intros [<-|K]; auto|intros [K|[(a' & E & K)|K]]; [injection K as ->; auto|discriminate|auto]].
    + split; [intros K; right; right; exact K|intros [K|[(a' & E & K)|K]]; [discriminate|discriminate|exact K]].
  - split; [|split]; [|intros y|intros y]; rewrite directly_cons; rewrite ?A, ?B, ?C.
    + split; auto.
    + split; [intros K; right; right; exact K|intros [K|[(a' & E & K)|K]]; [discriminate|discriminate|exact K]].
    + split; [intros K; right; right; exact K|intros [K|[(a' & E & K)|K]]; [discriminate|discriminate|exact K]].
Qed.
(** The scopes inside are the inner parts. *)
Definition matches_part (s : scope) (p : scope_kind * list any) : Prop :=
  sc_kind s = fst p /\ reads (map Here (snd p)) (sc_used_this s) (sc_used s) (sc_declared s) (sc_children s).
Lemma reads_children ps t u d c : reads ps t u d c ->
  (forall s, In s c -> exists k l, directly (Inner k l) ps /\ matches_part s (k, l)) /\
  (forall k l, directly (Inner k l) ps -> exists s, In s c /\ matches_part s (k, l)).
Proof.
  induction 1 as [|a ps t u d c t1 u1 d1 c1 R1 [A1 B1] R2 [A2 B2]|k l ps t u d c t1 u1 d1 c1 R1 I1 R2 [A2 B2]
    |x ps t u d c R [A B]|x ps t u d c R [A B]|ps t u d c R [A B]].
  - split; [intros s []|intros k l K; destruct (directly_nil _ K)].
  - split.
    + intros s I. apply in_app_iff in I as [I|I]; [destruct (A1 _ I) as (k & l & D & M)|destruct (A2 _ I) as (k & l & D & M)];
      exists k, l; (split; [rewrite directly_cons; eauto|exact M]).
    + intros k l D. rewrite directly_cons in D. destruct D as [D|[(a' & E & D)|D]]; [discriminate| |].
      * injection E as <-. destruct (B1 _ _ D) as (s & I & M). exists s. rewrite in_app_iff. auto.
      * destruct (B2 _ _ D) as (s & I & M). exists s. rewrite in_app_iff. auto.
  - split.
    + intros s [<-|I].
      * exists k, l. split; [rewrite directly_cons; auto|]. split; [reflexivity|exact R1].
      * destruct (A2 _ I) as (k' & l' & D & M). exists k', l'. split; [rewrite directly_cons; auto|exact M].
    + intros k' l' D. rewrite directly_cons in D. destruct D as [D|[(a' & E & D)|D]]; [|discriminate|].
      * injection D as -> ->. eexists. split; [left; reflexivity|]. split; [reflexivity|exact R1].
      * destruct (B2 _ _ D) as (s & I & M). exists s. split; [right; exact I|exact M].
  - split.
    + intros s I. destruct (A _ I) as (k & l & D & M). exists k, l. split; [rewrite directly_cons; auto|exact M].
    + intros k l D. rewrite directly_cons in D. destruct D as [D|[(a' & E & D)|D]]; [discriminate|discriminate|auto].
  - split.
    + intros s I. destruct (A _ I) as (k & l & D & M). exists k, l. split; [rewrite directly_cons; auto|exact M].
    + intros k l D. rewrite directly_cons in D. destruct D as [D|[(a' & E & D)|D]]; [discriminate|discriminate|auto].
  - split.
    + intros s I. destruct (A _ I) as (k & l & D & M). exists k, l. split; [rewrite directly_cons; auto|exact M].
    + intros k l D. rewrite directly_cons in D. destruct D as [D|[(a' & E & D)|D]]; [discriminate|discriminate|auto].
Qed.
(** Every scope is that of a region, and every region has one. *)
Lemma regions m t u d c : reads (map Here (map A_Stmt m)) t u d c ->
  (forall s, scope_in s (Scope SK_Function t u d c) -> exists k l, region m k l /\ matches_part s (k, l)) /\
  (forall k l, region m k l -> exists s, scope_in s (Scope SK_Function t u d c) /\ matches_part s (k, l)).
Proof.
  intros R. set (root := Scope SK_Function t u d c).
  assert (K0 : matches_part root (SK_Function, map A_Stmt m)) by (split; [reflexivity|exact R]).
  split.
  - assert (G : forall s r, scope_in s r -> forall k l, region m k l -> matches_part r (k, l) -> exists k' l', region m k' l' /\ matches_part s (k', l')).
    { induction 1 as [s|s x r I S IH]; intros k l Rg M; [eauto|]. destruct M as [_ M].
      destruct (proj1 (reads_children _ _ _ _ _ M) _ I) as (k' & l' & D & M'). eapply IH; [eapply region_inner; eauto|exact M']. }
    intros s I. eapply G; [exact I|apply region_module|exact K0].
  - induction 1 as [|k l k' l' Rg (s & I & M) D]; [exists root; split; [constructor|exact K0]|].
    destruct M as [_ M]. destruct (proj2 (reads_children _ _ _ _ _ M) _ _ D) as (s' & I' & M'). exists s'. split; [|exact M'].
    clear -I I'. induction I as [s|s x r J S IH]; econstructor; eauto. constructor.
Qed.
