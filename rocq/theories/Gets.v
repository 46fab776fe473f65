(** Running the parser on generated code, without errors.

    [gets p lx Q]: the program [p], started on the lexer [lx] with no errors,
    ends without errors, and its result and the lexer it leaves satisfy [Q].
    [pend nl c K]: a lexer that still has to read the text of the code [c] and
    then the end of the program (after some white space, without a line feed
    if [nl] is [false]) can read a token, and the lexer it then is satisfies
    [K]. *)
From Coq Require Import List NArith PeanoNat Bool String Lia.
From Coq.Strings Require Import Byte.
From Verif Require Import Bytes Token Tables Lexer SpecLexer SpecTokens SpecChunks Ast Prog Parser Codegen
  LexerFacts ConsumeFacts LexEval ProgFacts ParseFacts.
Import ListNotations.
Open Scope nat_scope.
Open Scope list_scope.

Section Gets.
  Variable alnum : N -> bool.
  Notation run := (run alnum body).

  Definition gets {A : Type} (p : P A) (lx : lexer) (Q : A -> lexer -> Prop) : Prop :=
    exists n a lx', run n p (PState lx []) = Done (a, PState lx' []) /\ Q a lx'.

  Lemma gets_ret {A} (a : A) lx (Q : A -> lexer -> Prop) : Q a lx -> gets (Ret a) lx Q.
  Proof. intros H. exists 0, a, lx. split; auto. Qed.
  Lemma gets_ret_inv {A} (a : A) lx (Q : A -> lexer -> Prop) : gets (Ret a) lx Q -> Q a lx.
  Proof. intros (n & b & lx' & E & H). rewrite run_Ret in E. injection E as <- <-. exact H. Qed.
  Lemma gets_look {A} (k : view -> P A) lx Q : gets (k (view_of lx)) lx Q <-> gets (Look k) lx Q.
  Proof. unfold gets. split; intros (n & b & lx' & E & H); exists n, b, lx'; (split; [|exact H]); rewrite run_Look in *; exact E. Qed.
  Lemma gets_consume {A} (k : P A) lx lx' Q : consume alnum lx = Done lx' -> gets k lx' Q -> gets (Consume k) lx Q.
  Proof.
    intros E (n & b & lx2 & E2 & H). exists n, b, lx2. split; [|exact H].
    rewrite run_Consume. unfold op_consume. cbn [p_lexer p_errors]. rewrite E. exact E2.
  Qed.
  Lemma gets_consume_inv {A} (k : P A) lx Q : gets (Consume k) lx Q ->
    exists lx', consume alnum lx = Done lx' /\ gets k lx' Q.
  Proof.
    intros (n & b & lx2 & E & H). rewrite run_Consume in E. unfold op_consume in E. cbn [p_lexer p_errors] in E.
    destruct (consume alnum lx) as [lx'| | |]; cbn [obind] in E; try discriminate E. exists lx'. split; auto.
    exists n, b, lx2. auto.
  Qed.
  Lemma gets_template {A} (k : P A) lx lx' Q : read_template_kind lx = Done lx' -> gets k lx' Q -> gets (ReadTemplate k) lx Q.
  Proof.
    intros E (n & b & lx2 & E2 & H). exists n, b, lx2. split; [|exact H].
    rewrite run_Template. unfold op_template. cbn [p_lexer p_errors]. rewrite E. exact E2.
  Qed.
  Lemma gets_regex {A} (k : str -> P A) lx v lx' Q :
    read_regular_expression lx = Done (v, lx') -> gets (k v) lx' Q -> gets (ReadRegex k) lx Q.
  Proof.
    intros E (n & b & lx2 & E2 & H). exists n, b, lx2. split; [|exact H].
    rewrite run_Regex. unfold op_regex. cbn [p_lexer p_errors]. rewrite E. exact E2.
  Qed.
  Lemma gets_bind {A B} (p : P A) (g : A -> P B) lx Q :
    gets p lx (fun a lx' => gets (g a) lx' Q) <-> gets (bind p g) lx Q.
  Proof.
    split.
    - intros (n & a & lx1 & E1 & m & b & lx2 & E2 & H). exists (Nat.max n m), b, lx2. split; [|exact H].
      rewrite run_bind. rewrite (run_more _ _ _ n (Nat.max n m) _ _ _ _ (Nat.le_max_l _ _) E1) by discriminate.
      cbn [obind]. apply (run_more _ _ _ m (Nat.max n m) _ _ _ _ (Nat.le_max_r _ _) E2). discriminate.
    - intros (n & b & lx2 & E & H). rewrite run_bind in E.
      destruct (run n p (PState lx [])) as [[a [lx1 er]]| | |] eqn:E1; cbn [obind] in E; try discriminate E.
      destruct (errors_grow _ _ _ _ _ _ _ _ _ E) as [l Hl]. cbn [p_errors] in Hl.
      destruct er; [|discriminate Hl]. exists n, a, lx1. split; [auto|]. exists n, b, lx2. auto.
  Qed.
  Lemma gets_call {A} {R : Set} (f : fn R) (k : R -> P A) lx Q :
    gets (body R f) lx (fun r lx' => gets (k r) lx' Q) <-> gets (Call f k) lx Q.
  Proof.
    split.
    - intros (n & a & lx1 & E1 & m & b & lx2 & E2 & H). exists (S (Nat.max n m)), b, lx2. split; [|exact H].
      rewrite run_CallS. rewrite (run_more _ _ _ n (Nat.max n m) _ _ _ _ (Nat.le_max_l _ _) E1) by discriminate.
      cbn [obind]. apply (run_more _ _ _ m (S (Nat.max n m)) _ _ _ _ (Nat.le_trans _ _ _ (Nat.le_max_r _ _) (Nat.le_succ_diag_r _)) E2). discriminate.
    - intros ([|n] & b & lx2 & E & H); [discriminate E|]. rewrite run_CallS in E.
      destruct (run n (body R f) (PState lx [])) as [[a [lx1 er]]| | |] eqn:E1; cbn [obind] in E; try discriminate E.
      destruct (errors_grow _ _ _ _ _ _ _ _ _ E) as [l Hl]. cbn [p_errors] in Hl.
      destruct er; [|discriminate Hl]. exists n, a, lx1. split; [auto|]. exists (S n), b, lx2. auto.
  Qed.
  Lemma gets_mono {A} (p : P A) lx (Q Q' : A -> lexer -> Prop) :
    (forall a lx', Q a lx' -> Q' a lx') -> gets p lx Q -> gets p lx Q'.
  Proof. intros H (n & a & lx' & E & HQ). exists n, a, lx'. auto. Qed.
  Lemma gets_error_inv {A} (k : P A) lx Q : gets (PushError k) lx Q -> False.
  Proof.
    intros (n & b & lx2 & E & H). rewrite run_Error in E. unfold op_error in E. cbn [p_lexer p_errors] in E.
    destruct (invalid_token alnum lx) as [[e lx']| | |]; cbn [obind] in E; try discriminate E.
    destruct (errors_grow _ _ _ _ _ _ _ _ _ E) as [l Hl]. discriminate Hl.
  Qed.
  Lemma gets_and {A} (p : P A) lx (Q Q' : A -> lexer -> Prop) :
    gets p lx Q -> gets p lx Q' -> gets p lx (fun a lx' => Q a lx' /\ Q' a lx').
  Proof.
    intros (n & a & lx1 & E1 & H1) (m & b & lx2 & E2 & H2).
    assert (F1 := run_more _ _ _ n (Nat.max n m) _ _ _ _ (Nat.le_max_l _ _) E1 ltac:(discriminate)).
    assert (F2 := run_more _ _ _ m (Nat.max n m) _ _ _ _ (Nat.le_max_r _ _) E2 ltac:(discriminate)).
    rewrite F1 in F2. injection F2 as <- <-. exists n, a, lx1. auto.
  Qed.

  (** ** Renderings of code *)
  Inductive render : code -> str -> Prop :=
  | r_nil : render [] []
  | r_bytes x c s : render c s -> render (GBytes x :: c) (x ++ s)
  | r_pretty0 b c s : render c s -> render (GPretty b :: c) s
  | r_pretty1 b c s : render c s -> render (GPretty b :: c) (b :: s)
  | r_newline ws c s : Forall white ws -> render c s -> render (GNewLine :: c) (ws ++ s)
  | r_indent c s : render c s -> render (GIndent :: c) s
  | r_dedent c s : render c s -> render (GDedent :: c) s.

  Lemma render_min c : forall s, run_min c = Done s -> render c s.
  Proof.
    induction c as [|g c IH]; intros s; cbn [run_min]; [intros [= <-]; constructor|].
    destruct g; intros H.
    - destruct (run_min c) as [r| | |]; cbn [obind] in H; try discriminate H. injection H as <-. constructor. auto.
    - apply r_pretty0. auto.
    - apply (r_newline [] c s); auto.
    - constructor. auto.
    - constructor. auto.
    - discriminate H.
  Qed.
  Lemma white_sp : white x20.
  Proof. unfold white. vm_compute. split; discriminate. Qed.
  Lemma white_indent n : Forall white (indentation n).
  Proof.
    unfold indentation. induction n as [|n IH]; [constructor|]. cbn [repeat List.concat].
    apply Forall_app. split; auto. repeat (constructor; [apply white_sp|]). constructor.
  Qed.
  Lemma white_nl : white x0a.
  Proof. unfold white. vm_compute. split; discriminate. Qed.
  Lemma render_pretty c : forall d s, run_pretty d c = Done s -> render c s.
  Proof.
    induction c as [|g c IH]; intros d s; cbn [run_pretty]; [intros [= <-]; constructor|].
    destruct g; intros H.
    - destruct (run_pretty d c) as [r| | |] eqn:E; cbn [obind] in H; try discriminate H. injection H as <-. constructor. eauto.
    - destruct (run_pretty d c) as [r| | |] eqn:E; cbn [obind] in H; try discriminate H. injection H as <-. apply r_pretty1. eauto.
    - destruct (run_pretty d c) as [r| | |] eqn:E; cbn [obind] in H; try discriminate H. injection H as <-.
      apply (r_newline (x0a :: indentation d) c r); eauto. constructor; [apply white_nl|apply white_indent].
    - constructor. eauto.
    - destruct d; [discriminate H|]. constructor. eauto.
    - discriminate H.
  Qed.
  Lemma render_codegen m minify s : codegen m minify = Done s -> render (c_module m) s.
  Proof. destruct minify; cbn [codegen]; [apply render_min|apply render_pretty]. Qed.

  (** ** Pending code *)
  (** The rest of the buffer is what the cursor has before it. *)
  Definition placed (lx : lexer) : Prop :=
    exists pre, lx_buf lx = pre ++ rem (lx_cur lx) /\ List.length pre = pos (lx_cur lx).
  Definition pend (nl : bool) (c : code) (K : lexer -> Prop) : Prop :=
    forall lx0 ws s, Forall white ws -> (nl = false -> newline_in ws = false) -> render c s ->
      placed lx0 -> rem (lx_cur lx0) = ws ++ s ++ [x00] -> exists lx, consume alnum lx0 = Done lx /\ K lx.

  Lemma pend_mono nl c (K K' : lexer -> Prop) : (forall lx, K lx -> K' lx) -> pend nl c K -> pend nl c K'.
  Proof. intros HK H lx0 ws s W N R PL E. destruct (H lx0 ws s W N R PL E) as (lx & E1 & E2). eauto. Qed.
  Lemma pend_and nl c (K K' : lexer -> Prop) : pend nl c K -> pend nl c K' -> pend nl c (fun lx => K lx /\ K' lx).
  Proof.
    intros H H' lx0 ws s W N R PL E. destruct (H lx0 ws s W N R PL E) as (lx & E1 & E2).
    destruct (H' lx0 ws s W N R PL E) as (lx' & E1' & E2'). rewrite E1 in E1'. injection E1' as <-. eauto.
  Qed.
  Lemma pend_weak nl c K : pend true c K -> pend nl c K.
  Proof. intros H lx0 ws s W N R PL E. apply (H lx0 ws s); auto. discriminate. Qed.
  Lemma pend_less nl c K : pend nl c K -> pend false c K.
  Proof. intros H lx0 ws s W N R PL E. apply (H lx0 ws s); auto. Qed.
  Lemma newline_app a b : newline_in (a ++ b) = (newline_in a || newline_in b)%bool.
  Proof. unfold newline_in. apply existsb_app. Qed.
  Lemma pend_sp nl c K : pend nl c K -> pend nl (GPretty x20 :: c) K.
  Proof.
    intros H lx0 ws s W N R PL E. inversion R; subst; [eapply H; eauto|].
    match goal with H0 : render c ?x |- _ => apply (H lx0 (ws ++ [x20]) x) end; auto.
    - apply Forall_app. split; auto. constructor; [apply white_sp|constructor].
    - intros F. rewrite newline_app, N by auto. reflexivity.
    - rewrite E, <- app_assoc. reflexivity.
  Qed.
  Lemma pend_blank nl c K : pend nl c K -> pend nl (GBytes [x20] :: c) K.
  Proof.
    intros H lx0 ws s W N R PL E. inversion R; subst.
    match goal with H0 : render c ?x |- _ => apply (H lx0 (ws ++ [x20]) x) end; auto.
    - apply Forall_app. split; auto. constructor; [apply white_sp|constructor].
    - intros F. rewrite newline_app, N by auto. reflexivity.
    - rewrite E, <- !app_assoc. reflexivity.
  Qed.
  Lemma pend_newline nl c K : pend true c K -> pend nl (GNewLine :: c) K.
  Proof.
    intros H lx0 ws s W N R PL E. inversion R; subst.
    match goal with H0 : render c ?x, H1 : Forall white ?v |- _ => apply (H lx0 (ws ++ v) x) end; auto.
    - apply Forall_app. split; auto.
    - discriminate.
    - rewrite E, <- !app_assoc. reflexivity.
  Qed.
  Lemma pend_indent nl c K : pend nl c K -> pend nl (GIndent :: c) K.
  Proof. intros H lx0 ws s W N R PL E. inversion R; subst. eapply H; eauto. Qed.
  Lemma pend_dedent nl c K : pend nl c K -> pend nl (GDedent :: c) K.
  Proof. intros H lx0 ws s W N R PL E. inversion R; subst. eapply H; eauto. Qed.
  Lemma render_bytes_inv x c s : render (GBytes x :: c) s -> exists s', render c s' /\ s = x ++ s'.
  Proof. intros R. inversion R; subst. eauto. Qed.
  Lemma pend_split nl x y c K : pend nl (GBytes x :: GBytes y :: c) K -> pend nl (GBytes (x ++ y) :: c) K.
  Proof.
    intros H lx0 ws s W N R PL E. apply render_bytes_inv in R as (s' & R & ->).
    apply (H lx0 ws (x ++ y ++ s')); auto; [constructor; constructor; auto|]. rewrite E, <- !app_assoc. reflexivity.
  Qed.
  Lemma pend_empty nl c K : pend nl c K -> pend nl (GBytes [] :: c) K.
  Proof.
    intros H lx0 ws s W N R PL E. apply render_bytes_inv in R as (s' & R & ->). eapply H; eauto.
  Qed.

  (** First bytes of a rendering (and the NUL at the end of the program). *)
  Definition heads (f : byte -> bool) (c : code) : Prop :=
    forall s, render c s -> exists b r, s ++ [x00] = b :: r /\ f b = true.
  Lemma heads_nil (f : byte -> bool) : f x00 = true -> heads f [].
  Proof. intros H s R. inversion R; subst. exists x00, []. auto. Qed.
  Lemma heads_bytes (f : byte -> bool) b x c : f b = true -> heads f (GBytes (b :: x) :: c).
  Proof. intros H s R. apply render_bytes_inv in R as (s' & R & ->). cbn [app]. eauto. Qed.
  Lemma heads_empty (f : byte -> bool) c : heads f c -> heads f (GBytes [] :: c).
  Proof. intros H s R. apply render_bytes_inv in R as (s' & R & ->). apply (H s' R). Qed.
  Lemma heads_sp (f : byte -> bool) c : f x20 = true -> heads f c -> heads f (GPretty x20 :: c).
  Proof. intros F H s R. inversion R; subst; [apply H; auto|]. cbn [app]. eauto. Qed.
  Lemma heads_newline (f : byte -> bool) c : (forall b, white b -> f b = true) -> heads f c -> heads f (GNewLine :: c).
  Proof.
    intros F H s R. inversion R as [| | | |ws c0 s0 W R0| |]; subst. destruct ws as [|b ws]; [apply H; auto|].
    cbn [app]. exists b. eexists. split; [reflexivity|]. apply F. inversion W; auto.
  Qed.
  Lemma heads_indent f c : heads f c -> heads f (GIndent :: c).
  Proof. intros H s R. inversion R; subst. auto. Qed.
  Lemma heads_dedent f c : heads f c -> heads f (GDedent :: c).
  Proof. intros H s R. inversion R; subst. auto. Qed.
  Lemma heads_mono (f g : byte -> bool) c : (forall b, f b = true -> g b = true) -> heads f c -> heads g c.
  Proof. intros F H s R. destruct (H s R) as (b & r & E & Hb). eauto. Qed.

  (** The lexer stands on the token [t] with text [x], and [c] is still to be read. *)
  Record on (nl : bool) (t : token) (x : str) (c : code) (lx : lexer) : Prop := On {
    on_token : lx_token lx = t;
    on_text : token_as_str lx = x;
    on_asi : exists ws, (nl = false -> newline_in ws = false) /\ lx_asi lx = asi_of ws t;
    on_rest : exists s, render c s /\ rem (lx_cur lx) = s ++ [x00];
    on_placed : exists pre, lx_buf lx = pre ++ x ++ rem (lx_cur lx) /\ List.length pre + List.length x = pos (lx_cur lx)
  }.
  Lemma placed_on x lx :
    (exists pre, lx_buf lx = pre ++ x ++ rem (lx_cur lx) /\ List.length pre + List.length x = pos (lx_cur lx)) -> placed lx.
  Proof. intros (pre & E & L). exists (pre ++ x). rewrite app_length, <- app_assoc. auto. Qed.
  (** The same, without the text. *)
  Record stand (t : token) (c : code) (lx : lexer) : Prop := Stand {
    st_token : lx_token lx = t;
    st_rest : exists s, render c s /\ rem (lx_cur lx) = s ++ [x00];
    st_placed : placed lx
  }.
  Lemma on_stand nl t x c lx : on nl t x c lx -> stand t c lx.
  Proof. intros [H1 H2 H3 H4 H5]. constructor; eauto using placed_on. Qed.
  Lemma stand_next {A} t c lx (k : P A) Q :
    stand t c lx -> pend false c (fun lx' => gets k lx' Q) -> gets (Consume k) lx Q.
  Proof.
    intros [_ (s & R & E) PL] H. destruct (H lx [] s (Forall_nil _) (fun _ => eq_refl) R PL E) as (lx' & E1 & E2).
    eapply gets_consume; eauto.
  Qed.
  Lemma on_next {A} nl t x c lx (k : P A) Q :
    on nl t x c lx -> pend false c (fun lx' => gets k lx' Q) -> gets (Consume k) lx Q.
  Proof. intros H. apply (stand_next t), (on_stand _ _ _ _ _ H). Qed.
  Lemma slice_lexed buf t a p text rest acc q : token_as_str (lexed buf t a p text rest acc q) = text.
  Proof.
    unfold token_as_str, slice, lexed. cbn [lx_tok lx_cur pos rem].
    replace (p + List.length text - p) with (List.length text + 0) by lia. rewrite firstn_app_2. cbn. apply app_nil_r.
  Qed.

  (** ** The tokens *)
  (** The state after reading [x] as a token [t]. *)
  Lemma pend_lex' nl x t c (f : byte -> bool) (I K : lexer -> Prop) :
    (forall buf t0 a0 p ws b r tok0 acc q, Forall white ws -> f b = true ->
       exists acc' q', consume alnum (Lexer buf t0 a0 (Cur p (ws ++ x ++ b :: r)) tok0 acc q)
       = Done (lexed buf t (asi_of ws t) (p + List.length ws) x (b :: r) acc' q') /\
       I (lexed buf t (asi_of ws t) (p + List.length ws) x (b :: r) acc' q')) ->
    heads f c ->
    (forall lx, on nl t x c lx -> I lx -> K lx) -> pend nl (GBytes x :: c) K.
  Proof.
    intros L H HK lx0 ws s W N R PL E. apply render_bytes_inv in R as (s' & R & ->).
    destruct lx0 as [buf t0 a0 [p r0] tok0 acc q]. cbn [lx_cur rem] in E. subst r0.
    destruct (H s' R) as (b & r & E & Hb).
    destruct (L buf t0 a0 p ws b r tok0 acc q W Hb) as (acc' & q' & E1 & HI).
    rewrite <- app_assoc, E, E1.
    eexists. split; [reflexivity|]. apply HK; [|exact HI]. constructor.
    - reflexivity.
    - apply slice_lexed.
    - exists ws. auto.
    - exists s'. rewrite E. auto.
    - destruct PL as (pre & E2 & E3). cbn [lx_buf lx_cur rem pos lexed] in *.
      exists (pre ++ ws). unfold lexed. cbn [lx_buf lx_cur rem pos]. rewrite E2, app_length, <- !app_assoc.
      split; [now rewrite E|]. rewrite E3. lia.
  Qed.
  Lemma pend_lex nl x t c (f : byte -> bool) (K : lexer -> Prop) :
    (forall buf t0 a0 p ws b r tok0 acc q, Forall white ws -> f b = true ->
       exists acc' q', consume alnum (Lexer buf t0 a0 (Cur p (ws ++ x ++ b :: r)) tok0 acc q)
       = Done (lexed buf t (asi_of ws t) (p + List.length ws) x (b :: r) acc' q')) ->
    heads f c ->
    (forall lx, on nl t x c lx -> K lx) -> pend nl (GBytes x :: c) K.
  Proof.
    intros L H HK. apply (pend_lex' nl x t c f (fun _ => True)); auto.
    intros buf t0 a0 p ws b r tok0 acc q W F. destruct (L buf t0 a0 p ws b r tok0 acc q W F) as (a' & q' & E). eauto.
  Qed.
  Lemma pend_word nl x c (K : lexer -> Prop) :
    Forall (fun b => word_byte b = true) x -> (exists b r, x = b :: r /\ word_first b = true) ->
    heads (fun b => negb (word_byte b)) c ->
    (forall lx, on nl (keyword_or_identifier x) x c lx -> K lx) -> pend nl (GBytes x :: c) K.
  Proof.
    intros HA (b0 & r0 & -> & Hb) H HK. eapply pend_lex; [|exact H|exact HK].
    intros buf t0 a0 p ws b r tok0 acc q W F. exists acc, q. inversion HA; subst.
    rewrite (lex_word alnum) with (c0 := b); auto using word_first_start, word_bytes_legal.
    - rewrite !word_token_spec by auto using word_first_start. reflexivity.
    - rewrite <- word_byte_legal. now apply negb_true_iff.
  Qed.
  Lemma pend_punct nl x t c (K : lexer -> Prop) :
    In (x, t) PUNCTUATORS -> heads (fun b => negb (extends x b)) c ->
    (forall lx, on nl t x c lx -> K lx) -> pend nl (GBytes x :: c) K.
  Proof.
    intros I H HK. eapply pend_lex; [|exact H|exact HK].
    intros buf t0 a0 p ws b r tok0 acc q W F. exists acc, q.
    apply lex_punct; auto. now apply negb_true_iff.
  Qed.
  Lemma render_first c s : render c s -> exists b r, s ++ [x00] = b :: r.
  Proof. intros _. destruct s; cbn [app]; eauto. Qed.
  Lemma heads_any (f : byte -> bool) c : (forall b, f b = true) -> heads f c.
  Proof. intros H s R. destruct (render_first c s R) as (b & r & E). eauto. Qed.
  Lemma pend_string nl x c (K : lexer -> Prop) :
    quoted x -> (forall lx, on nl T_LiteralString x c lx -> K lx) -> pend nl (GBytes x :: c) K.
  Proof.
    intros (q & i & Hq & Hi & ->) HK. eapply (pend_lex _ _ _ _ (fun _ => true)); [|apply heads_any; auto|exact HK].
    intros buf t0 a0 p ws b r tok0 acc q1 W F. exists acc, q1. apply lex_string; auto.
  Qed.
  Lemma pend_number nl x t more c (K : lexer -> Prop) :
    number x t more -> heads (fun b => negb (more b)) c ->
    (forall lx, on nl t x c lx -> K lx) -> pend nl (GBytes x :: c) K.
  Proof.
    intros N H HK. eapply pend_lex; [|exact H|exact HK].
    intros buf t0 a0 p ws b r tok0 acc q W F. exists acc, q. eapply lex_number; eauto. now apply negb_true_iff.
  Qed.
  Lemma pend_eof nl (K : lexer -> Prop) :
    (forall lx, lx_token lx = T_EndOfProgram -> lx_asi lx = ImplicitSemicolon -> K lx) -> pend nl [] K.
  Proof.
    intros HK lx0 ws s W N R PL E. inversion R; subst. destruct lx0 as [buf t0 a0 [p r0] tok0 acc q].
    cbn [lx_cur rem app] in E. subst r0. rewrite lex_eof by auto. eexists. split; [reflexivity|]. apply HK; reflexivity.
  Qed.

  Lemma pend_join nl x y c K : pend nl (GBytes (x ++ y) :: c) K -> pend nl (GBytes x :: GBytes y :: c) K.
  Proof.
    intros H lx0 ws s W N R PL E. apply render_bytes_inv in R as (s1 & R & ->). apply render_bytes_inv in R as (s2 & R & ->).
    apply (H lx0 ws ((x ++ y) ++ s2)); auto; [constructor; auto|]. rewrite E, <- !app_assoc. reflexivity.
  Qed.

  (** Accessors. *)
  Lemma accessor_first b : word_first b = true ->
    at_most_space b = false /\ (127 <? byte_val b)%N = false /\ nth (byte_index b) ACCESSOR_TABLE false = true /\
    is_digit b = false /\ byte_eqb b "." = false.
  Proof. destruct b; intros H; vm_compute in H; try discriminate H; vm_compute; auto. Qed.
  Lemma accessor_lexed buf t a p x rest acc q name :
    x = "."%byte :: name -> acc = Cur (S p) (name ++ rest) ->
    accessor_as_str (lexed buf t a p x rest acc q) = name.
  Proof.
    intros -> ->. unfold accessor_as_str, slice, lexed. cbn [lx_acc lx_cur pos rem List.length].
    replace (p + S (List.length name) - S p) with (List.length name + 0) by lia. rewrite firstn_app_2. cbn. apply app_nil_r.
  Qed.
  Lemma pend_accessor nl name c (K : lexer -> Prop) :
    Forall (fun b => word_byte b = true) name -> (exists b r, name = b :: r /\ word_first b = true) ->
    heads (fun b => negb (word_byte b)) c ->
    (forall lx, on nl T_Accessor ("."%byte :: name) c lx -> accessor_as_str lx = name -> K lx) ->
    pend nl (GBytes (bs ".") :: GBytes name :: c) K.
  Proof.
    intros HA (b0 & r0 & -> & Hb) H HK. apply pend_join.
    apply (pend_lex' nl _ T_Accessor c _ (fun lx => accessor_as_str lx = b0 :: r0) K) with (2 := H); [|exact HK].
    intros buf t0 a0 p ws b r tok0 acc q W F. apply negb_true_iff in F.
    exists (Cur (S (p + List.length ws)) ((b0 :: r0) ++ b :: r)), q.
    split; [|eapply accessor_lexed; reflexivity].
    destruct (accessor_first b0 Hb) as (A1 & A2 & A3 & A4 & A5).
    change (bs "." ++ b0 :: r0) with ("."%byte :: b0 :: r0).
    change (("."%byte :: b0 :: r0) ++ b :: r) with ("."%byte :: b0 :: r0 ++ b :: r).
    rewrite (consume_at alnum buf t0 a0 p ws "."%byte _ tok0 acc q H_PRD W eq_refl).
    cbn [run_handler]. unfold h_PRD, next_byte, bump, set_cur, cur_bump, read_byte.
    cbn [lx_cur rem tl obind pos lx_buf lx_token lx_asi lx_tok lx_acc lx_quasi].
    rewrite A4, A5. unfold read_accessor, skip_while.
    cbn [lx_cur rem tl obind pos lx_buf lx_token lx_asi lx_tok lx_acc lx_quasi].
    rewrite (scan_while_intro at_most_space _ [] b0 (r0 ++ b :: r) eq_refl A1).
    unfold set_cur, set_acc, read_byte. cbn [lx_cur rem tl obind pos lx_buf lx_token lx_asi lx_tok lx_acc lx_quasi].
    rewrite A2, A3. unfold read_label, skip_while. unfold bump, set_cur, cur_bump.
    cbn [lx_cur rem tl obind pos lx_buf lx_token lx_asi lx_tok lx_acc lx_quasi].
    rewrite (scan_while_intro legal_in_label _ (b0 :: r0) b r) by (auto using word_bytes_legal; now rewrite <- word_byte_legal).
    unfold lexed, set_token. cbn [obind lx_cur rem tl pos lx_buf lx_token lx_asi lx_tok lx_acc lx_quasi List.length].
    f_equal. f_equal; f_equal; cbn; try lia.
  Qed.

  (** Templates. *)
  Lemma scan_template_eval q : template_inside q -> forall p rest, (forall r, rest <> "{"%byte :: r) -> rest <> [] ->
    scan_template p (q ++ rest) = scan_template (p + List.length q) rest.
  Proof.
    induction 1 as [|c s Hc I IH|s Hs I IH|b s H1 H2 H3 I IH]; intros p rest Hr Hn.
    - cbn. now rewrite Nat.add_0_r.
    - cbn -[scan_template]. cbn [scan_template]. apply byte_eqb_neq in Hc. cbn [byte_eqb].
      change (byte_eqb "\" "`") with false. change (byte_eqb "\" "$") with false. change (byte_eqb "\" "\") with true.
      cbn [app]. rewrite Hc, IH by auto. f_equal. lia.
    - cbn -[scan_template]. cbn [scan_template].
      change (byte_eqb "$" "`") with false. change (byte_eqb "$" "$") with true. cbv iota.
      assert (E : exists c r, s ++ rest = c :: r /\ byte_eqb c "{" = false).
      { destruct s as [|c s].
        - destruct rest as [|c r]; [congruence|]. exists c, r. split; [reflexivity|]. apply byte_eqb_neq. intros ->. eapply Hr; eauto.
        - exists c, (s ++ rest). split; [reflexivity|]. apply byte_eqb_neq. intros ->. eapply Hs; eauto. }
      destruct E as (c & r & E & E2). rewrite E, E2, <- E, IH by auto. f_equal. lia.
    - cbn -[scan_template]. cbn [scan_template]. apply byte_eqb_neq in H1, H2, H3. rewrite H1, H2, H3, IH by auto. f_equal. lia.
  Qed.
  (** What ends a chunk, and the token. *)
  Definition chunk_end (t : token) (e : str) : Prop :=
    (t = T_TemplateClosed /\ e = bs "`") \/ (t = T_TemplateOpen /\ e = bs "${").
  Lemma read_template_eval buf t0 a p q t e r tok acc q0 :
    template_inside q -> chunk_end t e ->
    read_template_kind (Lexer buf t0 a (Cur p (q ++ e ++ r)) tok acc q0)
    = Done (Lexer buf t a (Cur (p + List.length q + List.length e) r) tok acc q).
  Proof.
    intros I C. unfold read_template_kind. cbn [lx_cur rem pos].
    rewrite scan_template_eval; auto; [|destruct C as [[_ ->]|[_ ->]]; cbn; congruence..].
    assert (F : forall x, firstn (p + List.length q - p) (q ++ x) = q).
    { intros x. replace (p + List.length q - p) with (List.length q + 0) by lia. rewrite firstn_app_2. cbn. apply app_nil_r. }
    destruct C as [[-> ->]|[-> ->]]; cbn [bs String.list_byte_of_string List.map app]; cbn.
    - unfold set_token, set_quasi, set_cur. cbn [lx_cur rem pos lx_buf lx_token lx_asi lx_tok lx_acc lx_quasi].
      change (q ++ "`"%byte :: r) with (q ++ (["`"%byte] ++ r)). rewrite F. f_equal. f_equal. f_equal. lia.
    - unfold set_token, set_quasi, set_cur. cbn [lx_cur rem pos lx_buf lx_token lx_asi lx_tok lx_acc lx_quasi].
      change (q ++ "$"%byte :: "{"%byte :: r) with (q ++ (["$"; "{"]%byte ++ r)). rewrite F. f_equal. f_equal. f_equal. lia.
  Qed.
  Lemma pend_chunk nl q t e c (K : lexer -> Prop) :
    template_inside q -> chunk_end t e ->
    (forall lx, on nl t (bs "`" ++ q ++ e) c lx -> lx_quasi lx = q -> K lx) ->
    pend nl (GBytes (bs "`") :: GBytes q :: GBytes e :: c) K.
  Proof.
    intros I C HK. apply pend_join, pend_join. rewrite <- app_assoc.
    apply (pend_lex' nl _ t c (fun _ => true) (fun lx => lx_quasi lx = q) K); [|apply heads_any; auto|exact HK].
    intros buf t0 a0 p ws b r tok0 acc q1 W _. exists acc, q. split; [|reflexivity].
    change (bs "`" ++ q ++ e) with ("`"%byte :: q ++ e). cbn [app]. rewrite <- app_assoc.
    rewrite (consume_at alnum buf t0 a0 p ws "`"%byte _ tok0 acc q1 H_TPL W eq_refl).
    cbn [run_handler]. unfold h_TPL, bump, set_cur, cur_bump.
    cbn [lx_cur rem tl obind pos lx_buf lx_token lx_asi lx_tok lx_acc lx_quasi].
    rewrite read_template_eval with (t := t) by auto. unfold lexed. cbn [List.length app]. rewrite app_length.
    f_equal. f_equal.
    - destruct C as [[-> _]|[-> _]]; reflexivity.
    - f_equal. lia.
    - now rewrite <- app_assoc.
  Qed.
  Lemma gets_chunk {A} nl q t e c lx (k : P A) Q :
    template_inside q -> chunk_end t e -> on nl T_BraceClose (bs "}") (GBytes q :: GBytes e :: c) lx ->
    (forall lx', stand t c lx' -> lx_quasi lx' = q -> gets k lx' Q) ->
    gets (ReadTemplate k) lx Q.
  Proof.
    intros I C [Ht Hx Ha (s & R & E) (pre & Eb & Ep)] HK.
    apply render_bytes_inv in R as (s1 & R & ->). apply render_bytes_inv in R as (s2 & R & ->).
    destruct lx as [buf t0 a [p r0] tok acc q0]. cbn [lx_cur rem pos lx_buf lx_token lx_asi lx_tok lx_acc lx_quasi] in *. subst r0.
    rewrite <- !app_assoc in *. eapply gets_template; [apply read_template_eval with (t := t); eauto|].
    apply HK; [|reflexivity]. constructor; cbn [lx_cur rem pos lx_buf lx_token lx_asi lx_tok lx_acc lx_quasi].
    - reflexivity.
    - exists s2. auto.
    - exists (pre ++ bs "}" ++ q ++ e). cbn [lx_cur rem pos lx_buf]. rewrite Eb, !app_length, <- !app_assoc. split; [reflexivity|]. cbn in *. lia.
  Qed.

  (** Regular expressions. *)
  Lemma scan_regex_eval k s : regex_inside k s -> forall p r,
    scan_regex k p (s ++ "/"%byte :: r) = Done (RegexDone, Cur (S (p + List.length s)) r).
  Proof.
    induction 1 as [|k s I IH|k s I IH|s I IH|k c s Hc I IH|k b s Hb I IH]; intros p r.
    - cbn. do 3 f_equal. lia.
    - cbn. rewrite IH. do 3 f_equal. lia.
    - cbn. rewrite IH. do 3 f_equal. lia.
    - cbn. rewrite IH. do 3 f_equal. lia.
    - cbn. apply byte_eqb_neq in Hc. rewrite Hc, IH. do 3 f_equal. lia.
    - cbn -[byte_eqb]. assert (forall x, In x ["["; "]"; "/"; "\"; x0a]%byte -> byte_eqb b x = false) as E.
      { intros x Hx. apply byte_eqb_neq. intros ->. auto. }
      rewrite !E by (cbn; tauto). rewrite IH. do 3 f_equal. lia.
  Qed.
  Lemma gets_regex_text {A} nl s flags c lx (k : str -> P A) Q :
    regex_inside false s -> Forall (fun b => one_of regex_flags b = true) flags ->
    heads (fun b => negb (word_byte b)) c ->
    on nl T_OperatorDivision (bs "/") (GBytes (s ++ bs "/" ++ flags) :: c) lx ->
    (forall lx', stand T_LiteralRegEx c lx' -> gets (k (bs "/" ++ s ++ bs "/" ++ flags)) lx' Q) ->
    gets (ReadRegex k) lx Q.
  Proof.
    intros I HF H [Ht Hx Ha (s0 & R & E) (pre & Eb & Ep)] HK.
    apply render_bytes_inv in R as (s1 & R & ->).
    destruct lx as [buf t0 a [p r0] tok acc q0]. cbn [lx_cur rem pos lx_buf lx_token lx_asi lx_tok lx_acc lx_quasi] in *. subst r0.
    rewrite <- !app_assoc in *. destruct (H s1 R) as (b & r & E & Hb). rewrite E in *.
    assert (G : read_regular_expression (Lexer buf t0 a (Cur p (s ++ bs "/" ++ flags ++ b :: r)) tok acc q0)
      = Done (bs "/" ++ s ++ bs "/" ++ flags,
              Lexer buf T_LiteralRegEx a (Cur (S (p + List.length s) + List.length flags) (b :: r)) tok acc q0)).
    { unfold read_regular_expression. cbn [lx_cur rem pos lx_buf].
      change (bs "/" ++ flags ++ b :: r) with ("/"%byte :: flags ++ b :: r). rewrite scan_regex_eval by auto.
      cbn [obind]. unfold set_cur, skip_while. cbn [lx_cur rem pos lx_buf lx_token lx_asi lx_tok lx_acc lx_quasi].
      rewrite (scan_while_intro is_regex_flag _ flags b r).
      - cbn [obind lx_cur rem pos lx_buf lx_token lx_asi lx_tok lx_acc lx_quasi]. unfold set_token, set_cur.
        cbn [obind lx_cur rem pos lx_buf lx_token lx_asi lx_tok lx_acc lx_quasi]. do 2 f_equal.
        cbn in Ep. replace (p - 1) with (List.length pre) by lia. rewrite Eb. unfold set_cur. cbn [lx_cur rem pos lx_buf].
        rewrite skipn_app, Nat.sub_diag, skipn_all. cbn [skipn app].
        replace (bs "/" ++ s ++ bs "/" ++ flags ++ b :: r) with ((bs "/" ++ s ++ bs "/" ++ flags) ++ b :: r) by now rewrite <- !app_assoc.
        match goal with |- firstn ?n _ = _ => replace n with (List.length (bs "/" ++ s ++ bs "/" ++ flags) + 0) end.
        + rewrite firstn_app_2. cbn [firstn]. apply app_nil_r.
        + rewrite !app_length. change (List.length (bs "/")) with 1 in *. lia.
      - apply forallb_forall. intros x Hx'. rewrite Forall_forall in HF. apply HF in Hx'. unfold one_of, regex_flags in Hx'.
        unfold is_regex_flag. cbn in Hx'. rewrite orb_false_r in Hx'. rewrite !orb_assoc in Hx'. exact Hx'.
      - clear - Hb. destruct b; vm_compute in Hb; try discriminate Hb; reflexivity. }
    eapply gets_regex; [exact G|]. apply HK. constructor.
    - reflexivity.
    - exists s1. cbn. auto.
    - exists (pre ++ bs "/" ++ s ++ bs "/" ++ flags). cbn [lx_cur rem pos lx_buf]. rewrite Eb, !app_length, <- !app_assoc.
      split; [reflexivity|]. cbn in *. lia.
  Qed.
End Gets.
