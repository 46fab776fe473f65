(** Reading back whole trees: the statements of the other Round files put
    together by induction over the tree. *)
From Coq Require Import List NArith PeanoNat Bool String Lia.
From Coq.Strings Require Import Byte.
From Verif Require Import Bytes Token Tables Lexer SpecLexer SpecTokens SpecChunks SpecTree SpecUtf8 SpecHazard SpecPrec SpecRound
  Ast AstInd Prog Parser Codegen LexerFacts ConsumeFacts LexEval ProgFacts ParseFacts Structure Gets Foreign Levels Chain
  RoundBase RoundExpr RoundParts RoundProps RoundArrow RoundStmt RoundFor RoundImport.
Import ListNotations.
Open Scope nat_scope.
Open Scope list_scope.

(** ** First bytes *)
Lemma first_app c d b : first c = Some b -> first (c ++ d) = Some b.
Proof. destruct c as [|[[|b' x]| | | | |] c]; try discriminate. trivial. Qed.
Definition starts (c : code) : Prop := exists b, first c = Some b /\ starter_byte b = true.
Lemma starts_app c d : starts c -> starts (c ++ d).
Proof. intros (b & F & S). exists b. split; [apply first_app, F|exact S]. Qed.
Lemma starts_bytes b x c : starter_byte b = true -> starts (GBytes (b :: x) :: c).
Proof. intros H. exists b. split; [reflexivity|exact H]. Qed.
Lemma starts_word s c : (exists b r, s = b :: r /\ word_first b = true) -> starts (GBytes s :: c).
Proof. intros (b & r & -> & W). apply starts_bytes. unfold starter_byte. now rewrite W. Qed.
Lemma starts_identifier alnum s c : identifier_name alnum s -> starts (GBytes s :: c).
Proof.
  intros (_ & [F|(_ & b & r & _ & -> & N & _)]); [now apply starts_word|]. apply starts_bytes. unfold starter_byte.
  apply N.ltb_lt in N. rewrite N. now rewrite !orb_true_r.
Qed.
Lemma number_first s t more : number s t more -> exists b r, s = b :: r /\ starter_byte b = true.
Proof.
  assert (SB : forall b, (digit b || byte_eqb b "."%byte)%bool = true -> starter_byte b = true) by (intros b; destruct b; vm_compute; auto).
  assert (M : forall m mo, mantissa m mo -> exists x y, m = x :: y /\ (digit x || byte_eqb x "."%byte)%bool = true).
  { intros m mo [|d ds D _|d ds D _|d ds f D _ _|d f D _]; do 2 eexists; split; try reflexivity.
    - cbn [app]. destruct d; vm_compute in D |- *; try discriminate; reflexivity.
    - rewrite D. reflexivity. }
  intros [m mo HM|m mo e d ds HM _ _ _|m mo e sg ds HM _ _ _|x ds _ _|x ds _ _|x ds _ _].
  1-3: destruct (M _ _ HM) as (x & y & -> & D); do 2 eexists; split; [reflexivity|apply SB, D].
  all: do 2 eexists; split; reflexivity.
Qed.

Lemma Forall_map_iff {A B : Type} (f : A -> B) (Q : B -> Prop) l : Forall Q (map f l) -> Forall (fun x => Q (f x)) l.
Proof. induction l as [|x l IH]; intros H; constructor; inversion H; subst; auto. Qed.
Lemma Forall_opt {A B : Type} (f : A -> B) (Q : B -> Prop) o : Forall Q (opt f o) -> match o with Some x => Q (f x) | None => True end.
Proof. destruct o; cbn [opt]; [|trivial]. intros H. inversion H; assumption. Qed.

Section Trip.
  Variable alnum : N -> bool.
  Notation name_ok := (name_ok alnum).
  Notation pattern_fits := (pattern_fits alnum).
  Notation optional_name := (optional_name alnum).
  Notation member_fits := (member_fits alnum).
  Notation property_fits := (property_fits alnum).
  Notation expression_fits := (expression_fits alnum).
  Notation statement_fits := (statement_fits alnum).
  Notation fits_node := (fits_node alnum).
  Notation fits := (fits alnum).
  Notation gets := (gets alnum).
  Notation pend := (pend alnum).
  Notation Spec := (Spec alnum).
  Notation Stmt := (Stmt alnum).

  Definition Sound (a : any) : Prop :=
    match a with
    | A_Ident _ | A_Spec _ => True
    | A_Expr n => Spec (n_item n) /\ First (n_item n) /\ Spread alnum (n_item n)
    | A_Tpl n => Tpl alnum (n_item n)
    | A_Prop n => PropS alnum (n_item n)
    | A_Key n => Key alnum (n_item n)
    | A_Pat n => (base_pattern (n_item n) -> Pat alnum (n_item n)) /\ (param_pattern (n_item n) -> Param alnum (n_item n)) /\
                 (arrow_param (n_item n) -> AParam alnum (n_item n))
    | A_Func n => func_fits (n_item n) -> Fn alnum (n_item n)
    | A_Member n => Member alnum (n_item n)
    | A_Body n => Body alnum (n_item n)
    | A_ClassBody n => ClassBody alnum (n_item n)
    | A_Cases n => Cases alnum (n_item n)
    | A_Stmt n => Stmt (n_item n)
    | A_Declarator n => DeclIn alnum (n_item n)
    | A_ForInit n => InitIn alnum (n_item n)
    | A_Case n => Case alnum (n_item n)
    | A_Catch n => CatchIn alnum (n_item n)
    end.
  Definition G (a : any) : Prop := fits_node a /\ Sound a.

  Lemma g_exprs es : Forall G (map A_Expr es) -> Forall (fun x => Spec (n_item x) /\ Spread alnum (n_item x)) es.
  Proof. intros H. apply Forall_map_iff in H. eapply Forall_impl; [|exact H]. intros x (_ & S & _ & P). split; assumption. Qed.
  Lemma g_specs es : Forall G (map A_Expr es) -> Forall (fun x => Spec (n_item x)) es.
  Proof. intros H. apply g_exprs in H. eapply Forall_impl; [|exact H]. intros x (S & _). exact S. Qed.
  Lemma g_func f : func_fits f -> Forall G (children_func f) -> Fn alnum f.
  Proof.
    destruct f as [n g ps b]. intros (_ & PF) H. cbn [children_func] in H. apply Forall_app in H as [_ H]. apply Forall_app in H as [HP HB].
    inversion HB as [|? ? (_ & B) _ E]; subst. split; [|exact B]. apply Forall_map_iff in HP. unfold Params. clear HB B b. revert PF.
    induction HP as [|p ps (FP & SB & SP & _) HP IH]; intros PF; constructor.
    - destruct PF as (PF & _). destruct (n_item p) as [|s|l|l|x|l r] eqn:E; cbn [fits_node] in FP; rewrite ?E in FP; try (apply SP); try exact FP.
      all: destruct PF as [PF|(PF & _)]; [exact PF|destruct PF].
    - apply IH. apply PF.
  Qed.
  Lemma g_class c : class_fits c -> Forall G (children_class c) -> ClassIn alnum c.
  Proof.
    destruct c as [n e b]. intros _ H. cbn [children_class] in H. apply Forall_app in H as [_ H]. apply Forall_app in H as [HE HB].
    inversion HB as [|? ? (_ & B) _ E]; subst. split; [|exact B]. apply Forall_opt in HE. destruct e as [e|]; [|exact I]. apply HE.
  Qed.
  Lemma c_func_first n g ps b : optional_name n -> starts (c_func (Func n g ps b)).
  Proof. intros [->|(i & -> & _)]; cbn [c_func c_keyword w app]; apply starts_bytes; reflexivity. Qed.
  Lemma c_class_first n e b : optional_name n -> starts (c_class (Class n e b)).
  Proof. intros [->|(i & -> & _)]; cbn [c_class c_keyword w app]; apply starts_bytes; reflexivity. Qed.

  Lemma first_expression e : expression_fits e -> Forall G (children_expression e) -> First e.
  Proof.
    intros FE H L. change (starts (c_expression e)).
    assert (X : forall x l, children_expression e = A_Expr x :: l -> 0 < ll (n_item x) -> starts (c_expression (n_item x))).
    { intros x l E L'. rewrite E in H. apply Forall_inv in H. destruct H as (_ & _ & FX & _). apply FX, L'. }
    assert (XB : forall x l k, children_expression e = A_Expr x :: l -> 0 < ll (n_item x) -> starts (c_bound c_expression x k)).
    { intros x l k E L'. rewrite E in H. apply Forall_inv in H. destruct H as (_ & _ & FX & _). apply first_bound; assumption. }
    destruct e; cbn [c_expression expression_fits children_expression ll] in *; unfold c_node, c_ident, wstr in *; try (exfalso; lia).
    - apply starts_bytes; reflexivity.
    - apply (starts_identifier alnum), FE.
    - destruct l; cbn [c_literal literal_fits] in *; unfold wstr.
      + apply starts_bytes; reflexivity.
      + apply starts_bytes; reflexivity.
      + apply starts_bytes; reflexivity.
      + apply starts_bytes; reflexivity.
      + destruct FE as (more & FE). destruct (number_first _ _ _ FE) as (b & r & -> & S). apply starts_bytes, S.
      + destruct FE as (more & FE). destruct (number_first _ _ _ FE) as (b & r & -> & S). apply starts_bytes, S.
      + destruct FE as (q & i & Hq & _ & ->). apply starts_bytes. destruct Hq as [-> | ->]; reflexivity.
      + destruct FE as (b & bd & fl & -> & _). apply starts_bytes. reflexivity.
    - destruct FE as (L2 & FE). destruct body as [|x body]; [cbn in L2; lia|]. cbn [c_list]. apply starts_app. eapply X; [reflexivity|].
      inversion FE as [|? ? (E1 & _) _]; subst. lia.
    - apply starts_bytes; reflexivity.
    - apply starts_app. eapply XB; [reflexivity|apply FE].
    - apply starts_app. eapply XB; [reflexivity|apply FE].
    - destruct FE as (-> & _). apply starts_bytes; reflexivity.
    - apply starts_app. eapply X; [reflexivity|exact L].
    - apply starts_app. eapply XB; [reflexivity|apply FE].
    - destruct FE as (I1 & _). cbn [app]. cbn in I1. repeat (destruct I1 as [<-|I1]; [apply starts_bytes; reflexivity|]). destruct I1.
    - apply starts_app. eapply X; [reflexivity|exact L].
    - apply starts_app. eapply X; [reflexivity|]. lia.
    - destruct t; cbn [c_template]. apply starts_bytes; reflexivity.
    - apply starts_app. eapply X; [reflexivity|exact L].
    - destruct FE as (FP & _). destruct params as [|p [|p2 ps]]; cbn [app]; try (apply starts_bytes; reflexivity).
      destruct (n_item p) as [|s|l|l|x|l r] eqn:Ep; try (apply starts_bytes; reflexivity).
      cbn [app]. apply (starts_identifier alnum).
      destruct body; cbn [map app] in H; apply Forall_inv in H; destruct H as (FX & _); cbn [fits_node] in FX; rewrite Ep in FX; apply FX.
    - unfold c_props. destruct body; apply starts_bytes; reflexivity.
    - destruct f as [n g ps b]. cbn [func_name] in FE. apply c_func_first, FE.
    - destruct c as [n e b]. cbn [class_name] in FE. apply c_class_first, FE.
  Qed.

  (** ** Expressions and patterns *)
  Ltac split_children :=
    repeat match goal with
    | H : Forall G (_ :: _) |- _ => let H1 := fresh "C" in assert (H1 := Forall_inv H); apply Forall_inv_tail in H; destruct H1 as (? & ?)
    | H : Forall G [] |- _ => clear H
    | H : Forall G (_ ++ _) |- _ => let H1 := fresh "C" in apply Forall_app in H; destruct H as (H1 & H)
    end.
  Lemma sound_expression e : expression_fits e -> Forall G (children_expression e) -> Spec e.
  Proof.
    intros FE H. destruct e; cbn [children_expression] in H; try (split_children; cbn [Sound fits_node] in *).
    - intros ctx b nl c Q L. cbn [ll] in L. lia.
    - apply spec_this.
    - apply spec_identifier. exact FE.
    - apply spec_literal. exact FE.
    - apply spec_sequence; [apply g_specs; exact H|exact FE].
    - apply spec_array; [apply g_exprs; exact H|exact FE].
    - apply spec_member; [tauto|exact FE].
    - apply spec_computed; [tauto|tauto|exact FE].
    - apply spec_meta. exact FE.
    - apply spec_call; [tauto|apply g_exprs; assumption|apply FE|apply FE] || (apply spec_call; [tauto|apply g_exprs; assumption|exact FE]).
    - apply spec_binary; [tauto|tauto|tauto|exact FE].
    - apply spec_prefix; [tauto|tauto|exact FE].
    - apply spec_postfix; [tauto|exact FE].
    - apply spec_conditional; [tauto|tauto|tauto|exact FE].
    - apply spec_template; [|exact FE]. destruct t as [es qs]. cbn [children_template] in H. apply Forall_app in H as [H _]. cbn [Tpl]. apply g_specs, H.
    - apply spec_tagged; [tauto|assumption|assumption|exact FE].
    - intros ctx b nl c Q L. cbn [ll] in L. lia.
    - destruct FE as (FP & FB). assert (HP : Forall G (map A_Pat params)) by (destruct body; apply Forall_app in H; apply H).
      apply spec_arrow; [|exact FB|].
      + apply Forall_map_iff in HP. rewrite Forall_forall in *. intros p I. destruct (HP p I) as (_ & _ & _ & A). apply A, FP, I.
      + destruct body as [x|b]; apply Forall_app in H as [_ H]; apply Forall_inv in H; destruct H as (_ & H); cbn [ABody]; apply H.
    - apply spec_object. apply Forall_map_iff in H. eapply Forall_impl; [|exact H]. intros x (_ & S). exact S.
    - apply spec_function; [apply FE|apply FE|]. apply g_func; [apply FE|exact H].
    - apply spec_class; [apply FE|apply FE|]. apply g_class; [apply FE|exact H].
  Qed.
  Lemma sound_pattern n : pattern_fits (n_item n) -> Forall G (children (A_Pat n)) -> Sound (A_Pat n).
  Proof.
    intros FP H. cbn [children Sound] in *. destruct (n_item n) as [|s|ps|es|x|l r] eqn:E; cbn [pattern_fits] in FP.
    - split; [intros []|split; [intros [[]|[]]|intros []]].
    - assert (P := pat_identifier alnum s FP). split; [auto|split; [intros _; apply param_base, P|intros _; exact FP]].
    - assert (P : Pat alnum (Pat_Object ps)).
      { apply pat_object. apply Forall_map_iff in H. eapply Forall_impl; [|exact H]. intros y (_ & S). exact S. }
      split; [auto|split; [intros _; apply param_base, P|intros []]].
    - assert (P : Pat alnum (Pat_Array es)).
      { apply pat_array; [|apply FP]. destruct FP as (FP & _). apply Forall_map_iff in H. rewrite Forall_forall in *. intros y I.
        destruct (FP y I) as [->|PP]; [left; reflexivity|]. right. destruct (H y I) as (_ & _ & S & _). split; [apply S, PP|].
        intros V. rewrite V in PP. destruct PP as [PP|PP]; exact PP. }
      split; [auto|split; [intros _; apply param_base, P|intros []]].
    - split; [intros []|split; [intros [[]|[]]|intros []]].
    - destruct FP as (BL & EL). split_children. cbn [Sound fits_node] in *.
      split; [intros []|split]; [intros _; apply param_assign; tauto|]. cbn [arrow_param AParam]. intros A.
      split; [|tauto]. destruct (n_item l); try (exfalso; exact A). assumption.
  Qed.

  (** ** Statements *)
  Lemma g_stmts l : Forall G (map A_Stmt l) -> Forall (fun s => Stmt (n_item s)) l.
  Proof. intros H. apply Forall_map_iff in H. eapply Forall_impl; [|exact H]. intros s (_ & S). exact S. Qed.
  Lemma sound_statement s : statement_fits s -> Forall G (children_statement s) -> Stmt s.
  Proof.
    intros FS H. destruct s; cbn [children_statement] in H; try (exfalso; exact FS).
    - split_children. cbn [Sound fits_node] in *. apply stmt_expression; [tauto|exact FS].
    - apply stmt_declaration; [|exact FS]. apply Forall_map_iff in H. eapply Forall_impl; [|exact H]. intros d (_ & S). exact S.
    - apply stmt_return; [|exact FS]. apply Forall_opt in H. destruct value; [|exact I]. apply H.
    - apply stmt_break, FS.
    - apply stmt_continue, FS.
    - split_children. cbn [Sound fits_node] in *. apply stmt_throw; [tauto|exact FS].
    - split_children. apply Forall_opt in H. cbn [Sound fits_node] in *. apply stmt_if; [tauto|exact FS|assumption|]. destruct alternate; [|exact I]. apply H.
    - split_children. cbn [Sound fits_node] in *. apply stmt_while; [tauto|exact FS|assumption].
    - split_children. cbn [Sound fits_node] in *. apply stmt_do; [tauto|exact FS|assumption].
    - apply Forall_app in H as [HI H]. apply Forall_app in H as [HT H]. apply Forall_app in H as [HU H]. split_children.
      apply Forall_opt in HI, HT, HU. destruct FS as (FI & FT & FU). apply stmt_for.
      + destruct init as [i|]; [|exact I]. split; [apply HI|exact FI].
      + destruct test as [t|]; [|exact I]. split; [apply HT|exact FT].
      + destruct update as [u|]; [|exact I]. split; [apply HU|exact FU].
      + assumption.
    - split_children. cbn [Sound fits_node] in *. apply stmt_for_in; [assumption|tauto|assumption|exact FS].
    - split_children. cbn [Sound fits_node] in *. destruct FS as (FR & FL). apply stmt_for_of; [assumption| |tauto|exact FR|assumption].
      destruct (n_item left); exact FL.
    - destruct FS as (NH & ->). destruct handler as [h|]; [|congruence]. cbn [opt app] in H. split_children. cbn [Sound fits_node] in *. apply stmt_try; assumption.
    - apply stmt_block. apply raw_body. apply g_stmts, H.
    - split_children. cbn [Sound fits_node] in *. apply stmt_labeled; [exact FS|assumption].
    - apply stmt_function; [apply FS|apply FS|]. apply g_func; [apply FS|exact H].
    - apply stmt_class; [apply FS|apply FS|]. apply g_class; [apply FS|exact H].
    - split_children. cbn [Sound fits_node] in *. apply stmt_switch; [tauto|exact FS|assumption].
    - apply stmt_import; [|apply FS|apply FS]. apply Forall_map_iff in H. eapply Forall_impl; [|exact H]. intros x (F & _). exact F.
  Qed.
  Lemma sound_step a : fits_node a -> Forall G (children a) -> Sound a.
  Proof.
    intros F H. destruct a as [n|n|n|n|n|n|n|n|n|n|n|n|n|n|n|n|n]; cbn [children fits_node] in *.
    - exact I.
    - split; [apply sound_expression; assumption|split; [apply first_expression; assumption|]].
      unfold Spread. destruct (n_item n) eqn:E; try exact I. cbn [children_expression] in H. split_children. cbn [Sound] in *. tauto.
    - cbn [Sound]. destruct (n_item n) as [es qs]. cbn [children_template Tpl] in *. apply Forall_app in H as [H _]. apply g_specs, H.
    - cbn [Sound]. apply prop_reads; [exact F|]. destruct (n_item n) as [s|k v|k v|x]; cbn [PropIn property_fits] in *; split_children; cbn [Sound fits_node] in *; try tauto.
      split; [assumption|]. apply fn_method; tauto.
    - cbn [Sound]. destruct (n_item n) as [e|s|s]; cbn [Key]; try exact I. split_children. cbn [Sound] in *. tauto.
    - apply sound_pattern; assumption.
    - cbn [Sound]. intros FF. apply g_func; assumption.
    - cbn [Sound]. apply member_reads; [exact F|]. destruct (n_item n) as [|b k kd v|b k v]; cbn [MemberIn member_fits] in *; split_children; cbn [Sound fits_node] in *; try tauto.
      split; [assumption|]. apply fn_method; tauto.
    - cbn [Sound]. apply raw_body, g_stmts, H.
    - cbn [Sound]. apply class_body. apply Forall_map_iff in H. eapply Forall_impl; [|exact H]. intros x (_ & S). exact S.
    - cbn [Sound]. apply raw_cases. apply Forall_map_iff in H. eapply Forall_impl; [|exact H]. intros x (_ & S). exact S.
    - apply sound_statement; assumption.
    - cbn [Sound]. destruct (n_item n) as [p i]. destruct F as (BP & FI). cbn [DeclIn]. split_children. cbn [Sound] in *. split; [tauto|].
      destruct i as [e|]; [|exact I]. apply Forall_opt in H. destruct H as (_ & S & FF & _). auto.
    - cbn [Sound]. destruct (n_item n) as [k ds|e]; cbn [InitIn].
      + apply Forall_map_iff in H. eapply Forall_impl; [|exact H]. intros d (_ & S). exact S.
      + split_children. cbn [Sound] in *. tauto.
    - cbn [Sound]. apply case_reads; [exact F|]. destruct (n_item n) as [t c]. apply Forall_app in H as [HT H]. apply Forall_opt in HT. split; [|apply g_stmts, H].
      destruct t; [|exact I]. apply HT.
    - cbn [Sound]. destruct (n_item n) as [p b]. cbn [CatchIn]. split_children. cbn [Sound] in *. tauto.
    - exact I.
  Qed.
  Lemma sound_all a : (forall x, within x a -> fits_node x) -> G a.
  Proof.
    revert a. apply (tree_ind (fun a => (forall x, within x a -> fits_node x) -> G a)). intros a IH F.
    assert (FA : fits_node a) by apply F, within_refl.
    split; [exact FA|]. apply sound_step; [exact FA|]. rewrite Forall_forall in *. intros c I. apply IH; [exact I|].
    intros x W. apply F. eapply within_child; eassumption.
  Qed.

  (** ** Modules *)
  Definition msames (ns m : module) : Prop := strip_module ns = strip_module m.
  Lemma p_module_rest m : Forall (fun s => Stmt (n_item s)) m -> forall (Q : module -> lexer -> Prop), (forall ns lx, msames ns m -> Q ns lx) ->
    pend false (c_block_rest c_statement m) (fun lx => gets (call F_parse) lx Q /\ (slead lx \/ lx_token lx = T_EndOfProgram)).
  Proof.
    induction m as [|s m IH]; intros F Q H; cbn [c_block_rest].
    - apply pend_eof. intros lx TK _. split; [|right; exact TK]. apply g_call. cbn [body]. unfold body_parse. apply g_bind, g_look.
      rewrite (is_true_eq _ _ TK). apply g_ret. apply H. reflexivity.
    - flat. apply pend_newline. inversion F as [|? ? SX F' E1]; subst.
      eapply pend_mono; [|apply (SX true _ (fun n lx => gets (rest <- call F_parse ;; Ret (n :: rest)) lx Q))].
      + intros lx (G0 & L). split; [|left; exact L]. apply g_call. cbn [body]. unfold body_parse. apply g_bind, g_look.
        rewrite is_false_ne by (apply slead_not; [reflexivity|exact L]). apply g_bind. exact G0.
      + intros n E. eapply pend_mono; [|apply (IH F' (fun ns lx => Q (n :: ns) lx))].
        * intros lx (G0 & L). split; [|destruct L as [L|L]; [apply slead_follow, L|eapply follow_tok; [exact L|discriminate|discriminate]]].
          apply g_bind. eapply gets_mono; [|exact G0]. intros ns lx2 HQ. apply g_ret. exact HQ.
        * intros ns lx Es. apply H. unfold msames, strip_module in *. cbn [map]. f_equal; [|exact Es]. apply same_stmt, E.
  Qed.
  Lemma p_module m : Forall (fun s => Stmt (n_item s)) m -> forall (Q : module -> lexer -> Prop), (forall ns lx, msames ns m -> Q ns lx) ->
    pend true (c_module m) (fun lx => gets (body _ F_parse) lx Q).
  Proof.
    intros F Q H. destruct m as [|s m]; cbn [c_module].
    - apply pend_eof. intros lx TK _. cbn [body]. unfold body_parse. apply g_bind, g_look. rewrite (is_true_eq _ _ TK). apply g_ret. apply H. reflexivity.
    - unfold c_node. inversion F as [|? ? SX F' E1]; subst.
      eapply pend_mono; [|apply (SX true _ (fun n lx => gets (rest <- call F_parse ;; Ret (n :: rest)) lx Q))].
      + intros lx (G0 & L). cbn [body]. unfold body_parse. apply g_bind, g_look.
        rewrite is_false_ne by (apply slead_not; [reflexivity|exact L]). apply g_bind. exact G0.
      + intros n E. eapply pend_mono; [|apply (p_module_rest m F' (fun ns lx => Q (n :: ns) lx))].
        * intros lx (G0 & L). split; [|destruct L as [L|L]; [apply slead_follow, L|eapply follow_tok; [exact L|discriminate|discriminate]]].
          apply g_bind. eapply gets_mono; [|exact G0]. intros ns lx2 HQ. apply g_ret. exact HQ.
        * intros ns lx Es. apply H. unfold msames, strip_module in *. cbn [map]. f_equal; [|exact Es]. apply same_stmt, E.
  Qed.
  Theorem round_trip m minify s : fits m -> codegen m minify = Done s -> exists m', parses_to alnum s (ParseOk m') /\ same_tree m' m.
  Proof.
    intros F C. apply (parse_code alnum (c_module m) s (fun m' => same_tree m' m)).
    - eapply render_codegen, C.
    - apply p_module; [|auto]. apply Forall_forall. intros x I. apply (sound_all (A_Stmt x)). intros y W. apply F. exists x. auto.
  Qed.
End Trip.
