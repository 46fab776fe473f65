(** What every method of the parser costs, in terms of how far it moves. *)
From Coq Require Import List NArith ZArith Bool Lia Arith String.
From Coq.Strings Require Import Byte.
From Verif Require Import Bytes Token Tables Lexer Ast Prog Parser ProgFacts Structure LexEval Erase Returns.
Import ListNotations.
Open Scope nat_scope.
Open Scope list_scope.

(** The cost of turning expressions into parameters, should an arrow follow, is paid when they are read. *)
Definition load (es : list expr_node) : nat := fold_right (fun e n => 2 + spine (n_item e) + n) 0 es.
Definition phi (e : expression) : nat := match e with E_Sequence es => load es | _ => 2 + spine e end.
Definition pot {R : Set} (f : fn R) : R -> nat :=
  match f in fn R return R -> nat with
  | F_expression _ _ => fun e => phi (n_item e)
  | F_nested _ _ => fun e => phi (n_item e)
  | F_nested_handler _ _ => fun e => phi (n_item e)
  | F_expr_handler _ => fun e => phi (n_item e)
  | F_paren => fun e => phi (n_item e)
  | F_object => fun e => phi (n_item e)
  | F_array => fun e => phi (n_item e)
  | F_regular_expression => fun e => phi (n_item e)
  | F_function_expression => fun e => phi (n_item e)
  | F_class_expression => fun e => phi (n_item e)
  | F_prefix _ => fun e => phi e
  | F_arrow _ => fun e => phi e
  | F_meta_property _ => fun e => phi e
  | F_sequence => fun es => load es
  | _ => fun _ => 0
  end.
Definition arg {R : Set} (f : fn R) : nat :=
  match f with
  | F_nested _ l => phi (n_item l)
  | F_nested_handler _ l => phi (n_item l)
  | F_expression_statement e => phi (n_item e)
  | F_arrow ps => load ps
  | F_params_from_expressions es => load es
  | F_pattern_from_expression e => S (spine (n_item e))
  | _ => 0
  end.
(** Without moving. *)
Definition idle {R : Set} (f : fn R) : nat :=
  match f with
  | F_parse => 1
  | F_item i => 8 | F_items i => 1 | F_raw_block i => 12 | F_block i => 18
  | F_pattern_from_expression _ => 0 | F_params_from_expressions _ => 0
  | F_arrow _ => 28
  | F_nested_handler _ _ => 0 | F_nested _ _ => 1 | F_expr_handler _ => 9 | F_expression _ _ => 13 | F_prefix _ => 24 | F_sequence => 1
  | F_expression_statement _ => 6 | F_stmt_handler _ => 3 | F_statement => 5
  | F_pattern_param => 6 | F_params_rest => 3 | F_params => 18
  | F_name _ => 3
  | F_function _ => 46 | F_method => 50 | F_class_member_value _ _ _ _ => 60 | F_property_value _ _ => 60 | F_class_member => 7 | F_class _ => 50
  | F_property => 6 | F_property_list_rest => 3 | F_property_list => 16
  | F_call_arguments_rest => 3 | F_call_arguments => 21 | F_array_elements_rest => 4 | F_array_elements => 21
  | F_pattern_array_element => 7 | F_pattern_elements_rest => 4 | F_pattern_elements => 18
  | F_pattern_assign _ => 2
  | F_pattern => 4 | F_declarator => 8 | F_declarators => 12
  | F_for_in_from_parts _ _ _ | F_for_in _ _ | F_for_of _ _ => 24 | F_for_rest _ _ => 44
  | F_label => 8 | F_import_rest _ _ _ => 40 | F_import_specifiers => 8
  | F_expect_semicolon => 3
  | F_template_rest => 4 | F_meta_property _ => 10
  | F_switch_case => 8 | F_case_body _ => 2
  | _ => 0
  end.
(** What is left of the price of a token. *)
Definition spare {R : Set} (f : fn R) : nat :=
  match f with
  | F_item _ => 8
  | F_statement => 10
  | F_stmt_handler _ => 13
  | F_expr_handler _ => 24
  | F_nested_handler _ _ => 6
  | F_class_member => 10 | F_switch_case => 10
  | _ => 34
  end.
Definition price : nat := 100.

Section Cost.
  (** Whether template literals can occur. *)
  Variable tp : bool.
  Notation tinv := (tinv tp).

  Definition kpre {R : Set} (f : fn R) (v : view) : Prop :=
    match f with
    | F_regular_expression | F_expr_handler X_REG | F_stmt_handler S_REG => v_token v = T_OperatorDivision
    | F_expr_handler X_OP | F_stmt_handler S_OP => operator_from_token (v_token v) <> None
    | F_template_literal | F_nested_handler N_TPLE _ | F_expr_handler X_TPLE | F_stmt_handler S_TPLE => live v /\ tp = true
    | F_template_rest => tp = true
    | F_expr_handler X_____ | F_stmt_handler S_____ | F_expr_handler X_VOID => True
    | F_unchecked_block _
    | F_nested_handler _ _ | F_paren | F_object | F_array | F_template_string
    | F_function_expression | F_class_expression | F_pattern_array | F_pattern_object | F_rest_element
    | F_block_statement | F_labeled_or_expression | F_function_statement | F_class_statement | F_variable_declaration _ | F_return | F_break | F_continue
    | F_throw | F_try | F_catch | F_if | F_while | F_do | F_for_init _ | F_for | F_import | F_switch => live v
    | F_expr_handler _ | F_stmt_handler _ => live v
    | _ => True
    end.
  Definition kmoves {R : Set} (f : fn R) : bool := match f with F_switch_case => true | _ => moves f end.
  (** The methods that do not return at the end of the program. *)
  Definition starved {R : Set} (f : fn R) : bool :=
    match f with F_switch_case | F_case_body _ | F_item I_Case => true | _ => false end.
  Record kpost {R : Set} (f : fn R) (v : view) (k : Z) (r : R) (v' : view) (k' : Z) (c : nat) : Prop := KPost {
    kp_le : (k' <= k)%Z;
    kp_moves : kmoves f = true -> live v -> (k' < k)%Z;
    kp_end : ~ live v -> ~ live v';
    kp_starved : starved f = true -> live v;
    kp_idle : (Z.of_nat (c + 3 * pot f r) <= Z.of_nat price * (k - k') + Z.of_nat (idle f + 3 * arg f))%Z;
    kp_spare : kmoves f = true -> live v -> (Z.of_nat (c + 3 * pot f r + spare f) <= Z.of_nat price * (k - k') + Z.of_nat (3 * arg f))%Z
  }.
  (** [K Q v k c p]: run on a state that shows [v] and has measure [k], having cost [c] so far, the
      program [p], if it returns, returns with [Q]. *)
  Inductive K {A : Type} (Q : A -> view -> Z -> nat -> Prop) : view -> Z -> nat -> P A -> Prop :=
  | K_Ret v k c a : Q a v k c -> K Q v k c (Ret a)
  | K_Look v k c p : K Q v k (S c) (p v) -> K Q v k c (Look p)
  | K_Consume v k c p : (forall v' k', tinv v' -> (k' <= k)%Z -> (live v -> (k' < k)%Z) -> (~ live v -> ~ live v') -> K Q v' k' (S c) p) -> K Q v k c (Consume p)
  | K_Template v k c p : tp = true -> v_token v = T_BraceClose -> (forall v' k', tinv v' -> (k' < k)%Z -> K Q v' k' (S c) p) -> K Q v k c (ReadTemplate p)
  | K_Regex v k c p : v_token v = T_OperatorDivision -> (forall s v' k', tinv v' -> (k' < k)%Z -> K Q v' k' (S c) (p s)) -> K Q v k c (ReadRegex p)
  | K_Error v k c p : (forall v' k', tinv v' -> (k' <= k)%Z -> (live v -> (k' < k)%Z) -> (~ live v -> ~ live v') -> K Q v' k' (S c) p) -> K Q v k c (PushError p)
  | K_Abort v k c : K Q v k c Abort
  | K_Call v k c (R : Set) (f : fn R) p : kpre f v ->
      (forall r v' k' d, tinv v' -> kpost f v k r v' k' d -> K Q v' k' (S (c + d)) (p r)) -> K Q v k c (Call f p).

  Lemma kpre_nested b v h l : tinv v -> handler b v = Some h -> kpre (F_nested_handler h l) v.
  Proof. intros Iv H. assert (X := pre_nested tp b v h l Iv H). destruct h; exact X. Qed.
  Lemma kpre_expr c v : tinv v -> kpre (F_expr_handler (bound_handler c v)) v.
  Proof. intros Iv. assert (X := pre_expr tp c v Iv). destruct (bound_handler c v); exact X. Qed.
  Lemma kpre_stmt v : tinv v -> kpre (F_stmt_handler (statement_handler v)) v.
  Proof.
    intros Iv. assert (X := pre_stmt tp v Iv). destruct (statement_handler v); try exact X.
    cbn in X |- *. unfold live. rewrite X. discriminate.
  Qed.
  Lemma expr_moves c v : live v -> kmoves (F_expr_handler (bound_handler c v)) = true \/ bound_handler c v = X_VOID.
  Proof. intros _. destruct (bound_handler c v); auto. Qed.
  Lemma phi_binary op l r : phi (E_Binary op l r) <= phi (n_item l) + 3.
  Proof. cbn [phi spine]. unfold phi. destruct (n_item l); cbn [spine]; lia. Qed.
  Lemma spine_phi e : 2 + spine e <= phi e + 2.
  Proof. unfold phi. destruct e; cbn [spine]; lia. Qed.

  Ltac tlive := first [assumption
    | match goal with
      | C : is ?t ?v = true |- live ?v => exact (is_live t v C eq_refl)
      | C : (is ?t ?v && _)%bool = true |- live ?v => apply andb_true_iff in C as [C _]; exact (is_live t v C eq_refl)
      | C : (is _ ?v || is _ ?v || is _ ?v)%bool = true |- live ?v => apply orb_true_iff in C as [C|C]; [apply orb_true_iff in C as [C|C]|]; exact (is_live _ v C eq_refl)
      | C : (is _ ?v || is _ ?v)%bool = true |- live ?v => apply orb_true_iff in C as [C|C]; exact (is_live _ v C eq_refl)
      | C : (is _ ?v || is T_EndOfProgram ?v)%bool = false |- live ?v => apply orb_false_iff in C as [_ C]; exact (live_not v C)
      | C : is T_EndOfProgram ?v = false |- live ?v => exact (live_not v C)
      | C : is_word (v_token ?v) = true |- live ?v => exact (live_word v C)
      | C : operator_from_token (v_token ?v) <> None |- live ?v => exact (live_operator v C)
      | C : operator_from_token (v_token ?v) = Some _ |- live ?v => apply live_operator; rewrite C; discriminate
      | C : v_token ?v = T_OperatorDivision |- live ?v => exact (live_slash v C)
      | C : live ?v /\ _ |- live ?v => exact (proj1 C)
      | C : handler _ ?v = Some _ |- live ?v => exact (live_nested _ _ _ C)
      end].
  Ltac tcond p := match p with bind ?q _ => tcond q | (if ?c then _ else _) => c | (match ?c with _ => _ end) => c end.
  Ltac strict H := try (specialize (H ltac:(tlive))).
  Ltac kcall := 
    let L := fresh "Hl" in let Sv := fresh "Hsv" in let E := fresh "He" in let I1 := fresh "Hid" in let Sp := fresh "Hsp" in
    intros ?r ?v ?k ?d ?Hi [?Hk L E Sv I1 Sp];
    cbn [kmoves moves starved pot arg idle spare] in L, Sv, I1, Sp;
    first [specialize (L eq_refl); specialize (Sp eq_refl); strict L; strict Sp | clear L Sp];
    first [specialize (Sv eq_refl) | clear Sv].
  Ltac kstep :=
    match goal with
    | |- K _ _ _ _ (Ret _) => apply K_Ret
    | |- K _ _ _ _ (Look _) => apply K_Look
    | |- K _ _ _ _ (Consume _) => apply K_Consume; let L := fresh "Hl" in intros ?v ?k ?Hi ?Hk L ?He; strict L
    | |- K _ _ _ _ (ReadTemplate _) => apply K_Template; [| |intros ?v ?k ?Hi ?Hk]
    | |- K _ _ _ _ (ReadRegex _) => apply K_Regex; [|intros ?s ?v ?k ?Hi ?Hk]
    | |- K _ _ _ _ (PushError _) => apply K_Error; let L := fresh "Hl" in intros ?v ?k ?Hi ?Hk L ?He; strict L
    | |- K _ _ _ _ Abort => apply K_Abort
    | |- K _ _ _ _ (Call _ _) => apply K_Call; [|kcall]
    | |- K _ _ _ _ ?p => let c := tcond p in let E := fresh "C" in destruct c eqn:E
    end.
  Ltac kpreq :=
    match goal with
    | |- kpre (F_expr_handler (bound_handler _ _)) _ => apply kpre_expr; assumption
    | |- kpre (F_stmt_handler (statement_handler _)) _ => apply kpre_stmt; assumption
    | C : handler _ ?v = Some ?h |- kpre (F_nested_handler ?h _) ?v => eapply kpre_nested; eassumption
    | C : is ?t ?v = true |- v_token ?v = ?t => exact (is_eq t v C)
    | |- kpre _ _ => cbn [kpre]; try tlive; try (split; [tlive|]); try assumption; try exact I; try tauto
    | H : live _ /\ tp = true |- tp = true => exact (proj2 H)
    | |- _ => idtac
    end.
  Lemma live_dec v : live v \/ ~ live v.
  Proof. unfold live. destruct (token_eq_dec (v_token v) T_EndOfProgram) as [E|N]; [right|left]; auto. Qed.
  Ltac kuse x := repeat (match goal with H : live ?v -> _, L : live ?v |- _ => specialize (H L) end).
  Lemma phi_params (l : expr_node) : load (match n_item l with E_Sequence b => b | _ => [l] end) = phi (n_item l).
  Proof. unfold phi, load. destruct (n_item l) eqn:E; cbn [fold_right]; rewrite ?E; cbn [spine]; lia. Qed.
  Ltac karith :=
    cbn [pot arg idle spare n_item phi spine in_loc] in *;
    try (match goal with C : n_item ?e = E_Binary _ _ _ |- context [n_item ?e] => rewrite C end); cbn [n_item phi spine]; rewrite ?phi_params in *; unfold load in *; cbn [fold_right n_item spine phi in_loc] in *;
    repeat (match goal with
    | |- context [spine (n_item ?l)] => lazymatch goal with H : 2 + spine (n_item l) <= phi (n_item l) + 2 |- _ => fail | _ => pose proof (spine_phi (n_item l)) end
    end); unfold price in *; change (Z.of_nat 100) with 100%Z in *; try lia.
  Ltac kclose :=
    match goal with
    | |- kpost _ _ _ _ _ _ _ =>
        try (match goal with H : live ?w |- kpost _ ?v _ _ _ _ _ => lazymatch goal with H : live v |- _ => fail | _ => idtac end; assert (live v) by (destruct (live_dec v); [assumption|exfalso; tauto]) end);
        constructor;
        [ try lia
        | let M := fresh in let L := fresh "L" in intros M L; first [discriminate M | lia | kuse L; lia | idtac]
        | first [tauto
                | let N := fresh in intros N; exfalso; match goal with C : is T_BraceClose ?w = true |- _ => pose proof (is_live _ w C eq_refl); tauto end
                | let N := fresh in intros N; exfalso; match goal with C : v_token ?w = T_OperatorDivision |- _ => pose proof (live_slash w C); tauto end
                | idtac]
        | let M := fresh in intros M; first [discriminate M | assumption | tlive | match goal with |- live ?v => destruct (live_dec v); [assumption|exfalso; tauto] end | idtac]
        | kuse tt; karith
        | let M := fresh in let L := fresh "L" in intros M L; first [discriminate M | kuse L; karith] ]
    | |- _ => idtac
    end.
  Lemma body_cost (R : Set) (f : fn R) v k : tinv v -> kpre f v -> K (fun r v' k' c => kpost f v k r v' k' c) v k 0 (body R f).
  Proof.
    intros Hv Hp. destruct f; try (match goal with h : nested_handler |- _ => destruct h end); try (match goal with h : expr_handler |- _ => destruct h end); try (match goal with h : stmt_handler |- _ => destruct h end);
      try (match goal with i : item _ |- _ => destruct i end); try (match goal with k : namekind |- _ => destruct k end).
    all: cbn [kpre] in Hp; try (match goal with |- K _ _ _ _ (body _ ?f) => pose (fn_now := f) end).
    all: bodies; cbn [bind]; repeat (kstep; cbn [bind]); try assumption; try exact I; kpreq.
    all: kclose.
  Qed.
End Cost.
