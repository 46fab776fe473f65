(** The length of minified code, against the lexemes of the program. *)
From Coq Require Import List NArith Bool Lia Arith String.
From Coq.Strings Require Import Byte.
From Verif Require Import Bytes Token Lexer Ast Codegen SpecTokens SpellFacts SpecSyntax CompRun.
Import ListNotations.
Open Scope nat_scope.
Open Scope list_scope.

(** ** Lengths *)
Fixpoint cl (c : code) : nat := match c with GBytes s :: r => List.length s + cl r | _ :: r => cl r | [] => 0 end.
Lemma cl_app a b : cl (a ++ b) = cl a + cl b.
Proof. induction a as [|g a IH]; [reflexivity|]. destruct g; cbn [app cl]; lia. Qed.
Lemma cl_min c s : run_min c = Done s -> List.length s = cl c.
Proof.
  revert s. induction c as [|g c IH]; intros s H; cbn [run_min cl] in *; [injection H as <-; reflexivity|].
  destruct g; try (apply IH; exact H); try discriminate. destruct (run_min c) as [r| | |]; try discriminate. cbn [obind] in H. injection H as <-. rewrite app_length. f_equal. now apply IH.
Qed.
(** The least length of a token, and the weight of a lexeme: no more than the bytes it takes up (a property access has a dot). *)
Definition least (t : token) : nat :=
  match find (fun p => token_eqb (snd p) t) SPELLINGS with
  | Some p => List.length (fst p)
  | None => match t with T_EndOfProgram | T_UnexpectedToken | T_UnexpectedEndOfProgram => 0 | _ => 1 end
  end.
Definition dot (t : token) : nat := match t with T_Accessor => 1 | _ => 0 end.
Definition wt (x : lexeme) : nat := dot (fst x) + Nat.max (least (fst x)) (List.length (w_text (snd x))).
Fixpoint wl (l : list lexeme) : nat := match l with [] => 0 | x :: r => wt x + wl r end.
Lemma wl_app a b : wl (a ++ b) = wl a + wl b.
Proof. induction a as [|x a IH]; [reflexivity|]. cbn [app wl]. lia. Qed.
Lemma wt_least t s : least t <= wt (t, s).
Proof. unfold wt. cbn [fst]. lia. Qed.
Lemma wt_text t s : dot t + List.length (w_text s) <= wt (t, s).
Proof. unfold wt. cbn [fst snd]. lia. Qed.

(** ** Lists *)
Lemma cl_items {A : Set} (f : A -> code) l : cl (c_items f l) = cl (c_block_rest f l).
Proof. destruct l as [|x l]; [reflexivity|]. cbn [c_items c_block_rest]. rewrite ?cl_app. cbn [cl app]. rewrite ?cl_app. cbn [cl]. lia. Qed.
Lemma cl_block {A : Set} (f : A -> code) b : cl (c_block f b) = 2 + cl (c_block_rest f (b_body b)).
Proof. unfold c_block. rewrite !cl_app, cl_items. cbn. lia. Qed.
Lemma cl_props_rest {A : Set} (f : A -> code) l : cl (c_props_rest f l) = cl (c_list_rest f l).
Proof. induction l as [|x l IH]; [reflexivity|]. cbn [c_props_rest c_list_rest]. rewrite !cl_app, IH. cbn. lia. Qed.
Lemma cl_props {A : Set} (f : A -> code) l : cl (c_props f l) = 2 + cl (c_list f l).
Proof. destruct l as [|x l]; [reflexivity|]. cbn [c_props c_list]. rewrite !cl_app, cl_props_rest. cbn. lia. Qed.
Lemma cl_bound f n b : cl (f (n_item n)) <= cl (c_bound f n b) <= cl (f (n_item n)) + 2.
Proof. unfold c_bound. destruct (Nat.ltb _ _); rewrite ?cl_app; cbn; lia. Qed.
Lemma cl_bound_free f n b : b <= expression_bp (n_item n) -> cl (c_bound f n b) = cl (f (n_item n)).
Proof. intros H. unfold c_bound. destruct (Nat.ltb_spec (expression_bp (n_item n)) b); [lia|reflexivity]. Qed.
Lemma cl_space b : cl (space_if b) <= 1.
Proof. destruct b; cbn; lia. Qed.

(** ** Operators *)
Lemma prefix_len t op : In (t, op) prefix_operators -> List.length (operator_str op) = least t /\ (operator_category op = CatWord -> 3 <= least t).
Proof. intros I. cbn in I. repeat (destruct I as [I|I]; [injection I as <- <-; vm_compute; split; [reflexivity|intros E; try discriminate E; lia]|]). destruct I. Qed.
Lemma postfix_len t op : In (t, op) postfix_operators -> List.length (operator_str op) = least t.
Proof. intros I. cbn in I. repeat (destruct I as [I|I]; [injection I as <- <-; reflexivity|]). destruct I. Qed.
Lemma infix_len t op p : In (t, op, p) infix_operators -> List.length (operator_str op) = least t /\ 1 <= least t /\
  ((p <= 13 /\ operator_bp op = p) \/ (operator_bp op = 14 /\ 14 <= p /\ operator_category op = CatSafe)) /\ (operator_category op = CatWord -> 2 <= least t).
Proof. intros I. cbn in I. repeat (destruct I as [I|I]; [injection I as <- <- <-; vm_compute; intuition (try lia; try discriminate)|]). destruct I. Qed.
Lemma assign_len t op : In (t, op) assignment_operators -> List.length (operator_str op) = least t /\ 1 <= least t /\ operator_bp op = 3 /\ operator_category op = CatSafe.
Proof. intros I. cbn in I. repeat (destruct I as [I|I]; [injection I as <- <-; vm_compute; intuition lia|]). destruct I. Qed.
Lemma declared t k : In (t, k) declarations -> cl (c_kind k) + 1 <= 2 * least t.
Proof. intros I. cbn in I. repeat (destruct I as [I|I]; [injection I as <- <-; vm_compute; lia|]). destruct I. Qed.
Lemma safe_left op l : operator_category op = CatSafe -> cl (space_if (spacing_left op l)) = 0.
Proof. intros E. unfold spacing_left. rewrite E. reflexivity. Qed.
Lemma safe_right op l : operator_category op = CatSafe -> cl (space_if (spacing_right op l)) = 0.
Proof. intros E. unfold spacing_right. rewrite E. reflexivity. Qed.

(** ** Parts without recursion *)
Ltac numbers := repeat match goal with
  | |- context [least ?t] => is_constructor t; let v := eval vm_compute in (least t) in change (least t) with v
  | H : context [least ?t] |- _ => is_constructor t; let v := eval vm_compute in (least t) in change (least t) with v in H
  | |- context [dot ?t] => is_constructor t; let v := eval vm_compute in (dot t) in change (dot t) with v
  | H : context [dot ?t] |- _ => is_constructor t; let v := eval vm_compute in (dot t) in change (dot t) with v in H
  | |- context [List.length (bs ?s)] => let v := eval vm_compute in (List.length (bs s)) in change (List.length (bs s)) with v
  | H : context [List.length (bs ?s)] |- _ => let v := eval vm_compute in (List.length (bs s)) in change (List.length (bs s)) with v in H
  | |- context [List.length (operator_str ?s)] => is_constructor s; let v := eval vm_compute in (List.length (operator_str s)) in change (List.length (operator_str s)) with v
  end.
Ltac wts := repeat match goal with
  | |- context [wt (?t, ?s)] => pose proof (wt_least t s); pose proof (wt_text t s); generalize dependent (wt (t, s)); intros
  | H : context [wt (?t, ?s)] |- _ => pose proof (wt_least t s); pose proof (wt_text t s); generalize dependent (wt (t, s)); intros
  end.
Ltac norm := cbn [c_expression c_template c_arrow_body c_property c_key c_pattern c_func c_class c_member c_statement c_declarator c_for_init c_case c_catch c_list c_list_rest c_block_rest c_name c_keyword c_jump c_literal c_specifier n_item b_body] in *;
  rewrite ?cl_props, ?cl_block, ?cl_items, ?cl_app, ?wl_app in *; unfold c_node, c_ident, wstr, sp, w in *; cbn [cl wl app n_item b_body] in *; rewrite ?cl_props, ?cl_block, ?cl_items, ?cl_app, ?wl_app in *; cbn [cl wl app b_body] in *.
Ltac len := norm; wts; repeat match goal with E : n_item _ = w_text _ |- _ => rewrite E in *; clear E | E : w_text _ = _ |- _ => rewrite E in *; clear E end; rewrite ?app_length in *; cbn [List.length] in *; numbers; try lia.

Lemma len_semi nx l : semi nx l -> 0 <= wl l.
Proof. lia. Qed.
Lemma len_name k l n : name_of k l n -> cl (c_name n) <= 2 * wl l /\ (k = Nameless -> n = Name_Empty).
Proof. destruct 1; (split; [len|congruence]). Qed.
Lemma len_label kw l o : label l o -> cl (c_jump kw o) <= 2 * wl l + List.length (bs kw) + 1.
Proof. destruct 1; len. Qed.
Lemma len_atom t s e : atom t s e -> cl (c_expression e) + 1 <= 2 * wt (t, s) /\ expression_bp e = 100 /\ is_allowed_as_bare_statement e = true.
Proof. destruct 1; (split; [len|split; reflexivity]). Qed.
Lemma len_import_name l x : import_name l x -> cl (c_specifier x) <= 2 * wl l /\ (exists n m, x = IS_Named n m).
Proof.
  destruct 1 as [s n m E1 E2|s1 s2 s3 n m E E1 E2]; (split; [|eauto]); cbn [c_specifier]; destruct (str_eqb _ _) eqn:X; try solve [len].
  exfalso. rewrite E1, E2 in X. rewrite (proj2 (str_eqb_eq _ _) eq_refl) in X. discriminate X.
Qed.
Definition all_named (specs : list (node import_specifier)) : Prop := filter is_named_specifier specs = specs /\ filter (fun s => negb (is_named_specifier s)) specs = [].
Lemma named_cons x specs : (exists n m, n_item x = IS_Named n m) -> all_named specs -> all_named (x :: specs).
Proof. intros (n & m & E) [A B]. assert (X : is_named_specifier x = true) by (unfold is_named_specifier; now rewrite E). unfold all_named. cbn [filter]. rewrite X, A, B. split; reflexivity. Qed.
Lemma len_imported l specs : imported l specs -> cl (c_list c_specifier specs) + 1 <= 2 * wl l /\ all_named specs /\ specs <> [].
Proof.
  induction 1 as [s l x H|s l1 l2 x specs H _ IH]; destruct (len_import_name _ _ H) as [L N].
  - split; [len|]. split; [|discriminate]. apply named_cons; [exact N|]. split; reflexivity.
  - destruct IH as (L2 & A & Ne). split; [|split; [now apply named_cons|discriminate]]. destruct specs as [|y specs]; [congruence|]. len.
Qed.
Definition import_code (ss : list (node import_specifier)) : code :=
  let others := filter (fun s => negb (is_named_specifier s)) ss in let named := filter is_named_specifier ss in
  c_list c_specifier others ++ (match named with [] => [] | _ => (match others with [] => [] | _ => w "," end) ++ w "{" ++ c_list c_specifier named ++ w "}" end).
Lemma len_more l ss : import_more l ss -> cl (import_code ss) <= 2 * wl l /\ (forall x n, n_item x = IS_Default n -> cl (import_code (x :: ss)) <= 2 * wl l + List.length (n_item n) + 1) /\ ss <> [].
Proof.
  destruct 1 as [s1 s2 s3 n x E2 E3 E|s l specs H].
  - unfold import_code. split; [|split; [|discriminate]].
    + cbn [filter]. unfold is_named_specifier. rewrite E. cbn [negb]. norm. rewrite E. len.
    + intros y k Ey. cbn [filter]. unfold is_named_specifier. rewrite E, Ey. cbn [negb]. norm. rewrite E, Ey. len.
  - destruct (len_imported _ _ H) as (L & [A B] & N). unfold import_code. rewrite A, B. split; [|split; [|exact N]].
    + destruct specs as [|y specs]; [congruence|]. len.
    + intros z k Ez. assert (X : is_named_specifier z = false) by (unfold is_named_specifier; now rewrite Ez). cbn [filter]. rewrite X, A, B. cbn [negb]. destruct specs as [|y specs]; [congruence|]. norm. rewrite Ez. len.
Qed.
Lemma len_clause l ss : import_clause l ss -> cl (import_code ss) <= 2 * wl l /\ ss <> [].
Proof.
  destruct 1 as [s n x En E|s1 s2 n x l specs En E H|l specs H].
  - split; [|discriminate]. unfold import_code. cbn [filter]. unfold is_named_specifier. rewrite E. cbn [negb]. norm. rewrite E. len.
  - destruct (len_more _ _ H) as (_ & L & _). specialize (L x n E). split; [|discriminate]. len.
  - destruct (len_more _ _ H) as (L & _ & N). auto.
Qed.
Lemma len_pattern e p : pattern_of e p -> cl (c_pattern p) <= cl (c_expression e).
Proof.
  induction 1 as [s|e p d _ IH]; [len|]. norm. assert (B1 := cl_bound c_expression e (operator_bp O_Assign)). assert (B2 := cl_bound c_expression d (operator_bp O_Assign + 1)). numbers. lia.
Qed.
Lemma len_patterns b ps : patterns_of b ps -> cl (c_list_rest c_pattern ps) <= cl (c_list_rest c_expression b) /\ cl (c_list c_pattern ps) <= cl (c_list c_expression b).
Proof.
  induction 1 as [|e p b ps H _ IH]; [split; cbn; lia|]. apply len_pattern in H. destruct IH as [I1 I2]. split; len.
Qed.

(** ** The grammar *)
Definition starts (l : list lexeme) : Prop := ~ not_first [T_BraceOpen; T_Function; T_Class] l.
Definition Pe (n : nat) (l : list lexeme) (e : expression) : Prop :=
  cl (c_expression e) + 1 <= 2 * wl l /\ (Nat.min n 14 <= expression_bp e \/ cl (c_expression e) + 3 <= 2 * wl l) /\
  (is_allowed_as_bare_statement e = false -> starts l \/ cl (c_expression e) + 3 <= 2 * wl l).
Definition L {A : Set} (f : A -> code) (l : list lexeme) (x : A) : Prop := cl (f x) <= 2 * wl l.
Definition kind_code (kind : methodkind) : code := match kind with MK_Get => w "get " | MK_Set => w "set " | _ => [] end.
Definition static_code (st : bool) : code := if st then w "static " else [].
Definition named (k : naming) (n : nat) : nat := match k with Nameless => 0 | _ => n end.

Definition P1 := fun (n : nat) (o : bool) l e => Pe n l e.
Definition P2 := fun l es => cl (c_list_rest c_expression es) <= 2 * wl l.
Definition P3 := fun l e => cl (c_expression e) + 1 <= 2 * wl l.
Definition P4 := fun l es => cl (c_list c_expression es) <= 2 * wl l.
Definition P6 := fun l e => cl (c_expression e) <= 2 * wl l.
Definition P9 := fun (op : str) l t => List.length op = 1 -> (match t with Template es qs => List.length qs = S (List.length es) end) /\ cl (c_template t) + 1 <= 2 * wl l.
Definition P10 := fun (o : bool) l b => cl (c_arrow_body b) <= 2 * wl l.
Definition P11 := fun l k => cl (c_key k) <= 2 * wl l.
Definition P12 := fun l p => cl (c_property p) <= 2 * wl l.
Definition P13 := fun l ps => cl (c_list c_property ps) <= 2 * wl l.
Definition P14 := fun l ps => cl (c_list_rest c_property ps) <= 2 * wl l.
Definition P15 := fun l p => cl (c_pattern p) <= 2 * wl l.
Definition P18 := fun l ps => cl (c_list c_pattern ps) <= 2 * wl l.
Definition P19 := fun l ps => cl (c_list_rest c_pattern ps) <= 2 * wl l.
Definition P20 := fun l ps => cl (c_list c_pattern ps) + 2 <= 2 * wl l.
Definition P21 := fun l ps => cl (c_list_rest c_pattern ps) + 1 <= 2 * wl l.
Definition P22 := fun l p => cl (c_pattern p) + 1 <= 2 * wl l.
Definition P23 := fun k l f => cl (c_func f) <= 2 * wl l + named k 8.
Definition P24 := fun k l c => cl (c_class c) <= 2 * wl l + named k 5.
Definition P25 := fun l b => cl (c_block c_member b) <= 2 * wl l.
Definition P26 := fun (nx : lexeme) l ms => cl (c_block_rest c_member ms) <= 2 * wl l.
Definition P27 := fun (nx : lexeme) l m => cl (c_member m) <= 2 * wl l.
Definition P28 := fun l st kind k => cl (static_code st) + cl (kind_code kind) + cl (c_key k) <= 2 * wl l.
Definition P29 := fun l (st : bool) kind k => cl (kind_code kind) + cl (c_key k) <= 2 * wl l.
Definition P30 := fun l b => cl (c_block c_statement b) <= 2 * wl l.
Definition P31 := fun (nx : lexeme) l ss => cl (c_block_rest c_statement ss) <= 2 * wl l.
Definition P32 := fun (nx : lexeme) l s => cl (c_statement s) <= 2 * wl l.
Definition P33 := fun (nx : lexeme) l ds => cl (c_list c_declarator ds) <= 2 * wl l.
Definition P34 := fun (nx : lexeme) l d => cl (c_declarator d) <= 2 * wl l.
Definition P35 := fun (nx : lexeme) l i => cl (c_for_init i) <= 2 * wl l.
Definition P36 := fun (nx : lexeme) l (i : option (node for_init)) => cl (match i with Some i => c_node c_for_init i | None => [] end) <= 2 * wl l.
Definition P37 := fun l (i : option (node expression)) => cl (match i with Some i => c_node c_expression i | None => [] end) <= 2 * wl l.
Definition P38 := fun l (h : option (node catch_clause)) => cl (match h with Some h => c_node c_catch h | None => [] end) <= 2 * wl l.
Definition P39 := fun l (f : option (node (block statement))) => cl (match f with Some f => c_node (c_block c_statement) f | None => [] end) <= 2 * wl l.
Definition P40 := fun l b => cl (c_block c_case b) <= 2 * wl l.
Definition P41 := fun (nx : lexeme) l cs => cl (c_block_rest c_case cs) <= 2 * wl l.
Definition P42 := fun (nx : lexeme) l c => cl (c_case c) <= 2 * wl l.
Ltac preds := unfold P1, P2, P3, P4, P6, P9, P10, P11, P12, P13, P14, P15, P18, P19, P20, P21, P22, P23, P24, P25, P26, P27, P28, P29, P30, P31, P32, P33, P34, P35, P36, P37, P38, P39, P40, P41, P42 in *.
Lemma Pe_intro n l e : cl (c_expression e) + 1 <= 2 * wl l -> Nat.min n 14 <= expression_bp e -> is_allowed_as_bare_statement e = true \/ starts l -> Pe n l e.
Proof. intros A B [C|C]; (split; [exact A|]; split; [now left|]); [congruence|auto]. Qed.
Ltac firsts := repeat match goal with H : Pe _ _ _ |- _ => destruct H as (H & _ & _) end.
Lemma starts_mono l r : starts l -> starts (l ++ r).
Proof. unfold starts. destruct l as [|[t s] l]; cbn; tauto. Qed.
Lemma Pe_bound n l e b : Pe n l (n_item e) -> b <= Nat.min n 14 -> cl (c_bound c_expression e b) + 1 <= 2 * wl l.
Proof.
  intros (A & B & _) G. destruct B as [B|B].
  - rewrite cl_bound_free by lia. exact A.
  - destruct (cl_bound c_expression e b). lia.
Qed.
Lemma Pe_any n l e b : Pe n l (n_item e) -> cl (c_bound c_expression e b) <= 2 * wl l + 1.
Proof. intros (A & _). destruct (cl_bound c_expression e b). lia. Qed.
Lemma prefix_bp op e : expression_bp (E_Prefix op e) = 15. Proof. reflexivity. Qed.
Lemma postfix_bp t op e : In (t, op) postfix_operators -> 14 <= expression_bp (E_Postfix op e).
Proof. intros I. cbn in I. repeat (destruct I as [I|I]; [injection I as <- <-; vm_compute; lia|]). destruct I. Qed.
Lemma some_pos t op : In (t, op) prefix_operators -> 1 <= least t.
Proof. intros I. cbn in I. repeat (destruct I as [I|I]; [injection I as <- <-; vm_compute; lia|]). destruct I. Qed.
Definition c_params (ps : list (node pattern)) : code := match ps with [p] => match n_item p with Pat_Identifier s => wstr s | _ => w "(" ++ c_list c_pattern ps ++ w ")" end | _ => w "(" ++ c_list c_pattern ps ++ w ")" end.
Lemma arrow_code ps b : cl (c_expression (E_Arrow ps b)) = cl (c_params ps) + 2 + cl (c_arrow_body b).
Proof. change (c_expression (E_Arrow ps b)) with (c_params ps ++ sp ++ w "=>" ++ sp ++ c_arrow_body b). rewrite !cl_app. cbn. lia. Qed.
Lemma len_params e ps : params_of e ps -> cl (c_params ps) <= cl (c_expression e) \/
  (cl (c_params ps) <= cl (c_expression e) + 2 /\ expression_bp e < 14).
Proof.
  assert (G : forall ps, cl (c_params ps) <= cl (c_list c_pattern ps) + 2).
  { intros [|p [|q r]]; unfold c_params; norm; try (numbers; lia). destruct (n_item p); norm; numbers; lia. }
  destruct 1 as [b ps H|e p H].
  - right. apply len_patterns in H. specialize (G ps). norm. split; [lia|cbn; lia].
  - inversion H as [s E1 E2|a q d H1 E1 E2]; subst.
    + left. unfold c_params. rewrite <- E2. cbn. lia.
    + right. apply len_pattern in H. specialize (G [p]). unfold c_params in *. cbv iota beta in G. rewrite <- E2 in *. split; [|cbn; lia]. cbv iota beta in *. rewrite !cl_app in *. cbn [c_list c_list_rest] in *. rewrite !cl_app in *. unfold c_node in *. rewrite <- E2 in *. cbn [cl c_list_rest] in *. cbn [cl w] in *. numbers. lia.
Qed.
Lemma len_quoted src s : quoted src s -> List.length s = List.length src + 2.
Proof. intros (a & b & ->). cbn [List.length]. rewrite app_length. cbn. lia. Qed.
Lemma template_code e es q qs : List.length qs = S (List.length es) -> cl (c_template (Template (e :: es) (q :: qs))) = cl (c_template (Template es qs)) + List.length (n_item q) + cl (c_expression (n_item e)) + 3.
Proof.
  intros H. destruct qs as [|q2 qs]; [discriminate|]. destruct qs as [|q3 qs]; destruct es as [|e2 es]; try discriminate H; norm; cbn [c_template_rest]; norm; numbers; lia.
Qed.
Lemma list_rest {A : Set} (f : A -> code) l : l <> [] -> cl (c_list_rest f l) = cl (c_list f l) + 1.
Proof. destruct l as [|x l]; [congruence|]. intros _. norm. numbers. lia. Qed.

Lemma len_statements nx l ss : statements nx l ss -> cl (c_block_rest c_statement ss) <= 2 * wl l.
Proof.
  apply (statements_cind P1 P2 P3 P4 P2 P6 P4 P2 P9 P10 P11 P12 P13 P14 P15 P15 P15 P18 P19 P20 P21 P22 P23 P24 P25 P26 P27 P28 P29 P30 P31 P32 P33 P34 P35 P36 P37 P38 P39 P40 P41 P42).
  all: clear.
  all: try solve [intros; preds; len].
  all: try solve [intros; preds; unfold named, kind_code, static_code in *; firsts; len].
  all: try solve [intros; preds; unfold named, kind_code, static_code in *; firsts; apply Pe_intro; [len|cbn; lia|first [left; reflexivity|right; intros X; apply X; cbn; tauto]]].
  - (* weaker *) intros n m o l e G _ (A & B & C). split; [exact A|]. split; [|exact C]. destruct B as [B|B]; [left; lia|right; exact B].
  - (* atom *) intros t s e H. destruct (len_atom _ _ _ H) as (A & B & C). apply Pe_intro; [norm; lia|lia|now left].
  - (* paren *) intros o l e s1 s2 _ (A & _). assert (X : cl (c_expression e) + 3 <= 2 * wl ((T_ParenOpen, s1) :: l ++ [(T_ParenClose, s2)])) by len. split; [lia|]. split; [now right|intros _; now right].
  - (* prefix *) intros t s op o l e I _ (A & _). destruct (prefix_len _ _ I) as [L1 L2]. assert (L3 := some_pos _ _ I). apply Pe_intro; [|cbn; lia|now left].
    norm. assert (W := wt_least t s). rewrite L1. destruct (operator_category op); norm; numbers; try specialize (L2 eq_refl); lia.
  - (* postfix *) intros t s op l e I _ _ _ (A & _). assert (L1 := postfix_len _ _ I). assert (W := wt_least t s). apply Pe_intro; [norm; lia|assert (X := postfix_bp _ _ e I); lia|now left].
  - (* infix *) intros t s op p o l1 l2 a b I _ A _ B. destruct (infix_len _ _ _ I) as (L1 & L2 & L3 & L4). assert (W := wt_least t s).
    apply Pe_intro; [|cbn [expression_bp]; lia|now left]. norm. rewrite L1.
    assert (S1 := cl_space (spacing_left op (n_item a))). assert (S2 := cl_space (spacing_right op (n_item b))).
    assert (B1 : cl (c_bound c_expression a (operator_bp op)) + 1 <= 2 * wl l1) by (apply (Pe_bound p); [exact A|lia]).
    destruct L3 as [(L3 & E)|(E & L3 & C)].
    + assert (B2 : cl (c_bound c_expression b (operator_bp op + 1)) + 1 <= 2 * wl l2) by (apply (Pe_bound (S p)); [exact B|lia]). lia.
    + rewrite safe_left, safe_right by exact C. assert (B2 := Pe_any _ _ _ (operator_bp op + 1) B). lia.
  - (* assign *) intros t s op o l1 l2 a b I _ _ A _ B. destruct (assign_len _ _ I) as (L1 & L2 & L3 & L4). assert (W := wt_least t s).
    apply Pe_intro; [|cbn [expression_bp]; lia|now left]. norm. rewrite L1, safe_left, safe_right by exact L4.
    assert (B1 : cl (c_bound c_expression a (operator_bp op)) + 1 <= 2 * wl l1) by (apply (Pe_bound 17); [exact A|lia]). assert (B2 := Pe_any _ _ _ (operator_bp op + 1) B). lia.
  - (* member *) intros l s o p _ A E. apply Pe_intro; [|cbn; lia|now left]. assert (B := Pe_any _ _ _ 19 A). norm. rewrite E. unfold wt. cbn [fst snd]. numbers. lia.
  - (* computed *) intros o2 l1 l2 s1 s2 o p _ A _ (B & _). apply Pe_intro; [|cbn; lia|now left]. assert (B1 := Pe_any _ _ _ 19 A). len.
  - (* new target *) intros s1 s2 m p E1 E2 E3. apply Pe_intro; [|cbn; lia|now left]. norm. rewrite E1, E2. unfold wt. cbn [fst snd]. rewrite E3. numbers. lia.
  - (* arrow *) intros o l1 l2 s e ps b _ (A & B & _) H _ C. preds. apply Pe_intro; [|cbn; lia|now left]. apply len_params in H. rewrite arrow_code. revert H. generalize (cl (c_params ps)). intros z H. len.
  - (* last piece *) intros opening s q E Q. preds. split; [reflexivity|]. len; unfold str in *; lia.
  - (* piece *) intros opening o s l1 l2 q e es qs E _ (A & _) _ IH Q. destruct (IH eq_refl) as [N B]. preds. split; [cbn [List.length]; now rewrite N|]. rewrite (template_code _ _ _ _ N). len; unfold str in *; lia.
  - (* function *) intros k l1 l2 l3 n ps b H _ A _ B. preds. destruct (len_name _ _ _ H) as [N1 N2]. assert (K : cl (c_keyword "function" n) <= named k 8). { destruct k; [rewrite (N2 eq_refl); cbn; lia| |]; destruct n; cbn; lia. } norm. numbers. lia.
  - (* generator *) intros k s l1 l2 l3 n ps b _ H _ A _ B. preds. destruct (len_name _ _ _ H) as [N1 N2]. assert (K : cl (c_keyword "function" n) <= named k 8). { destruct k; [rewrite (N2 eq_refl); cbn; lia| |]; destruct n; cbn; lia. } norm. numbers. lia.
  - (* class *) intros k l1 l2 n b H _ A. preds. destruct (len_name _ _ _ H) as [N1 N2]. assert (K : cl (c_keyword "class" n) <= named k 5). { destruct k; [rewrite (N2 eq_refl); cbn; lia| |]; destruct n; cbn; lia. } norm. numbers. lia.
  - (* extends *) intros o k l1 l2 l3 s n e b H _ (A & _) _ B. preds. destruct (len_name _ _ _ H) as [N1 N2]. assert (K : cl (c_keyword "class" n) <= named k 5). { destruct k; [rewrite (N2 eq_refl); cbn; lia| |]; destruct n; cbn; lia. } len.
  - (* method *) intros nx l1 l2 l3 st kind k f _ A _ B _. preds. unfold static_code, kind_code, named in *. norm. destruct st, kind; cbn [cl] in *; lia.
  - (* field *) intros nx o l1 l2 l3 s st kind k e _ A _ (B & _) _ _. preds. unfold static_code in *. destruct st; len.
  - (* expression *) intros nx o l1 l2 e _ (A & _ & C) F H _. preds. norm. destruct (is_allowed_as_bare_statement (n_item e)) eqn:Eb; norm; numbers; [lia|]. destruct (C eq_refl) as [C2|C2]; [destruct (C2 F)|]. lia.
  - (* import name *) intros nx o s t s' l1 l2 e _ (A & _ & C) I H _. preds. assert (W : wt (T_Identifier, s) <= wt (T_Import, s)). { unfold wt. cbn [fst snd]. numbers. lia. }
    norm. destruct (is_allowed_as_bare_statement (n_item e)) eqn:Eb; norm; numbers; [lia|]. destruct (C eq_refl) as [C2|C2]; [exfalso; apply C2; cbn; intuition discriminate|]. lia.
  - (* declaration *) intros nx t s k l1 l2 ds I _ A _. preds. apply declared in I. assert (W := wt_least t s). len.
  - (* break *) intros nx s l1 l2 o H _. preds. apply (len_label "break") in H. len.
  - (* continue *) intros nx s l1 l2 o H _. preds. apply (len_label "continue") in H. len.
  - (* if else *) intros nx o s1 s2 s3 s4 l1 l2 l3 e a b _ (A & _) _ B _ C. preds. assert (S1 := cl_space (negb (is_block (n_item a)))). assert (S2 := cl_space (negb (is_block (n_item b)))). norm; len.
  - (* do *) intros nx o s1 s2 s3 s4 l1 l2 b e _ A _ (B & _). preds. assert (S1 := cl_space (negb (is_block (n_item b)))). norm; len.
  - (* for *) intros nx s1 s2 s3 s4 s5 l1 l2 l3 l4 i t u b _ A _ B _ C _ D. preds. destruct i, t, u; norm; norm; len.
  - (* for in *) intros nx o s1 s2 s3 s4 l1 l2 l3 i e b _ A _ (B & _) _ C. preds. norm; len.
  - (* for in expression *) intros nx o s1 s2 s3 l1 l2 a i e b _ (A & _) E _ B. preds. norm. rewrite E. norm.
    assert (B1 := cl_bound c_expression a (operator_bp O_In)). assert (B2 := cl_bound c_expression e (operator_bp O_In + 1)). unfold spacing_left, spacing_right in A. cbn [operator_category space_if] in A. norm; len.
  - (* for of *) intros nx o s1 s2 s3 s4 l1 l2 l3 i e b E _ A _ (B & _) _ C. preds. assert (W := wt_text T_Identifier s4). rewrite E in W. norm; len.
  - (* try *) intros nx s l1 l2 l3 b h f _ A _ B _ C _. preds. destruct h, f; norm; norm; len.
  - (* import *) intros nx s1 s2 src Q. preds. apply len_quoted in Q. norm; len.
  - (* import from *) intros nx s1 s2 s3 l specs src H E Q. preds. apply len_quoted in Q. destruct (len_clause _ _ H) as [A N]. destruct specs as [|x specs]; [congruence|].
    assert (X : c_statement (St_Import (x :: specs) src) = w "import " ++ import_code (x :: specs) ++ w " from '" ++ wstr src ++ w "'"). { cbn [c_statement]. unfold import_code. now rewrite <- !app_assoc. } rewrite X. clear X. norm; len.
  - (* declarators *) intros nx s l1 l2 d ds _ A H B. preds. assert (N : ds <> []) by (destruct H; discriminate). assert (R := list_rest c_declarator _ N). norm; len.
  - (* init *) intros nx t s k l ds I _ A. preds. apply declared in I. assert (W := wt_least t s). norm; len.
  - (* catch *) intros s1 s2 s3 l1 l2 p b c _ A _ B E. preds. norm. rewrite E. norm; len.
Qed.
