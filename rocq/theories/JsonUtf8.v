(** The JSON text of a program with valid UTF-8 texts is valid UTF-8. *)
From Coq Require Import List NArith Bool Lia Arith String.
From Coq.Strings Require Import Byte.
From Verif Require Import Bytes Token Lexer Ast AstInd SpecTokens SpecTree SpecUtf8 SpecCodegen SpecJsonText Astgen ErrorFmt JsonText JsonTextFacts JsonRead ShowInj LexerFacts AstFacts JsonFacts Boundary Utf8Facts.
Import ListNotations.
Open Scope nat_scope.
Open Scope list_scope.

(** ** Splitting before a byte that is ASCII *)
Lemma utf8_at_ascii a x b : ascii x = true -> utf8 (a ++ x :: b) -> utf8 a /\ utf8 b.
Proof.
  intros A U. assert (D : bd (x :: b)).
  { destruct U as [n U]. apply utf8_bd in U as [_ U]. apply asc_app in U. now apply bd_ascii. }
  apply utf8_split in U as [U V]; [|exact (proj1 D)]. split; [exact U|]. apply (utf8_split [x]) in V as [_ V]; [exact V|]. exact (proj1 (bd_cons x b (proj2 D) A)).
Qed.
Lemma quoted_utf8 s : quoted s -> utf8 s -> utf8 (firstn (List.length s - 2) (skipn 1 s)).
Proof.
  intros (q & ins & Q & _ & ->) U. assert (A : ascii q = true) by (destruct Q as [-> | ->]; reflexivity).
  apply (utf8_at_ascii [] q _ A) in U as [_ U]. apply (utf8_at_ascii ins q [] A) in U as [U _].
  cbn [List.length skipn]. rewrite app_length. cbn [List.length]. replace (S (List.length ins + 1) - 2) with (List.length ins) by lia.
  rewrite firstn_app, Nat.sub_diag, firstn_all. cbn [firstn]. now rewrite app_nil_r.
Qed.
Lemma last_slash_at s : forall i found k, last_slash s i found = Some k -> found = Some k \/ exists a b, s = a ++ "/"%byte :: b /\ k = i + List.length a.
Proof.
  induction s as [|c s IH]; intros i found k H; cbn [last_slash] in H; [now left|]. apply IH in H as [H|(a & b & -> & ->)].
  - destruct (byte_eqb c x2f) eqn:E; [|now left]. apply byte_eqb_eq in E. subst c. injection H as <-. right. exists [], s. split; [reflexivity|cbn; lia].
  - right. exists (c :: a), b. split; [reflexivity|cbn [List.length]; lia].
Qed.
Lemma last_slash_some s : forall i found, In "/"%byte s \/ found <> None -> last_slash s i found <> None.
Proof.
  induction s as [|c s IH]; intros i found H; cbn [last_slash]; [destruct H as [[]|H]; exact H|]. apply IH. destruct H as [[->|H]|H]; [right; cbn; discriminate|now left|].
  right. destruct (byte_eqb c x2f); [discriminate|exact H].
Qed.
Lemma regex_utf8_parts s p f : regex_text s -> utf8 s -> parse_regex s = Done (p, f) -> utf8 p /\ utf8 f.
Proof.
  intros (body & flags & E & _) U H. rewrite E in U. apply (utf8_at_ascii [] "/"%byte) in U as [_ U]; [|reflexivity]. set (t := body ++ "/"%byte :: flags) in *.
  assert (I : In "/"%byte t) by (apply in_or_app; right; now left). rewrite E in H. unfold parse_regex in H. cbn [last_slash] in H. change (byte_eqb "/" x2f) with true in H. cbn match in H.
  destruct (last_slash t 1 (Some 0)) as [k|] eqn:L.
  2: { exfalso. revert L. apply last_slash_some. now left. }
  assert (K : k <? 1 = false \/ k = 0). { destruct k; [now right|left; reflexivity]. }
  destruct K as [K| ->]; [|cbn in H; discriminate H]. rewrite K in H. apply last_slash_at in L as [L|(a & b & Et & ->)]; [injection L as <-; discriminate K|].
  injection H as <- <-. rewrite Et in *. apply utf8_at_ascii in U as [A B]; [|reflexivity].
  rewrite Nat.sub_0_r, firstn_app, Nat.sub_diag, firstn_all. cbn [firstn]. rewrite app_nil_r. split; [exact A|].
  rewrite skipn_app, skipn_all2 by lia. replace (List.length a + 1 - List.length a) with 1 by lia. exact B.
Qed.

(** ** Values *)
Inductive jgood : json -> Prop :=
| jg_null : jgood J_Null
| jg_bool b : jgood (J_Bool b)
| jg_int n : jgood (J_Int n)
| jg_float t : jgood (J_Float t)
| jg_str s : utf8 s -> jgood (J_Str s)
| jg_arr l : Forall jgood l -> jgood (J_Arr l)
| jg_obj fs : Forall (fun f => utf8 (fst f) /\ jgood (snd f)) fs -> jgood (J_Obj fs).
Lemma escape_ascii b : ascii b = true -> utf8 (json_escape b).
Proof. intros A. apply utf8_ascii. destruct b; try discriminate A; reflexivity. Qed.
Lemma escape_other b : ascii b = false -> json_escape b = [b].
Proof. intros A. destruct b; try discriminate A; reflexivity. Qed.
Lemma tail_not_ascii b : tail_byte b -> ascii b = false.
Proof. intros H. apply between_in in H. destruct b; vm_compute in H |- *; congruence. Qed.
Lemma char_utf8 c : utf8_char c -> utf8 c.
Proof. intros H. exists 1. rewrite <- (app_nil_r c). now repeat constructor. Qed.
Lemma escaped_char c : utf8_char c -> utf8 (flat_map json_escape c).
Proof.
  intros H. destruct (char_shape c H) as (a & s & E & _ & Sh & F). assert (T : flat_map json_escape s = s).
  { clear - F. induction F as [|b s [_ B] F IH]; cbn [flat_map]; [reflexivity|]. now rewrite (escape_other b B), IH. }
  rewrite E. cbn [flat_map]. rewrite T. destruct (ascii a) eqn:A.
  - rewrite (Sh eq_refl), app_nil_r. now apply escape_ascii.
  - rewrite (escape_other a A). cbn [app]. rewrite <- E. now apply char_utf8.
Qed.
Lemma string_utf8 s : utf8 s -> utf8 (json_string s).
Proof.
  intros U. unfold json_string. apply utf8_app; [now apply utf8_ascii|]. apply utf8_app; [|now apply utf8_ascii].
  destruct U as [n U]. induction U as [|n c s C K IH]; [apply utf8_nil|]. rewrite flat_map_app. apply utf8_app; [now apply escaped_char|exact IH].
Qed.
Lemma join_utf8 sep l : utf8 sep -> Forall utf8 l -> utf8 (join sep l).
Proof.
  intros U F. induction F as [|x l X F IH]; [apply utf8_nil|]. rewrite joined. apply utf8_app; [exact X|]. destruct l; [apply utf8_nil|]. now apply utf8_app.
Qed.
Lemma bs_ascii s : forallb ascii (bs s) = true -> utf8 (bs s).
Proof. apply utf8_ascii. Qed.
Lemma line_utf8 d : utf8 (new_line_at d).
Proof. apply utf8_ascii. unfold new_line_at. cbn [forallb]. induction (2 * d) as [|k IH]; [reflexivity|exact IH]. Qed.
Lemma forallb_imp {A} (p q : A -> bool) l : (forall x, p x = true -> q x = true) -> forallb p l = true -> forallb q l = true.
Proof. intros H F. rewrite forallb_forall in *. auto. Qed.
Lemma int_utf8 n : utf8 (uint_str (N.to_uint n)).
Proof. apply utf8_ascii. apply (forallb_imp is_digit); [intros b H; destruct b; try discriminate H; reflexivity|]. apply uint_str_digits. Qed.
Section Floats.
  Variable ft : str -> str.
  Hypothesis floats : float_printer ft.
  Lemma float_utf8 t : utf8 (ft t).
  Proof.
    destruct (floats t) as [-> |F]; [now apply bs_ascii|]. apply utf8_ascii. apply float_numc in F as [F _]. revert F. apply forallb_imp. intros b H. destruct b; try discriminate H; reflexivity.
  Qed.
  Ltac wd := apply bs_ascii; reflexivity.
  Lemma compact_utf8 j : jgood j -> utf8 (compact ft j).
  Proof.
    induction j as [|b|n|t|s|l IH|fs IH] using json_ind'; cbn [compact]; intros G.
    - wd.
    - destruct b; wd.
    - apply int_utf8.
    - apply float_utf8.
    - inversion G. now apply string_utf8.
    - inversion G as [| | | | |l1 F|]; subst. apply utf8_app; [wd|]. apply utf8_app; [|wd]. apply join_utf8; [wd|]. rewrite Forall_map. rewrite Forall_forall in *. auto.
    - inversion G as [| | | | | |l1 F]; subst. apply utf8_app; [wd|]. apply utf8_app; [|wd]. apply join_utf8; [wd|]. rewrite Forall_map. rewrite Forall_forall in *. intros x I. destruct (F x I) as [A B].
      apply utf8_app; [now apply string_utf8|]. apply utf8_app; [wd|]. auto.
  Qed.
  Lemma pretty_utf8 j : jgood j -> forall d, utf8 (pretty ft d j).
  Proof.
    induction j as [|b|n|t|s|l IH|fs IH] using json_ind'; cbn [pretty]; intros G d.
    - wd.
    - destruct b; wd.
    - apply int_utf8.
    - apply float_utf8.
    - inversion G. now apply string_utf8.
    - inversion G as [| | | | |l1 F|]; subst. destruct l as [|j l]; [wd|]. set (l2 := j :: l) in *. apply utf8_app; [wd|]. apply utf8_app; [apply line_utf8|]. apply utf8_app; [|apply utf8_app; [apply line_utf8|wd]].
      apply join_utf8; [apply utf8_app; [wd|apply line_utf8]|]. rewrite Forall_map. rewrite Forall_forall in *. intros x I. now apply IH; [|apply F].
    - inversion G as [| | | | | |l1 F]; subst. destruct fs as [|j l]; [wd|]. set (l2 := j :: l) in *. apply utf8_app; [wd|]. apply utf8_app; [apply line_utf8|]. apply utf8_app; [|apply utf8_app; [apply line_utf8|wd]].
      apply join_utf8; [apply utf8_app; [wd|apply line_utf8]|]. rewrite Forall_map. rewrite Forall_forall in *. intros x I. destruct (F x I) as [A B].
      apply utf8_app; [now apply string_utf8|]. apply utf8_app; [wd|]. now apply IH.
  Qed.
  Lemma json_text_utf8 minify j : jgood j -> utf8 (json_text ft minify j).
  Proof. intros G. destruct minify; [now apply compact_utf8|now apply pretty_utf8]. Qed.
End Floats.

(** ** Trees *)
Definition og (o : outcome json) : Prop := forall j, o = Done j -> jgood j.
Definition fields_ok (fs : list (string * outcome json)) : Prop := Forall (fun f => utf8 (bs (fst f)) /\ og (snd f)) fs.
Lemma og_obj st en ty fs : utf8 (bs ty) -> fields_ok fs -> og (obj st en ty fs).
Proof.
  intros U F j H. apply obj_inv in H as (x & E & ->). constructor. constructor; [split; [now apply bs_ascii|now constructor]|]. apply Forall_app. split.
  - revert x E. induction F as [|[k v] fs [A B] F IH]; intros x E; cbn [seq_fields] in E; [injection E as <-; constructor|].
    apply obind_done in E as (y & Y & E). apply obind_done in E as (r & R & E). injection E as <-. constructor; [split; [exact A|now apply B]|now apply IH].
  - repeat constructor; cbn [fst]; now apply bs_ascii.
Qed.
Lemma og_arr l : Forall og l -> og (jarr l).
Proof.
  intros F j H. unfold jarr in H. apply obind_done in H as (x & E & H). injection H as <-. constructor. revert x E. induction F as [|v l A F IH]; intros x E; cbn [seq_list] in E; [injection E as <-; constructor|].
  apply obind_done in E as (y & Y & E). apply obind_done in E as (r & R & E). injection E as <-. constructor; [now apply A|now apply IH].
Qed.
Lemma og_str s : utf8 s -> og (jstr s).
Proof. intros U j H. injection H as <-. now constructor. Qed.
Lemma og_bool b : og (jbool b).
Proof. intros j H. injection H as <-. constructor. Qed.
Lemma og_null : og jnull.
Proof. intros j H. injection H as <-. constructor. Qed.
Lemma og_panic : og Panicked.
Proof. intros j H. discriminate H. Qed.
Lemma og_opt_int (r : option N) : og (match r with Some v => Done (J_Int v) | None => Panicked end).
Proof. intros j H. destruct r; [injection H as <-; constructor|discriminate H]. Qed.
Lemma og_number s : og (number_value s).
Proof. unfold number_value. destruct (_ && _)%bool; [apply og_opt_int|]. destruct (_ && _)%bool; [apply og_opt_int|]. destruct (is_float s); [|apply og_opt_int]. destruct (f64_parses s); [intros j H; injection H as <-; constructor|apply og_panic]. Qed.
(** The type of an object does not matter. *)
Lemma og_retype st en ty fs st' en' ty' : utf8 (bs ty') -> og (obj st en ty fs) -> og (obj st' en' ty' fs).
Proof.
  intros U G j H. apply obj_inv in H as (x & E & ->). assert (X : jgood (J_Obj ((bs "type", J_Str (bs ty)) :: x ++ [(bs "start", J_Int st); (bs "end", J_Int en)]))).
  { apply G. unfold obj. now rewrite E. }
  inversion X as [| | | | | |l F]; subst. apply Forall_inv_tail in F. apply Forall_app in F as [F _]. constructor. constructor; [split; [now apply bs_ascii|now constructor]|]. apply Forall_app. split; [exact F|].
  repeat constructor; cbn [fst]; now apply bs_ascii.
Qed.
Lemma operator_utf8 o : utf8 (operator_str o).
Proof. destruct o; now apply bs_ascii. Qed.
Lemma type_utf8 o b : utf8 (bs (expression_type o b)).
Proof. destruct o, b; now apply bs_ascii. Qed.
Lemma function_utf8 n : utf8 (bs (in_function n)) /\ utf8 (bs (in_class n)).
Proof. destruct n; split; now apply bs_ascii. Qed.
Lemma og_identifier st en s : utf8 s -> og (a_identifier st en s).
Proof. intros U. apply og_obj; [now apply bs_ascii|]. repeat constructor; cbn [fst snd]; [now apply bs_ascii|now apply og_str]. Qed.
Lemma og_ident n : utf8 (n_item n) -> og (a_ident n).
Proof. apply og_identifier. Qed.
Lemma og_quasis qs : Forall (fun q => utf8 (n_item q)) qs -> Forall og (a_quasis qs).
Proof.
  induction 1 as [|q qs U F IH]; cbn [a_quasis]; constructor; [|exact IH]. destruct (n_end q =? 0)%N; [apply og_panic|]. apply og_obj; [now apply bs_ascii|].
  repeat constructor; cbn [fst snd]; try (now apply bs_ascii); [apply og_bool|]. intros j H. injection H as <-. repeat constructor; cbn [fst]; try (now apply bs_ascii); exact U.
Qed.
Definition whole (a : any) : Prop := forall b, within b a -> well_formed b /\ (forall x, own_text b x -> utf8 x).
Definition jspec (st en : N) (s : import_specifier) : outcome json :=
  match s with
  | IS_Named i l => obj st en "ImportSpecifier" [("imported", a_ident i); ("local", a_ident l)]
  | IS_Default l => obj st en "ImportDefaultSpecifier" [("local", a_ident l)]
  | IS_Namespace l => obj st en "ImportNamespaceSpecifier" [("local", a_ident l)]
  end%string.
(** What is written of a node, at any place. *)
Definition written (a : any) : Prop :=
  match a with
  | A_Ident n => utf8 (n_item n)
  | A_Expr n => forall st en, og (a_expression st en (n_item n))
  | A_Tpl n => forall st en, og (a_template st en (n_item n))
  | A_Prop n => forall st en, og (a_property st en (n_item n))
  | A_Key n => forall st en, og (a_key st en (n_item n))
  | A_Pat n => forall st en, og (a_pattern st en (n_item n))
  | A_Func n => forall st en, og (a_func st en (n_item n))
  | A_Member n => forall st en, og (a_member st en (n_item n))
  | A_Body n => og (a_list a_statement (b_body (n_item n)))
  | A_ClassBody n => og (a_list a_member (b_body (n_item n)))
  | A_Cases n => og (a_list a_case (b_body (n_item n)))
  | A_Stmt n => forall st en, og (a_statement st en (n_item n))
  | A_Declarator n => forall st en, og (a_declarator st en (n_item n))
  | A_ForInit n => forall st en, og (a_for_init st en (n_item n))
  | A_Case n => forall st en, og (a_case st en (n_item n))
  | A_Catch n => forall st en, og (a_catch st en (n_item n))
  | A_Spec n => forall st en, og (jspec st en (n_item n))
  end.
Lemma og_list {A : Set} (g : node A -> any) (f : N -> N -> A -> outcome json) l : (forall n, written (g n) -> og (a_node f n)) -> Forall written (map g l) -> og (a_list f l).
Proof. intros H F. apply og_arr. rewrite Forall_map in *. revert F. apply Forall_impl. exact H. Qed.
Lemma og_opt {A : Set} (g : node A -> any) (f : N -> N -> A -> outcome json) o : (forall n, written (g n) -> og (a_node f n)) -> Forall written (opt g o) -> og (a_opt f o).
Proof. intros H F. destruct o; cbn [a_opt opt] in *; [|apply og_null]. apply H. exact (Forall_inv F). Qed.
Lemma og_name n : Forall written (children_name n) -> og (a_name n).
Proof. destruct n as [|[n|]|n]; cbn [a_name children_name opt]; intros F; try apply og_null; apply og_ident; exact (Forall_inv F). Qed.
Lemma og_literal st en l : expression_wf (E_Literal l) -> match l with L_Number s | L_Binary s | L_String s | L_RegEx s => utf8 s | _ => True end -> og (a_literal st en l).
Proof.
  intros W U. destruct l as [| | | |s|s|s|s]; cbn [a_literal expression_wf] in *; (apply og_obj; [now apply bs_ascii|]); repeat constructor; cbn [fst snd];
    try (now apply bs_ascii); try apply og_null; try apply og_bool; try (now apply og_str); try (apply og_str; now apply bs_ascii).
  - apply og_number.
  - apply og_opt_int.
  - apply og_str. now apply quoted_utf8.
  - intros j H. apply obind_done in H as ([p f] & E & H). injection H as <-. apply regex_utf8_parts in E as [A B]; [|exact W|exact U]. repeat constructor; cbn [fst snd]; try (now apply bs_ascii); assumption.
Qed.
Ltac parts :=
  repeat match goal with
  | H : Forall _ (_ ++ _) |- _ => apply Forall_app in H; destruct H
  | H : Forall _ (_ :: _) |- _ => let A := fresh in let B := fresh in pose proof (Forall_inv H) as A; pose proof (Forall_inv_tail H) as B; clear H; cbn [written] in A
  | H : Forall _ [] |- _ => clear H
  end.
Ltac nd := let n := fresh in let W := fresh in intros n W; unfold a_node; apply W.
Ltac ob :=
  match goal with
  | |- utf8 (bs (expression_type _ _)) => apply type_utf8
  | |- utf8 (bs (in_function _)) => apply function_utf8
  | |- utf8 (bs (in_class _)) => apply function_utf8
  | |- utf8 (bs _) => now apply bs_ascii
  | |- utf8 (operator_str _) => apply operator_utf8
  | |- utf8 _ => solve [auto]
  | |- fields_ok _ => unfold fields_ok; ob
  | |- Forall _ [] => apply Forall_nil
  | |- Forall _ (_ :: _) => apply Forall_cons; [cbn [fst snd]; split; [ob|ob]|ob]
  | |- og Panicked => apply og_panic
  | |- og (obj _ _ _ _) => apply og_obj; ob
  | |- og jnull => apply og_null
  | |- og (jbool _) => apply og_bool
  | |- og (jstr _) => apply og_str; ob
  | |- og (a_name _) => apply og_name; assumption
  | |- og (a_ident _) => apply og_ident; assumption
  | |- og (a_identifier _ _ _) => apply og_identifier; ob
  | |- og (a_decl_kind ?k) => apply og_str; destruct k; ob
  | |- og (a_method_kind ?k) => apply og_str; destruct k; ob
  | |- og (a_opt a_expression _) => apply (og_opt A_Expr); [nd|assumption]
  | |- og (a_opt a_statement _) => apply (og_opt A_Stmt); [nd|assumption]
  | |- og (a_opt a_for_init _) => apply (og_opt A_ForInit); [nd|assumption]
  | |- og (a_opt a_catch _) => apply (og_opt A_Catch); [nd|assumption]
  | |- og (a_list a_expression _) => apply (og_list A_Expr); [nd|assumption]
  | |- og (a_list a_statement _) => first [assumption|apply (og_list A_Stmt); [nd|assumption]]
  | |- og (a_list a_pattern _) => apply (og_list A_Pat); [nd|assumption]
  | |- og (a_list a_property _) => apply (og_list A_Prop); [nd|assumption]
  | |- og (a_list a_member _) => first [assumption|apply (og_list A_Member); [nd|assumption]]
  | |- og (a_list a_case _) => first [assumption|apply (og_list A_Case); [nd|assumption]]
  | |- og (a_list a_declarator _) => apply (og_list A_Declarator); [nd|assumption]
  | |- og (jarr (a_quasis _)) => apply og_arr, og_quasis; match goal with H : Forall written (map A_Ident _) |- _ => rewrite Forall_map in H; exact H end
  | |- og (a_expression _ _ _) => solve [auto]
  | |- og (a_node _ _) => unfold a_node; solve [auto]
  | _ => idtac
  end.
Definition slot (n : node expression) : option (outcome json) := match n_item n with E_Void => None | _ => Some (a_node a_expression n) end.
Lemma og_slots es : Forall written (map A_Expr es) -> og (jarr (map hole (drop_trailing (map slot es)))).
Proof.
  intros F. apply og_arr. rewrite Forall_map, Forall_forall. intros o I. apply drop_trailing_incl in I. apply in_map_iff in I as (n & <- & I). rewrite Forall_map, Forall_forall in F. specialize (F n I). cbn [written] in F.
  unfold slot. destruct (n_item n) eqn:E; cbn [hole]; try apply og_null; unfold a_node; rewrite E in *; apply F.
Qed.
Lemma og_new st en (x : node expression) : (forall st en, og (a_expression st en (n_item x))) -> og (match n_item x with
  | E_Call c args => obj st en "NewExpression" [("callee", a_node a_expression c); ("arguments", a_list a_expression args)]
  | E_Literal _ => obj st en "NewExpression" [("callee", a_node a_expression x); ("arguments", jarr [])]
  | _ => Panicked end)%string.
Proof.
  intros H. destruct (n_item x) eqn:E; try apply og_panic.
  - assert (A : og (jarr [])) by (apply og_arr; constructor). specialize (H (n_start x) (n_end x)). ob; [unfold a_node; now rewrite E|exact A].
  - specialize (H 0%N 0%N). cbn [a_expression] in H. eapply og_retype; [now apply bs_ascii|exact H].
Qed.
Lemma written_step a : Forall (fun c => whole c -> written c) (children a) -> whole a -> written a.
Proof.
  intros F T. destruct (T a ltac:(constructor)) as [W O]. assert (K : Forall written (children a)).
  { rewrite Forall_forall in *. intros c I. apply F; [exact I|]. intros b B. apply T. now apply within_child with c. }
  clear F T. rename K into F.
  destruct a as [n|n|n|n|n|n|n|n|n|n|n|n|n|n|n|n|n]; destruct n as [st0 en0 x]; cbn [written n_item children own_text well_formed] in *; match goal with |- forall _ _ : N, _ => intros st en | _ => idtac end.
  - auto.
  - destruct x as [| | |l|b|b|o p|o p|m p|c args|op l r|op x|op x|t c a|[es qs]|t q|x|ps [b|b]|b|[f1 f2 f3 f4]|[c1 c2 c3]];
      cbn [a_expression a_template a_func a_class]; cbn [children_expression children_template children_func children_class] in F; parts; ob.
    + apply og_literal; [exact (proj1 W)|]. destruct l; auto.
    + now apply og_slots.
    + assert (P : og (obj st en (expression_type op true) [("operator", jstr (operator_str op)); ("argument", a_node a_expression x); ("prefix", jbool true)]%string)) by ob.
      destruct op; try exact P. now apply og_new.
  - destruct x as [es qs]. cbn [a_template]. cbn [children_template] in F. parts. ob.
  - destruct x; cbn [a_property]; parts; ob.
  - destruct x; cbn [a_key]; parts; ob.
  - destruct x; cbn [a_pattern]; parts; ob.
  - destruct x; cbn [a_func]; cbn [children_func] in F; parts; ob.
  - destruct x; cbn [a_member]; parts; ob.
  - destruct x as [x]; cbn [b_body] in *; ob.
  - destruct x as [x]; cbn [b_body] in *; ob.
  - destruct x as [x]; cbn [b_body] in *; ob.
  - destruct x as [| |x|k ds|v|l|l|v|t c a|t b|b t|i t u b|l r b|l r b|b h f|[b]|l b|[f1 f2 f3 f4]|[c1 c2 c3]|d c|ss src];
      cbn [a_statement a_func a_class]; cbn [children_statement children_func children_class b_body] in F; parts; ob.
    + destruct l; cbn [opt] in *; parts; ob.
    + destruct l; cbn [opt] in *; parts; ob.
    + destruct f; cbn [opt] in *; parts; ob.
    + apply og_arr. match goal with K : Forall written (map A_Spec ss) |- _ => rewrite Forall_map, Forall_forall in K; rewrite Forall_map, Forall_forall; intros n I; specialize (K n I (n_start n) (n_end n)); destruct (n_item n); exact K end.
  - destruct x; cbn [a_declarator]; parts; ob.
  - destruct x; cbn [a_for_init]; parts; ob.
  - destruct x; cbn [a_case]; parts; ob.
  - destruct x; cbn [a_catch]; parts; ob.
  - destruct x; cbn [jspec]; parts; ob.
Qed.
Theorem module_utf8 m j : (forall a, in_module a m -> well_formed a /\ (forall x, own_text a x -> utf8 x)) -> a_module m = Done j -> jgood j.
Proof.
  intros H. apply og_obj; [now apply bs_ascii|]. apply Forall_cons; [|apply Forall_nil]. cbn [fst snd]. split; [now apply bs_ascii|]. apply (og_list A_Stmt); [nd|]. rewrite Forall_map, Forall_forall. intros n I.
  apply (tree_ind (fun a => whole a -> written a) written_step (A_Stmt n)). intros b W. apply H. exists n. auto.
Qed.
