(** C75: the text of the ESTree JSON. *)
From Coq Require Import List NArith Bool String.
From Coq.Strings Require Import Byte.
From Verif Require Import Bytes Token Lexer Ast Prog Parser Codegen Astgen ErrorFmt SpecTree SpecMirror SpecRecover SpecError SpecUtf8 SpecJsonText JsonText JsonTextFacts JsonRead JsonInj
  LexerFacts AstFacts JsonFacts ParseFacts PropTree MessageFacts PropMessage PropMirror PropGap PropRecover SpecCodegen PropUtf8 JsonUtf8 ReportUtf8 PropCodegen.
Import ListNotations.
Open Scope nat_scope.
Open Scope list_scope.

Lemma text_denotes ft minify j : denotes ft (json_text ft minify j) j.
Proof. destruct minify; [apply compact_denotes|apply pretty_denotes]. Qed.
Lemma text_document ft minify j : json_document ft (json_text ft minify j) j.
Proof. exists [], (json_text ft minify j), []. split; [now rewrite app_nil_r|]. split; [constructor|]. split; [constructor|apply text_denotes]. Qed.
Lemma not_error ft (FP : float_printer ft) r j : ~ json_document ft (bs "Error: " ++ r) j.
Proof.
  intros (w1 & t & w2 & E & W & _ & D). destruct (den_start ft FP t j D) as (k & b & u & -> & K & _).
  destruct W as [|c w Hc W]; injection E as E _; subst.
  - destruct k; discriminate K.
  - cbn [In] in Hc. repeat (destruct Hc as [Hc|Hc]; [discriminate Hc|]). destruct Hc.
Qed.

(** C75: [generateASTEstree] returns a text of the program in JSON (RFC 8259), minified or not, or, exactly for rejected sources, a report;
    a report is not JSON. *)
Theorem C75_estree_text : forall (float_text : str -> str) (alnum : N -> bool) (n : nat) (src s : str) (minify : bool),
  float_printer float_text -> wasm_estree_text float_text alnum n src minify = Done s ->
  (exists m j, parses_to alnum src (ParseOk m) /\ program_json m j /\ json_document float_text s j) \/
  (exists es msgs, parses_to alnum src (ParseErr es) /\ messages src es msgs /\ s = bs "Error: " ++ SpecError.join [LF] msgs /\
    forall j, ~ json_document float_text s j).
Proof.
  intros ft alnum n src s minify FP H. unfold wasm_estree_text in H. destruct (parse_fuel alnum n src) as [[m|es]| | |] eqn:P; try discriminate H; cbn [obind] in H.
  - left. apply obind_done in H as (j & E & H). injection H as <-. exists m, j. split; [now exists n|]. split; [|apply text_document].
    exact (C55_json_mirrors_tree alnum src m j (ex_intro _ n P) E).
  - right. unfold format_errors in H. destruct (display_all es src) as [ds| | |] eqn:D; try discriminate H. cbn [obind] in H. injection H as <-. exists es, ds. split; [now exists n|].
    split; [now apply all_displayed|]. split; [now rewrite join_same|]. intros j J. apply (not_error ft FP) in J. auto.
Qed.
Print Assumptions C75_estree_text.

(** The node function [ast]: its value is a text of the program, a rejected source throws. *)
Theorem C75_node_ast : forall (float_text : str -> str) (alnum : N -> bool) (n : nat) (src s : str) (minify : bool),
  ffi_ast_text float_text alnum n src minify = Done (JsValue s) ->
  exists m j, parses_to alnum src (ParseOk m) /\ program_json m j /\ json_document float_text s j.
Proof.
  intros ft alnum n src s minify H. unfold ffi_ast_text in H. destruct (parse_fuel alnum n src) as [[m|es]| | |] eqn:P; try discriminate H; cbn [obind] in H.
  - apply obind_done in H as (j & E & H). injection H as <-. exists m, j. split; [now exists n|]. split; [|apply text_document].
    exact (C55_json_mirrors_tree alnum src m j (ex_intro _ n P) E).
  - apply obind_done in H as (x & _ & H). discriminate H.
Qed.
Print Assumptions C75_node_ast.

(** Such a text has one reading (a reader sees of a float what is printed for it). *)
Theorem C75_one_reading : forall (float_text : str -> str) (s : str) (j j' : json),
  float_printer float_text -> json_document float_text s j -> json_document float_text s j' -> printed float_text j = printed float_text j'.
Proof. intros ft s j j' FP. now apply one_reading. Qed.
Print Assumptions C75_one_reading.

(** The minified text is one line, without control characters; the other has more than one line. *)
Definition printable (b : byte) : bool := (32 <=? byte_val b)%N.
Definition one_line (s : str) : Prop := forallb printable s = true.
Lemma one_app a b : one_line a -> one_line b -> one_line (a ++ b).
Proof. intros A B. unfold one_line. rewrite forallb_app, A, B. reflexivity. Qed.
Lemma escape_line b : one_line (json_escape b).
Proof. destruct b; reflexivity. Qed.
Lemma string_line s : one_line (json_string s).
Proof. unfold json_string. apply one_app; [reflexivity|]. apply one_app; [|reflexivity]. induction s as [|b s IH]; [reflexivity|]. cbn [flat_map]. apply one_app; [apply escape_line|exact IH]. Qed.
Lemma join_line sep l : one_line sep -> Forall one_line l -> one_line (ErrorFmt.join sep l).
Proof.
  intros U F. induction F as [|x l X F IH]; [reflexivity|]. rewrite joined. apply one_app; [exact X|]. destruct l; [reflexivity|]. now apply one_app.
Qed.
Lemma compact_line ft (FP : float_printer ft) j : one_line (compact ft j).
Proof.
  induction j as [|b|n|t|s|l IH|fs IH] using json_ind'; cbn [compact].
  - reflexivity.
  - destruct b; reflexivity.
  - apply (forallb_imp is_digit); [intros b H; destruct b; try discriminate H; reflexivity|]. apply ShowInj.uint_str_digits.
  - destruct (FP t) as [-> |F]; [reflexivity|]. apply float_numc in F as [F _]. revert F. apply forallb_imp. intros b H. destruct b; try discriminate H; reflexivity.
  - apply string_line.
  - apply one_app; [reflexivity|]. apply one_app; [|reflexivity]. apply join_line; [reflexivity|]. now rewrite Forall_map.
  - apply one_app; [reflexivity|]. apply one_app; [|reflexivity]. apply join_line; [reflexivity|]. rewrite Forall_map. revert IH. apply Forall_impl. intros f H. apply one_app; [apply string_line|]. now apply one_app.
Qed.
Theorem C75_lines : forall (float_text : str -> str) (alnum : N -> bool) (n : nat) (src s : str) (minify : bool) (m : module),
  float_printer float_text -> parses_to alnum src (ParseOk m) -> wasm_estree_text float_text alnum n src minify = Done s ->
  if minify then (forall b, In b s -> (32 <= byte_val b)%N) else In LF s.
Proof.
  intros ft alnum n src s minify m FP P H. unfold wasm_estree_text in H.
  destruct (parse_fuel alnum n src) as [p| | |] eqn:E; try discriminate H. assert (D := parses_det _ _ _ _ P (ex_intro _ n E)). subst p. cbn [obind] in H.
  apply obind_done in H as (j & J & H). assert (Q : json_text ft minify j = s) by congruence. subst s. clear H. destruct minify; cbn [json_text].
  - intros b I. assert (L := compact_line ft FP j). unfold one_line in L. rewrite forallb_forall in L. apply N.leb_le. exact (L b I).
  - apply obj_inv in J as (x & _ & ->). cbn [pretty]. right. now left.
Qed.
Print Assumptions C75_lines.

(** The text, or report, for a valid UTF-8 source is valid UTF-8. *)
Theorem C75_utf8 : forall (float_text : str -> str) (alnum : N -> bool) (n : nat) (src s : str) (minify : bool),
  float_printer float_text -> utf8 src -> wasm_estree_text float_text alnum n src minify = Done s -> utf8 s.
Proof.
  intros ft alnum n src s minify FP U H. unfold wasm_estree_text in H. destruct (parse_fuel alnum n src) as [[m|es]| | |] eqn:P; try discriminate H; cbn [obind] in H.
  - apply obind_done in H as (j & E & H). injection H as <-. apply (json_text_utf8 ft FP). apply (module_utf8 m j); [|exact E]. intros a I. split.
    + exact (C11_well_formed _ _ _ _ (ex_intro _ n P) I).
    + intros x. exact (C25_texts alnum src m a x U (ex_intro _ n P) I).
  - now apply report_utf8 in H.
Qed.
Print Assumptions C75_utf8.
Theorem C75_node_utf8 : forall (float_text : str -> str) (alnum : N -> bool) (n : nat) (src : str) (minify : bool) (r : js_result str),
  float_printer float_text -> utf8 src -> ffi_ast_text float_text alnum n src minify = Done r -> match r with JsValue s | JsTypeError s => utf8 s end.
Proof.
  intros ft alnum n src minify r FP U H. unfold ffi_ast_text in H. destruct (parse_fuel alnum n src) as [[m|es]| | |] eqn:P; try discriminate H; cbn [obind] in H.
  - apply obind_done in H as (j & E & H). injection H as <-. apply (json_text_utf8 ft FP). apply (module_utf8 m j); [|exact E]. intros a I. split.
    + exact (C11_well_formed _ _ _ _ (ex_intro _ n P) I).
    + intros x. exact (C25_texts alnum src m a x U (ex_intro _ n P) I).
  - apply obind_done in H as (x & E & H). injection H as <-. now apply ffi_report_utf8 in E.
Qed.
Print Assumptions C75_node_utf8.
(** C52: what [transform] returns is valid UTF-8, code or report. *)
Theorem C52_transform_output : forall (alnum : N -> bool) (n : nat) (src s : str) (minify : bool),
  utf8 src -> wasm_transform alnum n src minify = Done s -> utf8 s.
Proof.
  intros alnum n src s minify U H. unfold wasm_transform in H. destruct (parse_fuel alnum n src) as [[m|es]| | |] eqn:P; try discriminate H; cbn [obind] in H.
  - exact (C52_transform_utf8 alnum src m minify s U (ex_intro _ n P) H).
  - now apply report_utf8 in H.
Qed.
Print Assumptions C52_transform_output.

(** C72, for texts: the texts of two accepted sources, each minified or not, that read the same are of programs with the same tree, if the JSON shows
    every node of both (see C72). *)
Theorem C72_text_determines_partial : forall (float_text : str -> str) (alnum : N -> bool) (n n' : nat) (src src' s s' : str) (minify minify' : bool) (m m' : module) (j j' : json),
  float_printer float_text -> parses_to alnum src (ParseOk m) -> parses_to alnum src' (ParseOk m') ->
  (forall a, in_module a m -> shown a) -> (forall a, in_module a m' -> shown a) ->
  wasm_estree_text float_text alnum n src minify = Done s -> wasm_estree_text float_text alnum n' src' minify' = Done s' ->
  json_document float_text s j -> json_document float_text s' j' -> without_positions (printed float_text j) = without_positions (printed float_text j') ->
  same_tree m m'.
Proof.
  intros ft alnum n n' src src' s s' mi mi' m m' j j' FP P P' S S' H H' J J' Q. unfold wasm_estree_text in H, H'.
  destruct (parse_fuel alnum n src) as [p| | |] eqn:E; try discriminate H. assert (D := parses_det _ _ _ _ P (ex_intro _ n E)). subst p. cbn [obind] in H.
  destruct (parse_fuel alnum n' src') as [p'| | |] eqn:E'; try discriminate H'. assert (D' := parses_det _ _ _ _ P' (ex_intro _ n' E')). subst p'. cbn [obind] in H'.
  apply obind_done in H as (x & X & H). injection H as <-. apply obind_done in H' as (x' & X' & H'). injection H' as <-.
  apply (module_inj ft m m' x x'); [| |exact X|exact X'|].
  - intros a I. split; [|auto]. exact (C11_well_formed _ _ _ _ P I).
  - intros a I. split; [|auto]. exact (C11_well_formed _ _ _ _ P' I).
  - rewrite !wo_printed. rewrite (one_reading ft FP _ x j (text_document ft mi x) J), (one_reading ft FP _ x' j' (text_document ft mi' x') J'). exact Q.
Qed.
Print Assumptions C72_text_determines_partial.

(** ** Cases *)
(** A float printer: one half is printed as such, other numbers as [null]. *)
Definition halves (t : str) : str := if str_eqb t (bs "0.5") then t else bs "null".
Example halves_printer : float_printer halves.
Proof.
  intros t. unfold halves. destruct (str_eqb t (bs "0.5")) eqn:E; [right|now left]. apply str_eqb_eq in E. subst t.
  exists (bs "0"), (bs ".5"), []. split; [reflexivity|]. split; [split; [split; [discriminate|reflexivity]|reflexivity]|]. split; [apply frac_some; split; [discriminate|reflexivity]|]. split; [constructor|discriminate].
Qed.
Definition json_sample : str := bs "a = ""\"""" + 0.5".
Example json_text_case : exists s p, wasm_estree_text halves letters 100 json_sample true = Done s /\ wasm_estree_text halves letters 100 json_sample false = Done p /\ s <> p /\
  s = bs "{""type"":""Program"",""body"":[{""type"":""ExpressionStatement"",""expression"":{""type"":""AssignmentExpression"",""operator"":""="",""left"":{""type"":""Identifier"",""name"":""a"",""start"":0,""end"":1},""right"":{""type"":""BinaryExpression"",""operator"":""+"",""left"":{""type"":""Literal"",""value"":""\\\"""",""raw"":""\""\\\""\"""",""start"":4,""end"":8},""right"":{""type"":""Literal"",""value"":0.5,""raw"":""0.5"",""start"":11,""end"":14},""start"":4,""end"":14},""start"":0,""end"":14},""start"":0,""end"":14}],""start"":0,""end"":14}".
Proof. do 2 eexists. split; [vm_compute; reflexivity|]. split; [vm_compute; reflexivity|]. split; [discriminate|vm_compute; reflexivity]. Qed.
Example json_pretty_case : wasm_estree_text halves letters 100 (bs "x") false = Done (bs "{
  ""type"": ""Program"",
  ""body"": [
    {
      ""type"": ""ExpressionStatement"",
      ""expression"": {
        ""type"": ""Identifier"",
        ""name"": ""x"",
        ""start"": 0,
        ""end"": 1
      },
      ""start"": 0,
      ""end"": 1
    }
  ],
  ""start"": 0,
  ""end"": 1
}").
Proof. vm_compute. reflexivity. Qed.
Example json_error_case : exists s, wasm_estree_text halves letters 100 (bs "a b") true = Done s /\ ffi_ast_text halves letters 100 (bs "a b") true = Done (JsTypeError (skipn 7 s)).
Proof. eexists. split; vm_compute; reflexivity. Qed.
Example json_utf8_case : exists s, utf8 utf8_sample /\ wasm_estree_text halves (fun _ => true) 200 utf8_sample true = Done s.
Proof. eexists. split; [exact utf8_sample_valid|vm_compute; reflexivity]. Qed.
