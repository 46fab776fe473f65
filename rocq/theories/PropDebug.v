(** C74: the debug dump of a program determines its tree, positions included. *)
From Coq Require Import List NArith Bool String.
From Coq.Strings Require Import Byte.
From Verif Require Import Bytes Token Lexer Ast Prog Parser Codegen ErrorFmt SpecUtf8 SpecCodegen Utf8Facts Boundary PropUtf8 DebugFmt SpecDebug DebugInj ShowInj DebugGood DebugQuote ParseFacts.
Import ListNotations.
Open Scope nat_scope.
Open Scope list_scope.

(** C74: two accepted sources with the same dump have the same tree, with the same positions of every node. *)
Theorem C74_dump_determines : forall (quote : str -> str) (alnum : N -> bool) (src src' : str) (m m' : module),
  unambiguous quote -> utf8 src -> utf8 src' -> parses_to alnum src (ParseOk m) -> parses_to alnum src' (ParseOk m') ->
  debug_module quote m = debug_module quote m' -> m = m'.
Proof.
  intros quote alnum src src' m m' U V V' H H' E. apply debug_tree_inj. unfold debug_module in E. apply (show_inj quote U) in E; [exact E| |]; apply module_good; intros a x I O.
  - exact (C25_texts alnum src m a x V H I O).
  - exact (C25_texts alnum src' m' a x V' H' I O).
Qed.
Print Assumptions C74_dump_determines.

(** The condition on the quotes holds of the [Debug for str] of the standard library, whatever its Unicode tables are. *)
Theorem C74_std_quotes : forall (printable : N -> bool) (zero single : bool), unambiguous (std_quote printable zero single).
Proof. exact std_quote_unambiguous. Qed.
Print Assumptions C74_std_quotes.

(** The same of the output of [generateAST], which is either a dump or an error report: equal outputs never come from an accepted and
    a rejected source, and if one of the sources is accepted, then both are, with the same tree. *)
Theorem C74_generate_ast : forall (quote : str -> str) (alnum : N -> bool) (n n' : nat) (src src' out : str) (m : module),
  unambiguous quote -> utf8 src -> utf8 src' -> parses_to alnum src (ParseOk m) ->
  wasm_generate_ast quote alnum n src = Done out -> wasm_generate_ast quote alnum n' src' = Done out -> parses_to alnum src' (ParseOk m).
Proof.
  intros quote alnum n n' src src' out m U V V' H E E'. unfold wasm_generate_ast in E, E'.
  destruct (parse_fuel alnum n src) as [[m1|es]| | |] eqn:P; try discriminate E; cbn [obind] in E.
  2: { exfalso. assert (D := parses_det _ _ _ _ H (ex_intro _ n P)). discriminate D. }
  assert (D := parses_det _ _ _ _ H (ex_intro _ n P)). injection D as <-. injection E as <-.
  destruct (parse_fuel alnum n' src') as [[m'|es]| | |] eqn:P'; try discriminate E'; cbn [obind] in E'.
  - assert (Q : debug_module quote m' = debug_module quote m) by congruence. exists n'. rewrite P'. do 2 f_equal. apply (C74_dump_determines quote alnum src' src m' m U V' V (ex_intro _ n' P') H Q).
  - exfalso. unfold format_errors in E'. destruct (display_all es src') as [ds| | |]; discriminate E'.
Qed.
Print Assumptions C74_generate_ast.

(** ... and of the value of the node function [parse]. *)
Theorem C74_ffi_parse : forall (quote : str -> str) (alnum : N -> bool) (n n' : nat) (src src' out : str),
  unambiguous quote -> utf8 src -> utf8 src' ->
  ffi_parse quote alnum n src = Done (JsValue out) -> ffi_parse quote alnum n' src' = Done (JsValue out) ->
  exists m, parses_to alnum src (ParseOk m) /\ parses_to alnum src' (ParseOk m).
Proof.
  intros quote alnum n n' src src' out U V V' E E'. unfold ffi_parse in E, E'.
  destruct (parse_fuel alnum n src) as [[m|es]| | |] eqn:P; try discriminate E; cbn [obind] in E.
  2: { destruct (ffi_format_errors es src); discriminate E. }
  destruct (parse_fuel alnum n' src') as [[m'|es]| | |] eqn:P'; try discriminate E'; cbn [obind] in E'.
  2: { destruct (ffi_format_errors es src'); discriminate E'. }
  assert (Q : debug_module quote m' = debug_module quote m) by congruence.
  apply (C74_dump_determines quote alnum src' src m' m U V' V (ex_intro _ n' P') (ex_intro _ n P)) in Q. subst m'. exists m. split; [exists n|exists n']; assumption.
Qed.
Print Assumptions C74_ffi_parse.

(** ** Cases *)
Definition q := std_quote (fun _ => true) true false.
Example dump_case : exists m, parses_to (fun _ => true) (bs "a = ""\\"" + [1]") (ParseOk m) /\
  debug_module q m = bs "[Loc { start: 0, end: 14, item: Expression(Loc { start: 0, end: 14, item: Binary(BinaryExpression { operator: Assign, left: Loc { start: 0, end: 1, item: Identifier(""a"") }, right: Loc { start: 4, end: 14, item: Binary(BinaryExpression { operator: Addition, left: Loc { start: 4, end: 8, item: Literal(String(""\""\\\\\"""")) }, right: Loc { start: 11, end: 14, item: Array(ArrayExpression { body: [Loc { start: 12, end: 13, item: Literal(Number(""1"")) }] }) } }) } }) }) }]".
Proof. eexists. split; [exists 100; vm_compute; reflexivity|vm_compute; reflexivity]. Qed.
(** A space is enough to change the dump, and an error report is no dump. *)
Example dump_positions : exists m m', parses_to (fun _ => true) (bs "f(x)") (ParseOk m) /\ parses_to (fun _ => true) (bs "f( x)") (ParseOk m') /\ same_tree m m' /\
  debug_module q m <> debug_module q m'.
Proof.
  do 2 eexists. split; [exists 100; vm_compute; reflexivity|]. split; [exists 100; vm_compute; reflexivity|]. split; [vm_compute; reflexivity|]. intros E. vm_compute in E. discriminate E.
Qed.
(** The hypotheses of C74_generate_ast: the comment does not show. *)
Example dump_same : exists m out, unambiguous q /\ utf8 (bs "f(x)/*a*/;") /\ utf8 (bs "f(x)/*b*/;") /\ parses_to (fun _ => true) (bs "f(x)/*a*/;") (ParseOk m) /\
  wasm_generate_ast q (fun _ => true) 100 (bs "f(x)/*a*/;") = Done out /\ wasm_generate_ast q (fun _ => true) 100 (bs "f(x)/*b*/;") = Done out.
Proof.
  do 2 eexists. split; [apply std_quote_unambiguous|]. split; [apply utf8_ascii; reflexivity|]. split; [apply utf8_ascii; reflexivity|].
  split; [exists 100; vm_compute; reflexivity|]. split; vm_compute; reflexivity.
Qed.
(** What is quoted: escapes of a quote, a backslash, a line feed and of a character that is not printable (U+00AD). *)
Example quote_case : std_quote (fun c => negb (c =? 173)%N) true false (bs "a""\" ++ [x0a; xc2; xad; xc3; xa9]) = bs """a\""\\\n\u{ad}" ++ [xc3; xa9] ++ bs """".
Proof. reflexivity. Qed.
