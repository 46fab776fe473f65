(** C37, C44 and C53: error messages. *)
From Coq Require Import List NArith Bool Lia Arith String.
From Coq.Strings Require Import Byte.
From Verif Require ParseFacts.
From Verif Require Import Bytes Token Lexer SpecRead SpecUtf8 SpecTokens SpecAst SpecError SpecCodegen Ast Parser Codegen Astgen ErrorFmt Prog ProgFacts StateFacts LexProps ErrorFacts Utf8Facts MessageFacts PropCodegen.
Import ListNotations.
Open Scope nat_scope.
Open Scope list_scope.

(** The first line of a message. *)
Definition announces (line col : nat) (msg rest : str) : Prop :=
  exists l c, decimal line l /\ decimal col c /\ msg = bs "Unexpected token at " ++ l ++ bs ":" ++ c ++ [LF; LF] ++ rest.
Lemma header_announces line col rest : announces line col (header line col ++ rest) rest.
Proof. exists (dec line), (dec col). split; [apply dec_decimal|]. split; [apply dec_decimal|]. unfold header. now rewrite <- !app_assoc. Qed.
Lemma error_place alnum src es e : utf8 src -> parses_to alnum src (ParseErr es) -> In e es ->
  boundary src (err_start e) /\ boundary src (err_end e) /\ err_start e <= err_end e.
Proof.
  intros V H I. assert (B := errors_bd alnum src V es H). rewrite Forall_forall in B. destruct (B e I) as (B1 & B2 & _).
  apply errors_in_source in H as [_ H]. rewrite Forall_forall in H. destruct (H e I) as [L _]. split; [exact B1|]. split; [exact B2|lia].
Qed.

(** C37: the line and the column named are those of the error, unless the byte before it ends a line. *)
Theorem C37_position_partial : forall (alnum : N -> bool) (src : str) (es : list error) (e : error),
  utf8 src -> parses_to alnum src (ParseErr es) -> In e es ->
  (forall p, firstn (err_start e) src <> p ++ [LF]) -> (forall p, firstn (err_start e) src <> p ++ [CR]) ->
  exists line col msg rest,
    display_error src (err_start e) (err_end e) = Done msg /\ announces line col msg rest /\ place src (err_start e) line col.
Proof.
  intros alnum src es e V H I N1 N2. destruct (error_place _ _ _ _ V H I) as (B1 & B2 & L).
  destruct (display_done src _ _ V B1 B2 L) as [body D].
  eexists _, _, _, body. split; [exact D|]. split; [apply header_announces|]. now apply locate_place.
Qed.
Print Assumptions C37_position_partial.
(** The same for any range of characters of any text. *)
Theorem C37_any_range_partial : forall (src : str) (start stop : nat),
  utf8 src -> boundary src start -> boundary src stop -> start <= stop ->
  (forall p, firstn start src <> p ++ [LF]) -> (forall p, firstn start src <> p ++ [CR]) ->
  exists line col msg rest,
    display_error src start stop = Done msg /\ announces line col msg rest /\ place src start line col.
Proof.
  intros src i j V B1 B2 L N1 N2. destruct (display_done src _ _ V B1 B2 L) as [body D].
  eexists _, _, _, body. split; [exact D|]. split; [apply header_announces|]. now apply locate_place.
Qed.
Print Assumptions C37_any_range_partial.
(** At the beginning of a line, other than the first one, the line named is always the one before. *)
Theorem C37_line_starts_refuted : forall (src p : str) (start stop : nat),
  utf8 src -> boundary src start -> boundary src stop -> start <= stop -> firstn start src = p ++ [LF] ->
  exists line col msg rest,
    display_error src start stop = Done msg /\ announces line col msg rest /\ place src start (S line) 1.
Proof.
  intros src p i j V B1 B2 L E. destruct (display_done src _ _ V B1 B2 L) as [body D].
  eexists _, _, _, body. split; [exact D|]. split; [apply header_announces|].
  apply (locate_line_start src i p E). now apply boundary_firstn.
Qed.
Print Assumptions C37_line_starts_refuted.
(** [place] is a function of the offset: the two cases exclude each other. *)
Lemma app_no_lf p q r r' : p ++ r = q ++ r' -> (p = [] \/ exists x, p = x ++ [LF]) -> ~ In LF r' -> exists t, q = p ++ t.
Proof.
  intros E [->|[x ->]] N; [now exists q|]. apply app_eq_app in E as (l & [[E1 E2]|[E1 E2]]).
  - destruct l as [|y l] using rev_ind; [exists []; now rewrite app_nil_r in *|]. exfalso. apply N. rewrite app_assoc in E1. apply app_inj_tail in E1 as [_ <-].
    rewrite E2. apply in_or_app. left. apply in_or_app. right. now left.
  - now exists l.
Qed.
Theorem C37_place_unique : forall (s : str) (i line col line' col' : nat),
  place s i line col -> place s i line' col' -> line = line' /\ col = col'.
Proof.
  intros s i line col line' col' (p & r & n & E & P & N & El & C & Ec) (p' & r' & n' & E' & P' & N' & El' & C' & Ec').
  rewrite E in E'. destruct (app_no_lf p p' r r' E' P N') as [t T]. destruct (app_no_lf p' p r' r (eq_sym E') P' N) as [t' T'].
  assert (Z : p = p').
  { rewrite T' in T. rewrite <- app_assoc in T. rewrite <- (app_nil_r p') in T at 1. apply app_inv_head in T. symmetry in T. apply app_eq_nil in T as [-> _]. now rewrite app_nil_r in T'. }
  clear T T'. subst p'. apply app_inv_head in E'. subst r'. apply char_count_characters in C. apply char_count_characters in C'. split; congruence.
Qed.
Print Assumptions C37_place_unique.

(** C53: the message shows the line of the error with at most two lines on
    either side, numbered, and marks the characters of the error. *)
Theorem C53_excerpt_partial : forall (alnum : N -> bool) (src : str) (es : list error) (e : error) (chars : nat),
  utf8 src -> src <> [] -> parses_to alnum src (ParseErr es) -> In e es -> characters chars (err_raw e) ->
  (forall p, firstn (err_start e) src <> p ++ [LF]) -> (forall p, firstn (err_start e) src <> p ++ [CR]) ->
  exists line col msg rest,
    display_error src (err_start e) (err_end e) = Done msg /\ announces line col msg rest /\ place src (err_start e) line col /\
    excerpt src line col chars rest.
Proof.
  intros alnum src es e chars V Z H I C N1 N2. destruct (error_place _ _ _ _ V H I) as (B1 & B2 & L).
  assert (R : err_raw e = firstn (err_end e - err_start e) (skipn (err_start e) src)).
  { apply errors_in_source in H as [_ H]. rewrite Forall_forall in H. exact (proj2 (H e I)). }
  rewrite R in C.
  destruct (display_excerpt src _ _ chars _ _ V B1 B2 L N1 N2 Z C eq_refl eq_refl) as (body & D & X).
  eexists _, _, _, body. split; [exact D|]. split; [apply header_announces|]. split; [now apply locate_place|exact X].
Qed.
Print Assumptions C53_excerpt_partial.

(** What messages say of any error: the place named is the one where the text before the error ends, without the line
    feed or the carriage return, or both, at its end. So it is the place of the error if it does not follow one of
    these, and otherwise the end of the line before it, or the place of the carriage return. *)
Theorem C37_exact : forall (src : str) (start stop : nat),
  utf8 src -> boundary src start -> boundary src stop -> start <= stop ->
  exists u line col msg rest,
    unbroken (firstn start src) u /\ display_error src start stop = Done msg /\ announces line col msg rest /\ place src (List.length u) line col.
Proof.
  intros src i j V B1 B2 L. destruct (display_done src _ _ V B1 B2 L) as [body D]. destruct (unbroken_some (firstn i src)) as [u Ub].
  eexists u, _, _, _, body. split; [exact Ub|]. split; [exact D|]. split; [apply header_announces|]. now apply locate_unbroken.
Qed.
Print Assumptions C37_exact.
(** ... and the rest of the message shows that line, with as many marks as the error has characters. *)
Lemma empty_accepted alnum es : ~ parses_to alnum [] (ParseErr es).
Proof.
  intros H. assert (K : parses_to alnum [] (ParseOk [])) by (exists 5; vm_compute; reflexivity). generalize (ParseFacts.parses_det _ _ _ _ H K). discriminate.
Qed.
Theorem C53_exact : forall (alnum : N -> bool) (src : str) (es : list error) (e : error) (chars : nat),
  utf8 src -> parses_to alnum src (ParseErr es) -> In e es -> characters chars (err_raw e) ->
  exists u line col msg rest,
    unbroken (firstn (err_start e) src) u /\
    display_error src (err_start e) (err_end e) = Done msg /\ announces line col msg rest /\ place src (List.length u) line col /\
    excerpt src line col chars rest.
Proof.
  intros alnum src es e chars V H I C. destruct (error_place _ _ _ _ V H I) as (B1 & B2 & L).
  assert (Z : src <> []) by (intros ->; exact (empty_accepted _ _ H)).
  assert (R : err_raw e = firstn (err_end e - err_start e) (skipn (err_start e) src)).
  { apply errors_in_source in H as [_ H]. rewrite Forall_forall in H. exact (proj2 (H e I)). }
  rewrite R in C. destruct (unbroken_some (firstn (err_start e) src)) as [u Ub]. assert (Pl := locate_unbroken _ _ _ B1 Ub).
  destruct (display_excerpt_at src _ _ chars _ _ V B1 B2 L (place_line_unbroken _ _ _ _ _ B1 Ub Pl Z) C eq_refl eq_refl) as (body & D & X).
  eexists u, _, _, _, body. split; [exact Ub|]. split; [exact D|]. split; [apply header_announces|]. split; [exact Pl|exact X].
Qed.
Print Assumptions C53_exact.
(** At the beginning of a line the marks are in the wrong line, too: the error is the first character of the second line,
    and the mark is put in the first line, behind its end. *)
Theorem C53_excerpt_refuted : exists (src : str) (e : error) (es : list error) (msg rest : str),
  utf8 src /\ parses_to (fun _ => true) src (ParseErr (e :: es)) /\ place src (err_start e) 2 1 /\
  display_error src (err_start e) (err_end e) = Done msg /\ announces 1 2 msg rest /\ excerpt src 1 2 1 rest.
Proof.
  destruct (C53_exact (fun _ => true) (bs "a" ++ [LF] ++ bs ")") [Error T_ParenClose (bs ")") 2 3] (Error T_ParenClose (bs ")") 2 3) 1) as (u & line & col & msg & rest & Ub & D & A & Pl & X).
  - apply utf8_ascii. reflexivity.
  - exists 50. vm_compute. reflexivity.
  - now left.
  - apply (ch_cons 0 [_] []); [apply u1; split; vm_compute; discriminate|constructor].
  - exists (bs "a" ++ [LF] ++ bs ")"), (Error T_ParenClose (bs ")") 2 3), [], msg, rest.
    assert (P2 : place (bs "a" ++ [LF] ++ bs ")") 2 2 1).
    { exists (bs "a" ++ [LF]), [], 0. split; [reflexivity|]. split; [right; now exists (bs "a")|]. split; [intros []|]. split; [reflexivity|]. split; [constructor|reflexivity]. }
    assert (P1 : place (bs "a" ++ [LF] ++ bs ")") 1 1 2).
    { exists [], (bs "a"), 1. split; [reflexivity|]. split; [now left|]. split; [cbn; intuition discriminate|]. split; [reflexivity|]. split; [|reflexivity].
      apply (ch_cons 0 [_] []); [apply u1; split; vm_compute; discriminate|constructor]. }
    assert (Eu : u = bs "a").
    { inversion Ub as [u' E|u' E N|u' E|N1 N2]; subst; cbn [err_start] in *.
      - apply (f_equal (@rev _)) in E. rewrite rev_app_distr in E. discriminate E.
      - change (firstn 2 (bs "a" ++ [LF] ++ bs ")")) with (bs "a" ++ [LF]) in E. apply app_inj_tail in E as [E _]. now symmetry.
      - apply (f_equal (@rev _)) in E. rewrite rev_app_distr in E. discriminate E.
      - exfalso. now apply (N1 (bs "a")). }
    subst u. destruct (C37_place_unique _ _ _ _ _ _ Pl P1) as [-> ->]. cbn [err_start err_end] in *.
    split; [apply utf8_ascii; reflexivity|]. split; [exists 50; vm_compute; reflexivity|]. auto.
Qed.
Print Assumptions C53_excerpt_refuted.

(** C44: the transform of the WebAssembly and of the Node.js package. *)
Definition messages (src : str) (es : list error) (msgs : list str) : Prop :=
  Forall2 (fun e msg => display_error src (err_start e) (err_end e) = Done msg) es msgs.
Lemma all_messages alnum src es : utf8 src -> parses_to alnum src (ParseErr es) -> exists msgs, display_all es src = Done msgs /\ messages src es msgs.
Proof.
  intros V H. assert (A : forall e, In e es -> exists msg, display_error src (err_start e) (err_end e) = Done msg).
  { intros e I. destruct (error_place _ _ _ _ V H I) as (B1 & B2 & L). destruct (display_done src _ _ V B1 B2 L) as [body D]. eauto. }
  clear H. induction es as [|e es IH]; [now exists []; split; [|constructor]|].
  destruct (A e (or_introl eq_refl)) as [msg D]. destruct IH as (msgs & E & M); [intros e' I'; apply A; now right|].
  exists (msg :: msgs). split; [cbn [display_all]; rewrite D; cbn [obind]; now rewrite E|now constructor].
Qed.
Lemma join_same sep l : ErrorFmt.join sep l = SpecError.join sep l.
Proof. induction l as [|x l IH]; [reflexivity|]. cbn [ErrorFmt.join SpecError.join]. now rewrite IH. Qed.
Lemma parsed_code alnum src m minify : parses_to alnum src (ParseOk m) -> exists s, codegen m minify = Done s.
Proof. intros H. destruct (C05_texts_kept alnum src m H) as (ps & E1 & E2 & _). destruct minify; eauto. Qed.

(** What the function returns, once the parser has answered [r]. *)
Definition transformed (src : str) (minify : bool) (r : parse_result) (out : str) : Prop :=
  match r with
  | ParseOk m => codegen m minify = Done out
  | ParseErr es => exists msgs, es <> [] /\ messages src es msgs /\ out = bs "Error: " ++ SpecError.join [LF] msgs
  end.
(** It returns if the parser does, ... *)
Theorem C44_transform_answers : forall (alnum : N -> bool) (src : str) (minify : bool) (r : parse_result),
  utf8 src -> parses_to alnum src r ->
  exists n out, wasm_transform alnum n src minify = Done out /\ transformed src minify r out.
Proof.
  intros alnum src minify r V H. destruct (H) as [n E]. exists n. unfold wasm_transform. rewrite E. cbn [obind].
  destruct r as [m|es].
  - destruct (parsed_code alnum src m minify H) as [s Es]. exists s. split; exact Es.
  - destruct (all_messages alnum src es V H) as (msgs & D & M). unfold format_errors. rewrite D. cbn [obind]. eexists. split; [reflexivity|].
    exists msgs. split; [apply errors_in_source in H as [H _]; exact H|]. split; [exact M|]. now rewrite join_same.
Qed.
Print Assumptions C44_transform_answers.
(** ... and whatever it returns is that. *)
Theorem C44_transform : forall (alnum : N -> bool) (n : nat) (src : str) (minify : bool) (out : str),
  wasm_transform alnum n src minify = Done out ->
  exists r, parses_to alnum src r /\ transformed src minify r out.
Proof.
  intros alnum n src minify out H. unfold wasm_transform in H. destruct (parse_fuel alnum n src) as [r| | |] eqn:E; try discriminate H.
  assert (P : parses_to alnum src r) by now exists n. exists r. split; [exact P|]. cbn [obind] in H. destruct r as [m|es]; [exact H|].
  unfold format_errors in H. destruct (display_all es src) as [ds| | |] eqn:D; try discriminate H. injection H as <-.
  exists ds. split; [apply errors_in_source in P as [P _]; exact P|]. split; [|now rewrite join_same].
  clear E P. revert ds D. induction es as [|e es IH]; intros ds D; cbn [display_all] in D; [injection D as <-; constructor|].
  destruct (display_error src (err_start e) (err_end e)) as [x| | |] eqn:Ex; try discriminate D. cbn [obind] in D.
  destruct (display_all es src) as [ys| | |] eqn:Ey; try discriminate D. injection D as <-. constructor; [exact Ex|now apply IH].
Qed.
Print Assumptions C44_transform.
(** The wrapper adds no failure: it fails exactly if the parser does. *)
Theorem C44_transform_fails : forall (alnum : N -> bool) (n : nat) (src : str) (minify : bool),
  utf8 src -> (forall out, wasm_transform alnum n src minify <> Done out) -> forall r, parse_fuel alnum n src <> Done r.
Proof.
  intros alnum n src minify V H r E. assert (P : parses_to alnum src r) by now exists n.
  unfold wasm_transform in H. rewrite E in H. cbn [obind] in H. destruct r as [m|es].
  - destruct (parsed_code alnum src m minify P) as [s Es]. exact (H s Es).
  - destruct (all_messages alnum src es V P) as (msgs & D & _). unfold format_errors in H. rewrite D in H. exact (H _ eq_refl).
Qed.
Print Assumptions C44_transform_fails.
(** The Node.js binding: the code, or a TypeError whose message is the same list without the prefix. *)
Theorem C44_node_transform : forall (alnum : N -> bool) (n : nat) (src : str) (minify : bool) (r : parse_result),
  utf8 src -> parse_fuel alnum n src = Done r ->
  match r with
  | ParseOk m => exists s, ffi_transform alnum n src minify = Done (JsValue s) /\ codegen m minify = Done s
  | ParseErr es => exists msgs, ffi_transform alnum n src minify = Done (JsTypeError (SpecError.join [LF] msgs)) /\ es <> [] /\ messages src es msgs
  end.
Proof.
  intros alnum n src minify r V E. assert (P : parses_to alnum src r) by now exists n. unfold ffi_transform. rewrite E. cbn [obind]. destruct r as [m|es].
  - destruct (parsed_code alnum src m minify P) as [s Es]. exists s. rewrite Es. split; reflexivity.
  - destruct (all_messages alnum src es V P) as (msgs & D & M). exists msgs. unfold ffi_format_errors. rewrite D. cbn [obind]. rewrite join_same.
    split; [reflexivity|]. split; [apply errors_in_source in P as [P _]; exact P|exact M].
Qed.
Print Assumptions C44_node_transform.

(** ** The hypotheses are met *)
Definition message_sample : str := bs "a = 1;" ++ [LF] ++ bs "b = );" ++ [CR; LF] ++ bs "c".
Example message_nonvacuous : exists e es,
  utf8 message_sample /\ parses_to (fun _ => true) message_sample (ParseErr (e :: es)) /\
  place message_sample (err_start e) 2 5 /\ characters 1 (err_raw e) /\
  (forall p, firstn (err_start e) message_sample <> p ++ [LF]) /\ (forall p, firstn (err_start e) message_sample <> p ++ [CR]).
Proof.
  eexists _, _. split; [apply utf8_ascii; reflexivity|]. split; [exists 50; vm_compute; reflexivity|]. cbn [err_start err_raw].
  split.
  { exists (bs "a = 1;" ++ [LF]), (bs "b = "), 4. split; [reflexivity|]. split; [right; now exists (bs "a = 1;")|].
    split; [cbn; intuition discriminate|]. split; [reflexivity|]. split; [|reflexivity].
    repeat (apply (ch_cons _ [_] _); [apply u1; split; vm_compute; discriminate|]). constructor. }
  split; [apply (ch_cons 0 [_] []); [apply u1; split; vm_compute; discriminate|constructor]|].
  split; intros p H; apply (f_equal (@rev _)) in H; rewrite rev_app_distr in H; discriminate H.
Qed.
Example message_shown : wasm_transform (fun _ => true) 50 message_sample true =
  Done (bs "Error: Unexpected token at 2:5" ++ [LF; LF]
        ++ bs "  1 | a = 1;" ++ [LF]
        ++ bs "> 2 | b = );" ++ [LF]
        ++ bs "    |     ^" ++ [LF]
        ++ bs "  3 | c" ++ [LF]).
Proof. vm_compute. reflexivity. Qed.
(** A parse error at the beginning of line 2, reported on line 1. *)
Example line_start_nonvacuous : exists e es rest,
  parses_to (fun _ => true) (bs "a" ++ [LF] ++ bs ")") (ParseErr (e :: es)) /\
  firstn (err_start e) (bs "a" ++ [LF] ++ bs ")") = bs "a" ++ [LF] /\
  display_error (bs "a" ++ [LF] ++ bs ")") (err_start e) (err_end e) = Done (bs "Unexpected token at 1:2" ++ rest).
Proof. eexists _, _, _. split; [exists 50; vm_compute; reflexivity|]. split; [reflexivity|]. vm_compute. reflexivity. Qed.
