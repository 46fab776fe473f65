(** Properties of the lexer: C19, C20, C21, C22, C23, C24, C43. *)
From Coq Require Import List NArith Bool String.
From Coq.Strings Require Import Byte.
From Verif Require Import Bytes Token Lexer SpecLexer SpecTokens SpecUtf8 SpecHazard SpecPrec SpecRead Parser LexerFacts LexEval LexProps Foreign.
Import ListNotations.
Open Scope nat_scope.

(** ** C19: keywords are recognised exactly *)
Theorem C19_keywords :
  forall (alnum : N -> bool) (lx : lexer) (ws : str) (x : byte) (w : str) (c : byte) (rest : str),
  Forall white ws ->
  word_first x = true -> Forall (fun b => word_byte b = true) w -> word_byte c = false ->
  rem (lx_cur lx) = ws ++ (x :: w) ++ c :: rest ->
  exists lx', consume alnum lx = Done lx' /\
    reads lx ws (x :: w) (keyword_or_identifier (x :: w)) (c :: rest) lx'.
Proof. exact reads_word. Qed.
Print Assumptions C19_keywords.

Example C19_nonvacuous :
  Forall white (bs "  ") /\ word_first "f"%byte = true /\ Forall (fun b => word_byte b = true) (bs "or") /\
  word_byte "("%byte = false /\ keyword_or_identifier (bs "for") = T_For /\
  keyword_or_identifier (bs "fora") = T_Identifier /\
  rem (lx_cur (lexer_init (nul_terminated (bs "  for(;;){}")))) = bs "  " ++ ("f"%byte :: bs "or") ++ "("%byte :: bs ";;){}" ++ [x00].
Proof. repeat split; repeat constructor; vm_compute; discriminate. Qed.

(** Words that start with a character outside ASCII are identifiers, if that character is
    alphanumeric (otherwise the lexer stands still, see C23). *)
Theorem C19_other_identifiers :
  forall (alnum : N -> bool) (lx : lexer) (ws s : str) (c : byte) (rest : str),
  Forall white ws -> foreign_start alnum s -> Forall (fun b => word_byte b = true) s -> word_byte c = false ->
  rem (lx_cur lx) = ws ++ s ++ c :: rest ->
  exists lx', consume alnum lx = Done lx' /\ reads lx ws s T_Identifier (c :: rest) lx'.
Proof.
  intros alnum lx ws s c rest W F I C E. rewrite word_byte_legal in C. apply word_bytes_legal in I.
  destruct lx as [buf t0 a0 [p r0] tok0 acc q]; cbn [lx_cur rem] in *; subst r0.
  rewrite (lex_foreign alnum) by auto. eexists; split; [reflexivity|].
  match goal with |- reads ?lx ?ws ?x ?t ?rest _ => exact (lexed_reads lx ws x t _ rest) end.
Qed.
Print Assumptions C19_other_identifiers.
Example C19_other_nonvacuous : foreign_start (fun c => N.eqb c 233) (bs "éa1") /\ Forall (fun b => word_byte b = true) (bs "éa1").
Proof.
  split; [|repeat constructor]. split.
  - exists 3. apply (ch_cons 2 [xc3; xa9]); [constructor; split; discriminate|]. apply (ch_cons 1 ["a"%byte]); [constructor; split; discriminate|].
    apply (ch_cons 0 ["1"%byte] []); [constructor; split; discriminate|]. constructor.
  - do 3 eexists. split; [reflexivity|]. split; [reflexivity|]. split; [apply cp2; split; discriminate|reflexivity].
Qed.

(** ** C20: the longest punctuator is read *)
Theorem C20_longest_match :
  forall (alnum : N -> bool) (lx : lexer) (ws x : str) (t : token) (c : byte) (rest : str),
  Forall white ws ->
  In (x, t) PUNCTUATORS -> longest x (x ++ c :: rest) ->
  rem (lx_cur lx) = ws ++ x ++ c :: rest ->
  exists lx', consume alnum lx = Done lx' /\ reads lx ws x t (c :: rest) lx'.
Proof. exact reads_punct. Qed.
Print Assumptions C20_longest_match.

Example C20_nonvacuous :
  In (bs ">>>", T_OperatorUBitShiftRight) PUNCTUATORS /\ longest (bs ">>>") (bs ">>>" ++ bs ">=b").
Proof.
  split; [vm_compute; tauto|]. split; [eexists; reflexivity|].
  intros y I [r E]. vm_compute in I.
  repeat (destruct I as [<-|I]; [vm_compute in E |- *; try discriminate E; repeat constructor|]). destruct I.
Qed.

(** ** C21: strings end at the first unescaped matching quote *)
Theorem C21_string :
  forall (alnum : N -> bool) (lx : lexer) (ws : str) (q : byte) (s rest : str),
  Forall white ws -> q = """"%byte \/ q = "'"%byte -> string_inside q s ->
  rem (lx_cur lx) = ws ++ (q :: s ++ [q]) ++ rest ->
  exists lx', consume alnum lx = Done lx' /\ reads lx ws (q :: s ++ [q]) T_LiteralString rest lx'.
Proof. exact reads_string. Qed.
Print Assumptions C21_string.

Theorem C21_unterminated_string :
  forall (alnum : N -> bool) (lx : lexer) (ws : str) (q : byte) (s e rest : str),
  Forall white ws -> q = """"%byte \/ q = "'"%byte -> string_inside q s -> e = [] \/ e = ["\"%byte] ->
  rem (lx_cur lx) = ws ++ (q :: s ++ e) ++ x00 :: rest ->
  exists lx', consume alnum lx = Done lx' /\
    reads lx ws (q :: s ++ e) T_UnexpectedEndOfProgram (x00 :: rest) lx'.
Proof. exact reads_string_open. Qed.
Print Assumptions C21_unterminated_string.

(** The two cases cover every text after an opening quote. *)
Theorem C21_cases : forall (q : byte) (r : str),
  q <> x00 -> q <> "\"%byte -> (exists src, r = src ++ [x00]) ->
  (exists s rest, string_inside q s /\ r = s ++ q :: rest) \/
  (exists s e rest, string_inside q s /\ (e = [] \/ e = ["\"%byte]) /\ r = s ++ e ++ x00 :: rest).
Proof. exact string_split. Qed.
Print Assumptions C21_cases.

Example C21_nonvacuous : string_inside """"%byte (bs "a\""b").
Proof. vm_compute. repeat (constructor; try discriminate). Qed.

(** ** C43: numeric literals *)
Theorem C43_numbers :
  forall (alnum : N -> bool) (lx : lexer) (ws x : str) (t : token) (more : byte -> bool) (c : byte) (rest : str),
  Forall white ws -> number x t more -> more c = false ->
  rem (lx_cur lx) = ws ++ x ++ c :: rest ->
  exists lx', consume alnum lx = Done lx' /\ reads lx ws x t (c :: rest) lx'.
Proof. exact reads_number. Qed.
Print Assumptions C43_numbers.

Example C43_nonvacuous :
  (exists more, number (bs "10.5e-3") T_LiteralNumber more /\ more ";"%byte = false) /\
  (exists more, number (bs "0xFf") T_LiteralNumber more /\ more ";"%byte = false) /\
  (exists more, number (bs ".5") T_LiteralNumber more /\ more ";"%byte = false) /\
  (exists more, number (bs "0") T_LiteralNumber more /\ more ";"%byte = false) /\
  (exists more, number (bs "0b01") T_LiteralBinary more /\ more ";"%byte = false).
Proof.
  repeat split.
  - exists digit. split; [|reflexivity].
    apply (n_signed_exponent (bs "10.5") digit "e" "-" (bs "3")); [|simpl; auto|simpl; auto|repeat constructor].
    apply (m_point "1" (bs "0") (bs "5")); repeat constructor.
  - eexists. split; [apply (n_hex "x" (bs "Ff")); simpl; auto; repeat constructor|reflexivity].
  - eexists. split; [apply (n_plain (bs ".5")); apply (m_fraction "5" []); repeat constructor|reflexivity].
  - eexists. split; [apply (n_plain (bs "0")); constructor|reflexivity].
  - eexists. split; [apply (n_binary "b" (bs "01")); simpl; auto; repeat constructor|reflexivity].
Qed.

(** ** C22: tokens tile the source *)
Theorem C22_token_text :
  forall (alnum : N -> bool) (src : str) (lx : lexer), lexer_reach alnum src lx ->
  pos (lx_tok lx) <= pos (lx_cur lx) <= List.length src /\
  token_as_str lx = substring src (pos (lx_tok lx)) (pos (lx_cur lx)).
Proof. exact reach_text. Qed.
Print Assumptions C22_token_text.

Theorem C22_between_tokens :
  forall (alnum : N -> bool) (src : str) (lx lx' : lexer), lexer_reach alnum src lx ->
  consume alnum lx = Done lx' ->
  pos (lx_cur lx) <= pos (lx_tok lx') /\
  gap (substring src (pos (lx_cur lx)) (pos (lx_tok lx'))) (skipn (pos (lx_tok lx')) (src ++ [x00])).
Proof. exact (fun alnum src lx lx' R => consume_gap alnum src lx lx' (lexer_reach_inv alnum src lx R)). Qed.
Print Assumptions C22_between_tokens.

Theorem C22_tokens_tile :
  forall (alnum : N -> bool) (src : str) (lx : lexer) (l : list (token * nat * nat)),
  lexer_new alnum src = Done lx -> tokens alnum lx l -> tiled src 0 l.
Proof. exact tokens_tiled. Qed.
Print Assumptions C22_tokens_tile.

Example C22_nonvacuous :
  exists lx, lexer_new (fun _ => true) (bs "a /*x*/ + 'b'") = Done lx /\
  tokens (fun _ => true) lx [(T_Identifier, 0, 1); (T_OperatorAddition, 8, 9); (T_LiteralString, 10, 13)].
Proof.
  eexists. split; [vm_compute; reflexivity|].
  eapply tk_token; [discriminate|vm_compute; reflexivity|].
  eapply tk_token; [discriminate|vm_compute; reflexivity|].
  eapply tk_token; [discriminate|vm_compute; reflexivity|].
  apply tk_end. reflexivity.
Qed.

(** ** C23: progress.  The full claim is false: *)
Definition arrow_char : str := [xe2; x86; x92]. (* U+2192, not alphanumeric *)
Theorem C23_progress_refuted :
  forall alnum : N -> bool, alnum 8594%N = false ->
  exists lx lx', lexer_reach alnum arrow_char lx /\ consume alnum lx = Done lx' /\
    lx_token lx' <> T_EndOfProgram /\ pos (lx_cur lx') = pos (lx_cur lx) /\ lx' = lx.
Proof. exact (progress_refuted arrow_char eq_refl). Qed.
Print Assumptions C23_progress_refuted.

(** What holds: the only place the lexer stands still is at a non-ASCII
    character that is not alphanumeric. *)
Theorem C23_progress_partial :
  forall (alnum : N -> bool) (src : str) (lx lx' : lexer),
  lexer_reach alnum src lx -> consume alnum lx = Done lx' ->
  pos (lx_cur lx) < pos (lx_cur lx') \/ lx_token lx' = T_EndOfProgram \/
  (lx_token lx' = T_UnexpectedToken /\ pos (lx_cur lx') = pos (lx_tok lx') /\
   exists b r c n, skipn (pos (lx_cur lx')) src = b :: r /\ (127 < byte_val b)%N /\
     decode_char (b :: r ++ [x00]) = Some (c, n) /\ alnum c = false).
Proof. exact consume_progress. Qed.
Print Assumptions C23_progress_partial.

Theorem C23_end_forever :
  forall (alnum : N -> bool) (src : str) (lx : lexer),
  lexer_reach alnum src lx -> lx_token lx = T_EndOfProgram ->
  exists lx', consume alnum lx = Done lx' /\ lx_token lx' = T_EndOfProgram /\
    pos (lx_tok lx') = pos (lx_cur lx) /\ pos (lx_cur lx') = pos (lx_cur lx).
Proof. exact eop_forever. Qed.
Print Assumptions C23_end_forever.

Example C23_nonvacuous : exists lx, lexer_reach (fun _ => true) (bs " // x") lx /\ lx_token lx = T_EndOfProgram.
Proof. eexists. split; [apply lr_new; vm_compute; reflexivity|reflexivity]. Qed.

(** ** C24: line breaks and semicolon insertion.  The full claim (a line break
    anywhere before the token) is false when a block comment follows it: *)
Theorem C24_newline_refuted :
  forall alnum : N -> bool, exists lx lx',
  lexer_reach alnum (bs "a
/*c*/b") lx /\ consume alnum lx = Done lx' /\
  In x0a (substring (bs "a
/*c*/b") (pos (lx_cur lx)) (pos (lx_tok lx'))) /\
  lx_asi lx' = NoSemicolon.
Proof. exact asi_refuted. Qed.
Print Assumptions C24_newline_refuted.
Theorem C24_newline_rejected : forall alnum : N -> bool,
  exists es, parses_to alnum (bs "a
/*c*/b") (ParseErr es).
Proof. exact asi_rejected. Qed.
Print Assumptions C24_newline_rejected.

Theorem C24_newline_partial :
  forall (alnum : N -> bool) (src : str) (lx lx' : lexer) (g u : str),
  lexer_reach alnum src lx -> consume alnum lx = Done lx' ->
  substring src (pos (lx_cur lx)) (pos (lx_tok lx')) = g ++ x0a :: u -> Forall white u ->
  lx_token lx' <> T_Semicolon -> lx_asi lx' = ImplicitSemicolon.
Proof. exact asi_newline. Qed.
Print Assumptions C24_newline_partial.

Theorem C24_no_newline :
  forall (alnum : N -> bool) (src : str) (lx lx' : lexer),
  lexer_reach alnum src lx -> consume alnum lx = Done lx' ->
  ~ In x0a (substring src (pos (lx_cur lx)) (pos (lx_tok lx'))) ->
  ~ In (lx_token lx') [T_Semicolon; T_ParenClose; T_BraceClose; T_EndOfProgram] ->
  lx_asi lx' = NoSemicolon.
Proof. exact asi_no_newline. Qed.
Print Assumptions C24_no_newline.

(** A closing parenthesis or brace and the end of the program end statements; a
    semicolon, and nothing else, ends one explicitly. *)
Theorem C24_closing :
  forall (alnum : N -> bool) (src : str) (lx lx' : lexer),
  lexer_reach alnum src lx -> consume alnum lx = Done lx' ->
  In (lx_token lx') [T_ParenClose; T_BraceClose; T_EndOfProgram] -> lx_asi lx' = ImplicitSemicolon.
Proof. exact asi_closing. Qed.
Print Assumptions C24_closing.
Theorem C24_explicit :
  forall (alnum : N -> bool) (src : str) (lx lx' : lexer),
  lexer_reach alnum src lx -> consume alnum lx = Done lx' ->
  (lx_asi lx' = ExplicitSemicolon <-> lx_token lx' = T_Semicolon).
Proof. exact asi_semicolon. Qed.
Print Assumptions C24_explicit.

Example C24_nonvacuous : exists lx lx',
  lexer_reach (fun _ => true) (bs "a // c
 b") lx /\ consume (fun _ => true) lx = Done lx' /\
  substring (bs "a // c
 b") (pos (lx_cur lx)) (pos (lx_tok lx')) = bs " // c" ++ x0a :: bs " " /\ lx_token lx' = T_Identifier.
Proof.
  eexists _, _. split; [apply lr_new; vm_compute; reflexivity|].
  split; [vm_compute; reflexivity|]. split; reflexivity.
Qed.
