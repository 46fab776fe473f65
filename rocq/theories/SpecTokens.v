(** Specification tables, written from the ECMAScript grammar and the names of
    the tokens; they do not mention the lexer. *)
From Coq Require Import List NArith Bool String.
From Coq.Strings Require Import Byte.
From Verif Require Import Bytes Token.
Import ListNotations.
Open Scope string_scope.

(** Reserved words and their tokens. *)
Definition KEYWORDS : list (str * token) :=
  map (fun p => (bs (fst p), snd p))
  [ ("break", T_Break); ("case", T_Case); ("catch", T_Catch); ("class", T_Class);
    ("const", T_DeclarationConst); ("continue", T_Continue); ("debugger", T_Debugger);
    ("default", T_Default); ("delete", T_OperatorDelete); ("do", T_Do); ("else", T_Else);
    ("enum", T_ReservedEnum); ("export", T_Export); ("extends", T_Extends);
    ("false", T_LiteralFalse); ("finally", T_Finally); ("for", T_For);
    ("function", T_Function); ("if", T_If); ("implements", T_ReservedImplements);
    ("import", T_Import); ("in", T_OperatorIn); ("instanceof", T_OperatorInstanceof);
    ("interface", T_ReservedInterface); ("let", T_DeclarationLet); ("new", T_OperatorNew);
    ("null", T_LiteralNull); ("package", T_ReservedPackage); ("private", T_ReservedPrivate);
    ("protected", T_ReservedProtected); ("public", T_ReservedPublic); ("return", T_Return);
    ("static", T_Static); ("super", T_Super); ("switch", T_Switch); ("this", T_This);
    ("throw", T_Throw); ("true", T_LiteralTrue); ("try", T_Try); ("typeof", T_OperatorTypeof);
    ("undefined", T_LiteralUndefined); ("var", T_DeclarationVar); ("void", T_OperatorVoid);
    ("while", T_While); ("with", T_With); ("yield", T_Yield) ].

(** The token of a word: its keyword, or an identifier. *)
Fixpoint assoc (w : str) (l : list (str * token)) : option token :=
  match l with
  | [] => None
  | (x, t) :: l' => if str_eqb w x then Some t else assoc w l'
  end.
Definition keyword_or_identifier (w : str) : token :=
  match assoc w KEYWORDS with Some t => t | None => T_Identifier end.

(** Bytes of words: letters, digits, [$], [_], [\] (of a unicode escape) and
    every byte of a non-ASCII character. *)
Definition letter (b : byte) : bool := byte_in "a"%byte "z"%byte b || byte_in "A"%byte "Z"%byte b.
Definition word_first (b : byte) : bool :=
  letter b || byte_eqb b "$"%byte || byte_eqb b "_"%byte || byte_eqb b "\"%byte.
Definition word_byte (b : byte) : bool :=
  word_first b || byte_in "0"%byte "9"%byte b || byte_in x80 xff b.

(** Punctuators ([.] and [..] are none). *)
Definition PUNCTUATORS : list (str * token) :=
  map (fun p => (bs (fst p), snd p))
  [ (";", T_Semicolon); (":", T_Colon); (",", T_Comma);
    ("(", T_ParenOpen); (")", T_ParenClose); ("[", T_BracketOpen); ("]", T_BracketClose);
    ("{", T_BraceOpen); ("}", T_BraceClose);
    ("?", T_OperatorConditional); ("~", T_OperatorBitwiseNot); ("...", T_OperatorSpread);
    ("=", T_OperatorAssign); ("==", T_OperatorEquality); ("===", T_OperatorStrictEquality);
    ("=>", T_OperatorFatArrow);
    ("!", T_OperatorLogicalNot); ("!=", T_OperatorInequality); ("!==", T_OperatorStrictInequality);
    ("<", T_OperatorLesser); ("<=", T_OperatorLesserEquals);
    ("<<", T_OperatorBitShiftLeft); ("<<=", T_OperatorBSLAssign);
    (">", T_OperatorGreater); (">=", T_OperatorGreaterEquals);
    (">>", T_OperatorBitShiftRight); (">>=", T_OperatorBSRAssign);
    (">>>", T_OperatorUBitShiftRight); (">>>=", T_OperatorUBSRAssign);
    ("^", T_OperatorBitwiseXor); ("^=", T_OperatorBitXorAssign);
    ("%", T_OperatorRemainder); ("%=", T_OperatorRemainderAssign);
    ("&", T_OperatorBitwiseAnd); ("&&", T_OperatorLogicalAnd); ("&=", T_OperatorBitAndAssign);
    ("|", T_OperatorBitwiseOr); ("||", T_OperatorLogicalOr); ("|=", T_OperatorBitOrAssign);
    ("+", T_OperatorAddition); ("++", T_OperatorIncrement); ("+=", T_OperatorAddAssign);
    ("-", T_OperatorSubtraction); ("--", T_OperatorDecrement); ("-=", T_OperatorSubtractAssign);
    ("*", T_OperatorMultiplication); ("*=", T_OperatorMultiplyAssign);
    ("**", T_OperatorExponent); ("**=", T_OperatorExponentAssign);
    ("/", T_OperatorDivision); ("/=", T_OperatorDivideAssign) ].
Definition COMMENT_OPENERS : list str := map bs ["//"; "/*"].

(** [x] is the longest punctuator or comment opener that [s] starts with. *)
Close Scope string_scope.
Definition starts (x s : str) : Prop := exists rest, s = x ++ rest.
Definition longest (x s : str) : Prop :=
  starts x s /\
  forall y, In y (map fst PUNCTUATORS ++ COMMENT_OPENERS) -> starts y s -> (List.length y <= List.length x)%nat.

(** The inside of a string literal delimited by [q]: escapes (a backslash and
    any byte) and other bytes than the quote; no NUL. *)
Inductive string_inside (q : byte) : str -> Prop :=
| si_nil : string_inside q []
| si_escape c s : c <> x00 -> string_inside q s -> string_inside q ("\"%byte :: c :: s)
| si_plain b s : b <> q -> b <> "\"%byte -> b <> x00 -> string_inside q s -> string_inside q (b :: s).

(** Numeric literals and the bytes that would continue them. *)
Definition digit (b : byte) : bool := byte_in "0"%byte "9"%byte b.
Definition digits (s : str) : Prop := Forall (fun b => digit b = true) s.
Definition one_of (l : list byte) (b : byte) : bool := existsb (byte_eqb b) l.
(** The mantissa: digits, digits with a point, or a point and digits.
    [mantissa m more]: the bytes satisfying [more] would continue [m]. *)
Definition exponent_mark : list byte := ["e"; "E"]%byte.
Definition radix_mark : list byte := ["b"; "B"; "o"; "O"; "x"; "X"]%byte.
Inductive mantissa : str -> (byte -> bool) -> Prop :=
| m_zero : mantissa ["0"%byte] (fun c => digit c || one_of ("."%byte :: radix_mark) c)
| m_zeros d ds : digit d = true -> digits ds ->
    mantissa ("0"%byte :: d :: ds) (fun c => digit c || byte_eqb c "."%byte)
| m_int d ds : byte_in "1"%byte "9"%byte d = true -> digits ds ->
    mantissa (d :: ds) (fun c => digit c || byte_eqb c "."%byte)
| m_point d ds f : digit d = true -> digits ds -> digits f ->
    mantissa (d :: ds ++ "."%byte :: f) digit
| m_fraction d f : digit d = true -> digits f ->
    mantissa ("."%byte :: d :: f) digit.
Inductive number : str -> token -> (byte -> bool) -> Prop :=
| n_plain m more : mantissa m more ->
    number m T_LiteralNumber (fun c => more c || one_of exponent_mark c)
| n_exponent m more e d ds : mantissa m more -> In e exponent_mark -> digit d = true -> digits ds ->
    number (m ++ e :: d :: ds) T_LiteralNumber digit
| n_signed_exponent m more e sign ds : mantissa m more -> In e exponent_mark -> In sign ["+"; "-"]%byte ->
    digits ds -> number (m ++ e :: sign :: ds) T_LiteralNumber digit
| n_binary x ds : In x ["b"; "B"]%byte -> Forall (fun b => one_of ["0"; "1"]%byte b = true) ds ->
    number ("0"%byte :: x :: ds) T_LiteralBinary (one_of ["0"; "1"]%byte)
| n_octal x ds : In x ["o"; "O"]%byte -> Forall (fun b => byte_in "0"%byte "7"%byte b = true) ds ->
    number ("0"%byte :: x :: ds) T_LiteralNumber (byte_in "0"%byte "7"%byte)
| n_hex x ds : In x ["x"; "X"]%byte ->
    Forall (fun b => byte_in "0" "9" b || byte_in "a" "f" b || byte_in "A" "F" b = true)%byte%bool ds ->
    number ("0"%byte :: x :: ds) T_LiteralNumber
      (fun b => byte_in "0" "9" b || byte_in "a" "f" b || byte_in "A" "F" b)%byte%bool.

(** The text of a number token, of the kind [t]: a numeric literal, or one whose
    exponent has no digits ([1e]), which the lexer takes too. *)
Definition number_text (s : str) (t : token) : Prop :=
  (exists more, number s t more) \/
  (t = T_LiteralNumber /\ exists m more e, mantissa m more /\ In e exponent_mark /\ s = m ++ [e]).

(** A word: label bytes, not starting with a digit. *)
Definition word_text (s : str) : Prop :=
  exists b w, s = b :: w /\ Forall (fun x => word_byte x = true) s /\ digit b = false.
(** An identifier: a word that is not reserved. *)
Definition identifier_text (s : str) : Prop :=
  word_text s /\ keyword_or_identifier s = T_Identifier.
(** A string literal: the same quote at both ends. *)
Definition quoted (s : str) : Prop :=
  exists q inside, (q = """"%byte \/ q = "'"%byte) /\ string_inside q inside /\ s = q :: inside ++ [q].
(** A regular expression literal. *)
Definition regex_flags : list byte := ["g"; "i"; "m"; "u"; "y"]%byte.
Definition regex_text (s : str) : Prop :=
  exists body flags, s = "/"%byte :: body ++ "/"%byte :: flags /\
    Forall (fun b => one_of regex_flags b = true) flags.
