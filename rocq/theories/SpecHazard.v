(** Vocabulary: texts on which the parser may fail to return. *)
From Coq Require Import List NArith String.
From Coq.Strings Require Import Byte.
From Verif Require Import Bytes Token Lexer SpecUtf8 SpecChunks.
Import ListNotations.
Open Scope list_scope.

(** The code point of the character, outside ASCII, that a UTF-8 text begins with. *)
Inductive code_point : str -> N -> Prop :=
| cp2 a b r : between xc2 xdf a ->
    code_point (a :: b :: r) ((byte_val a - 192) * 64 + (byte_val b - 128))
| cp3 a b c r : between xe0 xef a ->
    code_point (a :: b :: c :: r) (((byte_val a - 224) * 64 + (byte_val b - 128)) * 64 + (byte_val c - 128))
| cp4 a b c d r : between xf0 xf4 a ->
    code_point (a :: b :: c :: d :: r) ((((byte_val a - 240) * 64 + (byte_val b - 128)) * 64 + (byte_val c - 128)) * 64 + (byte_val d - 128)).

(** A control character or a space; a byte of a character outside ASCII. *)
Definition blank (b : byte) : Prop := (byte_val b <= 32)%N.
Definition not_ascii (b : byte) : Prop := (127 < byte_val b)%N.

(** The rest of the source after the slash that begins a regular expression (outside, [false], or
    inside, [true], a class) does not end it: no slash outside of classes and escapes, no line feed,
    no escape of a NUL or of the end of the source. *)
Inductive regex_open : bool -> str -> Prop :=
| ro_end k : regex_open k []
| ro_open k s : regex_open true s -> regex_open k ("["%byte :: s)
| ro_close k s : regex_open false s -> regex_open k ("]"%byte :: s)
| ro_slash s : regex_open true s -> regex_open true ("/"%byte :: s)
| ro_escape k c s : c <> x00 -> regex_open k s -> regex_open k ("\"%byte :: c :: s)
| ro_plain k b s : ~ In b ["["; "]"; "/"; "\"; x0a]%byte -> regex_open k s -> regex_open k (b :: s).

(** The rest of the source after a backquote, or after a closing brace that ends a substitution, is
    an unfinished chunk of a template: [template_inside], with all of its text. *)

(** A suffix [r] of the source from which the lexer can run past the end of the source: a period and
    blanks only; a slash and an unfinished regular expression; a backquote, or a closing brace, and
    an unfinished template. *)
Inductive runs_past (src : str) : str -> Prop :=
| rp_period ws : Forall blank ws -> runs_past src ("."%byte :: ws)
| rp_regex s : regex_open false s -> runs_past src ("/"%byte :: s)
| rp_template s : template_inside s -> runs_past src ("`"%byte :: s)
| rp_continued s : template_inside s -> In "`"%byte src -> runs_past src ("}"%byte :: s).
Definition may_read_past (src : str) : Prop := exists a r, src = a ++ r /\ runs_past src r.

(** A period followed, perhaps after blanks, by a character outside ASCII. *)
Definition may_panic (src : str) : Prop :=
  exists a ws b r, src = a ++ "."%byte :: ws ++ b :: r /\ Forall blank ws /\ not_ascii b.

(** A character outside ASCII that is not alphanumeric. *)
Definition may_stick (alnum : N -> bool) (src : str) : Prop := exists a r c, src = a ++ r /\ code_point r c /\ alnum c = false.
(** The lexers that a client comes to who moves on token by token, and asks, where it likes, to have a slash read
    as the beginning of a regular expression and a closing brace as that of the next piece of a template. *)
Inductive visited (alnum : N -> bool) (src : str) : lexer -> Prop :=
| vi_new lx : lexer_new alnum src = Done lx -> visited alnum src lx
| vi_next lx lx' : visited alnum src lx -> consume alnum lx = Done lx' -> visited alnum src lx'
| vi_piece lx lx' : visited alnum src lx -> lx_token lx = T_BraceClose -> read_template_kind lx = Done lx' -> visited alnum src lx'
| vi_regex lx v lx' : visited alnum src lx -> lx_token lx = T_OperatorDivision -> read_regular_expression lx = Done (v, lx') -> visited alnum src lx'.
(** It comes to a token [switch] (which it does not in a comment, a string or a longer word); or the source has such a character. *)
Definition may_loop (alnum : N -> bool) (src : str) : Prop := (exists lx, visited alnum src lx /\ lx_token lx = T_Switch) \/ may_stick alnum src.
