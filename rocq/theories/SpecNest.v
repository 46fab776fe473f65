(** Specification vocabulary: brackets that nest.

    The tokens that open a bracket are the parenthesis, the square bracket, the brace and the part of a
    template that ends with a dollar and a brace.  Reading tokens from left to right with a
    stack of the brackets that are open, a closing token must match the bracket opened last; a closing brace
    closes either a brace or the substitution of a template. *)
From Coq Require Import List NArith Bool.
From Verif Require Import Bytes Token Lexer SpecTrace.
Import ListNotations.
Open Scope list_scope.

Inductive bracket : Set := Paren | Square | Brace | Dollar.

Inductive effect : token -> list bracket -> list bracket -> Prop :=
| ef_open_paren st : effect T_ParenOpen st (Paren :: st)
| ef_open_square st : effect T_BracketOpen st (Square :: st)
| ef_open_brace st : effect T_BraceOpen st (Brace :: st)
| ef_open_dollar st : effect T_TemplateOpen st (Dollar :: st)
| ef_close_paren st : effect T_ParenClose (Paren :: st) st
| ef_close_square st : effect T_BracketClose (Square :: st) st
| ef_close_brace st : effect T_BraceClose (Brace :: st) st
| ef_close_dollar st : effect T_BraceClose (Dollar :: st) st
| ef_other t st : ~ In t [T_ParenOpen; T_BracketOpen; T_BraceOpen; T_TemplateOpen; T_ParenClose; T_BracketClose; T_BraceClose] ->
    effect t st st.

(** Reading the tokens [l] with the brackets [st] open leaves the brackets [st'] open. *)
Inductive nests : list bracket -> list spot -> list bracket -> Prop :=
| ne_nil st : nests st [] st
| ne_cons st st1 st2 x l : effect (s_token x) st st1 -> nests st1 l st2 -> nests st (x :: l) st2.

(** How many of the tokens [l] are [t]. *)
Definition count (t : token) (l : list spot) : nat := List.length (filter (fun x => token_eqb (s_token x) t) l).

(** The tokens that can be the last of a program: an accepted program does not stop after any other
    token.  (The end of the program is one of them as it is read again when a block is left open.) *)
Definition may_end : list token :=
  [T_Semicolon; T_ParenClose; T_BracketClose; T_BraceClose; T_OperatorIncrement; T_OperatorDecrement;
   T_Break; T_Continue; T_Return; T_Debugger; T_This;
   T_LiteralTrue; T_LiteralFalse; T_LiteralNull; T_LiteralUndefined; T_LiteralString; T_LiteralNumber; T_LiteralBinary; T_LiteralRegEx;
   T_Identifier; T_Accessor; T_TemplateClosed; T_EndOfProgram].
