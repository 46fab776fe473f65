(** Specification vocabulary: the lexemes of a list of tokens of a source. *)
From Coq Require Import List NArith String.
From Coq.Strings Require Import Byte.
From Verif Require Import Bytes Token SpecChunks SpecRead SpecTrace SpecGrammar.
Import ListNotations.
Open Scope list_scope.

(** The lexeme of the token [x] of [src]: its text; for a property access the name, for a piece
    of a template the text between its delimiters. *)
Definition spells (src : str) (x : spot) (a : lexeme) : Prop :=
  let text := substring src (s_start x) (s_end x) in
  fst a = s_token x /\
  match s_token x with
  | T_Accessor => accessor (snd a) text
  | T_TemplateOpen | T_TemplateClosed => exists opening, (opening = bs "`" \/ opening = bs "}") /\ chunk (s_token x) opening (snd a) text
  | _ => snd a = text
  end.
(** [y] is [x] read again: the slash was the beginning of a regular expression, the closing brace that of
    the next piece of a template. *)
Definition read_again (x y : spot) : Prop := s_start y = s_start x /\ (s_token x = T_OperatorDivision \/ s_token x = T_BraceClose).
Inductive lexemes (src : str) : list spot -> list lexeme -> Prop :=
| ls_last x a : spells src x a -> lexemes src [x] [a]
| ls_next x y l a ls : spells src x a -> ~ read_again x y -> lexemes src (y :: l) ls -> lexemes src (x :: y :: l) (a :: ls)
| ls_again x y l ls : read_again x y -> lexemes src (y :: l) ls -> lexemes src (x :: y :: l) ls.
