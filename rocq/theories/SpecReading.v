(** Specification vocabulary: the lexemes that the public lexer delivers. *)
From Coq Require Import List NArith.
From Verif Require Import Bytes Token Lexer SpecSyntax.
Import ListNotations.
Open Scope list_scope.

(** The lexeme a lexer stands at, as its fields and methods report it: the token, its text (for a
    property access the name), and whether it is marked as one before which a semicolon can be left out.
    Property C24 says which tokens are so marked. *)
Definition current (lx : lexer) : lexeme :=
  (lx_token lx, Word (match lx_token lx with T_Accessor => accessor_as_str lx | _ => token_as_str lx end)
                     (match lx_asi lx with ImplicitSemicolon => true | _ => false end)).
(** [reading alnum lx ls]: the lexer [lx] delivers the lexemes [ls], up to an end of program, if its client
    moves on token by token and asks, where it likes, to have a slash read as the beginning of a regular
    expression and a closing brace as that of the next piece of a template. *)
Inductive reading (alnum : N -> bool) : lexer -> list lexeme -> Prop :=
| rd_end lx : lx_token lx = T_EndOfProgram -> reading alnum lx [current lx]
| rd_next lx lx1 ls : consume alnum lx = Done lx1 -> reading alnum lx1 ls -> reading alnum lx (current lx :: ls)
| rd_regex lx v lx1 lx2 ls : lx_token lx = T_OperatorDivision -> read_regular_expression lx = Done (v, lx1) -> lx_token lx1 = T_LiteralRegEx ->
    consume alnum lx1 = Done lx2 -> reading alnum lx2 ls -> reading alnum lx (current lx1 :: ls)
| rd_piece lx lx1 lx2 ls : lx_token lx = T_BraceClose -> read_template_kind lx = Done lx1 -> In (lx_token lx1) [T_TemplateOpen; T_TemplateClosed] ->
    consume alnum lx1 = Done lx2 -> reading alnum lx2 ls -> reading alnum lx (current lx1 :: ls).
