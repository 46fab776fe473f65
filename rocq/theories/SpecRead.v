(** Specification vocabulary: reading tokens with the lexer's public operations. *)
From Coq Require Import List NArith Bool.
From Coq.Strings Require Import Byte.
From Verif Require Import Bytes Token Lexer SpecLexer.
Import ListNotations.
Open Scope nat_scope.

(** Reading one token: white space [ws], then the token [t] with text [x], then [rest]. *)
Record reads (lx : lexer) (ws x : str) (t : token) (rest : str) (lx' : lexer) : Prop := Reads {
  rd_token : lx_token lx' = t;
  rd_text : token_as_str lx' = x;
  rd_start : pos (lx_tok lx') = pos (lx_cur lx) + List.length ws;
  rd_end : pos (lx_cur lx') = pos (lx_cur lx) + List.length ws + List.length x;
  rd_rest : rem (lx_cur lx') = rest;
  rd_buf : lx_buf lx' = lx_buf lx
}.

(** ** The states of a lexer *)
Inductive lexer_reach (alnum : N -> bool) (src : str) : lexer -> Prop :=
| lr_new lx : lexer_new alnum src = Done lx -> lexer_reach alnum src lx
| lr_consume lx lx' : lexer_reach alnum src lx -> consume alnum lx = Done lx' -> lexer_reach alnum src lx'
| lr_template lx lx' : lexer_reach alnum src lx -> read_template_kind lx = Done lx' -> lexer_reach alnum src lx'
| lr_regex lx v lx' : lexer_reach alnum src lx -> read_regular_expression lx = Done (v, lx') -> lexer_reach alnum src lx'.

Definition substring (src : str) (a b : nat) : str := firstn (b - a) (skipn a src).

(** [tokens lx l]: consuming from [lx] on gives the tokens [l], up to the end of the program. *)
Inductive tokens (alnum : N -> bool) : lexer -> list (token * nat * nat) -> Prop :=
| tk_end lx : lx_token lx = T_EndOfProgram -> tokens alnum lx []
| tk_token lx lx' l : lx_token lx <> T_EndOfProgram -> consume alnum lx = Done lx' -> tokens alnum lx' l ->
    tokens alnum lx ((lx_token lx, pos (lx_tok lx), pos (lx_cur lx)) :: l).
(** [tiled rest l]: [rest] is made of gaps and tokens, at the positions of [l], up to the end or a NUL. *)
Inductive tiled (src : str) : nat -> list (token * nat * nat) -> Prop :=
| tl_end p q : p <= q <= List.length src -> gap (substring src p q) (skipn q (src ++ [x00])) ->
    (exists r, skipn q (src ++ [x00]) = x00 :: r) -> tiled src p []
| tl_token p t a b l : p <= a <= b -> b <= List.length src ->
    gap (substring src p a) (skipn a (src ++ [x00])) -> tiled src b l -> tiled src p ((t, a, b) :: l).

