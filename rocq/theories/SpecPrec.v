(** Specification for C01: the binary operators of ECMAScript, how they are
    spelled and how tightly they bind, and chains of them. *)
From Coq Require Import List String NArith.
From Coq.Strings Require Import Byte.
From Verif Require Import Bytes Token SpecLexer SpecTokens SpecUtf8 SpecHazard Ast.
Import ListNotations.
Open Scope nat_scope.
Open Scope list_scope.

(** Spelling, operator, precedence (a larger number binds tighter). *)
Definition BINARY : list (str * operator * nat) :=
  map (fun x => (bs (fst (fst x)), snd (fst x), snd x))
  [ ("||", O_LogicalOr, 1); ("&&", O_LogicalAnd, 2);
    ("|", O_BitwiseOr, 3); ("^", O_BitwiseXor, 4); ("&", O_BitwiseAnd, 5);
    ("==", O_Equality, 6); ("!=", O_Inequality, 6); ("===", O_StrictEquality, 6); ("!==", O_StrictInequality, 6);
    ("<", O_Lesser, 7); ("<=", O_LesserEquals, 7); (">", O_Greater, 7); (">=", O_GreaterEquals, 7);
    ("instanceof", O_Instanceof, 7); ("in", O_In, 7);
    ("<<", O_BitShiftLeft, 8); (">>", O_BitShiftRight, 8); (">>>", O_UBitShiftRight, 8);
    ("+", O_Addition, 9); ("-", O_Subtraction, 9);
    ("*", O_Multiplication, 10); ("/", O_Division, 10); ("%", O_Remainder, 10);
    ("**", O_Exponent, 11) ]%string.

(** A word whose first character is outside ASCII: it has to be alphanumeric. *)
Definition foreign_start (alnum : N -> bool) (s : str) : Prop :=
  utf8 s /\ exists b r c, s = b :: r /\ not_ascii b /\ code_point s c /\ alnum c = true.
(** An identifier: it starts with an ASCII letter, [$], [_] or [\], or with another alphanumeric character. *)
Definition identifier_name (alnum : N -> bool) (s : str) : Prop :=
  identifier_text s /\ ((exists b r, s = b :: r /\ word_first b = true) \/ foreign_start alnum s).

(** A link of a chain: white space, an operator, white space, an identifier.
    An operator that is a word needs the white space. *)
Record link : Set := Link { l_before : str; l_op : str; l_after : str; l_name : str; l_operator : operator; l_prec : nat }.
Definition link_ok (alnum : N -> bool) (l : link) : Prop :=
  Forall white (l_before l) /\ Forall white (l_after l) /\ identifier_name alnum (l_name l) /\
  In (l_op l, l_operator l, l_prec l) BINARY /\
  (word_text (l_op l) -> l_before l <> [] /\ l_after l <> []).
Definition link_text (l : link) : str := l_before l ++ l_op l ++ l_after l ++ l_name l.
Definition chain_text (x0 : str) (ls : list link) : str := x0 ++ flat_map link_text ls.

(** [reads_as e x l]: the tree [e] is made of binary operators and identifiers;
    read from left to right it is [x] and then the operators and identifiers [l]. *)
Inductive reads_as : expression -> str -> list (operator * str) -> Prop :=
| ra_identifier x : reads_as (E_Identifier x) x []
| ra_binary op l r x xs y ys :
    reads_as (n_item l) x xs -> reads_as (n_item r) y ys ->
    reads_as (E_Binary op l r) x (xs ++ (op, y) :: ys).

(** In [e] a left operand binds at least as tightly as its parent, a right
    operand more tightly. *)
Definition binds (p : nat -> nat -> Prop) (op : operator) (e : expression) : Prop :=
  match e with
  | E_Binary op' _ _ => forall s s' n n', In (s, op, n) BINARY -> In (s', op', n') BINARY -> p n n'
  | _ => True
  end.
Inductive grouped : expression -> Prop :=
| g_identifier x : grouped (E_Identifier x)
| g_binary op l r : grouped (n_item l) -> grouped (n_item r) ->
    binds le op (n_item l) -> binds lt op (n_item r) -> grouped (E_Binary op l r).

(** What a chain reads as after its first identifier. *)
Definition chain_reading (ls : list link) : list (operator * str) := map (fun l => (l_operator l, l_name l)) ls.
