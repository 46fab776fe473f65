(** The tokenizer, /repo/ratel/src/lexer/mod.rs, labels.rs and util.rs.

    The source buffer is [src ++ [x00]] ([Arena::alloc_str_with_nul],
    mod.rs:626-628).  The raw pointer plus index of the Rust lexer is modelled
    by the index together with the bytes from that index to the end of the
    buffer; reading when no byte is left is the outcome [ReadPastEnd]
    (undefined behaviour in the Rust code), never a made-up value. *)
From Coq Require Import List NArith Bool String.
From Coq.Strings Require Import Byte.
From Verif Require Import Bytes Token Tables.
Import ListNotations.
Open Scope nat_scope.

(** Result of a computation of the model. *)
Inductive outcome (A : Type) : Type :=
| Done (a : A)
| ReadPastEnd            (** a byte after the end of the buffer was read *)
| Panicked               (** a Rust panic *)
| OutOfFuel.             (** the model's recursion budget was exhausted *)
Arguments Done {A} a.
Arguments ReadPastEnd {A}.
Arguments Panicked {A}.
Arguments OutOfFuel {A}.

Definition obind {A B} (m : outcome A) (f : A -> outcome B) : outcome B :=
  match m with
  | Done a => f a
  | ReadPastEnd => ReadPastEnd
  | Panicked => Panicked
  | OutOfFuel => OutOfFuel
  end.
Notation "x <~ m ;; k" := (obind m (fun x => k)) (at level 61, m at next level, right associativity).
Notation "' pat <~ m ;; k" := (obind m (fun x => match x with pat => k end))
  (at level 61, pat pattern, m at next level, right associativity).

(** [Asi], mod.rs:42-54. *)
Inductive asi : Set := ExplicitSemicolon | ImplicitSemicolon | NoSemicolon.

(** A position in the buffer: the index and the bytes from there on. *)
Record cursor : Set := Cur { pos : nat; rem : str }.

(** [Lexer], mod.rs:601-620.  [ptr] is [lx_buf], the whole buffer with its
    terminating NUL; [index] is [lx_cur]; [token_start] and [accessor_start]
    are [lx_tok] and [lx_acc]. *)
Record lexer : Set := Lexer {
  lx_buf : str;
  lx_token : token;
  lx_asi : asi;
  lx_cur : cursor;
  lx_tok : cursor;
  lx_acc : cursor;
  lx_quasi : str
}.

Definition set_token (t : token) (lx : lexer) : lexer :=
  Lexer (lx_buf lx) t (lx_asi lx) (lx_cur lx) (lx_tok lx) (lx_acc lx) (lx_quasi lx).
Definition set_asi (a : asi) (lx : lexer) : lexer :=
  Lexer (lx_buf lx) (lx_token lx) a (lx_cur lx) (lx_tok lx) (lx_acc lx) (lx_quasi lx).
Definition set_cur (c : cursor) (lx : lexer) : lexer :=
  Lexer (lx_buf lx) (lx_token lx) (lx_asi lx) c (lx_tok lx) (lx_acc lx) (lx_quasi lx).
Definition set_tok (c : cursor) (lx : lexer) : lexer :=
  Lexer (lx_buf lx) (lx_token lx) (lx_asi lx) (lx_cur lx) c (lx_acc lx) (lx_quasi lx).
Definition set_acc (c : cursor) (lx : lexer) : lexer :=
  Lexer (lx_buf lx) (lx_token lx) (lx_asi lx) (lx_cur lx) (lx_tok lx) c (lx_quasi lx).
Definition set_quasi (q : str) (lx : lexer) : lexer :=
  Lexer (lx_buf lx) (lx_token lx) (lx_asi lx) (lx_cur lx) (lx_tok lx) (lx_acc lx) q.

(** [read_byte], mod.rs:812-815. *)
Definition read_byte (lx : lexer) : outcome byte :=
  match rem (lx_cur lx) with
  | [] => ReadPastEnd
  | b :: _ => Done b
  end.

Definition cur_bump (c : cursor) : cursor := Cur (S (pos c)) (tl (rem c)).

(** [bump], mod.rs:819-822. *)
Definition bump (lx : lexer) : lexer := set_cur (cur_bump (lx_cur lx)) lx.

(** [next_byte], mod.rs:824-828: bump, then read. *)
Definition next_byte (lx : lexer) : outcome (byte * lexer) :=
  let lx' := bump lx in
  b <~ read_byte lx' ;; Done (b, lx').

(** [slice_source(a, index of b)], mod.rs:912-922. *)
Definition slice (a b : cursor) : str := firstn (pos b - pos a) (rem a).

(** [token_as_str], mod.rs:680-683, and [accessor_as_str], mod.rs:688-691. *)
Definition token_as_str (lx : lexer) : str := slice (lx_tok lx) (lx_cur lx).
Definition accessor_as_str (lx : lexer) : str := slice (lx_acc lx) (lx_cur lx).

(** [util::legal_in_label], util.rs:2-33. *)
Definition legal_in_label (b : byte) : bool := nth (byte_index b) LABEL_TABLE false.

(** Loop that advances while the byte read satisfies [f]. *)
Fixpoint scan_while (f : byte -> bool) (p : nat) (r : str) : outcome cursor :=
  match r with
  | [] => ReadPastEnd
  | b :: r' => if f b then scan_while f (S p) r' else Done (Cur p r)
  end.

Definition skip_while (f : byte -> bool) (lx : lexer) : outcome lexer :=
  c <~ scan_while f (pos (lx_cur lx)) (rem (lx_cur lx)) ;; Done (set_cur c lx).

(** [read_label], mod.rs:899-904. *)
Definition read_label (lx : lexer) : outcome lexer := skip_while legal_in_label lx.

(** ** Keywords: [match_label!], labels.rs:4-34 *)

(** [KSeq bs t] is [[b1 b2 .. => t]]; [KBranch d bs] is [{ [=> d]? b1{..} b2[..] .. }]. *)
Inductive ktrie : Set :=
| KSeq (bs : list byte) (t : token)
| KBranch (d : option token) (branches : list (byte * ktrie)).

(** First rule of [match_label!], labels.rs:5-11: short-circuit comparison of
    the following bytes, then [bump] and a check that the label ends. *)
Fixpoint match_seq (bs : list byte) (lx : lexer) : outcome (bool * lexer) :=
  match bs with
  | [] => let lx' := bump lx in
          b <~ read_byte lx' ;; Done (negb (legal_in_label b), lx')
  | x :: bs' =>
      '(b, lx') <~ next_byte lx ;;
      if byte_eqb b x then match_seq bs' lx' else Done (false, lx')
  end.

(** [match_label!]: [Some t] when the macro returns with token [t]. *)
Fixpoint match_label (k : ktrie) (lx : lexer) {struct k} : outcome (option token * lexer) :=
  match k with
  | KSeq bs t =>
      '(ok, lx') <~ match_seq bs lx ;;
      Done (if ok then Some t else None, lx')
  | KBranch d branches =>
      '(b, lx') <~ next_byte lx ;;
      (fix go (l : list (byte * ktrie)) : outcome (option token * lexer) :=
         match l with
         | [] => Done (match d with
                       | Some t => if legal_in_label b then None else Some t
                       | None => None
                       end, lx')
         | (m, k') :: l' => if byte_eqb b m then match_label k' lx' else go l'
         end) branches
  end.

(** The [L_x] handlers, labels.rs:44-246: [match_label!] then [read_label]. *)
Definition label_or_keyword (k : ktrie) (lx : lexer) : outcome lexer :=
  '(t, lx1) <~ match_label k lx ;;
  match t with
  | Some t => Done (set_token t lx1)
  | None => lx2 <~ read_label lx1 ;; Done (set_token T_Identifier lx2)
  end.

Open Scope byte_scope.
(** labels.rs:44-49 *)
Definition K_B := KSeq ["r"; "e"; "a"; "k"] T_Break.
(** labels.rs:52-69 *)
Definition K_C := KBranch None
  [("o", KBranch None
      [("n", KBranch None
          [("s", KSeq ["t"] T_DeclarationConst);
           ("t", KSeq ["i"; "n"; "u"; "e"] T_Continue)])]);
   ("a", KBranch None
      [("s", KSeq ["e"] T_Case);
       ("t", KSeq ["c"; "h"] T_Catch)]);
   ("l", KSeq ["a"; "s"; "s"] T_Class)].
(** labels.rs:72-84 *)
Definition K_D := KBranch None
  [("o", KSeq [] T_Do);
   ("e", KBranch None
      [("l", KSeq ["e"; "t"; "e"] T_OperatorDelete);
       ("f", KSeq ["a"; "u"; "l"; "t"] T_Default);
       ("b", KSeq ["u"; "g"; "g"; "e"; "r"] T_Debugger)])].
(** labels.rs:87-99 *)
Definition K_E := KBranch None
  [("l", KSeq ["s"; "e"] T_Else);
   ("x", KBranch None
      [("p", KSeq ["o"; "r"; "t"] T_Export);
       ("t", KSeq ["e"; "n"; "d"; "s"] T_Extends)]);
   ("n", KSeq ["u"; "m"] T_ReservedEnum)].
(** labels.rs:102-112 *)
Definition K_F := KBranch None
  [("i", KSeq ["n"; "a"; "l"; "l"; "y"] T_Finally);
   ("o", KSeq ["r"] T_For);
   ("u", KSeq ["n"; "c"; "t"; "i"; "o"; "n"] T_Function);
   ("a", KSeq ["l"; "s"; "e"] T_LiteralFalse)].
(** labels.rs:115-133 *)
Definition K_I := KBranch None
  [("n", KBranch (Some T_OperatorIn)
      [("s", KSeq ["t"; "a"; "n"; "c"; "e"; "o"; "f"] T_OperatorInstanceof);
       ("t", KSeq ["e"; "r"; "f"; "a"; "c"; "e"] T_ReservedInterface)]);
   ("f", KSeq [] T_If);
   ("m", KBranch None
      [("p", KBranch None
          [("o", KSeq ["r"; "t"] T_Import);
           ("l", KSeq ["e"; "m"; "e"; "n"; "t"; "s"] T_ReservedImplements)])])].
(** labels.rs:136-141 *)
Definition K_L := KSeq ["e"; "t"] T_DeclarationLet.
(** labels.rs:144-152 *)
Definition K_N := KBranch None
  [("e", KSeq ["w"] T_OperatorNew);
   ("u", KSeq ["l"; "l"] T_LiteralNull)].
(** labels.rs:155-167 *)
Definition K_P := KBranch None
  [("a", KSeq ["c"; "k"; "a"; "g"; "e"] T_ReservedPackage);
   ("u", KSeq ["b"; "l"; "i"; "c"] T_ReservedPublic);
   ("r", KBranch None
      [("o", KSeq ["t"; "e"; "c"; "t"; "e"; "d"] T_ReservedProtected);
       ("i", KSeq ["v"; "a"; "t"; "e"] T_ReservedPrivate)])].
(** labels.rs:170-175 *)
Definition K_R := KSeq ["e"; "t"; "u"; "r"; "n"] T_Return.
(** labels.rs:178-187 *)
Definition K_S := KBranch None
  [("u", KSeq ["p"; "e"; "r"] T_Super);
   ("w", KSeq ["i"; "t"; "c"; "h"] T_Switch);
   ("t", KSeq ["a"; "t"; "i"; "c"] T_Static)].
(** labels.rs:190-205 *)
Definition K_T := KBranch None
  [("y", KSeq ["p"; "e"; "o"; "f"] T_OperatorTypeof);
   ("h", KBranch None
      [("i", KSeq ["s"] T_This);
       ("r", KSeq ["o"; "w"] T_Throw)]);
   ("r", KBranch None
      [("y", KSeq [] T_Try);
       ("u", KSeq ["e"] T_LiteralTrue)])].
(** labels.rs:208-213 *)
Definition K_U := KSeq ["n"; "d"; "e"; "f"; "i"; "n"; "e"; "d"] T_LiteralUndefined.
(** labels.rs:216-224 *)
Definition K_V := KBranch None
  [("a", KSeq ["r"] T_DeclarationVar);
   ("o", KSeq ["i"; "d"] T_OperatorVoid)].
(** labels.rs:227-235 *)
Definition K_W := KBranch None
  [("h", KSeq ["i"; "l"; "e"] T_While);
   ("i", KSeq ["t"; "h"] T_With)].
(** labels.rs:238-243 *)
Definition K_Y := KSeq ["i"; "e"; "l"; "d"] T_Yield.

(** [IDT], labels.rs:37-41. *)
Definition h_IDT (lx : lexer) : outcome lexer :=
  lx1 <~ read_label (bump lx) ;; Done (set_token T_Identifier lx1).

(** ** Simple handlers, mod.rs:82-394 *)

Definition h_single (t : token) (lx : lexer) : outcome lexer := Done (set_token t (bump lx)).
(** [EOF], mod.rs:88-92. *)
Definition h_EOF (lx : lexer) : outcome lexer :=
  Done (set_token T_EndOfProgram (set_asi ImplicitSemicolon lx)).
(** [SEM], mod.rs:95-101. *)
Definition h_SEM (lx : lexer) : outcome lexer :=
  Done (set_token T_Semicolon (set_asi ExplicitSemicolon (bump lx))).
(** [PNC], [BEC], mod.rs:124-130, 154-160. *)
Definition h_closing (t : token) (lx : lexer) : outcome lexer :=
  Done (set_token t (set_asi ImplicitSemicolon (bump lx))).

(** [EQL], mod.rs:163-186. *)
Definition h_EQL (lx : lexer) : outcome lexer :=
  '(b, lx1) <~ next_byte lx ;;
  if byte_eqb b "=" then
    '(b2, lx2) <~ next_byte lx1 ;;
    if byte_eqb b2 "=" then Done (set_token T_OperatorStrictEquality (bump lx2))
    else Done (set_token T_OperatorEquality lx2)
  else if byte_eqb b ">" then Done (set_token T_OperatorFatArrow (bump lx1))
  else Done (set_token T_OperatorAssign lx1).

(** [EXL], mod.rs:189-205. *)
Definition h_EXL (lx : lexer) : outcome lexer :=
  '(b, lx1) <~ next_byte lx ;;
  if byte_eqb b "=" then
    '(b2, lx2) <~ next_byte lx1 ;;
    if byte_eqb b2 "=" then Done (set_token T_OperatorStrictInequality (bump lx2))
    else Done (set_token T_OperatorInequality lx2)
  else Done (set_token T_OperatorLogicalNot lx1).

(** [LSS], mod.rs:208-230. *)
Definition h_LSS (lx : lexer) : outcome lexer :=
  '(b, lx1) <~ next_byte lx ;;
  if byte_eqb b "<" then
    '(b2, lx2) <~ next_byte lx1 ;;
    if byte_eqb b2 "=" then Done (set_token T_OperatorBSLAssign (bump lx2))
    else Done (set_token T_OperatorBitShiftLeft lx2)
  else if byte_eqb b "=" then Done (set_token T_OperatorLesserEquals (bump lx1))
  else Done (set_token T_OperatorLesser lx1).

(** [MOR], mod.rs:233-271. *)
Definition h_MOR (lx : lexer) : outcome lexer :=
  '(b, lx1) <~ next_byte lx ;;
  if byte_eqb b ">" then
    '(b2, lx2) <~ next_byte lx1 ;;
    if byte_eqb b2 ">" then
      '(b3, lx3) <~ next_byte lx2 ;;
      if byte_eqb b3 "=" then Done (set_token T_OperatorUBSRAssign (bump lx3))
      else Done (set_token T_OperatorUBitShiftRight lx3)
    else if byte_eqb b2 "=" then Done (set_token T_OperatorBSRAssign (bump lx2))
    else Done (set_token T_OperatorBitShiftRight lx2)
  else if byte_eqb b "=" then Done (set_token T_OperatorGreaterEquals (bump lx1))
  else Done (set_token T_OperatorGreater lx1).

(** [CRT] (mod.rs:288-299), [PRC] (mod.rs:446-456): one byte, or one byte and [=]. *)
Definition h_op_assign (op opassign : token) (lx : lexer) : outcome lexer :=
  '(b, lx1) <~ next_byte lx ;;
  if byte_eqb b "=" then Done (set_token opassign (bump lx1))
  else Done (set_token op lx1).

(** [AMP], [PIP], [PLS], [MIN], mod.rs:301-371: the byte [c] doubled, followed
    by [=], or alone. *)
Definition h_op_double (c : byte) (op double opassign : token) (lx : lexer) : outcome lexer :=
  '(b, lx1) <~ next_byte lx ;;
  if byte_eqb b c then Done (set_token double (bump lx1))
  else if byte_eqb b "=" then Done (set_token opassign (bump lx1))
  else Done (set_token op lx1).

(** [ATR], mod.rs:373-394. *)
Definition h_ATR (lx : lexer) : outcome lexer :=
  '(b, lx1) <~ next_byte lx ;;
  if byte_eqb b "*" then
    '(b2, lx2) <~ next_byte lx1 ;;
    if byte_eqb b2 "=" then Done (set_token T_OperatorExponentAssign (bump lx2))
    else Done (set_token T_OperatorExponent lx2)
  else if byte_eqb b "=" then Done (set_token T_OperatorMultiplyAssign (bump lx1))
  else Done (set_token T_OperatorMultiplication lx1).

(** ** Comments: [SLH], mod.rs:397-443 *)

(** The loop of a block comment, mod.rs:417-431; [true] when [*/] was found
    (cursor after it), [false] when the end of the program was. *)
Fixpoint scan_block_comment (p : nat) (r : str) : outcome (bool * cursor) :=
  match r with
  | [] => ReadPastEnd
  | b :: r' =>
      if byte_eqb b "*" then
        match r' with
        | [] => ReadPastEnd
        | c :: r'' =>
            if byte_eqb c "/" then Done (true, Cur (S (S p)) r'')
            else if byte_eqb c x00 then Done (false, Cur (S p) r')
            else scan_block_comment (S p) r'
        end
      else if byte_eqb b x00 then Done (false, Cur p r)
      else scan_block_comment (S p) r'
  end.

Definition not_line_end (b : byte) : bool := negb (byte_eqb b x00 || byte_eqb b x0a).

(** [SLH]; [consume] is the recursive call made after a comment. *)
Definition h_SLH (consume : lexer -> outcome lexer) (lx : lexer) : outcome lexer :=
  '(b, lx1) <~ next_byte lx ;;
  if byte_eqb b "/" then
    lx2 <~ skip_while not_line_end (bump lx1) ;; consume lx2
  else if byte_eqb b "*" then
    let lx2 := bump lx1 in
    '(closed, c) <~ scan_block_comment (pos (lx_cur lx2)) (rem (lx_cur lx2)) ;;
    let lx3 := set_cur c lx2 in
    if (closed : bool) then consume lx3 else Done (set_token T_UnexpectedEndOfProgram lx3)
  else if byte_eqb b "=" then Done (set_token T_OperatorDivideAssign (bump lx1))
  else Done (set_token T_OperatorDivision lx1).

(** ** Numbers, mod.rs:478-544, 830-843, 924-981 *)

(** [read_scientific], mod.rs:966-981. *)
Definition read_scientific (lx : lexer) : outcome lexer :=
  b <~ read_byte lx ;;
  let lx1 := if (byte_eqb b "-" || byte_eqb b "+")%bool then bump lx else lx in
  lx2 <~ skip_while is_digit lx1 ;;
  Done (set_token T_LiteralNumber lx2).

(** [read_float], mod.rs:950-964. *)
Definition read_float (lx : lexer) : outcome lexer :=
  lx1 <~ skip_while is_digit lx ;;
  b <~ read_byte lx1 ;;
  if (byte_eqb b "e" || byte_eqb b "E")%bool then read_scientific (bump lx1)
  else Done (set_token T_LiteralNumber lx1).

(** The digit loop shared by [ZER] (mod.rs:502-519) and [DIG] (mod.rs:526-543). *)
Definition read_decimal (lx : lexer) : outcome lexer :=
  lx1 <~ skip_while is_digit lx ;;
  b <~ read_byte lx1 ;;
  if byte_eqb b "." then read_float (bump lx1)
  else if (byte_eqb b "e" || byte_eqb b "E")%bool then read_scientific (bump lx1)
  else Done (set_token T_LiteralNumber lx1).

(** [DIG], mod.rs:525-544. *)
Definition h_DIG (lx : lexer) : outcome lexer := read_decimal (bump lx).

Definition is_binary_digit (b : byte) : bool := byte_eqb b "0" || byte_eqb b "1".
Definition is_octal_digit (b : byte) : bool := byte_in "0" "7" b.
Definition is_hex_digit (b : byte) : bool :=
  is_digit b || byte_in "a" "f" b || byte_in "A" "F" b.

(** [read_binary] mod.rs:830-843, [read_octal] 924-934, [read_hexadec] 936-948. *)
Definition read_radix (f : byte -> bool) (t : token) (lx : lexer) : outcome lexer :=
  lx1 <~ skip_while f lx ;; Done (set_token t lx1).

(** [ZER], mod.rs:479-522. *)
Definition h_ZER (lx : lexer) : outcome lexer :=
  '(b, lx1) <~ next_byte lx ;;
  if (byte_eqb b "b" || byte_eqb b "B")%bool then
    read_radix is_binary_digit T_LiteralBinary (bump lx1)
  else if (byte_eqb b "o" || byte_eqb b "O")%bool then
    read_radix is_octal_digit T_LiteralNumber (bump lx1)
  else if (byte_eqb b "x" || byte_eqb b "X")%bool then
    read_radix is_hex_digit T_LiteralNumber (bump lx1)
  else read_decimal lx1.

(** ** Accessors: [read_accessor], mod.rs:855-897, and [PRD], mod.rs:546-569 *)

Definition at_most_space (b : byte) : bool := (byte_val b <=? 32)%N.

Definition read_accessor (lx : lexer) : outcome lexer :=
  lx1 <~ skip_while at_most_space lx ;;
  let lx2 := set_acc (lx_cur lx1) lx1 in
  b <~ read_byte lx2 ;;
  if (127 <? byte_val b)%N then Panicked  (** [unimplemented!()] *)
  else if nth (byte_index b) ACCESSOR_TABLE false then
    lx3 <~ read_label lx2 ;; Done (set_token T_Accessor lx3)
  else Done (set_token T_UnexpectedToken lx2).

Definition h_PRD (lx : lexer) : outcome lexer :=
  '(b, lx1) <~ next_byte lx ;;
  if is_digit b then read_float (bump lx1)
  else if byte_eqb b "." then
    '(b2, lx2) <~ next_byte lx1 ;;
    if byte_eqb b2 "." then Done (set_token T_OperatorSpread (bump lx2))
    else Done (set_token T_UnexpectedToken lx2)
  else read_accessor lx1.

(** ** Strings: [QOT], mod.rs:571-593 *)

(** The loop of [QOT]; [true] when the closing quote was found (cursor after it). *)
Fixpoint scan_string (q : byte) (p : nat) (r : str) : outcome (bool * cursor) :=
  match r with
  | [] => ReadPastEnd
  | b :: r' =>
      if byte_eqb b q then Done (true, Cur (S p) r')
      else if byte_eqb b "\" then
        match r' with
        | [] => ReadPastEnd
        | c :: r'' =>
            if byte_eqb c x00 then Done (false, Cur (S p) r')
            else scan_string q (S (S p)) r''
        end
      else if byte_eqb b x00 then Done (false, Cur p r)
      else scan_string q (S p) r'
  end.

Definition h_QOT (lx : lexer) : outcome lexer :=
  style <~ read_byte lx ;;
  let lx1 := bump lx in
  '(closed, c) <~ scan_string style (pos (lx_cur lx1)) (rem (lx_cur lx1)) ;;
  Done (set_token (if (closed : bool) then T_LiteralString else T_UnexpectedEndOfProgram)
                  (set_cur c lx1)).

(** ** Templates: [read_template_kind], mod.rs:731-781, and [TPL], mod.rs:596-599 *)

Inductive template_end : Set := TplClosed | TplOpen | TplEof.

(** The loop; returns how it ended, the end index of the quasi, the cursor.
    Note that a NUL byte does not stop it, as in the Rust code. *)
Fixpoint scan_template (p : nat) (r : str) : outcome (template_end * nat * cursor) :=
  match r with
  | [] => ReadPastEnd
  | b :: r' =>
      if byte_eqb b "`" then Done (TplClosed, p, Cur (S p) r')
      else if byte_eqb b "$" then
        match r' with
        | [] => ReadPastEnd
        | c :: r'' =>
            if byte_eqb c "{" then Done (TplOpen, p, Cur (S (S p)) r'')
            else scan_template (S p) r'
        end
      else if byte_eqb b "\" then
        match r' with
        | [] => ReadPastEnd
        | c :: r'' =>
            if byte_eqb c x00 then Done (TplEof, p, Cur (S p) r')
            else scan_template (S (S p)) r''
        end
      else scan_template (S p) r'
  end.

Definition read_template_kind (lx : lexer) : outcome lexer :=
  let start := lx_cur lx in
  '(k, e, c) <~ scan_template (pos start) (rem start) ;;
  let lx1 := set_cur c lx in
  match k with
  | TplClosed => Done (set_token T_TemplateClosed (set_quasi (firstn (e - pos start) (rem start)) lx1))
  | TplOpen => Done (set_token T_TemplateOpen (set_quasi (firstn (e - pos start) (rem start)) lx1))
  | TplEof => Done (set_token T_UnexpectedEndOfProgram lx1)
  end.

Definition h_TPL (lx : lexer) : outcome lexer := read_template_kind (bump lx).

(** ** Non-ASCII characters: [UNI], mod.rs:458-476 *)

Definition is_continuation (b : byte) : bool := byte_in x80 xbf b.
Definition cont_bits (b : byte) : N := (byte_val b - 128)%N.

(** Decoding of the first character ([str::chars().next()]) : code point and
    number of bytes ([char::len_utf8]); [None] for bytes that no valid [str] has
    at a character boundary.  (Overlong and surrogate encodings are not
    excluded here: the source is a valid [str].) *)
Definition decode_char (r : str) : option (N * nat) :=
  match r with
  | b :: r1 =>
      if byte_in x00 x7f b then Some (byte_val b, 1)
      else if byte_in xc2 xdf b then
        match r1 with
        | c1 :: _ => if is_continuation c1
                     then Some ((byte_val b - 192) * 64 + cont_bits c1, 2%nat)%N else None
        | _ => None
        end
      else if byte_in xe0 xef b then
        match r1 with
        | c1 :: c2 :: _ =>
            if (is_continuation c1 && is_continuation c2)%bool
            then Some (((byte_val b - 224) * 64 + cont_bits c1) * 64 + cont_bits c2, 3%nat)%N else None
        | _ => None
        end
      else if byte_in xf0 xf4 b then
        match r1 with
        | c1 :: c2 :: c3 :: _ =>
            if (is_continuation c1 && is_continuation c2 && is_continuation c3)%bool
            then Some ((((byte_val b - 240) * 64 + cont_bits c1) * 64 + cont_bits c2) * 64
                       + cont_bits c3, 4%nat)%N else None
        | _ => None
        end
      else None
  | [] => None
  end.

Definition cur_advance (n : nat) (c : cursor) : cursor := Cur (n + pos c) (skipn n (rem c)).

(** [alnum] is [char::is_alphanumeric] of the Rust standard library, a
    parameter of the model.  The Rust code slices four bytes from the start of
    the character; only the bytes that are decoded are accounted as read. *)
Definition h_UNI (alnum : N -> bool) (lx : lexer) : outcome lexer :=
  match decode_char (rem (lx_cur lx)) with
  | None => Panicked  (** not a valid [str] *)
  | Some (c, len) =>
      if alnum c then
        lx1 <~ read_label (set_cur (cur_advance (len - 1) (lx_cur lx)) lx) ;;
        Done (set_token T_Identifier lx1)
      else Done (set_token T_UnexpectedToken lx)
  end.

(** ** [consume], mod.rs:656-676 *)

Definition handler_from_byte (b : byte) : option byte_handler :=
  nth (byte_index b) BYTE_HANDLERS None.

Definition run_handler (alnum : N -> bool) (consume : lexer -> outcome lexer)
    (h : byte_handler) (lx : lexer) : outcome lexer :=
  match h with
  | H_ERR => h_single T_UnexpectedToken lx
  | H_EOF => h_EOF lx
  | H_SEM => h_SEM lx
  | H_COL => h_single T_Colon lx
  | H_COM => h_single T_Comma lx
  | H_PNO => h_single T_ParenOpen lx
  | H_PNC => h_closing T_ParenClose lx
  | H_BTO => h_single T_BracketOpen lx
  | H_BTC => h_single T_BracketClose lx
  | H_BEO => h_single T_BraceOpen lx
  | H_BEC => h_closing T_BraceClose lx
  | H_EQL => h_EQL lx
  | H_EXL => h_EXL lx
  | H_LSS => h_LSS lx
  | H_MOR => h_MOR lx
  | H_QST => h_single T_OperatorConditional lx
  | H_TLD => h_single T_OperatorBitwiseNot lx
  | H_CRT => h_op_assign T_OperatorBitwiseXor T_OperatorBitXorAssign lx
  | H_PRC => h_op_assign T_OperatorRemainder T_OperatorRemainderAssign lx
  | H_AMP => h_op_double "&" T_OperatorBitwiseAnd T_OperatorLogicalAnd T_OperatorBitAndAssign lx
  | H_PIP => h_op_double "|" T_OperatorBitwiseOr T_OperatorLogicalOr T_OperatorBitOrAssign lx
  | H_PLS => h_op_double "+" T_OperatorAddition T_OperatorIncrement T_OperatorAddAssign lx
  | H_MIN => h_op_double "-" T_OperatorSubtraction T_OperatorDecrement T_OperatorSubtractAssign lx
  | H_ATR => h_ATR lx
  | H_SLH => h_SLH consume lx
  | H_UNI => h_UNI alnum lx
  | H_ZER => h_ZER lx
  | H_DIG => h_DIG lx
  | H_PRD => h_PRD lx
  | H_QOT => h_QOT lx
  | H_TPL => h_TPL lx
  | H_IDT => h_IDT lx
  | H_L_B => label_or_keyword K_B lx
  | H_L_C => label_or_keyword K_C lx
  | H_L_D => label_or_keyword K_D lx
  | H_L_E => label_or_keyword K_E lx
  | H_L_F => label_or_keyword K_F lx
  | H_L_I => label_or_keyword K_I lx
  | H_L_L => label_or_keyword K_L lx
  | H_L_N => label_or_keyword K_N lx
  | H_L_P => label_or_keyword K_P lx
  | H_L_R => label_or_keyword K_R lx
  | H_L_S => label_or_keyword K_S lx
  | H_L_T => label_or_keyword K_T lx
  | H_L_U => label_or_keyword K_U lx
  | H_L_V => label_or_keyword K_V lx
  | H_L_W => label_or_keyword K_W lx
  | H_L_Y => label_or_keyword K_Y lx
  end.

(** The loop of [consume]: skip the bytes without handler, noting line breaks. *)
Fixpoint scan_token_start (a : asi) (p : nat) (r : str) : outcome (byte_handler * asi * cursor) :=
  match r with
  | [] => ReadPastEnd
  | b :: r' =>
      match handler_from_byte b with
      | Some h => Done (h, a, Cur p r)
      | None => scan_token_start (if byte_eqb b x0a then ImplicitSemicolon else a) (S p) r'
      end
  end.

(** One activation of [consume]; [again] is the call made by a comment. *)
Definition consume_once (alnum : N -> bool) (again : lexer -> outcome lexer)
    (lx : lexer) : outcome lexer :=
  '(h, a, c) <~ scan_token_start NoSemicolon (pos (lx_cur lx)) (rem (lx_cur lx)) ;;
  run_handler alnum again h (set_tok c (set_cur c (set_asi a lx))).

(** Recursion through comments, on a budget; every comment takes bytes, so the
    length of the remaining input is enough ([LexerFacts.consume_unfold]). *)
Fixpoint consume_fuel (alnum : N -> bool) (n : nat) (lx : lexer) : outcome lexer :=
  match n with
  | 0 => OutOfFuel
  | S n' => consume_once alnum (consume_fuel alnum n') lx
  end.

Definition consume (alnum : N -> bool) (lx : lexer) : outcome lexer :=
  consume_fuel alnum (S (List.length (rem (lx_cur lx)))) lx.

(** [Arena::alloc_str_with_nul] of the toolshed crate. *)
Definition nul_terminated (src : str) : str := src ++ [x00].

(** [Lexer::from_ptr], mod.rs:638-653. *)
Definition lexer_init (buf : str) : lexer :=
  Lexer buf T_UnexpectedToken NoSemicolon (Cur 0 buf) (Cur 0 buf) (Cur 0 buf) [].

Definition lexer_new (alnum : N -> bool) (src : str) : outcome lexer :=
  consume alnum (lexer_init (nul_terminated src)).

(** ** Regular expressions: [read_regular_expression], mod.rs:983-1026 *)

Inductive regex_end : Set := RegexDone | RegexNewline | RegexEof.

(** The loop; a NUL byte does not stop it, as in the Rust code. *)
Fixpoint scan_regex (in_class : bool) (p : nat) (r : str) : outcome (regex_end * cursor) :=
  match r with
  | [] => ReadPastEnd
  | b :: r' =>
      if byte_eqb b "[" then scan_regex true (S p) r'
      else if byte_eqb b "]" then scan_regex false (S p) r'
      else if byte_eqb b "/" then
        if in_class then scan_regex in_class (S p) r' else Done (RegexDone, Cur (S p) r')
      else if byte_eqb b "\" then
        match r' with
        | [] => ReadPastEnd
        | c :: r'' =>
            if byte_eqb c x00 then Done (RegexEof, Cur (S p) r')
            else scan_regex in_class (S (S p)) r''
        end
      else if byte_eqb b x0a then Done (RegexNewline, Cur (S p) r')
      else scan_regex in_class (S p) r'
  end.

Definition is_regex_flag (b : byte) : bool :=
  byte_eqb b "g" || byte_eqb b "i" || byte_eqb b "m" || byte_eqb b "u" || byte_eqb b "y".

Definition read_regular_expression (lx : lexer) : outcome (str * lexer) :=
  let start := pos (lx_cur lx) - 1 in
  '(k, c) <~ scan_regex false (pos (lx_cur lx)) (rem (lx_cur lx)) ;;
  let lx1 := set_cur c lx in
  match k with
  | RegexEof => Done ([], set_token T_UnexpectedEndOfProgram lx1)
  | RegexNewline => Done ([], set_token T_UnexpectedToken lx1)
  | RegexDone =>
      lx2 <~ skip_while is_regex_flag lx1 ;;
      Done (firstn (pos (lx_cur lx2) - start) (skipn start (lx_buf lx2)),
            set_token T_LiteralRegEx lx2)
  end.

(** ** Errors: [Error], /repo/ratel/src/error.rs:5-11, and
    [invalid_token], mod.rs:789-804 *)

Record error : Set := Error {
  err_token : token;
  err_raw : str;
  err_start : nat;
  err_end : nat
}.

Definition invalid_token (alnum : N -> bool) (lx : lexer) : outcome (error * lexer) :=
  let e := Error (lx_token lx) (token_as_str lx) (pos (lx_tok lx)) (pos (lx_cur lx)) in
  match lx_token lx with
  | T_EndOfProgram => Done (e, lx)
  | _ => lx' <~ consume alnum lx ;; Done (e, lx')
  end.

(** [usize as u32] in [start] and [end], mod.rs:706-714. *)
Definition u32 (n : nat) : N := (N.of_nat n mod 4294967296)%N.
Definition lx_start (lx : lexer) : N := u32 (pos (lx_tok lx)).
Definition lx_end (lx : lexer) : N := u32 (pos (lx_cur lx)).
