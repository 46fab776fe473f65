(** How errors are shown, /repo/ratel/src/error.rs, and the string API of
    /repo/ratel-wasm/src/lib.rs and /repo/ffi/native/src/lib.rs. *)
From Coq Require Decimal.
From Coq Require Import List NArith Bool String.
From Coq.Strings Require Import Byte.
From Verif Require Import Bytes Token Lexer Ast Parser Codegen Astgen.
Import ListNotations.
Open Scope nat_scope.

(** [str::lines]: the pieces between line feeds, without a final empty piece,
    each with one trailing carriage return removed. *)
Fixpoint split_lines (cur : str) (s : str) : list str :=
  match s with
  | [] => match cur with [] => [] | _ => [cur] end
  | b :: s' => if byte_eqb b x0a then cur :: split_lines [] s' else split_lines (cur ++ [b]) s'
  end.
Definition strip_cr (l : str) : str :=
  match rev l with
  | b :: l' => if byte_eqb b x0d then rev l' else l
  | [] => []
  end.
Definition lines (s : str) : list str := map strip_cr (split_lines [] s).

(** [chars().count()]: the bytes that start a UTF-8 character. *)
Definition is_continuation (b : byte) : bool := byte_in x80 xbf b.
Definition char_count (s : str) : nat := List.length (filter (fun b => negb (is_continuation b)) s).

(** [str::is_char_boundary]. *)
Definition is_char_boundary (s : str) (i : nat) : bool :=
  match Nat.compare i (List.length s) with
  | Lt => match nth_error s i with
          | Some b => (Nat.eqb i 0 || negb (is_continuation b))%bool
          | None => false
          end
  | Eq => true
  | Gt => false
  end.

(** [&source[a..b]]: panics unless [a <= b] and both are boundaries. *)
Definition str_slice (s : str) (a b : nat) : outcome str :=
  if (Nat.leb a b && is_char_boundary s a && is_char_boundary s b)%bool
  then Done (firstn (b - a) (skipn a s)) else Panicked.

(** Decimal formatting of a [usize], right-aligned to a width. *)
Fixpoint uint_str (d : Decimal.uint) : str :=
  match d with
  | Decimal.Nil => []
  | Decimal.D0 d => x30 :: uint_str d | Decimal.D1 d => x31 :: uint_str d | Decimal.D2 d => x32 :: uint_str d
  | Decimal.D3 d => x33 :: uint_str d | Decimal.D4 d => x34 :: uint_str d | Decimal.D5 d => x35 :: uint_str d
  | Decimal.D6 d => x36 :: uint_str d | Decimal.D7 d => x37 :: uint_str d | Decimal.D8 d => x38 :: uint_str d
  | Decimal.D9 d => x39 :: uint_str d
  end.
Definition dec (n : nat) : str := uint_str (Nat.to_uint n).
Definition pad (width : nat) (s : str) : str := repeat x20 (width - List.length s) ++ s.

(** [log10], error.rs:102-111. *)
Fixpoint log10_fuel (fuel num : nat) : nat :=
  match fuel with
  | 0 => 0
  | S f => if Nat.ltb 0 num then S (log10_fuel f (Nat.div num 10)) else 0
  end.
Definition log10 (num : nat) : nat := log10_fuel num num.

(** The line and column computed in [Display for ParseError], error.rs:47-59:
    [lineno] counts from 0 and [colno] is the length of the last of the lines of
    [source[..start]]. *)
Definition locate (source : str) (start : nat) : nat * nat :=
  let ls := lines (firstn start source) in
  match ls with
  | [] => (0, 0)
  | _ => (List.length ls - 1, char_count (last ls []))
  end.

Fixpoint enumerate {A} (i : nat) (l : list A) : list (nat * A) :=
  match l with [] => [] | a :: l' => (i, a) :: enumerate (S i) l' end.

(** [Display for ParseError], error.rs:39-100, case [UnexpectedToken]. *)
Definition display_error (source : str) (start stop : nat) : outcome str :=
  _ <~ str_slice source 0 start ;;
  tok <~ str_slice source start stop ;;
  let '(lineno, colno) := locate source start in
  let width := log10 (lineno + 3) in
  let shown := filter (fun p => (Nat.leb (lineno - 2) (fst p) && Nat.ltb (fst p) (lineno + 3))%bool)
                      (enumerate 0 (lines source)) in
  let show (p : nat * str) : str :=
    let '(index, line) := p in
    if Nat.eqb index lineno then
      bs "> " ++ pad width (dec (index + 1)) ++ bs " | " ++ line ++ [x0a]
      ++ repeat x20 width ++ bs "   | " ++ repeat x20 colno ++ repeat x5e (char_count tok) ++ [x0a]
    else pad (width + 2) (dec (index + 1)) ++ bs " | " ++ line ++ [x0a] in
  Done (bs "Unexpected token at " ++ dec (lineno + 1) ++ bs ":" ++ dec (colno + 1) ++ [x0a; x0a]
        ++ flat_map show shown).

(** [format_errors], ratel-wasm/src/lib.rs:10-25. *)
Fixpoint display_all (errors : list error) (source : str) : outcome (list str) :=
  match errors with
  | [] => Done []
  | e :: es =>
      d <~ display_error source (err_start e) (err_end e) ;;
      ds <~ display_all es source ;;
      Done (d :: ds)
  end.
Fixpoint join (sep : str) (l : list str) : str :=
  match l with
  | [] => []
  | [s] => s
  | s :: l' => s ++ sep ++ join sep l'
  end.
Definition format_errors (errors : list error) (source : str) : outcome str :=
  ds <~ display_all errors source ;; Done (bs "Error: " ++ join [x0a] ds).

(** [transform], ratel-wasm/src/lib.rs:27-35, with the call depth of the parser
    bounded by [n]. *)
Definition wasm_transform (alnum : N -> bool) (n : nat) (data : str) (minify : bool) : outcome str :=
  r <~ parse_fuel alnum n data ;;
  match r with
  | ParseOk m => codegen m minify
  | ParseErr errors => format_errors errors data
  end.

(** [generateASTEstree], ratel-wasm/src/lib.rs:51-62: the JSON value, before it
    is written as text. *)
Inductive estree_result : Set := EstreeValue (j : json) | EstreeError (s : str).
Definition wasm_estree (alnum : N -> bool) (n : nat) (data : str) : outcome estree_result :=
  r <~ parse_fuel alnum n data ;;
  match r with
  | ParseOk m => j <~ a_module m ;; Done (EstreeValue j)
  | ParseErr errors => s <~ format_errors errors data ;; Done (EstreeError s)
  end.

(** The node bindings, ffi/native/src/lib.rs:12-92: a JavaScript value or a
    thrown [TypeError]. *)
Inductive js_result (A : Set) : Set := JsValue (a : A) | JsTypeError (message : str).
Arguments JsValue {A} a.
Arguments JsTypeError {A} message.
Definition ffi_format_errors (errors : list error) (source : str) : outcome str :=
  ds <~ display_all errors source ;; Done (join [x0a] ds).
Definition ffi_transform (alnum : N -> bool) (n : nat) (source : str) (minify : bool)
    : outcome (js_result str) :=
  r <~ parse_fuel alnum n source ;;
  match r with
  | ParseOk m => s <~ codegen m minify ;; Done (JsValue s)
  | ParseErr errors => s <~ ffi_format_errors errors source ;; Done (JsTypeError s)
  end.
Definition ffi_ast (alnum : N -> bool) (n : nat) (source : str) : outcome (js_result json) :=
  r <~ parse_fuel alnum n source ;;
  match r with
  | ParseOk m => j <~ a_module m ;; Done (JsValue j)
  | ParseErr errors => s <~ ffi_format_errors errors source ;; Done (JsTypeError s)
  end.
