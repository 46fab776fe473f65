(** JSON values as text: [serde_json::to_string] and [to_string_pretty], which
    the wasm function [generateASTEstree] and the node function [ast] return.

    The source of the serde_json crate is not in /repo (ratel-wasm/Cargo.toml:10,
    ffi/native/Cargo.toml:22 ask for version 1.0); its two formatters, whose
    output is fixed by its documentation and tests, are modelled here.  Numbers
    that are floats are printed by an algorithm (shortest decimal that reads back)
    that is a parameter here, as is the [f64] itself ([J_Float]). *)
From Coq Require Import List NArith Bool String.
From Coq.Strings Require Import Byte.
From Verif Require Import Bytes Token Lexer Ast Parser Codegen Astgen ErrorFmt.
Import ListNotations.
Open Scope nat_scope.
Open Scope list_scope.

Section Text.
  (** [serialize_f64] of the number that the text of a literal is read as: its
      decimal form, or [null] for infinity. *)
  Variable float_text : str -> str.

  (** serde_json::ser, [ESCAPE] and [format_escaped_str_contents]. *)
  Definition hex_digit (n : N) : byte := nth (N.to_nat n) (bs "0123456789abcdef") x30.
  Definition json_escape (b : byte) : str :=
    match b with
    | x22 => bs "\""" | x5c => bs "\\" | x08 => bs "\b" | x09 => bs "\t" | x0a => bs "\n" | x0c => bs "\f" | x0d => bs "\r"
    | _ => if (byte_val b <? 32)%N then bs "\u00" ++ [hex_digit (byte_val b / 16); hex_digit (byte_val b mod 16)] else [b]
    end.
  Definition json_string (s : str) : str := [x22] ++ flat_map json_escape s ++ [x22].

  (** [CompactFormatter]. *)
  Fixpoint compact (j : json) : str :=
    match j with
    | J_Null => bs "null"
    | J_Bool b => if b then bs "true" else bs "false"
    | J_Int n => uint_str (N.to_uint n)
    | J_Float t => float_text t
    | J_Str s => json_string s
    | J_Arr l => bs "[" ++ join (bs ",") (map compact l) ++ bs "]"
    | J_Obj fs => bs "{" ++ join (bs ",") (map (fun f => json_string (fst f) ++ bs ":" ++ compact (snd f)) fs) ++ bs "}"
    end.

  (** [PrettyFormatter], two spaces per level. *)
  Definition new_line_at (d : nat) : str := x0a :: repeat x20 (2 * d).
  Fixpoint pretty (d : nat) (j : json) : str :=
    match j with
    | J_Arr [] => bs "[]"
    | J_Obj [] => bs "{}"
    | J_Arr l => bs "[" ++ new_line_at (S d) ++ join (bs "," ++ new_line_at (S d)) (map (pretty (S d)) l) ++ new_line_at d ++ bs "]"
    | J_Obj fs =>
        bs "{" ++ new_line_at (S d)
        ++ join (bs "," ++ new_line_at (S d)) (map (fun f => json_string (fst f) ++ bs ": " ++ pretty (S d) (snd f)) fs)
        ++ new_line_at d ++ bs "}"
    | J_Null => bs "null"
    | J_Bool b => if b then bs "true" else bs "false"
    | J_Int n => uint_str (N.to_uint n)
    | J_Float t => float_text t
    | J_Str s => json_string s
    end.
  Definition json_text (minify : bool) (j : json) : str := if minify then compact j else pretty 0 j.

  (** [generateASTEstree], ratel-wasm/src/lib.rs:51-62. *)
  Definition wasm_estree_text (alnum : N -> bool) (n : nat) (data : str) (minify : bool) : outcome str :=
    r <~ parse_fuel alnum n data ;;
    match r with
    | ParseOk m => j <~ a_module m ;; Done (json_text minify j)
    | ParseErr errors => format_errors errors data
    end.
  (** [ast], ffi/native/src/lib.rs:26-51. *)
  Definition ffi_ast_text (alnum : N -> bool) (n : nat) (source : str) (minify : bool) : outcome (js_result str) :=
    r <~ parse_fuel alnum n source ;;
    match r with
    | ParseOk m => j <~ a_module m ;; Done (JsValue (json_text minify j))
    | ParseErr errors => s <~ ffi_format_errors errors source ;; Done (JsTypeError s)
    end.
End Text.
