(** Vocabulary: JSON texts (RFC 8259) and the values they denote. *)
From Coq Require Import List NArith Bool String.
From Coq.Strings Require Import Byte.
From Verif Require Import Bytes Astgen.
Import ListNotations.
Open Scope list_scope.

(** White space, section 2. *)
Definition white (s : str) : Prop := Forall (fun b => In b [x20; x09; x0a; x0d]) s.

(** Numbers, section 6; the numbers of ESTree values are not negative. *)
Definition digits (s : str) : Prop := s <> [] /\ forallb is_digit s = true.
Definition digits_value (s : str) : N := fold_left (fun v b => (10 * v + (byte_val b - 48))%N) s 0%N.
(** No leading zeros. *)
Definition int_text (s : str) : Prop := digits s /\ (hd_error s = Some x30 -> s = [x30]).
Inductive frac_text : str -> Prop :=
| frac_none : frac_text []
| frac_some ds : digits ds -> frac_text ("."%byte :: ds).
Inductive exp_text : str -> Prop :=
| exp_none : exp_text []
| exp_some e sign ds : In e ["e"; "E"]%byte -> In sign [[]; ["+"]; ["-"]]%byte -> digits ds -> exp_text (e :: sign ++ ds).
(** A number with a fraction or an exponent. *)
Definition float_number (s : str) : Prop := exists i f e, s = i ++ f ++ e /\ int_text i /\ frac_text f /\ exp_text e /\ f ++ e <> [].
(** What is printed for a float is such a number, or [null] (for infinity). *)
Definition float_printer (float_text : str -> str) : Prop := forall t, float_text t = bs "null" \/ float_number (float_text t).

(** Strings, section 7: the text of one byte of the value ([\u] only of ASCII characters). *)
Definition hex_value (b : byte) : option N :=
  if byte_in "0" "9" b then Some (byte_val b - 48)%N
  else if byte_in "a" "f" b then Some (byte_val b - 87)%N
  else if byte_in "A" "F" b then Some (byte_val b - 55)%N else None.
Inductive char_text : byte -> str -> Prop :=
| ct_plain b : (32 <= byte_val b)%N -> b <> x22 -> b <> x5c -> char_text b [b]
| ct_short b e : In (b, e) [(x22, x22); (x5c, x5c); ("/", "/"); (x08, "b"); (x0c, "f"); (x0a, "n"); (x0d, "r"); (x09, "t")]%byte -> char_text b [x5c; e]
| ct_code b h1 h2 n1 n2 : hex_value h1 = Some n1 -> hex_value h2 = Some n2 -> (byte_val b = 16 * n1 + n2)%N -> (byte_val b < 128)%N ->
    char_text b [x5c; "u"; "0"; "0"; h1; h2]%byte.
Inductive chars_text : str -> str -> Prop :=
| cs_nil : chars_text [] []
| cs_cons b t s ts : char_text b t -> chars_text s ts -> chars_text (b :: s) (t ++ ts).
Definition string_text (s t : str) : Prop := exists ts, chars_text s ts /\ t = [x22] ++ ts ++ [x22].

Section Floats.
  Variable float_text : str -> str.
  (** Values, sections 3 to 5. *)
  Inductive denotes : str -> json -> Prop :=
  | d_null : denotes (bs "null") J_Null
  | d_true : denotes (bs "true") (J_Bool true)
  | d_false : denotes (bs "false") (J_Bool false)
  | d_int s : int_text s -> denotes s (J_Int (digits_value s))
  | d_float t : denotes (float_text t) (J_Float t)
  | d_string s t : string_text s t -> denotes t (J_Str s)
  | d_array l t : elements t l -> denotes (bs "[" ++ t ++ bs "]") (J_Arr l)
  | d_object fs t : members t fs -> denotes (bs "{" ++ t ++ bs "}") (J_Obj fs)
  with elements : str -> list json -> Prop :=
  | el_none w : white w -> elements w []
  | el_some w1 t w2 j rest l : white w1 -> denotes t j -> white w2 -> more_elements rest l -> elements (w1 ++ t ++ w2 ++ rest) (j :: l)
  with more_elements : str -> list json -> Prop :=
  | me_none : more_elements [] []
  | me_some w1 t w2 j rest l : white w1 -> denotes t j -> white w2 -> more_elements rest l -> more_elements (bs "," ++ w1 ++ t ++ w2 ++ rest) (j :: l)
  with members : str -> list (str * json) -> Prop :=
  | mb_none w : white w -> members w []
  | mb_some w1 k kt w2 w3 t w4 j rest l : white w1 -> string_text k kt -> white w2 -> white w3 -> denotes t j -> white w4 -> more_members rest l ->
      members (w1 ++ kt ++ w2 ++ bs ":" ++ w3 ++ t ++ w4 ++ rest) ((k, j) :: l)
  with more_members : str -> list (str * json) -> Prop :=
  | mm_none : more_members [] []
  | mm_some w1 k kt w2 w3 t w4 j rest l : white w1 -> string_text k kt -> white w2 -> white w3 -> denotes t j -> white w4 -> more_members rest l ->
      more_members (bs "," ++ w1 ++ kt ++ w2 ++ bs ":" ++ w3 ++ t ++ w4 ++ rest) ((k, j) :: l).
End Floats.

(** A JSON text: a value with white space around it, section 2. *)
Definition json_document (float_text : str -> str) (s : str) (j : json) : Prop :=
  exists w1 t w2, s = w1 ++ t ++ w2 /\ white w1 /\ white w2 /\ denotes float_text t j.

(** A reader sees of a float only what is printed. *)
Fixpoint printed (float_text : str -> str) (j : json) : json :=
  match j with
  | J_Float t => if str_eqb (float_text t) (bs "null") then J_Null else J_Float (float_text t)
  | J_Arr l => J_Arr (map (printed float_text) l)
  | J_Obj fs => J_Obj (map (fun f => (fst f, printed float_text (snd f))) fs)
  | _ => j
  end.
