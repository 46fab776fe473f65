(** Vocabulary: template chunks and accessors. *)
From Coq Require Import List NArith String.
From Coq.Strings Require Import Byte.
From Verif Require Import Bytes Token SpecTokens.
Import ListNotations.
Open Scope list_scope.

(** The inside of a template chunk: escapes (a backslash and any byte but NUL), and other bytes,
    without a backquote and without a dollar sign before an opening brace. *)
Inductive template_inside : str -> Prop :=
| ti_nil : template_inside []
| ti_escape c s : c <> x00 -> template_inside s -> template_inside ("\"%byte :: c :: s)
| ti_dollar s : (forall r, s <> "{"%byte :: r) -> template_inside s -> template_inside ("$"%byte :: s)
| ti_plain b s : b <> "`"%byte -> b <> "$"%byte -> b <> "\"%byte -> template_inside s -> template_inside (b :: s).

(** [s] is [opening], the chunk [q] and the delimiter that token [t] ends with. *)
Definition chunk (t : token) (opening q s : str) : Prop :=
  template_inside q /\
  match t with
  | T_TemplateOpen => s = opening ++ q ++ bs "${"
  | T_TemplateClosed => s = opening ++ q ++ bs "`"
  | _ => False
  end.
(** [s] is a period, white space (control characters and spaces) and the property name [name]. *)
Definition accessor (name s : str) : Prop :=
  word_text name /\ exists ws, s = "."%byte :: ws ++ name /\ Forall (fun b => (byte_val b <= 32)%N) ws.

(** The body of a regular expression literal, outside ([false]) or inside ([true]) a class: slashes
    only inside classes or escaped, escapes of any byte but NUL, no line feed. *)
Inductive regex_inside : bool -> str -> Prop :=
| ri_nil : regex_inside false []
| ri_open k s : regex_inside true s -> regex_inside k ("["%byte :: s)
| ri_close k s : regex_inside false s -> regex_inside k ("]"%byte :: s)
| ri_slash s : regex_inside true s -> regex_inside true ("/"%byte :: s)
| ri_escape k c s : c <> x00 -> regex_inside k s -> regex_inside k ("\"%byte :: c :: s)
| ri_plain k b s : ~ In b ["["; "]"; "/"; "\"; x0a]%byte -> regex_inside k s -> regex_inside k (b :: s).
