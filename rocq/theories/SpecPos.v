(** Vocabulary for source positions of nodes. *)
From Coq Require Import List NArith String.
From Coq.Strings Require Import Byte.
From Verif Require Import Bytes Token SpecLexer SpecTokens SpecChunks Ast SpecRead SpecTree.
Import ListNotations.
Open Scope list_scope.
Open Scope N_scope.

(** The first byte of a node, and the byte after its last one. *)
Definition start_of (a : any) : N := fst (any_span a).
Definition end_of (a : any) : N := snd (any_span a).

(** The node is a (possibly empty) part of the source text. *)
Definition located (src : str) (a : any) : Prop :=
  start_of a <= end_of a /\ end_of a <= N.of_nat (List.length src).

(** [c] is the function called by the call expression [a]. *)
Definition callee_of (c a : any) : Prop :=
  exists n f args, a = A_Expr n /\ n_item n = E_Call f args /\ c = A_Expr f.
(** The span of [c] lies inside that of [a]. *)
Definition inside (c a : any) : Prop := start_of a <= start_of c /\ end_of c <= end_of a.

(** Positions in ascending order. *)
Fixpoint ascending (l : list N) : Prop :=
  match l with [] => True | x :: l' => Forall (fun y => x <= y) l' /\ ascending l' end.

(** ** Source text of nodes *)

(** The source text a node spans. *)
Definition source_of (src : str) (a : any) : str :=
  substring src (N.to_nat (start_of a)) (N.to_nat (end_of a)).
(** The text that a leaf of the tree stands for. *)
Definition spelled (a : any) : option str :=
  match a with
  | A_Expr n =>
      match n_item n with
      | E_Identifier s => Some s
      | E_Literal (L_String s) | E_Literal (L_Number s) | E_Literal (L_Binary s) | E_Literal (L_RegEx s) => Some s
      | _ => None
      end
  | A_Pat n => match n_item n with Pat_Identifier s => Some s | _ => None end
  | A_Prop n => match n_item n with P_Shorthand s => Some s | _ => None end
  | _ => None
  end.
(** Nodes that own names without their own place in the source: [o.name], [new.target], templates. *)
Definition names_elsewhere (a : any) : Prop :=
  (exists n, a = A_Expr n /\ ((exists o p, n_item n = E_Member o p) \/ (exists o p, n_item n = E_MetaProperty o p)))
  \/ template_of a <> None.

(** The chunks of a template: the first one begins with [opening], the others with a closing
    brace; all but the last one, which ends with a backquote, end with [${]. *)
Definition chunk_of (src : str) (t : token) (opening : str) (q : node str) : Prop :=
  chunk t opening (n_item q) (source_of src (A_Ident q)).
Inductive chunks (src : str) : str -> list (node str) -> Prop :=
| ch_last opening q : chunk_of src T_TemplateClosed opening q -> chunks src opening [q]
| ch_more opening q qs : chunk_of src T_TemplateOpen opening q -> chunks src (bs "}") qs -> chunks src opening (q :: qs).
(** Before position [p] the source has a period and [name], and then only white space and comments. *)
Definition after_accessor (src : str) (name : str) (p : N) : Prop :=
  exists a b, (a <= b <= N.to_nat p)%nat /\ accessor name (substring src a b) /\
    gap (substring src b (N.to_nat p)) (skipn (N.to_nat p) (src ++ [x00])).
