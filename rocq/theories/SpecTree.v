(** What the nodes of a parsed tree look like: the vocabulary of the statements
    in PropTree.v.  Only the tree itself (Ast.v) and the texts of tokens
    (SpecTokens.v) are mentioned, not the parser. *)
From Coq Require Import List NArith Bool String.
From Coq.Strings Require Import Byte.
From Verif Require Import Bytes Token SpecTokens Ast.
Import ListNotations.
Open Scope nat_scope.

(** The node is an array expression, an array pattern, a template, a call. *)
Definition is_array (a : any) : Prop := exists n es, a = A_Expr n /\ n_item n = E_Array es.
Definition is_array_pattern (a : any) : Prop := exists n es, a = A_Pat n /\ n_item n = Pat_Array es.
Definition is_call_argument (e : node expression) (a : any) : Prop :=
  exists n c es, a = A_Expr n /\ n_item n = E_Call c es /\ In e es.
(** The template literal of a node, if it is one. *)
Definition template_of (a : any) : option template :=
  match a with
  | A_Tpl n => Some (n_item n)
  | A_Expr n => match n_item n with E_Template t => Some t | _ => None end
  | _ => None
  end.

(** C08: what error recovery puts in the place of missing parts. *)
Definition placeholder_free (a : any) : Prop :=
  (forall m, a = A_Member m -> n_item m <> CM_Error) /\
  (forall p, a = A_Prop p -> n_item p <> P_Shorthand []) /\
  (forall i, In (A_Ident i) (children a) -> template_of a = None -> n_item i <> []) /\
  (forall e, In (A_Expr e) (children a) -> n_item e = E_Void -> is_array a) /\
  (forall p, In (A_Pat p) (children a) -> n_item p = Pat_Void -> is_array_pattern a).

(** C09 *)
Definition template_complete (a : any) : Prop :=
  forall es qs, template_of a = Some (Template es qs) -> List.length qs = S (List.length es).

(** C10 *)
Definition assignment_operators : list operator :=
  [O_Assign; O_AddAssign; O_SubtractAssign; O_ExponentAssign; O_MultiplyAssign; O_DivideAssign;
   O_RemainderAssign; O_BSLAssign; O_BSRAssign; O_UBSRAssign; O_BitAndAssign; O_BitXorAssign; O_BitOrAssign].
Definition target (e : expression) : Prop :=
  match e with
  | E_Identifier _ | E_Member _ _ | E_ComputedMember _ _ | E_Object _ | E_Array _ => True
  | _ => False
  end.
Definition targets_valid (a : any) : Prop :=
  forall n, a = A_Expr n ->
    (forall op l r, n_item n = E_Binary op l r -> In op assignment_operators -> target (n_item l)) /\
    (forall op x, n_item n = E_Postfix op x -> target (n_item x)).

(** C11 *)
Definition binary_operators : list operator :=
  [O_Multiplication; O_Division; O_Remainder; O_Exponent; O_Addition; O_Subtraction;
   O_BitShiftLeft; O_BitShiftRight; O_UBitShiftRight; O_Lesser; O_LesserEquals; O_Greater; O_GreaterEquals;
   O_Instanceof; O_In; O_StrictEquality; O_StrictInequality; O_Equality; O_Inequality;
   O_BitwiseAnd; O_BitwiseXor; O_BitwiseOr; O_LogicalAnd; O_LogicalOr] ++ assignment_operators.
Definition prefix_operators : list operator :=
  [O_New; O_Increment; O_Decrement; O_LogicalNot; O_BitwiseNot; O_Typeof; O_Void; O_Delete; O_Addition; O_Subtraction].
Definition postfix_operators : list operator := [O_Increment; O_Decrement].

(** A rest parameter can only come last. *)
Definition rest_last (ps : list (node pattern)) : Prop :=
  forall before p after x, ps = before ++ p :: after -> n_item p = Pat_Rest x -> after = [].
(** Names of functions and classes: declarations have one, expressions may have
    one, methods have none. *)
Definition named (n : fname) : Prop := exists i, n = Name_Mandatory i /\ identifier_text (n_item i).
Definition maybe_named (n : fname) : Prop :=
  n = Name_Optional None \/ exists i, n = Name_Optional (Some i) /\ identifier_text (n_item i).

Definition expression_wf (e : expression) : Prop :=
  match e with
  | E_Identifier s => identifier_text s \/ s = bs "import"
  | E_Literal (L_String s) => quoted s
  | E_Literal (L_Number s) => number_text s T_LiteralNumber
  | E_Literal (L_Binary s) => number_text s T_LiteralBinary
  | E_Literal (L_RegEx s) => regex_text s
  | E_Sequence es => 2 <= List.length es
  | E_Member _ p => word_text (n_item p)
  | E_MetaProperty m p => n_item m = bs "new" /\ n_item p = bs "target"
  | E_Binary op _ _ => In op binary_operators
  | E_Prefix op _ => In op prefix_operators
  | E_Postfix op _ => In op postfix_operators
  | E_Arrow ps _ => rest_last ps
  | E_Function (Func n _ ps _) => maybe_named n /\ rest_last ps
  | E_Class (Class n _ _) => maybe_named n
  | _ => True
  end.
Definition statement_wf (s : statement) : Prop :=
  match s with
  | St_Declaration _ ds => ds <> []
  | St_Break (Some l) | St_Continue (Some l) => identifier_text (n_item l)
  | St_Try _ h f => h <> None \/ f <> None
  | St_Labeled l _ => identifier_text l
  | St_Function (Func n _ ps _) => named n /\ rest_last ps
  | St_Class (Class n _ _) => named n
  | _ => True
  end.
Definition well_formed (a : any) : Prop :=
  match a with
  | A_Expr n => expression_wf (n_item n)
  | A_Stmt n => statement_wf (n_item n)
  | A_Prop n => match n_item n with P_Shorthand s => word_text s | _ => True end
  | A_Key n =>
      match n_item n with
      | Key_Computed _ => True
      | Key_Literal s => word_text s \/ quoted s \/ number_text s T_LiteralNumber
      | Key_Binary s => number_text s T_LiteralBinary
      end
  | A_Pat n =>
      match n_item n with
      | Pat_Identifier s => identifier_text s \/ s = bs "import"
      | Pat_Rest i => identifier_text (n_item i)
      | _ => True
      end
  | A_Func n => match n_item n with Func nm _ ps _ => nm = Name_Empty /\ rest_last ps end
  | A_Member n => match n_item n with CM_Method true _ k _ => k <> MK_Constructor | _ => True end
  | A_ForInit n => match n_item n with FI_Declaration _ ds => ds <> [] | _ => True end
  | A_Spec n =>
      match n_item n with
      | IS_Named i l => identifier_text (n_item i) /\ identifier_text (n_item l)
      | IS_Default l | IS_Namespace l => identifier_text (n_item l)
      end
  | _ => True
  end /\
  (* spread only in array literals and call arguments *)
  (forall e x, In (A_Expr e) (children a) -> n_item e = E_Spread x -> is_array a \/ is_call_argument e a).
