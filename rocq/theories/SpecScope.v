(** What the scope analysis is to find: the vocabulary of PropScope.v.  Only the
    tree (Ast.v) and the type of scopes (Visitor.v) are mentioned, neither the
    traversal nor the analysis. *)
From Coq Require Import List NArith Bool String.
From Verif Require Import Bytes Token Ast Visitor.
Import ListNotations.
Open Scope nat_scope.

(** What a node contributes to the scope it stands in, in source order: a part
    that stands in the same scope, a part that has a scope of its own, a name
    that is declared, a name that is used, the word [this]. *)
Inductive piece : Set :=
| Here (a : any)
| Inner (k : scope_kind) (l : list any)
| Declares (x : str)
| Uses (x : str)
| This.

Definition pieces_name (n : fname) : list piece :=
  match n with Name_Mandatory x => [Declares (n_item x)] | _ => [] end.
Definition pieces_func (f : func) : list piece :=
  match f with Func n _ ps b => pieces_name n ++ [Inner SK_Function (map A_Pat ps ++ [A_Body b])] end.
Definition pieces_class (c : class) : list piece :=
  match c with Class n e b => pieces_name n ++ map Here (opt A_Expr e ++ [A_ClassBody b]) end.
Definition pieces (a : any) : list piece :=
  match a with
  | A_Expr n =>
      match n_item n with
      | E_This => [This]
      | E_Identifier s => [Uses s]
      | E_MetaProperty m p => [Uses (n_item m); Uses (n_item p)]
      | E_Function f => pieces_func f
      | E_Class c => pieces_class c
      | _ => map Here (children a)
      end
  | A_Func n => pieces_func (n_item n)
  | A_Prop n => match n_item n with P_Shorthand s => [Uses s] | _ => map Here (children a) end
  | A_Pat n =>
      match n_item n with
      | Pat_Identifier s => [Declares s]
      | Pat_Rest s => [Uses (n_item s)]
      | _ => map Here (children a)
      end
  | A_Stmt n =>
      match n_item n with
      | St_Function f => pieces_func f
      | St_Class c => pieces_class c
      | St_Block b => [Inner SK_Block (map A_Stmt (b_body b))]
      | St_Try b h f =>
          [Inner SK_Block [A_Body b]] ++ opt (fun h => Here (A_Catch h)) h
          ++ opt (fun b => Inner SK_Block [A_Body b]) f
      | St_Switch d c => [Here (A_Expr d); Inner SK_Block [A_Cases c]]
      | St_Import ss src => Uses src :: map Here (map A_Spec ss)
      | _ => map Here (children a)
      end
  | A_Catch n =>
      match n_item n with CatchClause p b => [Here (A_Pat p); Inner SK_Block [A_Body b]] end
  | A_Spec n =>
      match n_item n with
      | IS_Named i l => [Uses (n_item l); Uses (n_item i)]
      | IS_Default l | IS_Namespace l => [Uses (n_item l)]
      end
  | _ => map Here (children a)
  end.

(** [reads ps t u d cs]: in a scope made of [ps] the word [this] occurs iff
    [t = true], [u] and [d] are the names used and declared, and [cs] the
    scopes inside, all in source order. *)
Inductive reads : list piece -> bool -> list str -> list str -> list scope -> Prop :=
| reads_nil : reads [] false [] [] []
| reads_here a ps t u d c t' u' d' c' :
    reads (pieces a) t u d c -> reads ps t' u' d' c' ->
    reads (Here a :: ps) (t || t') (u ++ u') (d ++ d') (c ++ c')
| reads_inner k l ps t u d c t' u' d' c' :
    reads (map Here l) t u d c -> reads ps t' u' d' c' ->
    reads (Inner k l :: ps) t' u' d' (Scope k t u d c :: c')
| reads_declares x ps t u d c : reads ps t u d c -> reads (Declares x :: ps) t u (x :: d) c
| reads_uses x ps t u d c : reads ps t u d c -> reads (Uses x :: ps) t (x :: u) d c
| reads_this ps t u d c : reads ps t u d c -> reads (This :: ps) true u d c.

(** The pieces of a scope at any depth, without going into the scopes inside it. *)
Inductive directly : piece -> list piece -> Prop :=
| directly_here p ps : In p ps -> directly p ps
| directly_below p a ps : In (Here a) ps -> directly p (pieces a) -> directly p ps.
(** The regions that have scopes of their own: the module and, in a region,
    the parts with a scope of their own. *)
Inductive region (m : module) : scope_kind -> list any -> Prop :=
| region_module : region m SK_Function (map A_Stmt m)
| region_inner k l k' l' : region m k l -> directly (Inner k' l') (map Here l) -> region m k' l'.

(** The calls [on_statement_list] of a traversal. *)
Definition reported_lists (v : visit) : list (list (node statement)) :=
  flat_map (fun c => match c with V_statement_list l => [l] | _ => [] end) v.
(** The lists of statements of a node: the body of a function or of an arrow
    function, a block (also those of [try], [catch] and [finally]), a case of a
    switch.  The list of the module itself is none of them. *)
Definition lists_of (a : any) : list (list (node statement)) :=
  match a with
  | A_Body n => [b_body (n_item n)]
  | A_Stmt n => match n_item n with St_Block b => [b_body b] | _ => [] end
  | A_Case n => match n_item n with SwitchCase _ b => [b] end
  | _ => []
  end.
