(** Specification vocabulary for C77: names replaced by names, in lexemes and in trees. *)
From Coq Require Import List NArith Bool String.
From Coq.Strings Require Import Byte.
From Verif Require Import Bytes Token Ast SpecSyntax.
Import ListNotations.
Open Scope list_scope.

(** The words that the parser knows although they are names, and the constructors of classes. *)
Definition known_words : list str := [bs "of"; bs "as"; bs "from"; bs "get"; bs "set"; bs "constructor"; bs "target"].

Section Rename.
  (** What becomes of a name. *)
  Variable r : str -> str.

  (** Names are identifiers and the names of properties after a dot. *)
  Definition is_name (t : token) : bool := match t with T_Identifier | T_Accessor => true | _ => false end.
  Definition rename_word (t : token) (w : word) : word := if is_name t then Word (r (w_text w)) (w_break w) else w.
  Definition rename_lexeme (x : lexeme) : lexeme := (fst x, rename_word (fst x) (snd x)).

  (** A renaming for the lexemes [ls]: it leaves the known words alone, and makes no others, and it changes no text that one of [ls] has that is not a name. *)
  Definition renaming (ls : list lexeme) : Prop :=
    (forall k s, In k known_words -> (r s = k <-> s = k)) /\
    (forall t w, In (t, w) ls -> is_name t = false -> r (w_text w) = w_text w).

  (** The same tree with other names. *)
  Definition rename_node {A : Set} (f : A -> A) (n : node A) : node A := Node (n_start n) (n_end n) (f (n_item n)).
  Definition rename_id (n : node str) : node str := rename_node r n.
  Definition rename_name (n : fname) : fname :=
    match n with
    | Name_Empty => Name_Empty
    | Name_Optional o => Name_Optional (option_map rename_id o)
    | Name_Mandatory n => Name_Mandatory (rename_id n)
    end.
  Definition rename_block {A : Set} (f : A -> A) (b : block A) : block A :=
    Block (map (rename_node f) (b_body b)).
  Definition rename_specifier (i : import_specifier) : import_specifier :=
    match i with
    | IS_Named i l => IS_Named (rename_id i) (rename_id l)
    | IS_Default l => IS_Default (rename_id l)
    | IS_Namespace l => IS_Namespace (rename_id l)
    end.

  Fixpoint rename_expression (e : expression) : expression :=
    match e with
    | E_Void => E_Void
    | E_This => E_This
    | E_Identifier s => E_Identifier (r s)
    | E_Literal l => E_Literal l
    | E_Sequence b => E_Sequence (map (rename_node rename_expression) b)
    | E_Array b => E_Array (map (rename_node rename_expression) b)
    | E_Member o p => E_Member (rename_node rename_expression o) (rename_id p)
    | E_ComputedMember o p =>
        E_ComputedMember (rename_node rename_expression o) (rename_node rename_expression p)
    | E_MetaProperty m p => E_MetaProperty m p
    | E_Call c args => E_Call (rename_node rename_expression c) (map (rename_node rename_expression) args)
    | E_Binary op l r => E_Binary op (rename_node rename_expression l) (rename_node rename_expression r)
    | E_Prefix op x => E_Prefix op (rename_node rename_expression x)
    | E_Postfix op x => E_Postfix op (rename_node rename_expression x)
    | E_Conditional t c a =>
        E_Conditional (rename_node rename_expression t) (rename_node rename_expression c)
                      (rename_node rename_expression a)
    | E_Template t => E_Template (rename_template t)
    | E_TaggedTemplate t q => E_TaggedTemplate (rename_node rename_expression t) (rename_node rename_template q)
    | E_Spread x => E_Spread (rename_node rename_expression x)
    | E_Arrow ps b => E_Arrow (map (rename_node rename_pattern) ps) (rename_arrow_body b)
    | E_Object b => E_Object (map (rename_node rename_property) b)
    | E_Function f => E_Function (rename_func f)
    | E_Class c => E_Class (rename_class c)
    end
  with rename_template (t : template) : template :=
    match t with
    | Template es qs => Template (map (rename_node rename_expression) es) qs
    end
  with rename_arrow_body (b : arrow_body) : arrow_body :=
    match b with
    | AB_Expression e => AB_Expression (rename_node rename_expression e)
    | AB_Block b => AB_Block (rename_node (rename_block rename_statement) b)
    end
  with rename_property (p : property) : property :=
    match p with
    | P_Shorthand s => P_Shorthand (r s)
    | P_Literal k v => P_Literal (rename_node rename_property_key k) (rename_node rename_expression v)
    | P_Method k v => P_Method (rename_node rename_property_key k) (rename_node rename_func v)
    | P_Spread x => P_Spread (rename_node rename_expression x)
    end
  with rename_property_key (k : property_key) : property_key :=
    match k with
    | Key_Computed e => Key_Computed (rename_node rename_expression e)
    | Key_Literal s => Key_Literal (r s)
    | Key_Binary s => Key_Binary s
    end
  with rename_pattern (p : pattern) : pattern :=
    match p with
    | Pat_Void => Pat_Void
    | Pat_Identifier s => Pat_Identifier (r s)
    | Pat_Object ps => Pat_Object (map (rename_node rename_property) ps)
    | Pat_Array es => Pat_Array (map (rename_node rename_pattern) es)
    | Pat_Rest x => Pat_Rest (rename_id x)
    | Pat_Assign l r => Pat_Assign (rename_node rename_pattern l) (rename_node rename_expression r)
    end
  with rename_func (f : func) : func :=
    match f with
    | Func n g ps b =>
        Func (rename_name n) g (map (rename_node rename_pattern) ps)
             (rename_node (rename_block rename_statement) b)
    end
  with rename_class (c : class) : class :=
    match c with
    | Class n e b =>
        Class (rename_name n) (option_map (rename_node rename_expression) e)
              (rename_node (rename_block rename_class_member) b)
    end
  with rename_class_member (m : class_member) : class_member :=
    match m with
    | CM_Error => CM_Error
    | CM_Method s k kd v => CM_Method s (rename_node rename_property_key k) kd (rename_node rename_func v)
    | CM_Literal s k v => CM_Literal s (rename_node rename_property_key k) (rename_node rename_expression v)
    end
  with rename_statement (s : statement) : statement :=
    match s with
    | St_Empty => St_Empty
    | St_Debugger => St_Debugger
    | St_Expression e => St_Expression (rename_node rename_expression e)
    | St_Declaration k ds => St_Declaration k (map (rename_node rename_declarator) ds)
    | St_Return v => St_Return (option_map (rename_node rename_expression) v)
    | St_Break l => St_Break (option_map rename_id l)
    | St_Continue l => St_Continue (option_map rename_id l)
    | St_Throw v => St_Throw (rename_node rename_expression v)
    | St_If t c a =>
        St_If (rename_node rename_expression t) (rename_node rename_statement c)
              (option_map (rename_node rename_statement) a)
    | St_While t b => St_While (rename_node rename_expression t) (rename_node rename_statement b)
    | St_Do b t => St_Do (rename_node rename_statement b) (rename_node rename_expression t)
    | St_For i t u b =>
        St_For (option_map (rename_node rename_for_init) i) (option_map (rename_node rename_expression) t)
               (option_map (rename_node rename_expression) u) (rename_node rename_statement b)
    | St_ForIn l r b =>
        St_ForIn (rename_node rename_for_init l) (rename_node rename_expression r) (rename_node rename_statement b)
    | St_ForOf l r b =>
        St_ForOf (rename_node rename_for_init l) (rename_node rename_expression r) (rename_node rename_statement b)
    | St_Try b h f =>
        St_Try (rename_node (rename_block rename_statement) b)
               (option_map (rename_node rename_catch) h)
               (option_map (rename_node (rename_block rename_statement)) f)
    | St_Block b => St_Block (rename_block rename_statement b)
    | St_Labeled l b => St_Labeled (r l) (rename_node rename_statement b)
    | St_Function f => St_Function (rename_func f)
    | St_Class c => St_Class (rename_class c)
    | St_Switch d c =>
        St_Switch (rename_node rename_expression d) (rename_node (rename_block rename_case) c)
    | St_Import ss src => St_Import (map (rename_node rename_specifier) ss) src
    end
  with rename_declarator (d : declarator) : declarator :=
    match d with
    | Declarator p i => Declarator (rename_node rename_pattern p) (option_map (rename_node rename_expression) i)
    end
  with rename_for_init (i : for_init) : for_init :=
    match i with
    | FI_Declaration k ds => FI_Declaration k (map (rename_node rename_declarator) ds)
    | FI_Expression e => FI_Expression (rename_node rename_expression e)
    end
  with rename_case (c : switch_case) : switch_case :=
    match c with
    | SwitchCase t b =>
        SwitchCase (option_map (rename_node rename_expression) t) (map (rename_node rename_statement) b)
    end
  with rename_catch (c : catch_clause) : catch_clause :=
    match c with
    | CatchClause p b => CatchClause (rename_node rename_pattern p) (rename_node (rename_block rename_statement) b)
    end.

  Definition rename_module (m : module) : module := map (rename_node rename_statement) m.
End Rename.
