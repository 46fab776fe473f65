(** Specification vocabulary: a grammar of the language [parse] reads.

    A lexeme is a token with its text (for a property access [.name] the name) and with whether a semicolon can be
    left out before it: it is a closing parenthesis or brace or the end of the program, or a line break comes before it.
    The relations below say, in the style of the grammar of ECMAScript, which lists of lexemes make up which tree;
    positions in the tree are not constrained.  Where the parser deviates from ECMAScript the grammar follows it: a block
    may end with the program (C18), the semicolon after a do-while statement and an import declaration is a statement of
    its own, classes have no string keys, the power operator associates to the left and takes a prefix expression on its
    left, an arrow function may be the right operand of any operator and one with a block for a body also
    the left one, throw may be followed by a line break. *)
From Coq Require Import List NArith Bool String.
From Coq.Strings Require Import Byte.
From Verif Require Import Bytes Token Ast.
Import ListNotations.
Open Scope list_scope.

Record word : Set := Word { w_text : str; w_break : bool }.
Definition lexeme : Set := token * word.
(** The first lexeme of [l], or else the one that comes after it. *)
Definition next (l : list lexeme) (nx : lexeme) : lexeme := match l with [] => nx | a :: _ => a end.

(** ** Tokens *)
Definition prefix_operators : list (token * operator) :=
  [(T_OperatorIncrement, O_Increment); (T_OperatorDecrement, O_Decrement); (T_OperatorLogicalNot, O_LogicalNot);
   (T_OperatorBitwiseNot, O_BitwiseNot); (T_OperatorTypeof, O_Typeof); (T_OperatorVoid, O_Void); (T_OperatorDelete, O_Delete);
   (T_OperatorAddition, O_Addition); (T_OperatorSubtraction, O_Subtraction); (T_OperatorNew, O_New)].
Definition postfix_operators : list (token * operator) := [(T_OperatorIncrement, O_Increment); (T_OperatorDecrement, O_Decrement)].
(** Infix operators with their precedence. *)
Definition infix_operators : list (token * operator * nat) :=
  [(T_OperatorLogicalOr, O_LogicalOr, 5); (T_OperatorLogicalAnd, O_LogicalAnd, 6); (T_OperatorBitwiseOr, O_BitwiseOr, 7);
   (T_OperatorBitwiseXor, O_BitwiseXor, 8); (T_OperatorBitwiseAnd, O_BitwiseAnd, 9);
   (T_OperatorStrictEquality, O_StrictEquality, 10); (T_OperatorStrictInequality, O_StrictInequality, 10);
   (T_OperatorEquality, O_Equality, 10); (T_OperatorInequality, O_Inequality, 10);
   (T_OperatorLesser, O_Lesser, 11); (T_OperatorLesserEquals, O_LesserEquals, 11); (T_OperatorGreater, O_Greater, 11);
   (T_OperatorGreaterEquals, O_GreaterEquals, 11); (T_OperatorInstanceof, O_Instanceof, 11); (T_OperatorIn, O_In, 11);
   (T_OperatorBitShiftLeft, O_BitShiftLeft, 12); (T_OperatorBitShiftRight, O_BitShiftRight, 12); (T_OperatorUBitShiftRight, O_UBitShiftRight, 12);
   (T_OperatorAddition, O_Addition, 13); (T_OperatorSubtraction, O_Subtraction, 13);
   (T_OperatorMultiplication, O_Multiplication, 14); (T_OperatorDivision, O_Division, 14); (T_OperatorRemainder, O_Remainder, 14);
   (T_OperatorExponent, O_Exponent, 15)].
Definition assignment_operators : list (token * operator) :=
  [(T_OperatorAssign, O_Assign); (T_OperatorAddAssign, O_AddAssign); (T_OperatorSubtractAssign, O_SubtractAssign);
   (T_OperatorExponentAssign, O_ExponentAssign); (T_OperatorMultiplyAssign, O_MultiplyAssign); (T_OperatorDivideAssign, O_DivideAssign);
   (T_OperatorRemainderAssign, O_RemainderAssign); (T_OperatorBSLAssign, O_BSLAssign); (T_OperatorBSRAssign, O_BSRAssign);
   (T_OperatorUBSRAssign, O_UBSRAssign); (T_OperatorBitAndAssign, O_BitAndAssign); (T_OperatorBitXorAssign, O_BitXorAssign);
   (T_OperatorBitOrAssign, O_BitOrAssign)].
(** What can be assigned to. *)
Definition assignable (e : expression) : Prop :=
  (exists s, e = E_Identifier s) \/ (exists o p, e = E_Member o p) \/ (exists o p, e = E_ComputedMember o p) \/
  (exists b, e = E_Object b) \/ (exists b, e = E_Array b).
(** Expressions of one token. *)
Inductive atom : token -> word -> expression -> Prop :=
| at_name s : atom T_Identifier s (E_Identifier (w_text s))
| at_this s : atom T_This s E_This
| at_true s : atom T_LiteralTrue s (E_Literal L_True)
| at_false s : atom T_LiteralFalse s (E_Literal L_False)
| at_null s : atom T_LiteralNull s (E_Literal L_Null)
| at_undefined s : atom T_LiteralUndefined s (E_Literal L_Undefined)
| at_string s : atom T_LiteralString s (E_Literal (L_String (w_text s)))
| at_number s : atom T_LiteralNumber s (E_Literal (L_Number (w_text s)))
| at_binary s : atom T_LiteralBinary s (E_Literal (L_Binary (w_text s)))
| at_regex s : atom T_LiteralRegEx s (E_Literal (L_RegEx (w_text s))).
(** The end of a statement before the lexeme [nx]: a semicolon, which can be left out where [nx] allows it. *)
Inductive semi (nx : lexeme) : list lexeme -> Prop :=
| se_none : w_break (snd nx) = true -> semi nx []
| se_some s : semi nx [(T_Semicolon, s)].
(** The semicolon after a member of a class. *)
Inductive optional_semi : list lexeme -> Prop :=
| os_none : optional_semi []
| os_some s : optional_semi [(T_Semicolon, s)].
(** The end of a block with the items [xs]: a brace, or the end of the program if there are items. *)
Inductive closes {A : Type} (xs : list A) : lexeme -> Prop :=
| cl_brace s : closes xs (T_BraceClose, s)
| cl_end s : xs <> [] -> closes xs (T_EndOfProgram, s).
Definition declarations : list (token * declkind) := [(T_DeclarationVar, DK_Var); (T_DeclarationLet, DK_Let); (T_DeclarationConst, DK_Const)].
(** The tokens that continue an expression; a slash does whether or not it could begin a regular expression. *)
Definition continuing : list token :=
  map (fun x => fst (fst x)) infix_operators ++ map fst assignment_operators ++ map fst postfix_operators ++
  [T_Comma; T_OperatorConditional; T_OperatorFatArrow; T_Accessor; T_ParenOpen; T_BracketOpen; T_TemplateOpen; T_TemplateClosed; T_LiteralRegEx].
(** An expression (of precedence [n], see below) ends before [nx], because [nx] does not continue it.  A line
    break keeps ++ and -- from doing so. *)
Definition ends (n : nat) (nx : lexeme) : Prop :=
  ~ In (fst nx) continuing \/ (In (fst nx) (map fst postfix_operators) /\ w_break (snd nx) = true) \/ (n = 1 /\ fst nx = T_Comma).
(** Names of functions and classes: methods have none, expressions may have one, statements have one. *)
Inductive naming : Set := Nameless | MayBeNamed | Named.
Inductive name_of : naming -> list lexeme -> fname -> Prop :=
| nm_empty : name_of Nameless [] Name_Empty
| nm_none : name_of MayBeNamed [] (Name_Optional None)
| nm_some s n : n_item n = w_text s -> name_of MayBeNamed [(T_Identifier, s)] (Name_Optional (Some n))
| nm_name s n : n_item n = w_text s -> name_of Named [(T_Identifier, s)] (Name_Mandatory n).

(** ** Parameters of arrow functions, which are read as expressions *)
Inductive pattern_of : expression -> pattern -> Prop :=
| po_name s : pattern_of (E_Identifier s) (Pat_Identifier s)
| po_assign e p d : pattern_of (n_item e) (n_item p) -> pattern_of (E_Binary O_Assign e d) (Pat_Assign p d).
Definition patterns_of : list (node expression) -> list (node pattern) -> Prop := Forall2 (fun e p => pattern_of (n_item e) (n_item p)).
Inductive params_of : expression -> list (node pattern) -> Prop :=
| pa_many b ps : patterns_of b ps -> params_of (E_Sequence b) ps
| pa_one e p : pattern_of e (n_item p) -> params_of e [p].

(** The source of an import is the text of a string literal without its quotes. *)
Definition quoted (source s : str) : Prop := exists q1 q2, s = q1 :: source ++ [q2].

(** ** Labels of break and continue, and what an import declaration imports *)
Inductive label : list lexeme -> option (node str) -> Prop :=
| la_none : label [] None
| la_some s n : w_break s = false -> n_item n = w_text s -> label [(T_Identifier, s)] (Some n).
Inductive import_name : list lexeme -> import_specifier -> Prop :=
| ia_same s n m : n_item n = w_text s -> n_item m = w_text s -> import_name [(T_Identifier, s)] (IS_Named n m)
| ia_as s1 s2 s3 n m : w_text s2 = bs "as" -> n_item n = w_text s1 -> n_item m = w_text s3 ->
    import_name [(T_Identifier, s1); (T_Identifier, s2); (T_Identifier, s3)] (IS_Named n m).
Inductive imported : list lexeme -> list (node import_specifier) -> Prop :=
| io_last s l x : import_name l (n_item x) -> imported (l ++ [(T_BraceClose, s)]) [x]
| io_cons s l1 l2 x specs : import_name l1 (n_item x) -> imported l2 specs -> imported (l1 ++ (T_Comma, s) :: l2) (x :: specs).
Inductive import_more : list lexeme -> list (node import_specifier) -> Prop :=
| im_all s1 s2 s3 n x : w_text s2 = bs "as" -> n_item n = w_text s3 -> n_item x = IS_Namespace n ->
    import_more [(T_OperatorMultiplication, s1); (T_Identifier, s2); (T_Identifier, s3)] [x]
| im_names s l specs : imported l specs -> import_more ((T_BraceOpen, s) :: l) specs.
Inductive import_clause : list lexeme -> list (node import_specifier) -> Prop :=
| ic_default s n x : n_item n = w_text s -> n_item x = IS_Default n -> import_clause [(T_Identifier, s)] [x]
| ic_both s1 s2 n x l specs : n_item n = w_text s1 -> n_item x = IS_Default n -> import_more l specs -> import_clause ((T_Identifier, s1) :: (T_Comma, s2) :: l) (x :: specs)
| ic_more l specs : import_more l specs -> import_clause l specs.

(** ** The grammar *)
(** The first token of an expression statement, and of the body of an arrow function, is none of [ts]. *)
Definition not_first (ts : list token) (l : list lexeme) : Prop := match l with (t, _) :: _ => ~ In t ts | [] => True end.
(** No line break before the first lexeme. *)
Definition same_line (l : list lexeme) : Prop := match l with (_, s) :: _ => w_break s = false | [] => True end.
(** [expr n o l e]: [l] makes up the expression [e], which can be an operand where precedence [n] is
    asked for: 0 for any expression, 1 where a comma would end it (assignments and conditionals),
    5 to 15 the infix operators, 16 prefix operators, 17 calls, members, postfix operators and arrow functions,
    18 the rest.  [o]: the expression ends with the body of an arrow function that is not in
    braces or parentheses, which takes in every operator that follows. *)
Inductive expr : nat -> bool -> list lexeme -> expression -> Prop :=
| x_weaker n m o l e : n <= m -> expr m o l e -> expr n o l e
| x_atom t s e : atom t s e -> expr 18 false [(t, s)] e
| x_paren o l e s1 s2 : expr 0 o l e -> expr 18 false ((T_ParenOpen, s1) :: l ++ [(T_ParenClose, s2)]) e
| x_prefix t s op o l e : In (t, op) prefix_operators -> expr 16 o l (n_item e) -> expr 16 o ((t, s) :: l) (E_Prefix op e)
| x_postfix t s op l e : In (t, op) postfix_operators -> assignable (n_item e) -> w_break s = false -> expr 17 false l (n_item e) -> expr 17 false (l ++ [(t, s)]) (E_Postfix op e)
(** All infix operators associate to the left. *)
| x_infix t s op p o l1 l2 a b : In (t, op, p) infix_operators -> expr p false l1 (n_item a) -> expr (S p) o l2 (n_item b) ->
    expr p o (l1 ++ (t, s) :: l2) (E_Binary op a b)
| x_assign t s op o l1 l2 a b : In (t, op) assignment_operators -> assignable (n_item a) -> expr 17 false l1 (n_item a) -> expr 1 o l2 (n_item b) ->
    expr 1 o (l1 ++ (t, s) :: l2) (E_Binary op a b)
| x_conditional o2 o l1 l2 l3 s1 s2 a b c : expr 3 false l1 (n_item a) -> expr 1 o2 l2 (n_item b) -> expr 1 o l3 (n_item c) ->
    expr 1 o (l1 ++ (T_OperatorConditional, s1) :: l2 ++ (T_Colon, s2) :: l3) (E_Conditional a b c)
| x_sequence o l1 l2 e es : expr 1 o l1 (n_item e) -> es <> [] -> more_exprs l2 es -> expr 0 false (l1 ++ l2) (E_Sequence (e :: es))
| x_member l s o p : expr 17 false l (n_item o) -> n_item p = w_text s -> expr 17 false (l ++ [(T_Accessor, s)]) (E_Member o p)
| x_computed o2 l1 l2 s1 s2 o p : expr 17 false l1 (n_item o) -> expr 0 o2 l2 (n_item p) ->
    expr 17 false (l1 ++ (T_BracketOpen, s1) :: l2 ++ [(T_BracketClose, s2)]) (E_ComputedMember o p)
| x_new_target s1 s2 m p : n_item m = bs "new" -> n_item p = bs "target" -> w_text s2 = bs "target" -> expr 18 false [(T_OperatorNew, s1); (T_Accessor, s2)] (E_MetaProperty m p)
| x_call l1 l2 s1 s2 f args : expr 17 false l1 (n_item f) -> arguments l2 args ->
    expr 17 false (l1 ++ (T_ParenOpen, s1) :: l2 ++ [(T_ParenClose, s2)]) (E_Call f args)
| x_array l s1 s2 es : elements l es -> expr 18 false ((T_BracketOpen, s1) :: l ++ [(T_BracketClose, s2)]) (E_Array es)
| x_object l s1 s2 ps : properties l ps -> expr 18 false ((T_BraceOpen, s1) :: l ++ [(T_BraceClose, s2)]) (E_Object ps)
| x_template l t : template_of (bs "`") l t -> expr 18 false l (E_Template t)
| x_tagged l1 l2 f t : expr 17 false l1 (n_item f) -> template_of (bs "`") l2 (n_item t) -> expr 17 false (l1 ++ l2) (E_TaggedTemplate f t)
| x_function l s f : function MayBeNamed l f -> expr 18 false ((T_Function, s) :: l) (E_Function f)
| x_class l s c : class_of MayBeNamed l c -> expr 18 false ((T_Class, s) :: l) (E_Class c)
| x_arrow o l1 l2 s e ps b : expr 17 false l1 e -> params_of e ps -> arrow_to o l2 b -> expr 17 o (l1 ++ (T_OperatorFatArrow, s) :: l2) (E_Arrow ps b)
| x_thunk o l s1 s2 s3 b : arrow_to o l b -> expr 17 o ((T_ParenOpen, s1) :: (T_ParenClose, s2) :: (T_OperatorFatArrow, s3) :: l) (E_Arrow [] b)
with more_exprs : list lexeme -> list (node expression) -> Prop :=
| me_nil : more_exprs [] []
| me_cons o s l1 l2 e es : expr 1 o l1 (n_item e) -> more_exprs l2 es -> more_exprs ((T_Comma, s) :: l1 ++ l2) (e :: es)
(** An argument or element, which may be spread. *)
with element : list lexeme -> expression -> Prop :=
| el_expr o l e : expr 1 o l e -> element l e
| el_spread o s l e : expr 1 o l (n_item e) -> element ((T_OperatorSpread, s) :: l) (E_Spread e)
with arguments : list lexeme -> list (node expression) -> Prop :=
| ar_nil : arguments [] []
| ar_cons l1 l2 e es : element l1 (n_item e) -> more_arguments l2 es -> arguments (l1 ++ l2) (e :: es)
with more_arguments : list lexeme -> list (node expression) -> Prop :=
| ma_nil : more_arguments [] []
| ma_comma s : more_arguments [(T_Comma, s)] []
| ma_cons s l1 l2 e es : element l1 (n_item e) -> more_arguments l2 es -> more_arguments ((T_Comma, s) :: l1 ++ l2) (e :: es)
(** Elements of an array; nothing between two commas is a hole. *)
with hole_or_element : list lexeme -> expression -> Prop :=
| he_hole : hole_or_element [] E_Void
| he_element l e : element l e -> hole_or_element l e
with elements : list lexeme -> list (node expression) -> Prop :=
| es_nil : elements [] []
| es_cons l1 l2 e es : l1 ++ l2 <> [] -> hole_or_element l1 (n_item e) -> more_elements l2 es -> elements (l1 ++ l2) (e :: es)
with more_elements : list lexeme -> list (node expression) -> Prop :=
| mo_nil : more_elements [] []
| mo_cons s l1 l2 e es : hole_or_element l1 (n_item e) -> more_elements l2 es -> more_elements ((T_Comma, s) :: l1 ++ l2) (e :: es)
(** A template, or the rest of one: its first piece begins with [opening], a backquote or the brace after an expression. *)
with template_of : str -> list lexeme -> template -> Prop :=
| tm_last opening s q : w_text s = opening ++ n_item q ++ bs "`" -> template_of opening [(T_TemplateClosed, s)] (Template [] [q])
| tm_more opening o s l1 l2 q e es qs : w_text s = opening ++ n_item q ++ bs "${" -> expr 0 o l1 (n_item e) -> template_of (bs "}") l2 (Template es qs) ->
    template_of opening ((T_TemplateOpen, s) :: l1 ++ l2) (Template (e :: es) (q :: qs))
with arrow_to : bool -> list lexeme -> arrow_body -> Prop :=
| to_expr o l e : expr 1 o l (n_item e) -> not_first [T_BraceOpen] l -> arrow_to true l (AB_Expression e)
| to_block l b : body_of l (n_item b) -> arrow_to false l (AB_Block b)
(** Objects. *)
with key : list lexeme -> property_key -> Prop :=
| ke_word t s : is_word t = true -> key [(t, s)] (Key_Literal (w_text s))
| ke_string s : key [(T_LiteralString, s)] (Key_Literal (w_text s))
| ke_number s : key [(T_LiteralNumber, s)] (Key_Literal (w_text s))
| ke_binary s : key [(T_LiteralBinary, s)] (Key_Binary (w_text s))
| ke_computed o s1 s2 l e : expr 0 o l (n_item e) -> key ((T_BracketOpen, s1) :: l ++ [(T_BracketClose, s2)]) (Key_Computed e)
with property_of : list lexeme -> property -> Prop :=
| pr_shorthand t s : is_word t = true -> property_of [(t, s)] (P_Shorthand (w_text s))
| pr_literal o l1 l2 s k e : key l1 (n_item k) -> expr 1 o l2 (n_item e) -> property_of (l1 ++ (T_Colon, s) :: l2) (P_Literal k e)
| pr_method l1 l2 k f : key l1 (n_item k) -> function Nameless l2 (n_item f) -> property_of (l1 ++ l2) (P_Method k f)
| pr_spread o s l e : expr 1 o l (n_item e) -> property_of ((T_OperatorSpread, s) :: l) (P_Spread e)
with properties : list lexeme -> list (node property) -> Prop :=
| ps_nil : properties [] []
| ps_cons l1 l2 p ps : property_of l1 (n_item p) -> more_properties l2 ps -> properties (l1 ++ l2) (p :: ps)
with more_properties : list lexeme -> list (node property) -> Prop :=
| mp_nil : more_properties [] []
| mp_comma s : more_properties [(T_Comma, s)] []
| mp_cons s l1 l2 p ps : property_of l1 (n_item p) -> more_properties l2 ps -> more_properties ((T_Comma, s) :: l1 ++ l2) (p :: ps)
(** Patterns. *)
with pattern_is : list lexeme -> pattern -> Prop :=
| pt_name s : pattern_is [(T_Identifier, s)] (Pat_Identifier (w_text s))
| pt_array l s1 s2 ps : pattern_elements l ps -> pattern_is ((T_BracketOpen, s1) :: l ++ [(T_BracketClose, s2)]) (Pat_Array ps)
| pt_object l s1 s2 ps : properties l ps -> pattern_is ((T_BraceOpen, s1) :: l ++ [(T_BraceClose, s2)]) (Pat_Object ps)
with parameter : list lexeme -> pattern -> Prop :=
| pm_plain l p : pattern_is l p -> parameter l p
| pm_default o l1 l2 s p e : pattern_is l1 (n_item p) -> expr 1 o l2 (n_item e) -> parameter (l1 ++ (T_OperatorAssign, s) :: l2) (Pat_Assign p e)
with hole_or_pattern : list lexeme -> pattern -> Prop :=
| hp_hole : hole_or_pattern [] Pat_Void
| hp_pattern l p : parameter l p -> hole_or_pattern l p
with pattern_elements : list lexeme -> list (node pattern) -> Prop :=
| pe_nil : pattern_elements [] []
| pe_cons l1 l2 p ps : l1 ++ l2 <> [] -> hole_or_pattern l1 (n_item p) -> more_patterns l2 ps -> pattern_elements (l1 ++ l2) (p :: ps)
with more_patterns : list lexeme -> list (node pattern) -> Prop :=
| mq_nil : more_patterns [] []
| mq_cons s l1 l2 p ps : hole_or_pattern l1 (n_item p) -> more_patterns l2 ps -> more_patterns ((T_Comma, s) :: l1 ++ l2) (p :: ps)
(** Parameter lists, with their parentheses; a rest parameter can only be the last. *)
with parameters : list lexeme -> list (node pattern) -> Prop :=
| pl_nil s1 s2 : parameters [(T_ParenOpen, s1); (T_ParenClose, s2)] []
| pl_rest s1 l p : rest_parameter l (n_item p) -> parameters ((T_ParenOpen, s1) :: l) [p]
| pl_cons s1 l1 l2 p ps : parameter l1 (n_item p) -> more_parameters l2 ps -> parameters ((T_ParenOpen, s1) :: l1 ++ l2) (p :: ps)
with more_parameters : list lexeme -> list (node pattern) -> Prop :=
| mr_nil s : more_parameters [(T_ParenClose, s)] []
| mr_comma s1 s2 : more_parameters [(T_Comma, s1); (T_ParenClose, s2)] []
| mr_rest s1 l p : rest_parameter l (n_item p) -> more_parameters ((T_Comma, s1) :: l) [p]
| mr_cons s1 l1 l2 p ps : parameter l1 (n_item p) -> more_parameters l2 ps -> more_parameters ((T_Comma, s1) :: l1 ++ l2) (p :: ps)
with rest_parameter : list lexeme -> pattern -> Prop :=
| rp_rest s1 s2 s3 a : n_item a = w_text s2 -> rest_parameter [(T_OperatorSpread, s1); (T_Identifier, s2); (T_ParenClose, s3)] (Pat_Rest a)
(** Functions and classes. *)
with function : naming -> list lexeme -> func -> Prop :=
| fu_plain k l1 l2 l3 n ps b : name_of k l1 n -> parameters l2 ps -> body_of l3 (n_item b) -> function k (l1 ++ l2 ++ l3) (Func n false ps b)
| fu_generator k s l1 l2 l3 n ps b : k <> Nameless -> name_of k l1 n -> parameters l2 ps -> body_of l3 (n_item b) ->
    function k ((T_OperatorMultiplication, s) :: l1 ++ l2 ++ l3) (Func n true ps b)
with class_of : naming -> list lexeme -> class -> Prop :=
| cs_plain k l1 l2 n b : name_of k l1 n -> class_body l2 (n_item b) -> class_of k (l1 ++ l2) (Class n None b)
| cs_extends o k l1 l2 l3 s n e b : name_of k l1 n -> expr 1 o l2 (n_item e) -> class_body l3 (n_item b) ->
    class_of k (l1 ++ (T_Extends, s) :: l2 ++ l3) (Class n (Some e) b)
with class_body : list lexeme -> block class_member -> Prop :=
| cb_body s l ms c : members c l ms -> closes ms c -> class_body ((T_BraceOpen, s) :: l ++ [c]) (Block ms)
(** Here and in what follows, [nx] is the lexeme that comes after the list. *)
with members : lexeme -> list lexeme -> list (node class_member) -> Prop :=
| mm_nil nx : members nx [] []
| mm_cons nx l1 l2 m ms : member (next l2 nx) l1 (n_item m) -> members nx l2 ms -> members nx (l1 ++ l2) (m :: ms)
with member : lexeme -> list lexeme -> class_member -> Prop :=
| mb_method nx l1 l2 l3 st kind k f : member_name l1 st kind (n_item k) -> function Nameless l2 (n_item f) -> optional_semi l3 ->
    member nx (l1 ++ l2 ++ l3) (CM_Method st k kind f)
| mb_field nx o l1 l2 l3 s st kind k e : member_name l1 st kind (n_item k) -> expr 1 o l2 (n_item e) -> optional_semi l3 -> ends 1 (next l3 nx) ->
    member nx (l1 ++ (T_OperatorAssign, s) :: l2 ++ l3) (CM_Literal st k e)
with member_name : list lexeme -> bool -> methodkind -> property_key -> Prop :=
| mn_static s l kind k : member_key l true kind k -> member_name ((T_Static, s) :: l) true kind k
| mn_plain l kind k : member_key l false kind k -> not_first [T_Static] l -> member_name l false kind k
with member_key : list lexeme -> bool -> methodkind -> property_key -> Prop :=
| mk_constructor t s : is_word t = true -> w_text s = bs "constructor" -> member_key [(t, s)] false MK_Constructor (Key_Literal (bs "constructor"))
| mk_word t s st : is_word t = true -> (st = true \/ w_text s <> bs "constructor") -> member_key [(t, s)] st MK_Method (Key_Literal (w_text s))
| mk_get t1 t2 s1 s st : is_word t1 = true -> is_word t2 = true -> w_text s1 = bs "get" -> member_key [(t1, s1); (t2, s)] st MK_Get (Key_Literal (w_text s))
| mk_set t1 t2 s1 s st : is_word t1 = true -> is_word t2 = true -> w_text s1 = bs "set" -> member_key [(t1, s1); (t2, s)] st MK_Set (Key_Literal (w_text s))
| mk_number s st : member_key [(T_LiteralNumber, s)] st MK_Method (Key_Literal (w_text s))
| mk_binary s st : member_key [(T_LiteralBinary, s)] st MK_Method (Key_Binary (w_text s))
| mk_computed o s1 s2 l e st : expr 0 o l (n_item e) -> member_key ((T_BracketOpen, s1) :: l ++ [(T_BracketClose, s2)]) st MK_Method (Key_Computed e)
(** Statements. *)
with body_of : list lexeme -> block statement -> Prop :=
| bo_body s l ss c : statements c l ss -> closes ss c -> body_of ((T_BraceOpen, s) :: l ++ [c]) (Block ss)
with statements : lexeme -> list lexeme -> list (node statement) -> Prop :=
| ss_nil nx : statements nx [] []
| ss_cons nx l1 l2 x xs : stmt (next l2 nx) l1 (n_item x) -> statements nx l2 xs -> statements nx (l1 ++ l2) (x :: xs)
with stmt : lexeme -> list lexeme -> statement -> Prop :=
| st_empty nx s : stmt nx [(T_Semicolon, s)] St_Empty
| st_debugger nx s : stmt nx [(T_Debugger, s)] St_Debugger
| st_block nx l b : body_of l b -> stmt nx l (St_Block b)
| st_expression nx o l1 l2 e : expr 0 o l1 (n_item e) -> not_first [T_BraceOpen; T_Function; T_Class] l1 -> semi nx l2 -> ends 0 (next l2 nx) ->
    stmt nx (l1 ++ l2) (St_Expression e)
(** An expression statement that begins with the word import, which is read as a name. *)
| st_import_name nx o s t s' l1 l2 e : expr 0 o ((T_Identifier, s) :: (t, s') :: l1) (n_item e) -> In t [T_Comma; T_ParenOpen] -> semi nx l2 -> ends 0 (next l2 nx) ->
    stmt nx ((T_Import, s) :: (t, s') :: l1 ++ l2) (St_Expression e)
| st_declaration nx t s k l1 l2 ds : In (t, k) declarations -> declarators (next l2 nx) l1 ds -> semi nx l2 -> stmt nx ((t, s) :: l1 ++ l2) (St_Declaration k ds)
| st_return nx s l : semi nx l -> stmt nx ((T_Return, s) :: l) (St_Return None)
| st_return_value nx o s l1 l2 e : expr 0 o l1 (n_item e) -> same_line l1 -> semi nx l2 -> ends 0 (next l2 nx) -> stmt nx ((T_Return, s) :: l1 ++ l2) (St_Return (Some e))
| st_break nx s l1 l2 o : label l1 o -> semi nx l2 -> stmt nx ((T_Break, s) :: l1 ++ l2) (St_Break o)
| st_continue nx s l1 l2 o : label l1 o -> semi nx l2 -> stmt nx ((T_Continue, s) :: l1 ++ l2) (St_Continue o)
| st_throw nx o s l1 l2 e : expr 0 o l1 (n_item e) -> semi nx l2 -> ends 0 (next l2 nx) -> stmt nx ((T_Throw, s) :: l1 ++ l2) (St_Throw e)
| st_labeled nx s1 s2 l b : stmt nx l (n_item b) -> stmt nx ((T_Identifier, s1) :: (T_Colon, s2) :: l) (St_Labeled (w_text s1) b)
| st_function nx s l f : function Named l f -> stmt nx ((T_Function, s) :: l) (St_Function f)
| st_class nx s l c : class_of Named l c -> stmt nx ((T_Class, s) :: l) (St_Class c)
(** An else belongs to the nearest if. *)
| st_if nx o s1 s2 s3 l1 l2 e a : expr 0 o l1 (n_item e) -> stmt nx l2 (n_item a) -> fst nx <> T_Else ->
    stmt nx ((T_If, s1) :: (T_ParenOpen, s2) :: l1 ++ (T_ParenClose, s3) :: l2) (St_If e a None)
| st_if_else nx o s1 s2 s3 s4 l1 l2 l3 e a b : expr 0 o l1 (n_item e) -> stmt (T_Else, s4) l2 (n_item a) -> stmt nx l3 (n_item b) ->
    stmt nx ((T_If, s1) :: (T_ParenOpen, s2) :: l1 ++ (T_ParenClose, s3) :: l2 ++ (T_Else, s4) :: l3) (St_If e a (Some b))
| st_while nx o s1 s2 s3 l1 l2 e b : expr 0 o l1 (n_item e) -> stmt nx l2 (n_item b) ->
    stmt nx ((T_While, s1) :: (T_ParenOpen, s2) :: l1 ++ (T_ParenClose, s3) :: l2) (St_While e b)
| st_do nx o s1 s2 s3 s4 l1 l2 b e : stmt (T_While, s2) l1 (n_item b) -> expr 0 o l2 (n_item e) ->
    stmt nx ((T_Do, s1) :: l1 ++ (T_While, s2) :: (T_ParenOpen, s3) :: l2 ++ [(T_ParenClose, s4)]) (St_Do b e)
| st_for nx s1 s2 s3 s4 s5 l1 l2 l3 l4 i t u b : optional_init (T_Semicolon, s3) l1 i -> optional_expr l2 t -> optional_expr l3 u -> stmt nx l4 (n_item b) ->
    stmt nx ((T_For, s1) :: (T_ParenOpen, s2) :: l1 ++ (T_Semicolon, s3) :: l2 ++ (T_Semicolon, s4) :: l3 ++ (T_ParenClose, s5) :: l4) (St_For i t u b)
| st_for_in nx o s1 s2 s3 s4 l1 l2 l3 i e b : init_of (T_OperatorIn, s3) l1 (n_item i) -> expr 0 o l2 (n_item e) -> stmt nx l3 (n_item b) ->
    stmt nx ((T_For, s1) :: (T_ParenOpen, s2) :: l1 ++ (T_OperatorIn, s3) :: l2 ++ (T_ParenClose, s4) :: l3) (St_ForIn i e b)
(** In for (a in b) the head is read as one expression. *)
| st_for_in_expr nx o s1 s2 s3 l1 l2 a i e b : expr 0 o l1 (E_Binary O_In a e) -> n_item i = FI_Expression a -> stmt nx l2 (n_item b) ->
    stmt nx ((T_For, s1) :: (T_ParenOpen, s2) :: l1 ++ (T_ParenClose, s3) :: l2) (St_ForIn i e b)
| st_for_of nx o s1 s2 s3 s4 l1 l2 l3 i e b : w_text s4 = bs "of" -> init_of (T_Identifier, s4) l1 (n_item i) -> expr 0 o l2 (n_item e) -> stmt nx l3 (n_item b) ->
    stmt nx ((T_For, s1) :: (T_ParenOpen, s2) :: l1 ++ (T_Identifier, s4) :: l2 ++ (T_ParenClose, s3) :: l3) (St_ForOf i e b)
| st_try nx s l1 l2 l3 b h f : body_of l1 (n_item b) -> handler_of l2 h -> finalizer_of l3 f -> (h <> None \/ f <> None) ->
    stmt nx ((T_Try, s) :: l1 ++ l2 ++ l3) (St_Try b h f)
| st_switch nx o s1 s2 s3 l1 l2 e b : expr 0 o l1 (n_item e) -> switch_body l2 (n_item b) ->
    stmt nx ((T_Switch, s1) :: (T_ParenOpen, s2) :: l1 ++ (T_ParenClose, s3) :: l2) (St_Switch e b)
| st_import nx s1 s2 source : quoted source (w_text s2) -> stmt nx [(T_Import, s1); (T_LiteralString, s2)] (St_Import [] source)
| st_import_from nx s1 s2 s3 l specs source : import_clause l specs -> w_text s2 = bs "from" -> quoted source (w_text s3) ->
    stmt nx ((T_Import, s1) :: l ++ [(T_Identifier, s2); (T_LiteralString, s3)]) (St_Import specs source)
with declarators : lexeme -> list lexeme -> list (node declarator) -> Prop :=
| ds_one nx l d : declarator_of nx l (n_item d) -> declarators nx l [d]
| ds_cons nx s l1 l2 d ds : declarator_of (T_Comma, s) l1 (n_item d) -> declarators nx l2 ds -> declarators nx (l1 ++ (T_Comma, s) :: l2) (d :: ds)
with declarator_of : lexeme -> list lexeme -> declarator -> Prop :=
| de_plain nx l p : pattern_is l (n_item p) -> declarator_of nx l (Declarator p None)
| de_init nx o s l1 l2 p e : pattern_is l1 (n_item p) -> expr 1 o l2 (n_item e) -> ends 1 nx -> declarator_of nx (l1 ++ (T_OperatorAssign, s) :: l2) (Declarator p (Some e))
with init_of : lexeme -> list lexeme -> for_init -> Prop :=
| in_declaration nx t s k l ds : In (t, k) declarations -> declarators nx l ds -> init_of nx ((t, s) :: l) (FI_Declaration k ds)
| in_expression nx o l e : expr 0 o l (n_item e) -> (forall a b, n_item e <> E_Binary O_In a b) -> ends 0 nx -> init_of nx l (FI_Expression e)
with optional_init : lexeme -> list lexeme -> option (node for_init) -> Prop :=
| oi_none nx : optional_init nx [] None
| oi_some nx l i : init_of nx l (n_item i) -> optional_init nx l (Some i)
with optional_expr : list lexeme -> option (node expression) -> Prop :=
| oe_none : optional_expr [] None
| oe_some o l e : expr 0 o l (n_item e) -> optional_expr l (Some e)
with handler_of : list lexeme -> option (node catch_clause) -> Prop :=
| ha_none : handler_of [] None
| ha_some s1 s2 s3 l1 l2 p b c : pattern_is l1 (n_item p) -> body_of l2 (n_item b) -> n_item c = CatchClause p b ->
    handler_of ((T_Catch, s1) :: (T_ParenOpen, s2) :: l1 ++ (T_ParenClose, s3) :: l2) (Some c)
with finalizer_of : list lexeme -> option (node (block statement)) -> Prop :=
| fi_none : finalizer_of [] None
| fi_some s l b : body_of l (n_item b) -> finalizer_of ((T_Finally, s) :: l) (Some b)
with switch_body : list lexeme -> block switch_case -> Prop :=
| sw_body s1 s2 l cs : cases (T_BraceClose, s2) l cs -> switch_body ((T_BraceOpen, s1) :: l ++ [(T_BraceClose, s2)]) (Block cs)
with cases : lexeme -> list lexeme -> list (node switch_case) -> Prop :=
| ca_nil nx : cases nx [] []
| ca_cons nx l1 l2 c cs : case_of (next l2 nx) l1 (n_item c) -> cases nx l2 cs -> cases nx (l1 ++ l2) (c :: cs)
with case_of : lexeme -> list lexeme -> switch_case -> Prop :=
| co_case nx o s1 s2 l1 l2 e ss : expr 0 o l1 (n_item e) -> statements nx l2 ss -> case_of nx ((T_Case, s1) :: l1 ++ (T_Colon, s2) :: l2) (SwitchCase (Some e) ss)
| co_default nx s1 s2 l ss : statements nx l ss -> case_of nx ((T_Default, s1) :: (T_Colon, s2) :: l) (SwitchCase None ss).

(** A program: statements and the end of the source. *)
Inductive program : list lexeme -> module -> Prop :=
| pg_program s l m : statements (T_EndOfProgram, s) l m -> program (l ++ [(T_EndOfProgram, s)]) m.
