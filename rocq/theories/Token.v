(** Tokens and operators.  Generated by tools/gen_token.py from
    /repo/ratel/src/lexer/token.rs and /repo/ratel/src/ast/operator.rs. *)
From Coq Require Import List NArith String.
From Verif Require Import Bytes.
Import ListNotations.
Open Scope nat_scope.

(** [Token], /repo/ratel/src/lexer/token.rs:14-124 (same order, 108 variants). *)
Inductive token : Set :=
| T_EndOfProgram
| T_Semicolon
| T_Colon
| T_Comma
| T_ParenOpen
| T_ParenClose
| T_BracketOpen
| T_BracketClose
| T_BraceOpen
| T_BraceClose
| T_OperatorFatArrow
| T_OperatorNew
| T_OperatorIncrement
| T_OperatorDecrement
| T_OperatorLogicalNot
| T_OperatorBitwiseNot
| T_OperatorTypeof
| T_OperatorVoid
| T_OperatorDelete
| T_OperatorMultiplication
| T_OperatorDivision
| T_OperatorRemainder
| T_OperatorExponent
| T_OperatorAddition
| T_OperatorSubtraction
| T_OperatorBitShiftLeft
| T_OperatorBitShiftRight
| T_OperatorUBitShiftRight
| T_OperatorLesser
| T_OperatorLesserEquals
| T_OperatorGreater
| T_OperatorGreaterEquals
| T_OperatorInstanceof
| T_OperatorIn
| T_OperatorStrictEquality
| T_OperatorStrictInequality
| T_OperatorEquality
| T_OperatorInequality
| T_OperatorBitwiseAnd
| T_OperatorBitwiseXor
| T_OperatorBitwiseOr
| T_OperatorLogicalAnd
| T_OperatorLogicalOr
| T_OperatorConditional
| T_OperatorAssign
| T_OperatorAddAssign
| T_OperatorSubtractAssign
| T_OperatorExponentAssign
| T_OperatorMultiplyAssign
| T_OperatorDivideAssign
| T_OperatorRemainderAssign
| T_OperatorBSLAssign
| T_OperatorBSRAssign
| T_OperatorUBSRAssign
| T_OperatorBitAndAssign
| T_OperatorBitXorAssign
| T_OperatorBitOrAssign
| T_OperatorSpread
| T_DeclarationVar
| T_DeclarationLet
| T_DeclarationConst
| T_Break
| T_Do
| T_Case
| T_Else
| T_Catch
| T_Export
| T_Class
| T_Extends
| T_Return
| T_While
| T_Finally
| T_Super
| T_With
| T_Continue
| T_For
| T_Switch
| T_Yield
| T_Debugger
| T_Function
| T_This
| T_Default
| T_If
| T_Throw
| T_Import
| T_Try
| T_Static
| T_LiteralTrue
| T_LiteralFalse
| T_LiteralNull
| T_LiteralUndefined
| T_LiteralString
| T_LiteralNumber
| T_LiteralBinary
| T_LiteralRegEx
| T_ReservedEnum
| T_ReservedImplements
| T_ReservedPackage
| T_ReservedProtected
| T_ReservedInterface
| T_ReservedPrivate
| T_ReservedPublic
| T_Identifier
| T_Accessor
| T_TemplateOpen
| T_TemplateClosed
| T_UnexpectedToken
| T_UnexpectedEndOfProgram.

Definition all_tokens : list token :=
  [T_EndOfProgram; T_Semicolon; T_Colon; T_Comma; T_ParenOpen; T_ParenClose; T_BracketOpen; T_BracketClose; T_BraceOpen; T_BraceClose; T_OperatorFatArrow; T_OperatorNew; T_OperatorIncrement; T_OperatorDecrement; T_OperatorLogicalNot; T_OperatorBitwiseNot; T_OperatorTypeof; T_OperatorVoid; T_OperatorDelete; T_OperatorMultiplication; T_OperatorDivision; T_OperatorRemainder; T_OperatorExponent; T_OperatorAddition; T_OperatorSubtraction; T_OperatorBitShiftLeft; T_OperatorBitShiftRight; T_OperatorUBitShiftRight; T_OperatorLesser; T_OperatorLesserEquals; T_OperatorGreater; T_OperatorGreaterEquals; T_OperatorInstanceof; T_OperatorIn; T_OperatorStrictEquality; T_OperatorStrictInequality; T_OperatorEquality; T_OperatorInequality; T_OperatorBitwiseAnd; T_OperatorBitwiseXor; T_OperatorBitwiseOr; T_OperatorLogicalAnd; T_OperatorLogicalOr; T_OperatorConditional; T_OperatorAssign; T_OperatorAddAssign; T_OperatorSubtractAssign; T_OperatorExponentAssign; T_OperatorMultiplyAssign; T_OperatorDivideAssign; T_OperatorRemainderAssign; T_OperatorBSLAssign; T_OperatorBSRAssign; T_OperatorUBSRAssign; T_OperatorBitAndAssign; T_OperatorBitXorAssign; T_OperatorBitOrAssign; T_OperatorSpread; T_DeclarationVar; T_DeclarationLet; T_DeclarationConst; T_Break; T_Do; T_Case; T_Else; T_Catch; T_Export; T_Class; T_Extends; T_Return; T_While; T_Finally; T_Super; T_With; T_Continue; T_For; T_Switch; T_Yield; T_Debugger; T_Function; T_This; T_Default; T_If; T_Throw; T_Import; T_Try; T_Static; T_LiteralTrue; T_LiteralFalse; T_LiteralNull; T_LiteralUndefined; T_LiteralString; T_LiteralNumber; T_LiteralBinary; T_LiteralRegEx; T_ReservedEnum; T_ReservedImplements; T_ReservedPackage; T_ReservedProtected; T_ReservedInterface; T_ReservedPrivate; T_ReservedPublic; T_Identifier; T_Accessor; T_TemplateOpen; T_TemplateClosed; T_UnexpectedToken; T_UnexpectedEndOfProgram].

(** [token as usize / isize]: the discriminant used to index the handler tables. *)
Definition token_index (t : token) : nat :=
  match t with
  | T_EndOfProgram => 0
  | T_Semicolon => 1
  | T_Colon => 2
  | T_Comma => 3
  | T_ParenOpen => 4
  | T_ParenClose => 5
  | T_BracketOpen => 6
  | T_BracketClose => 7
  | T_BraceOpen => 8
  | T_BraceClose => 9
  | T_OperatorFatArrow => 10
  | T_OperatorNew => 11
  | T_OperatorIncrement => 12
  | T_OperatorDecrement => 13
  | T_OperatorLogicalNot => 14
  | T_OperatorBitwiseNot => 15
  | T_OperatorTypeof => 16
  | T_OperatorVoid => 17
  | T_OperatorDelete => 18
  | T_OperatorMultiplication => 19
  | T_OperatorDivision => 20
  | T_OperatorRemainder => 21
  | T_OperatorExponent => 22
  | T_OperatorAddition => 23
  | T_OperatorSubtraction => 24
  | T_OperatorBitShiftLeft => 25
  | T_OperatorBitShiftRight => 26
  | T_OperatorUBitShiftRight => 27
  | T_OperatorLesser => 28
  | T_OperatorLesserEquals => 29
  | T_OperatorGreater => 30
  | T_OperatorGreaterEquals => 31
  | T_OperatorInstanceof => 32
  | T_OperatorIn => 33
  | T_OperatorStrictEquality => 34
  | T_OperatorStrictInequality => 35
  | T_OperatorEquality => 36
  | T_OperatorInequality => 37
  | T_OperatorBitwiseAnd => 38
  | T_OperatorBitwiseXor => 39
  | T_OperatorBitwiseOr => 40
  | T_OperatorLogicalAnd => 41
  | T_OperatorLogicalOr => 42
  | T_OperatorConditional => 43
  | T_OperatorAssign => 44
  | T_OperatorAddAssign => 45
  | T_OperatorSubtractAssign => 46
  | T_OperatorExponentAssign => 47
  | T_OperatorMultiplyAssign => 48
  | T_OperatorDivideAssign => 49
  | T_OperatorRemainderAssign => 50
  | T_OperatorBSLAssign => 51
  | T_OperatorBSRAssign => 52
  | T_OperatorUBSRAssign => 53
  | T_OperatorBitAndAssign => 54
  | T_OperatorBitXorAssign => 55
  | T_OperatorBitOrAssign => 56
  | T_OperatorSpread => 57
  | T_DeclarationVar => 58
  | T_DeclarationLet => 59
  | T_DeclarationConst => 60
  | T_Break => 61
  | T_Do => 62
  | T_Case => 63
  | T_Else => 64
  | T_Catch => 65
  | T_Export => 66
  | T_Class => 67
  | T_Extends => 68
  | T_Return => 69
  | T_While => 70
  | T_Finally => 71
  | T_Super => 72
  | T_With => 73
  | T_Continue => 74
  | T_For => 75
  | T_Switch => 76
  | T_Yield => 77
  | T_Debugger => 78
  | T_Function => 79
  | T_This => 80
  | T_Default => 81
  | T_If => 82
  | T_Throw => 83
  | T_Import => 84
  | T_Try => 85
  | T_Static => 86
  | T_LiteralTrue => 87
  | T_LiteralFalse => 88
  | T_LiteralNull => 89
  | T_LiteralUndefined => 90
  | T_LiteralString => 91
  | T_LiteralNumber => 92
  | T_LiteralBinary => 93
  | T_LiteralRegEx => 94
  | T_ReservedEnum => 95
  | T_ReservedImplements => 96
  | T_ReservedPackage => 97
  | T_ReservedProtected => 98
  | T_ReservedInterface => 99
  | T_ReservedPrivate => 100
  | T_ReservedPublic => 101
  | T_Identifier => 102
  | T_Accessor => 103
  | T_TemplateOpen => 104
  | T_TemplateClosed => 105
  | T_UnexpectedToken => 106
  | T_UnexpectedEndOfProgram => 107
  end.

(** Derived [PartialEq] on [Token]. *)
Definition token_eqb (a b : token) : bool := Nat.eqb (token_index a) (token_index b).

Definition token_eq_dec (a b : token) : {a = b} + {a <> b}.
Proof. decide equality. Defined.

(** [Token::is_word], /repo/ratel/src/lexer/token.rs:126-172. *)
Definition is_word (t : token) : bool :=
  match t with
  | T_Identifier | T_Break | T_Do | T_Case | T_Else | T_Catch | T_Export | T_Class | T_Extends | T_Return | T_While | T_Finally | T_Super | T_With | T_Continue | T_For | T_Switch | T_Yield | T_Debugger | T_Function | T_This | T_Default | T_If | T_Throw | T_Import | T_Try | T_Static | T_OperatorNew | T_OperatorTypeof | T_OperatorVoid | T_OperatorDelete | T_OperatorInstanceof | T_LiteralTrue | T_LiteralFalse | T_LiteralNull | T_LiteralUndefined => true
  | _ => false
  end.

(** [OperatorKind], /repo/ratel/src/ast/operator.rs:4-54. *)
Inductive operator : Set :=
| O_FatArrow
| O_New
| O_Increment
| O_Decrement
| O_LogicalNot
| O_BitwiseNot
| O_Typeof
| O_Void
| O_Delete
| O_Multiplication
| O_Division
| O_Remainder
| O_Exponent
| O_Addition
| O_Subtraction
| O_BitShiftLeft
| O_BitShiftRight
| O_UBitShiftRight
| O_Lesser
| O_LesserEquals
| O_Greater
| O_GreaterEquals
| O_Instanceof
| O_In
| O_StrictEquality
| O_StrictInequality
| O_Equality
| O_Inequality
| O_BitwiseAnd
| O_BitwiseXor
| O_BitwiseOr
| O_LogicalAnd
| O_LogicalOr
| O_Conditional
| O_Assign
| O_AddAssign
| O_SubtractAssign
| O_ExponentAssign
| O_MultiplyAssign
| O_DivideAssign
| O_RemainderAssign
| O_BSLAssign
| O_BSRAssign
| O_UBSRAssign
| O_BitAndAssign
| O_BitXorAssign
| O_BitOrAssign
| O_Spread.

Definition all_operators : list operator :=
  [O_FatArrow; O_New; O_Increment; O_Decrement; O_LogicalNot; O_BitwiseNot; O_Typeof; O_Void; O_Delete; O_Multiplication; O_Division; O_Remainder; O_Exponent; O_Addition; O_Subtraction; O_BitShiftLeft; O_BitShiftRight; O_UBitShiftRight; O_Lesser; O_LesserEquals; O_Greater; O_GreaterEquals; O_Instanceof; O_In; O_StrictEquality; O_StrictInequality; O_Equality; O_Inequality; O_BitwiseAnd; O_BitwiseXor; O_BitwiseOr; O_LogicalAnd; O_LogicalOr; O_Conditional; O_Assign; O_AddAssign; O_SubtractAssign; O_ExponentAssign; O_MultiplyAssign; O_DivideAssign; O_RemainderAssign; O_BSLAssign; O_BSRAssign; O_UBSRAssign; O_BitAndAssign; O_BitXorAssign; O_BitOrAssign; O_Spread].

Definition operator_index (o : operator) : nat :=
  match o with
  | O_FatArrow => 0
  | O_New => 1
  | O_Increment => 2
  | O_Decrement => 3
  | O_LogicalNot => 4
  | O_BitwiseNot => 5
  | O_Typeof => 6
  | O_Void => 7
  | O_Delete => 8
  | O_Multiplication => 9
  | O_Division => 10
  | O_Remainder => 11
  | O_Exponent => 12
  | O_Addition => 13
  | O_Subtraction => 14
  | O_BitShiftLeft => 15
  | O_BitShiftRight => 16
  | O_UBitShiftRight => 17
  | O_Lesser => 18
  | O_LesserEquals => 19
  | O_Greater => 20
  | O_GreaterEquals => 21
  | O_Instanceof => 22
  | O_In => 23
  | O_StrictEquality => 24
  | O_StrictInequality => 25
  | O_Equality => 26
  | O_Inequality => 27
  | O_BitwiseAnd => 28
  | O_BitwiseXor => 29
  | O_BitwiseOr => 30
  | O_LogicalAnd => 31
  | O_LogicalOr => 32
  | O_Conditional => 33
  | O_Assign => 34
  | O_AddAssign => 35
  | O_SubtractAssign => 36
  | O_ExponentAssign => 37
  | O_MultiplyAssign => 38
  | O_DivideAssign => 39
  | O_RemainderAssign => 40
  | O_BSLAssign => 41
  | O_BSRAssign => 42
  | O_UBSRAssign => 43
  | O_BitAndAssign => 44
  | O_BitXorAssign => 45
  | O_BitOrAssign => 46
  | O_Spread => 47
  end.

(** Derived [PartialEq] on [OperatorKind]. *)
Definition operator_eqb (a b : operator) : bool := Nat.eqb (operator_index a) (operator_index b).

Definition operator_eq_dec (a b : operator) : {a = b} + {a <> b}.
Proof. decide equality. Defined.

(** [OperatorKind::from_token], operator.rs:68-121. *)
Definition operator_from_token (t : token) : option operator :=
  match t with
  | T_OperatorFatArrow => Some O_FatArrow
  | T_OperatorNew => Some O_New
  | T_OperatorIncrement => Some O_Increment
  | T_OperatorDecrement => Some O_Decrement
  | T_OperatorLogicalNot => Some O_LogicalNot
  | T_OperatorBitwiseNot => Some O_BitwiseNot
  | T_OperatorTypeof => Some O_Typeof
  | T_OperatorVoid => Some O_Void
  | T_OperatorDelete => Some O_Delete
  | T_OperatorMultiplication => Some O_Multiplication
  | T_OperatorDivision => Some O_Division
  | T_OperatorRemainder => Some O_Remainder
  | T_OperatorExponent => Some O_Exponent
  | T_OperatorAddition => Some O_Addition
  | T_OperatorSubtraction => Some O_Subtraction
  | T_OperatorBitShiftLeft => Some O_BitShiftLeft
  | T_OperatorBitShiftRight => Some O_BitShiftRight
  | T_OperatorUBitShiftRight => Some O_UBitShiftRight
  | T_OperatorLesser => Some O_Lesser
  | T_OperatorLesserEquals => Some O_LesserEquals
  | T_OperatorGreater => Some O_Greater
  | T_OperatorGreaterEquals => Some O_GreaterEquals
  | T_OperatorInstanceof => Some O_Instanceof
  | T_OperatorIn => Some O_In
  | T_OperatorStrictEquality => Some O_StrictEquality
  | T_OperatorStrictInequality => Some O_StrictInequality
  | T_OperatorEquality => Some O_Equality
  | T_OperatorInequality => Some O_Inequality
  | T_OperatorBitwiseAnd => Some O_BitwiseAnd
  | T_OperatorBitwiseXor => Some O_BitwiseXor
  | T_OperatorBitwiseOr => Some O_BitwiseOr
  | T_OperatorLogicalAnd => Some O_LogicalAnd
  | T_OperatorLogicalOr => Some O_LogicalOr
  | T_OperatorConditional => Some O_Conditional
  | T_OperatorAssign => Some O_Assign
  | T_OperatorAddAssign => Some O_AddAssign
  | T_OperatorSubtractAssign => Some O_SubtractAssign
  | T_OperatorExponentAssign => Some O_ExponentAssign
  | T_OperatorMultiplyAssign => Some O_MultiplyAssign
  | T_OperatorDivideAssign => Some O_DivideAssign
  | T_OperatorRemainderAssign => Some O_RemainderAssign
  | T_OperatorBSLAssign => Some O_BSLAssign
  | T_OperatorBSRAssign => Some O_BSRAssign
  | T_OperatorUBSRAssign => Some O_UBSRAssign
  | T_OperatorBitAndAssign => Some O_BitAndAssign
  | T_OperatorBitXorAssign => Some O_BitXorAssign
  | T_OperatorBitOrAssign => Some O_BitOrAssign
  | T_OperatorSpread => Some O_Spread
  | _ => None
  end.

(** [OperatorKind::as_str], operator.rs:123-176. *)
Definition operator_str (o : operator) : str :=
  match o with
  | O_FatArrow => bs "=>"
  | O_New => bs "new"
  | O_Increment => bs "++"
  | O_Decrement => bs "--"
  | O_LogicalNot => bs "!"
  | O_BitwiseNot => bs "~"
  | O_Typeof => bs "typeof"
  | O_Void => bs "void"
  | O_Delete => bs "delete"
  | O_Multiplication => bs "*"
  | O_Division => bs "/"
  | O_Remainder => bs "%"
  | O_Exponent => bs "**"
  | O_Addition => bs "+"
  | O_Subtraction => bs "-"
  | O_BitShiftLeft => bs "<<"
  | O_BitShiftRight => bs ">>"
  | O_UBitShiftRight => bs ">>>"
  | O_Lesser => bs "<"
  | O_LesserEquals => bs "<="
  | O_Greater => bs ">"
  | O_GreaterEquals => bs ">="
  | O_Instanceof => bs "instanceof"
  | O_In => bs "in"
  | O_StrictEquality => bs "==="
  | O_StrictInequality => bs "!=="
  | O_Equality => bs "=="
  | O_Inequality => bs "!="
  | O_BitwiseAnd => bs "&"
  | O_BitwiseXor => bs "^"
  | O_BitwiseOr => bs "|"
  | O_LogicalAnd => bs "&&"
  | O_LogicalOr => bs "||"
  | O_Conditional => bs "?"
  | O_Assign => bs "="
  | O_AddAssign => bs "+="
  | O_SubtractAssign => bs "-="
  | O_ExponentAssign => bs "**="
  | O_MultiplyAssign => bs "*="
  | O_DivideAssign => bs "/="
  | O_RemainderAssign => bs "%="
  | O_BSLAssign => bs "<<="
  | O_BSRAssign => bs ">>="
  | O_UBSRAssign => bs ">>>="
  | O_BitAndAssign => bs "&="
  | O_BitXorAssign => bs "^="
  | O_BitOrAssign => bs "|="
  | O_Spread => bs "..."
  end.

(** [OperatorKind::binding_power], operator.rs:178-242. *)
Definition operator_bp (o : operator) : nat :=
  match o with
  | O_FatArrow => 18
  | O_New => 17
  | O_Increment | O_Decrement => 16
  | O_LogicalNot | O_BitwiseNot | O_Typeof | O_Void | O_Delete => 15
  | O_Multiplication | O_Division | O_Remainder | O_Exponent => 14
  | O_Addition | O_Subtraction => 13
  | O_BitShiftLeft | O_BitShiftRight | O_UBitShiftRight => 12
  | O_Lesser | O_LesserEquals | O_Greater | O_GreaterEquals | O_Instanceof | O_In => 11
  | O_StrictEquality | O_StrictInequality | O_Equality | O_Inequality => 10
  | O_BitwiseAnd => 9
  | O_BitwiseXor => 8
  | O_BitwiseOr => 7
  | O_LogicalAnd => 6
  | O_LogicalOr => 5
  | O_Conditional => 4
  | O_Assign | O_AddAssign | O_SubtractAssign | O_ExponentAssign | O_MultiplyAssign | O_DivideAssign | O_RemainderAssign | O_BSLAssign | O_BSRAssign | O_UBSRAssign | O_BitAndAssign | O_BitXorAssign | O_BitOrAssign => 3
  | O_Spread => 1
  end.

(** [OperatorKind::prefix], operator.rs:244-261. *)
Definition operator_prefix (o : operator) : bool :=
  match o with
  | O_LogicalNot | O_BitwiseNot | O_Typeof | O_Void | O_Delete | O_New | O_Spread | O_Increment | O_Decrement | O_Addition | O_Subtraction => true
  | _ => false
  end.

(** [OperatorKind::infix], operator.rs:263-308. *)
Definition operator_infix (o : operator) : bool :=
  match o with
  | O_FatArrow | O_Multiplication | O_Division | O_Remainder | O_Exponent | O_StrictEquality | O_StrictInequality | O_Equality | O_Inequality | O_Lesser | O_LesserEquals | O_Greater | O_GreaterEquals | O_Instanceof | O_In | O_BitShiftLeft | O_BitShiftRight | O_UBitShiftRight | O_BitwiseAnd | O_BitwiseXor | O_BitwiseOr | O_LogicalAnd | O_LogicalOr | O_Conditional | O_Addition | O_Subtraction | O_Assign | O_AddAssign | O_SubtractAssign | O_ExponentAssign | O_MultiplyAssign | O_DivideAssign | O_RemainderAssign | O_BSLAssign | O_BSRAssign | O_UBSRAssign | O_BitAndAssign | O_BitXorAssign | O_BitOrAssign => true
  | _ => false
  end.

(** [OperatorKind::assignment], operator.rs:310-329. *)
Definition operator_assignment (o : operator) : bool :=
  match o with
  | O_Assign | O_AddAssign | O_SubtractAssign | O_ExponentAssign | O_MultiplyAssign | O_DivideAssign | O_RemainderAssign | O_BSLAssign | O_BSRAssign | O_UBSRAssign | O_BitAndAssign | O_BitXorAssign | O_BitOrAssign => true
  | _ => false
  end.

(** [OperatorCategory], operator.rs:57-63. *)
Inductive opcategory : Set := CatMinus | CatPlus | CatSafe | CatWord.

(** [OperatorKind::category], operator.rs:331-347. *)
Definition operator_category (o : operator) : opcategory :=
  match o with
  | O_In | O_New | O_Typeof | O_Void | O_Delete | O_Instanceof => CatWord
  | O_Addition | O_Increment => CatPlus
  | O_Subtraction | O_Decrement => CatMinus
  | _ => CatSafe
  end.
