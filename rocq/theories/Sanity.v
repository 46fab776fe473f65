(** The repository's own unit tests, executed on the model (tests, not proofs).
    Generated by tools/gen_sanity.py from the test modules in /repo. *)
From Coq Require Import List NArith Bool String.
From Coq.Strings Require Import Byte.
From Verif Require Import Bytes Token Lexer Ast Prog Parser Codegen Astgen ErrorFmt Visitor.
Import ListNotations.

Definition ascii_alnum (n : N) : bool := N.ltb 127 n.

(** JSON values are compared without regard to the order of the fields. *)
Fixpoint json_eqb (a b : json) {struct a} : bool :=
  match a, b with
  | J_Null, J_Null => true
  | J_Bool x, J_Bool y => Bool.eqb x y
  | J_Int x, J_Int y => N.eqb x y
  | J_Float x, J_Float y => match y with [] => true | _ => str_eqb x y end
  | J_Str x, J_Str y => str_eqb x y
  | J_Arr l, J_Arr r =>
      (fix go (l r : list json) : bool :=
         match l, r with
         | [], [] => true
         | x :: l', y :: r' => json_eqb x y && go l' r'
         | _, _ => false
         end) l r
  | J_Obj l, J_Obj r =>
      Nat.eqb (List.length l) (List.length r) &&
      (fix go (l : list (str * json)) : bool :=
         match l with
         | [] => true
         | (k, v) :: l' =>
             match find (fun p => str_eqb (fst p) k) r with
             | Some (_, v') => json_eqb v v'
             | None => false
             end && go l'
         end) l
  | _, _ => false
  end.
Definition J_Float_any : json := J_Float [].

Definition check_estree (src : str) (expected : json) : bool :=
  match parse_fuel ascii_alnum 200 src with
  | Done (ParseOk m) =>
      match a_module m with Done j => json_eqb j expected | _ => false end
  | _ => false
  end.
Definition check_codegen (minify : bool) (src expected : str) : bool :=
  match parse_fuel ascii_alnum 200 src with
  | Done (ParseOk m) =>
      match codegen m minify with Done s => str_eqb s expected | _ => false end
  | _ => false
  end.
Fixpoint check_tokens (lx : lexer) (l : list (token * str)) : bool :=
  match l with
  | [] => token_eqb (lx_token lx) T_EndOfProgram
  | (t, s) :: l' =>
      token_eqb (lx_token lx) t && str_eqb (token_as_str lx) s &&
      match consume ascii_alnum lx with Done lx' => check_tokens lx' l' | _ => false end
  end.
Definition check_lex (src : str) (l : list (token * str)) : bool :=
  match lexer_new ascii_alnum src with Done lx => check_tokens lx l | _ => false end.

(** /repo/ratel/src/lexer/mod.rs *)
Example lex_01 : check_lex (bs "   ") [] = true. Proof. vm_compute; reflexivity. Qed.
Example lex_02 : check_lex (bs " // foo") [] = true. Proof. vm_compute; reflexivity. Qed.
Example lex_03 : check_lex (bs " /* foo */ bar") [(T_Identifier, (bs "bar"))] = true. Proof. vm_compute; reflexivity. Qed.
Example lex_04 : check_lex (bs " /** foo **/ bar") [(T_Identifier, (bs "bar"))] = true. Proof. vm_compute; reflexivity. Qed.
Example lex_05 : check_lex (bs " /*abc foo **/ bar") [(T_Identifier, (bs "bar"))] = true. Proof. vm_compute; reflexivity. Qed.
Example lex_06 : check_lex (bs "foo.bar();") [(T_Identifier, (bs "foo")); (T_Accessor, (bs ".bar")); (T_ParenOpen, (bs "(")); (T_ParenClose, (bs ")")); (T_Semicolon, (bs ";"))] = true. Proof. vm_compute; reflexivity. Qed.
Example lex_07 : check_lex (bs "foo.function();") [(T_Identifier, (bs "foo")); (T_Accessor, (bs ".function")); (T_ParenOpen, (bs "(")); (T_ParenClose, (bs ")")); (T_Semicolon, (bs ";"))] = true. Proof. vm_compute; reflexivity. Qed.
Example lex_08 : check_lex (bs "let foo = 2 + 2;") [(T_DeclarationLet, (bs "let")); (T_Identifier, (bs "foo")); (T_OperatorAssign, (bs "=")); (T_LiteralNumber, (bs "2")); (T_OperatorAddition, (bs "+")); (T_LiteralNumber, (bs "2")); (T_Semicolon, (bs ";"))] = true. Proof. vm_compute; reflexivity. Qed.
Example lex_09 : check_lex (bs "var x, y, z = 42;") [(T_DeclarationVar, (bs "var")); (T_Identifier, (bs "x")); (T_Comma, (bs ",")); (T_Identifier, (bs "y")); (T_Comma, (bs ",")); (T_Identifier, (bs "z")); (T_OperatorAssign, (bs "=")); (T_LiteralNumber, (bs "42")); (T_Semicolon, (bs ";"))] = true. Proof. vm_compute; reflexivity. Qed.
Example lex_10 : check_lex (bs "function foo(bar) { return bar }") [(T_Function, (bs "function")); (T_Identifier, (bs "foo")); (T_ParenOpen, (bs "(")); (T_Identifier, (bs "bar")); (T_ParenClose, (bs ")")); (T_BraceOpen, (bs "{")); (T_Return, (bs "return")); (T_Identifier, (bs "bar")); (T_BraceClose, (bs "}"))] = true. Proof. vm_compute; reflexivity. Qed.
Example lex_11 : check_lex (bs "..") [(T_UnexpectedToken, (bs ".."))] = true. Proof. vm_compute; reflexivity. Qed.
Example lex_12 : check_lex (bs "'foo") [(T_UnexpectedEndOfProgram, (bs "'foo"))] = true. Proof. vm_compute; reflexivity. Qed.
Example lex_13 : check_lex [x0a; x20; x20; x20; x20; x20; x20; x20; x20; x20; x20; x20; x20; x20; x20; x20; x20; x62; x72; x65; x61; x6b; x20; x63; x61; x73; x65; x20; x63; x6c; x61; x73; x73; x20; x63; x6f; x6e; x73; x74; x20; x64; x65; x62; x75; x67; x67; x65; x72; x20; x64; x65; x66; x61; x75; x6c; x74; x20; x64; x65; x6c; x65; x74; x65; x20; x64; x6f; x20; x65; x6c; x73; x65; x0a; x20; x20; x20; x20; x20; x20; x20; x20; x20; x20; x20; x20; x20; x20; x20; x20; x65; x78; x70; x6f; x72; x74; x20; x65; x78; x74; x65; x6e; x64; x73; x20; x66; x61; x6c; x73; x65; x20; x66; x69; x6e; x61; x6c; x6c; x79; x20; x66; x6f; x72; x20; x66; x75; x6e; x63; x74; x69; x6f; x6e; x20; x69; x66; x20; x69; x6d; x70; x6c; x65; x6d; x65; x6e; x74; x73; x0a; x20; x20; x20; x20; x20; x20; x20; x20; x20; x20; x20; x20; x20; x20; x20; x20; x69; x6d; x70; x6f; x72; x74; x20; x69; x6e; x20; x69; x6e; x73; x74; x61; x6e; x63; x65; x6f; x66; x20; x69; x6e; x74; x65; x72; x66; x61; x63; x65; x20; x6c; x65; x74; x20; x6e; x65; x77; x20; x6e; x75; x6c; x6c; x20; x70; x61; x63; x6b; x61; x67; x65; x0a; x20; x20; x20; x20; x20; x20; x20; x20; x20; x20; x20; x20; x20; x20; x20; x20; x70; x72; x6f; x74; x65; x63; x74; x65; x64; x20; x70; x75; x62; x6c; x69; x63; x20; x72; x65; x74; x75; x72; x6e; x20; x73; x74; x61; x74; x69; x63; x20; x73; x75; x70; x65; x72; x20; x73; x77; x69; x74; x63; x68; x20; x74; x68; x69; x73; x20; x74; x68; x72; x6f; x77; x0a; x20; x20; x20; x20; x20; x20; x20; x20; x20; x20; x20; x20; x20; x20; x20; x20; x74; x72; x75; x65; x20; x74; x72; x79; x20; x75; x6e; x64; x65; x66; x69; x6e; x65; x64; x20; x74; x79; x70; x65; x6f; x66; x20; x76; x61; x72; x20; x76; x6f; x69; x64; x20; x77; x68; x69; x6c; x65; x20; x77; x69; x74; x68; x20; x79; x69; x65; x6c; x64; x0a; x20; x20; x20; x20; x20; x20; x20; x20; x20; x20; x20; x20] [(T_Break, (bs "break")); (T_Case, (bs "case")); (T_Class, (bs "class")); (T_DeclarationConst, (bs "const")); (T_Debugger, (bs "debugger")); (T_Default, (bs "default")); (T_OperatorDelete, (bs "delete")); (T_Do, (bs "do")); (T_Else, (bs "else")); (T_Export, (bs "export")); (T_Extends, (bs "extends")); (T_LiteralFalse, (bs "false")); (T_Finally, (bs "finally")); (T_For, (bs "for")); (T_Function, (bs "function")); (T_If, (bs "if")); (T_ReservedImplements, (bs "implements")); (T_Import, (bs "import")); (T_OperatorIn, (bs "in")); (T_OperatorInstanceof, (bs "instanceof")); (T_ReservedInterface, (bs "interface")); (T_DeclarationLet, (bs "let")); (T_OperatorNew, (bs "new")); (T_LiteralNull, (bs "null")); (T_ReservedPackage, (bs "package")); (T_ReservedProtected, (bs "protected")); (T_ReservedPublic, (bs "public")); (T_Return, (bs "return")); (T_Static, (bs "static")); (T_Super, (bs "super")); (T_Switch, (bs "switch")); (T_This, (bs "this")); (T_Throw, (bs "throw")); (T_LiteralTrue, (bs "true")); (T_Try, (bs "try")); (T_LiteralUndefined, (bs "undefined")); (T_OperatorTypeof, (bs "typeof")); (T_DeclarationVar, (bs "var")); (T_OperatorVoid, (bs "void")); (T_While, (bs "while")); (T_With, (bs "with")); (T_Yield, (bs "yield"))] = true. Proof. vm_compute; reflexivity. Qed.
Example lex_14 : check_lex [x0a; x20; x20; x20; x20; x20; x20; x20; x20; x20; x20; x20; x20; x20; x20; x20; x20; x3d; x3e; x20; x6e; x65; x77; x20; x2b; x2b; x20; x2d; x2d; x20; x21; x20; x7e; x20; x74; x79; x70; x65; x6f; x66; x20; x76; x6f; x69; x64; x20; x64; x65; x6c; x65; x74; x65; x20; x2a; x20; x2f; x20; x25; x20; x2a; x2a; x20; x2b; x20; x2d; x20; x3c; x3c; x20; x3e; x3e; x0a; x20; x20; x20; x20; x20; x20; x20; x20; x20; x20; x20; x20; x20; x20; x20; x20; x3e; x3e; x3e; x20; x3c; x20; x3c; x3d; x20; x3e; x20; x3e; x3d; x20; x69; x6e; x73; x74; x61; x6e; x63; x65; x6f; x66; x20; x69; x6e; x20; x3d; x3d; x3d; x20; x21; x3d; x3d; x20; x3d; x3d; x20; x21; x3d; x20; x26; x20; x5e; x20; x7c; x20; x26; x26; x20; x7c; x7c; x0a; x20; x20; x20; x20; x20; x20; x20; x20; x20; x20; x20; x20; x20; x20; x20; x20; x3f; x20; x3d; x20; x2b; x3d; x20; x2d; x3d; x20; x2a; x2a; x3d; x20; x2a; x3d; x20; x2f; x3d; x20; x25; x3d; x20; x3c; x3c; x3d; x20; x3e; x3e; x3d; x20; x3e; x3e; x3e; x3d; x20; x26; x3d; x20; x5e; x3d; x20; x7c; x3d; x20; x2e; x2e; x2e; x0a; x20; x20; x20; x20; x20; x20; x20; x20; x20; x20; x20; x20] [(T_OperatorFatArrow, (bs "=>")); (T_OperatorNew, (bs "new")); (T_OperatorIncrement, (bs "++")); (T_OperatorDecrement, (bs "--")); (T_OperatorLogicalNot, (bs "!")); (T_OperatorBitwiseNot, (bs "~")); (T_OperatorTypeof, (bs "typeof")); (T_OperatorVoid, (bs "void")); (T_OperatorDelete, (bs "delete")); (T_OperatorMultiplication, (bs "*")); (T_OperatorDivision, (bs "/")); (T_OperatorRemainder, (bs "%")); (T_OperatorExponent, (bs "**")); (T_OperatorAddition, (bs "+")); (T_OperatorSubtraction, (bs "-")); (T_OperatorBitShiftLeft, (bs "<<")); (T_OperatorBitShiftRight, (bs ">>")); (T_OperatorUBitShiftRight, (bs ">>>")); (T_OperatorLesser, (bs "<")); (T_OperatorLesserEquals, (bs "<=")); (T_OperatorGreater, (bs ">")); (T_OperatorGreaterEquals, (bs ">=")); (T_OperatorInstanceof, (bs "instanceof")); (T_OperatorIn, (bs "in")); (T_OperatorStrictEquality, (bs "===")); (T_OperatorStrictInequality, (bs "!==")); (T_OperatorEquality, (bs "==")); (T_OperatorInequality, (bs "!=")); (T_OperatorBitwiseAnd, (bs "&")); (T_OperatorBitwiseXor, (bs "^")); (T_OperatorBitwiseOr, (bs "|")); (T_OperatorLogicalAnd, (bs "&&")); (T_OperatorLogicalOr, (bs "||")); (T_OperatorConditional, (bs "?")); (T_OperatorAssign, (bs "=")); (T_OperatorAddAssign, (bs "+=")); (T_OperatorSubtractAssign, (bs "-=")); (T_OperatorExponentAssign, (bs "**=")); (T_OperatorMultiplyAssign, (bs "*=")); (T_OperatorDivideAssign, (bs "/=")); (T_OperatorRemainderAssign, (bs "%=")); (T_OperatorBSLAssign, (bs "<<=")); (T_OperatorBSRAssign, (bs ">>=")); (T_OperatorUBSRAssign, (bs ">>>=")); (T_OperatorBitAndAssign, (bs "&=")); (T_OperatorBitXorAssign, (bs "^=")); (T_OperatorBitOrAssign, (bs "|=")); (T_OperatorSpread, (bs "..."))] = true. Proof. vm_compute; reflexivity. Qed.
(** /repo/ratel-codegen/src/expression.rs *)
Example codegen_001 : check_codegen true (bs "null") (bs "null;") = true. Proof. vm_compute; reflexivity. Qed.
Example codegen_002 : check_codegen true (bs "undefined") (bs "undefined;") = true. Proof. vm_compute; reflexivity. Qed.
Example codegen_003 : check_codegen true (bs "true") (bs "true;") = true. Proof. vm_compute; reflexivity. Qed.
Example codegen_004 : check_codegen true (bs "false") (bs "false;") = true. Proof. vm_compute; reflexivity. Qed.
Example codegen_005 : check_codegen true (bs "42") (bs "42;") = true. Proof. vm_compute; reflexivity. Qed.
Example codegen_006 : check_codegen true (bs "3.14") (bs "3.14;") = true. Proof. vm_compute; reflexivity. Qed.
Example codegen_007 : check_codegen true (bs " ""foobar"" ") (bs """foobar"";") = true. Proof. vm_compute; reflexivity. Qed.
Example codegen_008 : check_codegen true (bs " 'foobar' ") (bs "'foobar';") = true. Proof. vm_compute; reflexivity. Qed.
Example codegen_009 : check_codegen true (bs "``") (bs "``;") = true. Proof. vm_compute; reflexivity. Qed.
Example codegen_010 : check_codegen true (bs "foo``") (bs "foo``;") = true. Proof. vm_compute; reflexivity. Qed.
Example codegen_011 : check_codegen true (bs "`foobar`") (bs "`foobar`;") = true. Proof. vm_compute; reflexivity. Qed.
Example codegen_012 : check_codegen true (bs "foo`bar`") (bs "foo`bar`;") = true. Proof. vm_compute; reflexivity. Qed.
Example codegen_013 : check_codegen true (bs "`foo${ 10 }bar${ 20 }baz`") (bs "`foo${10}bar${20}baz`;") = true. Proof. vm_compute; reflexivity. Qed.
Example codegen_014 : check_codegen true (bs "foo`bar${ 10 }baz`") (bs "foo`bar${10}baz`;") = true. Proof. vm_compute; reflexivity. Qed.
Example codegen_015 : check_codegen true (bs "foo`${ 10 }`") (bs "foo`${10}`;") = true. Proof. vm_compute; reflexivity. Qed.
Example codegen_016 : check_codegen true (bs "foo, bar, baz;") (bs "foo,bar,baz;") = true. Proof. vm_compute; reflexivity. Qed.
Example codegen_017 : check_codegen true (bs "1, 2, 3;") (bs "1,2,3;") = true. Proof. vm_compute; reflexivity. Qed.
Example codegen_018 : check_codegen true (bs "1,2,3+4;") (bs "1,2,3+4;") = true. Proof. vm_compute; reflexivity. Qed.
Example codegen_019 : check_codegen true (bs "1,2,(3+4);") (bs "1,2,3+4;") = true. Proof. vm_compute; reflexivity. Qed.
Example codegen_020 : check_codegen true (bs "1+2,3,4;") (bs "1+2,3,4;") = true. Proof. vm_compute; reflexivity. Qed.
Example codegen_021 : check_codegen true (bs "(1+2),3,4;") (bs "1+2,3,4;") = true. Proof. vm_compute; reflexivity. Qed.
Example codegen_022 : check_codegen true (bs "1+(2,3,4);") (bs "1+(2,3,4);") = true. Proof. vm_compute; reflexivity. Qed.
Example codegen_023 : check_codegen true (bs "(1,2,3)+4;") (bs "(1,2,3)+4;") = true. Proof. vm_compute; reflexivity. Qed.
Example codegen_024 : check_codegen true (bs "a = 10") (bs "a=10;") = true. Proof. vm_compute; reflexivity. Qed.
Example codegen_025 : check_codegen true (bs "a == 10") (bs "a==10;") = true. Proof. vm_compute; reflexivity. Qed.
Example codegen_026 : check_codegen true (bs "a === 10") (bs "a===10;") = true. Proof. vm_compute; reflexivity. Qed.
Example codegen_027 : check_codegen true (bs "a != 10") (bs "a!=10;") = true. Proof. vm_compute; reflexivity. Qed.
Example codegen_028 : check_codegen true (bs "a !== 10") (bs "a!==10;") = true. Proof. vm_compute; reflexivity. Qed.
Example codegen_029 : check_codegen true (bs "a += 10") (bs "a+=10;") = true. Proof. vm_compute; reflexivity. Qed.
Example codegen_030 : check_codegen true (bs "a -= 10") (bs "a-=10;") = true. Proof. vm_compute; reflexivity. Qed.
Example codegen_031 : check_codegen true (bs "a <<= 10") (bs "a<<=10;") = true. Proof. vm_compute; reflexivity. Qed.
Example codegen_032 : check_codegen true (bs "a >>= 10") (bs "a>>=10;") = true. Proof. vm_compute; reflexivity. Qed.
Example codegen_033 : check_codegen true (bs "a >>>= 10") (bs "a>>>=10;") = true. Proof. vm_compute; reflexivity. Qed.
Example codegen_034 : check_codegen true (bs "2 + 2") (bs "2+2;") = true. Proof. vm_compute; reflexivity. Qed.
Example codegen_035 : check_codegen true (bs "2 - 2") (bs "2-2;") = true. Proof. vm_compute; reflexivity. Qed.
Example codegen_036 : check_codegen true (bs "2 * 2") (bs "2*2;") = true. Proof. vm_compute; reflexivity. Qed.
Example codegen_037 : check_codegen true (bs "2 / 2") (bs "2/2;") = true. Proof. vm_compute; reflexivity. Qed.
Example codegen_038 : check_codegen true (bs "2 % 2") (bs "2%2;") = true. Proof. vm_compute; reflexivity. Qed.
Example codegen_039 : check_codegen true (bs "2 ** 2") (bs "2**2;") = true. Proof. vm_compute; reflexivity. Qed.
Example codegen_040 : check_codegen true (bs "2 << 2") (bs "2<<2;") = true. Proof. vm_compute; reflexivity. Qed.
Example codegen_041 : check_codegen true (bs "2 >> 2") (bs "2>>2;") = true. Proof. vm_compute; reflexivity. Qed.
Example codegen_042 : check_codegen true (bs "2 >>> 2") (bs "2>>>2;") = true. Proof. vm_compute; reflexivity. Qed.
Example codegen_043 : check_codegen true (bs "foo in bar") (bs "foo in bar;") = true. Proof. vm_compute; reflexivity. Qed.
Example codegen_044 : check_codegen true (bs "foo instanceof Foo") (bs "foo instanceof Foo;") = true. Proof. vm_compute; reflexivity. Qed.
Example codegen_045 : check_codegen true (bs "2 + 2 * 2") (bs "2+2*2;") = true. Proof. vm_compute; reflexivity. Qed.
Example codegen_046 : check_codegen true (bs "2 + (2 * 2)") (bs "2+2*2;") = true. Proof. vm_compute; reflexivity. Qed.
Example codegen_047 : check_codegen true (bs "(2 + 2) * 2") (bs "(2+2)*2;") = true. Proof. vm_compute; reflexivity. Qed.
Example codegen_048 : check_codegen true (bs "+foo") (bs "+foo;") = true. Proof. vm_compute; reflexivity. Qed.
Example codegen_049 : check_codegen true (bs "-foo") (bs "-foo;") = true. Proof. vm_compute; reflexivity. Qed.
Example codegen_050 : check_codegen true (bs "!foo") (bs "!foo;") = true. Proof. vm_compute; reflexivity. Qed.
Example codegen_051 : check_codegen true (bs "~foo") (bs "~foo;") = true. Proof. vm_compute; reflexivity. Qed.
Example codegen_052 : check_codegen true (bs "++foo") (bs "++foo;") = true. Proof. vm_compute; reflexivity. Qed.
Example codegen_053 : check_codegen true (bs "--foo") (bs "--foo;") = true. Proof. vm_compute; reflexivity. Qed.
Example codegen_054 : check_codegen true (bs "new foo") (bs "new foo;") = true. Proof. vm_compute; reflexivity. Qed.
Example codegen_055 : check_codegen true (bs "void foo") (bs "void foo;") = true. Proof. vm_compute; reflexivity. Qed.
Example codegen_056 : check_codegen true (bs "typeof foo") (bs "typeof foo;") = true. Proof. vm_compute; reflexivity. Qed.
Example codegen_057 : check_codegen true (bs "foo++") (bs "foo++;") = true. Proof. vm_compute; reflexivity. Qed.
Example codegen_058 : check_codegen true (bs "foo--") (bs "foo--;") = true. Proof. vm_compute; reflexivity. Qed.
Example codegen_059 : check_codegen true (bs "true ? foo : bar") (bs "true?foo:bar;") = true. Proof. vm_compute; reflexivity. Qed.
Example codegen_060 : check_codegen true (bs "(function () {})") (bs "(function(){});") = true. Proof. vm_compute; reflexivity. Qed.
Example codegen_061 : check_codegen true (bs "(function foo() {})") (bs "(function foo(){});") = true. Proof. vm_compute; reflexivity. Qed.
Example codegen_062 : check_codegen true (bs "(class {})") (bs "(class{});") = true. Proof. vm_compute; reflexivity. Qed.
Example codegen_063 : check_codegen true (bs "(class Foo {})") (bs "(class Foo{});") = true. Proof. vm_compute; reflexivity. Qed.
Example codegen_064 : check_codegen true (bs "(class extends Foo {})") (bs "(class extends Foo{});") = true. Proof. vm_compute; reflexivity. Qed.
Example codegen_065 : check_codegen true (bs "(class Foo extends Bar {})") (bs "(class Foo extends Bar{});") = true. Proof. vm_compute; reflexivity. Qed.
Example codegen_066 : check_codegen true (bs "foobar();") (bs "foobar();") = true. Proof. vm_compute; reflexivity. Qed.
Example codegen_067 : check_codegen true (bs "foobar(1, 2, 3);") (bs "foobar(1,2,3);") = true. Proof. vm_compute; reflexivity. Qed.
Example codegen_068 : check_codegen true (bs "foo.bar") (bs "foo.bar;") = true. Proof. vm_compute; reflexivity. Qed.
Example codegen_069 : check_codegen true (bs "this.bar") (bs "this.bar;") = true. Proof. vm_compute; reflexivity. Qed.
Example codegen_070 : check_codegen true (bs "10..fooz") (bs "10..fooz;") = true. Proof. vm_compute; reflexivity. Qed.
Example codegen_071 : check_codegen true (bs "foo[10]") (bs "foo[10];") = true. Proof. vm_compute; reflexivity. Qed.
Example codegen_072 : check_codegen true (bs "foo[""bar""]") (bs "foo[""bar""];") = true. Proof. vm_compute; reflexivity. Qed.
Example codegen_073 : check_codegen true (bs "[]") (bs "[];") = true. Proof. vm_compute; reflexivity. Qed.
Example codegen_074 : check_codegen true (bs "[foo]") (bs "[foo];") = true. Proof. vm_compute; reflexivity. Qed.
Example codegen_075 : check_codegen true (bs "[foo,bar]") (bs "[foo,bar];") = true. Proof. vm_compute; reflexivity. Qed.
Example codegen_076 : check_codegen true (bs "[foo,bar,baz]") (bs "[foo,bar,baz];") = true. Proof. vm_compute; reflexivity. Qed.
Example codegen_077 : check_codegen true (bs "[...foo,...bar]") (bs "[...foo,...bar];") = true. Proof. vm_compute; reflexivity. Qed.
Example codegen_078 : check_codegen true (bs "[]") (bs "[];") = true. Proof. vm_compute; reflexivity. Qed.
Example codegen_079 : check_codegen true (bs "[,]") (bs "[,];") = true. Proof. vm_compute; reflexivity. Qed.
Example codegen_080 : check_codegen true (bs "[1,]") (bs "[1,];") = true. Proof. vm_compute; reflexivity. Qed.
Example codegen_081 : check_codegen true (bs "[,1]") (bs "[,1];") = true. Proof. vm_compute; reflexivity. Qed.
Example codegen_082 : check_codegen true (bs "[,,];") (bs "[,,];") = true. Proof. vm_compute; reflexivity. Qed.
Example codegen_083 : check_codegen true (bs "[1,,];") (bs "[1,,];") = true. Proof. vm_compute; reflexivity. Qed.
Example codegen_084 : check_codegen true (bs "[,,1];") (bs "[,,1];") = true. Proof. vm_compute; reflexivity. Qed.
Example codegen_085 : check_codegen false (bs "[]") (bs "[];") = true. Proof. vm_compute; reflexivity. Qed.
Example codegen_086 : check_codegen false (bs "[,]") (bs "[, ];") = true. Proof. vm_compute; reflexivity. Qed.
Example codegen_087 : check_codegen false (bs "[1,]") (bs "[1, ];") = true. Proof. vm_compute; reflexivity. Qed.
Example codegen_088 : check_codegen false (bs "[,1]") (bs "[, 1];") = true. Proof. vm_compute; reflexivity. Qed.
Example codegen_089 : check_codegen false (bs "[,,];") (bs "[, , ];") = true. Proof. vm_compute; reflexivity. Qed.
Example codegen_090 : check_codegen false (bs "[1,,];") (bs "[1, , ];") = true. Proof. vm_compute; reflexivity. Qed.
Example codegen_091 : check_codegen false (bs "[,,1];") (bs "[, , 1];") = true. Proof. vm_compute; reflexivity. Qed.
Example codegen_092 : check_codegen true (bs "({});") (bs "({});") = true. Proof. vm_compute; reflexivity. Qed.
Example codegen_093 : check_codegen true (bs "({ foo });") (bs "({foo});") = true. Proof. vm_compute; reflexivity. Qed.
Example codegen_094 : check_codegen true (bs "({ foo: 10 });") (bs "({foo:10});") = true. Proof. vm_compute; reflexivity. Qed.
Example codegen_095 : check_codegen true (bs "({ foo, bar });") (bs "({foo,bar});") = true. Proof. vm_compute; reflexivity. Qed.
Example codegen_096 : check_codegen true (bs "({ foo: 10, bar: 20 });") (bs "({foo:10,bar:20});") = true. Proof. vm_compute; reflexivity. Qed.
Example codegen_097 : check_codegen true (bs "({ foo: 10, bar() {} });") (bs "({foo:10,bar(){}});") = true. Proof. vm_compute; reflexivity. Qed.
Example codegen_098 : check_codegen true (bs "({ foo(bar, baz) {} });") (bs "({foo(bar,baz){}});") = true. Proof. vm_compute; reflexivity. Qed.
Example codegen_099 : check_codegen false (bs "({ foo: true, bar: false })") [x28; x7b; x0a; x20; x20; x20; x20; x66; x6f; x6f; x3a; x20; x74; x72; x75; x65; x2c; x0a; x20; x20; x20; x20; x62; x61; x72; x3a; x20; x66; x61; x6c; x73; x65; x0a; x7d; x29; x3b] = true. Proof. vm_compute; reflexivity. Qed.
Example codegen_100 : check_codegen true (bs "1 + 2 * 3;") (bs "1+2*3;") = true. Proof. vm_compute; reflexivity. Qed.
Example codegen_101 : check_codegen true (bs "1 + (2 * 3);") (bs "1+2*3;") = true. Proof. vm_compute; reflexivity. Qed.
Example codegen_102 : check_codegen true (bs "(1 + 2) * 3;") (bs "(1+2)*3;") = true. Proof. vm_compute; reflexivity. Qed.
Example codegen_103 : check_codegen true (bs "(denominator / divider * 100).toFixed(2);") (bs "(denominator/divider*100).toFixed(2);") = true. Proof. vm_compute; reflexivity. Qed.
Example codegen_104 : check_codegen true (bs "(1 + 1)[0];") (bs "(1+1)[0];") = true. Proof. vm_compute; reflexivity. Qed.
Example codegen_105 : check_codegen true (bs "2 * 2 / 2;") (bs "2*2/2;") = true. Proof. vm_compute; reflexivity. Qed.
Example codegen_106 : check_codegen true (bs "2 * (2 / 2);") (bs "2*(2/2);") = true. Proof. vm_compute; reflexivity. Qed.
Example codegen_107 : check_codegen true (bs "(2 * 2) / 2;") (bs "2*2/2;") = true. Proof. vm_compute; reflexivity. Qed.
Example codegen_108 : check_codegen true (bs "x++ + ++y") (bs "x++ + ++y;") = true. Proof. vm_compute; reflexivity. Qed.
(** /repo/ratel-codegen/src/statement.rs *)
Example codegen_109 : check_codegen true (bs "debugger") (bs "debugger") = true. Proof. vm_compute; reflexivity. Qed.
Example codegen_110 : check_codegen true (bs "debugger;") (bs "debugger") = true. Proof. vm_compute; reflexivity. Qed.
Example codegen_111 : check_codegen true (bs "{}") (bs "{}") = true. Proof. vm_compute; reflexivity. Qed.
Example codegen_112 : check_codegen true (bs "{foo;}") (bs "{foo;}") = true. Proof. vm_compute; reflexivity. Qed.
Example codegen_113 : check_codegen true (bs "foo: {}") (bs "foo:{}") = true. Proof. vm_compute; reflexivity. Qed.
Example codegen_114 : check_codegen true (bs "foo: bar;") (bs "foo:bar;") = true. Proof. vm_compute; reflexivity. Qed.
Example codegen_115 : check_codegen true (bs "function foo() {}") (bs "function foo(){}") = true. Proof. vm_compute; reflexivity. Qed.
Example codegen_116 : check_codegen true (bs "var foo;") (bs "var foo;") = true. Proof. vm_compute; reflexivity. Qed.
Example codegen_117 : check_codegen true (bs "let foo;") (bs "let foo;") = true. Proof. vm_compute; reflexivity. Qed.
Example codegen_118 : check_codegen true (bs "const foo;") (bs "const foo;") = true. Proof. vm_compute; reflexivity. Qed.
Example codegen_119 : check_codegen true (bs "var foo = 10;") (bs "var foo=10;") = true. Proof. vm_compute; reflexivity. Qed.
Example codegen_120 : check_codegen true (bs "let foo = 10;") (bs "let foo=10;") = true. Proof. vm_compute; reflexivity. Qed.
Example codegen_121 : check_codegen true (bs "const foo = 10;") (bs "const foo=10;") = true. Proof. vm_compute; reflexivity. Qed.
Example codegen_122 : check_codegen true (bs "var foo, bar;") (bs "var foo,bar;") = true. Proof. vm_compute; reflexivity. Qed.
Example codegen_123 : check_codegen true (bs "let foo, bar;") (bs "let foo,bar;") = true. Proof. vm_compute; reflexivity. Qed.
Example codegen_124 : check_codegen true (bs "const foo, bar;") (bs "const foo,bar;") = true. Proof. vm_compute; reflexivity. Qed.
Example codegen_125 : check_codegen true (bs "var foo = 10, bar = 20;") (bs "var foo=10,bar=20;") = true. Proof. vm_compute; reflexivity. Qed.
Example codegen_126 : check_codegen true (bs "let foo = 10, bar = 20;") (bs "let foo=10,bar=20;") = true. Proof. vm_compute; reflexivity. Qed.
Example codegen_127 : check_codegen true (bs "const foo = 10, bar = 20;") (bs "const foo=10,bar=20;") = true. Proof. vm_compute; reflexivity. Qed.
Example codegen_128 : check_codegen true (bs "const a = {...foo};") (bs "const a={...foo};") = true. Proof. vm_compute; reflexivity. Qed.
Example codegen_129 : check_codegen true (bs "if (true) foo;") (bs "if(true)foo;") = true. Proof. vm_compute; reflexivity. Qed.
Example codegen_130 : check_codegen true (bs "if (true) { foo; }") (bs "if(true){foo;}") = true. Proof. vm_compute; reflexivity. Qed.
Example codegen_131 : check_codegen true (bs "if (true) foo; else bar;") (bs "if(true)foo; else bar;") = true. Proof. vm_compute; reflexivity. Qed.
Example codegen_132 : check_codegen true (bs "if (true) { foo; } else { bar; }") (bs "if(true){foo;}else{bar;}") = true. Proof. vm_compute; reflexivity. Qed.
Example codegen_133 : check_codegen true (bs "if (true) foo; else { bar; }") (bs "if(true)foo; else{bar;}") = true. Proof. vm_compute; reflexivity. Qed.
Example codegen_134 : check_codegen true (bs "if (true) { foo; } else bar;") (bs "if(true){foo;}else bar;") = true. Proof. vm_compute; reflexivity. Qed.
Example codegen_135 : check_codegen true (bs "while (true) foo;") (bs "while(true)foo;") = true. Proof. vm_compute; reflexivity. Qed.
Example codegen_136 : check_codegen true (bs "while (true) { foo; }") (bs "while(true){foo;}") = true. Proof. vm_compute; reflexivity. Qed.
Example codegen_137 : check_codegen true (bs "do { foo; } while (true)") (bs "do{foo;}while(true)") = true. Proof. vm_compute; reflexivity. Qed.
Example codegen_138 : check_codegen true (bs "do foo; while (true)") (bs "do foo;while(true)") = true. Proof. vm_compute; reflexivity. Qed.
Example codegen_139 : check_codegen true (bs "for (var i = 0; i < 10; i++) {}") (bs "for(var i=0;i<10;i++){}") = true. Proof. vm_compute; reflexivity. Qed.
Example codegen_140 : check_codegen true (bs "for (i = 0; i < 10; i++) {}") (bs "for(i=0;i<10;i++){}") = true. Proof. vm_compute; reflexivity. Qed.
Example codegen_141 : check_codegen true (bs "for (;;) {}") (bs "for(;;){}") = true. Proof. vm_compute; reflexivity. Qed.
Example codegen_142 : check_codegen true (bs "for (foo in bar){}") (bs "for(foo in bar){}") = true. Proof. vm_compute; reflexivity. Qed.
Example codegen_143 : check_codegen true (bs "for (let foo in bar){}") (bs "for(let foo in bar){}") = true. Proof. vm_compute; reflexivity. Qed.
Example codegen_144 : check_codegen true (bs "for (foo of bar){}") (bs "for(foo of bar){}") = true. Proof. vm_compute; reflexivity. Qed.
Example codegen_145 : check_codegen true (bs "for (let foo of bar){}") (bs "for(let foo of bar){}") = true. Proof. vm_compute; reflexivity. Qed.
Example codegen_146 : check_codegen true (bs "import 'fuga'") (bs "import 'fuga'") = true. Proof. vm_compute; reflexivity. Qed.
Example codegen_147 : check_codegen true (bs "import foo from 'fuga'") (bs "import foo from 'fuga'") = true. Proof. vm_compute; reflexivity. Qed.
Example codegen_148 : check_codegen true (bs "import foo,{hoge as HOGE} from 'fuga'") (bs "import foo,{hoge as HOGE} from 'fuga'") = true. Proof. vm_compute; reflexivity. Qed.
Example codegen_149 : check_codegen true (bs "import {hoge as HOGE,fuga} from 'fuga'") (bs "import {hoge as HOGE,fuga} from 'fuga'") = true. Proof. vm_compute; reflexivity. Qed.
(** /repo/ratel-codegen/src/function.rs *)
Example codegen_150 : check_codegen true (bs "function foo() {}") (bs "function foo(){}") = true. Proof. vm_compute; reflexivity. Qed.
Example codegen_151 : check_codegen true (bs "function foo(a) {}") (bs "function foo(a){}") = true. Proof. vm_compute; reflexivity. Qed.
Example codegen_152 : check_codegen true (bs "function foo(a, b, c) {}") (bs "function foo(a,b,c){}") = true. Proof. vm_compute; reflexivity. Qed.
Example codegen_153 : check_codegen true (bs "function foo(bar) { return 10; }") (bs "function foo(bar){return 10;}") = true. Proof. vm_compute; reflexivity. Qed.
Example codegen_154 : check_codegen true (bs "function foo(...things) { bar(...things); }") (bs "function foo(...things){bar(...things);}") = true. Proof. vm_compute; reflexivity. Qed.
Example codegen_155 : check_codegen true (bs "class Foo {}") (bs "class Foo{}") = true. Proof. vm_compute; reflexivity. Qed.
Example codegen_156 : check_codegen true (bs "class Foo extends Bar {}") (bs "class Foo extends Bar{}") = true. Proof. vm_compute; reflexivity. Qed.
Example codegen_157 : check_codegen true (bs "class Foo { constructor(a, b) { debug; } }") (bs "class Foo{constructor(a,b){debug;}}") = true. Proof. vm_compute; reflexivity. Qed.
Example codegen_158 : check_codegen true (bs "class Foo { static constructor(a, b) { debug; } }") (bs "class Foo{static constructor(a,b){debug;}}") = true. Proof. vm_compute; reflexivity. Qed.
Example codegen_159 : check_codegen true (bs "class Foo { method(a, b) { debug; } }") (bs "class Foo{method(a,b){debug;}}") = true. Proof. vm_compute; reflexivity. Qed.
Example codegen_160 : check_codegen true (bs "class Foo { static method(a, b) { debug; } }") (bs "class Foo{static method(a,b){debug;}}") = true. Proof. vm_compute; reflexivity. Qed.
Example codegen_161 : check_codegen true (bs "class Foo { a = 10; b = 20; }") (bs "class Foo{a=10;b=20;}") = true. Proof. vm_compute; reflexivity. Qed.
Example codegen_162 : check_codegen true (bs "class Foo { static a = 10; b = 20; }") (bs "class Foo{static a=10;b=20;}") = true. Proof. vm_compute; reflexivity. Qed.
(** /repo/ratel/src/astgen/mod.rs *)
Example estree_001 : check_estree (bs "") (J_Obj [((bs "type"), J_Str (bs "Program")); ((bs "body"), J_Arr []); ((bs "start"), J_Int 0); ((bs "end"), J_Int 0)]) = true. Proof. vm_compute; reflexivity. Qed.
Example estree_002 : check_estree (bs "this;") (J_Obj [((bs "type"), J_Str (bs "Program")); ((bs "body"), J_Arr [J_Obj [((bs "type"), J_Str (bs "ExpressionStatement")); ((bs "expression"), J_Obj [((bs "type"), J_Str (bs "ThisExpression")); ((bs "start"), J_Int 0); ((bs "end"), J_Int 4)]); ((bs "start"), J_Int 0); ((bs "end"), J_Int 4)]]); ((bs "start"), J_Int 0); ((bs "end"), J_Int 4)]) = true. Proof. vm_compute; reflexivity. Qed.
(** /repo/ratel/src/astgen/expression.rs *)
Example estree_003 : check_estree (bs "[1,]") (J_Obj [((bs "type"), J_Str (bs "Program")); ((bs "body"), J_Arr [J_Obj [((bs "type"), J_Str (bs "ExpressionStatement")); ((bs "expression"), J_Obj [((bs "type"), J_Str (bs "ArrayExpression")); ((bs "elements"), J_Arr [J_Obj [((bs "type"), J_Str (bs "Literal")); ((bs "value"), J_Int 1); ((bs "raw"), J_Str (bs "1")); ((bs "start"), J_Int 1); ((bs "end"), J_Int 2)]]); ((bs "start"), J_Int 0); ((bs "end"), J_Int 4)]); ((bs "start"), J_Int 0); ((bs "end"), J_Int 4)]]); ((bs "start"), J_Int 0); ((bs "end"), J_Int 4)]) = true. Proof. vm_compute; reflexivity. Qed.
Example estree_004 : check_estree (bs "[1,,]") (J_Obj [((bs "type"), J_Str (bs "Program")); ((bs "body"), J_Arr [J_Obj [((bs "type"), J_Str (bs "ExpressionStatement")); ((bs "expression"), J_Obj [((bs "type"), J_Str (bs "ArrayExpression")); ((bs "elements"), J_Arr [J_Obj [((bs "type"), J_Str (bs "Literal")); ((bs "value"), J_Int 1); ((bs "raw"), J_Str (bs "1")); ((bs "start"), J_Int 1); ((bs "end"), J_Int 2)]]); ((bs "start"), J_Int 0); ((bs "end"), J_Int 5)]); ((bs "start"), J_Int 0); ((bs "end"), J_Int 5)]]); ((bs "start"), J_Int 0); ((bs "end"), J_Int 5)]) = true. Proof. vm_compute; reflexivity. Qed.
Example estree_005 : check_estree (bs "[,1,]") (J_Obj [((bs "type"), J_Str (bs "Program")); ((bs "body"), J_Arr [J_Obj [((bs "type"), J_Str (bs "ExpressionStatement")); ((bs "expression"), J_Obj [((bs "type"), J_Str (bs "ArrayExpression")); ((bs "elements"), J_Arr [J_Null; J_Obj [((bs "type"), J_Str (bs "Literal")); ((bs "value"), J_Int 1); ((bs "raw"), J_Str (bs "1")); ((bs "start"), J_Int 2); ((bs "end"), J_Int 3)]]); ((bs "start"), J_Int 0); ((bs "end"), J_Int 5)]); ((bs "start"), J_Int 0); ((bs "end"), J_Int 5)]]); ((bs "start"), J_Int 0); ((bs "end"), J_Int 5)]) = true. Proof. vm_compute; reflexivity. Qed.
Example estree_006 : check_estree (bs "this;") (J_Obj [((bs "type"), J_Str (bs "Program")); ((bs "body"), J_Arr [J_Obj [((bs "type"), J_Str (bs "ExpressionStatement")); ((bs "expression"), J_Obj [((bs "type"), J_Str (bs "ThisExpression")); ((bs "start"), J_Int 0); ((bs "end"), J_Int 4)]); ((bs "start"), J_Int 0); ((bs "end"), J_Int 4)]]); ((bs "start"), J_Int 0); ((bs "end"), J_Int 4)]) = true. Proof. vm_compute; reflexivity. Qed.
Example estree_007 : check_estree (bs "foo;") (J_Obj [((bs "type"), J_Str (bs "Program")); ((bs "body"), J_Arr [J_Obj [((bs "type"), J_Str (bs "ExpressionStatement")); ((bs "expression"), J_Obj [((bs "type"), J_Str (bs "Identifier")); ((bs "name"), J_Str (bs "foo")); ((bs "start"), J_Int 0); ((bs "end"), J_Int 3)]); ((bs "start"), J_Int 0); ((bs "end"), J_Int 3)]]); ((bs "start"), J_Int 0); ((bs "end"), J_Int 3)]) = true. Proof. vm_compute; reflexivity. Qed.
Example estree_008 : check_estree (bs "'foo';") (J_Obj [((bs "type"), J_Str (bs "Program")); ((bs "body"), J_Arr [J_Obj [((bs "type"), J_Str (bs "ExpressionStatement")); ((bs "expression"), J_Obj [((bs "type"), J_Str (bs "Literal")); ((bs "value"), J_Str (bs "foo")); ((bs "raw"), J_Str (bs "'foo'")); ((bs "start"), J_Int 0); ((bs "end"), J_Int 5)]); ((bs "start"), J_Int 0); ((bs "end"), J_Int 5)]]); ((bs "start"), J_Int 0); ((bs "end"), J_Int 5)]) = true. Proof. vm_compute; reflexivity. Qed.
Example estree_009 : check_estree (bs "[true, 0, 'foo', bar];") (J_Obj [((bs "type"), J_Str (bs "Program")); ((bs "body"), J_Arr [J_Obj [((bs "type"), J_Str (bs "ExpressionStatement")); ((bs "expression"), J_Obj [((bs "type"), J_Str (bs "ArrayExpression")); ((bs "elements"), J_Arr [J_Obj [((bs "type"), J_Str (bs "Literal")); ((bs "value"), J_Bool true); ((bs "raw"), J_Str (bs "true")); ((bs "start"), J_Int 1); ((bs "end"), J_Int 5)]; J_Obj [((bs "type"), J_Str (bs "Literal")); ((bs "value"), J_Int 0); ((bs "raw"), J_Str (bs "0")); ((bs "start"), J_Int 7); ((bs "end"), J_Int 8)]; J_Obj [((bs "type"), J_Str (bs "Literal")); ((bs "value"), J_Str (bs "foo")); ((bs "raw"), J_Str (bs "'foo'")); ((bs "start"), J_Int 10); ((bs "end"), J_Int 15)]; J_Obj [((bs "type"), J_Str (bs "Identifier")); ((bs "name"), J_Str (bs "bar")); ((bs "start"), J_Int 17); ((bs "end"), J_Int 20)]]); ((bs "start"), J_Int 0); ((bs "end"), J_Int 21)]); ((bs "start"), J_Int 0); ((bs "end"), J_Int 21)]]); ((bs "start"), J_Int 0); ((bs "end"), J_Int 21)]) = true. Proof. vm_compute; reflexivity. Qed.
Example estree_010 : check_estree (bs "true, false;") (J_Obj [((bs "type"), J_Str (bs "Program")); ((bs "body"), J_Arr [J_Obj [((bs "type"), J_Str (bs "ExpressionStatement")); ((bs "expression"), J_Obj [((bs "type"), J_Str (bs "SequenceExpression")); ((bs "expressions"), J_Arr [J_Obj [((bs "type"), J_Str (bs "Literal")); ((bs "value"), J_Bool true); ((bs "raw"), J_Str (bs "true")); ((bs "start"), J_Int 0); ((bs "end"), J_Int 4)]; J_Obj [((bs "type"), J_Str (bs "Literal")); ((bs "value"), J_Bool false); ((bs "raw"), J_Str (bs "false")); ((bs "start"), J_Int 6); ((bs "end"), J_Int 11)]]); ((bs "start"), J_Int 0); ((bs "end"), J_Int 12)]); ((bs "start"), J_Int 0); ((bs "end"), J_Int 12)]]); ((bs "start"), J_Int 0); ((bs "end"), J_Int 12)]) = true. Proof. vm_compute; reflexivity. Qed.
Example estree_011 : check_estree (bs "a > 0;") (J_Obj [((bs "type"), J_Str (bs "Program")); ((bs "body"), J_Arr [J_Obj [((bs "type"), J_Str (bs "ExpressionStatement")); ((bs "expression"), J_Obj [((bs "type"), J_Str (bs "BinaryExpression")); ((bs "operator"), J_Str (bs ">")); ((bs "left"), J_Obj [((bs "type"), J_Str (bs "Identifier")); ((bs "name"), J_Str (bs "a")); ((bs "start"), J_Int 0); ((bs "end"), J_Int 1)]); ((bs "right"), J_Obj [((bs "type"), J_Str (bs "Literal")); ((bs "value"), J_Int 0); ((bs "raw"), J_Str (bs "0")); ((bs "start"), J_Int 4); ((bs "end"), J_Int 5)]); ((bs "start"), J_Int 0); ((bs "end"), J_Int 5)]); ((bs "start"), J_Int 0); ((bs "end"), J_Int 5)]]); ((bs "start"), J_Int 0); ((bs "end"), J_Int 5)]) = true. Proof. vm_compute; reflexivity. Qed.
Example estree_012 : check_estree (bs "new Foo();") (J_Obj [((bs "type"), J_Str (bs "Program")); ((bs "body"), J_Arr [J_Obj [((bs "type"), J_Str (bs "ExpressionStatement")); ((bs "expression"), J_Obj [((bs "type"), J_Str (bs "NewExpression")); ((bs "callee"), J_Obj [((bs "type"), J_Str (bs "Identifier")); ((bs "name"), J_Str (bs "Foo")); ((bs "start"), J_Int 4); ((bs "end"), J_Int 7)]); ((bs "arguments"), J_Arr []); ((bs "start"), J_Int 0); ((bs "end"), J_Int 10)]); ((bs "start"), J_Int 0); ((bs "end"), J_Int 10)]]); ((bs "start"), J_Int 0); ((bs "end"), J_Int 10)]) = true. Proof. vm_compute; reflexivity. Qed.
Example estree_013 : check_estree (bs "new Foo(0, true);") (J_Obj [((bs "type"), J_Str (bs "Program")); ((bs "body"), J_Arr [J_Obj [((bs "type"), J_Str (bs "ExpressionStatement")); ((bs "expression"), J_Obj [((bs "type"), J_Str (bs "NewExpression")); ((bs "callee"), J_Obj [((bs "type"), J_Str (bs "Identifier")); ((bs "name"), J_Str (bs "Foo")); ((bs "start"), J_Int 4); ((bs "end"), J_Int 7)]); ((bs "arguments"), J_Arr [J_Obj [((bs "type"), J_Str (bs "Literal")); ((bs "value"), J_Int 0); ((bs "raw"), J_Str (bs "0")); ((bs "start"), J_Int 8); ((bs "end"), J_Int 9)]; J_Obj [((bs "type"), J_Str (bs "Literal")); ((bs "value"), J_Bool true); ((bs "raw"), J_Str (bs "true")); ((bs "start"), J_Int 11); ((bs "end"), J_Int 15)]]); ((bs "start"), J_Int 0); ((bs "end"), J_Int 17)]); ((bs "start"), J_Int 0); ((bs "end"), J_Int 17)]]); ((bs "start"), J_Int 0); ((bs "end"), J_Int 17)]) = true. Proof. vm_compute; reflexivity. Qed.
Example estree_014 : check_estree (bs "++i") (J_Obj [((bs "type"), J_Str (bs "Program")); ((bs "body"), J_Arr [J_Obj [((bs "type"), J_Str (bs "ExpressionStatement")); ((bs "expression"), J_Obj [((bs "type"), J_Str (bs "UpdateExpression")); ((bs "operator"), J_Str (bs "++")); ((bs "argument"), J_Obj [((bs "type"), J_Str (bs "Identifier")); ((bs "name"), J_Str (bs "i")); ((bs "start"), J_Int 2); ((bs "end"), J_Int 3)]); ((bs "prefix"), J_Bool true); ((bs "start"), J_Int 0); ((bs "end"), J_Int 3)]); ((bs "start"), J_Int 0); ((bs "end"), J_Int 3)]]); ((bs "start"), J_Int 0); ((bs "end"), J_Int 3)]) = true. Proof. vm_compute; reflexivity. Qed.
Example estree_015 : check_estree (bs "+0") (J_Obj [((bs "type"), J_Str (bs "Program")); ((bs "body"), J_Arr [J_Obj [((bs "type"), J_Str (bs "ExpressionStatement")); ((bs "expression"), J_Obj [((bs "type"), J_Str (bs "UnaryExpression")); ((bs "operator"), J_Str (bs "+")); ((bs "argument"), J_Obj [((bs "type"), J_Str (bs "Literal")); ((bs "value"), J_Int 0); ((bs "raw"), J_Str (bs "0")); ((bs "start"), J_Int 1); ((bs "end"), J_Int 2)]); ((bs "prefix"), J_Bool true); ((bs "start"), J_Int 0); ((bs "end"), J_Int 2)]); ((bs "start"), J_Int 0); ((bs "end"), J_Int 2)]]); ((bs "start"), J_Int 0); ((bs "end"), J_Int 2)]) = true. Proof. vm_compute; reflexivity. Qed.
Example estree_016 : check_estree (bs "i++;") (J_Obj [((bs "type"), J_Str (bs "Program")); ((bs "body"), J_Arr [J_Obj [((bs "type"), J_Str (bs "ExpressionStatement")); ((bs "expression"), J_Obj [((bs "type"), J_Str (bs "UpdateExpression")); ((bs "operator"), J_Str (bs "++")); ((bs "argument"), J_Obj [((bs "type"), J_Str (bs "Identifier")); ((bs "name"), J_Str (bs "i")); ((bs "start"), J_Int 0); ((bs "end"), J_Int 1)]); ((bs "prefix"), J_Bool false); ((bs "start"), J_Int 0); ((bs "end"), J_Int 3)]); ((bs "start"), J_Int 0); ((bs "end"), J_Int 3)]]); ((bs "start"), J_Int 0); ((bs "end"), J_Int 3)]) = true. Proof. vm_compute; reflexivity. Qed.
Example estree_017 : check_estree (bs "const a = {}") (J_Obj [((bs "type"), J_Str (bs "Program")); ((bs "body"), J_Arr [J_Obj [((bs "type"), J_Str (bs "VariableDeclaration")); ((bs "kind"), J_Str (bs "const")); ((bs "declarations"), J_Arr [J_Obj [((bs "type"), J_Str (bs "VariableDeclarator")); ((bs "id"), J_Obj [((bs "type"), J_Str (bs "Identifier")); ((bs "name"), J_Str (bs "a")); ((bs "start"), J_Int 6); ((bs "end"), J_Int 7)]); ((bs "init"), J_Obj [((bs "type"), J_Str (bs "ObjectExpression")); ((bs "properties"), J_Arr []); ((bs "start"), J_Int 10); ((bs "end"), J_Int 12)]); ((bs "start"), J_Int 6); ((bs "end"), J_Int 12)]]); ((bs "start"), J_Int 0); ((bs "end"), J_Int 12)]]); ((bs "start"), J_Int 0); ((bs "end"), J_Int 12)]) = true. Proof. vm_compute; reflexivity. Qed.
Example estree_018 : check_estree (bs "const a = { foo: 'bar' }") (J_Obj [((bs "type"), J_Str (bs "Program")); ((bs "body"), J_Arr [J_Obj [((bs "type"), J_Str (bs "VariableDeclaration")); ((bs "kind"), J_Str (bs "const")); ((bs "declarations"), J_Arr [J_Obj [((bs "type"), J_Str (bs "VariableDeclarator")); ((bs "id"), J_Obj [((bs "type"), J_Str (bs "Identifier")); ((bs "name"), J_Str (bs "a")); ((bs "start"), J_Int 6); ((bs "end"), J_Int 7)]); ((bs "init"), J_Obj [((bs "type"), J_Str (bs "ObjectExpression")); ((bs "properties"), J_Arr [J_Obj [((bs "type"), J_Str (bs "Property")); ((bs "key"), J_Obj [((bs "type"), J_Str (bs "Identifier")); ((bs "name"), J_Str (bs "foo")); ((bs "start"), J_Int 12); ((bs "end"), J_Int 15)]); ((bs "method"), J_Bool false); ((bs "shorthand"), J_Bool false); ((bs "computed"), J_Bool false); ((bs "value"), J_Obj [((bs "type"), J_Str (bs "Literal")); ((bs "value"), J_Str (bs "bar")); ((bs "raw"), J_Str (bs "'bar'")); ((bs "start"), J_Int 17); ((bs "end"), J_Int 22)]); ((bs "kind"), J_Str (bs "init")); ((bs "start"), J_Int 12); ((bs "end"), J_Int 22)]]); ((bs "start"), J_Int 10); ((bs "end"), J_Int 24)]); ((bs "start"), J_Int 6); ((bs "end"), J_Int 24)]]); ((bs "start"), J_Int 0); ((bs "end"), J_Int 24)]]); ((bs "start"), J_Int 0); ((bs "end"), J_Int 24)]) = true. Proof. vm_compute; reflexivity. Qed.
Example estree_019 : check_estree (bs "const a = { [foo]: 'bar' }") (J_Obj [((bs "type"), J_Str (bs "Program")); ((bs "body"), J_Arr [J_Obj [((bs "type"), J_Str (bs "VariableDeclaration")); ((bs "kind"), J_Str (bs "const")); ((bs "declarations"), J_Arr [J_Obj [((bs "type"), J_Str (bs "VariableDeclarator")); ((bs "id"), J_Obj [((bs "type"), J_Str (bs "Identifier")); ((bs "name"), J_Str (bs "a")); ((bs "start"), J_Int 6); ((bs "end"), J_Int 7)]); ((bs "init"), J_Obj [((bs "type"), J_Str (bs "ObjectExpression")); ((bs "properties"), J_Arr [J_Obj [((bs "type"), J_Str (bs "Property")); ((bs "key"), J_Obj [((bs "type"), J_Str (bs "Identifier")); ((bs "name"), J_Str (bs "foo")); ((bs "start"), J_Int 13); ((bs "end"), J_Int 16)]); ((bs "method"), J_Bool false); ((bs "shorthand"), J_Bool false); ((bs "computed"), J_Bool true); ((bs "value"), J_Obj [((bs "type"), J_Str (bs "Literal")); ((bs "value"), J_Str (bs "bar")); ((bs "raw"), J_Str (bs "'bar'")); ((bs "start"), J_Int 19); ((bs "end"), J_Int 24)]); ((bs "kind"), J_Str (bs "init")); ((bs "start"), J_Int 12); ((bs "end"), J_Int 24)]]); ((bs "start"), J_Int 10); ((bs "end"), J_Int 26)]); ((bs "start"), J_Int 6); ((bs "end"), J_Int 26)]]); ((bs "start"), J_Int 0); ((bs "end"), J_Int 26)]]); ((bs "start"), J_Int 0); ((bs "end"), J_Int 26)]) = true. Proof. vm_compute; reflexivity. Qed.
Example estree_020 : check_estree (bs "const a = { get (a) {} }") (J_Obj [((bs "type"), J_Str (bs "Program")); ((bs "body"), J_Arr [J_Obj [((bs "type"), J_Str (bs "VariableDeclaration")); ((bs "kind"), J_Str (bs "const")); ((bs "declarations"), J_Arr [J_Obj [((bs "type"), J_Str (bs "VariableDeclarator")); ((bs "id"), J_Obj [((bs "type"), J_Str (bs "Identifier")); ((bs "name"), J_Str (bs "a")); ((bs "start"), J_Int 6); ((bs "end"), J_Int 7)]); ((bs "init"), J_Obj [((bs "type"), J_Str (bs "ObjectExpression")); ((bs "properties"), J_Arr [J_Obj [((bs "type"), J_Str (bs "Property")); ((bs "key"), J_Obj [((bs "type"), J_Str (bs "Identifier")); ((bs "name"), J_Str (bs "get")); ((bs "start"), J_Int 12); ((bs "end"), J_Int 15)]); ((bs "method"), J_Bool true); ((bs "shorthand"), J_Bool false); ((bs "computed"), J_Bool false); ((bs "value"), J_Obj [((bs "type"), J_Str (bs "FunctionExpression")); ((bs "generator"), J_Bool false); ((bs "id"), J_Null); ((bs "params"), J_Arr [J_Obj [((bs "type"), J_Str (bs "Identifier")); ((bs "name"), J_Str (bs "a")); ((bs "start"), J_Int 17); ((bs "end"), J_Int 18)]]); ((bs "body"), J_Obj [((bs "type"), J_Str (bs "BlockStatement")); ((bs "body"), J_Arr []); ((bs "start"), J_Int 20); ((bs "end"), J_Int 22)]); ((bs "start"), J_Int 16); ((bs "end"), J_Int 22)]); ((bs "kind"), J_Str (bs "init")); ((bs "start"), J_Int 12); ((bs "end"), J_Int 22)]]); ((bs "start"), J_Int 10); ((bs "end"), J_Int 24)]); ((bs "start"), J_Int 6); ((bs "end"), J_Int 24)]]); ((bs "start"), J_Int 0); ((bs "end"), J_Int 24)]]); ((bs "start"), J_Int 0); ((bs "end"), J_Int 24)]) = true. Proof. vm_compute; reflexivity. Qed.
Example estree_021 : check_estree (bs "function Handler () { new.target; }") (J_Obj [((bs "type"), J_Str (bs "Program")); ((bs "body"), J_Arr [J_Obj [((bs "type"), J_Str (bs "FunctionDeclaration")); ((bs "generator"), J_Bool false); ((bs "id"), J_Obj [((bs "type"), J_Str (bs "Identifier")); ((bs "name"), J_Str (bs "Handler")); ((bs "start"), J_Int 9); ((bs "end"), J_Int 16)]); ((bs "params"), J_Arr []); ((bs "body"), J_Obj [((bs "type"), J_Str (bs "BlockStatement")); ((bs "body"), J_Arr [J_Obj [((bs "type"), J_Str (bs "ExpressionStatement")); ((bs "expression"), J_Obj [((bs "type"), J_Str (bs "MetaProperty")); ((bs "meta"), J_Obj [((bs "type"), J_Str (bs "Identifier")); ((bs "name"), J_Str (bs "new")); ((bs "start"), J_Int 22); ((bs "end"), J_Int 25)]); ((bs "property"), J_Obj [((bs "type"), J_Str (bs "Identifier")); ((bs "name"), J_Str (bs "target")); ((bs "start"), J_Int 25); ((bs "end"), J_Int 32)]); ((bs "start"), J_Int 22); ((bs "end"), J_Int 32)]); ((bs "start"), J_Int 22); ((bs "end"), J_Int 32)]]); ((bs "start"), J_Int 20); ((bs "end"), J_Int 35)]); ((bs "start"), J_Int 0); ((bs "end"), J_Int 35)]]); ((bs "start"), J_Int 0); ((bs "end"), J_Int 35)]) = true. Proof. vm_compute; reflexivity. Qed.
Example estree_022 : check_estree (bs "foo.bar") (J_Obj [((bs "type"), J_Str (bs "Program")); ((bs "body"), J_Arr [J_Obj [((bs "type"), J_Str (bs "ExpressionStatement")); ((bs "expression"), J_Obj [((bs "type"), J_Str (bs "MemberExpression")); ((bs "object"), J_Obj [((bs "type"), J_Str (bs "Identifier")); ((bs "name"), J_Str (bs "foo")); ((bs "start"), J_Int 0); ((bs "end"), J_Int 3)]); ((bs "property"), J_Obj [((bs "type"), J_Str (bs "Identifier")); ((bs "name"), J_Str (bs "bar")); ((bs "start"), J_Int 7); ((bs "end"), J_Int 7)]); ((bs "computed"), J_Bool false); ((bs "start"), J_Int 0); ((bs "end"), J_Int 7)]); ((bs "start"), J_Int 0); ((bs "end"), J_Int 7)]]); ((bs "start"), J_Int 0); ((bs "end"), J_Int 7)]) = true. Proof. vm_compute; reflexivity. Qed.
Example estree_023 : check_estree (bs "foo[bar]") (J_Obj [((bs "type"), J_Str (bs "Program")); ((bs "body"), J_Arr [J_Obj [((bs "type"), J_Str (bs "ExpressionStatement")); ((bs "expression"), J_Obj [((bs "type"), J_Str (bs "MemberExpression")); ((bs "object"), J_Obj [((bs "type"), J_Str (bs "Identifier")); ((bs "name"), J_Str (bs "foo")); ((bs "start"), J_Int 0); ((bs "end"), J_Int 3)]); ((bs "property"), J_Obj [((bs "type"), J_Str (bs "Identifier")); ((bs "name"), J_Str (bs "bar")); ((bs "start"), J_Int 4); ((bs "end"), J_Int 7)]); ((bs "computed"), J_Bool true); ((bs "start"), J_Int 0); ((bs "end"), J_Int 8)]); ((bs "start"), J_Int 0); ((bs "end"), J_Int 8)]]); ((bs "start"), J_Int 0); ((bs "end"), J_Int 8)]) = true. Proof. vm_compute; reflexivity. Qed.
Example estree_024 : check_estree (bs "function foo (a, ...opts) {}") (J_Obj [((bs "type"), J_Str (bs "Program")); ((bs "body"), J_Arr [J_Obj [((bs "type"), J_Str (bs "FunctionDeclaration")); ((bs "generator"), J_Bool false); ((bs "id"), J_Obj [((bs "type"), J_Str (bs "Identifier")); ((bs "name"), J_Str (bs "foo")); ((bs "start"), J_Int 9); ((bs "end"), J_Int 12)]); ((bs "params"), J_Arr [J_Obj [((bs "type"), J_Str (bs "Identifier")); ((bs "name"), J_Str (bs "a")); ((bs "start"), J_Int 14); ((bs "end"), J_Int 15)]; J_Obj [((bs "type"), J_Str (bs "RestElement")); ((bs "argument"), J_Obj [((bs "type"), J_Str (bs "Identifier")); ((bs "name"), J_Str (bs "opts")); ((bs "start"), J_Int 20); ((bs "end"), J_Int 24)]); ((bs "start"), J_Int 17); ((bs "end"), J_Int 24)]]); ((bs "body"), J_Obj [((bs "type"), J_Str (bs "BlockStatement")); ((bs "body"), J_Arr []); ((bs "start"), J_Int 26); ((bs "end"), J_Int 28)]); ((bs "start"), J_Int 0); ((bs "end"), J_Int 28)]]); ((bs "start"), J_Int 0); ((bs "end"), J_Int 28)]) = true. Proof. vm_compute; reflexivity. Qed.
Example estree_025 : check_estree (bs "[head, ...iter, tail]") (J_Obj [((bs "type"), J_Str (bs "Program")); ((bs "body"), J_Arr [J_Obj [((bs "type"), J_Str (bs "ExpressionStatement")); ((bs "expression"), J_Obj [((bs "type"), J_Str (bs "ArrayExpression")); ((bs "elements"), J_Arr [J_Obj [((bs "type"), J_Str (bs "Identifier")); ((bs "name"), J_Str (bs "head")); ((bs "start"), J_Int 1); ((bs "end"), J_Int 5)]; J_Obj [((bs "type"), J_Str (bs "SpreadElement")); ((bs "argument"), J_Obj [((bs "type"), J_Str (bs "Identifier")); ((bs "name"), J_Str (bs "iter")); ((bs "start"), J_Int 10); ((bs "end"), J_Int 14)]); ((bs "start"), J_Int 7); ((bs "end"), J_Int 14)]; J_Obj [((bs "type"), J_Str (bs "Identifier")); ((bs "name"), J_Str (bs "tail")); ((bs "start"), J_Int 16); ((bs "end"), J_Int 20)]]); ((bs "start"), J_Int 0); ((bs "end"), J_Int 21)]); ((bs "start"), J_Int 0); ((bs "end"), J_Int 21)]]); ((bs "start"), J_Int 0); ((bs "end"), J_Int 21)]) = true. Proof. vm_compute; reflexivity. Qed.
Example estree_026 : check_estree (bs "foo()") (J_Obj [((bs "type"), J_Str (bs "Program")); ((bs "body"), J_Arr [J_Obj [((bs "type"), J_Str (bs "ExpressionStatement")); ((bs "expression"), J_Obj [((bs "type"), J_Str (bs "CallExpression")); ((bs "callee"), J_Obj [((bs "type"), J_Str (bs "Identifier")); ((bs "name"), J_Str (bs "foo")); ((bs "start"), J_Int 0); ((bs "end"), J_Int 3)]); ((bs "arguments"), J_Arr []); ((bs "start"), J_Int 3); ((bs "end"), J_Int 5)]); ((bs "start"), J_Int 0); ((bs "end"), J_Int 5)]]); ((bs "start"), J_Int 0); ((bs "end"), J_Int 5)]) = true. Proof. vm_compute; reflexivity. Qed.
Example estree_027 : check_estree (bs "a ? true : false") (J_Obj [((bs "type"), J_Str (bs "Program")); ((bs "body"), J_Arr [J_Obj [((bs "type"), J_Str (bs "ExpressionStatement")); ((bs "expression"), J_Obj [((bs "type"), J_Str (bs "ConditionalExpression")); ((bs "test"), J_Obj [((bs "type"), J_Str (bs "Identifier")); ((bs "name"), J_Str (bs "a")); ((bs "start"), J_Int 0); ((bs "end"), J_Int 1)]); ((bs "consequent"), J_Obj [((bs "type"), J_Str (bs "Literal")); ((bs "value"), J_Bool true); ((bs "raw"), J_Str (bs "true")); ((bs "start"), J_Int 4); ((bs "end"), J_Int 8)]); ((bs "alternate"), J_Obj [((bs "type"), J_Str (bs "Literal")); ((bs "value"), J_Bool false); ((bs "raw"), J_Str (bs "false")); ((bs "start"), J_Int 11); ((bs "end"), J_Int 16)]); ((bs "start"), J_Int 0); ((bs "end"), J_Int 16)]); ((bs "start"), J_Int 0); ((bs "end"), J_Int 16)]]); ((bs "start"), J_Int 0); ((bs "end"), J_Int 16)]) = true. Proof. vm_compute; reflexivity. Qed.
Example estree_028 : check_estree (bs "(b) => b") (J_Obj [((bs "type"), J_Str (bs "Program")); ((bs "body"), J_Arr [J_Obj [((bs "type"), J_Str (bs "ExpressionStatement")); ((bs "expression"), J_Obj [((bs "type"), J_Str (bs "ArrowFunctionExpression")); ((bs "params"), J_Arr [J_Obj [((bs "type"), J_Str (bs "Identifier")); ((bs "name"), J_Str (bs "b")); ((bs "start"), J_Int 1); ((bs "end"), J_Int 2)]]); ((bs "body"), J_Obj [((bs "type"), J_Str (bs "Identifier")); ((bs "name"), J_Str (bs "b")); ((bs "start"), J_Int 7); ((bs "end"), J_Int 8)]); ((bs "start"), J_Int 1); ((bs "end"), J_Int 8)]); ((bs "start"), J_Int 1); ((bs "end"), J_Int 8)]]); ((bs "start"), J_Int 1); ((bs "end"), J_Int 8)]) = true. Proof. vm_compute; reflexivity. Qed.
Example estree_029 : check_estree (bs "(b) => {}") (J_Obj [((bs "type"), J_Str (bs "Program")); ((bs "body"), J_Arr [J_Obj [((bs "type"), J_Str (bs "ExpressionStatement")); ((bs "expression"), J_Obj [((bs "type"), J_Str (bs "ArrowFunctionExpression")); ((bs "params"), J_Arr [J_Obj [((bs "type"), J_Str (bs "Identifier")); ((bs "name"), J_Str (bs "b")); ((bs "start"), J_Int 1); ((bs "end"), J_Int 2)]]); ((bs "body"), J_Obj [((bs "type"), J_Str (bs "BlockStatement")); ((bs "body"), J_Arr []); ((bs "start"), J_Int 7); ((bs "end"), J_Int 9)]); ((bs "start"), J_Int 1); ((bs "end"), J_Int 9)]); ((bs "start"), J_Int 1); ((bs "end"), J_Int 9)]]); ((bs "start"), J_Int 1); ((bs "end"), J_Int 9)]) = true. Proof. vm_compute; reflexivity. Qed.
Example estree_030 : check_estree (bs "() => {}") (J_Obj [((bs "type"), J_Str (bs "Program")); ((bs "body"), J_Arr [J_Obj [((bs "type"), J_Str (bs "ExpressionStatement")); ((bs "expression"), J_Obj [((bs "type"), J_Str (bs "ArrowFunctionExpression")); ((bs "params"), J_Arr []); ((bs "body"), J_Obj [((bs "type"), J_Str (bs "BlockStatement")); ((bs "body"), J_Arr []); ((bs "start"), J_Int 6); ((bs "end"), J_Int 8)]); ((bs "start"), J_Int 0); ((bs "end"), J_Int 8)]); ((bs "start"), J_Int 0); ((bs "end"), J_Int 8)]]); ((bs "start"), J_Int 0); ((bs "end"), J_Int 8)]) = true. Proof. vm_compute; reflexivity. Qed.
Example estree_031 : check_estree (bs "n => n") (J_Obj [((bs "type"), J_Str (bs "Program")); ((bs "body"), J_Arr [J_Obj [((bs "type"), J_Str (bs "ExpressionStatement")); ((bs "expression"), J_Obj [((bs "type"), J_Str (bs "ArrowFunctionExpression")); ((bs "params"), J_Arr [J_Obj [((bs "type"), J_Str (bs "Identifier")); ((bs "name"), J_Str (bs "n")); ((bs "start"), J_Int 0); ((bs "end"), J_Int 1)]]); ((bs "body"), J_Obj [((bs "type"), J_Str (bs "Identifier")); ((bs "name"), J_Str (bs "n")); ((bs "start"), J_Int 5); ((bs "end"), J_Int 6)]); ((bs "start"), J_Int 0); ((bs "end"), J_Int 6)]); ((bs "start"), J_Int 0); ((bs "end"), J_Int 6)]]); ((bs "start"), J_Int 0); ((bs "end"), J_Int 6)]) = true. Proof. vm_compute; reflexivity. Qed.
Example estree_032 : check_estree (bs "function foo () {}") (J_Obj [((bs "type"), J_Str (bs "Program")); ((bs "body"), J_Arr [J_Obj [((bs "type"), J_Str (bs "FunctionDeclaration")); ((bs "generator"), J_Bool false); ((bs "id"), J_Obj [((bs "type"), J_Str (bs "Identifier")); ((bs "name"), J_Str (bs "foo")); ((bs "start"), J_Int 9); ((bs "end"), J_Int 12)]); ((bs "params"), J_Arr []); ((bs "body"), J_Obj [((bs "type"), J_Str (bs "BlockStatement")); ((bs "body"), J_Arr []); ((bs "start"), J_Int 16); ((bs "end"), J_Int 18)]); ((bs "start"), J_Int 0); ((bs "end"), J_Int 18)]]); ((bs "start"), J_Int 0); ((bs "end"), J_Int 18)]) = true. Proof. vm_compute; reflexivity. Qed.
Example estree_033 : check_estree (bs "function foo (a, b = 2) {}") (J_Obj [((bs "type"), J_Str (bs "Program")); ((bs "body"), J_Arr [J_Obj [((bs "type"), J_Str (bs "FunctionDeclaration")); ((bs "generator"), J_Bool false); ((bs "id"), J_Obj [((bs "type"), J_Str (bs "Identifier")); ((bs "name"), J_Str (bs "foo")); ((bs "start"), J_Int 9); ((bs "end"), J_Int 12)]); ((bs "params"), J_Arr [J_Obj [((bs "type"), J_Str (bs "Identifier")); ((bs "name"), J_Str (bs "a")); ((bs "start"), J_Int 14); ((bs "end"), J_Int 15)]; J_Obj [((bs "type"), J_Str (bs "AssignmentPattern")); ((bs "left"), J_Obj [((bs "type"), J_Str (bs "Identifier")); ((bs "name"), J_Str (bs "b")); ((bs "start"), J_Int 17); ((bs "end"), J_Int 18)]); ((bs "right"), J_Obj [((bs "type"), J_Str (bs "Literal")); ((bs "value"), J_Int 2); ((bs "raw"), J_Str (bs "2")); ((bs "start"), J_Int 21); ((bs "end"), J_Int 22)]); ((bs "start"), J_Int 17); ((bs "end"), J_Int 22)]]); ((bs "body"), J_Obj [((bs "type"), J_Str (bs "BlockStatement")); ((bs "body"), J_Arr []); ((bs "start"), J_Int 24); ((bs "end"), J_Int 26)]); ((bs "start"), J_Int 0); ((bs "end"), J_Int 26)]]); ((bs "start"), J_Int 0); ((bs "end"), J_Int 26)]) = true. Proof. vm_compute; reflexivity. Qed.
Example estree_034 : check_estree (bs "class Foo {}") (J_Obj [((bs "type"), J_Str (bs "Program")); ((bs "body"), J_Arr [J_Obj [((bs "type"), J_Str (bs "ClassDeclaration")); ((bs "id"), J_Obj [((bs "type"), J_Str (bs "Identifier")); ((bs "name"), J_Str (bs "Foo")); ((bs "start"), J_Int 6); ((bs "end"), J_Int 9)]); ((bs "superClass"), J_Null); ((bs "body"), J_Obj [((bs "type"), J_Str (bs "ClassBody")); ((bs "body"), J_Arr []); ((bs "start"), J_Int 10); ((bs "end"), J_Int 12)]); ((bs "start"), J_Int 0); ((bs "end"), J_Int 12)]]); ((bs "start"), J_Int 0); ((bs "end"), J_Int 12)]) = true. Proof. vm_compute; reflexivity. Qed.
Example estree_035 : check_estree (bs "class Foo extends Bar {}") (J_Obj [((bs "type"), J_Str (bs "Program")); ((bs "body"), J_Arr [J_Obj [((bs "type"), J_Str (bs "ClassDeclaration")); ((bs "id"), J_Obj [((bs "type"), J_Str (bs "Identifier")); ((bs "name"), J_Str (bs "Foo")); ((bs "start"), J_Int 6); ((bs "end"), J_Int 9)]); ((bs "superClass"), J_Obj [((bs "type"), J_Str (bs "Identifier")); ((bs "name"), J_Str (bs "Bar")); ((bs "start"), J_Int 18); ((bs "end"), J_Int 21)]); ((bs "body"), J_Obj [((bs "type"), J_Str (bs "ClassBody")); ((bs "body"), J_Arr []); ((bs "start"), J_Int 22); ((bs "end"), J_Int 24)]); ((bs "start"), J_Int 0); ((bs "end"), J_Int 24)]]); ((bs "start"), J_Int 0); ((bs "end"), J_Int 24)]) = true. Proof. vm_compute; reflexivity. Qed.
Example estree_036 : check_estree (bs "class Foo { bar() {} }") (J_Obj [((bs "type"), J_Str (bs "Program")); ((bs "body"), J_Arr [J_Obj [((bs "type"), J_Str (bs "ClassDeclaration")); ((bs "id"), J_Obj [((bs "type"), J_Str (bs "Identifier")); ((bs "name"), J_Str (bs "Foo")); ((bs "start"), J_Int 6); ((bs "end"), J_Int 9)]); ((bs "superClass"), J_Null); ((bs "body"), J_Obj [((bs "type"), J_Str (bs "ClassBody")); ((bs "body"), J_Arr [J_Obj [((bs "type"), J_Str (bs "MethodDefinition")); ((bs "kind"), J_Str (bs "method")); ((bs "static"), J_Bool false); ((bs "computed"), J_Bool false); ((bs "key"), J_Obj [((bs "type"), J_Str (bs "Identifier")); ((bs "name"), J_Str (bs "bar")); ((bs "start"), J_Int 12); ((bs "end"), J_Int 15)]); ((bs "value"), J_Obj [((bs "type"), J_Str (bs "FunctionExpression")); ((bs "generator"), J_Bool false); ((bs "id"), J_Null); ((bs "params"), J_Arr []); ((bs "body"), J_Obj [((bs "type"), J_Str (bs "BlockStatement")); ((bs "body"), J_Arr []); ((bs "start"), J_Int 18); ((bs "end"), J_Int 20)]); ((bs "start"), J_Int 15); ((bs "end"), J_Int 20)]); ((bs "start"), J_Int 12); ((bs "end"), J_Int 20)]]); ((bs "start"), J_Int 10); ((bs "end"), J_Int 22)]); ((bs "start"), J_Int 0); ((bs "end"), J_Int 22)]]); ((bs "start"), J_Int 0); ((bs "end"), J_Int 22)]) = true. Proof. vm_compute; reflexivity. Qed.
Example estree_037 : check_estree (bs "class Foo { static bar() {} }") (J_Obj [((bs "type"), J_Str (bs "Program")); ((bs "body"), J_Arr [J_Obj [((bs "type"), J_Str (bs "ClassDeclaration")); ((bs "id"), J_Obj [((bs "type"), J_Str (bs "Identifier")); ((bs "name"), J_Str (bs "Foo")); ((bs "start"), J_Int 6); ((bs "end"), J_Int 9)]); ((bs "superClass"), J_Null); ((bs "body"), J_Obj [((bs "type"), J_Str (bs "ClassBody")); ((bs "body"), J_Arr [J_Obj [((bs "type"), J_Str (bs "MethodDefinition")); ((bs "kind"), J_Str (bs "method")); ((bs "static"), J_Bool true); ((bs "computed"), J_Bool false); ((bs "key"), J_Obj [((bs "type"), J_Str (bs "Identifier")); ((bs "name"), J_Str (bs "bar")); ((bs "start"), J_Int 19); ((bs "end"), J_Int 22)]); ((bs "value"), J_Obj [((bs "type"), J_Str (bs "FunctionExpression")); ((bs "generator"), J_Bool false); ((bs "id"), J_Null); ((bs "params"), J_Arr []); ((bs "body"), J_Obj [((bs "type"), J_Str (bs "BlockStatement")); ((bs "body"), J_Arr []); ((bs "start"), J_Int 25); ((bs "end"), J_Int 27)]); ((bs "start"), J_Int 22); ((bs "end"), J_Int 27)]); ((bs "start"), J_Int 12); ((bs "end"), J_Int 27)]]); ((bs "start"), J_Int 10); ((bs "end"), J_Int 29)]); ((bs "start"), J_Int 0); ((bs "end"), J_Int 29)]]); ((bs "start"), J_Int 0); ((bs "end"), J_Int 29)]) = true. Proof. vm_compute; reflexivity. Qed.
(** /repo/ratel/src/astgen/statement.rs *)
Example estree_038 : check_estree (bs ";") (J_Obj [((bs "type"), J_Str (bs "Program")); ((bs "body"), J_Arr [J_Obj [((bs "type"), J_Str (bs "EmptyStatement")); ((bs "start"), J_Int 0); ((bs "end"), J_Int 1)]]); ((bs "start"), J_Int 0); ((bs "end"), J_Int 1)]) = true. Proof. vm_compute; reflexivity. Qed.
Example estree_039 : check_estree (bs "foo;") (J_Obj [((bs "type"), J_Str (bs "Program")); ((bs "body"), J_Arr [J_Obj [((bs "type"), J_Str (bs "ExpressionStatement")); ((bs "expression"), J_Obj [((bs "type"), J_Str (bs "Identifier")); ((bs "name"), J_Str (bs "foo")); ((bs "start"), J_Int 0); ((bs "end"), J_Int 3)]); ((bs "start"), J_Int 0); ((bs "end"), J_Int 3)]]); ((bs "start"), J_Int 0); ((bs "end"), J_Int 3)]) = true. Proof. vm_compute; reflexivity. Qed.
Example estree_040 : check_estree (bs "var a") (J_Obj [((bs "type"), J_Str (bs "Program")); ((bs "body"), J_Arr [J_Obj [((bs "type"), J_Str (bs "VariableDeclaration")); ((bs "kind"), J_Str (bs "var")); ((bs "declarations"), J_Arr [J_Obj [((bs "type"), J_Str (bs "VariableDeclarator")); ((bs "id"), J_Obj [((bs "type"), J_Str (bs "Identifier")); ((bs "name"), J_Str (bs "a")); ((bs "start"), J_Int 4); ((bs "end"), J_Int 5)]); ((bs "init"), J_Null); ((bs "start"), J_Int 4); ((bs "end"), J_Int 5)]]); ((bs "start"), J_Int 0); ((bs "end"), J_Int 5)]]); ((bs "start"), J_Int 0); ((bs "end"), J_Int 5)]) = true. Proof. vm_compute; reflexivity. Qed.
Example estree_041 : check_estree (bs "let a") (J_Obj [((bs "type"), J_Str (bs "Program")); ((bs "body"), J_Arr [J_Obj [((bs "type"), J_Str (bs "VariableDeclaration")); ((bs "kind"), J_Str (bs "let")); ((bs "declarations"), J_Arr [J_Obj [((bs "type"), J_Str (bs "VariableDeclarator")); ((bs "id"), J_Obj [((bs "type"), J_Str (bs "Identifier")); ((bs "name"), J_Str (bs "a")); ((bs "start"), J_Int 4); ((bs "end"), J_Int 5)]); ((bs "init"), J_Null); ((bs "start"), J_Int 4); ((bs "end"), J_Int 5)]]); ((bs "start"), J_Int 0); ((bs "end"), J_Int 5)]]); ((bs "start"), J_Int 0); ((bs "end"), J_Int 5)]) = true. Proof. vm_compute; reflexivity. Qed.
Example estree_042 : check_estree (bs "const a") (J_Obj [((bs "type"), J_Str (bs "Program")); ((bs "body"), J_Arr [J_Obj [((bs "type"), J_Str (bs "VariableDeclaration")); ((bs "kind"), J_Str (bs "const")); ((bs "declarations"), J_Arr [J_Obj [((bs "type"), J_Str (bs "VariableDeclarator")); ((bs "id"), J_Obj [((bs "type"), J_Str (bs "Identifier")); ((bs "name"), J_Str (bs "a")); ((bs "start"), J_Int 6); ((bs "end"), J_Int 7)]); ((bs "init"), J_Null); ((bs "start"), J_Int 6); ((bs "end"), J_Int 7)]]); ((bs "start"), J_Int 0); ((bs "end"), J_Int 7)]]); ((bs "start"), J_Int 0); ((bs "end"), J_Int 7)]) = true. Proof. vm_compute; reflexivity. Qed.
Example estree_043 : check_estree (bs "const a = 2") (J_Obj [((bs "type"), J_Str (bs "Program")); ((bs "body"), J_Arr [J_Obj [((bs "type"), J_Str (bs "VariableDeclaration")); ((bs "kind"), J_Str (bs "const")); ((bs "declarations"), J_Arr [J_Obj [((bs "type"), J_Str (bs "VariableDeclarator")); ((bs "id"), J_Obj [((bs "type"), J_Str (bs "Identifier")); ((bs "name"), J_Str (bs "a")); ((bs "start"), J_Int 6); ((bs "end"), J_Int 7)]); ((bs "init"), J_Obj [((bs "type"), J_Str (bs "Literal")); ((bs "value"), J_Int 2); ((bs "raw"), J_Str (bs "2")); ((bs "start"), J_Int 10); ((bs "end"), J_Int 11)]); ((bs "start"), J_Int 6); ((bs "end"), J_Int 11)]]); ((bs "start"), J_Int 0); ((bs "end"), J_Int 11)]]); ((bs "start"), J_Int 0); ((bs "end"), J_Int 11)]) = true. Proof. vm_compute; reflexivity. Qed.
Example estree_044 : check_estree (bs "const [a] = [2]") (J_Obj [((bs "type"), J_Str (bs "Program")); ((bs "body"), J_Arr [J_Obj [((bs "type"), J_Str (bs "VariableDeclaration")); ((bs "kind"), J_Str (bs "const")); ((bs "declarations"), J_Arr [J_Obj [((bs "type"), J_Str (bs "VariableDeclarator")); ((bs "id"), J_Obj [((bs "type"), J_Str (bs "ArrayPattern")); ((bs "elements"), J_Arr [J_Obj [((bs "type"), J_Str (bs "Identifier")); ((bs "name"), J_Str (bs "a")); ((bs "start"), J_Int 7); ((bs "end"), J_Int 8)]]); ((bs "start"), J_Int 6); ((bs "end"), J_Int 9)]); ((bs "init"), J_Obj [((bs "type"), J_Str (bs "ArrayExpression")); ((bs "elements"), J_Arr [J_Obj [((bs "type"), J_Str (bs "Literal")); ((bs "value"), J_Int 2); ((bs "raw"), J_Str (bs "2")); ((bs "start"), J_Int 13); ((bs "end"), J_Int 14)]]); ((bs "start"), J_Int 12); ((bs "end"), J_Int 15)]); ((bs "start"), J_Int 6); ((bs "end"), J_Int 15)]]); ((bs "start"), J_Int 0); ((bs "end"), J_Int 15)]]); ((bs "start"), J_Int 0); ((bs "end"), J_Int 15)]) = true. Proof. vm_compute; reflexivity. Qed.
Example estree_045 : check_estree (bs "return;") (J_Obj [((bs "type"), J_Str (bs "Program")); ((bs "body"), J_Arr [J_Obj [((bs "type"), J_Str (bs "ReturnStatement")); ((bs "argument"), J_Null); ((bs "start"), J_Int 0); ((bs "end"), J_Int 6)]]); ((bs "start"), J_Int 0); ((bs "end"), J_Int 6)]) = true. Proof. vm_compute; reflexivity. Qed.
Example estree_046 : check_estree (bs "return foo;") (J_Obj [((bs "type"), J_Str (bs "Program")); ((bs "body"), J_Arr [J_Obj [((bs "type"), J_Str (bs "ReturnStatement")); ((bs "argument"), J_Obj [((bs "type"), J_Str (bs "Identifier")); ((bs "name"), J_Str (bs "foo")); ((bs "start"), J_Int 7); ((bs "end"), J_Int 10)]); ((bs "start"), J_Int 0); ((bs "end"), J_Int 10)]]); ((bs "start"), J_Int 0); ((bs "end"), J_Int 10)]) = true. Proof. vm_compute; reflexivity. Qed.
Example estree_047 : check_estree (bs "break;") (J_Obj [((bs "type"), J_Str (bs "Program")); ((bs "body"), J_Arr [J_Obj [((bs "type"), J_Str (bs "BreakStatement")); ((bs "label"), J_Null); ((bs "start"), J_Int 0); ((bs "end"), J_Int 5)]]); ((bs "start"), J_Int 0); ((bs "end"), J_Int 5)]) = true. Proof. vm_compute; reflexivity. Qed.
Example estree_048 : check_estree (bs "break foo;") (J_Obj [((bs "type"), J_Str (bs "Program")); ((bs "body"), J_Arr [J_Obj [((bs "type"), J_Str (bs "BreakStatement")); ((bs "label"), J_Obj [((bs "type"), J_Str (bs "Identifier")); ((bs "name"), J_Str (bs "foo")); ((bs "start"), J_Int 6); ((bs "end"), J_Int 9)]); ((bs "start"), J_Int 0); ((bs "end"), J_Int 9)]]); ((bs "start"), J_Int 0); ((bs "end"), J_Int 9)]) = true. Proof. vm_compute; reflexivity. Qed.
Example estree_049 : check_estree (bs "continue;") (J_Obj [((bs "type"), J_Str (bs "Program")); ((bs "body"), J_Arr [J_Obj [((bs "type"), J_Str (bs "ContinueStatement")); ((bs "label"), J_Null); ((bs "start"), J_Int 0); ((bs "end"), J_Int 8)]]); ((bs "start"), J_Int 0); ((bs "end"), J_Int 8)]) = true. Proof. vm_compute; reflexivity. Qed.
Example estree_050 : check_estree (bs "continue foo;") (J_Obj [((bs "type"), J_Str (bs "Program")); ((bs "body"), J_Arr [J_Obj [((bs "type"), J_Str (bs "ContinueStatement")); ((bs "label"), J_Obj [((bs "type"), J_Str (bs "Identifier")); ((bs "name"), J_Str (bs "foo")); ((bs "start"), J_Int 9); ((bs "end"), J_Int 12)]); ((bs "start"), J_Int 0); ((bs "end"), J_Int 12)]]); ((bs "start"), J_Int 0); ((bs "end"), J_Int 12)]) = true. Proof. vm_compute; reflexivity. Qed.
Example estree_051 : check_estree (bs "throw foo;") (J_Obj [((bs "type"), J_Str (bs "Program")); ((bs "body"), J_Arr [J_Obj [((bs "type"), J_Str (bs "ThrowStatement")); ((bs "argument"), J_Obj [((bs "type"), J_Str (bs "Identifier")); ((bs "name"), J_Str (bs "foo")); ((bs "start"), J_Int 6); ((bs "end"), J_Int 9)]); ((bs "start"), J_Int 0); ((bs "end"), J_Int 9)]]); ((bs "start"), J_Int 0); ((bs "end"), J_Int 9)]) = true. Proof. vm_compute; reflexivity. Qed.
Example estree_052 : check_estree (bs "if (true) {}") (J_Obj [((bs "type"), J_Str (bs "Program")); ((bs "body"), J_Arr [J_Obj [((bs "type"), J_Str (bs "IfStatement")); ((bs "test"), J_Obj [((bs "type"), J_Str (bs "Literal")); ((bs "value"), J_Bool true); ((bs "raw"), J_Str (bs "true")); ((bs "start"), J_Int 4); ((bs "end"), J_Int 8)]); ((bs "consequent"), J_Obj [((bs "type"), J_Str (bs "BlockStatement")); ((bs "body"), J_Arr []); ((bs "start"), J_Int 10); ((bs "end"), J_Int 12)]); ((bs "alternate"), J_Null); ((bs "start"), J_Int 0); ((bs "end"), J_Int 12)]]); ((bs "start"), J_Int 0); ((bs "end"), J_Int 12)]) = true. Proof. vm_compute; reflexivity. Qed.
Example estree_053 : check_estree (bs "if (true) {} else {}") (J_Obj [((bs "type"), J_Str (bs "Program")); ((bs "body"), J_Arr [J_Obj [((bs "type"), J_Str (bs "IfStatement")); ((bs "test"), J_Obj [((bs "type"), J_Str (bs "Literal")); ((bs "value"), J_Bool true); ((bs "raw"), J_Str (bs "true")); ((bs "start"), J_Int 4); ((bs "end"), J_Int 8)]); ((bs "consequent"), J_Obj [((bs "type"), J_Str (bs "BlockStatement")); ((bs "body"), J_Arr []); ((bs "start"), J_Int 10); ((bs "end"), J_Int 12)]); ((bs "alternate"), J_Obj [((bs "type"), J_Str (bs "BlockStatement")); ((bs "body"), J_Arr []); ((bs "start"), J_Int 18); ((bs "end"), J_Int 20)]); ((bs "start"), J_Int 0); ((bs "end"), J_Int 20)]]); ((bs "start"), J_Int 0); ((bs "end"), J_Int 20)]) = true. Proof. vm_compute; reflexivity. Qed.
Example estree_054 : check_estree (bs "while (false) {}") (J_Obj [((bs "type"), J_Str (bs "Program")); ((bs "body"), J_Arr [J_Obj [((bs "type"), J_Str (bs "WhileStatement")); ((bs "test"), J_Obj [((bs "type"), J_Str (bs "Literal")); ((bs "value"), J_Bool false); ((bs "raw"), J_Str (bs "false")); ((bs "start"), J_Int 7); ((bs "end"), J_Int 12)]); ((bs "body"), J_Obj [((bs "type"), J_Str (bs "BlockStatement")); ((bs "body"), J_Arr []); ((bs "start"), J_Int 14); ((bs "end"), J_Int 16)]); ((bs "start"), J_Int 0); ((bs "end"), J_Int 16)]]); ((bs "start"), J_Int 0); ((bs "end"), J_Int 16)]) = true. Proof. vm_compute; reflexivity. Qed.
Example estree_055 : check_estree (bs "do {} while (false)") (J_Obj [((bs "type"), J_Str (bs "Program")); ((bs "body"), J_Arr [J_Obj [((bs "type"), J_Str (bs "DoWhileStatement")); ((bs "body"), J_Obj [((bs "type"), J_Str (bs "BlockStatement")); ((bs "body"), J_Arr []); ((bs "start"), J_Int 3); ((bs "end"), J_Int 5)]); ((bs "test"), J_Obj [((bs "type"), J_Str (bs "Literal")); ((bs "value"), J_Bool false); ((bs "raw"), J_Str (bs "false")); ((bs "start"), J_Int 13); ((bs "end"), J_Int 18)]); ((bs "start"), J_Int 0); ((bs "end"), J_Int 19)]]); ((bs "start"), J_Int 0); ((bs "end"), J_Int 19)]) = true. Proof. vm_compute; reflexivity. Qed.
Example estree_056 : check_estree (bs "for (;;) {}") (J_Obj [((bs "type"), J_Str (bs "Program")); ((bs "body"), J_Arr [J_Obj [((bs "type"), J_Str (bs "ForStatement")); ((bs "init"), J_Null); ((bs "test"), J_Null); ((bs "update"), J_Null); ((bs "body"), J_Obj [((bs "type"), J_Str (bs "BlockStatement")); ((bs "body"), J_Arr []); ((bs "start"), J_Int 9); ((bs "end"), J_Int 11)]); ((bs "start"), J_Int 0); ((bs "end"), J_Int 11)]]); ((bs "start"), J_Int 0); ((bs "end"), J_Int 11)]) = true. Proof. vm_compute; reflexivity. Qed.
Example estree_057 : check_estree (bs "for (i; i < 10; i++) {}") (J_Obj [((bs "type"), J_Str (bs "Program")); ((bs "body"), J_Arr [J_Obj [((bs "type"), J_Str (bs "ForStatement")); ((bs "init"), J_Obj [((bs "type"), J_Str (bs "Identifier")); ((bs "name"), J_Str (bs "i")); ((bs "start"), J_Int 5); ((bs "end"), J_Int 6)]); ((bs "test"), J_Obj [((bs "type"), J_Str (bs "BinaryExpression")); ((bs "operator"), J_Str (bs "<")); ((bs "left"), J_Obj [((bs "type"), J_Str (bs "Identifier")); ((bs "name"), J_Str (bs "i")); ((bs "start"), J_Int 8); ((bs "end"), J_Int 9)]); ((bs "right"), J_Obj [((bs "type"), J_Str (bs "Literal")); ((bs "value"), J_Int 10); ((bs "raw"), J_Str (bs "10")); ((bs "start"), J_Int 12); ((bs "end"), J_Int 14)]); ((bs "start"), J_Int 8); ((bs "end"), J_Int 14)]); ((bs "update"), J_Obj [((bs "type"), J_Str (bs "UpdateExpression")); ((bs "operator"), J_Str (bs "++")); ((bs "argument"), J_Obj [((bs "type"), J_Str (bs "Identifier")); ((bs "name"), J_Str (bs "i")); ((bs "start"), J_Int 16); ((bs "end"), J_Int 17)]); ((bs "prefix"), J_Bool false); ((bs "start"), J_Int 16); ((bs "end"), J_Int 19)]); ((bs "body"), J_Obj [((bs "type"), J_Str (bs "BlockStatement")); ((bs "body"), J_Arr []); ((bs "start"), J_Int 21); ((bs "end"), J_Int 23)]); ((bs "start"), J_Int 0); ((bs "end"), J_Int 23)]]); ((bs "start"), J_Int 0); ((bs "end"), J_Int 23)]) = true. Proof. vm_compute; reflexivity. Qed.
Example estree_058 : check_estree (bs "for (key in {}) {}") (J_Obj [((bs "type"), J_Str (bs "Program")); ((bs "body"), J_Arr [J_Obj [((bs "type"), J_Str (bs "ForInStatement")); ((bs "left"), J_Obj [((bs "type"), J_Str (bs "Identifier")); ((bs "name"), J_Str (bs "key")); ((bs "start"), J_Int 5); ((bs "end"), J_Int 8)]); ((bs "right"), J_Obj [((bs "type"), J_Str (bs "ObjectExpression")); ((bs "properties"), J_Arr []); ((bs "start"), J_Int 12); ((bs "end"), J_Int 14)]); ((bs "body"), J_Obj [((bs "type"), J_Str (bs "BlockStatement")); ((bs "body"), J_Arr []); ((bs "start"), J_Int 16); ((bs "end"), J_Int 18)]); ((bs "start"), J_Int 0); ((bs "end"), J_Int 18)]]); ((bs "start"), J_Int 0); ((bs "end"), J_Int 18)]) = true. Proof. vm_compute; reflexivity. Qed.
Example estree_059 : check_estree (bs "for (key of {}) {}") (J_Obj [((bs "type"), J_Str (bs "Program")); ((bs "body"), J_Arr [J_Obj [((bs "type"), J_Str (bs "ForOfStatement")); ((bs "left"), J_Obj [((bs "type"), J_Str (bs "Identifier")); ((bs "name"), J_Str (bs "key")); ((bs "start"), J_Int 5); ((bs "end"), J_Int 8)]); ((bs "right"), J_Obj [((bs "type"), J_Str (bs "ObjectExpression")); ((bs "properties"), J_Arr []); ((bs "start"), J_Int 12); ((bs "end"), J_Int 14)]); ((bs "body"), J_Obj [((bs "type"), J_Str (bs "BlockStatement")); ((bs "body"), J_Arr []); ((bs "start"), J_Int 16); ((bs "end"), J_Int 18)]); ((bs "start"), J_Int 0); ((bs "end"), J_Int 18)]]); ((bs "start"), J_Int 0); ((bs "end"), J_Int 18)]) = true. Proof. vm_compute; reflexivity. Qed.
Example estree_060 : check_estree (bs "try {} catch (e) {}") (J_Obj [((bs "type"), J_Str (bs "Program")); ((bs "body"), J_Arr [J_Obj [((bs "type"), J_Str (bs "TryStatement")); ((bs "block"), J_Obj [((bs "type"), J_Str (bs "BlockStatement")); ((bs "body"), J_Arr []); ((bs "start"), J_Int 4); ((bs "end"), J_Int 6)]); ((bs "handler"), J_Obj [((bs "type"), J_Str (bs "CatchClause")); ((bs "param"), J_Obj [((bs "type"), J_Str (bs "Identifier")); ((bs "name"), J_Str (bs "e")); ((bs "start"), J_Int 14); ((bs "end"), J_Int 15)]); ((bs "body"), J_Obj [((bs "type"), J_Str (bs "BlockStatement")); ((bs "body"), J_Arr []); ((bs "start"), J_Int 17); ((bs "end"), J_Int 19)]); ((bs "start"), J_Int 7); ((bs "end"), J_Int 19)]); ((bs "finalizer"), J_Null); ((bs "start"), J_Int 0); ((bs "end"), J_Int 19)]]); ((bs "start"), J_Int 0); ((bs "end"), J_Int 19)]) = true. Proof. vm_compute; reflexivity. Qed.
Example estree_061 : check_estree (bs "{2}") (J_Obj [((bs "type"), J_Str (bs "Program")); ((bs "body"), J_Arr [J_Obj [((bs "type"), J_Str (bs "BlockStatement")); ((bs "body"), J_Arr [J_Obj [((bs "type"), J_Str (bs "ExpressionStatement")); ((bs "expression"), J_Obj [((bs "type"), J_Str (bs "Literal")); ((bs "value"), J_Int 2); ((bs "raw"), J_Str (bs "2")); ((bs "start"), J_Int 1); ((bs "end"), J_Int 2)]); ((bs "start"), J_Int 1); ((bs "end"), J_Int 2)]]); ((bs "start"), J_Int 0); ((bs "end"), J_Int 3)]]); ((bs "start"), J_Int 0); ((bs "end"), J_Int 3)]) = true. Proof. vm_compute; reflexivity. Qed.
Example estree_062 : check_estree (bs "function foo () {}") (J_Obj [((bs "type"), J_Str (bs "Program")); ((bs "body"), J_Arr [J_Obj [((bs "type"), J_Str (bs "FunctionDeclaration")); ((bs "generator"), J_Bool false); ((bs "id"), J_Obj [((bs "type"), J_Str (bs "Identifier")); ((bs "name"), J_Str (bs "foo")); ((bs "start"), J_Int 9); ((bs "end"), J_Int 12)]); ((bs "params"), J_Arr []); ((bs "body"), J_Obj [((bs "type"), J_Str (bs "BlockStatement")); ((bs "body"), J_Arr []); ((bs "start"), J_Int 16); ((bs "end"), J_Int 18)]); ((bs "start"), J_Int 0); ((bs "end"), J_Int 18)]]); ((bs "start"), J_Int 0); ((bs "end"), J_Int 18)]) = true. Proof. vm_compute; reflexivity. Qed.
Example estree_063 : check_estree (bs "function* foo () {}") (J_Obj [((bs "type"), J_Str (bs "Program")); ((bs "body"), J_Arr [J_Obj [((bs "type"), J_Str (bs "FunctionDeclaration")); ((bs "generator"), J_Bool true); ((bs "id"), J_Obj [((bs "type"), J_Str (bs "Identifier")); ((bs "name"), J_Str (bs "foo")); ((bs "start"), J_Int 10); ((bs "end"), J_Int 13)]); ((bs "params"), J_Arr []); ((bs "body"), J_Obj [((bs "type"), J_Str (bs "BlockStatement")); ((bs "body"), J_Arr []); ((bs "start"), J_Int 17); ((bs "end"), J_Int 19)]); ((bs "start"), J_Int 0); ((bs "end"), J_Int 19)]]); ((bs "start"), J_Int 0); ((bs "end"), J_Int 19)]) = true. Proof. vm_compute; reflexivity. Qed.
Example estree_064 : check_estree (bs "function foo (a, value = true) {}") (J_Obj [((bs "type"), J_Str (bs "Program")); ((bs "body"), J_Arr [J_Obj [((bs "type"), J_Str (bs "FunctionDeclaration")); ((bs "generator"), J_Bool false); ((bs "id"), J_Obj [((bs "type"), J_Str (bs "Identifier")); ((bs "name"), J_Str (bs "foo")); ((bs "start"), J_Int 9); ((bs "end"), J_Int 12)]); ((bs "params"), J_Arr [J_Obj [((bs "type"), J_Str (bs "Identifier")); ((bs "name"), J_Str (bs "a")); ((bs "start"), J_Int 14); ((bs "end"), J_Int 15)]; J_Obj [((bs "type"), J_Str (bs "AssignmentPattern")); ((bs "left"), J_Obj [((bs "type"), J_Str (bs "Identifier")); ((bs "name"), J_Str (bs "value")); ((bs "start"), J_Int 17); ((bs "end"), J_Int 22)]); ((bs "right"), J_Obj [((bs "type"), J_Str (bs "Literal")); ((bs "value"), J_Bool true); ((bs "raw"), J_Str (bs "true")); ((bs "start"), J_Int 25); ((bs "end"), J_Int 29)]); ((bs "start"), J_Int 17); ((bs "end"), J_Int 29)]]); ((bs "body"), J_Obj [((bs "type"), J_Str (bs "BlockStatement")); ((bs "body"), J_Arr []); ((bs "start"), J_Int 31); ((bs "end"), J_Int 33)]); ((bs "start"), J_Int 0); ((bs "end"), J_Int 33)]]); ((bs "start"), J_Int 0); ((bs "end"), J_Int 33)]) = true. Proof. vm_compute; reflexivity. Qed.
Example estree_065 : check_estree (bs "import defaultName, * as namespace from 'module-name'") (J_Obj [((bs "type"), J_Str (bs "Program")); ((bs "body"), J_Arr [J_Obj [((bs "type"), J_Str (bs "ImportDeclaration")); ((bs "specifiers"), J_Arr [J_Obj [((bs "type"), J_Str (bs "ImportDefaultSpecifier")); ((bs "local"), J_Obj [((bs "type"), J_Str (bs "Identifier")); ((bs "name"), J_Str (bs "defaultName")); ((bs "start"), J_Int 7); ((bs "end"), J_Int 18)]); ((bs "start"), J_Int 7); ((bs "end"), J_Int 19)]; J_Obj [((bs "type"), J_Str (bs "ImportNamespaceSpecifier")); ((bs "local"), J_Obj [((bs "type"), J_Str (bs "Identifier")); ((bs "name"), J_Str (bs "namespace")); ((bs "start"), J_Int 25); ((bs "end"), J_Int 34)]); ((bs "start"), J_Int 20); ((bs "end"), J_Int 39)]]); ((bs "source"), J_Str (bs "module-name")); ((bs "start"), J_Int 0); ((bs "end"), J_Int 53)]]); ((bs "start"), J_Int 0); ((bs "end"), J_Int 53)]) = true. Proof. vm_compute; reflexivity. Qed.
Example estree_066 : check_estree (bs "import {a, b as c} from 'module-name'") (J_Obj [((bs "type"), J_Str (bs "Program")); ((bs "body"), J_Arr [J_Obj [((bs "type"), J_Str (bs "ImportDeclaration")); ((bs "specifiers"), J_Arr [J_Obj [((bs "type"), J_Str (bs "ImportSpecifier")); ((bs "imported"), J_Obj [((bs "type"), J_Str (bs "Identifier")); ((bs "name"), J_Str (bs "a")); ((bs "start"), J_Int 8); ((bs "end"), J_Int 9)]); ((bs "local"), J_Obj [((bs "type"), J_Str (bs "Identifier")); ((bs "name"), J_Str (bs "a")); ((bs "start"), J_Int 8); ((bs "end"), J_Int 9)]); ((bs "start"), J_Int 8); ((bs "end"), J_Int 10)]; J_Obj [((bs "type"), J_Str (bs "ImportSpecifier")); ((bs "imported"), J_Obj [((bs "type"), J_Str (bs "Identifier")); ((bs "name"), J_Str (bs "b")); ((bs "start"), J_Int 11); ((bs "end"), J_Int 12)]); ((bs "local"), J_Obj [((bs "type"), J_Str (bs "Identifier")); ((bs "name"), J_Str (bs "c")); ((bs "start"), J_Int 16); ((bs "end"), J_Int 17)]); ((bs "start"), J_Int 11); ((bs "end"), J_Int 18)]]); ((bs "source"), J_Str (bs "module-name")); ((bs "start"), J_Int 0); ((bs "end"), J_Int 37)]]); ((bs "start"), J_Int 0); ((bs "end"), J_Int 37)]) = true. Proof. vm_compute; reflexivity. Qed.
(** /repo/ratel/src/astgen/value.rs *)
Example estree_067 : check_estree (bs "undefined") (J_Obj [((bs "type"), J_Str (bs "Program")); ((bs "body"), J_Arr [J_Obj [((bs "type"), J_Str (bs "ExpressionStatement")); ((bs "expression"), J_Obj [((bs "type"), J_Str (bs "Literal")); ((bs "raw"), J_Str (bs "undefined")); ((bs "start"), J_Int 0); ((bs "end"), J_Int 9)]); ((bs "start"), J_Int 0); ((bs "end"), J_Int 9)]]); ((bs "start"), J_Int 0); ((bs "end"), J_Int 9)]) = true. Proof. vm_compute; reflexivity. Qed.
Example estree_068 : check_estree (bs "true") (J_Obj [((bs "type"), J_Str (bs "Program")); ((bs "body"), J_Arr [J_Obj [((bs "type"), J_Str (bs "ExpressionStatement")); ((bs "expression"), J_Obj [((bs "type"), J_Str (bs "Literal")); ((bs "value"), J_Bool true); ((bs "raw"), J_Str (bs "true")); ((bs "start"), J_Int 0); ((bs "end"), J_Int 4)]); ((bs "start"), J_Int 0); ((bs "end"), J_Int 4)]]); ((bs "start"), J_Int 0); ((bs "end"), J_Int 4)]) = true. Proof. vm_compute; reflexivity. Qed.
Example estree_069 : check_estree (bs "false") (J_Obj [((bs "type"), J_Str (bs "Program")); ((bs "body"), J_Arr [J_Obj [((bs "type"), J_Str (bs "ExpressionStatement")); ((bs "expression"), J_Obj [((bs "type"), J_Str (bs "Literal")); ((bs "value"), J_Bool false); ((bs "raw"), J_Str (bs "false")); ((bs "start"), J_Int 0); ((bs "end"), J_Int 5)]); ((bs "start"), J_Int 0); ((bs "end"), J_Int 5)]]); ((bs "start"), J_Int 0); ((bs "end"), J_Int 5)]) = true. Proof. vm_compute; reflexivity. Qed.
Example estree_070 : check_estree (bs "0") (J_Obj [((bs "type"), J_Str (bs "Program")); ((bs "body"), J_Arr [J_Obj [((bs "type"), J_Str (bs "ExpressionStatement")); ((bs "expression"), J_Obj [((bs "type"), J_Str (bs "Literal")); ((bs "value"), J_Int 0); ((bs "raw"), J_Str (bs "0")); ((bs "start"), J_Int 0); ((bs "end"), J_Int 1)]); ((bs "start"), J_Int 0); ((bs "end"), J_Int 1)]]); ((bs "start"), J_Int 0); ((bs "end"), J_Int 1)]) = true. Proof. vm_compute; reflexivity. Qed.
Example estree_071 : check_estree (bs "255") (J_Obj [((bs "type"), J_Str (bs "Program")); ((bs "body"), J_Arr [J_Obj [((bs "type"), J_Str (bs "ExpressionStatement")); ((bs "expression"), J_Obj [((bs "type"), J_Str (bs "Literal")); ((bs "value"), J_Int 255); ((bs "raw"), J_Str (bs "255")); ((bs "start"), J_Int 0); ((bs "end"), J_Int 3)]); ((bs "start"), J_Int 0); ((bs "end"), J_Int 3)]]); ((bs "start"), J_Int 0); ((bs "end"), J_Int 3)]) = true. Proof. vm_compute; reflexivity. Qed.
Example estree_072 : check_estree (bs "0.234") (J_Obj [((bs "type"), J_Str (bs "Program")); ((bs "body"), J_Arr [J_Obj [((bs "type"), J_Str (bs "ExpressionStatement")); ((bs "expression"), J_Obj [((bs "type"), J_Str (bs "Literal")); ((bs "value"), J_Float_any); ((bs "raw"), J_Str (bs "0.234")); ((bs "start"), J_Int 0); ((bs "end"), J_Int 5)]); ((bs "start"), J_Int 0); ((bs "end"), J_Int 5)]]); ((bs "start"), J_Int 0); ((bs "end"), J_Int 5)]) = true. Proof. vm_compute; reflexivity. Qed.
Example estree_073 : check_estree (bs "0xff") (J_Obj [((bs "type"), J_Str (bs "Program")); ((bs "body"), J_Arr [J_Obj [((bs "type"), J_Str (bs "ExpressionStatement")); ((bs "expression"), J_Obj [((bs "type"), J_Str (bs "Literal")); ((bs "value"), J_Int 255); ((bs "raw"), J_Str (bs "0xff")); ((bs "start"), J_Int 0); ((bs "end"), J_Int 4)]); ((bs "start"), J_Int 0); ((bs "end"), J_Int 4)]]); ((bs "start"), J_Int 0); ((bs "end"), J_Int 4)]) = true. Proof. vm_compute; reflexivity. Qed.
Example estree_074 : check_estree (bs "0b1111") (J_Obj [((bs "type"), J_Str (bs "Program")); ((bs "body"), J_Arr [J_Obj [((bs "type"), J_Str (bs "ExpressionStatement")); ((bs "expression"), J_Obj [((bs "type"), J_Str (bs "Literal")); ((bs "value"), J_Int 15); ((bs "raw"), J_Str (bs "0b1111")); ((bs "start"), J_Int 0); ((bs "end"), J_Int 6)]); ((bs "start"), J_Int 0); ((bs "end"), J_Int 6)]]); ((bs "start"), J_Int 0); ((bs "end"), J_Int 6)]) = true. Proof. vm_compute; reflexivity. Qed.
Example estree_075 : check_estree (bs "0o1111") (J_Obj [((bs "type"), J_Str (bs "Program")); ((bs "body"), J_Arr [J_Obj [((bs "type"), J_Str (bs "ExpressionStatement")); ((bs "expression"), J_Obj [((bs "type"), J_Str (bs "Literal")); ((bs "value"), J_Int 585); ((bs "raw"), J_Str (bs "0o1111")); ((bs "start"), J_Int 0); ((bs "end"), J_Int 6)]); ((bs "start"), J_Int 0); ((bs "end"), J_Int 6)]]); ((bs "start"), J_Int 0); ((bs "end"), J_Int 6)]) = true. Proof. vm_compute; reflexivity. Qed.
Example estree_076 : check_estree (bs "'foo'") (J_Obj [((bs "type"), J_Str (bs "Program")); ((bs "body"), J_Arr [J_Obj [((bs "type"), J_Str (bs "ExpressionStatement")); ((bs "expression"), J_Obj [((bs "type"), J_Str (bs "Literal")); ((bs "value"), J_Str (bs "foo")); ((bs "raw"), J_Str (bs "'foo'")); ((bs "start"), J_Int 0); ((bs "end"), J_Int 5)]); ((bs "start"), J_Int 0); ((bs "end"), J_Int 5)]]); ((bs "start"), J_Int 0); ((bs "end"), J_Int 5)]) = true. Proof. vm_compute; reflexivity. Qed.
Example estree_077 : check_estree (bs "``") (J_Obj [((bs "type"), J_Str (bs "Program")); ((bs "body"), J_Arr [J_Obj [((bs "type"), J_Str (bs "ExpressionStatement")); ((bs "expression"), J_Obj [((bs "type"), J_Str (bs "TemplateLiteral")); ((bs "quasis"), J_Arr [J_Obj [((bs "type"), J_Str (bs "TemplateElement")); ((bs "tail"), J_Bool true); ((bs "value"), J_Obj [((bs "raw"), J_Str (bs "")); ((bs "cooked"), J_Str (bs ""))]); ((bs "start"), J_Int 1); ((bs "end"), J_Int 1)]]); ((bs "expressions"), J_Arr []); ((bs "start"), J_Int 0); ((bs "end"), J_Int 2)]); ((bs "start"), J_Int 0); ((bs "end"), J_Int 2)]]); ((bs "start"), J_Int 0); ((bs "end"), J_Int 2)]) = true. Proof. vm_compute; reflexivity. Qed.
Example estree_078 : check_estree (bs "foo``") (J_Obj [((bs "type"), J_Str (bs "Program")); ((bs "body"), J_Arr [J_Obj [((bs "type"), J_Str (bs "ExpressionStatement")); ((bs "expression"), J_Obj [((bs "type"), J_Str (bs "TaggedTemplateExpression")); ((bs "tag"), J_Obj [((bs "type"), J_Str (bs "Identifier")); ((bs "name"), J_Str (bs "foo")); ((bs "start"), J_Int 0); ((bs "end"), J_Int 3)]); ((bs "quasi"), J_Obj [((bs "type"), J_Str (bs "TemplateLiteral")); ((bs "quasis"), J_Arr [J_Obj [((bs "type"), J_Str (bs "TemplateElement")); ((bs "tail"), J_Bool true); ((bs "value"), J_Obj [((bs "raw"), J_Str (bs "")); ((bs "cooked"), J_Str (bs ""))]); ((bs "start"), J_Int 4); ((bs "end"), J_Int 4)]]); ((bs "expressions"), J_Arr []); ((bs "start"), J_Int 3); ((bs "end"), J_Int 5)]); ((bs "start"), J_Int 0); ((bs "end"), J_Int 5)]); ((bs "start"), J_Int 0); ((bs "end"), J_Int 5)]]); ((bs "start"), J_Int 0); ((bs "end"), J_Int 5)]) = true. Proof. vm_compute; reflexivity. Qed.
Example estree_079 : check_estree (bs "``") (J_Obj [((bs "type"), J_Str (bs "Program")); ((bs "body"), J_Arr [J_Obj [((bs "type"), J_Str (bs "ExpressionStatement")); ((bs "expression"), J_Obj [((bs "type"), J_Str (bs "TemplateLiteral")); ((bs "quasis"), J_Arr [J_Obj [((bs "type"), J_Str (bs "TemplateElement")); ((bs "tail"), J_Bool true); ((bs "value"), J_Obj [((bs "raw"), J_Str (bs "")); ((bs "cooked"), J_Str (bs ""))]); ((bs "start"), J_Int 1); ((bs "end"), J_Int 1)]]); ((bs "expressions"), J_Arr []); ((bs "start"), J_Int 0); ((bs "end"), J_Int 2)]); ((bs "start"), J_Int 0); ((bs "end"), J_Int 2)]]); ((bs "start"), J_Int 0); ((bs "end"), J_Int 2)]) = true. Proof. vm_compute; reflexivity. Qed.
Example estree_080 : check_estree (bs "`foo${bar}baz`") (J_Obj [((bs "type"), J_Str (bs "Program")); ((bs "body"), J_Arr [J_Obj [((bs "type"), J_Str (bs "ExpressionStatement")); ((bs "expression"), J_Obj [((bs "type"), J_Str (bs "TemplateLiteral")); ((bs "quasis"), J_Arr [J_Obj [((bs "type"), J_Str (bs "TemplateElement")); ((bs "tail"), J_Bool false); ((bs "value"), J_Obj [((bs "raw"), J_Str (bs "foo")); ((bs "cooked"), J_Str (bs "foo"))]); ((bs "start"), J_Int 1); ((bs "end"), J_Int 5)]; J_Obj [((bs "type"), J_Str (bs "TemplateElement")); ((bs "tail"), J_Bool true); ((bs "value"), J_Obj [((bs "raw"), J_Str (bs "baz")); ((bs "cooked"), J_Str (bs "baz"))]); ((bs "start"), J_Int 10); ((bs "end"), J_Int 13)]]); ((bs "expressions"), J_Arr [J_Obj [((bs "type"), J_Str (bs "Identifier")); ((bs "name"), J_Str (bs "bar")); ((bs "start"), J_Int 6); ((bs "end"), J_Int 9)]]); ((bs "start"), J_Int 0); ((bs "end"), J_Int 14)]); ((bs "start"), J_Int 0); ((bs "end"), J_Int 14)]]); ((bs "start"), J_Int 0); ((bs "end"), J_Int 14)]) = true. Proof. vm_compute; reflexivity. Qed.
Example estree_081 : check_estree (bs "let {a, b} = { a: 1, b: 2 };") (J_Obj [((bs "type"), J_Str (bs "Program")); ((bs "body"), J_Arr [J_Obj [((bs "type"), J_Str (bs "VariableDeclaration")); ((bs "kind"), J_Str (bs "let")); ((bs "declarations"), J_Arr [J_Obj [((bs "type"), J_Str (bs "VariableDeclarator")); ((bs "id"), J_Obj [((bs "type"), J_Str (bs "ObjectPattern")); ((bs "keys"), J_Arr [J_Obj [((bs "type"), J_Str (bs "Identifier")); ((bs "name"), J_Str (bs "a")); ((bs "start"), J_Int 5); ((bs "end"), J_Int 6)]; J_Obj [((bs "type"), J_Str (bs "Identifier")); ((bs "name"), J_Str (bs "b")); ((bs "start"), J_Int 8); ((bs "end"), J_Int 9)]]); ((bs "start"), J_Int 4); ((bs "end"), J_Int 10)]); ((bs "init"), J_Obj [((bs "type"), J_Str (bs "ObjectExpression")); ((bs "properties"), J_Arr [J_Obj [((bs "type"), J_Str (bs "Property")); ((bs "key"), J_Obj [((bs "type"), J_Str (bs "Identifier")); ((bs "name"), J_Str (bs "a")); ((bs "start"), J_Int 15); ((bs "end"), J_Int 16)]); ((bs "method"), J_Bool false); ((bs "shorthand"), J_Bool false); ((bs "computed"), J_Bool false); ((bs "value"), J_Obj [((bs "type"), J_Str (bs "Literal")); ((bs "value"), J_Int 1); ((bs "raw"), J_Str (bs "1")); ((bs "start"), J_Int 18); ((bs "end"), J_Int 19)]); ((bs "kind"), J_Str (bs "init")); ((bs "start"), J_Int 15); ((bs "end"), J_Int 19)]; J_Obj [((bs "type"), J_Str (bs "Property")); ((bs "key"), J_Obj [((bs "type"), J_Str (bs "Identifier")); ((bs "name"), J_Str (bs "b")); ((bs "start"), J_Int 21); ((bs "end"), J_Int 22)]); ((bs "method"), J_Bool false); ((bs "shorthand"), J_Bool false); ((bs "computed"), J_Bool false); ((bs "value"), J_Obj [((bs "type"), J_Str (bs "Literal")); ((bs "value"), J_Int 2); ((bs "raw"), J_Str (bs "2")); ((bs "start"), J_Int 24); ((bs "end"), J_Int 25)]); ((bs "kind"), J_Str (bs "init")); ((bs "start"), J_Int 21); ((bs "end"), J_Int 25)]]); ((bs "start"), J_Int 13); ((bs "end"), J_Int 27)]); ((bs "start"), J_Int 4); ((bs "end"), J_Int 27)]]); ((bs "start"), J_Int 0); ((bs "end"), J_Int 28)]]); ((bs "start"), J_Int 0); ((bs "end"), J_Int 28)]) = true. Proof. vm_compute; reflexivity. Qed.
Example estree_082 : check_estree (bs "let [a, b] = [1, 2];") (J_Obj [((bs "type"), J_Str (bs "Program")); ((bs "body"), J_Arr [J_Obj [((bs "type"), J_Str (bs "VariableDeclaration")); ((bs "kind"), J_Str (bs "let")); ((bs "declarations"), J_Arr [J_Obj [((bs "type"), J_Str (bs "VariableDeclarator")); ((bs "id"), J_Obj [((bs "type"), J_Str (bs "ArrayPattern")); ((bs "elements"), J_Arr [J_Obj [((bs "type"), J_Str (bs "Identifier")); ((bs "name"), J_Str (bs "a")); ((bs "start"), J_Int 5); ((bs "end"), J_Int 6)]; J_Obj [((bs "type"), J_Str (bs "Identifier")); ((bs "name"), J_Str (bs "b")); ((bs "start"), J_Int 8); ((bs "end"), J_Int 9)]]); ((bs "start"), J_Int 4); ((bs "end"), J_Int 10)]); ((bs "init"), J_Obj [((bs "type"), J_Str (bs "ArrayExpression")); ((bs "elements"), J_Arr [J_Obj [((bs "type"), J_Str (bs "Literal")); ((bs "value"), J_Int 1); ((bs "raw"), J_Str (bs "1")); ((bs "start"), J_Int 14); ((bs "end"), J_Int 15)]; J_Obj [((bs "type"), J_Str (bs "Literal")); ((bs "value"), J_Int 2); ((bs "raw"), J_Str (bs "2")); ((bs "start"), J_Int 17); ((bs "end"), J_Int 18)]]); ((bs "start"), J_Int 13); ((bs "end"), J_Int 19)]); ((bs "start"), J_Int 4); ((bs "end"), J_Int 19)]]); ((bs "start"), J_Int 0); ((bs "end"), J_Int 20)]]); ((bs "start"), J_Int 0); ((bs "end"), J_Int 20)]) = true. Proof. vm_compute; reflexivity. Qed.

(** /repo/ratel/src/error.rs:121-132 *)
Example display_1 :
  display_error (bs "foo") 0 1
  = Done (bs "Unexpected token at 1:1" ++ [x0a; x0a] ++ bs "> 1 | foo" ++ [x0a] ++ bs "    | ^" ++ [x0a]).
Proof. vm_compute; reflexivity. Qed.

(** /repo/ratel-transformer/src/scope.rs:150-174 and the visitor tests in
    /repo/ratel-visitor/src/lib.rs:310-480. *)
Definition visit_of (src : str) : visit :=
  match parse_fuel ascii_alnum 200 src with Done (ParseOk m) => visit_module m | _ => [] end.
(** (scopes opened, maximal depth, uses with depth, declarations with depth) *)
Fixpoint scope_test (d mx : nat) (v : visit)
    : list scope_kind * nat * list (str * nat) * list (str * nat) :=
  match v with
  | [] => ([], mx, [], [])
  | c :: v' =>
      match c with
      | V_enter_scope k =>
          let '(ks, m, u, dl) := scope_test (S d) (Nat.max mx (S d)) v' in (k :: ks, m, u, dl)
      | V_leave_scope => scope_test (d - 1) mx v'
      | V_reference_use s =>
          let '(ks, m, u, dl) := scope_test d mx v' in (ks, m, (s, d) :: u, dl)
      | V_reference_declaration s =>
          let '(ks, m, u, dl) := scope_test d mx v' in (ks, m, u, (s, d) :: dl)
      | _ => scope_test d mx v'
      end
  end.
Definition st (s : string) := scope_test 0 0 (visit_of (bs s)).
Example visit_1 : st "{{{}}}" = ([SK_Block; SK_Block; SK_Block], 3, [], []).
Proof. vm_compute; reflexivity. Qed.
Example visit_2 : st "let foo; const bar = 42, doge;"
  = ([], 0, [], [(bs "foo", 0); (bs "bar", 0); (bs "doge", 0)]).
Proof. vm_compute; reflexivity. Qed.
Example visit_3 : st "let foo; { let foo; { let foo; }}"
  = ([SK_Block; SK_Block], 2, [], [(bs "foo", 0); (bs "foo", 1); (bs "foo", 2)]).
Proof. vm_compute; reflexivity. Qed.
Example visit_4 : st "doge = to + the + moon"
  = ([], 0, [(bs "doge", 0); (bs "to", 0); (bs "the", 0); (bs "moon", 0)], []).
Proof. vm_compute; reflexivity. Qed.
Example visit_5 : st "doge; { to; { the; { moon; }}}"
  = ([SK_Block; SK_Block; SK_Block], 3, [(bs "doge", 0); (bs "to", 1); (bs "the", 2); (bs "moon", 3)], []).
Proof. vm_compute; reflexivity. Qed.
Example visit_6 : st "function foo() {} class Bar {}"
  = ([SK_Function], 1, [], [(bs "foo", 0); (bs "Bar", 0)]).
Proof. vm_compute; reflexivity. Qed.
Example visit_7 : st "(function foo() {}); (class Bar {});" = ([SK_Function], 1, [], []).
Proof. vm_compute; reflexivity. Qed.
Example visit_8 : st "class Doge {}" = ([], 0, [], [(bs "Doge", 0)]).
Proof. vm_compute; reflexivity. Qed.
Example visit_9 : st "function doge() { foo; return { baz() { bar; } }; }"
  = ([SK_Function; SK_Function], 2, [(bs "foo", 1); (bs "bar", 2)], [(bs "doge", 0)]).
Proof. vm_compute; reflexivity. Qed.
Example visit_10 : st "const doge = { to, the, moon };"
  = ([], 0, [(bs "to", 0); (bs "the", 0); (bs "moon", 0)], [(bs "doge", 0)]).
Proof. vm_compute; reflexivity. Qed.
Example visit_11 : st "function doge(to, the) { const moon; }"
  = ([SK_Function], 1, [], [(bs "doge", 0); (bs "to", 1); (bs "the", 1); (bs "moon", 1)]).
Proof. vm_compute; reflexivity. Qed.
Example parents_1 :
  List.length (filter (fun c => match c with V_push_parent _ => true | _ => false end)
                      (visit_of (bs "{{{1+2}}}"))) = 5.
Proof. vm_compute; reflexivity. Qed.
Example scope_1 :
  match parse_fuel ascii_alnum 100 (bs "function test_function(bar) { doge; { moon; } return 10; }") with
  | Done (ParseOk m) => analyze m
  | _ => Panicked
  end
  = Done (Scope SK_Function false [] [bs "test_function"]
            [Scope SK_Function false [bs "doge"] [bs "bar"]
               [Scope SK_Block false [bs "moon"] [] []]], []).
Proof. vm_compute; reflexivity. Qed.

