{"id": "C01", "title": "Binary operators follow the precedence table", "statement": "For every chain x0 op1 x1 ... opn xn of identifiers and binary operators, parse accepts the source and yields one expression statement whose tree has exactly that in-order reading and in which every operator binds at least as tightly as its parent on the left and strictly tighter on the right (ECMAScript table, all levels left associative).", "quantifier": "all identifiers, all operators, all chain lengths", "why_tests_cant": "the number of operator chains is unbounded; tests sample a few pairs", "anchors": ["ratel/src/parser/nested.rs:bp! tables, binary!", "ratel/src/parser/nested.rs:nested_expression", "ratel/src/ast/operator.rs:binding_power"]}
{"id": "C02", "title": "Exponent is right associative", "statement": "parse of `a ** b ** c` groups to the right, as ECMAScript requires.", "quantifier": "all operand identifiers", "why_tests_cant": "associativity is a statement about every chain", "anchors": ["ratel/src/parser/nested.rs:binary!(EXPN, B15)", "ratel/src/parser/nested.rs:B15"]}
{"id": "C03", "title": "Generated code re-parses to the same tree (expressions)", "statement": "For every expression tree built from the supported operators, codegen(minified) followed by parse yields the same tree up to source locations, i.e. the generator inserts every parenthesis and space that is needed.", "quantifier": "all expression trees", "why_tests_cant": "trees are unbounded; a missing parenthesis shows only for particular nestings", "anchors": ["ratel-codegen/src/expression.rs:BinaryExpression::to_code", "ratel-codegen/src/lib.rs:write_expression", "ratel/src/parser/nested.rs:nested_expression"]}
{"id": "C04", "title": "Codegen preserves the program (whole language)", "statement": "For every source that parses, the code generated from it parses again, to the same tree up to locations.", "quantifier": "all sources accepted by parse", "why_tests_cant": "any node type in any context can break it", "anchors": ["ratel-codegen/src/lib.rs:codegen", "ratel/src/parser/mod.rs:parse"]}
{"id": "C05", "title": "Minified and pretty output differ only in white space", "statement": "For every module, the minified output is obtained from the pretty output by deleting only space and newline bytes, never a byte of program text.", "quantifier": "all modules", "why_tests_cant": "all node types in all combinations", "anchors": ["ratel-codegen/src/lib.rs:MinifyingGenerator", "ratel-codegen/src/lib.rs:PrettyGenerator", "ratel-codegen/src/lib.rs:codegen"]}
{"id": "C06", "title": "Codegen depends only on the tree, not on locations", "statement": "Two modules equal up to source locations generate the same code in both modes.", "quantifier": "all pairs of modules", "why_tests_cant": "universally quantified over trees", "anchors": ["ratel-codegen/src/lib.rs:ToCode", "ratel/src/ast/mod.rs:Loc"]}
{"id": "C07", "title": "Codegen never panics on a parsed module", "statement": "If parse succeeds, codegen terminates normally in both modes; in particular no error placeholder is in the tree and the indentation counter never underflows.", "quantifier": "all sources accepted by parse", "why_tests_cant": "needs an invariant over all parser paths", "anchors": ["ratel-codegen/src/function.rs:ClassMember::to_code", "ratel-codegen/src/lib.rs:PrettyGenerator::dedent", "ratel/src/parser/mod.rs:parse"]}
{"id": "C08", "title": "A successful parse contains no error placeholder", "statement": "If parse returns Ok, the tree contains no error class member, no empty placeholder name or property, and Void occurs only as an array hole.", "quantifier": "all sources", "why_tests_cant": "needs an invariant over all parser paths", "anchors": ["ratel/src/parser/error.rs:ToError", "ratel/src/parser/mod.rs:parse"]}
{"id": "C09", "title": "Template literals have one more quasi than expressions", "statement": "If parse returns Ok, every template literal in the tree has exactly one more quasi than it has expressions, so no part of it is dropped when code is generated.", "quantifier": "all sources", "why_tests_cant": "invariant over all parser paths", "anchors": ["ratel/src/parser/expression.rs:template_literal", "ratel-codegen/src/expression.rs:TemplateLiteral::to_code"]}
{"id": "C10", "title": "Assignment and update targets are valid", "statement": "If parse returns Ok, the target of every assignment operator and every postfix ++/-- is an identifier, a member expression, an array literal or an object literal.", "quantifier": "all sources", "why_tests_cant": "invariant over all parser paths", "anchors": ["ratel/src/parser/nested.rs:assign!", "ratel/src/parser/nested.rs:postfix!", "ratel/src/ast/expression.rs:is_lvalue"]}
{"id": "C11", "title": "Structural well-formedness of parsed trees", "statement": "If parse returns Ok: sequences have at least two elements, declarations at least one declarator, meta properties are exactly new.target, static members are never constructors, try has a handler or a finalizer, string literals are delimited by the same quote at both ends, regular expressions by slashes followed by flags, identifiers, labels, imported and parameter names are words that are not keywords, member names are words, function and class declarations are named, rest parameters come last, operators are used in their own position (prefix, postfix, binary), and spread occurs only in array literals and call arguments.", "quantifier": "all sources", "why_tests_cant": "invariant over all parser paths", "anchors": ["ratel/src/parser/expression.rs", "ratel/src/parser/statement.rs", "ratel/src/parser/function.rs"]}
{"id": "C12", "title": "Errors are non-empty and lie inside the source", "statement": "If parse returns Err, the list is non-empty and every error has start <= end <= source length and its raw text is exactly source[start..end].", "quantifier": "all sources", "why_tests_cant": "all inputs, all error paths", "anchors": ["ratel/src/lexer/mod.rs:invalid_token", "ratel/src/parser/mod.rs:error"]}
{"id": "C13", "title": "Errors are reported in source order", "statement": "The errors returned by parse have non-decreasing start offsets, and each error starts no earlier than the previous one ends.", "quantifier": "all sources", "why_tests_cant": "all inputs, all error paths", "anchors": ["ratel/src/lexer/mod.rs:invalid_token", "ratel/src/parser/mod.rs:error"]}
{"id": "C14", "title": "parse terminates", "statement": "parse returns (Ok or Err) on every source string.", "quantifier": "all sources", "why_tests_cant": "non-termination is not observable by a finite test suite over valid inputs", "anchors": ["ratel/src/parser/statement.rs:SwitchCase::parse", "ratel/src/lexer/mod.rs:UNI", "ratel/src/parser/mod.rs:Parser::parse"]}
{"id": "C15", "title": "parse never reads outside the source buffer", "statement": "While parsing any source, no byte beyond the terminating NUL is read.", "quantifier": "all sources", "why_tests_cant": "the out-of-bounds read is undefined behaviour, silent in tests", "anchors": ["ratel/src/lexer/mod.rs:read_byte", "ratel/src/lexer/mod.rs:read_accessor", "ratel/src/lexer/mod.rs:read_template_kind", "ratel/src/lexer/mod.rs:read_regular_expression"]}
{"id": "C16", "title": "parse never panics", "statement": "parse returns a Result on every source; it never panics.", "quantifier": "all sources", "why_tests_cant": "all inputs", "anchors": ["ratel/src/lexer/mod.rs:read_accessor", "ratel/src/parser/statement.rs:import_declaration", "ratel/src/parser/expression.rs:OP"]}
{"id": "C17", "title": "The whole source is considered", "statement": "If parse returns Ok, every byte of the source was taken into account: appending text can only be ignored if it is white space or a comment.", "quantifier": "all sources and suffixes", "why_tests_cant": "all inputs", "anchors": ["ratel/src/lexer/mod.rs:EOF handler", "ratel/src/lexer/mod.rs:Lexer::new"]}
{"id": "C18", "title": "Unterminated blocks are rejected", "statement": "A source that ends inside an open block, function body, class body is rejected with an error.", "quantifier": "all sources", "why_tests_cant": "all inputs", "anchors": ["ratel/src/parser/mod.rs:block", "ratel/src/parser/mod.rs:raw_block"]}
{"id": "C19", "title": "Keywords are recognised exactly", "statement": "For every word of label characters followed by a non-label byte, the lexer yields the keyword token iff the word is that keyword, and Identifier otherwise; the token text is the word.", "quantifier": "all words, all following bytes", "why_tests_cant": "all identifiers share prefixes with keywords in unboundedly many ways", "anchors": ["ratel/src/lexer/labels.rs:match_label!", "ratel/src/lexer/labels.rs", "ratel/src/lexer/util.rs:legal_in_label"]}
{"id": "C20", "title": "Operators are lexed by longest match", "statement": "For every punctuator and every continuation of the source, the lexer returns the longest punctuator that is a prefix of the remaining input, and its text.", "quantifier": "all continuations", "why_tests_cant": "unbounded continuations", "anchors": ["ratel/src/lexer/mod.rs:byte handlers"]}
{"id": "C21", "title": "String literals end at the first unescaped matching quote", "statement": "For every string body (any bytes, escapes included), the lexer yields one string token spanning exactly from the opening quote to the first unescaped quote of the same kind; if there is none it yields UnexpectedEndOfProgram.", "quantifier": "all string bodies and continuations", "why_tests_cant": "unbounded", "anchors": ["ratel/src/lexer/mod.rs:QOT"]}
{"id": "C22", "title": "Tokens tile the source", "statement": "Successive tokens are ordered and disjoint, and the bytes between two successive tokens are white space (<= 0x20) and comments only.", "quantifier": "all sources, all tokens", "why_tests_cant": "all inputs", "anchors": ["ratel/src/lexer/mod.rs:consume", "ratel/src/lexer/mod.rs:SLH"]}
{"id": "C23", "title": "The lexer makes progress and ends", "statement": "Every call of consume that does not start at end of program either reaches end of program or advances past at least one byte; once EndOfProgram is reported it is reported forever.", "quantifier": "all lexer states", "why_tests_cant": "all inputs", "anchors": ["ratel/src/lexer/mod.rs:consume", "ratel/src/lexer/mod.rs:EOF", "ratel/src/lexer/mod.rs:UNI"]}
{"id": "C24", "title": "A line break before a token enables semicolon insertion", "statement": "asi() reports an implicit semicolon for a token whenever a newline precedes it, also when a comment lies between.", "quantifier": "all gaps between tokens", "why_tests_cant": "all inputs", "anchors": ["ratel/src/lexer/mod.rs:consume", "ratel/src/lexer/mod.rs:SLH", "ratel/src/parser/statement.rs:expect_semicolon"]}
{"id": "C25", "title": "Offsets fall on character boundaries", "statement": "For valid UTF-8 source every token start and end, and every error start and end, is a character boundary, so slicing the source at them never splits a character.", "quantifier": "all valid UTF-8 sources", "why_tests_cant": "all inputs", "anchors": ["ratel/src/lexer/mod.rs:UNI", "ratel/src/lexer/mod.rs:slice_source", "ratel/src/error.rs:ParseError::fmt"]}
{"id": "C26", "title": "Node locations lie inside the source", "statement": "If parse returns Ok, every node has start <= end <= source length.", "quantifier": "all sources", "why_tests_cant": "all parser paths", "anchors": ["ratel/src/parser/mod.rs:alloc_at_loc", "ratel/src/parser/mod.rs:alloc_in_loc"]}
{"id": "C27", "title": "Node locations nest", "statement": "If parse returns Ok, the span of every child node lies within the span of its parent.", "quantifier": "all sources", "why_tests_cant": "all parser paths", "anchors": ["ratel/src/parser/nested.rs:CALL", "ratel/src/parser/nested.rs:ACCS"]}
{"id": "C28", "title": "Identifier locations cover the identifier", "statement": "If parse returns Ok, source[start..end] of every identifier node is its name.", "quantifier": "all sources", "why_tests_cant": "all parser paths", "anchors": ["ratel/src/parser/nested.rs:ACCS", "ratel/src/parser/expression.rs:IDEN"]}
{"id": "C29", "title": "Visitor scope events are balanced", "statement": "Visiting any module, every on_leave_scope matches an earlier on_enter_scope, and all scopes are left at the end.", "quantifier": "all modules", "why_tests_cant": "all trees", "anchors": ["ratel-visitor/src/lib.rs", "ratel-visitor/src/statement.rs", "ratel-visitor/src/function.rs"]}
{"id": "C30", "title": "Visitor parent stack is balanced", "statement": "Visiting any module, every pop_parent matches an earlier push_parent, and the parent stack is empty at the end.", "quantifier": "all modules", "why_tests_cant": "all trees", "anchors": ["ratel-visitor/src/statement.rs:StatementNode::visit_with", "ratel-visitor/src/expression.rs"]}
{"id": "C31", "title": "Every identifier expression is visited exactly once", "statement": "Visiting any module, the sequence of identifier expressions reported equals the identifier expressions of the tree in source order, and each is followed by a reference use.", "quantifier": "all modules", "why_tests_cant": "all trees", "anchors": ["ratel-visitor/src/expression.rs", "ratel-visitor/src/statement.rs"]}
{"id": "C32", "title": "Scope analysis returns the root scope", "statement": "analyze never panics; it returns a Function scope without parent whose scope tree has one child for every function, block and switch directly inside.", "quantifier": "all modules", "why_tests_cant": "all trees", "anchors": ["ratel-transformer/src/scope.rs:analyze"]}
{"id": "C33", "title": "Scope analysis attributes names to scopes", "statement": "For every module: names bound by a construct are declared in the scope that construct opens (function parameters, arrow parameters, rest parameters, destructured names, imports).", "quantifier": "all modules", "why_tests_cant": "all trees", "anchors": ["ratel-transformer/src/scope.rs:ScopeAnalyzer", "ratel-visitor/src/lib.rs:Pattern::visit_with", "ratel-visitor/src/expression.rs:ArrowExpression::visit_with"]}
{"id": "C34", "title": "transform removes arrow functions", "statement": "After transform, the module contains no arrow function: each became a function expression with the same parameters and body.", "quantifier": "all modules", "why_tests_cant": "aliasing/copy semantics of cells on all trees", "anchors": ["ratel-transformer/src/es2015/arrow.rs", "ratel-transformer/src/lib.rs:swap", "ratel/src/ast/node.rs:Node::set"]}
{"id": "C35", "title": "Serialising the AST succeeds", "statement": "If parse returns Ok, serialising the module to ESTree JSON returns a value (no panic).", "quantifier": "all sources accepted by parse", "why_tests_cant": "all trees and literal texts", "anchors": ["ratel/src/astgen"]}
{"id": "C36", "title": "Regular expression literals split losslessly", "statement": "For every regular expression literal of a parsed module, the reported pattern and flags satisfy /pattern/flags = literal text, and flags contain no slash.", "quantifier": "all sources", "why_tests_cant": "all inputs", "anchors": ["ratel/src/astgen/value.rs:parse_regex", "ratel/src/lexer/mod.rs:read_regular_expression"]}
{"id": "C37", "title": "Error messages name the right line and column", "statement": "For every source and error offset, the displayed line:column is the one of that offset.", "quantifier": "all sources, all offsets", "why_tests_cant": "all inputs", "anchors": ["ratel/src/error.rs:ParseError::fmt"]}
{"id": "C38", "title": "Number of errors is bounded", "statement": "The texts of the reported errors are disjoint parts of the source, so their total length is at most that of the source, and an error without text is only the end of the program or an unexpected non-ASCII character.", "quantifier": "all sources", "why_tests_cant": "all inputs", "anchors": ["ratel/src/parser/mod.rs:error"]}
{"id": "C39", "title": "Statement sequences compose in codegen", "statement": "Minified output of a module is the concatenation of the outputs of its statements; pretty output joins them with one newline.", "quantifier": "all modules", "why_tests_cant": "all trees", "anchors": ["ratel-codegen/src/lib.rs:codegen"]}
{"id": "C40", "title": "White space between tokens is irrelevant", "statement": "Replacing the white space between two tokens by other white space with the same newline-presence does not change the result of parse, up to locations.", "quantifier": "all sources", "why_tests_cant": "all inputs", "anchors": ["ratel/src/lexer/mod.rs:consume"]}
{"id": "C41", "title": "Codegen is idempotent", "statement": "Generating code from the re-parsed output gives the same text.", "quantifier": "all modules of the round-trip fragment", "why_tests_cant": "all trees", "anchors": ["ratel-codegen/src/lib.rs:codegen"]}
{"id": "C42", "title": "Function kinds survive codegen", "statement": "Generators stay generators, finally clauses stay finally clauses, empty statement bodies stay bodies.", "quantifier": "all modules", "why_tests_cant": "all trees", "anchors": ["ratel-codegen/src/function.rs:Function::to_code", "ratel-codegen/src/statement.rs:TryStatement::to_code", "ratel-codegen/src/statement.rs:Statement::to_code"]}
{"id": "C43", "title": "Lexing numbers", "statement": "For every decimal integer, fraction, exponent, hexadecimal, octal or binary literal followed by a byte that cannot continue it, the lexer yields one number token with exactly that text.", "quantifier": "all literals, all continuations", "why_tests_cant": "unbounded", "anchors": ["ratel/src/lexer/mod.rs:ZER", "ratel/src/lexer/mod.rs:DIG", "ratel/src/lexer/mod.rs:PRD"]}
{"id": "C44", "title": "The error path never loses the source text", "statement": "wasm transform returns codegen of the module if parse is Ok and otherwise a text starting with `Error: ` containing one message per error in order.", "quantifier": "all sources", "why_tests_cant": "all inputs", "anchors": ["ratel-wasm/src/lib.rs:transform", "ratel-wasm/src/lib.rs:format_errors"]}
{"id": "C45", "title": "Minified and pretty output are the same program", "statement": "For every source that parses, the pretty and the minified output of its module parse to the same tree.", "quantifier": "all sources accepted by parse", "why_tests_cant": "any pair of adjacent tokens in any context can need a space", "anchors": ["ratel-codegen/src/lib.rs:codegen", "ratel-codegen/src/expression.rs:BinaryExpression::to_code"]}
{"id": "C46", "title": "The parent stack is what encloses the node", "statement": "Visiting any module without import declarations, whenever an expression or statement is reported the stack built by push_parent and pop_parent holds exactly the statements and expressions around that node, innermost first; nodes are reported in preorder.", "quantifier": "all modules without import declarations, all reported nodes", "why_tests_cant": "it must hold for every nesting of every kind of node", "anchors": ["ratel-visitor/src/lib.rs: Visitor::push_parent, pop_parent", "ratel-visitor/src/expression.rs", "ratel-visitor/src/statement.rs"]}
{"id": "C47", "title": "Template chunks and property names are exact parts of the source", "statement": "Every template token the lexer delivers is its opening delimiter, the chunk text it reports and its closing delimiter, where the chunk contains no unescaped backquote or ${; every accessor token is a period, blanks and the reported name. In a successful parse the chunks of every template are in source order with the text they span, and the name of every property access is the one written before the token it is located at.", "quantifier": "all sources, all reachable lexer states, all trees", "why_tests_cant": "any chunk text and any nesting of templates", "anchors": ["ratel/src/lexer/mod.rs: read_template_kind, read_accessor", "ratel/src/parser/expression.rs: template_literal", "ratel/src/parser/nested.rs: ACCS"]}
{"id": "C48", "title": "Serialised literals carry the literal's value", "statement": "In the ESTree JSON of a module an integer literal in range has as value the number its digits denote in its radix, a string literal the text between its quotes, a literal with a fraction the float of its text, and each has its source text as raw.", "quantifier": "all literals of all parsed modules", "why_tests_cant": "all literal texts", "anchors": ["ratel/src/astgen/value.rs:Literal"]}
{"id": "C49", "title": "Every node is in the JSON", "statement": "When the serialisation of a parsed module to ESTree JSON succeeds, every node of the tree that has an ESTree type appears in it as an object with that type, the node's start and end offsets, and its name, operator or raw text; except that a call operand of new is merged into the NewExpression, an expression initialising a for loop carries the initialiser's offsets, and template chunks are written as elements (C51).", "quantifier": "all sources, all nodes of the tree", "why_tests_cant": "every kind of node in every position, at every depth", "anchors": ["ratel/src/astgen/expression.rs", "ratel/src/astgen/statement.rs", "ratel/src/astgen/function.rs", "ratel/src/astgen/value.rs"]}
{"id": "C50", "title": "Offsets in the JSON lie in the source", "statement": "In the ESTree JSON of any parsed module, every object that has a type has integer start and end fields with start <= end <= length of the source, including the Program object and template elements.", "quantifier": "all sources below 4 GiB, all objects of the JSON", "why_tests_cant": "all trees; offsets come from different code paths", "anchors": ["ratel/src/astgen/mod.rs: Serialize for Module, Serializer", "ratel/src/astgen/value.rs: TemplateQuasis"]}
{"id": "C51", "title": "Template elements in the JSON delimit their text", "statement": "In the ESTree JSON every template literal is written with the list of its chunks in order, each with its text as raw, the last one and only it marked as tail, and the offsets of each element delimit exactly its text in the source.", "quantifier": "all sources, all templates in the tree", "why_tests_cant": "all chunk texts and numbers of chunks", "anchors": ["ratel/src/astgen/value.rs: TemplateQuasis, TemplateElement"]}
{"id": "C52", "title": "Generated code is valid UTF-8", "statement": "For every valid UTF-8 source that parses, the code generated for its module, pretty or minified, is valid UTF-8 (the generator builds its string with from_utf8_unchecked).", "quantifier": "all valid UTF-8 sources that parse, both modes", "why_tests_cant": "all inputs", "anchors": ["ratel-codegen/src/lib.rs:consume", "ratel-codegen/src/lib.rs:codegen", "ratel/src/lexer/mod.rs:slice_source"]}
{"id": "C53", "title": "Error messages show the offending line", "statement": "The message of an error shows the line of the error with up to two lines before and after it, each with its right-aligned number, and under it one caret for each character of the offending text, in its columns.", "quantifier": "all sources, all errors", "why_tests_cant": "all inputs and positions", "anchors": ["ratel/src/error.rs:ParseError::fmt", "ratel/src/error.rs:log10"]}
{"id": "C54", "title": "An accepted program has only valid tokens", "statement": "If parse returns Ok, the lexer produced no invalid token (an unexpected character, an unterminated string, template, comment or regular expression) anywhere in the source that was read: no lexical error is skipped silently.", "quantifier": "all sources", "why_tests_cant": "all inputs, all grammar positions in which an invalid token can occur", "anchors": ["ratel/src/parser/mod.rs:Parser::error", "ratel/src/parser/expression.rs:DEF_CONTEXT", "ratel/src/parser/statement.rs:STMT_HANDLERS", "ratel/src/parser/nested.rs:LUT"]}
{"id": "C55", "title": "The JSON describes the tree field by field", "statement": "When the serialisation of a parsed module to ESTree JSON succeeds, the result is a Program whose body lists its statements in order, and every object has the node's ESTree type, exactly the fields of that type, each once, and each field holds the part of the node it names: operands on their sides, conditional branches, loop parts, arguments and parameters in order, the static/generator/prefix/computed flags, absent parts as null; a computed key is written as its expression, holes of an array literal as null (trailing ones dropped).", "quantifier": "all sources, all nodes of the tree", "why_tests_cant": "every kind of node in every position, at every depth", "anchors": ["ratel/src/astgen/mod.rs:Serialize for Module", "ratel/src/astgen/expression.rs", "ratel/src/astgen/statement.rs", "ratel/src/astgen/function.rs", "ratel/src/astgen/value.rs"]}
{"id": "C56", "title": "The computed flag of the JSON", "statement": "In the ESTree JSON a property or class member has computed true exactly when its key is written in brackets.", "quantifier": "all sources, all properties and class members", "why_tests_cant": "all programs", "anchors": ["ratel/src/astgen/value.rs:Property", "ratel/src/astgen/function.rs:ClassMember"]}
{"id": "C57", "title": "The AST functions return the program or its errors", "statement": "generateASTEstree of the WebAssembly package and ast of the Node.js package return, when the parser does and every node can be serialised (C35), the JSON of the program (C55) if it parses, and otherwise the messages of all its errors in order, one per line (as a text with the prefix \"Error: \", or as a thrown TypeError).", "quantifier": "all sources", "why_tests_cant": "all inputs", "anchors": ["ratel-wasm/src/lib.rs:generate_ast_estree", "ffi/native/src/lib.rs:ast"]}
{"id": "C58", "title": "Brackets nest in accepted programs", "statement": "In a program that parse accepts, every closing parenthesis, square bracket and brace closes the bracket of its kind that was opened last (a brace may close a block or a template substitution), and when the source ends no parenthesis, square bracket or template substitution is open: only braces may be.", "quantifier": "all accepted sources", "why_tests_cant": "all programs, any nesting depth", "anchors": ["ratel/src/parser/mod.rs:expect", "ratel/src/parser/expression.rs:call_arguments, paren_expression, template_literal", "ratel/src/parser/function.rs:params"]}
{"id": "C59", "title": "Accepted programs do not stop after an incomplete token", "statement": "The last token of a program that parse accepts is a semicolon, a closing bracket, ++ or --, break, continue, return, debugger, this, a literal, a name, a property access or the end of a template: a source cut after an operator, an opening bracket, a comma, a colon, an arrow or any other keyword is rejected.", "quantifier": "all accepted sources", "why_tests_cant": "all programs", "anchors": ["ratel/src/parser/expression.rs", "ratel/src/parser/statement.rs"]}
{"id": "C60", "title": "The tokens of an accepted program make up its tree", "statement": "If parse accepts a source with a tree, the tokens of the source, in order and each used exactly once, make up that tree by the rules of the grammar: the tree of a + b is the node + with the trees of the tokens left and right of the +, a call has the trees of its comma separated arguments in order, an if statement has the test between the parentheses and the branches after it, and so on for every kind of expression, property, pattern, function, class and statement. Operands have the precedence their operator asks for unless they are in parentheses, operators of the same precedence group to the left, nothing but a comma continues an expression that ends with the unbraced body of an arrow function, an else belongs to the nearest if, and an expression statement does not begin with a brace, function or class. No token is dropped, duplicated or attached elsewhere, nothing in the tree comes from nowhere, and a source whose tokens match no rule is rejected.", "quantifier": "all accepted sources and their trees", "why_tests_cant": "all programs of every shape and size", "anchors": ["ratel/src/parser/mod.rs", "ratel/src/parser/nested.rs", "ratel/src/parser/expression.rs", "ratel/src/parser/statement.rs", "ratel/src/parser/function.rs"]}
{"id": "C61", "title": "Every program of the grammar is accepted, with its tree", "statement": "If the tokens of a source make up a program by the rules of the grammar, which say where a semicolon can be left out (before a closing parenthesis or brace, before the end, after a line break, where the next token does not continue the expression) and where line breaks are not allowed (between return, break, continue and what follows them, before ++ and --), then parse accepts the source and returns the tree of that program: no valid program is rejected, whatever its size, nesting and combination of constructs, and none gets another tree. So the grammar is unambiguous, also about whether a slash begins a regular expression or a brace ends a template expression, and a source that is rejected is not a program.", "quantifier": "all sources, all ways to read slashes and braces in them, all programs", "why_tests_cant": "all programs of every shape and size", "anchors": ["ratel/src/parser/mod.rs", "ratel/src/parser/nested.rs", "ratel/src/parser/expression.rs", "ratel/src/parser/statement.rs", "ratel/src/parser/function.rs", "ratel/src/lexer/mod.rs"]}
{"id": "C62", "title": "Nothing but programs of the grammar is accepted", "statement": "If parse accepts a source, then the tokens of the source, as the public lexer delivers them when asked at some slashes for a regular expression and at some closing braces for the next piece of a template, make up a program by the rules of the grammar of C61, and the tree returned is the tree of that program. So a semicolon is missing only where the rules let it be left out, no statement runs on into the next, a return value, label or ++ stands on the line it must stand on, an else belongs to the nearest if, and no token is skipped or read twice. Together with C61: the accepted sources are exactly the programs of the grammar.", "quantifier": "all sources", "why_tests_cant": "the sources that must not be accepted are infinitely many and of every shape; a test can only try some", "anchors": ["ratel/src/parser/mod.rs", "ratel/src/parser/nested.rs", "ratel/src/parser/expression.rs", "ratel/src/parser/statement.rs", "ratel/src/parser/function.rs", "ratel/src/lexer/mod.rs"]}
{"id": "C63", "title": "Scope analysis describes the program exactly", "statement": "For every program that parses, analyze returns exactly the scope tree the program describes: one Function scope for the module and every function and method, one Block scope for every block, try, catch and finally body and switch, nested and ordered as in the source; used_this of a scope is true exactly when this occurs in its part of the program outside inner scopes, and used_refs and declared_refs are exactly the names used and declared there (with the attributions C33 finds wrong: arrow functions have no scope, rest names, destructured shorthand names, import names and new.target count as uses, catch parameters and function names belong outside).", "quantifier": "all sources that parse, all scopes of the tree", "why_tests_cant": "every nesting of functions, blocks, switches and names", "anchors": ["ratel-transformer/src/scope.rs: analyze, ScopeAnalyzer", "ratel-visitor/src/lib.rs", "ratel-visitor/src/statement.rs", "ratel-visitor/src/function.rs"]}
{"id": "C64", "title": "Every statement list is reported once", "statement": "Visiting any module calls on_statement_list exactly once for the body of every function and arrow function, every block (also those of try, catch and finally) and every switch case, with exactly its statements, and for nothing else (in particular not for the module itself).", "quantifier": "all modules", "why_tests_cant": "all trees", "anchors": ["ratel-visitor/src/statement.rs", "ratel-visitor/src/function.rs", "ratel-visitor/src/expression.rs: ArrowExpression", "ratel-visitor/src/lib.rs: Visitor::on_statement_list"]}
{"id": "C65", "title": "Minified code has no superfluous spaces", "statement": "In minified code an operator of a binary expression other than in and instanceof has a space before it only if the code of the left operand ends with that sign, and after it only if the code of the right operand begins with it; else and do have a space only beside a statement that is not a block. In the heads of loops, in try, catch, labels, conditionals, initialised declarations, arrays, calls, blocks and programs there is nothing between the parts but the punctuation and the keywords (with a space around in and of, and after var, let and const).", "quantifier": "all binary operators and operands, all statements, lists and programs of the named kinds", "why_tests_cant": "all operand trees", "anchors": ["ratel-codegen/src/expression.rs: BinaryExpression", "ratel-codegen/src/statement.rs: IfStatement, DoStatement"]}
{"id": "C66", "title": "Minifying does not lengthen the program", "statement": "The minified code of a program is at most as long as its source and as the pretty code.", "quantifier": "all sources that parse", "why_tests_cant": "all sources", "anchors": ["ratel-codegen/src/lib.rs: codegen, MinifyingGenerator", "ratel-codegen/src/expression.rs: MemberExpression"]}
{"id": "C67", "title": "Parsing takes linear time", "statement": "When parse returns, with a module or with errors, the number of parser method calls, looks at the current token and lexer operations (advance, template piece, regular expression) it has made is at most 100 times the length of the source plus 101; so no source, however nested or malformed, makes the parser take quadratic or exponential time (there is no backtracking), and the list of errors is at most that long.", "quantifier": "all UTF-8 sources, accepted or rejected, on which parse returns, and all classifications of non-ASCII characters", "why_tests_cant": "a bound on the work for sources of every length, nesting and malformation", "anchors": ["ratel/src/parser/mod.rs: parse, Parser", "ratel/src/parser/expression.rs", "ratel/src/parser/statement.rs", "ratel/src/parser/function.rs", "ratel/src/lexer/mod.rs: Lexer::consume"]}
{"id": "C68", "title": "Programs can be concatenated", "statement": "If a is an accepted source without NUL bytes none of whose blocks is closed by the end of the source, and b is an accepted source, then a followed by a line feed and b is accepted, with the statements of a followed by those of b, provided that a has no tokens, or its last token is a semicolon, or the first token of b after the line feed is marked as one before which a semicolon can be left out (no comment stands between) and cannot continue an expression. A line feed before an accepted source changes nothing.", "quantifier": "all pairs of accepted sources meeting the side conditions, all classifications of non-ASCII characters", "why_tests_cant": "all pairs of programs of every size; what the lexer and the parser do at the seam depends on all that precedes", "anchors": ["ratel/src/parser/mod.rs: parse", "ratel/src/parser/statement.rs: expect_semicolon", "ratel/src/lexer/mod.rs: Lexer::consume, asi"]}
{"id": "C69", "title": "Keyword and punctuator tokens have exactly their spelling", "statement": "Whenever the lexer, after any sequence of calls of its public methods, reports a token kind that has a fixed spelling (a keyword or a punctuator), the text of the token is exactly that spelling.", "quantifier": "all sources, all histories of calls of consume, read_template_kind and read_regular_expression, all keyword and punctuator tokens", "why_tests_cant": "all sources and all call histories; a wrong length for one token would only show in rare contexts", "anchors": ["ratel/src/lexer/mod.rs: Lexer::consume, Lexer::token_as_str, define_handlers", "ratel/src/lexer/labels.rs", "ratel/src/lexer/token.rs: Token"]}
{"id": "C70", "title": "Minifying at most doubles the length", "statement": "The minified code of an accepted program is at most twice as long as its source, and no smaller factor will do.", "quantifier": "all sources that parse", "why_tests_cant": "all sources of all lengths; the parentheses, semicolons and spaces that the generator adds must be paid for by the source in every combination", "anchors": ["ratel-codegen/src/lib.rs: codegen, MinifyingGenerator, Generator::write_expression", "ratel-codegen/src/expression.rs", "ratel-codegen/src/statement.rs", "ratel-codegen/src/function.rs", "ratel/src/parser"]}
{"id": "C71", "title": "Errors do not depend on what comes later", "statement": "Two sources that agree up to and including some ASCII character have exactly the same errors before that character; so an error that ends before it cannot be repaired by a different continuation: parse rejects every such source on which it returns, with that error, and none of them is a program of the grammar. The first error is the same one.", "quantifier": "all beginnings, all pairs of continuations on which parse returns", "why_tests_cant": "all pairs of sources; the lexer and parser look ahead and recover from errors, and no sample shows that the text after an error never influences it", "anchors": ["ratel/src/parser/mod.rs: parse, Parser::error", "ratel/src/lexer/mod.rs: Lexer::consume, Lexer::invalid_token"]}
{"id": "C72", "title": "The JSON of a program determines the program", "statement": "Two accepted sources whose ESTree JSON is the same have the same tree (as decided by ==): the serialisation loses nothing of the program.", "quantifier": "all pairs of sources that parse and serialise", "why_tests_cant": "all pairs of trees of all sizes; a confusion of two constructs can hide in any combination of node kinds and field values", "anchors": ["ratel/src/astgen/expression.rs", "ratel/src/astgen/statement.rs", "ratel/src/astgen/function.rs", "ratel/src/astgen/value.rs", "ratel/src/ast/mod.rs: PartialEq for Loc"]}
{"id": "C73", "title": "A program can be put between braces", "statement": "A complete program (without a NUL byte, and none of whose blocks is closed by the end of the source) that is put, on lines of its own, between the brackets of any construct that has statements between braces — a block, the body of a function that is called at once, of a loop, of a try — is accepted there, and the tree is that construct with the statements of the program between its braces, whatever comments the program ends with and whether or not its last statement has a semicolon.", "quantifier": "all accepted programs and all surrounding texts that accept every list of statements between their braces", "why_tests_cant": "two unbounded sets of texts; the last tokens of the program and the first ones after it interact (automatic semicolons, comments, regular expressions and templates that a brace could continue)", "anchors": ["ratel/src/parser/mod.rs: block, statement", "ratel/src/parser/statement.rs", "ratel/src/lexer/mod.rs: consume, asi", "ratel/src/parser/macros.rs: expect_semicolon!"]}
{"id": "C74", "title": "The debug dump of a program determines its tree", "statement": "What generateAST (with minify) and the node function parse return for an accepted source is a complete picture of the tree: two sources with the same dump have the same tree, with the same start and end of every node, whatever quotes, backslashes, brackets, commas or non-ASCII characters their names, strings and comments contain; and a dump is never the same text as an error report.", "quantifier": "all pairs of valid UTF-8 sources of which one is accepted", "why_tests_cant": "all pairs of trees of all sizes and all texts inside them; a text that looks like a piece of the dump could make two trees collide", "anchors": ["ratel-wasm/src/lib.rs: generate_ast", "ffi/native/src/lib.rs: parse", "ratel/src/ast/mod.rs: derive(Debug) for Loc, Block, Pattern", "ratel/src/ast/node.rs: Debug for Node", "ratel/src/ast/expression.rs", "ratel/src/ast/statement.rs", "ratel/src/ast/function.rs"]}
{"id": "C75", "title": "The ESTree text is JSON with one reading", "statement": "For an accepted source whose tree can be serialised, generateASTEstree and the node function ast return a text of the program's ESTree value in JSON as RFC 8259 defines it, minified or indented, whatever quotes, backslashes and control characters its strings contain; every JSON reader reads the same value from both forms; and the report that generateASTEstree returns for a rejected source is never a JSON text, so that the two can be told apart. The minified text is one line without control characters, the indented one is more than one line. Whichever is returned is valid UTF-8 when the source is.", "quantifier": "all sources, both values of minify, all texts in the tree", "why_tests_cant": "all trees of all sizes and all bytes in their strings; one unescaped byte or one misplaced comma in one combination makes the text unreadable or readable as something else", "anchors": ["ratel-wasm/src/lib.rs: generate_ast_estree", "ffi/native/src/lib.rs: ast", "ratel/src/astgen/mod.rs", "serde_json 1.0: to_string, to_string_pretty"]}
{"id": "C76", "title": "An expression means the same in every place", "statement": "A piece of source that is an expression, put on lines of its own between two pieces h and t that accept any expression there (as between parentheses, as the condition of an if, as an index, as the substitution of a template), is accepted, and the tree has the tree of the expression in its place, unchanged. In particular wrapping an accepted program that is one expression in parentheses gives the same tree, whatever operators, functions, templates, regular expressions, comments and line breaks it contains.", "quantifier": "all expressions, all sources of them, all surroundings that accept an expression", "why_tests_cant": "every pair of an expression and a place; the meaning of /, }, commas and line breaks inside the expression could depend on what stands outside", "anchors": ["ratel/src/parser/expression.rs: paren_expression", "ratel/src/parser/nested.rs: computed member", "ratel/src/parser/statement.rs: if_statement", "ratel/src/parser/mod.rs", "ratel/src/lexer/mod.rs: consume, read_template_kind"]}
{"id": "C77", "title": "Renaming commutes with parsing", "statement": "If the names of an accepted source are replaced by other names, consistently, in a way that leaves alone the handful of words the parser looks for although they are names (of, as, from, get, set, target, and constructor) and makes no new ones, the result is accepted and its tree is the old tree with the names replaced, and nothing else changed. So nothing that the parser does depends on what a name is, and a source with two names exchanged is accepted exactly if the source is.", "quantifier": "all accepted sources, all renamings, all sources that spell the renamed lexemes", "why_tests_cant": "all names in all positions of all programs; a comparison with one particular name in one handler would go unnoticed", "anchors": ["ratel/src/lexer/mod.rs: token_as_str", "ratel/src/parser/expression.rs", "ratel/src/parser/statement.rs: identifiers, labels, imports", "ratel/src/parser/function.rs: get, set, constructor"]}
{"id": "C78", "title": "A semicolon on its own line separates programs", "statement": "If two sources are accepted, then the first one, a line with a semicolon, and the second one together are accepted, whatever the first ends with and the second begins with (an unfinished-looking expression, a comment, a parenthesis, a template, an operator), and the tree has the statements of the first, perhaps an empty statement, and the statements of the second. At the end of a program such a line adds at most an empty statement.", "quantifier": "all pairs of accepted sources, the first without a NUL byte and without a block that only the end of the source closes", "why_tests_cant": "every pair of an end and a beginning; automatic semicolon insertion depends on both", "anchors": ["ratel/src/parser/mod.rs: expect_semicolon", "ratel/src/lexer/mod.rs: asi", "ratel/src/parser/statement.rs"]}
{"id": "C79", "title": "Nodes begin and end where their text does", "statement": "In the tree of an accepted source, every node of a kind that begins with a keyword, an operator or a bracket (this, literals, arrays, objects, calls' arguments, prefix operators, functions, classes, members marked static, blocks, every keyword statement, declarations, cases, catch clauses, ...) begins at exactly that text; every node of a kind that ends with one ends right after it (a block may end with the program instead); a node that begins or ends with another node (binary expressions, conditionals, patterns with defaults, if, while, for, try, functions, ...) shares that node's start or end; keys lie at their own text (of getters and setters: at get or set); holes take up no room; templates span their pieces; imports end with the quoted name of their module, and without specifiers they are just that name. Prefix expressions, sequences, computed members, arrows and declarations do not: they end after the next token.", "quantifier": "all accepted sources shorter than 2^32 bytes and all nodes of their trees", "why_tests_cant": "positions of every kind of node in every context, with any white space and comments around", "anchors": ["ratel/src/parser/expression.rs", "ratel/src/parser/nested.rs", "ratel/src/parser/statement.rs", "ratel/src/parser/function.rs", "ratel/src/ast/mod.rs: Loc"]}
{"id": "C80", "title": "The parts of a node are in source order", "statement": "In the tree of an accepted source, the parts of every node begin, and end, in the source in the order in which the node has them: statements of blocks and programs, elements, properties, members, parameters, declarators, specifiers and cases in their lists, a callee before its arguments, operands from left to right, test, branches, initialiser, update and body of a statement in the order they are written; the pieces and substitutions of a template take turns. (A part need not end before the next one begins, see C79.)", "quantifier": "all accepted sources shorter than 2^32 bytes and all nodes of their trees", "why_tests_cant": "all programs: lists of every length, nested in every way, and every kind of node", "anchors": ["ratel/src/parser/expression.rs", "ratel/src/parser/nested.rs", "ratel/src/parser/statement.rs", "ratel/src/parser/function.rs"]}
{"id": "C81", "title": "A program is empty exactly when the source has no token", "statement": "parse returns a program without statements if and only if the source, up to its end or a NUL, is white space and complete comments only; every other source gives at least one statement or at least one error. The minified text of a program is empty exactly when every statement of it is an empty statement, and transforming a source without tokens gives the empty text.", "quantifier": "all sources and all programs", "why_tests_cant": "all inputs: white space and comments of every length and in every mixture", "anchors": ["ratel/src/parser/mod.rs:parse", "ratel/src/lexer/mod.rs:consume", "ratel-codegen/src/lib.rs:codegen", "ratel-wasm/src/lib.rs:transform"]}
