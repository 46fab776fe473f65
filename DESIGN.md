# Formal model of ratel-core in Rocq (Coq 8.16.1)

## Files

| file | what |
|---|---|
| `rocq/theories/Bytes.v` | bytes, byte strings |
| `Token.v` (generated by `tools/gen_token.py`) | tokens, operators, operator tables |
| `Tables.v` (generated by `tools/gen_tables.py`) | the 256-entry lexer tables and the parser dispatch tables, transcribed from the Rust source by the script |
| `Lexer.v` | `ratel/src/lexer/*.rs` |
| `Ast.v` | `ratel/src/ast/*.rs`, list of all nodes of a tree, equality up to locations |
| `Prog.v`, `Parser.v` | `ratel/src/parser/*.rs`; every Rust method is one program over five state operations and calls |
| `Codegen.v` | `ratel-codegen/src/*.rs` |
| `Visitor.v` | `ratel-visitor/src/*.rs`, `ratel-transformer/src/scope.rs` |
| `Transform.v` | `ratel-transformer/src/lib.rs`, `es2015/arrow.rs`: a memory model of the arena cells |
| `Astgen.v` | `ratel/src/astgen/*.rs` (ESTree JSON) |
| `ErrorFmt.v` | `ratel/src/error.rs`, `ratel-wasm/src/lib.rs`, `ffi/native/src/lib.rs` |
| `Sanity.v` (generated by `tools/gen_sanity.py`) | 272 of the repository's own unit tests, executed on the model by `vm_compute`.  These are tests of the model's fidelity, not proofs |
| `SpecLexer.v`, `SpecTokens.v`, `SpecRead.v`, `SpecChunks.v` | specification vocabulary: white space, comments, keywords, punctuators, literals, template chunks, reachable lexer states |
| `SpecTree.v`, `SpecPos.v`, `SpecCodegen.v`, `SpecVisit.v` | specification vocabulary: well-formed trees, positions and source text of nodes, generated texts, scopes and visits |
| `SpecPrec.v` | specification of C01: the ECMAScript table of binary operators, chains, grouping |
| `SpecRound.v`, `SpecPlain.v` | specification of C03: `fits`, the conditions on the nodes of a tree under which it is printed so that it can be read back, and `plain`, a grammar of such trees |
| `Gets.v`, `Levels.v`, `Chain.v` | forward reasoning about the parser on rendered code; binding powers; chains of operators |
| `LexerFacts.v`, `ConsumeFacts.v`, `LexEval.v`, `TokenText.v`, `ChunkText.v`, `LexProps.v` | proofs about the lexer |
| `ProgFacts.v`, `StateFacts.v`, `ErrorFacts.v`, `ParseFacts.v` | proofs about programs over the parser's state |
| `Structure.v`, `PosFacts.v`, `NodeText.v` | three passes over all 83 parser methods with the Hoare rule: structure, positions, texts |
| `AstInd.v`, `CodegenFacts.v`, `VisitFacts.v` | proofs by induction over trees |
| `RoundBase.v`, `RoundExpr.v`, `RoundParts.v`, `RoundProps.v`, `RoundArrow.v`, `RoundStmt.v`, `RoundFor.v`, `RoundImport.v`, `RoundTrip.v`, `PlainFacts.v` | the parser run on the output of the generator: one lemma per construct, then induction over the tree |
| `SpecAst.v`, `AstFacts.v`, `SpecJson.v`, `JsonFacts.v` | values of literals, writable nodes, ESTree types, parts of a JSON value; proofs about the serialiser by induction over trees |
| `SpecUtf8.v`, `Boundary.v`, `Utf8Facts.v`, `TextUtf8.v`, `CodeUtf8.v` | UTF-8: characters and boundaries; invariants of the lexer, texts of a tree, generated code |
| `SpecError.v`, `MessageFacts.v` | lines, columns, decimal numbers, excerpts; proofs about `Display for ParseError` |
| `Erase.v`, `TraceFacts.v`, `SpecTrace.v`, `SpecGap.v`, `GapSim.v`, `GapFacts.v`, `Valid.v`, `WholeFacts.v`, `Local.v`, `LocalLex.v`, `LocalConsume.v`, `Cross.v` | traces of tokens; white space and positions do not matter; the lexer depends only on the bytes it has read |
| `SpecNest.v`, `Nest.v`, `EndFacts.v`, `SpecMirror.v`, `MirrorFacts.v`, `SpecHazard.v`, `HazardFacts.v`, `Foreign.v`, `Returns.v`, `ReturnFacts.v` | brackets match; scopes mirror the tree; which sources the parser returns on |
| `SpecGrammar.v`, `SpecLexemes.v`, `Grammar.v`, `GramA.v`-`GramC.v`, `GramRun.v` | C60: the tokens of an accepted source make up its tree |
| `SpecSyntax.v`, `SpecReading.v`, `Comp.v`, `CompA.v`-`CompI.v`, `CompLex.v`, `CompRun.v`, `CompStream.v` | C61: every program of the grammar is accepted |
| `Sound.v`, `SoundA.v`-`SoundD.v`, `SoundRun.v` | C62: nothing else is accepted |
| `SpecScope.v`, `ScopeFacts.v`, `ListFacts.v`, `PropScope.v` | C63, C64: the scope tree, exactly; the statement lists reported |
| `PropCompact.v` | C65, C66: spaces and length of minified code |
| `PropCompactStmt.v` | C65: the exact minified text of loops, try, labels, lists, blocks, programs |
| `SpecCost.v` | specification for C67: the interpreter of `Prog.v` with a counter of calls, looks and lexer operations |
| `Cost.v`, `CostFacts.v` | an amortised cost logic (every method body pays at most 100 per lexeme it consumes, with a potential for the modes that return without consuming), checked for the 83 methods, and its soundness |
| `PropCost.v` | C67: linear time |
| `ConcatGram.v` | two programs of the grammar make one: what a statement may end and begin with, the lexeme after a statement matters only for `else`, the semicolon and the continuation of an expression |
| `ConcatLex.v` | the lexemes of `a`, a line feed and `b`: those of `a`, then those of `b` (with the locality lemmas of `Local.v`, `LocalConsume.v`, `Cross.v`) |
| `PropConcat.v` | C68: concatenation |
| `SpellFacts.v`, `LenGram.v`, `LenLex.v`, `PropLength.v` | C69: spellings of tokens; C70: length of minified code |
| `ErrLocal.v`, `PropPrefix.v` | C71: the errors inside a common beginning |
| `SpecRecover.v`, `JsonInj.v`, `PropRecover.v` | C72: JSON without positions, constructs it does not show; the rest of the tree is determined |
| `PropWrap.v` | C73: programs between braces |
| `DebugFmt.v` | the derived `Debug` of every type of the tree, the compact text of the standard library's formatter, `generateAST` and the node function `parse` |
| `SpecDebug.v`, `DebugInj.v`, `ShowInj.v`, `DebugGood.v`, `DebugQuote.v`, `PropDebug.v` | C74: the dump determines the tree; the standard library's quoted strings |
| `JsonText.v` | `serde_json::to_string` and `to_string_pretty` on the values of `Astgen.v`; `generate_ast_estree`, `ratel-wasm/src/lib.rs` 51-62, and `ast`, `ffi/native/src/lib.rs` 26-51, with their texts |
| `SpecJsonText.v`, `JsonTextFacts.v`, `JsonRead.v`, `JsonUtf8.v`, `ReportUtf8.v`, `PropJsonText.v` | C75: the JSON grammar (RFC 8259) and what its texts denote; both formatters follow it; a text has one reading; texts and reports are valid UTF-8; C72 for texts |
| `PropContext.v` | C76: an expression between parentheses, as a condition, an index, a substitution, and in any place |
| `SpecRename.v`, `RenameFacts.v`, `PropRename.v` | C77: names replaced by names in lexemes and in trees; the grammar does not look at names |
| `PropSemicolon.v` | C78: a line with a semicolon between two programs |
| `SpecEdges.v`, `EdgeFacts.v`, `PropEdges.v` | C79: the text at which nodes begin and end |
| `SpecOrder.v`, `OrderFacts.v`, `PropOrder.v` | C80: the parts of a node begin in source order |
| `SpecEmpty.v`, `PropEmpty.v` | C81: a program is empty exactly when the source has no token |
| `PropLexer.v`, `PropErrors.v`, `PropTree.v`, `PropParse.v`, `PropPos.v`, `PropCodegen.v`, `PropVisit.v`, `PropPrec.v`, `PropRound.v`, `PropAst.v`, `PropJson.v`, `PropUtf8.v`, `PropMessage.v`, `PropGap.v`, `PropReturn.v`, `PropMirror.v`, `PropNest.v`, `PropGrammar.v`, `PropSyntax.v` | the property theorems, `exact`, `Print Assumptions`, and non-vacuity examples |

## How the code is modelled

* A Rust `&str` is a list of bytes.  The lexer's raw pointer + index is an index and the bytes from
  there on; the buffer is `source ++ [0]`.  Reading where no byte is left is the outcome
  `ReadPastEnd` (undefined behaviour in Rust), a panic is `Panicked`.
* A parser method is a tree of operations (`Look`, `Consume`, `ReadTemplate`, `ReadRegex`,
  `PushError`, `Call`, `Abort`), executed by `run` with a bound on the call depth (`OutOfFuel` when it
  is hit).  `parses_to src r` = some bound suffices.  A Rust loop is a method that calls itself, so
  "terminates" = "some call depth suffices", and "diverges" = "no call depth suffices".
* Arena references are the values they point to, except in `Transform.v`, where the cells matter.
* `char::is_alphanumeric` is an arbitrary function `alnum : N -> bool`: all theorems hold for each.
* `usize as u32` truncation of offsets is modelled (`u32`); offsets inside the lexer are `nat`.
* Hash maps and `IndexMap`s in `scope.rs` are lists of names in insertion order.

The `Debug` of toolshed's `List` is taken to be that of a Rust list (`debug_list`).  `serde_json` 1.0's two
formatters are modelled as documented (`JsonText.v`); how it prints a float is a parameter.

Not modelled: toolshed's arena itself (allocation, memory exhaustion), stack overflow of the recursive
descent, the proc-macro/neon/wasm glue beyond the functions named in `ErrorFmt.v`, the indented debug output (`{:#?}`), `f64` values (the model records which text is parsed as a
float, not the number), `es2016` and `ratel-transformer/src/statement.rs` (not compiled in the pinned
commit).

## Trusted base

Coq's kernel (with `vm_compute`), the reading of the Rust code above, the scripts in `tools/` that
transcribe the tables.  No axioms: `Print Assumptions` under each theorem in `Prop*.v` says "Closed
under the global context" (any exception is listed at the end of this file).  vcheck also lists axioms of the
standard library that are merely loaded (`Coq.ssr.ssrunder.*`, from `Lia`/`ssreflect` dependencies); no theorem uses them.

## Plan per property

General tools, proved once:

1. *Fuel monotonicity*: `run` with more fuel gives the same result.
2. *Reachability of states*: a parser program changes the state only by the four primitive operations, so an
   invariant of these operations holds in every state the parser goes through (C12, C13, C25, C38).
3. *Hoare rule*: if every method's body meets its specification assuming those of the methods it calls,
   all executions do (C08-C11, C26): induction over fuel.
4. *Window rule*: the parser sees the buffer only through the lexer, and the lexer only the bytes up to
   the first NUL it stops at (C15, C17, C40).

| id | plan |
|---|---|
| C01 | specification: the tree of a chain is given by an independent, relational notion of precedence ("every operator in a left subtree binds at least as tightly, in a right subtree strictly tighter" + in-order reading = the chain); proof: induction over the Pratt loop |
| C02 | refuted for all identifiers, from C01: `x ** y ** z` groups to the left |
| C03 | codegen then parse = same tree, on the largest fragment for which it is true; the needed side conditions are findings (counterexamples kept as `_refuted`) |
| C04 | refuted by witnesses; holds for every source whose tree satisfies `fits` |
| C05 | relation "obtained by deleting spaces/newlines" between the two generators' outputs, induction on the operation list |
| C06 | `strip` of both modules equal implies equal code |
| C07 | no `GPanic`, dents balanced; from C08 |
| C08-C11 | Hoare rule with a local predicate on nodes |
| C12, C13, C38 | invariant of the primitive operations |
| C14 | refuted (two families of sources); partial (`PropReturn.v`): every method ends, by induction on (bytes left, rank of the method), `Returns.body_returns` and `ReturnFacts.methods_end`, unless the lexer comes to a token `switch` (a state `visited` with it) or the source has a non-alphanumeric character outside ASCII (`SpecHazard.may_loop`) |
| C15, C16 | refuted; partial (`PropReturn.v`): the failing outcome implies one of the listed texts (`SpecHazard.may_read_past`, `may_panic`), for every call depth: `Returns.body_safe` (each method asks for the token it needs), `HazardFacts` (each lexer loop), `ReturnFacts.safe_run` |
| C17 | refuted (NUL); universal theorems: anything after a NUL is ignored (simulation between two lexers), and the tokens read, recorded by an instrumented interpreter (`SpecTrace.trun`), tile the source up to its end or a NUL |
| C18 | refuted; what holds follows from C58 and C59 |
| C19-C21, C43 | for all words/strings/numbers and continuations; independent specs |
| C22, C23 | invariants of `consume` |
| C24 | refuted (comment between); partial: holds without comments |
| C25 | UTF-8 validity invariant of the cursor |
| C26 | Hoare rule with positions |
| C27, C28 | refuted; C28 partial for nodes that do get the right text |
| C29-C31 | induction over the tree |
| C32, C33 | refinement of `analyze` to a recursive scope specification |
| C34 | memory model; transform is the identity on the read-back module |
| C35 | refuted + exact characterisation of the trees for which it succeeds |
| C36 | for all texts |
| C37 | refuted at line starts; correct elsewhere |
| C39 | list induction |
| C40 | locality of every lexer operation (`Local*.v`: it reads one character beyond its token, and stops before white space and comments), `consume` over a gap (`Cross.v`), the parser does not see locations (`Erase.v`: each of the 83 methods, run without positions, returns the tree without locations), and a simulation of the two runs (`TraceFacts.v`, `GapSim.v`) |
| C41 | from C03 on its fragment |
| C42 | refuted |
| C44 | unfolding of the wrapper against an independent description |
| C45 | refuted by witnesses; holds for every tree satisfying `fits` |
| C46 | induction over the tree |
| C47 | lexer invariant and the Hoare rule |
| C48 | for all digit strings, by induction; strings and regular expressions from C11 |
| C49 | every child's JSON is a part of its parent's JSON (induction over the tree), every node's own object by cases |
| C50 | induction over the tree with C26, C47; the program object from the order of the statements (C27) |
| C51 | refuted for the offsets; C47 gives the exact extent |
| C52 | the texts of a tree are valid UTF-8 (Hoare rule); the generator concatenates them with ASCII |
| C53 | lines, columns and numbers against an independent description of the excerpt |
| C54 | each method, on a run without errors, moves the lexer only from a valid token (`Valid.v`) |
| C55 | a table of the fields of every kind of node (`SpecMirror.slots`), and the relation `mirrors` between a tree and a JSON value; induction over the tree |
| C56 | refuted for methods; holds for the other properties, from C55 |
| C57 | unfolding of the wrappers against C35, C55 and the messages of C44 |
| C58 | a stack of open brackets along the trace of C17: each method opens and closes its own (Nest.v), with the stack an argument of a program logic for the method bodies; a block left open is forgotten at the end of the program only |
| C59 | the same kind of logic with a flag for "the previous token asks for more" (EndFacts.v) |
| C60 | grammar with levels of precedence, as mutual inductive relations between lists of lexemes and trees (SpecGrammar.v), lexemes of the tokens (SpecLexemes.v); a program logic that collects the consumed lexemes, one postcondition per method (Grammar.v, GramA-C.v), then traces (GramRun.v) |
| C61 | the grammar with line breaks and semicolons left out (SpecSyntax.v), lexemes as the public lexer delivers them (SpecReading.v); big-step runs of the parser on a list of tokens without errors (Comp.v), one lemma for each of the 139 rules of the grammar: the method that handles it runs through its tokens to the rule's tree (CompA-CompI.v), mutual induction on derivations (CompRun.v), then runs on the lexer (CompLex.v, CompStream.v) |
| C62 | the same grammar; a logic for runs without errors whose judgement gives the lexemes read and the next token (Sound.v), one proof for each of the 83 methods that what it reads is what the grammar says (SoundA-SoundD.v), runs on the lexer with slashes and braces read again (SoundRun.v) |
| C63 | SpecScope.v gives for each kind of node its parts in the same scope, its parts with a scope of their own, and its names; a relation reads the scope tree off a list of such parts. Induction over the tree (ScopeFacts.v): the part of the traversal for a node adds exactly that to the current scope of the analysis |
| C64 | induction over the tree: the lists of statements reported for a node are its own and those of its children (ListFacts.v) |
| C65 | cutting the minified code of a binary expression, an if and a do statement into the codes of its parts |
| C66 | from C05 for pretty code; refuted for the source by `a.b.c;` |
| C67 | amortised cost logic over the 83 method bodies (`Cost.v`), induction on the fuel of the counting interpreter; the counting interpreter is shown to return exactly when `parse` does. The time inside one lexer operation is not counted: it is proportional to the bytes it passes by C19/C20, and the lexer never goes back. Allocation (toolshed arena) is not counted |
| C68 | grammar (C61/C62): a program without its end is followed by another one; the lexer reads the bytes of `a` as it does alone, because what it reads is determined by a byte window, except for the end of the source, where it now reads on into `b`. Induction on the reading |
| C69 | every handler of the byte table that sets a keyword or punctuator token moves the cursor over exactly its spelling; re-reading as a template or regular expression never yields one |
| C70 | by induction on the grammar of C62, the code of every production is at most twice the weight of its lexemes, with the slack that added parentheses, spaces and semicolons need; the weight of a lexeme is at most its bytes in the source (C69, C47), and lexemes do not overlap. Sharpness: `a`, and `a.a.a...` of any length |
| C71 | the two runs stay in related states (same token, same positions, buffers that differ after the common part: the locality of the lexer of C40) until one of them passes the common part; then the other has passed it too, and errors reported later end later. With C61, no continuation is a program |
| C72 | by induction on the first tree: equal JSON has equal types, so the two nodes are of the same kind (their operators and names are of the kinds C11 allows), and equal fields, so the children agree by induction. False for array literals that end in a hole, `new` of a literal, and methods with computed keys; these are excluded by the condition `shown` |
| C73 | like C68: the lexer reads the header, the program and the rest as it does alone, by the lemmas of C68 applied twice; a closing brace ends every statement that the end of the program ends; then C61 |
| C74 | the derived `Debug` as a value, its text as a function of the value; the text of a value followed by a comma, a bracket or a brace determines the value (induction on it); equal values come from equal trees (induction on the tree); texts of the tree are valid UTF-8 (C25), so that quoted strings can be read off |
| C75 | JSON as a relation between texts and values, after RFC 8259; the formatters are functions on values and related by induction on the value; one reading by induction on the derivation, deciding at the first byte; reports start with a byte that no JSON text starts with |
| C76 | a place is a pair of lexeme lists around which every expression makes a program of the grammar (C61, C62); the lexer is local (C68), so the lexemes of the expression are the same there |
| C77 | a function on names is carried through lexemes and trees; induction over the grammar of C61 shows that programs go to programs; C61 and C62 carry it to the parser |
| C78 | in the grammar of C61, a semicolon after a statement is its own or an empty statement, by induction on the statement; the lexers of the three pieces are joined as for C68 |
| C79 | the tables of first and last words and parts are in `SpecEdges.v`; one pass over all methods of the parser (as for C28), with the texts of the fixed tokens from C69 |
| C80 | one pass over all methods of the parser, with the invariant that everything in a result begins between the tokens at which the method starts and stops |
| C81 | how a token at the end of the program came to be, and the reading of a gap in the other direction; every statement but the empty one prints a byte |
