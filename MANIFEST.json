{
 "claims": [
  {
   "property": "C01",
   "status": "proved",
   "theorems": [
    "C01_chains_parse_grouped",
    "C01_grouped_tree_unique"
   ],
   "note": "any white space between the parts; identifiers that start with an ASCII letter, $, _, a backslash or another alphanumeric character; `**` is grouped to the left like the other operators (see C02)"
  },
  {
   "property": "C02",
   "status": "partial",
   "theorems": [
    "C02_exponent_right_assoc_refuted"
   ],
   "note": "the property is false of the code: for all identifiers x**y**z groups to the left; the theorem proves the negation"
  },
  {
   "property": "C03",
   "status": "partial",
   "theorems": [
    "C03_plain_expressions_partial",
    "C03_plain_programs_partial",
    "C03_round_trip_partial",
    "C03_round_trip_refuted"
   ],
   "note": "false without conditions (missing parentheses around prefix operands, conditional tests, callees, `**` operands; missing spaces); proved for all trees of the grammar in SpecPlain.v, and for all trees whose nodes satisfy [fits] (SpecRound.v), which covers the whole syntax; missing: trees that the generator prints correctly although they do not satisfy [fits]"
  },
  {
   "property": "C04",
   "status": "partial",
   "theorems": [
    "C04_round_trip_refuted",
    "C04_round_trip_refuted_minified",
    "C04_round_trip_partial"
   ],
   "note": "false: programs whose generated code is rejected or is another program; holds for every source whose tree satisfies the conditions [fits] of SpecRound.v"
  },
  {
   "property": "C05",
   "status": "proved",
   "theorems": [
    "C05_minified_is_pretty_without_blanks",
    "C05_texts_kept"
   ],
   "note": "every module, and for parsed modules no text of the tree is cut"
  },
  {
   "property": "C06",
   "status": "proved",
   "theorems": [
    "C06_codegen_ignores_locations"
   ],
   "note": "every pair of modules"
  },
  {
   "property": "C07",
   "status": "proved",
   "theorems": [
    "C07_codegen_total"
   ],
   "note": "every parsed module, both modes"
  },
  {
   "property": "C08",
   "status": "proved",
   "theorems": [
    "C08_no_placeholders"
   ],
   "note": "every node of every tree parse returns"
  },
  {
   "property": "C09",
   "status": "proved",
   "theorems": [
    "C09_templates_complete"
   ],
   "note": "template expressions and tagged templates"
  },
  {
   "property": "C10",
   "status": "proved",
   "theorems": [
    "C10_targets_valid"
   ],
   "note": "prefix ++/-- are not checked by the parser and not claimed"
  },
  {
   "property": "C11",
   "status": "proved",
   "theorems": [
    "C11_well_formed"
   ],
   "note": "SpecTree.v lists the conditions"
  },
  {
   "property": "C12",
   "status": "proved",
   "theorems": [
    "C12_errors_in_source"
   ],
   "note": "every error list returned by parse"
  },
  {
   "property": "C13",
   "status": "proved",
   "theorems": [
    "C13_errors_ordered"
   ],
   "note": "every error list returned by parse"
  },
  {
   "property": "C14",
   "status": "partial",
   "theorems": [
    "C14_terminates_refuted",
    "C14_terminates_refuted_ascii",
    "C14_ends_partial",
    "C14_no_switch_partial",
    "C14_returns_partial",
    "C14_lines_partial"
   ],
   "note": "false: unexpected non-ASCII characters and unfinished switch statements make parse loop forever; proved: it ends on every source in which the lexer does not come to a token switch and which has no non-alphanumeric character outside ASCII, and returns a Result if moreover the source has none of the texts of C15 and C16 (missing: rejected sources whose switch statements are all finished)"
  },
  {
   "property": "C15",
   "status": "partial",
   "theorems": [
    "C15_reads_inside_refuted",
    "C15_reads_inside_partial"
   ],
   "note": "false: unterminated templates, regular expressions and accessors read past the NUL; proved: nothing else does"
  },
  {
   "property": "C16",
   "status": "partial",
   "theorems": [
    "C16_no_panic_refuted",
    "C16_no_panic_partial"
   ],
   "note": "false: non-ASCII character after an accessor dot; proved: no other source makes parse panic"
  },
  {
   "property": "C17",
   "status": "partial",
   "theorems": [
    "C17_whole_source_refuted",
    "C17_recorded",
    "C17_read_to_the_end_partial",
    "C17_no_nul",
    "C17_after_nul"
   ],
   "note": "false for sources with a NUL byte, which ends the program: whatever follows it is ignored (C17_after_nul); proved: every parse, accepted or not, reads tokens that with white space and comments make up the whole source, up to its end or a NUL"
  },
  {
   "property": "C18",
   "status": "partial",
   "theorems": [
    "C18_unterminated_refuted",
    "C18_unterminated_partial"
   ],
   "note": "false: open blocks with something in them are accepted at the end of the source; rejected are sources that end inside a parenthesis, a square bracket, a template substitution, or directly after a brace"
  },
  {
   "property": "C19",
   "status": "proved",
   "theorems": [
    "C19_keywords",
    "C19_other_identifiers"
   ],
   "note": "words that start with an ASCII letter, $, _ or backslash; words that start with another alphanumeric character are identifiers; after any white space"
  },
  {
   "property": "C20",
   "status": "proved",
   "theorems": [
    "C20_longest_match"
   ],
   "note": "every punctuator and every continuation"
  },
  {
   "property": "C21",
   "status": "proved",
   "theorems": [
    "C21_string",
    "C21_unterminated_string",
    "C21_cases"
   ],
   "note": "both kinds of quote; C21_cases shows the two cases cover all inputs"
  },
  {
   "property": "C22",
   "status": "proved",
   "theorems": [
    "C22_token_text",
    "C22_between_tokens",
    "C22_tokens_tile"
   ],
   "note": "also for lexers that read templates and regular expressions"
  },
  {
   "property": "C23",
   "status": "partial",
   "theorems": [
    "C23_progress_refuted",
    "C23_progress_partial",
    "C23_end_forever"
   ],
   "note": "false for non-alphanumeric non-ASCII characters (the lexer stands still); holds everywhere else"
  },
  {
   "property": "C24",
   "status": "partial",
   "theorems": [
    "C24_newline_refuted",
    "C24_newline_rejected",
    "C24_newline_partial",
    "C24_no_newline",
    "C24_closing",
    "C24_explicit"
   ],
   "note": "false when a block comment follows the line break"
  },
  {
   "property": "C25",
   "status": "proved",
   "theorems": [
    "C25_tokens",
    "C25_errors",
    "C25_texts"
   ],
   "note": ""
  },
  {
   "property": "C26",
   "status": "proved",
   "theorems": [
    "C26_nodes_in_source"
   ],
   "note": "every node of every successful parse of a source shorter than 4 GiB (offsets are stored in 32 bits)"
  },
  {
   "property": "C27",
   "status": "partial",
   "theorems": [
    "C27_nest_refuted",
    "C27_nest_partial",
    "C27_statement_order"
   ],
   "note": "false: a call starts at its parenthesis, after its callee; every other child lies inside its parent; the statements of a module are in ascending order"
  },
  {
   "property": "C28",
   "status": "partial",
   "theorems": [
    "C28_names_refuted",
    "C28_spelled",
    "C28_names_partial"
   ],
   "note": "false: the name in o.name is located at the following token; every other name and literal spans its own text"
  },
  {
   "property": "C29",
   "status": "proved",
   "theorems": [
    "C29_scopes_nest"
   ],
   "note": "all modules"
  },
  {
   "property": "C30",
   "status": "partial",
   "theorems": [
    "C30_parents_nest_partial",
    "C30_parents_nest_refuted"
   ],
   "note": "false for modules with an import declaration (pop without push); holds for all others"
  },
  {
   "property": "C31",
   "status": "proved",
   "theorems": [
    "C31_expressions_reported",
    "C31_preorder_exists",
    "C31_identifiers_used"
   ],
   "note": "all expressions and statements, not only identifiers"
  },
  {
   "property": "C32",
   "status": "proved",
   "theorems": [
    "C32_analysis_total",
    "C32_names_recorded"
   ],
   "note": "all modules that parse; BloomMap modelled as the list of its keys"
  },
  {
   "property": "C33",
   "status": "partial",
   "theorems": [
    "C33_parameters_partial",
    "C33_arrow_parameters_refuted",
    "C33_rest_parameters_refuted",
    "C33_destructured_parameters_refuted",
    "C33_imports_refuted"
   ],
   "note": "false for arrow functions, rest parameters, destructured parameters, imports; holds for the other parameters of functions and methods"
  },
  {
   "property": "C34",
   "status": "partial",
   "theorems": [
    "C34_arrows_removed_refuted",
    "C34_transform_changes_nothing"
   ],
   "note": "false: swap writes to a copy of the cell, so the module never changes"
  },
  {
   "property": "C35",
   "status": "partial",
   "theorems": [
    "C35_serialises_partial",
    "C35_serialises_refuted"
   ],
   "note": "The claim as stated is false: eight sources are given that parse and whose serialisation panics (1e5, 0xffffffff, new X, class fields, holes in array patterns ...). Proved instead, for every source below 4 GiB: serialisation returns a value if and only if every node of the tree is writable (SpecAst.v), a condition on single nodes that names exactly these causes."
  },
  {
   "property": "C36",
   "status": "proved",
   "theorems": [
    "C36_regex_split"
   ],
   "note": ""
  },
  {
   "property": "C37",
   "status": "partial",
   "theorems": [
    "C37_position_partial",
    "C37_any_range_partial",
    "C37_line_starts_refuted",
    "C37_exact",
    "C37_place_unique"
   ],
   "note": "false at the beginning of a line after the first: the message always names the line before; C37_exact says what is named for every offset: the place of the end of the text before it, less a final line feed and carriage return"
  },
  {
   "property": "C38",
   "status": "proved",
   "theorems": [
    "C38_errors_bounded",
    "C38_empty_errors"
   ],
   "note": "texts of the errors are disjoint; errors without text are the end of program or a stuck non-ASCII character"
  },
  {
   "property": "C39",
   "status": "proved",
   "theorems": [
    "C39_statements_compose"
   ],
   "note": "every module whose statements generate code"
  },
  {
   "property": "C40",
   "status": "partial",
   "theorems": [
    "C40_gap",
    "C40_white_space",
    "C40_any_result_partial"
   ],
   "note": "accepted programs: in full, for white space and for comments (the new gap is not empty, has a final line feed exactly if the old one has, and does not turn a slash into a comment); rejected programs: if the token before the gap is valid (C40_invalid_token shows why)"
  },
  {
   "property": "C41",
   "status": "proved",
   "theorems": [
    "C41_codegen_idempotent",
    "C41_every_reading"
   ],
   "note": "every module of the round-trip fragment [fits] (SpecRound.v)"
  },
  {
   "property": "C42",
   "status": "partial",
   "theorems": [
    "C42_kinds_refuted",
    "C42_generator_flag_lost",
    "C42_empty_statement_lost"
   ],
   "note": "false: generator flag, finally keyword and empty statements are not written"
  },
  {
   "property": "C43",
   "status": "proved",
   "theorems": [
    "C43_numbers"
   ],
   "note": "every numeric literal of the grammar in SpecTokens.v"
  },
  {
   "property": "C44",
   "status": "proved",
   "theorems": [
    "C44_transform_answers",
    "C44_transform",
    "C44_transform_fails",
    "C44_node_transform"
   ],
   "note": "the texts of the messages are the subject of C37 and C53"
  },
  {
   "property": "C45",
   "status": "partial",
   "theorems": [
    "C45_modes_agree_refuted",
    "C45_modes_agree_partial"
   ],
   "note": "false: minified output can need the space it leaves out; holds for every tree satisfying [fits]"
  },
  {
   "property": "C46",
   "status": "proved",
   "theorems": [
    "C46_parents_are_enclosing",
    "C46_preorder_exists"
   ],
   "note": "modules without import declarations (with one, C30 fails)"
  },
  {
   "property": "C47",
   "status": "proved",
   "theorems": [
    "C47_template_token",
    "C47_template_rest",
    "C47_accessor_token",
    "C47_chunks",
    "C47_member_name",
    "C47_meta_name"
   ],
   "note": "every reachable lexer state; every tree of a source shorter than 4 GiB"
  },
  {
   "property": "C48",
   "status": "proved",
   "theorems": [
    "C48_integers",
    "C48_fractions",
    "C48_strings"
   ],
   "note": "The float that str::parse makes of a text is represented by the text."
  },
  {
   "property": "C49",
   "status": "proved",
   "theorems": [
    "C49_nodes_written"
   ],
   "note": ""
  },
  {
   "property": "C50",
   "status": "proved",
   "theorems": [
    "C50_offsets"
   ],
   "note": ""
  },
  {
   "property": "C51",
   "status": "partial",
   "theorems": [
    "C51_template_elements_partial",
    "C51_offsets_refuted"
   ],
   "note": "false: the offsets of an element before a substitution include the dollar sign; everything else is proved, and this is the exact extent"
  },
  {
   "property": "C52",
   "status": "proved",
   "theorems": [
    "C52_codegen_utf8",
    "C52_transform_utf8",
    "C52_transform_output"
   ],
   "note": ""
  },
  {
   "property": "C53",
   "status": "partial",
   "theorems": [
    "C53_excerpt_partial",
    "C53_exact",
    "C53_excerpt_refuted"
   ],
   "note": "false at the beginning of a line (see C37), where the marks are put behind the line before; C53_exact says what is shown for every error of every source"
  },
  {
   "property": "C54",
   "status": "proved",
   "theorems": [
    "C54_valid_tokens"
   ],
   "note": "every token of the record of an accepted parse (parse_tokens)"
  },
  {
   "property": "C55",
   "status": "proved",
   "theorems": [
    "C55_json_mirrors_tree"
   ],
   "note": "number, string and regular expression values: C48, C36; template offsets: C51. Where ratel differs from ESTree the table of fields has what ratel writes: shorthand properties are identifiers, object patterns have keys, labels and import sources are texts, computed is false for methods (C56)"
  },
  {
   "property": "C56",
   "status": "partial",
   "theorems": [
    "C56_computed_partial",
    "C56_computed_refuted"
   ],
   "note": "false for methods, which are always written with computed false; proved for all other properties"
  },
  {
   "property": "C57",
   "status": "proved",
   "theorems": [
    "C57_estree",
    "C57_estree_answers",
    "C57_node_ast",
    "C57_node_ast_answers"
   ],
   "note": "the JSON value, not its text"
  },
  {
   "property": "C58",
   "status": "proved",
   "theorems": [
    "C58_brackets_nest",
    "C58_bracket_counts"
   ],
   "note": ""
  },
  {
   "property": "C59",
   "status": "proved",
   "theorems": [
    "C59_last_token"
   ],
   "note": ""
  },
  {
   "property": "C60",
   "status": "proved",
   "theorems": [
    "C60_tokens_make_tree",
    "C60_lexemes_unique"
   ],
   "note": "the grammar has levels of precedence; it is ambiguous only about semicolons left out, which are C24; positions in the tree are C26-C28"
  },
  {
   "property": "C61",
   "status": "proved",
   "theorems": [
    "C61_programs_accepted",
    "C61_unambiguous",
    "C61_rejected_not_program"
   ],
   "note": "line breaks are those the lexer reports (C24)"
  },
  {
   "property": "C62",
   "status": "proved",
   "theorems": [
    "C62_accepted_is_program",
    "C62_exactly"
   ],
   "note": "line breaks are those the lexer reports (C24)"
  },
  {
   "property": "C63",
   "status": "proved",
   "theorems": [
    "C63_scope_tree",
    "C63_scopes_describe_regions"
   ],
   "note": "SpecScope.v says for every kind of node which parts stand in the same scope, which have a scope of their own, and which names it uses and declares; the analysis returns exactly the scope tree read off that way"
  },
  {
   "property": "C64",
   "status": "proved",
   "theorems": [
    "C64_statement_lists"
   ],
   "note": "the lists reported are those of the nodes in preorder, as a multiset (the list of a switch case is reported after its test)"
  },
  {
   "property": "C65",
   "status": "proved",
   "theorems": [
    "C65_spaces_around_operators",
    "C65_spaces_around_else",
    "C65_space_after_do",
    "C65_while",
    "C65_for",
    "C65_for_in",
    "C65_for_of",
    "C65_labeled",
    "C65_try",
    "C65_array",
    "C65_call",
    "C65_conditional",
    "C65_block",
    "C65_program",
    "C65_declaration",
    "C65_declarator"
   ],
   "note": ""
  },
  {
   "property": "C66",
   "status": "partial",
   "theorems": [
    "C66_minified_shorter_partial",
    "C66_shorter_than_source_refuted"
   ],
   "note": "false of the code: the object of a member access is put in parentheses when it is a member access itself, so a.b.c; becomes (a.b).c;. Proved: minified code is never longer than pretty code"
  },
  {
   "property": "C67",
   "status": "proved",
   "theorems": [
    "C67_linear",
    "C67_counted",
    "C67_errors"
   ],
   "note": "for every UTF-8 source on which parse returns, whether it accepts or rejects, including switch and non-ASCII sources"
  },
  {
   "property": "C68",
   "status": "proved",
   "theorems": [
    "C68_leading_line",
    "C68_after_semicolon",
    "C68_after_line"
   ],
   "note": "for accepted sources as the grammar of C61/C62 describes them; the side conditions are shown to be needed by examples (a continued expression, a comment hiding the line break, a block closed by the end of the source)"
  },
  {
   "property": "C69",
   "status": "proved",
   "theorems": [
    "C69_spelling"
   ],
   "note": "for every lexer that the public methods can reach"
  },
  {
   "property": "C70",
   "status": "proved",
   "theorems": [
    "C70_at_most_double",
    "C70_least_factor"
   ],
   "note": "the factor two is the least possible: sources of any length come within two bytes of it"
  },
  {
   "property": "C71",
   "status": "proved",
   "theorems": [
    "C71_common_errors",
    "C71_no_repair",
    "C71_no_program",
    "C71_first_error"
   ],
   "note": "the common character must be ASCII (a source cut inside a character is not UTF-8); examples show that it is needed"
  },
  {
   "property": "C72",
   "status": "partial",
   "theorems": [
    "C72_json_determines_partial",
    "C72_text_determines_partial",
    "C72_determines_refuted",
    "C72_determines_refuted_new",
    "C72_determines_refuted_key"
   ],
   "note": "false: [a, ] and [a,,] have the same JSON, so have new 5 and new 5(), and (up to positions) methods with a computed and with a plain key; proved for all programs without these three constructs, even for JSON without its positions, and for the JSON texts (C75)"
  },
  {
   "property": "C73",
   "status": "proved",
   "theorems": [
    "C73_wrapped",
    "C73_block",
    "C73_called"
   ],
   "note": "for accepted sources as the grammar of C61/C62 describes them and any surrounding construct given by the grammar; shown for a block and a function that is called; examples show that the line feeds and the closed blocks are needed"
  },
  {
   "property": "C74",
   "status": "proved",
   "theorems": [
    "C74_dump_determines",
    "C74_std_quotes",
    "C74_generate_ast",
    "C74_ffi_parse"
   ],
   "note": "for every way of quoting strings from which a quoted text can be read off; C74_std_quotes shows that the standard library's is one, for any table of printable characters. The indented dump ({:#?}) is not modelled"
  },
  {
   "property": "C75",
   "status": "proved",
   "theorems": [
    "C75_estree_text",
    "C75_node_ast",
    "C75_one_reading",
    "C75_lines",
    "C75_utf8",
    "C75_node_utf8"
   ],
   "note": "serde_json's two formatters are modelled from its documentation (its source is not in the repository); the printing of floats is a parameter, of which only its grammar is assumed"
  },
  {
   "property": "C76",
   "status": "proved",
   "theorems": [
    "C76_in_place",
    "C76_parentheses",
    "C76_condition",
    "C76_index",
    "C76_substitution"
   ],
   "note": "the expression stands on lines of its own (a comment could hide what follows it) and has no NUL byte; import(a) is a call only as a statement, and a piece that ends with a semicolon is no expression: both are shown"
  },
  {
   "property": "C77",
   "status": "proved",
   "theorems": [
    "C77_renaming",
    "C77_programs",
    "C77_swap",
    "C77_sources"
   ],
   "note": "names are identifiers and properties after a dot; the renaming may not touch the seven known words, nor a word that also occurs as something else (a keyword used as a key)"
  },
  {
   "property": "C78",
   "status": "proved",
   "theorems": [
    "C78_separates",
    "C78_at_the_end"
   ],
   "note": "without the condition on open blocks it is false (C78_open)"
  },
  {
   "property": "C79",
   "status": "proved",
   "theorems": [
    "C79_begins",
    "C79_ends",
    "C79_braces",
    "C79_holes",
    "C79_first_part",
    "C79_last_part",
    "C79_templates",
    "C79_keys",
    "C79_imports",
    "C79_import_refuted",
    "C79_getter_refuted",
    "C79_overrun_refuted"
   ],
   "note": "the refuted theorems show the nodes outside the statement: kinds that end too late, keys of getters and setters, located at get or set, and bare imports, which begin at the string"
  },
  {
   "property": "C80",
   "status": "proved",
   "theorems": [
    "C80_parts",
    "C80_ends",
    "C80_statements",
    "C80_overlap_refuted"
   ],
   "note": "C80_overlap_refuted shows that parts can overlap"
  },
  {
   "property": "C81",
   "status": "proved",
   "theorems": [
    "C81_empty",
    "C81_no_nul",
    "C81_something",
    "C81_empty_text",
    "C81_transform"
   ],
   "note": ""
  }
 ]
}