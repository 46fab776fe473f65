C01 proved C01_chains_parse_grouped,C01_grouped_tree_unique | any white space between the parts; identifiers that start with an ASCII letter, $, _, a backslash or another alphanumeric character; `**` is grouped to the left like the other operators (see C02)
C02 partial C02_exponent_right_assoc_refuted | the property is false of the code: for all identifiers x**y**z groups to the left; the theorem proves the negation
C03 partial C03_plain_expressions_partial,C03_plain_programs_partial,C03_round_trip_partial,C03_round_trip_refuted | false without conditions (missing parentheses around prefix operands, conditional tests, callees, `**` operands; missing spaces); proved for all trees of the grammar in SpecPlain.v, and for all trees whose nodes satisfy [fits] (SpecRound.v), which covers the whole syntax; missing: trees that the generator prints correctly although they do not satisfy [fits]
C04 partial C04_round_trip_refuted,C04_round_trip_refuted_minified,C04_round_trip_partial | false: programs whose generated code is rejected or is another program; holds for every source whose tree satisfies the conditions [fits] of SpecRound.v
C05 proved C05_minified_is_pretty_without_blanks,C05_texts_kept | every module, and for parsed modules no text of the tree is cut
C06 proved C06_codegen_ignores_locations | every pair of modules
C07 proved C07_codegen_total | every parsed module, both modes
C08 proved C08_no_placeholders | every node of every tree parse returns
C09 proved C09_templates_complete | template expressions and tagged templates
C10 proved C10_targets_valid | prefix ++/-- are not checked by the parser and not claimed
C11 proved C11_well_formed | SpecTree.v lists the conditions
C12 proved C12_errors_in_source | every error list returned by parse
C13 proved C13_errors_ordered | every error list returned by parse
C14 partial C14_terminates_refuted,C14_terminates_refuted_ascii,C14_ends_partial,C14_no_switch_partial,C14_returns_partial,C14_lines_partial | false: unexpected non-ASCII characters and unfinished switch statements make parse loop forever; proved: it ends on every source in which the lexer does not come to a token switch and which has no non-alphanumeric character outside ASCII, and returns a Result if moreover the source has none of the texts of C15 and C16 (missing: rejected sources whose switch statements are all finished)
C15 partial C15_reads_inside_refuted,C15_reads_inside_partial | false: unterminated templates, regular expressions and accessors read past the NUL; proved: nothing else does
C16 partial C16_no_panic_refuted,C16_no_panic_partial | false: non-ASCII character after an accessor dot; proved: no other source makes parse panic
C17 partial C17_whole_source_refuted,C17_recorded,C17_read_to_the_end_partial,C17_no_nul,C17_after_nul | false for sources with a NUL byte, which ends the program: whatever follows it is ignored (C17_after_nul); proved: every parse, accepted or not, reads tokens that with white space and comments make up the whole source, up to its end or a NUL
C18 partial C18_unterminated_refuted,C18_unterminated_partial | false: open blocks with something in them are accepted at the end of the source; rejected are sources that end inside a parenthesis, a square bracket, a template substitution, or directly after a brace
C19 proved C19_keywords,C19_other_identifiers | words that start with an ASCII letter, $, _ or backslash; words that start with another alphanumeric character are identifiers; after any white space
C20 proved C20_longest_match | every punctuator and every continuation
C21 proved C21_string,C21_unterminated_string,C21_cases | both kinds of quote; C21_cases shows the two cases cover all inputs
C22 proved C22_token_text,C22_between_tokens,C22_tokens_tile | also for lexers that read templates and regular expressions
C23 partial C23_progress_refuted,C23_progress_partial,C23_end_forever | false for non-alphanumeric non-ASCII characters (the lexer stands still); holds everywhere else
C24 partial C24_newline_refuted,C24_newline_rejected,C24_newline_partial,C24_no_newline,C24_closing,C24_explicit | false when a block comment follows the line break
C25 proved C25_tokens,C25_errors,C25_texts |
C26 proved C26_nodes_in_source | every node of every successful parse of a source shorter than 4 GiB (offsets are stored in 32 bits)
C27 partial C27_nest_refuted,C27_nest_partial,C27_statement_order | false: a call starts at its parenthesis, after its callee; every other child lies inside its parent; the statements of a module are in ascending order
C28 partial C28_names_refuted,C28_spelled,C28_names_partial | false: the name in o.name is located at the following token; every other name and literal spans its own text
C29 proved C29_scopes_nest | all modules
C30 partial C30_parents_nest_partial,C30_parents_nest_refuted | false for modules with an import declaration (pop without push); holds for all others
C31 proved C31_expressions_reported,C31_preorder_exists,C31_identifiers_used | all expressions and statements, not only identifiers
C32 proved C32_analysis_total,C32_names_recorded | all modules that parse; BloomMap modelled as the list of its keys
C33 partial C33_parameters_partial,C33_arrow_parameters_refuted,C33_rest_parameters_refuted,C33_destructured_parameters_refuted,C33_imports_refuted | false for arrow functions, rest parameters, destructured parameters, imports; holds for the other parameters of functions and methods
C34 partial C34_arrows_removed_refuted,C34_transform_changes_nothing | false: swap writes to a copy of the cell, so the module never changes
C35 partial C35_serialises_partial,C35_serialises_refuted | The claim as stated is false: eight sources are given that parse and whose serialisation panics (1e5, 0xffffffff, new X, class fields, holes in array patterns ...). Proved instead, for every source below 4 GiB: serialisation returns a value if and only if every node of the tree is writable (SpecAst.v), a condition on single nodes that names exactly these causes.
C36 proved C36_regex_split |
C37 partial C37_position_partial,C37_any_range_partial,C37_line_starts_refuted,C37_exact,C37_place_unique | false at the beginning of a line after the first: the message always names the line before; C37_exact says what is named for every offset: the place of the end of the text before it, less a final line feed and carriage return
C38 proved C38_errors_bounded,C38_empty_errors | texts of the errors are disjoint; errors without text are the end of program or a stuck non-ASCII character
C39 proved C39_statements_compose | every module whose statements generate code
C40 partial C40_gap,C40_white_space,C40_any_result_partial | accepted programs: in full, for white space and for comments (the new gap is not empty, has a final line feed exactly if the old one has, and does not turn a slash into a comment); rejected programs: if the token before the gap is valid (C40_invalid_token shows why)
C41 proved C41_codegen_idempotent,C41_every_reading | every module of the round-trip fragment [fits] (SpecRound.v)
C42 partial C42_kinds_refuted,C42_generator_flag_lost,C42_empty_statement_lost | false: generator flag, finally keyword and empty statements are not written
C43 proved C43_numbers | every numeric literal of the grammar in SpecTokens.v
C44 proved C44_transform_answers,C44_transform,C44_transform_fails,C44_node_transform | the texts of the messages are the subject of C37 and C53
C45 partial C45_modes_agree_refuted,C45_modes_agree_partial | false: minified output can need the space it leaves out; holds for every tree satisfying [fits]
C46 proved C46_parents_are_enclosing,C46_preorder_exists | modules without import declarations (with one, C30 fails)
C47 proved C47_template_token,C47_template_rest,C47_accessor_token,C47_chunks,C47_member_name,C47_meta_name | every reachable lexer state; every tree of a source shorter than 4 GiB
C48 proved C48_integers,C48_fractions,C48_strings | The float that str::parse makes of a text is represented by the text.
C49 proved C49_nodes_written |
C50 proved C50_offsets |
C51 partial C51_template_elements_partial,C51_offsets_refuted | false: the offsets of an element before a substitution include the dollar sign; everything else is proved, and this is the exact extent
C52 proved C52_codegen_utf8,C52_transform_utf8,C52_transform_output |
C53 partial C53_excerpt_partial,C53_exact,C53_excerpt_refuted | false at the beginning of a line (see C37), where the marks are put behind the line before; C53_exact says what is shown for every error of every source
C54 proved C54_valid_tokens | every token of the record of an accepted parse (parse_tokens)
C55 proved C55_json_mirrors_tree | number, string and regular expression values: C48, C36; template offsets: C51. Where ratel differs from ESTree the table of fields has what ratel writes: shorthand properties are identifiers, object patterns have keys, labels and import sources are texts, computed is false for methods (C56)
C56 partial C56_computed_partial,C56_computed_refuted | false for methods, which are always written with computed false; proved for all other properties
C57 proved C57_estree,C57_estree_answers,C57_node_ast,C57_node_ast_answers | the JSON value, not its text
C58 proved C58_brackets_nest,C58_bracket_counts | 
C59 proved C59_last_token | 
C60 proved C60_tokens_make_tree,C60_lexemes_unique | the grammar has levels of precedence; it is ambiguous only about semicolons left out, which are C24; positions in the tree are C26-C28
C61 proved C61_programs_accepted,C61_unambiguous,C61_rejected_not_program | line breaks are those the lexer reports (C24)
C62 proved C62_accepted_is_program,C62_exactly | line breaks are those the lexer reports (C24)
C63 proved C63_scope_tree,C63_scopes_describe_regions | SpecScope.v says for every kind of node which parts stand in the same scope, which have a scope of their own, and which names it uses and declares; the analysis returns exactly the scope tree read off that way
C64 proved C64_statement_lists | the lists reported are those of the nodes in preorder, as a multiset (the list of a switch case is reported after its test)
C65 proved C65_spaces_around_operators,C65_spaces_around_else,C65_space_after_do,C65_while,C65_for,C65_for_in,C65_for_of,C65_labeled,C65_try,C65_array,C65_call,C65_conditional,C65_block,C65_program,C65_declaration,C65_declarator | 
C66 partial C66_minified_shorter_partial,C66_shorter_than_source_refuted | false of the code: the object of a member access is put in parentheses when it is a member access itself, so a.b.c; becomes (a.b).c;. Proved: minified code is never longer than pretty code
C67 proved C67_linear,C67_counted,C67_errors | for every UTF-8 source on which parse returns, whether it accepts or rejects, including switch and non-ASCII sources
C68 proved C68_leading_line,C68_after_semicolon,C68_after_line | for accepted sources as the grammar of C61/C62 describes them; the side conditions are shown to be needed by examples (a continued expression, a comment hiding the line break, a block closed by the end of the source)
C69 proved C69_spelling | for every lexer that the public methods can reach
C70 proved C70_at_most_double,C70_least_factor | the factor two is the least possible: sources of any length come within two bytes of it
C71 proved C71_common_errors,C71_no_repair,C71_no_program,C71_first_error | the common character must be ASCII (a source cut inside a character is not UTF-8); examples show that it is needed
C72 partial C72_json_determines_partial,C72_text_determines_partial,C72_determines_refuted,C72_determines_refuted_new,C72_determines_refuted_key | false: [a, ] and [a,,] have the same JSON, so have new 5 and new 5(), and (up to positions) methods with a computed and with a plain key; proved for all programs without these three constructs, even for JSON without its positions, and for the JSON texts (C75)
C73 proved C73_wrapped,C73_block,C73_called | for accepted sources as the grammar of C61/C62 describes them and any surrounding construct given by the grammar; shown for a block and a function that is called; examples show that the line feeds and the closed blocks are needed
C74 proved C74_dump_determines,C74_std_quotes,C74_generate_ast,C74_ffi_parse | for every way of quoting strings from which a quoted text can be read off; C74_std_quotes shows that the standard library's is one, for any table of printable characters. The indented dump ({:#?}) is not modelled
C75 proved C75_estree_text,C75_node_ast,C75_one_reading,C75_lines,C75_utf8,C75_node_utf8 | serde_json's two formatters are modelled from its documentation (its source is not in the repository); the printing of floats is a parameter, of which only its grammar is assumed
C76 proved C76_in_place,C76_parentheses,C76_condition,C76_index,C76_substitution | the expression stands on lines of its own (a comment could hide what follows it) and has no NUL byte; import(a) is a call only as a statement, and a piece that ends with a semicolon is no expression: both are shown
C77 proved C77_renaming,C77_programs,C77_swap,C77_sources | names are identifiers and properties after a dot; the renaming may not touch the seven known words, nor a word that also occurs as something else (a keyword used as a key)
C78 proved C78_separates,C78_at_the_end | without the condition on open blocks it is false (C78_open)
C79 proved C79_begins,C79_ends,C79_braces,C79_holes,C79_first_part,C79_last_part,C79_templates,C79_keys,C79_imports,C79_import_refuted,C79_getter_refuted,C79_overrun_refuted | the refuted theorems show the nodes outside the statement: kinds that end too late, keys of getters and setters, located at get or set, and bare imports, which begin at the string
C80 proved C80_parts,C80_ends,C80_statements,C80_overlap_refuted | C80_overlap_refuted shows that parts can overlap
C81 proved C81_empty,C81_no_nul,C81_something,C81_empty_text,C81_transform |
