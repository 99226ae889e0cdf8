{
 "claims": [
  {
   "property": "C01",
   "status": "proved",
   "theorems": [
    "C01_next_delivers_the_runes",
    "C01_peek_is_next",
    "C01_invalid_position_fails"
   ],
   "note": "reads_all over every scalar list without U+FFFD (which the reader reports as invalid), peek, and failure at exactly the invalid positions"
  },
  {
   "property": "C02",
   "status": "proved",
   "theorems": [
    "C02_quote_reversible",
    "C02_quote_printable"
   ],
   "note": ""
  },
  {
   "property": "C03",
   "status": "proved",
   "theorems": [
    "C03_format_readable",
    "C03_format_injective"
   ],
   "note": "float-free trees with token names"
  },
  {
   "property": "C04",
   "status": "proved",
   "theorems": [
    "C04_toData_lossless"
   ],
   "note": ""
  },
  {
   "property": "C05",
   "status": "partial",
   "theorems": [
    "C05_refuted",
    "C05_digits_partial",
    "C05_text_partial"
   ],
   "note": "false for decimal exponents that are multiples of ten (C05_refuted: 10^20 prints as 1e+2). Proved: for every finite float sign, digits and point are right, only zeros at the end of the exponent may be missing, and nothing is missing for the other exponents"
  },
  {
   "property": "C06",
   "status": "proved",
   "theorems": [
    "C06_line",
    "C06_column"
   ],
   "note": "valid UTF-8, no NUL, no U+FFFD"
  },
  {
   "property": "C07",
   "status": "proved",
   "theorems": [
    "C07_single_quoted",
    "C07_any_single_quoted"
   ],
   "note": "every text of runes other than NUL and U+FFFD, any comments around, both modes; and every other single quoted form"
  },
  {
   "property": "C08",
   "status": "proved",
   "theorems": [
    "C08_double_quoted",
    "C08_any_double_quoted"
   ],
   "note": "every text, with and without hex escapes; strings without interpolations"
  },
  {
   "property": "C09",
   "status": "proved",
   "theorems": [
    "C09_decimal",
    "C09_negative"
   ],
   "note": ""
  },
  {
   "property": "C10",
   "status": "proved",
   "theorems": [
    "C10_hexadecimal",
    "C10_octal"
   ],
   "note": ""
  },
  {
   "property": "C11",
   "status": "partial",
   "theorems": [
    "C11_refuted",
    "C11_sums_partial"
   ],
   "note": "false for a first operand of one digit other than 0 (C11_refuted). Proved for all others, and with any blank or comment before the sign"
  },
  {
   "property": "C12",
   "status": "proved",
   "theorems": [
    "C12_names",
    "C12_global_names",
    "C12_plan_is_a_name_without_tasks",
    "C12_types",
    "C12_constants",
    "C12_reserved_words"
   ],
   "note": "no reserved word is a name, except the word type when it stands alone"
  },
  {
   "property": "C13",
   "status": "proved",
   "theorems": [
    "C13_variables",
    "C13_numbered_variables"
   ],
   "note": ""
  },
  {
   "property": "C14",
   "status": "proved",
   "theorems": [
    "C14_space_does_not_matter"
   ],
   "note": "sources of the grammar of SpecGrammar.v, without EPP and workflow steps"
  },
  {
   "property": "C15",
   "status": "proved",
   "theorems": [
    "C15_parse_terminates"
   ],
   "note": "every source, option set and parser state; the depth of calls is at most 300(len+3)^2. Goroutine stack limits and memory are not modelled"
  },
  {
   "property": "C16",
   "status": "partial",
   "theorems": [
    "C16_refuted",
    "C16_no_crash_partial",
    "C16_crashes_partial"
   ],
   "note": "false as stated (C16_refuted: three sources crash). Proved: no crash for any parser state outside workflow mode, for sources with neither the characters @( nor the word type; and which kind of crash each of these three can add"
  },
  {
   "property": "C17",
   "status": "partial",
   "theorems": [
    "C17_only_names_token_and_line_matter_partial",
    "C17_like_new_after_one_line_sources_partial",
    "C17_refuted_after_failure",
    "C17_refuted_after_success",
    "C17_refuted_token"
   ],
   "note": "false after a failure and after a program of several lines (refutations). Proved: only the pending names, the last token and the start of the last line have an influence on later calls, and a parser that has parsed only one-line sources with success is like new"
  },
  {
   "property": "C18",
   "status": "proved",
   "theorems": [
    "C18_parsed_trees_follow_the_grammar",
    "C18_parsed_roots",
    "C18_parsed_single_roots"
   ],
   "note": "every parser state, both modes"
  },
  {
   "property": "C19",
   "status": "proved",
   "theorems": [
    "C19_validated_trees_have_PN",
    "C19_legal_names_have_PN",
    "C19_ready_trees_have_PN"
   ],
   "note": "both for validated trees and for trees with legal parameter names"
  },
  {
   "property": "C20",
   "status": "proved",
   "theorems": [
    "C20_definitions_are_listed"
   ],
   "note": "up to the position of the definition node itself"
  },
  {
   "property": "C21",
   "status": "partial",
   "theorems": [
    "C21_manifests_list_definitions_once",
    "C21_only_definitions_are_listed_partial",
    "C21_refuted"
   ],
   "note": "the full property is false (C21_refuted, resource backtracking lists a class twice). Proved: nothing but definitions and steps, all well formed, is listed"
  },
  {
   "property": "C22",
   "status": "proved",
   "theorems": [
    "C22_offset_in_source",
    "C22_invalid_text_offset_in_source",
    "C22_line_and_column",
    "C22_offset_has_line_and_column"
   ],
   "note": "offsets of issues and parse errors are in [0,len+1] (the bound is reached); the line and column of the one issue located that way are in range; line and column of such an offset exist on valid text"
  },
  {
   "property": "C23",
   "status": "proved",
   "theorems": [
    "C23_operators",
    "C23_no_parentheses"
   ],
   "note": "operands are variables, numbers and parenthesised expressions; any operand of the grammar: C47"
  },
  {
   "property": "C24",
   "status": "partial",
   "theorems": [
    "C24_nested_classes",
    "C24_names_are_qualified",
    "C24_names_are_restored",
    "C24_refuted_in_strings",
    "C24_refuted_after_failure"
   ],
   "note": "false inside string interpolations and after a failed Parse (refutations); proved outside strings for a parser with no pending names"
  },
  {
   "property": "C25",
   "status": "proved",
   "theorems": [
    "C25_statement_calls",
    "C25_statements"
   ],
   "note": ""
  },
  {
   "property": "C26",
   "status": "partial",
   "theorems": [
    "C26_refuted",
    "C26_comma_lists_partial"
   ],
   "note": "false as stated (C26_refuted: a comma list survives when a later statement of the block is a call). Proved: a comma list can only be an element of a block that contains a statement call"
  },
  {
   "property": "C27",
   "status": "proved",
   "theorems": [
    "C27_backtick_is_unexpected",
    "C27_backtick_is_unexpected_later",
    "C27_options_gate_nodes"
   ],
   "note": ""
  },
  {
   "property": "C28",
   "status": "proved",
   "theorems": [
    "C28_text_renders_itself",
    "C28_untagged_text_is_verbatim"
   ],
   "note": "templates without tags, including comments and the <%% and %%> escapes; every parser state, both modes, NUL-free valid text without U+FFFD"
  },
  {
   "property": "C29",
   "status": "partial",
   "theorems": [
    "C29_verbatim_partial",
    "C29_refuted"
   ],
   "note": "false for contents with a line that begins with | or - (C29_refuted: such a line sets the margin). Proved for all other contents, for every lexer state in which no other heredoc is pending: text, syntax, where the lexer goes on and where it goes on after the line"
  },
  {
   "property": "C30",
   "status": "proved",
   "theorems": [
    "C30_all_contents",
    "C30_all_contents_count",
    "C30_contents"
   ],
   "note": ""
  },
  {
   "property": "C31",
   "status": "proved",
   "theorems": [
    "C31_literal_exact"
   ],
   "note": ""
  },
  {
   "property": "C32",
   "status": "partial",
   "theorems": [
    "C32_refuted",
    "C32_literal_crash_partial"
   ],
   "note": "the full property is false: {[1]=>2} panics (C32_refuted). Proved: a hash with an unhashable key is the only cause"
  },
  {
   "property": "C33",
   "status": "proved",
   "theorems": [
    "C33_validation_is_a_sum",
    "C33_node_check_is_local"
   ],
   "note": ""
  },
  {
   "property": "C34",
   "status": "proved",
   "theorems": [
    "C34_strictness_only_demotes"
   ],
   "note": ""
  },
  {
   "property": "C35",
   "status": "proved",
   "theorems": [
    "C35_severity"
   ],
   "note": ""
  },
  {
   "property": "C36",
   "status": "proved",
   "theorems": [
    "C36_duplicate_keys_found",
    "C36_duplicate_keys_real"
   ],
   "note": "found: for every literal key; real: for hashes whose keys are not arrays or hashes"
  },
  {
   "property": "C37",
   "status": "partial",
   "theorems": [
    "C37_refuted_lambda",
    "C37_refuted_application",
    "C37_duplicate_params_found_partial"
   ],
   "note": "false for lambdas, plans and applications (refutations); proved for functions, classes, defined types and EPP templates"
  },
  {
   "property": "C38",
   "status": "proved",
   "theorems": [
    "C38_accepted_parameter_is_simple"
   ],
   "note": ""
  },
  {
   "property": "C39",
   "status": "proved",
   "theorems": [
    "C39_catalog_reported",
    "C39_catalog_allowed",
    "C39_steps_reported",
    "C39_steps_allowed"
   ],
   "note": ""
  },
  {
   "property": "C40",
   "status": "proved",
   "theorems": [
    "C40_parser_validator"
   ],
   "note": ""
  },
  {
   "property": "C41",
   "status": "proved",
   "theorems": [
    "C41_exit_status",
    "C41_status_ignores_validate_only"
   ],
   "note": ""
  },
  {
   "property": "C42",
   "status": "proved",
   "theorems": [
    "C42_regular_expressions"
   ],
   "note": ""
  },
  {
   "property": "C43",
   "status": "partial",
   "theorems": [
    "C43_refuted",
    "C43_nodes_are_pieces_partial",
    "C43_definitions_are_pieces_partial"
   ],
   "note": "false in workflow mode and for a heredoc at the end of the source (C43_refuted). Proved for all other sources: every node of the tree and of the definitions is a piece of the source"
  },
  {
   "property": "C44",
   "status": "proved",
   "theorems": [
    "C44_arrays",
    "C44_arguments",
    "C44_no_pair_remains",
    "C44_all_lists",
    "C44_nothing_is_lost"
   ],
   "note": ""
  },
  {
   "property": "C45",
   "status": "partial",
   "theorems": [
    "C45_refuted",
    "C45_nearest_partial",
    "C45_the_nearest_is_unique"
   ],
   "note": "false for written exponents of 100000 or more with ten thousand digits before them (C45_refuted; strconv). Proved for all other literals: nearest float64, ties to even, overflow to infinity; strconv.ParseFloat is modelled"
  },
  {
   "property": "C46",
   "status": "partial",
   "theorems": [
    "C46_refuted",
    "C46_nodes_in_plans_partial"
   ],
   "note": "false for the plan itself (C46_refuted); proved for all nodes inside"
  },
  {
   "property": "C47",
   "status": "proved",
   "theorems": [
    "C47_manifests_are_parsed",
    "C47_expressions_are_parsed",
    "C47_grammar_is_unambiguous"
   ],
   "note": "the grammar of SpecGrammar.v, with interpolated strings (SpecSplice.v); in workflow mode also the steps of C52; not in it: heredocs, capability mappings"
  },
  {
   "property": "C48",
   "status": "proved",
   "theorems": [
    "C48_heredoc_says"
   ],
   "note": "every declaration (quoted or not, with or without syntax and escapes), every margin and dash, escapes t r n s u $ L; without interpolation; the rest of the tag line must not contain a slash, and # only as a comment; content lines that begin with | or - are excluded (see C29)"
  },
  {
   "property": "C49",
   "status": "proved",
   "theorems": [
    "C49_interpolated_strings",
    "C49_one_reading",
    "C49_templates"
   ],
   "note": "any segments; an expression in a string must not begin with a brace, bar or slash (what these are depends on the token before the string), contains no definition and no newline outside its own strings, and is not empty"
  },
  {
   "property": "C50",
   "status": "proved",
   "theorems": [
    "C50_templates",
    "C50_one_reading",
    "C50_texts_and_values",
    "C50_parameters"
   ],
   "note": "the grammar of SpecEpp.v/SpecGrammar.v with tags and texts at every token; the text before the first tag must not begin (after blanks) with a newline, # or / (the parser reads it as code when it looks for the start of a line), tokens whose kind depends on the token before them are not written directly after a tag, and heredocs are excluded"
  },
  {
   "property": "C51",
   "status": "proved",
   "theorems": [
    "C51_PN_says_the_tree",
    "C51_same_PN_same_tree",
    "C51_data_says_the_tree",
    "C51_text_says_the_tree"
   ],
   "note": "a reader of PN forms (SpecPnTree.v) recovers every node of every parsed tree up to known, which drops positions and what PN does not show (an example shows that elsif is not shown)"
  },
  {
   "property": "C52",
   "status": "proved",
   "theorems": [
    "C52_steps_are_parsed",
    "C52_workflows",
    "C52_styles_are_names_otherwise"
   ],
   "note": "all steps of SpecGrammar.v (C52_steps_are_parsed) and written out for all nestings of actions, resources and workflows (C52_workflows); steps without a body are not in the grammar (the parser takes what follows them for an iteration), nor is a step whose name is the word in"
  },
  {
   "property": "C53",
   "status": "proved",
   "theorems": [
    "C53_parse_reads_everything",
    "C53_program_is_the_source",
    "C53_refuted_nul",
    "C53_refuted_epp_workflow"
   ],
   "note": "all sources without a NUL byte, unless both EPP and workflow syntax are on (both exclusions are refuted by examples); that the length is exact: also without heredocs and workflow syntax, which C43 excludes"
  },
  {
   "property": "C54",
   "status": "partial",
   "theorems": [
    "C54_tokens_of_a_line_partial",
    "C54_tokens_are_determined",
    "C54_end_is_the_end",
    "C54_refuted_newline",
    "C54_refuted_dollar"
   ],
   "note": "false for a source with a newline (C54_refuted_newline: the first newline starts the lexer again at the beginning) and for \\$ in double quotes (C54_refuted_dollar: the backslash stays). Proved: every one-line source of the lexical grammar that does not have both double quotes and dollar signs; for every source the end is told at the end only; the tokens are determined"
  },
  {
   "property": "C55",
   "status": "proved",
   "theorems": [
    "C55_parse_reports",
    "C55_next_token_reports",
    "C55_one_report"
   ],
   "note": "the kinds of malformed tokens of SpecLexErr.v; malformed interpolations and heredoc declarations are not among them. The first token of a source is reported by Parse; a later one is reported by NextToken when the parser asks for it (what the parser has complained about before is not covered)"
  },
  {
   "property": "C56",
   "status": "proved",
   "theorems": [
    "C56_idle_options",
    "C56_command_line",
    "C56_validated"
   ],
   "note": "bytes that stand anywhere in the source count (also in strings and comments, and in longer words); an example shows that each of the conditions is needed. EPP is not among the options: it changes every source"
  },
  {
   "property": "C57",
   "status": "proved",
   "theorems": [
    "C57_found_stands_there",
    "C57_found_in_a_list",
    "C57_unexpected_stands_there"
   ],
   "note": "for the two errors that say what they found (PARSE_EXPECTED_TOKEN, PARSE_EXPECTED_ONE_OF_TOKENS); a string with an interpolation is reported behind its last interpolation (C57_exceptions), so such strings and heredocs are not placed. LEX_UNEXPECTED_TOKEN is covered for sources without the word type (the error of a type definition stands behind the token), except that nothing is claimed of a + (reported behind it); C57_unexpected shows both"
  },
  {
   "property": "C58",
   "status": "proved",
   "theorems": [
    "C58_definitions_at_the_top",
    "C58_definitions_at_the_very_top",
    "C58_class_names",
    "C58_function_names",
    "C58_alias_names",
    "C58_assignments",
    "C58_parameter_defaults",
    "C58_one_default_in_case",
    "C58_one_default_in_selector",
    "C58_captures_rest_last",
    "C58_class_parameters",
    "C58_values",
    "C58_queries",
    "C58_one_unfolding",
    "C58_not_virtual",
    "C58_appends",
    "C58_hostnames",
    "C58_no_reserved_words"
   ],
   "note": "that a node is not idempotent where an effect is needed, reserved type names, type references, function names in calls and type mappings are not stated; plans and applications are not checked by the code"
  }
 ]
}