{
 "claims": [
  {
   "property": "C01",
   "status": "proved",
   "theorems": [
    "C01_tree_spells_the_text",
    "C01_tree_exists",
    "C01_plain_text_passes",
    "C01_never_altered",
    "C01_with_browsing"
   ],
   "note": "The tree spells the text, and a whole run returns it with its line ends unified, with and without browse mode; the two marker characters U+00FE and U+00FF are excluded because the final pass turns them into blanks (C28)."
  },
  {
   "property": "C02",
   "status": "proved",
   "theorems": [
    "C02_parser_terminates"
   ],
   "note": "For every text without imports the parse ends in a tree or an exception at any nesting; CPython recursion limit not modelled. With imports by name see C12."
  },
  {
   "property": "C03",
   "status": "proved",
   "theorems": [
    "C03_positions_are_right",
    "C03_numeral_file_refuted"
   ],
   "note": "Holds when no library file has a number as its name; C03_numeral_file_refuted shows the clash with evaluated imports. Pieces without location (C string literals lose theirs) carry no claim."
  },
  {
   "property": "C04",
   "status": "proved",
   "theorems": [
    "C04_name_longest_match",
    "C04_name_only_at_letter",
    "C04_spacing_longest_match",
    "C04_gap_longest_match"
   ],
   "note": ""
  },
  {
   "property": "C05",
   "status": "proved",
   "theorems": [
    "C05_integer_value",
    "C05_printed_integer_reads_back",
    "C05_all_accepted_literals_refuted"
   ],
   "note": "Every well-formed decimal, hexadecimal, octal, binary literal; three texts the pattern accepts but int() rejects are a finding."
  },
  {
   "property": "C06",
   "status": "proved",
   "theorems": [
    "C06_comment_contributes_nothing",
    "C06_comment_extent"
   ],
   "note": "Extent of the comment, and that evaluating it adds nothing; a comment at the start of a line also takes the white space after it (stated exactly)."
  },
  {
   "property": "C07",
   "status": "proved",
   "theorems": [
    "C07_quote_verbatim"
   ],
   "note": ""
  },
  {
   "property": "C08",
   "status": "proved",
   "theorems": [
    "C08_macro_definition"
   ],
   "note": ""
  },
  {
   "property": "C09",
   "status": "proved",
   "theorems": [
    "C09_line_comment",
    "C09_block_comment",
    "C09_unclosed_comment",
    "C09_python_comment",
    "C09_comment_taken_whole",
    "C09_whole_run",
    "C09_unclosed_fails"
   ],
   "note": "Every comment at every position of the parser, and whole runs on texts whose constructs are all in comments or literals; an unclosed /* fails."
  },
  {
   "property": "C10",
   "status": "proved",
   "theorems": [
    "C10_expression_reads_back",
    "C10_usual_writing",
    "C10_unambiguous",
    "C10_source_reads_back",
    "C10_default_lambda_argument_refuted"
   ],
   "note": "For every expression of the grammar in every writing: any white space between its parts, numerals in any base with sign and suffix, positional and named arguments mixed, closing tags, both quotation forms, Python strings, texts in square brackets, braces, block lines, behind two commas (closed by two semicolons, two commas or the end of the surrounding construct) and in ($code ...) and (${} ...), nested to any depth. One writing of every expression is exhibited. A lambda whose first parameter has a default cannot be a positional argument (finding), so it is excluded there. Whole sources made of text, literals, comments, quotations and written constructs are covered as well. Not in the grammar: imports (see C57), numbers with a fraction."
  },
  {
   "property": "C11",
   "status": "proved",
   "theorems": [
    "C11_line_ends_unified",
    "C11_no_carriage_return",
    "C11_line_count",
    "C11_unchanged_without_cr",
    "C11_idempotent"
   ],
   "note": ""
  },
  {
   "property": "C12",
   "status": "proved",
   "theorems": [
    "C12_first_import",
    "C12_imported_is_known",
    "C12_known_stays_known",
    "C12_second_import_is_empty",
    "C12_imports_by_name_end",
    "C12_quoted_import_refuted"
   ],
   "note": "By-name imports. C12_quoted_import_refuted: a quoted import has no guard and a cycle of them never ends."
  },
  {
   "property": "C13",
   "status": "proved",
   "theorems": [
    "C13_lookup_innermost",
    "C13_lookup_unknown",
    "C13_assignment",
    "C13_names_stay_distinct",
    "C13_update_innermost_only",
    "C13_update_never_creates",
    "C13_parameters_in_order",
    "C13_no_parameter_left"
   ],
   "note": ""
  },
  {
   "property": "C14",
   "status": "proved",
   "theorems": [
    "C14_names_of_scopes_kept",
    "C14_only_emit_changes_values"
   ],
   "note": ""
  },
  {
   "property": "C15",
   "status": "proved",
   "theorems": [
    "C15_more_budget_same_result",
    "C15_deterministic"
   ],
   "note": ""
  },
  {
   "property": "C16",
   "status": "partial",
   "theorems": [
    "C16_arguments_reach_their_parameters",
    "C16_unknown_name",
    "C16_partial_application",
    "C16_default_of_the_rest_refuted",
    "C16_any_body",
    "C16_any_body_in_steps",
    "C16_definition_succeeds",
    "C16_capture_refuted",
    "C16_nested_conditional_refuted",
    "C16_late_bound"
   ],
   "note": "Proved for bodies built from constants, parameters, names defined outside as data, lists, conditionals, calls of built-in functions, subscripts, infix expressions and texts, with data arguments (named, positional, default, rest, partial application); and for an expression given to a late-bound parameter that the function calls once for every row of a list of values. False in general: an argument that mentions a parameter of the caller is captured by a later parameter of the same name, a function called by a function loses its parameter in nested conditionals, and the default of the rest parameter is never used (findings, proved)."
  },
  {
   "property": "C17",
   "status": "proved",
   "theorems": [
    "C17_template",
    "C17_template_indented",
    "C17_any_template"
   ],
   "note": "With browsing off; with and without indentation, and also for texts with arbitrary core expressions in them."
  },
  {
   "property": "C18",
   "status": "proved",
   "theorems": [
    "C18_list_maps"
   ],
   "note": ""
  },
  {
   "property": "C19",
   "status": "partial",
   "theorems": [
    "C19_subscript_selects",
    "C19_subscript_defined",
    "C19_too_negative_is_an_error",
    "C19_nothing_beyond_either_end_refuted"
   ],
   "note": "Proved for every index from minus the length upwards; below that the code raises IndexError instead of yielding nothing (finding, proved)."
  },
  {
   "property": "C20",
   "status": "partial",
   "theorems": [
    "C20_unchosen_branch_refuted",
    "C20_only_the_chosen_branch",
    "C20_failing_condition",
    "C20_open_condition_evaluates_no_branch"
   ],
   "note": "Proved for a conditional evaluated where its condition is known. False inside a function when a parameter declared before those of the condition is bound first: then both branches are evaluated (finding, proved)."
  },
  {
   "property": "C21",
   "status": "proved",
   "theorems": [
    "C21_emit_head",
    "C21_emit_exhausted",
    "C21_successive_emits",
    "C21_emit_with_function",
    "C21_emit_undefined"
   ],
   "note": ""
  },
  {
   "property": "C22",
   "status": "proved",
   "theorems": [
    "C22_skip_rest_of_imported_module",
    "C22_skip_rest_of_main_module",
    "C22_complete_rest_is_not_closed",
    "C22_text_block",
    "C22_files_are_complete",
    "C22_import_is_bracketed",
    "C22_skip_ends_its_file"
   ],
   "note": ""
  },
  {
   "property": "C23",
   "status": "partial",
   "theorems": [
    "C23_format_string_partial",
    "C23_every_template",
    "C23_one_after_the_other",
    "C23_every_table",
    "C23_substituted_once_refuted"
   ],
   "note": "Proved when template and argument texts contain nothing that could start another place; otherwise an argument that looks like a place is substituted again (finding, proved). For every template and all argument texts the result is proved to be the replacement of one argument after the other."
  },
  {
   "property": "C24",
   "status": "partial",
   "theorems": [
    "C24_macro_definition",
    "C24_macro_expansion_partial",
    "C24_one_after_the_other",
    "C24_simultaneous_refuted",
    "C24_named_arguments_partial",
    "C24_named_one_after_the_other"
   ],
   "note": "Proved for positional and named arguments, one per parameter, whose texts contain nothing that could start another place; otherwise replacement is not simultaneous (finding, proved). For all argument texts the result is proved to be the replacement of one parameter after the other."
  },
  {
   "property": "C25",
   "status": "proved",
   "theorems": [
    "C25_list_evaluation"
   ],
   "note": ""
  },
  {
   "property": "C26",
   "status": "partial",
   "theorems": [
    "C26_car_cdr",
    "C26_reversed",
    "C26_len",
    "C26_index",
    "C26_rindex",
    "C26_range",
    "C26_unique_partial",
    "C26_unique_refuted",
    "C26_copies",
    "C26_contains",
    "C26_element_at",
    "C26_concat",
    "C26_range_any",
    "C26_counts_one",
    "C26_stepped_slice",
    "C26_one_stepped_slice",
    "C26_backward_slice",
    "C26_slice",
    "C26_count"
   ],
   "note": "car, cdr, reversed, len, index, rindex, range, count, getslice (range with one, two and three arguments) proved for all lists; unique remembers elements of earlier calls in the same process (finding, proved)."
  },
  {
   "property": "C27",
   "status": "proved",
   "theorems": [
    "C27_lines_kept_in_order",
    "C27_every_text_has_lines",
    "C27_shape",
    "C27_idempotent",
    "C27_switched_off"
   ],
   "note": ""
  },
  {
   "property": "C28",
   "status": "proved",
   "theorems": [
    "C28_only_markers_change",
    "C28_space",
    "C28_tab"
   ],
   "note": ""
  },
  {
   "property": "C29",
   "status": "partial",
   "theorems": [
    "C29_text_follows_the_indentation",
    "C29_every_text",
    "C29_option_off",
    "C29_other_breaks_refuted"
   ],
   "note": "Proved for every text whose line breaks are line feeds and every indentation; false for the other characters Python takes for line breaks (finding, proved)."
  },
  {
   "property": "C30",
   "status": "partial",
   "theorems": [
    "C30_whole_run_partial",
    "C30_builtin_functions_blind",
    "C30_more_functions_blind",
    "C30_repr_refuted",
    "C30_indentation_partial",
    "C30_indentation_off",
    "C30_reduction_partial",
    "C30_empty_line_refuted",
    "C30_mixed_indentation_refuted",
    "C30_trailing_spacing_refuted"
   ],
   "note": "Whole runs of every source agree when indentation and reduction are off and no Python function looks at the browse tables (all modelled built-in functions do not: proved; repr does: refuted). Indentation and reduction agree for full lines with even indentation and for tidy lines; false otherwise (three findings, proved)."
  },
  {
   "property": "C31",
   "status": "partial",
   "theorems": [
    "C31_offsets_lead_back",
    "C31_evaluated_tree",
    "C31_jump_reaches_the_origin",
    "C31_jumps_through_all_origins",
    "C31_first_piece_refuted"
   ],
   "note": "Offsets proved for every sequence of pieces, concatenation, indentation and reduction and for the text of every evaluated tree; the editor's jump is exact except from the first located piece (finding, proved)."
  },
  {
   "property": "C32",
   "status": "proved",
   "theorems": [
    "C32_only_space_added"
   ],
   "note": ""
  },
  {
   "property": "C33",
   "status": "proved",
   "theorems": [
    "C33_output_is_not_the_input",
    "C33_yu_dash_E",
    "C33_E_yu",
    "C33_yu",
    "C33_E",
    "C33_no_extension",
    "C33_distinct_outputs_refuted"
   ],
   "note": ""
  },
  {
   "property": "C34",
   "status": "proved",
   "theorems": [
    "C34_old_content_survives",
    "C34_after_completion",
    "C34_completes_without_faults",
    "C34_other_files_untouched"
   ],
   "note": ""
  },
  {
   "property": "C35",
   "status": "partial",
   "theorems": [
    "C35_output_and_backup_kept",
    "C35_only_the_dump_is_written",
    "C35_ast_output_refuted"
   ],
   "note": "False in general (finding): an output named *.ast is overwritten by the dump. Proved for every other output name."
  },
  {
   "property": "C36",
   "status": "partial",
   "theorems": [
    "C36_counts_failed_files",
    "C36_zero_iff_all_ok_below_64_files",
    "C36_when_zero",
    "C36_exit_status_refuted",
    "C36_console_status_refuted"
   ],
   "note": "False in general (findings): the status is 4 * failures mod 256, and the console script always returns 0. Proved for fewer than 64 files and exactly characterised otherwise."
  },
  {
   "property": "C37",
   "status": "proved",
   "theorems": [
    "C37_passage_element",
    "C37_source_is_processed_in_passes",
    "C37_pass_k_sees_element_k",
    "C37_loop_is_the_chain_of_passes",
    "C37_one_pass_per_element",
    "C37_passes_are_determined"
   ],
   "note": "The loop for every preprocessing function; joined with the run for every written source (see C52) whose passage list stands at its front or anywhere in its text. A process state may differ from pass to pass."
  },
  {
   "property": "C38",
   "status": "partial",
   "theorems": [
    "C38_served_output_is_current",
    "C38_generated_output_is_current",
    "C38_undeclared_library_refuted",
    "C38_crash_refuted"
   ],
   "note": "Proved for histories of edits and completed runs when the output is determined by the source and the declared dependencies; false (findings) for undeclared libraries and after a crash."
  },
  {
   "property": "C39",
   "status": "partial",
   "theorems": [
    "C39_settings_do_not_depend_on_history",
    "C39_defined_constants_refuted",
    "C39_output_dir_refuted"
   ],
   "note": "Proved for the 14 settings; false (findings) for defined constants, which persist, and for output_dir, which is dropped."
  },
  {
   "property": "C40",
   "status": "partial",
   "theorems": [
    "C40_plain_name",
    "C40_other_names_declined",
    "C40_dotted_name_refuted"
   ],
   "note": "False for yupp.<encoding> (finding): the lookup raises AttributeError. Proved for the other names."
  },
  {
   "property": "C41",
   "status": "partial",
   "theorems": [
    "C41_chunks_do_not_matter",
    "C41_empty_input",
    "C41_empty_input_refuted"
   ],
   "note": "Proved for non-empty input; for empty input incremental decoding never calls the preprocessor (finding)."
  },
  {
   "property": "C42",
   "status": "partial",
   "theorems": [
    "C42_substituted_file",
    "C42_registered",
    "C42_other_files_refuted"
   ],
   "note": "Exact formula for preprocessed files; other files are shown one line too low (finding)."
  },
  {
   "property": "C43",
   "status": "partial",
   "theorems": [
    "C43_tree_behind_the_header",
    "C43_magic_comment_removed",
    "C43_left_alone",
    "C43_never_altered",
    "C43_only_header_refuted",
    "C43_case_refuted",
    "C43_empty_line_refuted",
    "C43_constructs_behind_the_comment"
   ],
   "note": "The tree behind the header for every source; whole runs for sources without constructs and for every source C52 gives a meaning. False (findings) for a source of nothing but the comment, for capitals in yupp, and an empty first line is dropped too."
  },
  {
   "property": "C44",
   "status": "partial",
   "theorems": [
    "C44_line_number",
    "C44_caret",
    "C44_empty_line_refuted",
    "C44_places"
   ],
   "note": "Line numbers proved for positions on non-empty lines of texts with LF line ends; false on empty lines (finding). Places of macro calls under the same condition on the lines."
  },
  {
   "property": "C45",
   "status": "proved",
   "theorems": [
    "C45_runs_are_the_typed_blocks",
    "C45_blank_blocks_are_skipped",
    "C45_every_input_is_a_session"
   ],
   "note": ""
  },
  {
   "property": "C46",
   "status": "partial",
   "theorems": [
    "C46_reported_success_refuted"
   ],
   "note": "False (finding): an I/O error while writing is logged and the run still counts as successful."
  },
  {
   "property": "C47",
   "status": "proved",
   "theorems": [
    "C47_literal_taken_whole",
    "C47_whole_run"
   ],
   "note": ""
  },
  {
   "property": "C48",
   "status": "partial",
   "theorems": [
    "C48_keyword_prefix_refuted",
    "C48_set_splits_names",
    "C48_other_names_are_applied_partial"
   ],
   "note": "False in general (finding): keywords are matched as prefixes, ($setup 1) binds the name up. Proved for every name that begins with no keyword."
  },
  {
   "property": "C49",
   "status": "proved",
   "theorems": [
    "C49_pad_default",
    "C49_join_default",
    "C49_order",
    "C49_one_order",
    "C49_copies",
    "C49_contains",
    "C49_character_at",
    "C49_concat",
    "C49_stepped_slice",
    "C49_split",
    "C49_split_words",
    "C49_join",
    "C49_split_then_join",
    "C49_replace",
    "C49_count",
    "C49_find",
    "C49_rfind",
    "C49_strip_characters",
    "C49_strip_space",
    "C49_pad",
    "C49_zfill",
    "C49_letter_case",
    "C49_code_points",
    "C49_slice",
    "C49_split_limit",
    "C49_replace_limit",
    "C49_center",
    "C49_expandtabs",
    "C49_capitalize",
    "C49_isdigit"
   ],
   "note": "For the forms modelled in Builtin2.v (no bounds for find; rsplit is not modelled); case changes for ASCII letters, other letters are a simplification of the model."
  },
  {
   "property": "C50",
   "status": "proved",
   "theorems": [
    "C50_isdigit",
    "C50_pos",
    "C50_truth",
    "C50_arithmetic",
    "C50_comparison",
    "C50_cmp",
    "C50_division",
    "C50_bits",
    "C50_shifts",
    "C50_sum",
    "C50_decimal_text",
    "C50_read_back",
    "C50_reading",
    "C50_hexadecimal",
    "C50_octal"
   ],
   "note": "Integer arguments; floating point is not modelled. zfill of a number uses repr (INT(7)) and is excluded."
  },
  {
   "property": "C51",
   "status": "partial",
   "theorems": [
    "C51_definition_holds_in_the_rest",
    "C51_macro_holds_in_the_rest",
    "C51_reference",
    "C51_let",
    "C51_expanded_definitions",
    "C51_redefinition_refuted"
   ],
   "note": "Proved except for the last sentence, which is false: a name is already bound, without a value, while its definition is evaluated, so a definition that uses the previous value never yields a text (finding, proved)."
  },
  {
   "property": "C52",
   "status": "proved",
   "theorems": [
    "C52_run_gives_the_meaning",
    "C52_one_meaning"
   ],
   "note": "Imports are covered by C57. Emit and late bound parameters are outside the grammar of the statement. Functions whose bodies apply functions defined before are inside it, unless a parameter has the name of one of a function that is being applied or a conditional stands in a branch of another (both false there: C60)."
  },
  {
   "property": "C53",
   "status": "partial",
   "theorems": [
    "C53_unquoting_a_literal",
    "C53_unquoting_other_text",
    "C53_length_of_a_literal",
    "C53_quoting_partial",
    "C53_quotation_marks_refuted",
    "C53_number_as_text",
    "C53_length_of_a_result"
   ],
   "note": "False in general (finding): q and qs do not escape the quote itself, so a text with a quotation mark gives no literal. Proved for every text without the quote; unq and strlen for every literal (\\N{name} escapes excepted, which need the Unicode name table)."
  },
  {
   "property": "C54",
   "status": "proved",
   "theorems": [
    "C54_innermost_definition",
    "C54_script_function",
    "C54_configured_constant",
    "C54_builtin_function",
    "C54_input_file",
    "C54_output_file",
    "C54_module_name",
    "C54_undefined_name",
    "C54_undefined_in_scope"
   ],
   "note": "Each source of meaning in the order of precedence; the constants for every list of -D options."
  },
  {
   "property": "C55",
   "status": "proved",
   "theorems": [
    "C55_equality",
    "C55_not",
    "C55_islist",
    "C55_list",
    "C55_isatom",
    "C55_reduce"
   ],
   "note": "reduce for built-in functions (user functions are not accepted as its first argument)."
  },
  {
   "property": "C56",
   "status": "partial",
   "theorems": [
    "C56_literal_taken_whole",
    "C56_whole_run_partial",
    "C56_continued_literal_refuted",
    "C56_continued_literal_fails_refuted"
   ],
   "note": "Every literal at every position of the parser, and whole runs on texts whose constructs are all in literals or comments; literals are part of the sources of C10, C43 and C52. Refuted for a continued literal in double quotes with an apostrophe in its first line."
  },
  {
   "property": "C57",
   "status": "proved",
   "theorems": [
    "C57_run_with_imports"
   ],
   "note": "Scripts (files ending in .py), imports of evaluated text and imports of files from Python outputs are outside the grammar of the statement, and so is what C52 leaves out."
  },
  {
   "property": "C58",
   "status": "proved",
   "theorems": [
    "C58_language",
    "C58_language_without_output",
    "C58_comments",
    "C58_source_name",
    "C58_search_path",
    "C58_every_path",
    "C58_run_leaves_comments"
   ],
   "note": ""
  },
  {
   "property": "C59",
   "status": "partial",
   "theorems": [
    "C59_call_gives_the_branch",
    "C59_recursion_over_numbers",
    "C59_factorial",
    "C59_rows",
    "C59_mutual",
    "C59_from_another_function_refuted"
   ],
   "note": "As stated (wherever it is called) the property is false: C59_from_another_function_refuted shows that calling such a function in the body of another function that does not decide first never ends, since the body is evaluated when the function is defined, with the condition still open. Proved for calls in the text and in chosen branches, for functions of one parameter."
  },
  {
   "property": "C60",
   "status": "partial",
   "theorems": [
    "C60_calls_mean_their_bodies_partial",
    "C60_definition_succeeds",
    "C60_definition_counts",
    "C60_towers_of_any_height",
    "C60_capture_refuted",
    "C60_nested_conditional_refuted"
   ],
   "note": "As stated the property is false: C60_capture_refuted (a parameter of the caller with the name of a parameter of the called function) and C60_nested_conditional_refuted (a conditional in a branch of a conditional of a called function). Proved for functions without these two, called with as many arguments as they have parameters; definitions of such functions succeed and count."
  },
  {
   "property": "C61",
   "status": "partial",
   "theorems": [
    "C61_run_with_the_library",
    "C61_if",
    "C61_unless",
    "C61_largest",
    "C61_smallest",
    "C61_binary",
    "C61_define",
    "C61_def",
    "C61_undef",
    "C61_do",
    "C61_foo",
    "C61_def_if",
    "C61_undefined_is_false_refuted",
    "C61_undef_behind_def_refuted"
   ],
   "note": "For runs without scripts, -D and browsing, not writing Python, where Python knows the three expressions of the library. As stated the property is false of def, undef and def-if: the argument is evaluated first, so a name that already has a value is replaced by it and the run fails (C61_undef_behind_def_refuted; a quoted name works), and a condition that is not defined counts as true (C61_undefined_is_false_refuted). Proved where the argument stands for the name. Nothing is said about what unfold, BB and def-fn-argv stand for; the macros dict, skip-if and skip-if-not are part of the definitions (their texts), without theorems of their own."
  },
  {
   "property": "C62",
   "status": "partial",
   "theorems": [
    "C62_file_is_preprocessed",
    "C62_nothing_on_failure",
    "C62_equals_sign_refuted",
    "C62_second_line_doubled_refuted"
   ],
   "note": "Proved when the declaration is in the first line with \"coding:\" in it, or in the second line and the first has no \"coding:\"; the interpreter is assumed to pass what follows the line of the declaration. A declaration coding=yupp in the first line is not seen by the codec, so the second line is processed twice (finding)."
  },
  {
   "property": "C63",
   "status": "partial",
   "theorems": [
    "C63_source_is_kept_partial",
    "C63_source_is_kept_refuted"
   ],
   "note": "Holds unless the source sets __OUTPUT_FILE__ itself; then false: a source naming itself is replaced by its output and survives as the backup only (finding)."
  },
  {
   "property": "C64",
   "status": "partial",
   "theorems": [
    "C64_title_is_a_comment_partial",
    "C64_title_has_the_time",
    "C64_title_is_a_comment_refuted",
    "C64_title_ends_early_refuted"
   ],
   "note": "Proved for names (of tool, version, source, output) on one line without a slash. False in general: the language is that of the output the run was started with, not of the name the source sets; and a name set with the end of a comment in it ends the title early (findings)."
  },
  {
   "property": "C65",
   "status": "proved",
   "theorems": [
    "C65_included_first",
    "C65_helpers_inside",
    "C65_included_again",
    "C65_helpers_stand_for",
    "C65_implement_defines",
    "C65_header_leaves",
    "C65_header_run",
    "C65_h_begin",
    "C65_h_end",
    "C65_var",
    "C65_inline",
    "C65_implement",
    "C65_var_init",
    "C65_extern_c_begin",
    "C65_extern_c_end",
    "C65_h_begin_named",
    "C65_implement_named"
   ],
   "note": "With trimming of indents on (the default); with the reduction of empty lines on, for declarations it leaves alone. What a C preprocessor keeps at the first and at later inclusions is proved over CppSpec, for declarations without directives of their own, and what the helpers of the header stand for, with and without implement, over CppSpec2; expressions after #if are a parameter. h-begin-named and implement-named for files whose name, in capital letters with _ for -, is an identifier without a meaning of its own."
  }
 ]
}