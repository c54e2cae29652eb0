{
 "claims": [
  {
   "property": "C01",
   "status": "proved",
   "theorems": [
    "C01_apply_edits_exactly",
    "C01_edits_are_the_wanted_ones"
   ],
   "note": ""
  },
  {
   "property": "C02",
   "status": "proved",
   "theorems": [
    "C02_apply_exact",
    "C02_edit_order_exists",
    "C02_overlap_never_succeeds",
    "C02_separate_always_succeeds",
    "C02_order_independence_refuted"
   ],
   "note": ""
  },
  {
   "property": "C03",
   "status": "partial",
   "theorems": [
    "C03_match_only_harmless_refuted",
    "C03_match_only_harmless_partial"
   ],
   "note": "The full claim is refuted (C03_match_only_harmless_refuted: a match-only substitution listed after one that replaces text at offset 0 makes the whole rewrite raise ValueError). The partial theorem gives the exact condition under which the claim holds and shows that it fails otherwise."
  },
  {
   "property": "C04",
   "status": "proved",
   "theorems": [
    "C04_relative_none",
    "C04_relative_shifted",
    "C04_relative_same_edit"
   ],
   "note": ""
  },
  {
   "property": "C05",
   "status": "proved",
   "theorems": [
    "C05_disjoint_sub_collection_in_order",
    "C05_disjoint_keeps_disjoint_input",
    "C05_disjoint_idempotent"
   ],
   "note": ""
  },
  {
   "property": "C06",
   "status": "proved",
   "theorems": [
    "C06_dropped_only_for_a_smaller_overlapping_one",
    "C06_maximality_refuted"
   ],
   "note": "C06_maximality_refuted records that the result need not be maximal, as the property says."
  },
  {
   "property": "C07",
   "status": "proved",
   "theorems": [
    "C07_labeled_spans_partition",
    "C07_labeled_spans_fails_only_if_inverted"
   ],
   "note": ""
  },
  {
   "property": "C08",
   "status": "partial",
   "theorems": [
    "C08_preview_exactly_when",
    "C08_preview_faithful_refuted",
    "C08_preview_faithful_partial"
   ],
   "note": "The full claim is false (C08_preview_faithful_refuted: a label that starts where a replaced span ends makes the DiffSpan appear twice). Proved under replaced_apart and no_dangling_start; C08_preview_exactly_when shows the last condition is necessary: the preview shows the text if and only if it holds."
  },
  {
   "property": "C09",
   "status": "proved",
   "theorems": [
    "C09_line_expanded_span_smallest",
    "C09_line_expanded_span_defaults"
   ],
   "note": ""
  },
  {
   "property": "C10",
   "status": "proved",
   "theorems": [
    "C10_blocks_lose_nothing",
    "C10_blocks_are_whole_lines"
   ],
   "note": ""
  },
  {
   "property": "C11",
   "status": "proved",
   "theorems": [
    "C11_suppress_exact"
   ],
   "note": ""
  },
  {
   "property": "C12",
   "status": "proved",
   "theorems": [
    "C12_constructor_exact"
   ],
   "note": ""
  },
  {
   "property": "C13",
   "status": "proved",
   "theorems": [
    "C13_disabled_ranges_exact",
    "C13_suppressed_exactly",
    "C13_same_files"
   ],
   "note": ""
  },
  {
   "property": "C14",
   "status": "proved",
   "theorems": [
    "C14_scope",
    "C14_sorted"
   ],
   "note": ""
  },
  {
   "property": "C15",
   "status": "proved",
   "theorems": [
    "C15_merge_bindings",
    "C15_outcome_determined",
    "C15_order_independent",
    "C15_dict_order_independent"
   ],
   "note": ""
  },
  {
   "property": "C16",
   "status": "proved",
   "theorems": [
    "C16_merge_replacements"
   ],
   "note": ""
  },
  {
   "property": "C17",
   "status": "proved",
   "theorems": [
    "C17_type_filter_sound"
   ],
   "note": ""
  },
  {
   "property": "C18",
   "status": "proved",
   "theorems": [
    "C18_first_match",
    "C18_naive"
   ],
   "note": ""
  },
  {
   "property": "C19",
   "status": "proved",
   "theorems": [
    "C19_bind_variables"
   ],
   "note": ""
  },
  {
   "property": "C20",
   "status": "proved",
   "theorems": [
    "C20_find_iter",
    "C20_found_unique",
    "C20_raises"
   ],
   "note": ""
  },
  {
   "property": "C21",
   "status": "proved",
   "theorems": [
    "C21_at_most_once",
    "C21_later_attempts",
    "C21_first_run"
   ],
   "note": ""
  },
  {
   "property": "C22",
   "status": "proved",
   "theorems": [
    "C22_literal_pattern"
   ],
   "note": "ast.parse and tokenize are arbitrary functions (the tokens are assumed to be laid out as the tokenizer does: spelled)."
  },
  {
   "property": "C23",
   "status": "proved",
   "theorems": [
    "C23_metavariables",
    "C23_repeated_metavariables"
   ],
   "note": "Restrictions are arbitrary matchers that say yes or no without side effects and bindings (restriction_ok). 'Same code' is what C24 says."
  },
  {
   "property": "C24",
   "status": "partial",
   "theorems": [
    "C24_equivalence_partial",
    "C24_total",
    "C24_sound",
    "C24_complete_without_lists",
    "C24_equivalence_relation"
   ],
   "note": "The claim is refuted for code that contains nonempty lists of nodes (C24_calls_refuted: f(a) is not equivalent to another f(a), because list fields are compared with ==, i.e. items by identity). C24_equivalence_partial is the exact characterisation of what is computed; C24_sound: equivalent implies the same code; C24_complete_without_lists: the converse for code without lists of nodes; C24_equivalence_relation."
  },
  {
   "property": "C25",
   "status": "proved",
   "theorems": [
    "C25_parent",
    "C25_siblings",
    "C25_fields_have_no_siblings",
    "C25_root",
    "C25_absent",
    "C25_simple_node"
   ],
   "note": ""
  },
  {
   "property": "C26",
   "status": "proved",
   "theorems": [
    "C26_has_parent",
    "C26_has_ancestor",
    "C26_is_or_has_ancestor",
    "C26_has_child",
    "C26_has_descendant",
    "C26_is_or_has_descendant",
    "C26_ancestors_are_above",
    "C26_descendants_are_below",
    "C26_has_first_ancestor",
    "C26_matches_iff",
    "C26_has_siblings"
   ],
   "note": ""
  },
  {
   "property": "C27",
   "status": "proved",
   "theorems": [
    "C27_items_are",
    "C27_items_are_too_long",
    "C27_has_item",
    "C27_contains",
    "C27_sequences"
   ],
   "note": ""
  },
  {
   "property": "C28",
   "status": "partial",
   "theorems": [
    "C28_shell_glob_refuted",
    "C28_match_means",
    "C28_matches_partial",
    "C28_no_overlap",
    "C28_one_star",
    "C28_exactly_when",
    "C28_bindings_refuted"
   ],
   "note": "The full claim (a GlobStar pattern matches exactly the sequences a shell glob would) is refuted (C28_shell_glob_refuted: the block after the last GlobStar may overlap what earlier blocks consumed). C28_match_means gives what a match implies for all submatchers; C28_matches_partial is the exact characterisation for submatchers that bind nothing; C28_no_overlap and C28_one_star give the conditions under which the shell reading is exact. For submatchers that bind, C28_exactly_when says exactly when Glob matches and what it binds (every part at its first place, the last at the end), and C28_bindings_refuted shows that a consistent way to split may be missed."
  },
  {
   "property": "C29",
   "status": "proved",
   "theorems": [
    "C29_fresh_names",
    "C29_renamed_source"
   ],
   "note": ""
  },
  {
   "property": "C30",
   "status": "proved",
   "theorems": [
    "C30_substitution",
    "C30_rest_unchanged"
   ],
   "note": ""
  },
  {
   "property": "C31",
   "status": "proved",
   "theorems": [
    "C31_rendering",
    "C31_in_context",
    "C31_one_variable"
   ],
   "note": ""
  },
  {
   "property": "C32",
   "status": "proved",
   "theorems": [
    "C32_match_to_substitution",
    "C32_when_it_raises"
   ],
   "note": ""
  },
  {
   "property": "C33",
   "status": "proved",
   "theorems": [
    "C33_removed_in_order",
    "C33_replace_by_nothing",
    "C33_removals_are_disjoint",
    "C33_disjoint_in_a_suite",
    "C33_spares_the_others",
    "C33_keeps_the_rest_of_the_suite",
    "C33_constant_template",
    "C33_key_span",
    "C33_searcher"
   ],
   "note": ""
  },
  {
   "property": "C34",
   "status": "proved",
   "theorems": [
    "C34_passed_through",
    "C34_fixed_point_is_a_run",
    "C34_yields_the_step_by_step_text",
    "C34_find_iter_groups",
    "C34_groups_are_maximal_runs",
    "C34_one_iteration_is_plain_search"
   ],
   "note": "parse_ast and the searcher are arbitrary functions. 'At most max_iterations' counts rewrites; the step-by-step theorem needs, for a single batch of several substitutions, that each of them replaces something (see C03)."
  },
  {
   "property": "C35",
   "status": "proved",
   "theorems": [
    "C35_merged_metadata",
    "C35_merging_never_fails"
   ],
   "note": ""
  },
  {
   "property": "C36",
   "status": "proved",
   "theorems": [
    "C36_dry_run_never_writes",
    "C36_only_files_with_matches_change",
    "C36_completed_run_writes_exactly",
    "C36_failures_reported_exactly",
    "C36_skipped_files_are_noted",
    "C36_search_failures_do_not_stop_the_run",
    "C36_apply_failure_empties_the_file_refuted"
   ],
   "note": "The search is an arbitrary function and disks, permissions arbitrary. Output paths are assumed pairwise distinct and not read after being written (no_clash). C36_apply_failure_empties_the_file_refuted: a failure while applying (not while searching) empties the file and aborts the run."
  },
  {
   "property": "C37",
   "status": "partial",
   "theorems": [
    "C37_read_then_write_normalises_newlines",
    "C37_read_then_write_identity_partial",
    "C37_bytes_outside_edits_survive_up_to_newlines",
    "C37_bytes_outside_edits_survive_partial",
    "C37_write_then_read",
    "C37_crlf_preserved_refuted"
   ],
   "note": "The full claim is false: carriage returns are lost (C37_crlf_preserved_refuted). Proved for files without carriage returns, and for all files up to normalised line endings."
  },
  {
   "property": "C38",
   "status": "proved",
   "theorems": [
    "C38_from_diff_rewrites_before_into_after"
   ],
   "note": ""
  },
  {
   "property": "C39",
   "status": "proved",
   "theorems": [
    "C39_pairing",
    "C39_every_command_line",
    "C39_sub_twice_rejected"
   ],
   "note": ""
  },
  {
   "property": "C40",
   "status": "proved",
   "theorems": [
    "C40_leftovers",
    "C40_positional_is_pattern_or_file"
   ],
   "note": ""
  },
  {
   "property": "C41",
   "status": "proved",
   "theorems": [
    "C41_evaluation",
    "C41_calls_only_the_table",
    "C41_other_syntax_is_rejected",
    "C41_the_language_is_accepted",
    "C41_exceptions",
    "C41_compile_matcher",
    "C41_the_table_is_safe"
   ],
   "note": ""
  },
  {
   "property": "C42",
   "status": "proved",
   "theorems": [
    "C42_also_regexps",
    "C42_combined_results",
    "C42_combined_included",
    "C42_combined_approximate_regex",
    "C42_combined_parse",
    "C42_combined_parse_agrees",
    "C42_combined_parse_succeeds",
    "C42_file_filter"
   ],
   "note": "Regex engines are arbitrary predicates; the meaning of the joined approximate regex is not modelled."
  },
  {
   "property": "C43",
   "status": "proved",
   "theorems": [
    "C43_same_labels_same_style",
    "C43_primary_only_is_bright",
    "C43_uncoloured_match_is_the_text"
   ],
   "note": ""
  },
  {
   "property": "C44",
   "status": "partial",
   "theorems": [
    "C44_output_is_tagged_lines",
    "C44_output_is_the_line_diff_partial",
    "C44_output_is_the_line_diff_refuted"
   ],
   "note": "C44_output_is_tagged_lines holds for every diff; that the two sides are the file and the rewritten file needs the preview to be faithful (C08), and is refuted without it (C44_output_is_the_line_diff_refuted)."
  },
  {
   "property": "C45",
   "status": "partial",
   "theorems": [
    "C45_constructor_checks_groups",
    "C45_accepted_templates_fill_refuted",
    "C45_accepted_templates_fill_partial",
    "C45_unmatched_group_is_empty"
   ],
   "note": "Constructor check is exact. The full claim 'every accepted template can be filled in' is refuted (C45_accepted_templates_fill_refuted: group number 0 is accepted but only available as __root, so \\g<0> raises KeyError when a match is found). Proved for templates that do not use group 0."
  },
  {
   "property": "C46",
   "status": "proved",
   "theorems": [
    "C46_rewrite_string",
    "C46_nothing_found"
   ],
   "note": ""
  },
  {
   "property": "C47",
   "status": "proved",
   "theorems": [
    "C47_sh_template_expansion",
    "C47_declared_variables_suffice"
   ],
   "note": ""
  },
  {
   "property": "C48",
   "status": "proved",
   "theorems": [
    "C48_from_text",
    "C48_reading_unique"
   ],
   "note": ""
  },
  {
   "property": "C49",
   "status": "proved",
   "theorems": [
    "C49_nothing_written_without_in_place",
    "C49_pragmas_respected",
    "C49_all_patterns_searched",
    "C49_also_filters",
    "C49_list_files",
    "C49_iterations"
   ],
   "note": ""
  },
  {
   "property": "C50",
   "status": "proved",
   "theorems": [
    "C50_no_sharing"
   ],
   "note": ""
  },
  {
   "property": "C51",
   "status": "proved",
   "theorems": [
    "C51_all_of",
    "C51_node",
    "C51_unless",
    "C51_bind"
   ],
   "note": ""
  },
  {
   "property": "C52",
   "status": "proved",
   "theorems": [
    "C52_reading_metavariables",
    "C52_one_reading",
    "C52_unreadable_patterns"
   ],
   "note": ""
  },
  {
   "property": "C53",
   "status": "proved",
   "theorems": [
    "C53_accepted_patterns",
    "C53_rejected_patterns",
    "C53_unreadable_patterns"
   ],
   "note": ""
  },
  {
   "property": "C54",
   "status": "proved",
   "theorems": [
    "C54_function_pattern",
    "C54_accepted"
   ],
   "note": ""
  },
  {
   "property": "C55",
   "status": "proved",
   "theorems": [
    "C55_unparsable_is_skipped",
    "C55_searching_unparsable"
   ],
   "note": ""
  },
  {
   "property": "C56",
   "status": "proved",
   "theorems": [
    "C56_match_is_about_the_candidate"
   ],
   "note": ""
  },
  {
   "property": "C57",
   "status": "proved",
   "theorems": [
    "C57_bindings_and_replacements_have_distinct_keys",
    "C57_no_replacements_of_their_own"
   ],
   "note": ""
  },
  {
   "property": "C58",
   "status": "proved",
   "theorems": [
    "C58_colours_are_decoration",
    "C58_highlights_are_the_change"
   ],
   "note": ""
  },
  {
   "property": "C59",
   "status": "proved",
   "theorems": [
    "C59_labels",
    "C59_accepted"
   ],
   "note": ""
  },
  {
   "property": "C60",
   "status": "proved",
   "theorems": [
    "C60_accepted",
    "C60_findings",
    "C60_only_python_files",
    "C60_from_pattern",
    "C60_register",
    "C60_register_default",
    "C60_builtins"
   ],
   "note": ""
  },
  {
   "property": "C61",
   "status": "proved",
   "theorems": [
    "C61_matches_regex",
    "C61_full_match",
    "C61_fullmatch_refuted",
    "C61_file_matches_regex"
   ],
   "note": "The regular expression engine is a relation R; a compiled pattern is assumed to return some reading that $ allows (compiled_dollar). C61_fullmatch_refuted: the documented fullmatch semantics fails for spans that end with a newline."
  },
  {
   "property": "C62",
   "status": "proved",
   "theorems": [
    "C62_comments",
    "C62_otherwise"
   ],
   "note": ""
  },
  {
   "property": "C63",
   "status": "proved",
   "theorems": [
    "C63_with_top_level_import",
    "C63_imports",
    "C63_any_import_refuted"
   ],
   "note": "C63_any_import_refuted: 'there is a top level import' is not enough, only the last import of a module counts."
  },
  {
   "property": "C64",
   "status": "proved",
   "theorems": [
    "C64_filters",
    "C64_rebind"
   ],
   "note": ""
  },
  {
   "property": "C65",
   "status": "partial",
   "theorems": [
    "C65_files_partial",
    "C65_excludefile_refuted",
    "C65_displayed_name"
   ],
   "note": "C65_files_partial is the claim without the include/exclude options, which are parsed but read by nothing: C65_excludefile_refuted."
  },
  {
   "property": "C66",
   "status": "proved",
   "theorems": [
    "C66_setup",
    "C66_modes",
    "C66_languages",
    "C66_options",
    "C66_fix_mode",
    "C66_fix_mode_substitution_is_usage_error",
    "C66_no_pattern_refuted"
   ],
   "note": "The parsers are arbitrary functions. C66_no_pattern_refuted: if no pattern is given at all, a TypeError or AttributeError escapes instead of a usage message."
  },
  {
   "property": "C67",
   "status": "proved",
   "theorems": [
    "C67_usage_errors_come_first",
    "C67_dry_run",
    "C67_only_named_files",
    "C67_completed_run",
    "C67_completes"
   ],
   "note": ""
  },
  {
   "property": "C68",
   "status": "proved",
   "theorems": [
    "C68_re_sub_unique",
    "C68_rewrite_string",
    "C68_in_place"
   ],
   "note": ""
  },
  {
   "property": "C69",
   "status": "proved",
   "theorems": [
    "C69_operations_of_the_run",
    "C69_interrupted",
    "C69_dry_run_has_no_operations",
    "C69_old_or_new_refuted"
   ],
   "note": ""
  },
  {
   "property": "C70",
   "status": "proved",
   "theorems": [
    "C70_replace",
    "C70_succeeds",
    "C70_filled"
   ],
   "note": ""
  },
  {
   "property": "C71",
   "status": "proved",
   "theorems": [
    "C71_pattern_fixers",
    "C71_plain"
   ],
   "note": ""
  },
  {
   "property": "C72",
   "status": "proved",
   "theorems": [
    "C72_behaviour",
    "C72_tables",
    "C72_messages"
   ],
   "note": "laws (PyCode.v) are the assumed evaluation rules of Python, understood is the assumed tokenization and parsing of the table's texts; both are hypotheses of the theorem, shown satisfiable. Behaviour is that of the expression before and after (c1 is the filled-in template as Python parses it on its own; putting it into the file is put_in, C31/C70)."
  },
  {
   "property": "C73",
   "status": "proved",
   "theorems": [
    "C73_corrections",
    "C73_messages",
    "C73_closing_only"
   ],
   "note": "understood (tokenization and parsing of the table's texts) and call_grammar (fields of Call and keyword) are hypotheses about Python, shown satisfiable. That the corrected code is better is not claimed; what is replaced, when, by what, and with which message is."
  },
  {
   "property": "C74",
   "status": "proved",
   "theorems": [
    "C74_every_bug",
    "C74_every_idiom",
    "C74_decisive"
   ],
   "note": "parses_evaluated (contexts of the parser's trees), well_positioned (spans lie in the file) and understood are hypotheses about Python's parser, shown satisfiable. Other fixers in the list must not raise (decisive); C74_decisive shows that for all built-in ones of the two theorems. A RewriteError of a template (its result does not parse) is the stated exception."
  },
  {
   "property": "C75",
   "status": "proved",
   "theorems": [
    "C75_frozen",
    "C75_constant_names",
    "C75_every_constant",
    "C75_decisive"
   ],
   "note": ""
  },
  {
   "property": "C76",
   "status": "proved",
   "theorems": [
    "C76_exception_instead",
    "C76_every_error",
    "C76_decisive"
   ],
   "note": ""
  },
  {
   "property": "C77",
   "status": "partial",
   "theorems": [
    "C77_described_partial",
    "C77_every_exception",
    "C77_decisive",
    "C77_literal",
    "C77_names_failed_partial",
    "C77_literal_refuted",
    "C77_names_failed_refuted"
   ],
   "note": "Refuted in two ways: the source of the called expression is put between single quotes as it is, so f('a')() makes broken Python (C77_literal_refuted; C77_literal is the exact condition), and the innermost try need not be the one whose exception was caught (C77_names_failed_refuted; C77_names_failed_partial gives the condition). C77_described_partial says exactly what is replaced by what, C77_every_exception that no such statement is missed."
  },
  {
   "property": "C78",
   "status": "proved",
   "theorems": [
    "C78_rewrite_file",
    "C78_external_command",
    "C78_piped",
    "C78_piped_exactly",
    "C78_failure",
    "C78_copy"
   ],
   "note": ""
  },
  {
   "property": "C79",
   "status": "proved",
   "theorems": [
    "C79_explained",
    "C79_nothing_missed",
    "C79_rewritten"
   ],
   "note": ""
  },
  {
   "property": "C80",
   "status": "proved",
   "theorems": [
    "C80_rounds",
    "C80_default_fixers"
   ],
   "note": ""
  },
  {
   "property": "C81",
   "status": "partial",
   "theorems": [
    "C81_fix_mode_partial",
    "C81_one_round",
    "C81_overlapping_rounds_refuted"
   ],
   "note": "That no file is lost is refuted with the real default fixers (C81_overlapping_rounds_refuted: with the default ten rounds, f(attr.ib(default=[]), attr.ib(default=[]) if x else y) makes the run end with a ValueError after the file has been emptied). C81_fix_mode_partial is the rest of the claim, for every run that completes; C81_one_round is the full claim for --iterate=1 (or less), where every run completes."
  },
  {
   "property": "C82",
   "status": "partial",
   "theorems": [
    "C82_summary",
    "C82_all_shown",
    "C82_location_partial",
    "C82_form_feed_refuted"
   ],
   "note": "That the caret is under the error is refuted for lines with form feeds and the like (C82_form_feed_refuted). C82_location_partial is the claim for lines without such characters; C82_summary and C82_all_shown are the rest of the claim, without restriction."
  },
  {
   "property": "C83",
   "status": "proved",
   "theorems": [
    "C83_command",
    "C83_report"
   ],
   "note": "Temporary names, highlighting and tracebacks are arbitrary functions; json.dump followed by json.load is taken to be the identity; output paths as in C36 (no_clash). A first word of the form a=b, keywords and aliases are not treated by the splitter."
  },
  {
   "property": "C84",
   "status": "partial",
   "theorems": [
    "C84_given",
    "C84_fragment",
    "C84_replacement",
    "C84_code_partial",
    "C84_example_file",
    "C84_no_example_file",
    "C84_own_example_refuted"
   ],
   "note": "That the generated example is matched by its own pattern is refuted for patterns with string literals (C84_own_example_refuted). C84_code_partial gives the examples for code made of names, calls, operators, comprehensions and metavariables; C84_given, C84_fragment, C84_replacement, C84_example_file and C84_no_example_file are the rest of the claim."
  },
  {
   "property": "C85",
   "status": "proved",
   "theorems": [
    "C85_what_has_a_place",
    "C85_what_a_match_says",
    "C85_bindings_are_pieces",
    "C85_search_reports_pieces"
   ],
   "note": ""
  },
  {
   "property": "C86",
   "status": "proved",
   "theorems": [
    "C86_found_in_file",
    "C86_rewritten",
    "C86_program"
   ],
   "note": ""
  },
  {
   "property": "C87",
   "status": "proved",
   "theorems": [
    "C87_calls",
    "C87_expressions",
    "C87_only_searches",
    "C87_program",
    "C87_coerced_refuted",
    "C87_wrapped_refuted"
   ],
   "note": ""
  },
  {
   "property": "C88",
   "status": "proved",
   "theorems": [
    "C88_same_search",
    "C88_same_run"
   ],
   "note": ""
  },
  {
   "property": "C89",
   "status": "proved",
   "theorems": [
    "C89_sums",
    "C89_only_sums",
    "C89_others",
    "C89_replaced_by_total",
    "C89_texts_raise"
   ],
   "note": ""
  }
 ]
}