{
 "C03": "The full claim is refuted (C03_match_only_harmless_refuted: a match-only substitution listed after one that replaces text at offset 0 makes the whole rewrite raise ValueError). The partial theorem gives the exact condition under which the claim holds and shows that it fails otherwise.",
 "C08": "The full claim is false (C08_preview_faithful_refuted: a label that starts where a replaced span ends makes the DiffSpan appear twice). Proved under replaced_apart and no_dangling_start; C08_preview_exactly_when shows the last condition is necessary: the preview shows the text if and only if it holds.",
 "C44": "C44_output_is_tagged_lines holds for every diff; that the two sides are the file and the rewritten file needs the preview to be faithful (C08), and is refuted without it (C44_output_is_the_line_diff_refuted).",
 "C45": "Constructor check is exact. The full claim 'every accepted template can be filled in' is refuted (C45_accepted_templates_fill_refuted: group number 0 is accepted but only available as __root, so \\g<0> raises KeyError when a match is found). Proved for templates that do not use group 0.",
 "C37": "The full claim is false: carriage returns are lost (C37_crlf_preserved_refuted). Proved for files without carriage returns, and for all files up to normalised line endings.",
 "C28": "The full claim (a GlobStar pattern matches exactly the sequences a shell glob would) is refuted (C28_shell_glob_refuted: the block after the last GlobStar may overlap what earlier blocks consumed). C28_match_means gives what a match implies for all submatchers; C28_matches_partial is the exact characterisation for submatchers that bind nothing; C28_no_overlap and C28_one_star give the conditions under which the shell reading is exact. For submatchers that bind, C28_exactly_when says exactly when Glob matches and what it binds (every part at its first place, the last at the end), and C28_bindings_refuted shows that a consistent way to split may be missed.",
 "C24": "The claim is refuted for code that contains nonempty lists of nodes (C24_calls_refuted: f(a) is not equivalent to another f(a), because list fields are compared with ==, i.e. items by identity). C24_equivalence_partial is the exact characterisation of what is computed; C24_sound: equivalent implies the same code; C24_complete_without_lists: the converse for code without lists of nodes; C24_equivalence_relation.",
 "C65": "C65_files_partial is the claim without the include/exclude options, which are parsed but read by nothing: C65_excludefile_refuted.",
 "C77": "Refuted in two ways: the source of the called expression is put between single quotes as it is, so f('a')() makes broken Python (C77_literal_refuted; C77_literal is the exact condition), and the innermost try need not be the one whose exception was caught (C77_names_failed_refuted; C77_names_failed_partial gives the condition). C77_described_partial says exactly what is replaced by what, C77_every_exception that no such statement is missed.",
 "C81": "That no file is lost is refuted with the real default fixers (C81_overlapping_rounds_refuted: with the default ten rounds, f(attr.ib(default=[]), attr.ib(default=[]) if x else y) makes the run end with a ValueError after the file has been emptied). C81_fix_mode_partial is the rest of the claim, for every run that completes; C81_one_round is the full claim for --iterate=1 (or less), where every run completes.",
 "C82": "That the caret is under the error is refuted for lines with form feeds and the like (C82_form_feed_refuted). C82_location_partial is the claim for lines without such characters; C82_summary and C82_all_shown are the rest of the claim, without restriction.",
 "C84": "That the generated example is matched by its own pattern is refuted for patterns with string literals (C84_own_example_refuted). C84_code_partial gives the examples for code made of names, calls, operators, comprehensions and metavariables; C84_given, C84_fragment, C84_replacement, C84_example_file and C84_no_example_file are the rest of the claim."
}