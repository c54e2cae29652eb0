{"id": "C01", "title": "Applying substitutions edits exactly the replaced spans", "statement": "When apply_substitutions(text, subs) returns, the result is the original text in which every replaced span (span of a label that has a replacement) holds exactly its replacement text and every character outside the replaced spans is kept, in order and unchanged.", "quantifier": "every text, every list of Substitution objects with any number of labels and replacements whose spans lie in the text", "why_tests_cant": "The set of span layouts (touching, empty, nested labels without replacements, several labels per substitution, several substitutions) is unbounded; tests sample a handful.", "anchors": ["refex/formatting.py: apply_substitutions", "refex/formatting.py: _rewrite_to_replacements", "refex/formatting.py: _substitution_to_replacement", "refex/formatting.py: concatenate_replacements"]}
{"id": "C02", "title": "Overlap detection is exact", "statement": "apply_substitutions raises ValueError if and only if, with each substitution's replaced spans put in (start, end) order and the substitutions put in order of first replaced offset (ties in the given order), some replaced span is inverted or starts before the previous one ended. Substitutions whose replaced regions do not meet never fail; nested or crossing replaced regions always do.", "quantifier": "every text and every list of substitutions", "why_tests_cant": "Both directions (no false alarms, no silent corruption) quantify over all span layouts and all orders.", "anchors": ["refex/formatting.py: concatenate_replacements", "refex/formatting.py: apply_substitutions"]}
{"id": "C03", "title": "A substitution without replacements never changes or breaks a rewrite", "statement": "A search result that replaces nothing (a mere match) has no effect on apply_substitutions: the text is rewritten as if it were not in the list.", "quantifier": "every text, every list of substitutions, every position of a replacement-free substitution in that list", "why_tests_cant": "Interaction depends on order and on where the other replacements lie (offset 0 is special).", "anchors": ["refex/formatting.py: concatenate_replacements", "refex/formatting.py: apply_substitutions"]}
{"id": "C04", "title": "relative_to_span describes the same edit on a slice", "statement": "sub.relative_to_span(a, b) is None exactly when some matched span is not inside [a, b]; otherwise applying it to text[a:b] and putting the result back between text[:a] and text[b:] is the same as applying sub to the whole text (same failures too), and all other attributes are unchanged.", "quantifier": "every text, every substitution, every slice 0 <= a <= b <= len(text)", "why_tests_cant": "Commutation of two offset computations over all layouts.", "anchors": ["refex/substitution.py: Substitution.relative_to_span"]}
{"id": "C05", "title": "disjoint_substitutions returns non-overlapping results in order", "statement": "disjoint_substitutions(subs) returns a sub-collection of its input, sorted by primary span, in which no two primary spans overlap; if the input already is sorted and non-overlapping it is returned unchanged; hence it is idempotent.", "quantifier": "every finite list of substitutions with well-formed primary spans", "why_tests_cant": "Requires all permutations and all overlap patterns.", "anchors": ["refex/substitution.py: disjoint_substitutions", "refex/search.py: CombinedSearcher.find_iter_parsed"]}
{"id": "C06", "title": "disjoint_substitutions drops a result only because of a kept or later-dropped overlapping neighbour", "statement": "A substitution is dropped only if it overlaps another one of the input. (It is NOT guaranteed that the result is maximal, i.e. that each dropped substitution overlaps a kept one.)", "quantifier": "every finite list of substitutions with well-formed primary spans", "why_tests_cant": "Chains of overlaps of arbitrary length.", "anchors": ["refex/substitution.py: disjoint_substitutions"]}
{"id": "C07", "title": "labeled_spans is a faithful partition", "statement": "The spans produced by labeled_spans are contiguous, start at the smallest start and stop at the largest end of the matched spans, and each non-empty piece carries exactly the labels whose span covers it (no label begins or ends strictly inside a piece). It fails only if some span is inverted.", "quantifier": "every substitution: any number of labels, nested, crossing, empty or identical spans", "why_tests_cant": "All interval arrangements.", "anchors": ["refex/substitution.py: labeled_spans"]}
{"id": "C08", "title": "The diff preview shows the change that will be made", "statement": "Reading as_diff(sub) with the original text of each piece gives the original text of the matched range; reading it with the replacement text of each DiffSpan gives the text that apply_substitutions produces for that range.", "quantifier": "every text and every substitution with well-formed, pairwise disjoint replaced spans", "why_tests_cant": "All arrangements of labels with and without replacements; touching labels are the corner.", "anchors": ["refex/substitution.py: as_diff", "refex/formatting.py: apply_substitutions"]}
{"id": "C09", "title": "line_expanded_span covers whole lines", "statement": "line_expanded_span(s, a, b) contains the requested span, begins at the start of s or just after a newline, ends at the end of s or just before a newline, and is the smallest such span.", "quantifier": "every string, every start/end including None, negative and inverted", "why_tests_cant": "All positions of newlines around the span.", "anchors": ["refex/formatting.py: line_expanded_span", "refex/formatting.py: _line_expanded_left", "refex/formatting.py: _line_expanded_right"]}
{"id": "C10", "title": "Splitting a diff into blocks loses nothing and keeps whole lines", "statement": "The blocks of a diff, concatenated, read the same text before and after as the unsplit diff; blocks not marked as diffs contain no DiffSpan; blocks are cut only right after a newline of an unchanged piece, so each line touched by a change is in one block.", "quantifier": "every text and every sequence of labeled and diff spans", "why_tests_cant": "All placements of newlines with respect to the pieces.", "anchors": ["refex/formatting.py: _sub_diff_blocks", "refex/formatting.py: _partition_labeled_span", "refex/formatting.py: _split_labeled_span_after"]}
{"id": "C11", "title": "Excluded ranges suppress exactly the substitutions they cover", "statement": "suppress_exclude_bytes keeps a substitution iff its primary span intersects no excluded range listed for the root category or for a dot-separated prefix of its category; kept ones stay in order.", "quantifier": "every list of substitutions, every category string, every table of ranges", "why_tests_cant": "All categories depths and all interval intersections.", "anchors": ["refex/substitution.py: suppress_exclude_bytes", "refex/substitution.py: _sub_matches_ranges", "refex/substitution.py: Substitution.all_categories"]}
{"id": "C12", "title": "Only well-formed substitutions can be constructed", "statement": "Constructing a Substitution succeeds iff the category is None or a dot-separated list of non-empty, whitespace-free names not starting with a dash, the primary label is a matched label, and every replaced label is a matched label; otherwise ValueError.", "quantifier": "every category string, label set and replacement set", "why_tests_cant": "A regular language over all strings.", "anchors": ["refex/substitution.py: Substitution._validate", "refex/substitution.py: _CATEGORY_NAME_REGEX"]}
{"id": "C13", "title": "disable/enable pragmas: exact disabled ranges", "statement": "For each category, the ranges excluded by pragmas are the ranges of the disable pragmas naming that category, each one cut off at the first enable pragma of the same category that starts inside it; nothing else is excluded, and pylint pragmas only affect pylint.* categories.", "quantifier": "every sequence of pragmas", "why_tests_cant": "All sequences and nestings of pragmas.", "anchors": ["refex/search.py: _pragma_excluded_ranges", "refex/search.py: _pragma_ranges"]}
{"id": "C14", "title": "Scope of a pragma", "statement": "A pragma comment that shares its line with code applies to exactly that line; a pragma on its own line applies from the comment to the end of the enclosing indented block (or the end of the file).", "quantifier": "every well-nested token stream", "why_tests_cant": "All block nestings.", "anchors": ["refex/python/matcher.py: _pragmas"]}
{"id": "C15", "title": "Merging bindings is complete and order independent", "statement": "merge_bindings returns a binding for exactly the labels bound on either side, keeps one-sided ones untouched, resolves shared ones by their conflict strategy, and fails if strategies differ, or the strategy rejects the pair; the outcome does not depend on the iteration order of labels.", "quantifier": "every pair of binding dictionaries", "why_tests_cant": "All pairs of dictionaries and all iteration orders of a hash set.", "anchors": ["refex/python/matcher.py: merge_bindings", "refex/python/matcher.py: BindMerge", "refex/python/matcher.py: BindConflict"]}
{"id": "C16", "title": "Merging replacements never loses or overwrites one", "statement": "merge_replacements returns the union when the two sides have no label in common, and raises MatchError otherwise (even if they agree on the shared label).", "quantifier": "every pair of replacement dictionaries", "why_tests_cant": "All pairs.", "anchors": ["refex/python/matcher.py: merge_replacements"]}
{"id": "C17", "title": "type_filter is sound", "statement": "If a matcher declares a type filter, it never matches an object whose type is outside it.", "quantifier": "every matcher term and every candidate in every tree", "why_tests_cant": "Induction over all matcher expressions.", "anchors": ["refex/python/matchers/base_matchers.py: type_filter definitions", "refex/python/matcher.py: Matcher.match"]}
{"id": "C18", "title": "AnyOf takes the first alternative that matches", "statement": "AnyOf(m1..mn) returns the result of the first alternative in order that matches (alternatives ruled out by their type filter can be skipped without changing the result), and fails iff none matches.", "quantifier": "every list of alternatives, every candidate", "why_tests_cant": "All matcher expressions and candidate types.", "anchors": ["refex/python/matchers/base_matchers.py: AnyOf"]}
{"id": "C19", "title": "Declared bind_variables cover all bindings", "statement": "A successful match binds only names in the matcher's declared bind_variables.", "quantifier": "every matcher built from the modelled combinators, every candidate", "why_tests_cant": "Induction over all matcher expressions.", "anchors": ["refex/python/matchers/base_matchers.py: bind_variables", "refex/python/matcher.py: Matcher.bind_variables"]}
{"id": "C20", "title": "find_iter finds every outermost match once, in source order", "statement": "find_iter yields exactly the matches found by a left-to-right preorder walk of the tree that does not descend into a matched or rejected-by-exception node: no match is reported twice, no reported match is inside another, every node not under a reported match was tried.", "quantifier": "every tree, every matcher", "why_tests_cant": "All tree shapes, explicit stack.", "anchors": ["refex/python/matcher.py: find_iter"]}
{"id": "C21", "title": "Once matches at most once per file", "statement": "During one find_iter run, a given Once(m) succeeds in at most one of the reported matches, and a failed candidate leaves no trace on it.", "quantifier": "every tree, every matcher containing Once", "why_tests_cant": "History property over a whole traversal.", "anchors": ["refex/python/matchers/base_matchers.py: Once", "refex/python/matcher.py: MatchContext", "refex/python/matcher.py: find_iter"]}
{"id": "C22", "title": "A literal pattern matches exactly the same syntax", "statement": "ExprPattern/StmtPattern/ModulePattern without metavariables match a node iff it has the same syntax tree (ignoring whitespace/comments and load/store context of names), where literal values are compared with Python's ==.", "quantifier": "every pattern tree and every candidate tree", "why_tests_cant": "All pairs of trees.", "anchors": ["refex/python/matchers/syntax_matchers.py: _ast_pattern"]}
{"id": "C23", "title": "A repeated metavariable must match the same code everywhere", "statement": "If a pattern uses $x more than once, a match requires all occurrences to be equivalent ASTs, and the binding is the last occurrence in pattern order.", "quantifier": "every pattern and every candidate tree", "why_tests_cant": "All patterns with repeated variables.", "anchors": ["refex/python/matchers/syntax_matchers.py: ExprPattern", "refex/python/matcher.py: BindMerge"]}
{"id": "C24", "title": "AST equivalence is an equivalence for code", "statement": "The equivalence used for repeated metavariables is structural equality of ASTs ignoring position and load/store context.", "quantifier": "every pair of trees", "why_tests_cant": "All pairs of trees.", "anchors": ["refex/python/matcher.py: _ast_equivalent / ast_equivalent"]}
{"id": "C25", "title": "Navigation agrees with the tree", "statement": "AstNavigator's parent, previous and next sibling are the actual ones: the parent of each child of a node/list is that node/list, siblings are adjacent list elements.", "quantifier": "every tree without shared objects", "why_tests_cant": "All tree shapes.", "anchors": ["refex/python/matcher.py: _AstNavigator"]}
{"id": "C26", "title": "Structural matchers look where they say", "statement": "HasChild/HasDescendant/IsOrHasDescendant/HasParent/HasAncestor/IsOrHasAncestor(m) succeed iff m matches some child / descendant / (self or descendant) / the parent / ancestor / (self or ancestor), and return the first such in the documented order.", "quantifier": "every tree, every submatcher, every candidate", "why_tests_cant": "All tree shapes; recursion of arbitrary depth.", "anchors": ["refex/python/matchers/syntax_matchers.py: HasParent", "refex/python/matchers/syntax_matchers.py: HasAncestor", "refex/python/matchers/syntax_matchers.py: HasChild", "refex/python/matchers/syntax_matchers.py: HasDescendant"]}
{"id": "C27", "title": "Collection matchers", "statement": "ItemsAre matches iff lengths agree and each item matches; HasItem(i, m) iff the item exists and matches; Contains(m) iff some item matches; bindings of the parts are merged.", "quantifier": "every sequence and every list of submatchers", "why_tests_cant": "All lengths and all submatchers.", "anchors": ["refex/python/matchers/base_matchers.py: ItemsAre", "refex/python/matchers/base_matchers.py: HasItem", "refex/python/matchers/base_matchers.py: Contains"]}
{"id": "C28", "title": "Glob behaves like a shell glob", "statement": "Glob of fixed blocks separated by stars matches a sequence iff the sequence splits as block1 gap block2 gap ... blockN with blocks anchored at the ends where there is no star.", "quantifier": "every sequence and every glob", "why_tests_cant": "All splits of all sequences.", "anchors": ["refex/python/matchers/base_matchers.py: Glob"]}
{"id": "C29", "title": "Template metavariables are renamed to fresh identifiers", "statement": "Renaming $x to an identifier picks a name that occurs nowhere else in the template, distinct for distinct metavariables, and every anonymous $_ gets its own; renaming always terminates.", "quantifier": "every token stream", "why_tests_cant": "Freshness against all identifiers the user may have used.", "anchors": ["refex/python/syntactic_template.py: _remap_macro_variables / python_pattern"]}
{"id": "C30", "title": "Syntactic template substitution replaces exactly the variables", "statement": "Substituting into a tokenised template replaces each variable token by its value and keeps every other token and the whitespace between; it fails (KeyError) iff some variable is missing.", "quantifier": "every template, every environment", "why_tests_cant": "All templates.", "anchors": ["refex/python/syntactic_template.py: _LexicalTemplate"]}
{"id": "C31", "title": "Syntax-aware templates keep the meaning", "statement": "A PythonExprTemplate/PythonStmtTemplate/PythonTemplate filled in for a match parses to the template's syntax tree with the matched code in the places of the metavariables (the same tree as with every substituted part in parentheses); parentheses are dropped from left to right exactly where that does not change the tree. If the match is an expression inside of another expression or of a simple statement, the replacement is put in parentheses exactly if the surrounding source would otherwise read differently, and in its context it is read as the replacement expression in the place of the match; otherwise it is used as it is. Whatever cannot be done so raises.", "quantifier": "every template, every bound matches, every matched node in every parsed file, every parser and tokenizer behaviour", "why_tests_cant": "All precedence combinations, all contexts; the parser is arbitrary.", "anchors": ["refex/python/syntactic_template.py: _BasePythonTemplate.substitute_match, _parenthesized, _matchers_for_matches; PythonTemplate, PythonExprTemplate, PythonStmtTemplate"]}
{"id": "C32", "title": "From a match to a Substitution", "statement": "A rewriting searcher yields, for each match dictionary whose rewrite succeeds, a Substitution with the spans of the matches that have a location, one replacement per template label present in the match, and message/url/category/significant taken from the special __ labels, which never remain as replacements; rewrite errors skip that match only.", "quantifier": "every match dictionary and template dictionary", "why_tests_cant": "All combinations of labels present/absent/locationless.", "anchors": ["refex/search.py: BaseRewritingSearcher.find_iter_parsed", "refex/formatting.py: rewrite_templates"]}
{"id": "C33", "title": "Removing statements never leaves an empty block", "statement": "When statements of a block are removed one after the other in source order, if all of them are removed from a non-module block the last removal becomes 'pass', and the removed ranges do not overlap each other or the statements that stay (within one block always; between different blocks if no semicolon follows the last statement of the inner block, where the code does overlap).", "quantifier": "every block length and every subset of removed statements", "why_tests_cant": "All subsets and orders of removals.", "anchors": ["refex/search.py: BasePythonRewritingSearcher._sanitize_removed_stmt"]}
{"id": "C34", "title": "Fixed-point iteration is bounded and equals step-by-step rewriting", "statement": "With max_iterations <= 1 substitutions are passed through; otherwise the simple node's text is rewritten at most max_iterations times, each intermediate text parses, and the single merged substitution rewrites the node to the text obtained by applying the steps one after the other; if the first rewrite does not parse nothing is yielded.", "quantifier": "every searcher, every text, every number of iterations", "why_tests_cant": "Histories of arbitrary searchers.", "anchors": ["refex/search.py: find_iter", "refex/search.py: _fixed_point"]}
{"id": "C35", "title": "Merged metadata", "statement": "A merged substitution is significant iff one of its parts is; its URL/message come only from significant parts (or from all if none is); one shared url is kept, one shared message is kept verbatim.", "quantifier": "every non-empty list of substitutions", "why_tests_cant": "All combinations.", "anchors": ["refex/search.py: _compile_substitutions"]}
{"id": "C36", "title": "Which files are touched", "statement": "In dry-run mode no file is ever written. Otherwise only files for which there are matches are written, each with the original contents rewritten by its substitutions, and a failure while searching one file does not prevent the others from being processed and is reported.", "quantifier": "every list of files, every file contents, every searcher, every failure pattern", "why_tests_cant": "All interleavings of failures and successes across files.", "anchors": ["refex/cli.py: RefexRunner.rewrite_files", "refex/cli.py: RefexRunner.write", "refex/cli.py: RefexRunner.get_matches"]}
{"id": "C37", "title": "Text outside the matches survives reading and writing back", "statement": "Reading a UTF-8 file and writing it back after a rewrite preserves the bytes outside the rewritten spans.", "quantifier": "every file contents", "why_tests_cant": "All byte strings.", "anchors": ["refex/cli.py: RefexRunner.read", "refex/cli.py: RefexRunner.write"]}
{"id": "C38", "title": "Whole-file rewriters produce the requested text", "statement": "MatchInfo.from_diff(before, after) gives replacements that, applied to before, give after.", "quantifier": "every pair of strings, every line-diff algorithm satisfying difflib.Differ's contract", "why_tests_cant": "All pairs of texts.", "anchors": ["refex/python/matcher.py: MatchInfo.from_diff"]}
{"id": "C39", "title": "Pairing of --match with --sub on the command line", "statement": "Each --match makes one search-replace pair; each --sub/--named-sub belongs to the closest preceding --match (to the first pattern if there is none before it). A pattern takes either one --sub or --named-sub options name=replacement with distinct names; everything else is a usage error, nothing is silently dropped or overwritten.", "quantifier": "every sequence of command line options", "why_tests_cant": "All option sequences.", "anchors": ["refex/cli.py: _AddMatchAction / _AddSubAction / _AddNamedSubAction"]}
{"id": "C40", "title": "Positional pattern", "statement": "The first positional argument is the pattern when no --match was given, all other positionals are files.", "quantifier": "every argument list", "why_tests_cant": "All argument lists.", "anchors": ["refex/cli.py: _parse_args_leftovers"]}
{"id": "C41", "title": "--mode=py expressions cannot run arbitrary code", "statement": "Evaluating a matcher expression only calls callables in the allowed table with literal arguments; any other syntax is rejected.", "quantifier": "every expression AST", "why_tests_cant": "Security property over all expressions.", "anchors": ["refex/python/semiliteral_eval.py: Eval"]}
{"id": "C42", "title": "Searcher combinators", "statement": "AlsoRegexpSearcher gives results only if all `also` regexes and none of the `also_not` regexes are found; CombinedSearcher's results are the disjoint union of its parts; its approximate regex exists iff all parts have one.", "quantifier": "every searcher combination", "why_tests_cant": "All combinations.", "anchors": ["refex/search.py: AlsoRegexpSearcher", "refex/search.py: CombinedSearcher"]}
{"id": "C43", "title": "Stable styling", "statement": "A Renderer gives the same label set the same style in every call, and with color off the rendering contains the text only.", "quantifier": "every sequence of render calls", "why_tests_cant": "Histories of stateful rendering.", "anchors": ["refex/formatting.py: Renderer._style_for", "refex/formatting.py: Renderer._render_diff_block"]}
{"id": "C44", "title": "Uncoloured diff output is exactly a line diff of the rewrite", "statement": "Renderer(color=False).render of a substitution with replacements prints the lines spanned by the match: removing '+' lines and stripping the prefix gives the original lines, removing '-' lines gives the rewritten lines.", "quantifier": "every text and substitution for which the preview is faithful (C08)", "why_tests_cant": "All newline placements.", "anchors": ["refex/formatting.py: Renderer.render"]}
{"id": "C45", "title": "string.Template / regex templates only read existing groups", "statement": "RegexSearcher rejects at construction any template that references a group not in the regex; every accepted template can be filled in on every match; a group that took no part in the match reads as the empty string and is never a destination.", "quantifier": "every set of templates and every group layout", "why_tests_cant": "All combinations.", "anchors": ["refex/search.py: RegexSearcher", "refex/formatting.py: template_variables"]}
{"id": "C46", "title": "rewrite_string end to end", "statement": "search.rewrite_string(searcher, text) equals text with the substitutions found by find_iter applied, and a searcher that finds nothing leaves the text unchanged.", "quantifier": "every searcher and text", "why_tests_cant": "All searchers.", "anchors": ["refex/search.py: rewrite_string"]}
{"id": "C47", "title": "$-template expansion", "statement": "ShTemplate substitution succeeds iff the template reads as text, $$, $name and ${name} with every named match bound to text; the result is the template with each $name replaced by the matched text (longest name), $$ by a dollar sign and everything else kept; templates whose declared variables are all bound never fail.", "quantifier": "every template string and every match dictionary", "why_tests_cant": "All strings and all environments.", "anchors": ["refex/formatting.py: ShTemplate"]}
{"id": "C48", "title": "The grammar of a pragma comment", "statement": "Pragma.from_text returns a pragma iff the text ends with 'tag: key=value, ...' (a whole-word tag, at least one declaration, optional trailing comma, spaces allowed around words), with exactly that tag, those pairs (a repeated key keeps the last value) and the given offsets; otherwise None. A text has at most one reading.", "quantifier": "every string", "why_tests_cant": "A backtracking regex over all strings.", "anchors": ["refex/parsed_file.py: Pragma.from_text", "refex/parsed_file.py: _PRAGMA_RE"]}
{"id": "C49", "title": "Command line safety switches", "statement": "A run started from the command line without -i/--in-place changes no file; without --force-enable it reports exactly what the combined, filtered searchers find minus what pragmas exclude; all patterns are searched for, --also/--noalso decide which files are looked at, -l prints exactly the names of the files with matches.", "quantifier": "every option set, searchers, files, failures", "why_tests_cant": "All combinations of options, searchers and files.", "anchors": ["refex/cli.py: runner_from_options"]}
{"id": "C50", "title": "Every node of a parsed file has its own identity", "statement": "In the tree of a parsed file no AST node or list occurs at two places, although ast.parse shares operator and context objects; apart from the identities of those objects the tree is the one that ast.parse returned.", "quantifier": "every tree in which only childless nodes and constants are shared", "why_tests_cant": "All trees and all sharing patterns.", "anchors": ["refex/python/matcher.py: _uniqueify_distinct_ast", "refex/python/matcher.py: parse_ast"]}
{"id": "C51", "title": "Combined matchers", "statement": "AllOf and the AST class matchers succeed iff every part succeeds, taken in the declared order on the node (or its fields), and the result carries the merged bindings and replacements of the parts; Unless succeeds exactly when its part does not, with no bindings; Bind adds exactly its own name to what its part binds.", "quantifier": "every matcher, node and environment", "why_tests_cant": "All matcher expressions and all trees.", "anchors": ["refex/python/matchers/base_matchers.py: AllOf, Unless, Bind", "refex/python/matchers/ast_matchers.py"]}
{"id": "C52", "title": "Metavariables of a pattern are read in exactly one way", "statement": "A pattern's metavariables are exactly the identifiers that directly follow a $ token (so never inside a string literal or comment); a $ not directly followed by an identifier is rejected with SyntaxError; there is only one reading, and the token stream is otherwise unchanged (up to the newline added for the tokenizer).", "quantifier": "every token stream", "why_tests_cant": "All token streams.", "anchors": ["refex/python/python_pattern.py: token_pattern"]}
{"id": "C53", "title": "Which AST patterns are accepted", "statement": "Constructing an ExprPattern/StmtPattern/ModulePattern succeeds iff its metavariables can be read, every restriction names one of its metavariables, the source (metavariables renamed) parses, every named metavariable occurs as a variable, and the source is one expression/one statement; otherwise KeyError (unknown restriction) or ValueError (syntax error, metavariable in a place where no variable is, wrong kind of source) is raised.", "quantifier": "every pattern text, restriction dict, tokenizer result and parse result", "why_tests_cant": "All patterns.", "anchors": ["refex/python/matchers/syntax_matchers.py: _verify_variables, _BaseAstPattern, _pull_expr, _pull_stmt"]}
{"id": "C54", "title": "Patterns made from functions", "statement": "StmtFromFunctionPattern matches like a statement pattern for the first statement of the function's body (after the docstring) whose metavariables are the function's parameters; construction fails if there is no such statement or it is pass.", "quantifier": "every function source tree, parameter list and candidate tree", "why_tests_cant": "All functions and all candidates.", "anchors": ["refex/python/matchers/syntax_matchers.py: StmtFromFunctionPattern"]}
{"id": "C55", "title": "A file that is no Python is skipped", "statement": "Searching a text that the parser rejects with a ParseError raises SkipFileError, so that the file is reported and skipped; every other outcome of the parser is passed through unchanged.", "quantifier": "every parser, text, path, matcher and iteration limit", "why_tests_cant": "All inputs and all outcomes of the parser.", "anchors": ["refex/search.py: BasePythonSearcher.parse"]}
{"id": "C56", "title": "A match is about the object that was tried", "statement": "The match object of a successful match is the one of the candidate object itself (or, for StringMatch and FileMatchesRegex, about no object at all), however the matcher is composed, provided that HasPrevSibling/HasNextSibling are not at its head.", "quantifier": "every matcher, object, context and state", "why_tests_cant": "All compositions of matchers.", "anchors": ["refex/python/matcher.py: MatchInfo", "refex/python/matchers/base_matchers.py", "refex/python/matchers/ast_matchers.py"]}
{"id": "C57", "title": "Bindings and replacements of a match are dictionaries of their own", "statement": "The bindings and the replacements of a match never contain a label twice, and a matcher without WithReplacements and RewriteFile asks for no replacements.", "quantifier": "every matcher, object, context and state", "why_tests_cant": "All compositions of matchers.", "anchors": ["refex/python/matcher.py: MatchInfo, merge_bindings, merge_replacements"]}
{"id": "C58", "title": "Colours are only decoration", "statement": "Rendering a substitution with colours on, for text and replacements without escape characters and carriage returns, shows on a terminal exactly the characters that are rendered with colours off, leaves the terminal in its normal state and never styles a line end; both succeed or both raise the same exception. In a diff, the characters in bright red are those that are removed and the ones in bright green those that are added.", "quantifier": "every text, substitution, match format and renderer state", "why_tests_cant": "All texts, styles and renderer histories; line splitting happens on text that already has escape sequences in it.", "anchors": ["refex/formatting.py: Renderer.render, Renderer._style, Renderer._style_for, Renderer._render_diff_block, create_diff"]}
{"id": "C59", "title": "Templates may only use what the matcher can bind", "statement": "A searcher for a matcher with templates is created exactly if every label that a template is given for and every variable of a template is one that the matcher can bind, or starts with two underscores; otherwise a ValueError is raised before anything is searched.", "quantifier": "every matcher, every dictionary of templates", "why_tests_cant": "All matchers and templates.", "anchors": ["refex/python/matchers/base_matchers.py: WithReplacements", "refex/search.py: BasePythonRewritingSearcher.from_matcher", "refex/formatting.py: template_variables"]}
{"id": "C60", "title": "Fixers: the first one that applies, with its own metadata", "statement": "A combined fixer is accepted exactly if each fixer's templates use only what it binds and each declares the node types it applies to. It reports the outermost, leftmost-first matches of any of the fixers; each is rewritten by the first fixer in the list that matches there and carries that fixer's message, URL, category and significance; only .py files are looked at. Each name can be registered once, '*' is all built-in fixers in order, unknown names are a ValueError.", "quantifier": "every list of fixers, every parsed file, every registry", "why_tests_cant": "All combinations of fixers and files.", "anchors": ["refex/fix/fixer.py: SimplePythonFixer.matcher_with_meta, CombiningPythonFixer", "refex/fix/find_fixer.py"]}
{"id": "C61", "title": "Regular expressions inside matchers", "statement": "MatchesRegex matches exactly if its submatcher matches something with a position, the regular expression matches the whole of that source text (or all of it but a final newline), and its named groups are compatible with the submatcher's bindings; it then adds the named groups that took part as bindings and changes nothing else. FileMatchesRegex matches every object or none, depending on whether the regular expression matches somewhere in the file.", "quantifier": "every regular expression (engine), submatcher, object and file", "why_tests_cant": "All engines, spans and group numberings; the final newline is an edge case of $.", "anchors": ["refex/python/matchers/base_matchers.py: MatchesRegex, FileMatchesRegex, _re_match_bindings"]}
{"id": "C62", "title": "HasComments and NoComments", "statement": "Of the matches of the submatcher that are pieces of source code, HasComments keeps exactly those with a comment token inside and NoComments exactly the others; everything else about the match is unchanged; matches that are no pieces of source code raise TypeError.", "quantifier": "every token stream, submatcher and object", "why_tests_cant": "All files and all positions of comments.", "anchors": ["refex/python/matchers/lexical_matchers.py: HasComments, NoComments"]}
{"id": "C63", "title": "WithTopLevelImport", "statement": "WithTopLevelImport behaves like its submatcher exactly if the last of the top level imports of the module gives it that name, and otherwise matches nothing; so a match implies that there is such an import. It does not notice that the name is bound again to something else.", "quantifier": "every module body, module name, variable name and submatcher", "why_tests_cant": "All sequences of import statements.", "anchors": ["refex/python/matchers/syntax_matchers.py: WithTopLevelImport, _TopLevelImports"]}
{"id": "C64", "title": "Simple filters", "statement": "TypeIs, InLines and Equals match the object itself, with no bindings, exactly if its class, line or value is the wanted one; StringMatch always matches; Rebind changes only the conflict and merge strategies of the bindings of its submatcher.", "quantifier": "every object, submatcher and state", "why_tests_cant": "All objects.", "anchors": ["refex/python/matchers/base_matchers.py: TypeIs, InLines, Equals, StringMatch, Rebind"]}
{"id": "C65", "title": "Which files a command line is about", "statement": "Each file argument stands for itself or, with -R, for exactly the regular files below it, each once; arguments are processed in order and each file is rewritten in place; files excluded by --excludefile, or not matching --includefile, are left out. The name displayed is a shortest one among path, absolute path and relative path.", "quantifier": "every directory tree, list of arguments and options", "why_tests_cant": "All directory trees.", "anchors": ["refex/cli.py: files_from_options, _shorten_path"]}
{"id": "C66", "title": "Patterns and templates are checked before anything is searched", "statement": "A command line is accepted exactly if its options are well formed and every template and every pattern is accepted by the language in use (by default the templates are in the language of the patterns); the first one that is refused with a ValueError ends the program with a usage message; --mode=fix takes the name of registered fixers and no substitutions.", "quantifier": "every command line and every parser for the languages", "why_tests_cant": "All command lines, and all outcomes of the parsers.", "anchors": ["refex/cli.py: runner_from_options, _parse_templates, _get_sub_parser, _fixer_from_pattern, _SEARCH_MODES, _SUB_MODES", "refex/search.py: default_compile_regex, from_pattern"]}
{"id": "C67", "title": "The program as a whole", "statement": "If the command line is not accepted nothing at all is read, shown or written. Without -i no file changes. With -i only files that the arguments stand for can change, and after a completed run each of them holds exactly its rewritten contents (or is as before if nothing was found), every file whose search crashed is reported with its contents, and such crashes neither stop the run nor are lost.", "quantifier": "every command line, file system, directory tree and searcher", "why_tests_cant": "All command lines, all file systems, all failures.", "anchors": ["refex/cli.py: main, run_cli, run, report_failures, RefexRunner.rewrite_files"]}
{"id": "C68", "title": "--mode=re --sub is re.sub", "statement": "With a regular expression and a regex template that does not use group 0, rewriting a string (with any number of iterations) gives exactly what re.sub gives: everything between matches is kept, each match is replaced by the template with what the groups matched (the empty string for groups that did not take part), empty and adjacent matches included. With -i the whole program runs to its end without reporting an error, and leaves re.sub's result in each file that is matched somewhere and every other file as it was.", "quantifier": "every regular expression engine, template, text, file system and set of files", "why_tests_cant": "All texts and all sequences of matches that finditer can report.", "anchors": ["refex/search.py: RegexSearcher", "refex/formatting.py: RegexTemplate, apply_substitutions", "refex/cli.py"]}
{"id": "C69", "title": "What an interruption leaves behind", "statement": "At whatever moment a run is interrupted, and however the operating system splits what is written: the files before some point in the list are finished, at most one file holds only the beginning of its new contents, and all other files are as they were. Without -i no file is ever opened for writing.", "quantifier": "every file system, list of files, searcher, way of buffering and every moment", "why_tests_cant": "All crash points.", "anchors": ["refex/cli.py: RefexRunner.write, RefexRunner.rewrite_files"]}
{"id": "C70", "title": "Search for a code pattern, replace by a template", "statement": "Rewriting a file with an expression or statement pattern and a non-empty template (one pass) changes exactly the outermost occurrences of the pattern: code that is the pattern's syntax tree with some code in the place of every metavariable, the same code in all places of one. Each of them becomes the template, filled in with that code, or stays where the template gives up; every character elsewhere stays. With a syntax-aware template the new code is the template's tree with the code put in. In files where neighbouring code does not overlap it always succeeds.", "quantifier": "every file and its syntax tree, pattern text, template", "why_tests_cant": "All programs and all patterns; a test sees a handful.", "anchors": ["refex/search.py: PyMatcherRewritingSearcher, BaseRewritingSearcher.find_iter_parsed, rewrite_string", "refex/python/matchers/syntax_matchers.py: ExprPattern, StmtPattern", "refex/python/python_pattern.py", "refex/python/syntactic_template.py"]}
{"id": "C71", "title": "Fixers made of a pattern and a template", "statement": "If a fixer is made of an expression pattern and an expression template (as the built-in idiom and unittest fixers are), then everything that it replaces when a set of fixers is run over a file is an occurrence of its pattern, and what it puts there is its template filled in with the code that the metavariables stand for, put in parentheses where the surrounding code needs them; every substitution found belongs to one of the fixers and carries its message and category.", "quantifier": "every list of fixers, pattern text, template text and file", "why_tests_cant": "All programs, all fixers.", "anchors": ["refex/fix/fixer.py: SimplePythonFixer, CombiningPythonFixer", "refex/fix/fixers/unittest_fixers.py", "refex/fix/fixers/idiom_fixers.py"]}
{"id": "C72", "title": "The built-in fixers keep the behaviour of the code", "statement": "Where a unittest fixer or an idiom fixer for negations replaces an expression, the new expression does the same as the old one in every state: the same effects, in the same order, and the same value or exception, except that the message of a failed assertion may differ. For the unnecessary comprehensions this is so if the variable is a plain name. (Given how Python evaluates comparisons, not, isinstance, list, set and the documented assertion methods.)", "quantifier": "every program, every place in it that a built-in fixer replaces, every interpreter obeying the stated laws of Python, every state", "why_tests_cant": "The fixers have tests with one literal each; the claim is about all operands, with any side effects.", "anchors": ["refex/fix/fixers/unittest_fixers.py: SIMPLE_PYTHON_FIXERS", "refex/fix/fixers/idiom_fixers.py: SIMPLE_PYTHON_FIXERS, idiom_fixer"]}
{"id": "C73", "title": "The correctness fixers correct what they say they correct, and nothing else", "statement": "Where a correctness fixer replaces code, the old code is the bug of its table entry in the circumstances given there (is / is not with a literal on the right; yaml.load and yaml.load_all of one argument in a file that imports yaml under that name; a string formatted with one parenthesised name or attribute; datetime.datetime.utcnow() and utcfromtimestamp(x)); the new code is the corrected form with the same code in the places of the variables; the message and category are those of the entry. Of a call of attr.ib only the argument default=[], default={} or default=set() is replaced, by the factory of the same kind.", "quantifier": "every program, every list of fixers that contains them, every place that one of them replaces", "why_tests_cant": "All programs; a test sees one literal per fixer, and cannot see that nothing else is ever replaced.", "anchors": ["refex/fix/fixers/correctness_fixers.py: SIMPLE_PYTHON_FIXERS, _attrib_mutable_default_fixer", "refex/fix/fixer.py: SimplePythonFixer, CombiningPythonFixer"]}
{"id": "C74", "title": "The built-in fixers miss no place", "statement": "Wherever in a file there is code that the table of the correctness fixers describes, in the circumstances given there (or a mutable default=[], {} or set() of attr.ib), or an assertion, negation or copying comprehension that the unittest and idiom fixers rewrite, a search with these fixers (and any others that raise no exception) yields a substitution that covers this code: of the code itself, or of code around it that one of the fixers matches; the only exception is code for which a replacement template raised RewriteError.", "quantifier": "every program, every list of fixers that contains them, every place in the program, whatever else was matched before it", "why_tests_cant": "All programs and all positions; a missed place leaves no trace a test could look at.", "anchors": ["refex/fix/fixers/correctness_fixers.py: SIMPLE_PYTHON_FIXERS", "refex/fix/fixers/unittest_fixers.py: SIMPLE_PYTHON_FIXERS", "refex/fix/fixers/idiom_fixers.py: SIMPLE_PYTHON_FIXERS", "refex/fix/fixer.py: CombiningPythonFixer.find_iter_parsed", "refex/python/matchers/syntax_matchers.py: ExprPattern"]}
{"id": "C75", "title": "Mutable constants are made immutable", "statement": "Where a mutable-constant fixer replaces something it is a whole statement C = {...}, C = {... for ...} or C = set(x), where the text of C consists of capital letters, underscores and digits only; the new text is the statement that assigns frozenset of the same thing to the same C, reported as not significant under idioms.mutable-constant. No such statement is missed: a search with these fixers (and any others that raise no exception) yields a substitution that covers it, unless a template raised RewriteError for it.", "quantifier": "every program, every list of fixers that contains them, every statement in the program", "why_tests_cant": "All programs; a test sees one literal per fixer and cannot see that nothing else is touched and nothing missed.", "anchors": ["refex/fix/fixers/idiom_fixers.py: _mutable_constant_fixer, _MUTABLE_CONSTANT_FIXERS, _CONSTANT_MATCHER", "refex/python/matchers/syntax_matchers.py: StmtPattern", "refex/python/syntactic_template.py: PythonStmtTemplate"]}
{"id": "C76", "title": "logging.error of a caught exception becomes logging.exception, everywhere and only there", "statement": "Where the first logging fixer replaces something, it is the callee of a call logging.error(..., x, ...) that has no exc_info= argument and whose innermost enclosing except clause binds the exception as x; nothing but the callee is replaced, by logging.exception (in parentheses if its place asks for them), reported as significant under idioms.logging.exception. No such call is missed: a search with this fixer (and any others that raise no exception) yields a substitution that covers it, unless a template raised RewriteError for it.", "quantifier": "every program, every list of fixers that contains it, every call in the program", "why_tests_cant": "All programs and all nestings of try statements; a test sees one except clause and one call.", "anchors": ["refex/fix/fixers/idiom_fixers.py: _in_exception_handler, _LOGGING_FIXERS", "refex/python/matchers/syntax_matchers.py: HasFirstAncestor", "refex/python/matchers/base_matchers.py: Contains, Unless, Bind", "refex/python/matcher.py: BindConflict.MERGE_IDENTICAL"]}
{"id": "C77", "title": "logging.exception of a caught exception describes the failed call, everywhere and only there", "statement": "Where the second logging fixer replaces something, it is a whole statement logging.exception(x) whose innermost enclosing except clause binds the exception as x, and the new text is a call of logging.exception with a valid string literal that names the call whose failure is being handled (the try body being just that call); it is reported as not significant under idioms.logging.exception. No such statement is missed, unless a template raised RewriteError for it.", "quantifier": "every program, every list of fixers that contains it, every statement in the program", "why_tests_cant": "All programs, all nestings of try statements and all sources of the called expression; a test sees one.", "anchors": ["refex/fix/fixers/idiom_fixers.py: _LOGGING_FIXERS, _in_exception_handler", "refex/python/matchers/syntax_matchers.py: HasFirstAncestor", "refex/python/matchers/base_matchers.py: MatchesRegex, Unless, ItemsAre", "refex/formatting.py: ShTemplate"]}
{"id": "C78", "title": "A whole-file rewriter turns the file into exactly what it asks for", "statement": "rewrite_string with a searcher made from a RewriteFile matcher (whose rewrite method does not depend on the node it is shown) returns exactly the text the method returns; None (or MatchError) leaves the file unchanged, other exceptions are passed on; the number of iterations does not matter. With ExternalCommand the command gets the file as UTF-8 on its standard input and the file becomes what it prints, byte for byte if there are no carriage returns (otherwise with normalised line endings); a command that fails, or prints no UTF-8, raises an exception and yields no new text; a command that copies its input changes nothing.", "quantifier": "every file, every prefix, every rewriter or command, every diff algorithm that keeps difflib's contract, every number of iterations", "why_tests_cant": "All files, commands and diffs; a test runs cat and echo.", "anchors": ["refex/python/matchers/extern_matchers.py: RewriteFile, ExternalCommand", "refex/python/matcher.py: MatchInfo.from_diff, find_iter", "refex/search.py: rewrite_string, BasePythonRewritingSearcher"]}
{"id": "C79", "title": "The default fixers together: everything replaced is explained, nothing is missed, nothing else changes", "statement": "With the default fixers selected by name ('*', 'correctness', 'idiom' or 'unittest'), everything that a substitution replaces is one of: an equivalent assertion, negation or comprehension (C72), a correction of the bug table (C73), a factory in attr.ib (C73), a frozen constant (C75), logging.exception instead of logging.error (C76), a described failed call (C77), and it is reported with the message, category and significance of its kind. With '*', no place in the file that any of them looks for is missed. The text after one round of rewriting is the original with exactly these edits.", "quantifier": "every program, every place in it, every selection of default fixers", "why_tests_cant": "All programs; the fixers are combined into one search in which the first match hides the others, which tests of single fixers do not see.", "anchors": ["refex/fix/find_fixer.py: from_pattern, register_fixers, register_default_fixers", "refex/fix/fixer.py: CombiningPythonFixer", "refex/fix/fixers/*: SIMPLE_PYTHON_FIXERS", "refex/search.py: rewrite_string"]}
{"id": "C80", "title": "Rewriting in several rounds makes only proposed edits", "statement": "Whatever the number of iterations, the text that rewrite_string returns comes from the original by rounds of edits only, each of which the searcher proposed for the text, or for the part of it that it read on its own, as it was in that round; nothing else in the text changes. With the default fixers (pragmas considered or not), every edit made in any round is one of the explained rewrites of C79.", "quantifier": "every file, every searcher whose findings are well-formed, every number of iterations, every selection of default fixers", "why_tests_cant": "All numbers of rounds and all texts that arise in between, which no test looks at.", "anchors": ["refex/search.py: rewrite_string, find_iter, _fixed_point, _compile_substitutions, PragmaSuppressedSearcher", "refex/substitution.py: Substitution.relative_to_span", "refex/fix/find_fixer.py: from_pattern"]}
{"id": "C81", "title": "Fix mode changes files only by proposed edits, and loses none", "statement": "refex --mode=fix -i with the default fixers, for any number of patterns, rounds (--iterate) and other options: after the run each of the files it is about is as it was, or holds the encoding of a text that comes from its old text by rounds of explained rewrites (C79) only; no other file has changed; and no file is lost.", "quantifier": "every command line in fix mode, every set of files, every content, every number of rounds", "why_tests_cant": "All combinations of files, contents, patterns and rounds, and what is on disk when a run stops.", "anchors": ["refex/cli.py: main, run, runner_from_options, RefexRunner.rewrite_files, RefexRunner.write", "refex/search.py: rewrite_string, find_iter, _fixed_point, CombinedSearcher, AlsoRegexpSearcher, PragmaSuppressedSearcher", "refex/python/matcher.py: AstNavigator.get_simple_node", "refex/fix/find_fixer.py: from_pattern"]}
{"id": "C82", "title": "Syntax error messages say why and show where", "statement": "Whenever a pattern or template is not valid Python, the message begins with a line that gives the reason (or says that it is unknown). If the place is unknown, all of the code follows, each line indented by four columns. Otherwise the line follows with a caret exactly under the character at which the error is, after all of the code if it has several lines.", "quantifier": "every syntax error (reason, line and column given or not) and every source", "why_tests_cant": "All sources and columns; a test looks at one message.", "anchors": ["refex/python/error_strings.py: user_syntax_error, _indent"]}
{"id": "C83", "title": "The report of crashed searches reproduces the run", "statement": "After a run in which searches crashed, the tool that reads the report prints a command line that a shell splits into exactly the arguments of the run, and for exactly the files whose search crashed the name, the traceback and the name of a new file whose contents are those of the searched file, with line endings normalised.", "quantifier": "every list of arguments, every set of files and contents, every set of crashes", "why_tests_cant": "All argument lists, with any quotes, spaces and dollar signs in them, and all file contents.", "anchors": ["refex/rxerr_debug.py: main", "refex/cli.py: report_failures, RefexRunner.rewrite_files"]}
{"id": "C84", "title": "Examples of fixers show what they do", "statement": "The example of a fixer is the one that was given; otherwise, for a bare pattern, it is the pattern with each metavariable replaced by its name, which the pattern matches, and the example of its replacement is the template with each metavariable replaced by its name. The file of all examples consists of these, one after the other, and is not made if one is missing.", "quantifier": "every fixer, every pattern and template, every list of fixers", "why_tests_cant": "All patterns; tests look at the examples of the built-in fixers only.", "anchors": ["refex/fix/fixer.py: SimplePythonFixer.example_fragment, SimplePythonFixer.example_replacement, ImmutableDefaultDict", "refex/fix/generate_example.py: example_source"]}
{"id": "C85", "title": "Every match and binding is a piece of the file", "statement": "Exactly the nodes with a first and a last token have a place in the file, except import aliases and argument lists without positional arguments; the place is from the start of the first to the end of the last token. Whatever a matcher (of any combination, without RewriteFile) is tried on in a file: if the match it gives, or anything it has bound, has a place, the place is inside of the file and the string of the match is exactly what is written there (or it is an unused group of a regular expression). Matches of plain strings have that string and no place.", "quantifier": "every matcher, every file with any syntax tree, every node", "why_tests_cant": "All combinations of matchers and all trees; unit tests check the strings of single matches.", "anchors": ["refex/python/matcher.py: create_match, _is_lexical_match, LexicalMatch, MatchInfo, BoundValue, merge_bindings, find_iter", "refex/match.py: SpanMatch.from_text, StringMatch, ObjectMatch", "refex/python/matchers/base_matchers.py", "refex/python/matchers/ast_matchers.py", "refex/python/matchers/lexical_matchers.py"]}
{"id": "C86", "title": "What a Python search finds lies in the file, and rewriting makes exactly those edits", "statement": "Whatever the matcher, the templates (removals of statements included) and the number of rounds, every place that a search of a Python file reports is a place in the file: it starts at or after the beginning, ends at or after its start and not after the end. If rewriting succeeds, the result is the text with exactly the proposed edits, which do not overlap, and nothing else changed. The same holds for what refex -i leaves in every file after a completed run in the modes expr, stmt and py; all other files are as they were.", "quantifier": "every matcher (with regexes that report places in what they search), every template, every Python file, every number of rounds, every command line", "why_tests_cant": "All files and matchers; a place outside of the file would only be seen by whoever loses text.", "anchors": ["refex/search.py: PyExprRewritingSearcher, PyStmtRewritingSearcher, BasePythonRewritingSearcher.find_dicts_parsed, _sanitize_removed_stmt, key_span_for_dict, find_iter, rewrite_string", "refex/cli.py: main, run, RefexRunner.rewrite_files", "refex/python/matcher.py: find_iter, create_match", "refex/formatting.py: apply_substitutions"]}
{"id": "C87", "title": "A matcher expression means the matcher it spells", "statement": "In --mode=py, the names that can be called are exactly those of the matcher classes that are registered as safe, each alone or behind the name of its module; a call succeeds exactly if the arguments fit the parameters of the class (none twice, none unknown, required ones there, names to bind well-formed, regexes and patterns that compile), and then makes the matcher that the class and the arguments say: submatchers that are not given are Anything(), and values that are no matchers stand for equality with them (except in AllOf and AnyOf, which do not accept them). The whole expression is evaluated from the inside out and from left to right. No expression can make a matcher that rewrites anything by itself.", "quantifier": "every expression, every table of ast classes, every call with every list of arguments", "why_tests_cant": "All expressions; each class has its own constructor and tests use a few of the combinations of arguments.", "anchors": ["refex/python/evaluate.py: compile_matcher, add_module", "refex/python/semiliteral_eval.py: Evaluator", "refex/python/matcher.py: coerce, ImplicitEquals, submatcher_attrib, register_enum, safe_to_eval", "refex/python/matchers/base_matchers.py", "refex/python/matchers/ast_matchers.py", "refex/python/matchers/syntax_matchers.py", "refex/python/matchers/lexical_matchers.py", "refex/search.py: PyMatcherRewritingSearcher.from_pattern"]}
{"id": "C88", "title": "The pattern modes are shorthands for matcher expressions", "statement": "A search with --mode=py.expr P (or --mode=py.stmt P) is the search with --mode=py and the expression ExprPattern('P') (or StmtPattern('P')): with the same templates both are accepted, or both are refused with the same exception; a run of the program is the same in every effect - files, output, exit status, reported failures - if the templates are in the same language.", "quantifier": "every pattern, spelling of the call (quoting, name of the module, name of the parameter), list of pairs of patterns and templates, other options, files and output device", "why_tests_cant": "the two modes take different ways through the program - one compiles the pattern directly, the other parses and evaluates an expression and looks up the class in a table - and tests compare them on a few patterns", "anchors": ["refex/search.py: PyMatcherRewritingSearcher.from_pattern, PyExprRewritingSearcher.from_pattern, PyStmtRewritingSearcher.from_pattern", "refex/python/evaluate.py: compile_matcher, add_module", "refex/python/semiliteral_eval.py: Eval", "refex/cli.py: runner_from_options"]}
{"id": "C89", "title": "The documented example of a custom matcher adds sums", "statement": "SumMatcher (the example for writing a matcher of one's own) matches every expression made of + and two or more integer constants, and binds $sum to the decimal text of their total, however the expression is nested; a single constant does not match; whatever has any other syntax in it is passed over without an error.", "quantifier": "all syntax trees, all sums of integers of any depth and length", "why_tests_cant": "Tests add up two or three literals; the claim is about sums of every shape and length, and about every tree that is none.", "anchors": ["examples/example_custom_matcher.py: SumMatcher._match"]}
