"""Writes properties.jsonl (kept as a script so that the list is easy to edit)."""
import json, os
P = []
def p(id, title, statement, quantifier, why, anchors):
    P.append(dict(id=id, title=title, statement=statement, quantifier=quantifier,
                  why_tests_cant=why, anchors=anchors))

p("C01", "Applying substitutions edits exactly the replaced spans",
  "When apply_substitutions(text, subs) returns, the result is the original text in which every replaced span (span of a label that has a replacement) holds exactly its replacement text and every character outside the replaced spans is kept, in order and unchanged.",
  "every text, every list of Substitution objects with any number of labels and replacements whose spans lie in the text",
  "The set of span layouts (touching, empty, nested labels without replacements, several labels per substitution, several substitutions) is unbounded; tests sample a handful.",
  ["refex/formatting.py: apply_substitutions", "refex/formatting.py: _rewrite_to_replacements", "refex/formatting.py: _substitution_to_replacement", "refex/formatting.py: concatenate_replacements"])
p("C02", "Overlap detection is exact",
  "apply_substitutions raises ValueError if and only if, with each substitution's replaced spans put in (start, end) order and the substitutions put in order of first replaced offset (ties in the given order), some replaced span is inverted or starts before the previous one ended. Substitutions whose replaced regions do not meet never fail; nested or crossing replaced regions always do.",
  "every text and every list of substitutions",
  "Both directions (no false alarms, no silent corruption) quantify over all span layouts and all orders.",
  ["refex/formatting.py: concatenate_replacements", "refex/formatting.py: apply_substitutions"])
p("C03", "A substitution without replacements never changes or breaks a rewrite",
  "A search result that replaces nothing (a mere match) has no effect on apply_substitutions: the text is rewritten as if it were not in the list.",
  "every text, every list of substitutions, every position of a replacement-free substitution in that list",
  "Interaction depends on order and on where the other replacements lie (offset 0 is special).",
  ["refex/formatting.py: concatenate_replacements", "refex/formatting.py: apply_substitutions"])
p("C04", "relative_to_span describes the same edit on a slice",
  "sub.relative_to_span(a, b) is None exactly when some matched span is not inside [a, b]; otherwise applying it to text[a:b] and putting the result back between text[:a] and text[b:] is the same as applying sub to the whole text (same failures too), and all other attributes are unchanged.",
  "every text, every substitution, every slice 0 <= a <= b <= len(text)",
  "Commutation of two offset computations over all layouts.",
  ["refex/substitution.py: Substitution.relative_to_span"])
p("C05", "disjoint_substitutions returns non-overlapping results in order",
  "disjoint_substitutions(subs) returns a sub-collection of its input, sorted by primary span, in which no two primary spans overlap; if the input already is sorted and non-overlapping it is returned unchanged; hence it is idempotent.",
  "every finite list of substitutions with well-formed primary spans",
  "Requires all permutations and all overlap patterns.",
  ["refex/substitution.py: disjoint_substitutions", "refex/search.py: CombinedSearcher.find_iter_parsed"])
p("C06", "disjoint_substitutions drops a result only because of a kept or later-dropped overlapping neighbour",
  "A substitution is dropped only if it overlaps another one of the input. (It is NOT guaranteed that the result is maximal, i.e. that each dropped substitution overlaps a kept one.)",
  "every finite list of substitutions with well-formed primary spans",
  "Chains of overlaps of arbitrary length.",
  ["refex/substitution.py: disjoint_substitutions"])
p("C07", "labeled_spans is a faithful partition",
  "The spans produced by labeled_spans are contiguous, start at the smallest start and stop at the largest end of the matched spans, and each non-empty piece carries exactly the labels whose span covers it (no label begins or ends strictly inside a piece). It fails only if some span is inverted.",
  "every substitution: any number of labels, nested, crossing, empty or identical spans",
  "All interval arrangements.",
  ["refex/substitution.py: labeled_spans"])
p("C08", "The diff preview shows the change that will be made",
  "Reading as_diff(sub) with the original text of each piece gives the original text of the matched range; reading it with the replacement text of each DiffSpan gives the text that apply_substitutions produces for that range.",
  "every text and every substitution with well-formed, pairwise disjoint replaced spans",
  "All arrangements of labels with and without replacements; touching labels are the corner.",
  ["refex/substitution.py: as_diff", "refex/formatting.py: apply_substitutions"])
p("C09", "line_expanded_span covers whole lines",
  "line_expanded_span(s, a, b) contains the requested span, begins at the start of s or just after a newline, ends at the end of s or just before a newline, and is the smallest such span.",
  "every string, every start/end including None, negative and inverted",
  "All positions of newlines around the span.",
  ["refex/formatting.py: line_expanded_span", "refex/formatting.py: _line_expanded_left", "refex/formatting.py: _line_expanded_right"])
p("C10", "Splitting a diff into blocks loses nothing and keeps whole lines",
  "The blocks of a diff, concatenated, read the same text before and after as the unsplit diff; blocks not marked as diffs contain no DiffSpan; blocks are cut only right after a newline of an unchanged piece, so each line touched by a change is in one block.",
  "every text and every sequence of labeled and diff spans",
  "All placements of newlines with respect to the pieces.",
  ["refex/formatting.py: _sub_diff_blocks", "refex/formatting.py: _partition_labeled_span", "refex/formatting.py: _split_labeled_span_after"])
p("C11", "Excluded ranges suppress exactly the substitutions they cover",
  "suppress_exclude_bytes keeps a substitution iff its primary span intersects no excluded range listed for the root category or for a dot-separated prefix of its category; kept ones stay in order.",
  "every list of substitutions, every category string, every table of ranges",
  "All categories depths and all interval intersections.",
  ["refex/substitution.py: suppress_exclude_bytes", "refex/substitution.py: _sub_matches_ranges", "refex/substitution.py: Substitution.all_categories"])
p("C12", "Only well-formed substitutions can be constructed",
  "Constructing a Substitution succeeds iff the category is None or a dot-separated list of non-empty, whitespace-free names not starting with a dash, the primary label is a matched label, and every replaced label is a matched label; otherwise ValueError.",
  "every category string, label set and replacement set",
  "A regular language over all strings.",
  ["refex/substitution.py: Substitution._validate", "refex/substitution.py: _CATEGORY_NAME_REGEX"])
p("C13", "disable/enable pragmas: exact disabled ranges",
  "For each category, the ranges excluded by pragmas are the ranges of the disable pragmas naming that category, each one cut off at the first enable pragma of the same category that starts inside it; nothing else is excluded, and pylint pragmas only affect pylint.* categories.",
  "every sequence of pragmas",
  "All sequences and nestings of pragmas.",
  ["refex/search.py: _pragma_excluded_ranges", "refex/search.py: _pragma_ranges"])
p("C14", "Scope of a pragma",
  "A pragma comment that shares its line with code applies to exactly that line; a pragma on its own line applies from the comment to the end of the enclosing indented block (or the end of the file).",
  "every well-nested token stream",
  "All block nestings.",
  ["refex/python/matcher.py: _pragmas"])
p("C15", "Merging bindings is complete and order independent",
  "merge_bindings returns a binding for exactly the labels bound on either side, keeps one-sided ones untouched, resolves shared ones by their conflict strategy, and fails if strategies differ, or the strategy rejects the pair; the outcome does not depend on the iteration order of labels.",
  "every pair of binding dictionaries",
  "All pairs of dictionaries and all iteration orders of a hash set.",
  ["refex/python/matcher.py: merge_bindings", "refex/python/matcher.py: BindMerge", "refex/python/matcher.py: BindConflict"])
p("C16", "Merging replacements never loses or overwrites one",
  "merge_replacements returns the union when the two sides have no label in common, and raises MatchError otherwise (even if they agree on the shared label).",
  "every pair of replacement dictionaries",
  "All pairs.",
  ["refex/python/matcher.py: merge_replacements"])
p("C17", "type_filter is sound",
  "If a matcher declares a type filter, it never matches an object whose type is outside it.",
  "every matcher term and every candidate in every tree",
  "Induction over all matcher expressions.",
  ["refex/python/matchers/base_matchers.py: type_filter definitions", "refex/python/matcher.py: Matcher.match"])
p("C18", "AnyOf takes the first alternative that matches",
  "AnyOf(m1..mn) returns the result of the first alternative in order that matches (alternatives ruled out by their type filter can be skipped without changing the result), and fails iff none matches.",
  "every list of alternatives, every candidate",
  "All matcher expressions and candidate types.",
  ["refex/python/matchers/base_matchers.py: AnyOf"])
p("C19", "Declared bind_variables cover all bindings",
  "A successful match binds only names in the matcher's declared bind_variables.",
  "every matcher built from the modelled combinators, every candidate",
  "Induction over all matcher expressions.",
  ["refex/python/matchers/base_matchers.py: bind_variables", "refex/python/matcher.py: Matcher.bind_variables"])
p("C20", "find_iter finds every outermost match once, in source order",
  "find_iter yields exactly the matches found by a left-to-right preorder walk of the tree that does not descend into a matched or rejected-by-exception node: no match is reported twice, no reported match is inside another, every node not under a reported match was tried.",
  "every tree, every matcher",
  "All tree shapes, explicit stack.",
  ["refex/python/matcher.py: find_iter"])
p("C21", "Once matches at most once per file",
  "During one find_iter run, a given Once(m) succeeds in at most one of the reported matches, and a failed candidate leaves no trace on it.",
  "every tree, every matcher containing Once",
  "History property over a whole traversal.",
  ["refex/python/matchers/base_matchers.py: Once", "refex/python/matcher.py: MatchContext", "refex/python/matcher.py: find_iter"])
p("C22", "A literal pattern matches exactly the same syntax",
  "ExprPattern/StmtPattern/ModulePattern without metavariables match a node iff it has the same syntax tree (ignoring whitespace/comments and load/store context of names), where literal values are compared with Python's ==.",
  "every pattern tree and every candidate tree",
  "All pairs of trees.",
  ["refex/python/matchers/syntax_matchers.py: _ast_pattern"])
p("C23", "A repeated metavariable must match the same code everywhere",
  "If a pattern uses $x more than once, a match requires all occurrences to be equivalent ASTs, and the binding is the last occurrence in pattern order.",
  "every pattern and every candidate tree",
  "All patterns with repeated variables.",
  ["refex/python/matchers/syntax_matchers.py: ExprPattern", "refex/python/matcher.py: BindMerge"])
p("C24", "AST equivalence is an equivalence for code",
  "The equivalence used for repeated metavariables is structural equality of ASTs ignoring position and load/store context.",
  "every pair of trees",
  "All pairs of trees.",
  ["refex/python/matcher.py: _ast_equivalent / ast_equivalent"])
p("C25", "Navigation agrees with the tree",
  "AstNavigator's parent, previous and next sibling are the actual ones: the parent of each child of a node/list is that node/list, siblings are adjacent list elements.",
  "every tree without shared objects",
  "All tree shapes.",
  ["refex/python/matcher.py: _AstNavigator"])
p("C26", "Structural matchers look where they say",
  "HasChild/HasDescendant/IsOrHasDescendant/HasParent/HasAncestor/IsOrHasAncestor(m) succeed iff m matches some child / descendant / (self or descendant) / the parent / ancestor / (self or ancestor), and return the first such in the documented order.",
  "every tree, every submatcher, every candidate",
  "All tree shapes; recursion of arbitrary depth.",
  ["refex/python/matchers/syntax_matchers.py: HasParent", "refex/python/matchers/syntax_matchers.py: HasAncestor", "refex/python/matchers/syntax_matchers.py: HasChild", "refex/python/matchers/syntax_matchers.py: HasDescendant"])
p("C27", "Collection matchers",
  "ItemsAre matches iff lengths agree and each item matches; HasItem(i, m) iff the item exists and matches; Contains(m) iff some item matches; bindings of the parts are merged.",
  "every sequence and every list of submatchers",
  "All lengths and all submatchers.",
  ["refex/python/matchers/base_matchers.py: ItemsAre", "refex/python/matchers/base_matchers.py: HasItem", "refex/python/matchers/base_matchers.py: Contains"])
p("C28", "Glob behaves like a shell glob",
  "Glob of fixed blocks separated by stars matches a sequence iff the sequence splits as block1 gap block2 gap ... blockN with blocks anchored at the ends where there is no star.",
  "every sequence and every glob",
  "All splits of all sequences.",
  ["refex/python/matchers/base_matchers.py: Glob"])
p("C29", "Template metavariables are renamed to fresh identifiers",
  "Renaming $x to an identifier picks a name that occurs nowhere else in the template, distinct for distinct metavariables, and every anonymous $_ gets its own; renaming always terminates.",
  "every token stream",
  "Freshness against all identifiers the user may have used.",
  ["refex/python/syntactic_template.py: _remap_macro_variables / python_pattern"])
p("C30", "Syntactic template substitution replaces exactly the variables",
  "Substituting into a tokenised template replaces each variable token by its value and keeps every other token and the whitespace between; it fails (KeyError) iff some variable is missing.",
  "every template, every environment",
  "All templates.",
  ["refex/python/syntactic_template.py: _LexicalTemplate"])
p("C31", "Syntax-aware templates keep the meaning",
  "A PythonExprTemplate/PythonStmtTemplate/PythonTemplate filled in for a match parses to the template's syntax tree with the matched code in the places of the metavariables (the same tree as with every substituted part in parentheses); parentheses are dropped from left to right exactly where that does not change the tree. If the match is an expression inside of another expression or of a simple statement, the replacement is put in parentheses exactly if the surrounding source would otherwise read differently, and in its context it is read as the replacement expression in the place of the match; otherwise it is used as it is. Whatever cannot be done so raises.",
  "every template, every bound matches, every matched node in every parsed file, every parser and tokenizer behaviour",
  "All precedence combinations, all contexts; the parser is arbitrary.",
  ["refex/python/syntactic_template.py: _BasePythonTemplate.substitute_match, _parenthesized, _matchers_for_matches; PythonTemplate, PythonExprTemplate, PythonStmtTemplate"])
p("C32", "From a match to a Substitution",
  "A rewriting searcher yields, for each match dictionary whose rewrite succeeds, a Substitution with the spans of the matches that have a location, one replacement per template label present in the match, and message/url/category/significant taken from the special __ labels, which never remain as replacements; rewrite errors skip that match only.",
  "every match dictionary and template dictionary",
  "All combinations of labels present/absent/locationless.",
  ["refex/search.py: BaseRewritingSearcher.find_iter_parsed", "refex/formatting.py: rewrite_templates"])
p("C33", "Removing statements never leaves an empty block",
  "When statements of a block are removed one after the other in source order, if all of them are removed from a non-module block the last removal becomes 'pass', and the removed ranges do not overlap each other or the statements that stay (within one block always; between different blocks if no semicolon follows the last statement of the inner block, where the code does overlap).",
  "every block length and every subset of removed statements",
  "All subsets and orders of removals.",
  ["refex/search.py: BasePythonRewritingSearcher._sanitize_removed_stmt"])
p("C34", "Fixed-point iteration is bounded and equals step-by-step rewriting",
  "With max_iterations <= 1 substitutions are passed through; otherwise the simple node's text is rewritten at most max_iterations times, each intermediate text parses, and the single merged substitution rewrites the node to the text obtained by applying the steps one after the other; if the first rewrite does not parse nothing is yielded.",
  "every searcher, every text, every number of iterations",
  "Histories of arbitrary searchers.",
  ["refex/search.py: find_iter", "refex/search.py: _fixed_point"])
p("C35", "Merged metadata",
  "A merged substitution is significant iff one of its parts is; its URL/message come only from significant parts (or from all if none is); one shared url is kept, one shared message is kept verbatim.",
  "every non-empty list of substitutions",
  "All combinations.",
  ["refex/search.py: _compile_substitutions"])
p("C36", "Which files are touched",
  "In dry-run mode no file is ever written. Otherwise only files for which there are matches are written, each with the original contents rewritten by its substitutions, and a failure while searching one file does not prevent the others from being processed and is reported.",
  "every list of files, every file contents, every searcher, every failure pattern",
  "All interleavings of failures and successes across files.",
  ["refex/cli.py: RefexRunner.rewrite_files", "refex/cli.py: RefexRunner.write", "refex/cli.py: RefexRunner.get_matches"])
p("C37", "Text outside the matches survives reading and writing back",
  "Reading a UTF-8 file and writing it back after a rewrite preserves the bytes outside the rewritten spans.",
  "every file contents",
  "All byte strings.",
  ["refex/cli.py: RefexRunner.read", "refex/cli.py: RefexRunner.write"])
p("C38", "Whole-file rewriters produce the requested text",
  "MatchInfo.from_diff(before, after) gives replacements that, applied to before, give after.",
  "every pair of strings, every line-diff algorithm satisfying difflib.Differ's contract",
  "All pairs of texts.",
  ["refex/python/matcher.py: MatchInfo.from_diff"])
p("C39", "Pairing of --match with --sub on the command line",
  "Each --match makes one search-replace pair; each --sub/--named-sub belongs to the closest preceding --match (to the first pattern if there is none before it). A pattern takes either one --sub or --named-sub options name=replacement with distinct names; everything else is a usage error, nothing is silently dropped or overwritten.",
  "every sequence of command line options",
  "All option sequences.",
  ["refex/cli.py: _AddMatchAction / _AddSubAction / _AddNamedSubAction"])
p("C40", "Positional pattern",
  "The first positional argument is the pattern when no --match was given, all other positionals are files.",
  "every argument list",
  "All argument lists.",
  ["refex/cli.py: _parse_args_leftovers"])
p("C41", "--mode=py expressions cannot run arbitrary code",
  "Evaluating a matcher expression only calls callables in the allowed table with literal arguments; any other syntax is rejected.",
  "every expression AST",
  "Security property over all expressions.",
  ["refex/python/semiliteral_eval.py: Eval"])
p("C42", "Searcher combinators",
  "AlsoRegexpSearcher gives results only if all `also` regexes and none of the `also_not` regexes are found; CombinedSearcher's results are the disjoint union of its parts; its approximate regex exists iff all parts have one.",
  "every searcher combination",
  "All combinations.",
  ["refex/search.py: AlsoRegexpSearcher", "refex/search.py: CombinedSearcher"])
p("C43", "Stable styling",
  "A Renderer gives the same label set the same style in every call, and with color off the rendering contains the text only.",
  "every sequence of render calls",
  "Histories of stateful rendering.",
  ["refex/formatting.py: Renderer._style_for", "refex/formatting.py: Renderer._render_diff_block"])
p("C44", "Uncoloured diff output is exactly a line diff of the rewrite",
  "Renderer(color=False).render of a substitution with replacements prints the lines spanned by the match: removing '+' lines and stripping the prefix gives the original lines, removing '-' lines gives the rewritten lines.",
  "every text and substitution for which the preview is faithful (C08)",
  "All newline placements.",
  ["refex/formatting.py: Renderer.render"])
p("C45", "string.Template / regex templates only read existing groups",
  "RegexSearcher rejects at construction any template that references a group not in the regex; every accepted template can be filled in on every match; a group that took no part in the match reads as the empty string and is never a destination.",
  "every set of templates and every group layout",
  "All combinations.",
  ["refex/search.py: RegexSearcher", "refex/formatting.py: template_variables"])
p("C46", "rewrite_string end to end",
  "search.rewrite_string(searcher, text) equals text with the substitutions found by find_iter applied, and a searcher that finds nothing leaves the text unchanged.",
  "every searcher and text",
  "All searchers.",
  ["refex/search.py: rewrite_string"])
p("C47", "$-template expansion",
  "ShTemplate substitution succeeds iff the template reads as text, $$, $name and ${name} with every named match bound to text; the result is the template with each $name replaced by the matched text (longest name), $$ by a dollar sign and everything else kept; templates whose declared variables are all bound never fail.",
  "every template string and every match dictionary",
  "All strings and all environments.",
  ["refex/formatting.py: ShTemplate"])
p("C48", "The grammar of a pragma comment",
  "Pragma.from_text returns a pragma iff the text ends with 'tag: key=value, ...' (a whole-word tag, at least one declaration, optional trailing comma, spaces allowed around words), with exactly that tag, those pairs (a repeated key keeps the last value) and the given offsets; otherwise None. A text has at most one reading.",
  "every string",
  "A backtracking regex over all strings.",
  ["refex/parsed_file.py: Pragma.from_text", "refex/parsed_file.py: _PRAGMA_RE"])
p("C49", "Command line safety switches",
  "A run started from the command line without -i/--in-place changes no file; without --force-enable it reports exactly what the combined, filtered searchers find minus what pragmas exclude; all patterns are searched for, --also/--noalso decide which files are looked at, -l prints exactly the names of the files with matches.",
  "every option set, searchers, files, failures",
  "All combinations of options, searchers and files.",
  ["refex/cli.py: runner_from_options"])
p("C50", "Every node of a parsed file has its own identity",
  "In the tree of a parsed file no AST node or list occurs at two places, although ast.parse shares operator and context objects; apart from the identities of those objects the tree is the one that ast.parse returned.",
  "every tree in which only childless nodes and constants are shared",
  "All trees and all sharing patterns.",
  ["refex/python/matcher.py: _uniqueify_distinct_ast", "refex/python/matcher.py: parse_ast"])
p("C51", "Combined matchers",
  "AllOf and the AST class matchers succeed iff every part succeeds, taken in the declared order on the node (or its fields), and the result carries the merged bindings and replacements of the parts; Unless succeeds exactly when its part does not, with no bindings; Bind adds exactly its own name to what its part binds.",
  "every matcher, node and environment",
  "All matcher expressions and all trees.",
  ["refex/python/matchers/base_matchers.py: AllOf, Unless, Bind", "refex/python/matchers/ast_matchers.py"])
p("C52", "Metavariables of a pattern are read in exactly one way",
  "A pattern's metavariables are exactly the identifiers that directly follow a $ token (so never inside a string literal or comment); a $ not directly followed by an identifier is rejected with SyntaxError; there is only one reading, and the token stream is otherwise unchanged (up to the newline added for the tokenizer).",
  "every token stream",
  "All token streams.",
  ["refex/python/python_pattern.py: token_pattern"])
p("C53", "Which AST patterns are accepted",
  "Constructing an ExprPattern/StmtPattern/ModulePattern succeeds iff its metavariables can be read, every restriction names one of its metavariables, the source (metavariables renamed) parses, every named metavariable occurs as a variable, and the source is one expression/one statement; otherwise KeyError (unknown restriction) or ValueError (syntax error, metavariable in a place where no variable is, wrong kind of source) is raised.",
  "every pattern text, restriction dict, tokenizer result and parse result",
  "All patterns.",
  ["refex/python/matchers/syntax_matchers.py: _verify_variables, _BaseAstPattern, _pull_expr, _pull_stmt"])
p("C54", "Patterns made from functions",
  "StmtFromFunctionPattern matches like a statement pattern for the first statement of the function's body (after the docstring) whose metavariables are the function's parameters; construction fails if there is no such statement or it is pass.",
  "every function source tree, parameter list and candidate tree",
  "All functions and all candidates.",
  ["refex/python/matchers/syntax_matchers.py: StmtFromFunctionPattern"])
p("C55", "A file that is no Python is skipped",
  "Searching a text that the parser rejects with a ParseError raises SkipFileError, so that the file is reported and skipped; every other outcome of the parser is passed through unchanged.",
  "every parser, text, path, matcher and iteration limit",
  "All inputs and all outcomes of the parser.",
  ["refex/search.py: BasePythonSearcher.parse"])
p("C56", "A match is about the object that was tried",
  "The match object of a successful match is the one of the candidate object itself (or, for StringMatch and FileMatchesRegex, about no object at all), however the matcher is composed, provided that HasPrevSibling/HasNextSibling are not at its head.",
  "every matcher, object, context and state",
  "All compositions of matchers.",
  ["refex/python/matcher.py: MatchInfo", "refex/python/matchers/base_matchers.py", "refex/python/matchers/ast_matchers.py"])
p("C57", "Bindings and replacements of a match are dictionaries of their own",
  "The bindings and the replacements of a match never contain a label twice, and a matcher without WithReplacements and RewriteFile asks for no replacements.",
  "every matcher, object, context and state",
  "All compositions of matchers.",
  ["refex/python/matcher.py: MatchInfo, merge_bindings, merge_replacements"])

p("C58", "Colours are only decoration",
  "Rendering a substitution with colours on, for text and replacements without escape characters and carriage returns, shows on a terminal exactly the characters that are rendered with colours off, leaves the terminal in its normal state and never styles a line end; both succeed or both raise the same exception. In a diff, the characters in bright red are those that are removed and the ones in bright green those that are added.",
  "every text, substitution, match format and renderer state",
  "All texts, styles and renderer histories; line splitting happens on text that already has escape sequences in it.",
  ["refex/formatting.py: Renderer.render, Renderer._style, Renderer._style_for, Renderer._render_diff_block, create_diff"])
p("C59", "Templates may only use what the matcher can bind",
  "A searcher for a matcher with templates is created exactly if every label that a template is given for and every variable of a template is one that the matcher can bind, or starts with two underscores; otherwise a ValueError is raised before anything is searched.",
  "every matcher, every dictionary of templates", "All matchers and templates.",
  ["refex/python/matchers/base_matchers.py: WithReplacements", "refex/search.py: BasePythonRewritingSearcher.from_matcher", "refex/formatting.py: template_variables"])
p("C60", "Fixers: the first one that applies, with its own metadata",
  "A combined fixer is accepted exactly if each fixer's templates use only what it binds and each declares the node types it applies to. It reports the outermost, leftmost-first matches of any of the fixers; each is rewritten by the first fixer in the list that matches there and carries that fixer's message, URL, category and significance; only .py files are looked at. Each name can be registered once, '*' is all built-in fixers in order, unknown names are a ValueError.",
  "every list of fixers, every parsed file, every registry", "All combinations of fixers and files.",
  ["refex/fix/fixer.py: SimplePythonFixer.matcher_with_meta, CombiningPythonFixer", "refex/fix/find_fixer.py"])
p("C61", "Regular expressions inside matchers",
  "MatchesRegex matches exactly if its submatcher matches something with a position, the regular expression matches the whole of that source text (or all of it but a final newline), and its named groups are compatible with the submatcher's bindings; it then adds the named groups that took part as bindings and changes nothing else. FileMatchesRegex matches every object or none, depending on whether the regular expression matches somewhere in the file.",
  "every regular expression (engine), submatcher, object and file", "All engines, spans and group numberings; the final newline is an edge case of $.",
  ["refex/python/matchers/base_matchers.py: MatchesRegex, FileMatchesRegex, _re_match_bindings"])
p("C62", "HasComments and NoComments",
  "Of the matches of the submatcher that are pieces of source code, HasComments keeps exactly those with a comment token inside and NoComments exactly the others; everything else about the match is unchanged; matches that are no pieces of source code raise TypeError.",
  "every token stream, submatcher and object", "All files and all positions of comments.",
  ["refex/python/matchers/lexical_matchers.py: HasComments, NoComments"])
p("C63", "WithTopLevelImport",
  "WithTopLevelImport behaves like its submatcher exactly if the last of the top level imports of the module gives it that name, and otherwise matches nothing; so a match implies that there is such an import. It does not notice that the name is bound again to something else.",
  "every module body, module name, variable name and submatcher", "All sequences of import statements.",
  ["refex/python/matchers/syntax_matchers.py: WithTopLevelImport, _TopLevelImports"])
p("C64", "Simple filters",
  "TypeIs, InLines and Equals match the object itself, with no bindings, exactly if its class, line or value is the wanted one; StringMatch always matches; Rebind changes only the conflict and merge strategies of the bindings of its submatcher.",
  "every object, submatcher and state", "All objects.",
  ["refex/python/matchers/base_matchers.py: TypeIs, InLines, Equals, StringMatch, Rebind"])
p("C65", "Which files a command line is about",
  "Each file argument stands for itself or, with -R, for exactly the regular files below it, each once; arguments are processed in order and each file is rewritten in place; files excluded by --excludefile, or not matching --includefile, are left out. The name displayed is a shortest one among path, absolute path and relative path.",
  "every directory tree, list of arguments and options", "All directory trees.",
  ["refex/cli.py: files_from_options, _shorten_path"])
p("C66", "Patterns and templates are checked before anything is searched",
  "A command line is accepted exactly if its options are well formed and every template and every pattern is accepted by the language in use (by default the templates are in the language of the patterns); the first one that is refused with a ValueError ends the program with a usage message; --mode=fix takes the name of registered fixers and no substitutions.",
  "every command line and every parser for the languages", "All command lines, and all outcomes of the parsers.",
  ["refex/cli.py: runner_from_options, _parse_templates, _get_sub_parser, _fixer_from_pattern, _SEARCH_MODES, _SUB_MODES", "refex/search.py: default_compile_regex, from_pattern"])
p("C67", "The program as a whole",
  "If the command line is not accepted nothing at all is read, shown or written. Without -i no file changes. With -i only files that the arguments stand for can change, and after a completed run each of them holds exactly its rewritten contents (or is as before if nothing was found), every file whose search crashed is reported with its contents, and such crashes neither stop the run nor are lost.",
  "every command line, file system, directory tree and searcher", "All command lines, all file systems, all failures.",
  ["refex/cli.py: main, run_cli, run, report_failures, RefexRunner.rewrite_files"])
p("C68", "--mode=re --sub is re.sub",
  "With a regular expression and a regex template that does not use group 0, rewriting a string (with any number of iterations) gives exactly what re.sub gives: everything between matches is kept, each match is replaced by the template with what the groups matched (the empty string for groups that did not take part), empty and adjacent matches included. With -i the whole program runs to its end without reporting an error, and leaves re.sub's result in each file that is matched somewhere and every other file as it was.",
  "every regular expression engine, template, text, file system and set of files", "All texts and all sequences of matches that finditer can report.",
  ["refex/search.py: RegexSearcher", "refex/formatting.py: RegexTemplate, apply_substitutions", "refex/cli.py"])
p("C69", "What an interruption leaves behind",
  "At whatever moment a run is interrupted, and however the operating system splits what is written: the files before some point in the list are finished, at most one file holds only the beginning of its new contents, and all other files are as they were. Without -i no file is ever opened for writing.",
  "every file system, list of files, searcher, way of buffering and every moment", "All crash points.",
  ["refex/cli.py: RefexRunner.write, RefexRunner.rewrite_files"])
p("C70", "Search for a code pattern, replace by a template",
  "Rewriting a file with an expression or statement pattern and a non-empty template (one pass) changes exactly the outermost occurrences of the pattern: code that is the pattern's syntax tree with some code in the place of every metavariable, the same code in all places of one. Each of them becomes the template, filled in with that code, or stays where the template gives up; every character elsewhere stays. With a syntax-aware template the new code is the template's tree with the code put in. In files where neighbouring code does not overlap it always succeeds.",
  "every file and its syntax tree, pattern text, template", "All programs and all patterns; a test sees a handful.",
  ["refex/search.py: PyMatcherRewritingSearcher, BaseRewritingSearcher.find_iter_parsed, rewrite_string", "refex/python/matchers/syntax_matchers.py: ExprPattern, StmtPattern", "refex/python/python_pattern.py", "refex/python/syntactic_template.py"])
p("C71", "Fixers made of a pattern and a template",
  "If a fixer is made of an expression pattern and an expression template (as the built-in idiom and unittest fixers are), then everything that it replaces when a set of fixers is run over a file is an occurrence of its pattern, and what it puts there is its template filled in with the code that the metavariables stand for, put in parentheses where the surrounding code needs them; every substitution found belongs to one of the fixers and carries its message and category.",
  "every list of fixers, pattern text, template text and file", "All programs, all fixers.",
  ["refex/fix/fixer.py: SimplePythonFixer, CombiningPythonFixer", "refex/fix/fixers/unittest_fixers.py", "refex/fix/fixers/idiom_fixers.py"])
p("C72", "The built-in fixers keep the behaviour of the code",
  "Where a unittest fixer or an idiom fixer for negations replaces an expression, the new expression does the same as the old one in every state: the same effects, in the same order, and the same value or exception, except that the message of a failed assertion may differ. For the unnecessary comprehensions this is so if the variable is a plain name. (Given how Python evaluates comparisons, not, isinstance, list, set and the documented assertion methods.)",
  "every program, every place in it that a built-in fixer replaces, every interpreter obeying the stated laws of Python, every state", "The fixers have tests with one literal each; the claim is about all operands, with any side effects.",
  ["refex/fix/fixers/unittest_fixers.py: SIMPLE_PYTHON_FIXERS", "refex/fix/fixers/idiom_fixers.py: SIMPLE_PYTHON_FIXERS, idiom_fixer"])
p("C73", "The correctness fixers correct what they say they correct, and nothing else",
  "Where a correctness fixer replaces code, the old code is the bug of its table entry in the circumstances given there (is / is not with a literal on the right; yaml.load and yaml.load_all of one argument in a file that imports yaml under that name; a string formatted with one parenthesised name or attribute; datetime.datetime.utcnow() and utcfromtimestamp(x)); the new code is the corrected form with the same code in the places of the variables; the message and category are those of the entry. Of a call of attr.ib only the argument default=[], default={} or default=set() is replaced, by the factory of the same kind.",
  "every program, every list of fixers that contains them, every place that one of them replaces", "All programs; a test sees one literal per fixer, and cannot see that nothing else is ever replaced.",
  ["refex/fix/fixers/correctness_fixers.py: SIMPLE_PYTHON_FIXERS, _attrib_mutable_default_fixer", "refex/fix/fixer.py: SimplePythonFixer, CombiningPythonFixer"])
p("C74", "The built-in fixers miss no place",
  "Wherever in a file there is code that the table of the correctness fixers describes, in the circumstances given there (or a mutable default=[], {} or set() of attr.ib), or an assertion, negation or copying comprehension that the unittest and idiom fixers rewrite, a search with these fixers (and any others that raise no exception) yields a substitution that covers this code: of the code itself, or of code around it that one of the fixers matches; the only exception is code for which a replacement template raised RewriteError.",
  "every program, every list of fixers that contains them, every place in the program, whatever else was matched before it", "All programs and all positions; a missed place leaves no trace a test could look at.",
  ["refex/fix/fixers/correctness_fixers.py: SIMPLE_PYTHON_FIXERS", "refex/fix/fixers/unittest_fixers.py: SIMPLE_PYTHON_FIXERS", "refex/fix/fixers/idiom_fixers.py: SIMPLE_PYTHON_FIXERS", "refex/fix/fixer.py: CombiningPythonFixer.find_iter_parsed", "refex/python/matchers/syntax_matchers.py: ExprPattern"])
p("C75", "Mutable constants are made immutable",
  "Where a mutable-constant fixer replaces something it is a whole statement C = {...}, C = {... for ...} or C = set(x), where the text of C consists of capital letters, underscores and digits only; the new text is the statement that assigns frozenset of the same thing to the same C, reported as not significant under idioms.mutable-constant. No such statement is missed: a search with these fixers (and any others that raise no exception) yields a substitution that covers it, unless a template raised RewriteError for it.",
  "every program, every list of fixers that contains them, every statement in the program", "All programs; a test sees one literal per fixer and cannot see that nothing else is touched and nothing missed.",
  ["refex/fix/fixers/idiom_fixers.py: _mutable_constant_fixer, _MUTABLE_CONSTANT_FIXERS, _CONSTANT_MATCHER", "refex/python/matchers/syntax_matchers.py: StmtPattern", "refex/python/syntactic_template.py: PythonStmtTemplate"])
p("C76", "logging.error of a caught exception becomes logging.exception, everywhere and only there",
  "Where the first logging fixer replaces something, it is the callee of a call logging.error(..., x, ...) that has no exc_info= argument and whose innermost enclosing except clause binds the exception as x; nothing but the callee is replaced, by logging.exception (in parentheses if its place asks for them), reported as significant under idioms.logging.exception. No such call is missed: a search with this fixer (and any others that raise no exception) yields a substitution that covers it, unless a template raised RewriteError for it.",
  "every program, every list of fixers that contains it, every call in the program", "All programs and all nestings of try statements; a test sees one except clause and one call.",
  ["refex/fix/fixers/idiom_fixers.py: _in_exception_handler, _LOGGING_FIXERS", "refex/python/matchers/syntax_matchers.py: HasFirstAncestor", "refex/python/matchers/base_matchers.py: Contains, Unless, Bind", "refex/python/matcher.py: BindConflict.MERGE_IDENTICAL"])
p("C77", "logging.exception of a caught exception describes the failed call, everywhere and only there",
  "Where the second logging fixer replaces something, it is a whole statement logging.exception(x) whose innermost enclosing except clause binds the exception as x, and the new text is a call of logging.exception with a valid string literal that names the call whose failure is being handled (the try body being just that call); it is reported as not significant under idioms.logging.exception. No such statement is missed, unless a template raised RewriteError for it.",
  "every program, every list of fixers that contains it, every statement in the program", "All programs, all nestings of try statements and all sources of the called expression; a test sees one.",
  ["refex/fix/fixers/idiom_fixers.py: _LOGGING_FIXERS, _in_exception_handler", "refex/python/matchers/syntax_matchers.py: HasFirstAncestor", "refex/python/matchers/base_matchers.py: MatchesRegex, Unless, ItemsAre", "refex/formatting.py: ShTemplate"])
p("C78", "A whole-file rewriter turns the file into exactly what it asks for",
  "rewrite_string with a searcher made from a RewriteFile matcher (whose rewrite method does not depend on the node it is shown) returns exactly the text the method returns; None (or MatchError) leaves the file unchanged, other exceptions are passed on; the number of iterations does not matter. With ExternalCommand the command gets the file as UTF-8 on its standard input and the file becomes what it prints, byte for byte if there are no carriage returns (otherwise with normalised line endings); a command that fails, or prints no UTF-8, raises an exception and yields no new text; a command that copies its input changes nothing.",
  "every file, every prefix, every rewriter or command, every diff algorithm that keeps difflib's contract, every number of iterations", "All files, commands and diffs; a test runs cat and echo.",
  ["refex/python/matchers/extern_matchers.py: RewriteFile, ExternalCommand", "refex/python/matcher.py: MatchInfo.from_diff, find_iter", "refex/search.py: rewrite_string, BasePythonRewritingSearcher"])
p("C79", "The default fixers together: everything replaced is explained, nothing is missed, nothing else changes",
  "With the default fixers selected by name ('*', 'correctness', 'idiom' or 'unittest'), everything that a substitution replaces is one of: an equivalent assertion, negation or comprehension (C72), a correction of the bug table (C73), a factory in attr.ib (C73), a frozen constant (C75), logging.exception instead of logging.error (C76), a described failed call (C77), and it is reported with the message, category and significance of its kind. With '*', no place in the file that any of them looks for is missed. The text after one round of rewriting is the original with exactly these edits.",
  "every program, every place in it, every selection of default fixers", "All programs; the fixers are combined into one search in which the first match hides the others, which tests of single fixers do not see.",
  ["refex/fix/find_fixer.py: from_pattern, register_fixers, register_default_fixers", "refex/fix/fixer.py: CombiningPythonFixer", "refex/fix/fixers/*: SIMPLE_PYTHON_FIXERS", "refex/search.py: rewrite_string"])
p("C80", "Rewriting in several rounds makes only proposed edits",
  "Whatever the number of iterations, the text that rewrite_string returns comes from the original by rounds of edits only, each of which the searcher proposed for the text, or for the part of it that it read on its own, as it was in that round; nothing else in the text changes. With the default fixers (pragmas considered or not), every edit made in any round is one of the explained rewrites of C79.",
  "every file, every searcher whose findings are well-formed, every number of iterations, every selection of default fixers", "All numbers of rounds and all texts that arise in between, which no test looks at.",
  ["refex/search.py: rewrite_string, find_iter, _fixed_point, _compile_substitutions, PragmaSuppressedSearcher", "refex/substitution.py: Substitution.relative_to_span", "refex/fix/find_fixer.py: from_pattern"])
p("C81", "Fix mode changes files only by proposed edits, and loses none",
  "refex --mode=fix -i with the default fixers, for any number of patterns, rounds (--iterate) and other options: after the run each of the files it is about is as it was, or holds the encoding of a text that comes from its old text by rounds of explained rewrites (C79) only; no other file has changed; and no file is lost.",
  "every command line in fix mode, every set of files, every content, every number of rounds", "All combinations of files, contents, patterns and rounds, and what is on disk when a run stops.",
  ["refex/cli.py: main, run, runner_from_options, RefexRunner.rewrite_files, RefexRunner.write", "refex/search.py: rewrite_string, find_iter, _fixed_point, CombinedSearcher, AlsoRegexpSearcher, PragmaSuppressedSearcher", "refex/python/matcher.py: AstNavigator.get_simple_node", "refex/fix/find_fixer.py: from_pattern"])
p("C82", "Syntax error messages say why and show where",
  "Whenever a pattern or template is not valid Python, the message begins with a line that gives the reason (or says that it is unknown). If the place is unknown, all of the code follows, each line indented by four columns. Otherwise the line follows with a caret exactly under the character at which the error is, after all of the code if it has several lines.",
  "every syntax error (reason, line and column given or not) and every source", "All sources and columns; a test looks at one message.",
  ["refex/python/error_strings.py: user_syntax_error, _indent"])
p("C83", "The report of crashed searches reproduces the run",
  "After a run in which searches crashed, the tool that reads the report prints a command line that a shell splits into exactly the arguments of the run, and for exactly the files whose search crashed the name, the traceback and the name of a new file whose contents are those of the searched file, with line endings normalised.",
  "every list of arguments, every set of files and contents, every set of crashes", "All argument lists, with any quotes, spaces and dollar signs in them, and all file contents.",
  ["refex/rxerr_debug.py: main", "refex/cli.py: report_failures, RefexRunner.rewrite_files"])
p("C84", "Examples of fixers show what they do",
  "The example of a fixer is the one that was given; otherwise, for a bare pattern, it is the pattern with each metavariable replaced by its name, which the pattern matches, and the example of its replacement is the template with each metavariable replaced by its name. The file of all examples consists of these, one after the other, and is not made if one is missing.",
  "every fixer, every pattern and template, every list of fixers", "All patterns; tests look at the examples of the built-in fixers only.",
  ["refex/fix/fixer.py: SimplePythonFixer.example_fragment, SimplePythonFixer.example_replacement, ImmutableDefaultDict", "refex/fix/generate_example.py: example_source"])
p("C85", "Every match and binding is a piece of the file",
  "Exactly the nodes with a first and a last token have a place in the file, except import aliases and argument lists without positional arguments; the place is from the start of the first to the end of the last token. Whatever a matcher (of any combination, without RewriteFile) is tried on in a file: if the match it gives, or anything it has bound, has a place, the place is inside of the file and the string of the match is exactly what is written there (or it is an unused group of a regular expression). Matches of plain strings have that string and no place.",
  "every matcher, every file with any syntax tree, every node", "All combinations of matchers and all trees; unit tests check the strings of single matches.",
  ["refex/python/matcher.py: create_match, _is_lexical_match, LexicalMatch, MatchInfo, BoundValue, merge_bindings, find_iter", "refex/match.py: SpanMatch.from_text, StringMatch, ObjectMatch", "refex/python/matchers/base_matchers.py", "refex/python/matchers/ast_matchers.py", "refex/python/matchers/lexical_matchers.py"])
p("C86", "What a Python search finds lies in the file, and rewriting makes exactly those edits",
  "Whatever the matcher, the templates (removals of statements included) and the number of rounds, every place that a search of a Python file reports is a place in the file: it starts at or after the beginning, ends at or after its start and not after the end. If rewriting succeeds, the result is the text with exactly the proposed edits, which do not overlap, and nothing else changed. The same holds for what refex -i leaves in every file after a completed run in the modes expr, stmt and py; all other files are as they were.",
  "every matcher (with regexes that report places in what they search), every template, every Python file, every number of rounds, every command line", "All files and matchers; a place outside of the file would only be seen by whoever loses text.",
  ["refex/search.py: PyExprRewritingSearcher, PyStmtRewritingSearcher, BasePythonRewritingSearcher.find_dicts_parsed, _sanitize_removed_stmt, key_span_for_dict, find_iter, rewrite_string", "refex/cli.py: main, run, RefexRunner.rewrite_files", "refex/python/matcher.py: find_iter, create_match", "refex/formatting.py: apply_substitutions"])
p("C87", "A matcher expression means the matcher it spells",
  "In --mode=py, the names that can be called are exactly those of the matcher classes that are registered as safe, each alone or behind the name of its module; a call succeeds exactly if the arguments fit the parameters of the class (none twice, none unknown, required ones there, names to bind well-formed, regexes and patterns that compile), and then makes the matcher that the class and the arguments say: submatchers that are not given are Anything(), and values that are no matchers stand for equality with them (except in AllOf and AnyOf, which do not accept them). The whole expression is evaluated from the inside out and from left to right. No expression can make a matcher that rewrites anything by itself.",
  "every expression, every table of ast classes, every call with every list of arguments", "All expressions; each class has its own constructor and tests use a few of the combinations of arguments.",
  ["refex/python/evaluate.py: compile_matcher, add_module", "refex/python/semiliteral_eval.py: Evaluator", "refex/python/matcher.py: coerce, ImplicitEquals, submatcher_attrib, register_enum, safe_to_eval", "refex/python/matchers/base_matchers.py", "refex/python/matchers/ast_matchers.py", "refex/python/matchers/syntax_matchers.py", "refex/python/matchers/lexical_matchers.py", "refex/search.py: PyMatcherRewritingSearcher.from_pattern"])
p("C88", "The pattern modes are shorthands for matcher expressions",
  "A search with --mode=py.expr P (or --mode=py.stmt P) is the search with --mode=py and the expression ExprPattern('P') (or StmtPattern('P')): with the same templates both are accepted, or both are refused with the same exception; a run of the program is the same in every effect - files, output, exit status, reported failures - if the templates are in the same language.",
  "every pattern, spelling of the call (quoting, name of the module, name of the parameter), list of pairs of patterns and templates, other options, files and output device",
  "the two modes take different ways through the program - one compiles the pattern directly, the other parses and evaluates an expression and looks up the class in a table - and tests compare them on a few patterns",
  ["refex/search.py: PyMatcherRewritingSearcher.from_pattern, PyExprRewritingSearcher.from_pattern, PyStmtRewritingSearcher.from_pattern", "refex/python/evaluate.py: compile_matcher, add_module", "refex/python/semiliteral_eval.py: Eval", "refex/cli.py: runner_from_options"])
p("C89", "The documented example of a custom matcher adds sums",
  "SumMatcher (the example for writing a matcher of one's own) matches every expression made of + and two or more integer constants, and binds $sum to the decimal text of their total, however the expression is nested; a single constant does not match; whatever has any other syntax in it is passed over without an error.",
  "all syntax trees, all sums of integers of any depth and length",
  "Tests add up two or three literals; the claim is about sums of every shape and length, and about every tree that is none.",
  ["examples/example_custom_matcher.py: SumMatcher._match"])

here = os.path.dirname(os.path.abspath(__file__))
with open(os.path.join(here, '..', 'properties.jsonl'), 'w') as f:
    for x in P:
        f.write(json.dumps(x) + '\n')
print(len(P))
