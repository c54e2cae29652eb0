{
 "C06": "C06_maximality_refuted records that the result need not be maximal, as the property says.",
 "C34": "parse_ast and the searcher are arbitrary functions. 'At most max_iterations' counts rewrites; the step-by-step theorem needs, for a single batch of several substitutions, that each of them replaces something (see C03).",
 "C42": "Regex engines are arbitrary predicates; the meaning of the joined approximate regex is not modelled.",
 "C36": "The search is an arbitrary function and disks, permissions arbitrary. Output paths are assumed pairwise distinct and not read after being written (no_clash). C36_apply_failure_empties_the_file_refuted: a failure while applying (not while searching) empties the file and aborts the run.",
 "C22": "ast.parse and tokenize are arbitrary functions (the tokens are assumed to be laid out as the tokenizer does: spelled).",
 "C23": "Restrictions are arbitrary matchers that say yes or no without side effects and bindings (restriction_ok). 'Same code' is what C24 says.",
 "C61": "The regular expression engine is a relation R; a compiled pattern is assumed to return some reading that $ allows (compiled_dollar). C61_fullmatch_refuted: the documented fullmatch semantics fails for spans that end with a newline.",
 "C63": "C63_any_import_refuted: 'there is a top level import' is not enough, only the last import of a module counts.",
 "C66": "The parsers are arbitrary functions. C66_no_pattern_refuted: if no pattern is given at all, a TypeError or AttributeError escapes instead of a usage message.",
 "C72": "laws (PyCode.v) are the assumed evaluation rules of Python, understood is the assumed tokenization and parsing of the table's texts; both are hypotheses of the theorem, shown satisfiable. Behaviour is that of the expression before and after (c1 is the filled-in template as Python parses it on its own; putting it into the file is put_in, C31/C70).",
 "C73": "understood (tokenization and parsing of the table's texts) and call_grammar (fields of Call and keyword) are hypotheses about Python, shown satisfiable. That the corrected code is better is not claimed; what is replaced, when, by what, and with which message is.",
 "C74": "parses_evaluated (contexts of the parser's trees), well_positioned (spans lie in the file) and understood are hypotheses about Python's parser, shown satisfiable. Other fixers in the list must not raise (decisive); C74_decisive shows that for all built-in ones of the two theorems. A RewriteError of a template (its result does not parse) is the stated exception.",
 "C83": "Temporary names, highlighting and tracebacks are arbitrary functions; json.dump followed by json.load is taken to be the identity; output paths as in C36 (no_clash). A first word of the form a=b, keywords and aliases are not treated by the splitter."
}