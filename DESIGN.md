# Formal model of ssbr/refex in Rocq (Coq 8.16.1)

## 1. Layout

`rocq/theories/`:

* `Py.v` – Python prelude: `text` (list of code points), exact slice semantics,
  `str.find/rfind/split/splitlines/strip/partition`, dictionaries as
  insertion-ordered association lists, stable sort, `res` (a value or an exception).
* `<Area>.v` – the model (definitions only; every definition cites /repo file:lines
  and says what it simplifies).
* `<Area>Spec.v` – small declarative specifications, independent of the model's helpers.
* `<Area>Proofs.v` – lemmas.
* `Props<Area>.v` – `Theorem Cnn_… . Proof. exact lemma. Qed.`, `Print Assumptions`,
  and an `Example Cnn_…_nonvacuous` that computes a concrete case which meets the
  hypotheses.
* `Samples.v`, `SampleTrees.v` – the concrete texts and syntax trees used by the examples.

`properties.jsonl` and `MANIFEST.json` are generated by `tools/gen_properties.py` and
`tools/gen_manifest.py`; `tools/mutate.py` runs the seeded-bug experiments recorded in
`seeded/LOG.jsonl`.

## 2. Trusted base

* **Coq's kernel** (8.16.1), including its `vm_compute` reduction (used for examples and
  refutation witnesses).
* **Axioms: none.** `Print Assumptions` prints `Closed under the global context` for
  every theorem named in MANIFEST.json. The checker (`coqchk`) also lists seven constants
  of `Coq.ssr.ssrunder.Under_rel` (`Under_rel`, `Under_rel_from_rel`, `Under_relE`,
  `under_rel_done`, `over_rel`, `over_rel_done`, `Over_rel`): these are fields of an opaque
  module of Coq's own standard library that is loaded through the stdlib tactics; no theorem here
  depends on them.
* No `Axiom`, `Parameter`, section-less `Variable`, `Admitted`, functors, or disabled
  checks are used. Section variables are closed by the end of the section: each closed theorem
  quantifies over them.
* **The reading of the code.** That a definition means the same as the cited Python lines is by
  inspection. The model is a transcription, function by function; what was
  changed is in the comment of each definition and in section 4.

## 3. Conventions

* Exceptions are values (`Err e`); generators are the list of what they yield, or the first
  exception (plus the prefix yielded before it where it matters: find_iter, the runner).
* Fuelled functions return `Err OutOfFuel`; theorems show enough fuel exists, or hold
  for every amount of fuel that does not run out.
* External components (the Python parser, asttokens, tokenize's scanner, the `re`
  engine, difflib, the filesystem, argparse, Python's object model in `evaluate`) are Section
  variables or fields of an environment record: the closed theorem quantifies over
  *every* behaviour of them, restricted only by hypotheses visible in its statement.
* A user-level property that the faithful model violates gets a `…_refuted` theorem with a
  computed witness, and a `…_partial` theorem with the exact extra hypothesis under which
  it holds. Such a property has status `partial`, since the full claim cannot be proved.

## 4. What is modelled

| model | code |
|-------|------|
| `Subst.v` | `substitution.py` 53-387, all: `Substitution` (validation, `primary_span`, `all_categories`, `relative_to_span`, `as_applied`…), `LabeledSpan`, `labeled_spans`, `suppress_exclude_bytes`, `disjoint_substitutions` |
| `Fmt.v` | `formatting.py` 87-438 (`line_expanded_span`, `_sub_diff_blocks`, diff spans, `Renderer`), 692-744 (`apply_substitutions`, `_apply_…`) |
| `Template.v`, `ConstTemplate.v` | `formatting.py` 493-689 (templates, `rewrite_templates`) |
| `Regex.v`, `Pragmas.v` | the fixed regular expressions for categories and pragmas (recognisers proved equal to grammars); `search.py` pragma parsing, `PragmaSuppressedSearcher` |
| `Ast.v` | `match.py` 63-109, `matcher.py` 278-500 (matches, `LexicalMatch`, `create_match`, `ast_equivalent`), 1036-1175 (`AstNavigator`), `parsed_file.py` 30-89 |
| `Uniq.v` | `matcher.py` 1177-1203 |
| `FromDiff.v` | `matcher.py` 773-831 |
| `Matcher.v` | `matcher.py` 513-770, 891-1013, 1348-1388; `base_matchers.py`, `ast_matchers.py` 56-208, `extern_matchers.py` 38-63 (`RewriteFile`), `lexical_matchers.py` 40-104, `syntax_matchers.py` 560-874 |
| `PatTok.v`, `Pattern.v` | `python_pattern.py`; `syntax_matchers.py` 128-524; `tokenize.untokenize` |
| `PyTemplate.v` | `syntactic_template.py` 56-370 |
| `Search.v` | `search.py` 144-705, 917-931 |
| `Removal.v` | `search.py` 740-885 |
| `Fixer.v` | `fix/fixer.py`, `fix/find_fixer.py` |
| `BuiltinFixers.v` | `fix/fixers/unittest_fixers.py` (all), `fix/fixers/idiom_fixers.py` 41-71, 386-402 (`idiom_fixer` and its entries), `fixer.py` 164-178 |
| `CorrectnessFixers.v` | `fix/fixers/correctness_fixers.py` (all) |
| `IdiomFixers.v` | `fix/fixers/idiom_fixers.py` 38, 73-82, 188-402 (mutable constants, logging, the list of all) |
| `External.v` | `extern_matchers.py` 63-90 (`ExternalCommand`) |
| `Eval.v` | `semiliteral_eval.py`, `evaluate.py` |
| `SumMatcher.v` | `examples/example_custom_matcher.py` (all); `ast.walk`, `ast.iter_child_nodes`; `str(sum(..))` is an oracle |
| `Compile.v` | the constructors of all matcher classes as --mode=py calls them, `coerce`, `ImplicitEquals`, the enum constants, the table of `evaluate.py`, `PyMatcherRewritingSearcher.from_pattern` |
| `Codec.v`, `Runner.v`, `Cli.v` | `cli.py` 88-258, 263-341, 694-747, 846-897 |
| `Interrupt.v` | `cli.py` 176-183, 211-250 again, one disk operation at a time |
| `Main.v` | `cli.py` 57-59, 338-542, 855-940 (from parsed options to the end of the program), `search.default_compile_regex`, the `from_pattern`s |
| `ErrorStrings.v` | `error_strings.py` |
| `Rxerr.v` | `rxerr_debug.py`, `shlex.quote`, the report of `cli.py` 422-456 (JSON taken as faithful) |
| `Examples.v` | `fixer.py` 98-107, 133-178, `generate_example.py` |

### Abstractions (also said at each definition)

* `ast.parse`, asttokens, `difflib.Differ`, user regular expressions (`cr_match`,
  `cr_search`, `cr_groups`), `sre_parse` templates, the scanner of `tokenize`,
  `textwrap.dedent`, devices: oracles. `untokenize` is modelled (Python 3.11).
* Python objects have an explicit identity (`VNode i`, `VList id`); identities of characters
  obtained by indexing strings come from `e_char_id`/`e_byte_id`.
* Numbers are codes (integer n has code 2n); what is used is Python's `==` on constants.
* The `Once` matcher's mutable per-file state is threaded through the evaluator.
* `RecursivelyWrapped` with an arbitrary Python lambda is not modelled (its instances are); `HasItem` takes
  integer indices only; labels passed to `with_replacements` are strings.
* Aliasing of the fixer registry and of replacement dictionaries is not modelled.

### Not modelled

`parsed_file.line_numbers`; argument-parser construction, usage text, profiling, logging and process
plumbing in `cli.py` (`_add_rewriter_arguments`, `argument_parser`, `_report_bug_excepthook`, the layout of the debug log);
the disabled built-in fixers for None returns (`idiom_fixers.py` 85-186); `evaluate._sorted_attributes`; `matcher.py` attrs plumbing (the generated `__init__`
beyond what `Compile.v` says of arguments and coercion, `_stringify_candidate`, logging). Performance, memory, real signals
and concurrent modification of files are out of scope.

## 5. Plan per property

| id | modelled | proof |
|----|----------|-------|
| C01,C02,C03 | formatting.apply_substitutions and helpers | induction on the sorted replacement list against a character-level spec |
| C04 | Substitution.relative_to_span | shift lemma on sorted replacements + slice algebra |
| C05,C06 | disjoint_substitutions | invariant over the loop; refutation of maximality by witness |
| C07 | labeled_spans event sweep | invariant: current labels = labels opened and not closed |
| C08 | as_diff | invariant over the labeled spans; refutation for touching labels; the condition is shown necessary by counting what the preview covers |
| C09,C10,C44,C43 | line_expanded_span, _sub_diff_blocks, Renderer | list induction |
| C11,C12 | suppress_exclude_bytes, all_categories, _validate | direct; regex as an explicit recogniser proved equal to the grammar |
| C13,C14,C48 | pragma comments, ranges, scoping state machine | fold invariant; recogniser = grammar |
| C15,C16,C17,C18,C19,C21,C22,C23,C26,C27,C28,C51,C56,C57 | deep embedding of matchers, evaluator with the Once state | mutual induction on matcher terms |
| C20 | matcher.find_iter explicit stack | refinement to the recursive preorder walk |
| C24 | ast_equivalent explicit stack | refinement + refutation |
| C25,C50 | AstNavigator, uniqueify | uniqueness of ids; tree induction |
| C29,C30,C31,C52,C53,C54 | patterns and syntactic templates on token lists; parser is an oracle | freshness by pigeonhole; loop invariant over tokens; parser hypotheses in the statement |
| C32,C45,C47,C59 | rewrite_templates, find_iter_parsed, with_replacements | case analysis over label presence |
| C33 | _sanitize_removed_stmt | invariant over the removal history |
| C34,C35,C46,C55 | find_iter, _fixed_point, _compile_substitutions | induction on iterations, searcher arbitrary |
| C36,C37 | RefexRunner, codec, filesystem as a finite map | induction on files; UTF-8/newline lemmas; refutations |
| C38 | MatchInfo.from_diff | invariant over the diff ops |
| C39,C40,C49 | argparse actions as a fold; options to searcher | induction on the option list |
| C41 | semiliteral Eval | induction on expressions |
| C42 | searcher combinators | direct |
| C58 | Renderer with colours | terminal model (`ColourSpec.v`), list induction |
| C60 | fixers and their registry | direct, through C20 and C18 |
| C61,C62,C63,C64 | regex, comment, import and simple filter matchers | regex engine as a relation; token stream facts; fold over import statements |
| C65 | files_from_options, os.walk on a directory tree | induction on the tree; injectivity of path joining |
| C66,C67 | runner_from_options, run_cli with all parsers as oracles | case analysis over the pairs; composition of C36, C49, C65 |
| C68 | RegexSearcher + RegexTemplate + apply_substitutions + the whole program | `re.sub` as an inductive relation over the matches; induction over them, then C02 and C67 |
| C69 | open/truncate and every write call as events | induction over the files, prefix of the event list; refutation of atomicity |
| C70 | expr/stmt pattern text → matcher → searcher → substitutions → rewritten string, one pass | occurrences as a relation on trees (`ExprSubSpec.v`); C23 (pattern), C25 (outermost), C31 (template), C01/C03 (edits) put together; success under a layout condition that asttokens trees meet |

Every property can be expressed in the model; none is `not_applicable`.
| C71 | `pattern_fixer` (SimplePythonFixer of ExprPattern and PythonExprTemplate) in a `CombiningPythonFixer` | C59/C60 (who carries what) with C23, C31 for the pattern and the template of the fixer (`BuiltinApply.v`); stated with the relations of C70 |
| C72 | the tables of unittest_fixers.py and the `idiom_fixer` entries of idiom_fixers.py, as texts | `PyCode.v`: expressions, how they are written, their trees, and a small-step-free semantics given by laws on an abstract interpreter (state, exceptions, operand effects arbitrary); per table entry a proof that both sides do the same, and the link from text to tree (`BuiltinProofs.v`, `BuiltinMain.v`) |
| C73 | the ten correctness fixers, as texts and matchers (restrictions on metavariables, `WithTopLevelImport`, `MatchesRegex`, `Contains` in a `Call`) | table of entries in `PyCode` expressions with a condition each (`CorrectnessSpec.v`); restricted patterns narrow unrestricted ones (`CorrectnessProofs.v`), then as C72; `attr.ib` by running its matcher (`CorrectnessSearch.v`) |
| C74 | no further code; the matchers of all built-in fixers of C72/C73 and the searcher | `ThoroughSpec.v` says what should be found and what `dealt_with` means; every pattern of the tables *accepts* all code that reads as it (`ThoroughCode`, `ThoroughMain`; the converse of C73's `narrows`), answers yes or no without exceptions (`answers`, `reliable`), and `FindSpec.found`'s completeness then rules out an unvisited place (`ThoroughSearch.thorough`) |
| C75 | the three fixers for mutable constants (statement patterns with restrictions, statement templates) | as C73 and C74, for statement patterns (`IdiomSpec.v`, `IdiomProofs.v`, `IdiomThorough.v`); the regular expression by its language |
| C76 | the first fixer for logging: `Call` with a bound callee, `Contains`, `HasFirstAncestor`, merging of equal names, a replacement for one label | an exact account of what the matcher gives on each node (`LoggingEval.v`, `LoggingProofs.v`, `LoggingError.v`: `gives`), then as C73 and C74 (`LoggingMain.v`); the specification (`LoggingSpec.v`) says it with paths in the tree: `innermost`, `caught_as`, `logs_error` |
| C77 | the second fixer for logging: a statement pattern under `Unless`/`HasFirstAncestor`/`ItemsAre`, a shell template for the new statement | as C76 (`LoggingExc.v`, `LoggingExcProofs.v`, `LoggingExcMain.v`); specification `LoggingExcSpec.v` (`logs_caught`, `described_instead`, `handled_call`, `string_body`). Partial: the full claim is refuted in two ways, with the exact conditions proved |
| C78 | `ExternalCommand` (`External.v`): the command is an arbitrary function from the bytes of its input to exit status and output; `subprocess.run`'s encoding and newline handling are modelled | the search stops at the root (`ExternalProofs.v`), `from_diff` (C38), the codec (C37) |
| C79 | the registry (`Fixer.v`) with the three lists of default fixers (`CorrectnessFixers.v`, `IdiomFixers.v`, `BuiltinFixers.v`) | C72 to C77 each explain the substitutions of one kind of fixer; the kinds are told apart by category and significance (`AllProofs.v`); well-formedness of the substitutions and C01 for the new text |
| C80 | `fixed_point`, `find_iter`, `rewrite_string` (`Search.v`), `pragma_suppressed`, the default fixers | `IterSpec.v` says what it is for a text to come from another by justified edits (side by side, one after the other, or inside a part); induction over the rounds of `SearchSpec.run`, edits of a part moved into the whole text (`IterProofs.v`); C79 for each round and starts of key spans (`IterAll.v`) |
| C81 | `refex` (`Main.v`) with the registry of the default fixers: C66 (what is searched for), C67 (what a completed run writes), C80 | combining, filtering by --also and pragmas keep edits justified (`FixMode.v`); C67_completed_run and C80's lemma for each file (`PropsFixMode.v`). The full claim is refuted by a run of the whole program in Coq (`OverlapSample.v`). With at most one round it is proved (C81_one_round): each finding has one edit, inside its own primary span, and primary spans are apart, in every searcher a command line makes of the fixers (`OneRound.v`, `OneRoundAll.v`; the layout of files asked for is `OneRoundSpec.v`), so nothing raises |
| C82 | `error_strings.py` (`ErrorStrings.v`) | `ErrorSpec.v` says what it is to show code and to point at a character; induction over the lines. That the caret is right is refuted for lines with form feeds and other characters at which only `splitlines` breaks lines: `C82_location_partial`, `C82_form_feed_refuted` |
| C83 | `rxerr_debug.py` and `shlex.quote` (`Rxerr.v`) on the report of `rewrite_files` (`Runner.v`) | `ShellSpec.v` is a small word splitter after POSIX; induction over the arguments and their characters; C36 for which files are in the report, C37's lemma for their contents |
| C84 | the examples of fixers (`Examples.v`) | through the relation `expands` of C47, with each variable standing for its name; for the code of `PyCode.v` by induction over the code. That a generated example matches its own pattern is refuted for patterns with string literals |
| C85 | `create_match`, `lexical_tokens` (`Ast.v`), `eval`, `matcher_find_iter` (`Matcher.v`); regular expression engines give groups inside the text or (-1, -1) (`PiecesSpec.v`) | by induction over matchers: every value a matcher is tried on is part of the tree (or a constant, a slice or a list made of parts), and everything bound comes from `create_match` or a group (`Pieces.v`, `PropsPieces.v`) |
| C86 | `python_searcher`, `sanitize_one` (`Removal.v`), `find_iter`, `rewrite_string` (`Search.v`), `refex` (`Main.v`); the files' tokens lie in the text, statements of a suite follow each other, a semicolon after a statement comes after it (`WrittenSpec.v`) | C85 for what is bound, the layout of suites for what is widened when a statement is removed, then through rounds, combining, filtering and pragmas; whole program by C66 and C67 (`Written.v`, `PropsWritten.v`) |
| C87 | `instantiate`, `class_table`, `constant_table`, `py_matcher` (`Compile.v`); the classes of Python's ast module are arbitrary (different names without dots: `ast_module`) | the rules for the classes by parameter name (`CompileSpec.v`: `passes`, `builds`, `calls`, `spells`); each class in both directions, names in the table are unique (`CompileTable.v`), whole expressions by C41 (`CompileExpr.v`); what all written matchers have in common by induction over `spells` |
| C88 | from_pattern of the three modes, compile_matcher | evaluation of a single call with the class table of C87; refex unfolded for two command lines |
| C89 | SumMatcher._match, ast.walk | every node is walked over once (induction on the number of nodes); the integers collected are a permutation of those of the sum |

## 6. Findings (behaviour that the model shows and a user may not expect)

* C03/C02: a match-only substitution listed after one at offset 0 makes `apply_substitutions` raise; the outcome depends on list order.
* C06: `disjoint_substitutions` is not maximal.
* C08/C44: a label that starts where a replaced span ends makes the replaced text appear twice in the preview.
* C13: a `disable` pragma inside an `enable` pragma's scope: disabling never resumes after the `enable` scope ends.
* C18/C21: the side effect of `Once` inside a failed `AnyOf` alternative stays.
* C19: `RewriteFile` binds `prefix.i` labels that are not in `bind_variables`.
* C22: `1` matches `True` and `1.0`. C23: a repeated metavariable is bound to its *last* occurrence.
* C24: fields that are lists of nodes are compared by identity, so `f($x, $x)` never matches `f(g(a), g(a))`.
* C25: `get_simple_node` does not terminate for a node that is not in the tree.
* C26: several structural matchers drop replacements of their submatchers. C56: `HasPrevSibling`/`HasNextSibling` return the sibling's match.
* C28: the block after the last `GlobStar` may overlap what earlier blocks consumed. And there is no going back: each part takes its first place whatever the other parts bind, so `[*, $x, *, $x, *]` does not match `[f, a, a]` (C28_bindings_refuted; C28_exactly_when is the exact reading).
* C29: identifiers inside f-strings can be captured by renaming. C30: white space before a backslash continuation is lost; `$\⏎ x` can be read as a metavariable; an added newline stays when the template ends in an indented block.
* C31: a template that repeats a metavariable bound to code with node lists always raises `RewriteError`; so do statement metavariables.
* C33: removals requested in reverse order or across a `;` can overlap or leave an empty suite; a module that is just `a;` leaves `;`.
* C36: a failure while applying empties the file (it is already truncated). C37: CRLF line endings are lost.
* C39: a `--sub` before any `--match` attaches to the first pattern. C49: `--no-iterate` stores None, which does not disable iteration in `--mode=fix`.
* C41: `Foo().x` makes a `TypeError` escape `compile_matcher`; a `register_constant` conflict raises `TypeError` from its own message formatting.
* C45: `\g<0>` is accepted, then raises `KeyError`.
* C53: `$x.$x` is accepted although the attribute occurrence is read literally. C54: statements after the first are ignored.
* C58: carriage returns in the text make extra prefixed lines; `diff_substitutions`' separator is coloured even with `color=False`.
* C60: `SimplePythonFixer` mutates the caller's replacement mapping, so a shared mapping leaks messages; the error message of `register_fixers` is never formatted.
* C61: `MatchesRegex` compiles `(?:…)$`, so a span that ends with a newline matches without it. C62: a match that is no piece of source code raises `TypeError`.
* C63: only the *last* import of a module counts; rebinding of the variable is not noticed; `import os.path` and relative imports do not count.
* C65: `--includefile` and `--excludefile` are parsed and then ignored.
* C66: no pattern at all ends with a `TypeError`/`AttributeError` instead of a usage message.
* C69: files are not replaced atomically; an interrupted run leaves a truncated file.
* `_fixed_point`: match-only results with more than one iteration become a `fixedpoint` diff; `i == max_iterations` is dead code.
* C72: `[$a for $a in $b]` also matches attribute or subscript targets (`[a.b for a.b in c]`), for which the assignments of the old code are lost (the repository says so in a comment); the category of these fixers is misspelt `idioms.uncessary-comprehension`; the `==` and `!=` entries of the unittest table are there twice. `assertLen(x, 0)` also matches `assertLen(x, False)` and `0.0`.
* C73: the message of the `yaml.load_all` fixer also recommends `yaml.safe_load`; the formatting fixer looks only at the text of the whole expression (`[^(].+[)]`), so that `('%s') % (a)` or an expression over several lines is not found; `b"..." % (a)` is.
* C75: `_ = {…}` and `_1 = set(x)` count as constants; annotated assignments and `A = B = {…}` are not matched; `\d` lets non-ASCII digits in.
* C76: an argument that merely contains the exception (`logging.error("%s", str(e))`, `f"{e}"`) is not an occurrence; an `except` without a name hides those around it. `exc_info=False` counts as `exc_info=`. Python sees the innermost `except` *clause*, also from a nested function whose parameter shadows the name.
* C77: (1) the source of the called expression goes between single quotes unescaped, so `try: f('a')() ...` is rewritten to `logging.exception('Call to "f('a')" resulted in an error')`, which is no Python (and the rewrite is then undone as a syntax error, or not, by the caller); the same for a line break in it. (2) the innermost `try` need not be the one whose `except` has caught the exception: in `try: f() except E as e: try: g() finally: logging.exception(e)` the text blames `g`. (3) the check against double quotes (`.+".+`) sees only statements on one line.
* C78: `subprocess.run(..., encoding='utf-8')` reads with universal newlines, so carriage returns in the output of a command are lost (as in C37); the decoding error of an output that is no UTF-8 comes before the one about the exit status.
* C80: the part that is searched again is the source of the outermost enclosing node without a body, which need not be a statement: it may be the `arguments` of a function, a base class or the test of an `if`. It is then read as a program of its own. So in `def f(FOO={not a in b}): ...` the second round sees the statement `FOO={a not in b}` and the mutable-constant fixer applies to a default argument, which it never does without iteration. `improves` therefore has the case of a part read on its own, and the theorem claims no more than that. (By reading the code; the trees for this file are not built in Coq.)
* C81 (C81_overlapping_rounds_refuted): `get_simple_node` stops at any node with a field `body`, and `Lambda` and `IfExp` have one. So in fix mode (ten rounds unless --iterate is given) a statement with one finding outside of a conditional expression or lambda and one inside its body is searched again twice: as a whole, where the second round sees the inner finding too, and the body on its own. The merged substitution for the statement then overlaps that for the body, `apply_substitutions` raises ValueError, and with -i the file has already been opened for writing: it is left empty and the run stops. Shown for the whole program, with the default fixers and the file `f(attr.ib(default=[]), attr.ib(default=[]) if x else y)`.
* C82 (C82_form_feed_refuted): `_indent` uses `splitlines`, which also breaks lines at form feeds, vertical tabs, U+001C to U+001E, U+0085, U+2028 and U+2029. In a line with one of these the text behind it moves four columns to the right, and the caret no longer points at the error. A `SyntaxError` with a text but no column makes the message itself raise TypeError.
* C83: `is_first` in `rxerr_debug.py` is never true, so blank lines come before the first file as well (harmless).
* C84 (C84_own_example_refuted): examples are generated by `string.Template` from the characters of a pattern, but patterns are read as tokens. So in `f('$x')`, which has no metavariable and matches only itself, `$x` is replaced in the example, which the pattern then does not match; and a pattern with a dollar sign in a string that begins no name raises ValueError.
* C87 (C87_coerced_refuted): `ImplicitEquals` is said to be created whenever a matcher was expected but another value was given; `AllOf` and `AnyOf` do not do it (`_NAryMatcher.__init__` bypasses the attribute's converter), so `AnyOf('a', 'b')` fails with AttributeError ('str' object has no attribute 'bind_variables' or 'match') where `Unless('a')` works. (C87_wrapped_refuted): `MaybeWrapped` and `RecursivelyWrapped` are registered as safe to call in --mode=py, but their second argument must be a callable, which cannot be written: every call fails. `TypeIs` can be called but never matches there, because no type can be written.
* C89 (C89_texts_raise): the example `SumMatcher` takes every constant for a summand, so on `'a' + 'b'` `sum` raises `TypeError`, and the search of the whole file fails.
