(** Model of built-in fixers: all of refex/fix/fixers/unittest_fixers.py, and those
    of refex/fix/fixers/idiom_fixers.py that are made by [idiom_fixer].  (For
    the ones for mutable constants and for logging see IdiomFixers.v, for
    correctness_fixers.py CorrectnessFixers.v.)  Definitions only. *)
From Verif Require Import Py Ast Template FromDiff Matcher PatTok Pattern PyTemplate Fixer.

(** [string.Template(s).substitute(ImmutableDefaultDict(lambda _: '...'))]:
    unittest_fixers.py:49-54 and 85-90, idiom_fixers.py:60-64, and
    fixer.py:164-178 [ImmutableDefaultDict], which has every key. *)
Fixpoint fill_dots (ps : list sh_piece) : res text :=
  match ps with
  | [] => Ok []
  | ShLit s :: rest => do t <- fill_dots rest; Ok (s ++ t)
  | ShVar _ :: rest => do t <- fill_dots rest; Ok (TX "..." ++ t)
  | ShBad :: _ => Err ValueError
  end.
Definition dotted (s : text) : res text := fill_dots (sh_pieces s).

(** unittest_fixers.py:103-107: old, new, URL *)
Definition alias_entries : list (text * text * text) :=
  [(TX "self.assertItemsEqual", TX "self.assertCountEqual",
    TX "https://docs.python.org/2/library/unittest.html#unittest.TestCase.assertItemsEqual")].
(** unittest_fixers.py:108-226: old, new, method, is_absl *)
Definition message_entries : list (text * text * text * bool) :=
  [(TX "self.assertTrue($lhs == $rhs)", TX "self.assertEqual($lhs, $rhs)", TX "assertEqual", false);
   (TX "self.assertTrue($lhs != $rhs)", TX "self.assertNotEqual($lhs, $rhs)", TX "assertNotEqual", false);
   (TX "self.assertTrue($lhs == $rhs)", TX "self.assertEqual($lhs, $rhs)", TX "assertEqual", false);
   (TX "self.assertTrue($lhs != $rhs)", TX "self.assertNotEqual($lhs, $rhs)", TX "assertNotEqual", false);
   (TX "self.assertTrue($lhs is $rhs)", TX "self.assertIs($lhs, $rhs)", TX "assertIs", false);
   (TX "self.assertTrue($lhs is not $rhs)", TX "self.assertIsNot($lhs, $rhs)", TX "assertIsNot", false);
   (TX "self.assertFalse($lhs is $rhs)", TX "self.assertIsNot($lhs, $rhs)", TX "assertIsNot", false);
   (TX "self.assertFalse($lhs is not $rhs)", TX "self.assertIs($lhs, $rhs)", TX "assertIs", false);
   (TX "self.assertTrue($lhs in $rhs)", TX "self.assertIn($lhs, $rhs)", TX "assertIn", false);
   (TX "self.assertTrue($lhs not in $rhs)", TX "self.assertNotIn($lhs, $rhs)", TX "assertNotIn", false);
   (TX "self.assertFalse($lhs in $rhs)", TX "self.assertNotIn($lhs, $rhs)", TX "assertNotIn", false);
   (TX "self.assertFalse($lhs not in $rhs)", TX "self.assertIn($lhs, $rhs)", TX "assertIn", false);
   (TX "self.assertTrue($lhs > $rhs)", TX "self.assertGreater($lhs, $rhs)", TX "assertGreater", false);
   (TX "self.assertTrue($lhs >= $rhs)", TX "self.assertGreaterEqual($lhs, $rhs)", TX "assertGreaterEqual", false);
   (TX "self.assertTrue($lhs < $rhs)", TX "self.assertLess($lhs, $rhs)", TX "assertLess", false);
   (TX "self.assertTrue($lhs <= $rhs)", TX "self.assertLessEqual($lhs, $rhs)", TX "assertLessEqual", false);
   (TX "self.assertTrue(isinstance($lhs, $rhs))", TX "self.assertIsInstance($lhs, $rhs)", TX "assertIsInstance", false);
   (TX "self.assertTrue(not isinstance($lhs, $rhs))", TX "self.assertNotIsInstance($lhs, $rhs)", TX "assertNotIsInstance", false);
   (TX "self.assertFalse(isinstance($lhs, $rhs))", TX "self.assertNotIsInstance($lhs, $rhs)", TX "assertNotIsInstance", false);
   (TX "self.assertFalse(not isinstance($lhs, $rhs))", TX "self.assertIsInstance($lhs, $rhs)", TX "assertIsInstance", false);
   (TX "self.assertLen($x, 0)", TX "self.assertEmpty($x)", TX "assertEmpty", true)].
(** idiom_fixers.py:386-402: old, new, category (the constants of 240-241) *)
Definition negation_entries : list (text * text * text) :=
  [(TX "not $a is $b", TX "$a is not $b", TX "pylint.g-comparison-negation");
   (TX "not $a in $b", TX "$a not in $b", TX "pylint.g-comparison-negation")].
Definition comprehension_entries : list (text * text * text) :=
  [(TX "[$a for $a in $b]", TX "list($b)", TX "idioms.uncessary-comprehension");
   (TX "{$a for $a in $b}", TX "set($b)", TX "idioms.uncessary-comprehension")].

Section Builtin.
  Variable tokenize : text -> res (list ptok).
  Variable order : list nat -> list nat.
  Variable ast_parse : text -> res value.
  Variable parse_env : text -> res env.

  (** [fixer.SimplePythonFixer(matcher=ExprPattern(old), replacement=PythonExprTemplate(new), ...)] *)
  Definition pattern_fixer (old new message url category : text) (significant : bool) : res fixer :=
    do m <- expr_pattern tokenize order ast_parse old [];
    do t <- python_expr_template tokenize order ast_parse new;
    Ok (Fixer m (inl (as_template tokenize order ast_parse parse_env t)) (Some message) (Some url) (Some category) significant).

  (** unittest_fixers.py:35-60 *)
  Definition assert_alias_fixer (x : text * text * text) : res fixer :=
    let '(old, new, url) := x in
    do o <- dotted old; do n <- dotted new;
    pattern_fixer old new (o ++ TX " is a deprecated alias for " ++ n ++ TX " in the unittest module.") url
      (TX "pylint.g-deprecated-assert") false.
  (** unittest_fixers.py:63-95 *)
  Definition assert_message_fixer (x : text * text * text * bool) : res fixer :=
    let '(old, new, method, is_absl) := x in
    let url := if is_absl : bool then TX "https://github.com/abseil/abseil-py/search?q=%22def+" ++ method ++ TX "%22"
               else TX "https://docs.python.org/3/library/unittest.html#unittest.TestCase." ++ method in
    do n <- dotted new; do o <- dotted old;
    pattern_fixer old new
      (n ++ TX " is a more specific assertion, and may give more detailed error information than " ++ o ++ TX ".") url
      (TX "pylint.g-generic-assert") true.
  (** idiom_fixers.py:41-71 *)
  Definition idiom_fixer (x : text * text * text) : res fixer :=
    let '(old, new, category) := x in
    do o <- dotted old; do n <- dotted new;
    pattern_fixer old new (TX "This could be more Pythonic: " ++ o ++ TX " -> " ++ n ++ TX ".")
      (TX "https://refex.readthedocs.io/en/latest/guide/fixers/idiom.html") category false.

  (** unittest_fixers.py:98-227 [SIMPLE_PYTHON_FIXERS] *)
  Definition unittest_fixers : res (list fixer) :=
    do a <- mapM assert_alias_fixer alias_entries;
    do m <- mapM assert_message_fixer message_entries;
    Ok (a ++ m).
  (** idiom_fixers.py:386-402 *)
  Definition negation_fixers : res (list fixer) := mapM idiom_fixer negation_entries.
  Definition comprehension_fixers : res (list fixer) := mapM idiom_fixer comprehension_entries.
End Builtin.
