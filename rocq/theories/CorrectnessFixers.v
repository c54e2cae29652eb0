(** Model of refex/fix/fixers/correctness_fixers.py.  Definitions only. *)
From Verif Require Import Py Regex Ast Template FromDiff Matcher PatTok Pattern PyTemplate Fixer.

(** [re.compile('(?:%s)$' % regex)], for a regular expression [r] without groups
    (base_matchers.py:599-608): [match(text, a, b)] looks for a match of [r] that
    starts at [a] and ends at [b], or right before a newline at [b].  ([search] is
    not used on it.) *)
Definition dollar (r : re) : crx :=
  Crx [] (fun txt a b =>
            if (0 <=? a) && (a <=? b) && re_match r (slice txt a b) then Some [(a, b)]
            else if (0 <=? a) && (a <=? b - 1) && text_eqb (slice txt (b - 1) b) [10] && re_match r (slice txt a (b - 1)) then Some [(a, b - 1)]
            else None)
         (fun _ => None).
(** The regular expression of correctness_fixers.py:163: anything but an opening parenthesis, at
    least one character that is no newline, a closing parenthesis. *)
Definition unopened : re :=
  let dot := Cls (fun c => negb (c =? 10)) in
  Seq (Cls (fun c => negb (c =? 40))) (Seq (Seq dot (Star dot)) (Cls (fun c => c =? 41))).

(** correctness_fixers.py:35 [_STRING_LITERAL] and 38 [_LITERAL] *)
Definition string_literal : matcher := MAnyOf [MStr MAnything; MBytes MAnything].
Definition literal : matcher := MAnyOf [MNum MAnything; string_literal].
(** [ast_matchers.Attribute()], [ast_matchers.Name()]: the fields of these classes
    in Python 3.11, with no restriction. *)
Definition any_attribute : matcher := MNode (TX "Attribute") [(TX "value", MAnything); (TX "attr", MAnything); (TX "ctx", MAnything)].
Definition any_name : matcher := MNode (TX "Name") [(TX "id", MAnything); (TX "ctx", MAnything)].

Section Fixers.
  Variable tokenize : text -> res (list ptok).
  Variable order : list nat -> list nat.
  Variable ast_parse : text -> res value.
  Variable parse_env : text -> res env.

  Definition pattern (src : text) (restrictions : dict matcher) : res matcher := expr_pattern tokenize order ast_parse src restrictions.
  (** [fixer.SimplePythonFixer(matcher=..., replacement=PythonExprTemplate(new), ...)];
      they are significant by default (fixer.py:108). *)
  Definition python_fixer (matcher : res matcher) (new message url category : text) : res fixer :=
    do m <- matcher;
    do t <- python_expr_template tokenize order ast_parse new;
    Ok (Fixer m (inl (as_template tokenize order ast_parse parse_env t)) (Some message) (Some url) (Some category) true).

  Definition literal_url : text := TX "https://refex.readthedocs.io/en/latest/guide/fixers/literal_comparison.html".
  (** 90-100 *)
  Definition is_fixer : res fixer :=
    python_fixer (pattern (TX "$lhs is $rhs") [(TX "rhs", literal)]) (TX "$lhs == $rhs")
      (TX "`is` only sometimes works for comparing equality with literals.  This is a bug that will manifest in subtle ways. == is more appropriate.")
      literal_url (TX "pylint.literal-comparison").
  (** 101-112 *)
  Definition is_not_fixer : res fixer :=
    python_fixer (pattern (TX "$lhs is not $rhs") [(TX "rhs", literal)]) (TX "$lhs != $rhs")
      (TX "`is not` only sometimes works for comparing inequality with literals. This is a bug that will manifest in subtle ways. != is more appropriate.")
      literal_url (TX "pylint.literal-comparison").
  (** 40-43 [_YAML_MESSAGE] *)
  Definition yaml_message (function : text) : text :=
    TX "yaml." ++ function
    ++ TX " can execute arbitrary Python code contained in the input. Use yaml.safe_load instead. This may require changing dumps to use yaml.safe_dump.".
  (** [WithTopLevelImport(m, 'yaml')], for which [as_name] is the part after the last dot
      of the module (syntax_matchers.py:815-817). *)
  Definition with_yaml (m : res matcher) : res matcher := do m' <- m; Ok (MWithTopLevelImport m' (TX "yaml") (TX "yaml")).
  (** 114-125, 126-138 *)
  Definition yaml_load_fixer : res fixer :=
    python_fixer (with_yaml (pattern (TX "yaml.load($s)") [])) (TX "yaml.safe_load($s)") (yaml_message (TX "load"))
      (TX "https://msg.pyyaml.org/load") (TX "refex.security.yaml_safe_load").
  Definition yaml_load_all_fixer : res fixer :=
    python_fixer (with_yaml (pattern (TX "yaml.load_all($s)") [])) (TX "yaml.safe_load_all($s)") (yaml_message (TX "load_all"))
      (TX "https://msg.pyyaml.org/load") (TX "refex.security.yaml_safe_load").
  (** 139-170 *)
  Definition percent_matcher : res matcher :=
    do m <- pattern (TX "$a % $b") [(TX "a", string_literal); (TX "b", MAllOf [MAnyOf [any_attribute; any_name]])];
    Ok (MAllOf [m; MMatchesRegex (dollar unopened) MAnything]).
  Definition percent_fixer : res fixer :=
    python_fixer percent_matcher (TX "$a % ($b,)")
      (TX "Parentheses around a single variable have no effect. Did you mean to format with a tuple?")
      (TX "https://refex.readthedocs.io/en/latest/guide/fixers/superfluous_parens.html") (TX "refex.correctness.formatting").
  (** 46-84 [_attrib_mutable_default_fixer].  The fields are those of [ast.Call] and
      [ast.keyword] in Python 3.11; the identity of the constant is arbitrary. *)
  Definition attrib_matcher (default : text) : res matcher :=
    do f <- pattern (TX "attr.ib") [];
    do v <- pattern default [];
    Ok (MNode (TX "Call")
          [(TX "func", f); (TX "args", MAnything);
           (TX "keywords", MContains (MBind (TX "keyword")
              (MNode (TX "keyword") [(TX "arg", MEquals (VConst 0 (CStr (TX "default")))); (TX "value", v)]) None None))]).
  Definition attrib_fixer (default keyword_replacement : text) : res fixer :=
    do m <- attrib_matcher default;
    Ok (Fixer m (inr [(TX "keyword", sh_template keyword_replacement)])
          (Some (TX "The default in an attr.ib() call is shared across all instances. Mutable defaults should instead use factory=..., to get a unique value."))
          (Some (TX "https://refex.readthedocs.io/en/latest/guide/fixers/attrib_default.html"))
          (Some (TX "refex.correctness.attrib-default")) true).
  (** 178-183 *)
  Definition attrib_entries : list (text * text) :=
    [(TX "[]", TX "factory=list"); (TX "{}", TX "factory=dict"); (TX "set()", TX "factory=set")].
  Definition attrib_fixers : res (list fixer) := mapM (fun x => attrib_fixer (fst x) (snd x)) attrib_entries.
  (** 184-197, 198-211 *)
  Definition utcfromtimestamp_fixer : res fixer :=
    python_fixer (pattern (TX "datetime.datetime.utcfromtimestamp($a)") [])
      (TX "datetime.datetime.fromtimestamp($a, tz=datetime.timezone.utc)")
      (TX "utcfromtimestamp() returns a timezone-naive UTC datetime, which is bug-prone.")
      (TX "https://docs.python.org/3/library/datetime.html#datetime.datetime.utcfromtimestamp") (TX "refex.correctness.datetime.utcfromtimestamp").
  Definition utcnow_fixer : res fixer :=
    python_fixer (pattern (TX "datetime.datetime.utcnow()") [])
      (TX "datetime.datetime.now(tz=datetime.timezone.utc)")
      (TX "utcnow() returns a timezone-naive UTC datetime, which is bug-prone.")
      (TX "https://docs.python.org/3/library/datetime.html#datetime.datetime.utcnow") (TX "refex.correctness.datetime.utcnow").

  (** 87-212 [SIMPLE_PYTHON_FIXERS] *)
  Definition correctness_fixers : res (list fixer) :=
    do before <- mapM (fun f => f) [is_fixer; is_not_fixer; yaml_load_fixer; yaml_load_all_fixer; percent_fixer];
    do attribs <- attrib_fixers;
    do after <- mapM (fun f => f) [utcfromtimestamp_fixer; utcnow_fixer];
    Ok (before ++ attribs ++ after).
End Fixers.
