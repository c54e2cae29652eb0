(** What the correctness fixers should do. *)
From Verif Require Import Py Subst ApplySpec Ast Template FromDiff Matcher FilterSpec PatTok PatSpec Pattern PatternSpec PyTemplate PyTemplateSpec FindSpec ExprSubSpec
  Search PropsTemplate PropsExprSub PyCode BuiltinSpec.

(** *** Conditions *)
(** [v] is a literal with this value. *)
Definition literal_of (v : value) (k : const) : Prop :=
  exists i fs id, v = VNode i fs /\ n_type i = TX "Constant" /\ dget fs (TX "value") = Some (VConst id k).
Definition string_const (k : const) : Prop := match k with CStr _ | CBytes _ => True | _ => False end.
(** True and False are no numbers here. *)
Definition number_const (k : const) : Prop := match k with CNum KBool _ => False | CNum _ _ => True | _ => False end.
Definition is_string_literal (v : value) : Prop := exists k, literal_of v k /\ string_const k.
Definition is_literal (v : value) : Prop := exists k, literal_of v k /\ (number_const k \/ string_const k).
(** [v] is a name, or an attribute of something. *)
Definition is_variable_or_attribute (v : value) : Prop := vtype v = TX "Name" \/ vtype v = TX "Attribute".
(** The text ends with a closing parenthesis and does not start with an opening one;
    there is no line break in between (and at least one character). *)
Definition closed_only (s : text) : Prop :=
  exists first middle, (s = first :: middle ++ [41] \/ s = first :: middle ++ [41; 10]) /\ first <> 40 /\ middle <> [] /\ ~ In 10 middle.
Definition looks_closed_only (e : env) (v : value) : Prop :=
  exists a b, m_span (create_match (e_parsed e) v) = Some (a, b) /\ closed_only (slice (pf_text (e_parsed e)) a b).
(** The last import of the module at the top level makes it available under this name. *)
Definition imports (e : env) (module name : text) : Prop :=
  forall mvs, file_gives (e_tree e) mvs -> last_import mvs module name.

(** *** The table *)
Definition condition := env -> value -> (label -> value) -> Prop.
Record entry := Entry { en_old : code label; en_new : code label; en_when : condition; en_message : text; en_category : text }.
Definition with_literal : condition := fun e c parts => is_literal (parts (TX "rhs")).
Definition with_yaml_import : condition := fun e c parts => imports e (TX "yaml") (TX "yaml").
Definition superfluous_parentheses : condition := fun e c parts =>
  is_string_literal (parts (TX "a")) /\ is_variable_or_attribute (parts (TX "b")) /\ looks_closed_only e c.
Definition always : condition := fun e c parts => True.
Definition yaml_call (f : text) : code label := Call (Attr (Name (TX "yaml")) f) [Var (TX "s")].
Definition datetime_ (f : text) : code label := Attr (Attr (Name (TX "datetime")) (TX "datetime")) f.
Definition utc : code label := Attr (Attr (Name (TX "datetime")) (TX "timezone")) (TX "utc").
Definition yaml_says (f : text) : text :=
  TX "yaml." ++ f ++ TX " can execute arbitrary Python code contained in the input. Use yaml.safe_load instead. This may require changing dumps to use yaml.safe_dump.".
Definition entries : list entry :=
  [Entry (Compare Is lhs rhs) (Compare Eq lhs rhs) with_literal
     (TX "`is` only sometimes works for comparing equality with literals.  This is a bug that will manifest in subtle ways. == is more appropriate.")
     (TX "pylint.literal-comparison");
   Entry (Compare IsNot lhs rhs) (Compare NotEq lhs rhs) with_literal
     (TX "`is not` only sometimes works for comparing inequality with literals. This is a bug that will manifest in subtle ways. != is more appropriate.")
     (TX "pylint.literal-comparison");
   Entry (yaml_call (TX "load")) (yaml_call (TX "safe_load")) with_yaml_import (yaml_says (TX "load")) (TX "refex.security.yaml_safe_load");
   Entry (yaml_call (TX "load_all")) (yaml_call (TX "safe_load_all")) with_yaml_import (yaml_says (TX "load_all")) (TX "refex.security.yaml_safe_load");
   Entry (Mod (Var (TX "a")) (Var (TX "b"))) (Mod (Var (TX "a")) (Tuple1 (Var (TX "b")))) superfluous_parentheses
     (TX "Parentheses around a single variable have no effect. Did you mean to format with a tuple?") (TX "refex.correctness.formatting");
   Entry (Call (datetime_ (TX "utcfromtimestamp")) [Var (TX "a")]) (CallKw (datetime_ (TX "fromtimestamp")) [Var (TX "a")] (TX "tz") utc) always
     (TX "utcfromtimestamp() returns a timezone-naive UTC datetime, which is bug-prone.") (TX "refex.correctness.datetime.utcfromtimestamp");
   Entry (Call (datetime_ (TX "utcnow")) []) (CallKw (datetime_ (TX "now")) [] (TX "tz") utc) always
     (TX "utcnow() returns a timezone-naive UTC datetime, which is bug-prone.") (TX "refex.correctness.datetime.utcnow")].
Definition entry_codes : list (code label * code label) := map (fun en => (en_old en, en_new en)) entries.

(** The substitution [sub] replaces the code [c] at [q] by the text [txt]; the text that
    the template makes, without the parentheses that may be needed in this place,
    is the expression [c1].  [c] reads as the old code of the entry and [c1] as the
    new one, with the same code in the places of the variables, and the condition
    of the entry holds. *)
Definition corrected (tokenize : text -> res (list ptok)) (order : list nat -> list nat) (ast_parse : text -> res value)
  (parse_env : text -> res env) (e : env) (sub : substitution) (l : label) (txt : text) (en : entry) : Prop :=
  exists q c sp r e1 c1 parts parts',
    l = TX "__root" /\ at_path (e_tree e) q = Some c
    /\ m_span (create_match (e_parsed e) c) = Some sp /\ In (l, sp) (matched_spans sub)
    /\ put_in tokenize order ast_parse parse_env (e_parsed e) (e_tree e) q c r txt
    /\ parse_env r = Ok e1 /\ consists_of KExpr (e_tree e1) c1
    /\ made_of (fill parts (en_old en)) c /\ made_of (fill parts' (en_new en)) c1
    /\ (forall x, In x (left_open (en_new en)) -> same_code (parts x) (parts' x))
    /\ en_when en e c parts.

(** *** Defaults of [attr.ib] *)
Definition attr_ib {A} : code A := Attr (Name (TX "attr")) (TX "ib").
(** The fields of calls and their keyword arguments in Python 3.11. *)
Definition call_grammar (G : grammar) : Prop :=
  G (TX "Call") = [(TX "func", false); (TX "args", true); (TX "keywords", true)]
  /\ G (TX "keyword") = [(TX "arg", false); (TX "value", false)].
(** Mutable defaults, and what should be written instead of [default=...]. *)
Definition factories {A} : list (code A * text) :=
  [(EmptyList, TX "factory=list"); (EmptyDict, TX "factory=dict"); (Call (Name (TX "set")) [], TX "factory=set")].
Definition attrib_codes : list (code label) := attr_ib :: map fst factories.
Definition attrib_meta : option text * option text * bool :=
  (Some (TX "The default in an attr.ib() call is shared across all instances. Mutable defaults should instead use factory=..., to get a unique value."),
   Some (TX "refex.correctness.attrib-default"), true).
(** [kw] is the keyword argument [default=...], with this value. *)
Definition default_is (value : code value) (kw : Ast.value) : Prop :=
  exists i fs id v, kw = VNode i fs /\ n_type i = TX "keyword"
    /\ dget fs (TX "arg") = Some (VConst id (CStr (TX "default"))) /\ dget fs (TX "value") = Some v /\ made_of value v.
(** The substitution replaces the argument [default=...] of a call of [attr.ib], where
    the default is one of these values, by the factory for such values. *)
Definition factory_instead (e : env) (sub : substitution) (l : label) (txt : text) : Prop :=
  exists q i fs func id kws kw value sp,
    at_path (e_tree e) q = Some (VNode i fs) /\ n_type i = TX "Call"
    /\ dget fs (TX "func") = Some func /\ made_of attr_ib func
    /\ dget fs (TX "keywords") = Some (VList id kws) /\ In kw kws /\ default_is value kw /\ In (value, txt) factories
    /\ l = TX "keyword" /\ m_span (create_match (e_parsed e) kw) = Some sp /\ In (l, sp) (matched_spans sub).
