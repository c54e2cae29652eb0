(** Specification for C79: the default fixers together. *)
From Verif Require Import TemplateProofs Py PyFacts Regex Subst ApplySpec Ast Template FromDiff Matcher MatchSpec MatcherProofs FindSpec FindProofs
  FilterSpec NavSpec NavProofs PatTok PatSpec Pattern PatternSpec EquivProofs PatternProofs PatternApi
  PyTemplate PyTemplateSpec PyTemplateProofs Search SearchSpec Removal OwnSpec SampleTrees PropsPattern
  PropsTemplate ExprSubSpec ExprSubProofs PropsExprSub Fixer FixerSpec FixerProofs PyCode BuiltinFixers BuiltinSpec CodeProofs BuiltinProofs BuiltinApply BuiltinTables BuiltinMain
  CorrectnessFixers CorrectnessSpec ThoroughSpec ThoroughTables IdiomFixers IdiomSpec LoggingSpec LoggingExcSpec.
From Coq Require Import Permutation.

(** A Python that lexes and parses, with the grammar [G], and understands the code
    that the fixers are written in. *)
Record interpreter (tokenize : text -> res (list ptok)) (order : list nat -> list nat) (ast_parse : text -> res value)
  (parse_env : text -> res env) (G : grammar) : Prop := {
  in_order : forall l, Permutation (order l) l;
  in_proper : proper G;
  in_python : python_grammar G;
  in_call : call_grammar G;
  in_try : try_grammar G;
  in_ast : python_ast G ast_parse;
  in_evaluated : parses_evaluated ast_parse;
  in_parser : python_parser G parse_env;
  in_codes : Forall (fun oc => understood tokenize ast_parse (fst oc) /\ understood tokenize ast_parse (snd oc)) (all_codes ++ entry_codes);
  in_attrib : Forall (understood tokenize ast_parse) attrib_codes;
  in_constants : Forall (fun oc => understood_as KStmt tokenize ast_parse (fst oc) /\ understood_as KStmt tokenize ast_parse (snd oc)) constant_codes;
  in_error : understood tokenize ast_parse logging_error;
  in_exception : understood_as KStmt tokenize ast_parse (Do logging_exception);
  in_caught : understood_as KStmt tokenize ast_parse (logs_exception (TX "arg"))
}.
(** A file that it parses. *)
Record python_file (tokenize : text -> res (list ptok)) (G : grammar) (parse_ast : text -> text -> res parsed_file)
  (context : parsed_file -> pyinfo -> env) (data path : text) (parsed : parsed_file) (e : env) : Prop := {
  pf_source : parsed_source parse_ast context G data path parsed e;
  pf_unshared : unshared (e_tree e);
  pf_nodes : python_nodes (e_tree e);
  pf_positioned : well_positioned e;
  pf_around : forall anc sp c_span, PatternSpec.inside (e_tree e) anc -> m_span (create_match parsed anc) = Some sp ->
    plain_source tokenize (around parsed anc sp (TX "$current_expr") c_span)
}.

(** What may be replaced, and how: by code that does the same, or with one of the
    corrections that the documentation lists. *)
Inductive explained (tokenize : text -> res (list ptok)) (order : list nat -> list nat) (ast_parse : text -> res value)
  (parse_env : text -> res env) (decimal : Z -> bool) (e : env) (sub : substitution) (l : label) (txt : text) : Prop :=
  | By_equivalent old new : In (old, new) (alias_codes ++ message_codes ++ negation_codes) ->
      equivalent_rewrite tokenize order ast_parse parse_env e sub l txt old new -> explained tokenize order ast_parse parse_env decimal e sub l txt
  | By_comprehension : equivalent_comprehension tokenize order ast_parse parse_env e sub l txt -> explained tokenize order ast_parse parse_env decimal e sub l txt
  | By_correction en : In en entries -> (message sub, category sub, significant sub) = (Some (en_message en), Some (en_category en), true) ->
      corrected tokenize order ast_parse parse_env e sub l txt en -> explained tokenize order ast_parse parse_env decimal e sub l txt
  | By_factory : (message sub, category sub, significant sub) = attrib_meta -> factory_instead e sub l txt ->
      explained tokenize order ast_parse parse_env decimal e sub l txt
  | By_freezing en : In en (constant_table decimal) -> (message sub, category sub, significant sub) = (Some (en_message en), Some (en_category en), false) ->
      statement_corrected parse_env e sub l txt en -> explained tokenize order ast_parse parse_env decimal e sub l txt
  | By_exception : (message sub, category sub, significant sub) = error_meta -> exception_instead tokenize order ast_parse parse_env e sub l txt ->
      explained tokenize order ast_parse parse_env decimal e sub l txt
  | By_description : (message sub, category sub, significant sub) = described_meta -> described_instead e sub l txt ->
      explained tokenize order ast_parse parse_env decimal e sub l txt.

(** What should be found. *)
Inductive defect (decimal : Z -> bool) (e : env) (q : path) : Prop :=
  | Unidiomatic c : at_path (e_tree e) q = Some c -> unidiomatic c -> defect decimal e q
  | Bug en c : In en entries -> at_path (e_tree e) q = Some c -> bug en e c -> defect decimal e q
  | Shared_default c : at_path (e_tree e) q = Some c -> shared_default c -> defect decimal e q
  | Mutable_constant en c : In en (constant_table decimal) -> at_path (e_tree e) q = Some c -> bug en e c -> defect decimal e q
  | Logged_error func : logs_error (e_tree e) q func -> defect decimal e q
  | Logged_exception func : logs_caught (e_parsed e) (e_tree e) q func -> defect decimal e q.
