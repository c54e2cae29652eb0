(** C76: [logging.error] of a caught exception becomes [logging.exception]. *)
From Verif Require Import TemplateProofs Py PyFacts Regex Subst ApplySpec Ast Template FromDiff Matcher MatchSpec MatcherProofs FindSpec FindProofs
  FilterSpec NavSpec NavProofs PatTok PatSpec Pattern PatternSpec EquivProofs PatternProofs PatternApi
  PyTemplate PyTemplateSpec PyTemplateProofs Search SearchSpec Removal OwnSpec SampleTrees PropsPattern
  PropsTemplate ExprSubSpec ExprSubProofs PropsExprSub Fixer FixerSpec FixerProofs PyCode BuiltinFixers BuiltinSpec CodeProofs BuiltinProofs BuiltinApply BuiltinTables BuiltinMain BuiltinSample
  CorrectnessFixers CorrectnessSpec CorrectnessProofs CorrectnessMain CorrectnessSearch CorrectnessSample
  ThoroughSpec ThoroughCode ThoroughProofs ThoroughSearch ThoroughMain PropsThorough IdiomFixers IdiomSpec LoggingSpec LoggingEval LoggingProofs LoggingError LoggingMain LoggingSample.
From Coq Require Import Permutation.

(** C76.  When a search with the first fixer for logging (and others, perhaps)
    replaces something on its behalf, then this is the [logging.error] of a call
    [logging.error(..., x, ...)] without [exc_info=], where the innermost [except]
    around the call catches the exception as [x]; nothing else of the call is
    replaced, and the new text is [logging.exception], in parentheses if its place
    asks for them; it is reported as significant. *)
Theorem C76_exception_instead : forall tokenize order ast_parse parse_env G parse_ast context pass_template fs fx s data path parsed e subs sub,
  (forall l, Permutation (order l) l) -> proper G -> python_grammar G -> call_grammar G -> python_ast G ast_parse -> python_parser G parse_env ->
  understood tokenize ast_parse logging_error -> understood_as KStmt tokenize ast_parse (Do logging_exception) ->
  logging_error_fixer tokenize order ast_parse parse_env = Ok fx -> (forall f, In f fs -> f = fx \/ plain_fixer f) ->
  combining_fixer parse_ast context pass_template fs = Ok s ->
  parsed_source parse_ast context G data path parsed e -> unshared (e_tree e) -> python_nodes (e_tree e) ->
  (forall anc sp c_span, PatternSpec.inside (e_tree e) anc -> m_span (create_match parsed anc) = Some sp ->
    plain_source tokenize (around parsed anc sp (TX "$current_expr") c_span)) ->
  s_find s parsed = Ok subs -> In sub subs ->
  exists f, In f fs /\ carries f sub
    /\ (f = fx -> (message sub, category sub, significant sub) = error_meta
        /\ forall reps l txt, replacements sub = Some reps -> In (l, txt) reps -> exception_instead tokenize order ast_parse parse_env e sub l txt).
Proof.
  intros tokenize order ast_parse parse_env G parse_ast context pass_template fs fx s data path parsed e subs sub HO HG HGp HGc HA HPa UE UX Hfx Hfs Hs HP Hun PN Hctx Hf Hin.
  destruct (error_fixer_plain tokenize order ast_parse parse_env parse_ast HO UE fx Hfx) as [Pf _].
  assert (Hpl : Forall plain_fixer fs) by (apply Forall_forall; intros f H; destruct (Hfs f H) as [->|K]; assumption).
  destruct (applied_to tokenize order ast_parse parse_env parse_ast context pass_template G HO HG HGp HA HPa fs s data path parsed e subs sub Hs Hpl HP Hun Hctx Hf Hin)
    as (f & Hff & Hca & (h & mb & ts & key & Hat & Hby & Hde) & _).
  exists f. split; [exact Hff|]. split; [exact Hca|]. intros ->. split.
  - destruct (fixer_shape tokenize order ast_parse parse_env fx Hfx) as (_ & _ & _ & _ & _ & _ & Em & _).
    destruct Hca as (C1 & _ & C3 & C4). unfold meta_of in Em. now rewrite C1, C3, C4.
  - intros reps l txt Er Hl. destruct (ps_python _ _ _ _ _ _ _ HP) as (info & P1 & P2 & P3). pose proof (ps_env _ _ _ _ _ _ _ HP) as P4. rewrite <- P4 in *.
    eapply (error_replaced tokenize order ast_parse parse_env parse_ast pass_template G HO HG HGp HGc HA UE UX HPa fs fx e info h mb ts key sub reps l txt); try assumption.
    apply (ps_tree _ _ _ _ _ _ _ HP).
Qed.
Print Assumptions C76_exception_instead.

(** No such call is missed: there is a substitution of it, or of some code around
    it that one of the fixers matches (unless a template has failed for this code). *)
Theorem C76_every_error : forall tokenize order ast_parse parse_env parse_ast context pass_template G fs fx s data path parsed e subs q func,
  (forall l, Permutation (order l) l) -> proper G -> python_grammar G -> call_grammar G -> python_ast G ast_parse -> parses_evaluated ast_parse ->
  understood tokenize ast_parse logging_error ->
  logging_error_fixer tokenize order ast_parse parse_env = Ok fx ->
  In fx fs -> (forall f, In f fs -> f = fx \/ (plain_fixer f /\ decisive e f)) ->
  combining_fixer parse_ast context pass_template fs = Ok s ->
  parsed_source parse_ast context G data path parsed e -> unshared (e_tree e) -> python_nodes (e_tree e) -> well_positioned e ->
  s_find s parsed = Ok subs ->
  logs_error (e_tree e) q func -> dealt_with e fs subs q.
Proof.
  intros tokenize order ast_parse parse_env parse_ast context pass_template G fs fx s data path parsed e subs q func HO HG HGp HGc HA HE UE Hfx Hin Hfs Hc Hp Un PN HW Hs Hl.
  pose proof (ps_tree _ _ _ _ _ _ _ Hp) as PT.
  assert (Hq : exists c, at_path (e_tree e) q = Some c) by (destruct Hl as (i & fs' & ? & ? & ? & ? & ? & ? & Hq & _); eauto). destruct Hq as [c Hq].
  eapply (search_all parse_ast context pass_template G fs s data path parsed e subs q c (fun g => g = fx) fx _); eauto.
  - intros g ->. apply (error_reliable tokenize order ast_parse parse_env parse_ast G); assumption.
  - apply (error_sure tokenize order ast_parse parse_env parse_ast G); assumption.
  - cbn beta. eauto.
Qed.
Print Assumptions C76_every_error.

(** What is asked of the other fixers in C72 to C76 holds for this one. *)
Theorem C76_decisive : forall tokenize order ast_parse parse_env G fx e,
  (forall l, Permutation (order l) l) -> proper G -> python_grammar G -> call_grammar G -> python_ast G ast_parse ->
  understood tokenize ast_parse logging_error ->
  logging_error_fixer tokenize order ast_parse parse_env = Ok fx ->
  parsed_tree G (e_tree e) -> unshared (e_tree e) -> python_nodes (e_tree e) -> plain_fixer fx /\ decisive e fx.
Proof.
  intros tokenize order ast_parse parse_env G fx e HO HG HGp HGc HA UE Hfx PT Un PN.
  assert (R : reliable e fx) by (apply (error_reliable tokenize order ast_parse parse_env (fun _ _ => Err SyntaxError) G); assumption).
  split; [apply (rl_plain e), R|apply reliable_decisive, R].
Qed.
Print Assumptions C76_decisive.

(** *** The file [try: f() except E as e: logging.error(e) ...] *)
Example C76_nonvacuous :
  understood q_tokenize l_parse logging_error /\ understood_as KStmt q_tokenize l_parse (Do logging_exception)
  /\ python_parser q_grammar l_parse_env /\ python_ast q_grammar l_parse /\ parses_evaluated l_parse
  /\ parsed_source l_parse_file q_env q_grammar l_text (TX "x.py") l_file l_e /\ unshared (e_tree l_e) /\ python_nodes (e_tree l_e) /\ well_positioned l_e
  /\ logs_error (e_tree l_e) [0; 0; 1; 0; 2; 0; 0]%nat l_func
  /\ exists fx s sub, logging_error_fixer q_tokenize q_order l_parse l_parse_env = Ok fx
     /\ combining_fixer l_parse_file q_env (literal_template (TX "pass")) [fx] = Ok s /\ s_find s l_file = Ok [sub]
     /\ matched_spans sub = [(TX "logging_error", (26, 39)); (TX "__root", (26, 42))] /\ replacements sub = Some [(TX "logging_error", TX "logging.exception")]
     /\ exception_instead q_tokenize q_order l_parse l_parse_env l_e sub (TX "logging_error") (TX "logging.exception")
     /\ dealt_with l_e [fx] [sub] [0; 0; 1; 0; 2; 0; 0]%nat.
Proof.
  split; [exact l_error|]. split; [exact l_exception|]. split; [exact l_parser|]. split; [exact l_ast|]. split; [exact l_evaluates|]. split; [exact l_parsed|].
  split; [exact l_unshared|]. split; [exact l_nodes|]. split; [exact l_positioned|]. split; [exact l_logs_error|].
  destruct l_accepted as (fx & A & El). pose proof l_run as R. unfold l_search in R. rewrite El in R. clear El. destruct R as (s & sub & Hc & Hs & R1 & R2).
  exists fx, s, sub. do 5 (split; [assumption|]). split.
  - destruct (C76_exception_instead q_tokenize q_order l_parse l_parse_env q_grammar l_parse_file q_env (literal_template (TX "pass")) [fx] fx s l_text (TX "x.py") l_file l_e [sub] sub)
      as (f & Hf & _ & K).
    + intros l. reflexivity.
    + exact q_proper.
    + split; reflexivity.
    + split; reflexivity.
    + exact l_ast.
    + exact l_parser.
    + exact l_error.
    + exact l_exception.
    + exact A.
    + intros f [<-|[]]. now left.
    + exact Hc.
    + exact l_parsed.
    + exact l_unshared.
    + exact l_nodes.
    + intros anc sp c_span _ _. apply q_plain.
    + exact Hs.
    + now left.
    + destruct Hf as [<-|[]]. destruct (K eq_refl) as [_ K']. apply (K' _ _ _ R2). now left.
  - apply (C76_every_error q_tokenize q_order l_parse l_parse_env l_parse_file q_env (literal_template (TX "pass")) q_grammar [fx] fx s l_text (TX "x.py") l_file l_e [sub] _ l_func); try assumption.
    + intros l. reflexivity.
    + exact q_proper.
    + split; reflexivity.
    + split; reflexivity.
    + exact l_ast.
    + exact l_evaluates.
    + exact l_error.
    + now left.
    + intros f [<-|[]]. now left.
    + exact l_parsed.
    + exact l_unshared.
    + exact l_nodes.
    + exact l_positioned.
    + exact l_logs_error.
Qed.
