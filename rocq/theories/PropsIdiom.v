(** C75: mutable constants are made immutable. *)
From Verif Require Import TemplateProofs Py PyFacts Regex Subst ApplySpec Ast Template FromDiff Matcher MatchSpec MatcherProofs FindSpec FindProofs
  FilterSpec NavSpec NavProofs PatTok PatSpec Pattern PatternSpec EquivProofs PatternProofs PatternApi
  PyTemplate PyTemplateSpec PyTemplateProofs Search SearchSpec Removal OwnSpec SampleTrees PropsPattern
  PropsTemplate ExprSubSpec ExprSubProofs PropsExprSub Fixer FixerSpec FixerProofs PyCode BuiltinFixers BuiltinSpec CodeProofs BuiltinProofs BuiltinApply BuiltinTables BuiltinMain BuiltinSample
  CorrectnessFixers CorrectnessSpec CorrectnessProofs CorrectnessMain CorrectnessSearch CorrectnessSample
  ThoroughSpec ThoroughCode ThoroughProofs ThoroughSearch ThoroughMain PropsThorough IdiomFixers IdiomSpec IdiomProofs IdiomThorough IdiomSample.
From Coq Require Import Permutation.

(** C75.  When a search with the fixers for mutable constants (and others, perhaps)
    replaces something on behalf of one of them, then what is replaced is a whole
    statement [C = {...}], [C = {... for ...}] or [C = set(x)], where the text of [C] is
    the name of a constant, and the new text is the statement that assigns
    [frozenset] of the same thing to the same [C]; it is reported as the table says,
    as not significant. *)
Theorem C75_frozen : forall tokenize order ast_parse parse_env decimal G parse_ast context pass_template fs cf s data path parsed e subs sub,
  (forall l, Permutation (order l) l) -> proper G -> python_grammar G -> python_ast G ast_parse -> python_parser G parse_env ->
  Forall (fun oc => understood_as KStmt tokenize ast_parse (fst oc) /\ understood_as KStmt tokenize ast_parse (snd oc)) constant_codes ->
  constant_fixers tokenize order ast_parse parse_env decimal = Ok cf -> (forall f, In f fs -> In f cf \/ plain_fixer f) ->
  combining_fixer parse_ast context pass_template fs = Ok s ->
  parsed_source parse_ast context G data path parsed e -> unshared (e_tree e) -> located_exprs (e_tree e) ->
  (forall anc sp c_span, PatternSpec.inside (e_tree e) anc -> m_span (create_match parsed anc) = Some sp ->
    plain_source tokenize (around parsed anc sp (TX "$current_expr") c_span)) ->
  s_find s parsed = Ok subs -> In sub subs ->
  exists f, In f fs /\ carries f sub
    /\ (In f cf -> forall reps l txt, replacements sub = Some reps -> In (l, txt) reps ->
        exists en, In en (constant_table decimal) /\ (message sub, category sub, significant sub) = (Some (en_message en), Some (en_category en), false)
           /\ statement_corrected parse_env e sub l txt en).
Proof.
  intros tokenize order ast_parse parse_env decimal G parse_ast context pass_template fs cf s data path parsed e subs sub HO HG HGp HA HPa U.
  exact (constants_made_immutable tokenize order ast_parse parse_env decimal G HO HG HGp HA U parse_ast context pass_template HPa fs cf s data path parsed e subs sub).
Qed.
Print Assumptions C75_frozen.

(** The regular expression accepts the names of constants, and nothing else. *)
Theorem C75_constant_names : forall decimal txt a b, 0 <= a -> 0 <= b <= tlen txt ->
  (exists regs, cr_match (dollar (constant_re decimal)) txt a b = Some regs) <-> constant_name decimal (slice txt a b).
Proof.
  intros decimal txt a b Ha [H0 Hb]. split; [now apply dollar_constant|now apply constant_dollar].
Qed.
Print Assumptions C75_constant_names.

(** No such assignment is missed: there is a substitution of it, or of some code
    around it that one of the fixers matches (unless a template has failed for this
    code). *)
Theorem C75_every_constant : forall tokenize order ast_parse parse_env decimal parse_ast context pass_template G fs cf s data path parsed e subs q c,
  (forall l, Permutation (order l) l) -> proper G -> python_grammar G -> python_ast G ast_parse -> parses_evaluated ast_parse ->
  Forall (fun oc => understood_as KStmt tokenize ast_parse (fst oc) /\ understood_as KStmt tokenize ast_parse (snd oc)) constant_codes ->
  constant_fixers tokenize order ast_parse parse_env decimal = Ok cf ->
  incl cf fs -> (forall f, In f fs -> In f cf \/ (plain_fixer f /\ decisive e f)) ->
  combining_fixer parse_ast context pass_template fs = Ok s ->
  parsed_source parse_ast context G data path parsed e -> well_positioned e ->
  s_find s parsed = Ok subs ->
  at_path (e_tree e) q = Some c -> (exists en, In en (constant_table decimal) /\ bug en e c) ->
  dealt_with e fs subs q.
Proof.
  intros tokenize order ast_parse parse_env decimal parse_ast context pass_template G fs cf s data path parsed e subs q c HO HG HGp HA HE U Hcf Hin Hfs Hc Hp HW Hs Hq (en & Hen & Hb).
  pose proof (ps_tree _ _ _ _ _ _ _ Hp) as PT.
  destruct (constant_caught tokenize order ast_parse parse_env decimal G HO HG HGp HA HE U e PT HW cf en Hcf Hen) as (f & Hf & Hsure).
  eapply (search_all parse_ast context pass_template G fs s data path parsed e subs q c (fun g => In g cf) f (bug en e)); eauto.
  intros g Hg. exact (constants_reliable tokenize order ast_parse parse_env decimal G HO HG HGp HA HE U e PT HW cf g Hcf Hg).
Qed.
Print Assumptions C75_every_constant.

(** What is asked of the other fixers in C72 to C75 holds for these. *)
Theorem C75_decisive : forall tokenize order ast_parse parse_env decimal G cf e f,
  (forall l, Permutation (order l) l) -> proper G -> python_grammar G -> python_ast G ast_parse -> parses_evaluated ast_parse ->
  Forall (fun oc => understood_as KStmt tokenize ast_parse (fst oc) /\ understood_as KStmt tokenize ast_parse (snd oc)) constant_codes ->
  constant_fixers tokenize order ast_parse parse_env decimal = Ok cf ->
  parsed_tree G (e_tree e) -> well_positioned e -> In f cf -> plain_fixer f /\ decisive e f.
Proof.
  intros tokenize order ast_parse parse_env decimal G cf e f HO HG HGp HA HE U Hcf PT HW Hf.
  pose proof (constants_reliable tokenize order ast_parse parse_env decimal G HO HG HGp HA HE U e PT HW cf f Hcf Hf) as R.
  split; [apply (rl_plain e), R|apply reliable_decisive, R].
Qed.
Print Assumptions C75_decisive.

(** *** The file with [A1 = {x}], [B = set(x)] and [b = set(x)] *)
Lemma i_positioned : well_positioned i_e.
Proof.
  constructor.
  - exact i_located.
  - apply evaluated_exprs_ok. vm_compute. reflexivity.
  - apply spans_ok. vm_compute. reflexivity.
  - exists (concat [[]; []; []]). eexists _, _, [[]; []; []]. split; [reflexivity|]. split; [|reflexivity].
    repeat (apply Forall2_cons; [apply G_other; discriminate|]). apply Forall2_nil.
Qed.
Definition i_first : value := i_assign 20 (i_store 30 i_A) i_A i_close (nd 40 (TX "Set") i_open i_close [(TX "elts", VList 41 [q_var 50 i_x])]).
Lemma i_bug : exists en, In en (constant_table i_digit) /\ bug en i_e i_first.
Proof.
  eexists. split; [now left|].
  exists (fun x => if text_eqb x (TX "constant") then i_store 30 i_A else nd 40 (TX "Set") i_open i_close [(TX "elts", VList 41 [q_var 50 i_x])]).
  split.
  - apply ST_node; [reflexivity|]. q_fields.
    + apply ST_list. constructor; [now apply ST_var|constructor].
    + now apply ST_var.
    + apply ST_const. reflexivity.
  - cbn [en_when]. split; [|reflexivity]. exists 0, 2. split; [vm_compute; reflexivity|]. exists (TX "A1"). split; [left; vm_compute; reflexivity|]. split; [discriminate|].
    apply Forall_cons; [left; vm_compute; split; discriminate|]. apply Forall_cons; [right; right; vm_compute; reflexivity|apply Forall_nil].
Qed.
Example C75_nonvacuous :
  Forall (fun oc => understood_as KStmt q_tokenize q_parse (fst oc) /\ understood_as KStmt q_tokenize q_parse (snd oc)) constant_codes
  /\ constant_fixers q_tokenize q_order q_parse i_parse_env i_digit = Ok i_fixers /\ python_parser q_grammar i_parse_env /\ python_ast q_grammar q_parse
  /\ parsed_source i_parse_file q_env q_grammar i_text (TX "x.py") i_file i_e /\ unshared (e_tree i_e) /\ well_positioned i_e
  /\ (exists en, In en (constant_table i_digit) /\ bug en i_e i_first)
  /\ exists s sub1 sub2, combining_fixer i_parse_file q_env (literal_template (TX "pass")) i_fixers = Ok s /\ s_find s i_file = Ok [sub1; sub2]
     /\ replacements sub1 = Some [(TX "__root", TX "A1 = frozenset({x})")] /\ replacements sub2 = Some [(TX "__root", TX "B = frozenset(x)")]
     /\ (forall sub l txt reps, In sub [sub1; sub2] -> replacements sub = Some reps -> In (l, txt) reps ->
           exists en, In en (constant_table i_digit) /\ statement_corrected i_parse_env i_e sub l txt en)
     /\ (forall q c, at_path (e_tree i_e) q = Some c -> (exists en, In en (constant_table i_digit) /\ bug en i_e c) -> dealt_with i_e i_fixers [sub1; sub2] q).
Proof.
  split; [exact i_constants|]. split; [exact i_accepted|]. split; [exact i_parser|]. split; [exact q_ast|]. split; [exact i_parsed|].
  assert (Un : unshared (e_tree i_e)) by (apply unshared_ok; vm_compute; reflexivity).
  split; [exact Un|]. split; [exact i_positioned|]. split; [exact i_bug|].
  pose proof i_run as R. pose proof i_accepted as A. unfold i_search in R. revert R A. generalize i_fixers. intros fs R A.
  destruct R as (s & sub1 & sub2 & Hc & Hs & R1 & R2). exists s, sub1, sub2. do 4 (split; [assumption|]). split.
  - intros sub l txt reps Hin Er Hl.
    destruct (C75_frozen q_tokenize q_order q_parse i_parse_env i_digit q_grammar i_parse_file q_env (literal_template (TX "pass")) fs fs s i_text (TX "x.py") i_file i_e [sub1; sub2] sub)
      as (f & Hf & _ & K); try assumption.
    + intros l0. reflexivity.
    + exact q_proper.
    + split; reflexivity.
    + exact q_ast.
    + exact i_parser.
    + exact i_constants.
    + intros f Hf. now left.
    + exact i_parsed.
    + exact i_located.
    + intros anc sp c_span _ _. apply q_plain.
    + destruct (K Hf reps l txt Er Hl) as (en & E1 & _ & E2). eauto.
  - intros q c Hq Hb.
    apply (C75_every_constant q_tokenize q_order q_parse i_parse_env i_digit i_parse_file q_env (literal_template (TX "pass")) q_grammar fs fs s i_text (TX "x.py") i_file i_e [sub1; sub2] q c); try assumption.
    + intros l. reflexivity.
    + exact q_proper.
    + split; reflexivity.
    + exact q_ast.
    + exact q_evaluates.
    + exact i_constants.
    + intros f Hf. exact Hf.
    + intros f Hf. left. exact Hf.
    + exact i_parsed.
    + exact i_positioned.
Qed.
