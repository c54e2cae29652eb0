(** Proofs for C88: --mode=py.expr and --mode=py.stmt are shorthands. *)
From Verif Require Import Py PyFacts Regex Ast Template Matcher MatcherProofs PatTok Pattern Eval EvalSpec EvalProofs Compile CompileSpec CompileProofs CompileTable CompileExpr.

Section Short.
  Variable uni_word : char -> bool.
  Variable full_regex file_regex : text -> res crx.
  Variable hashable : obj -> bool.
  Variable key_code : obj -> Z.
  Variable ast_classes : list (text * list text).
  Variable tokenize : text -> res (list ptok).
  Variable order : list nat -> list nat.
  Variable ast_parse : text -> res value.
  Hypothesis HA : ast_module ast_classes.
  Notation table := (class_table uni_word full_regex file_regex hashable key_code ast_classes tokenize order ast_parse).
  Notation is_class := (is_class uni_word full_regex file_regex hashable key_code ast_classes tokenize order ast_parse).

  Lemma table_entry : exists t, table = Ok t /\ forall n module c, is_class module c -> named ast_classes n (c_name c) -> dget t n = Some c.
  Proof.
    destruct (add_modules_total (fun _ => true) (modules uni_word full_regex file_regex hashable key_code ast_classes tokenize order ast_parse) []) as (t & Ht & S & _ & C).
    exists t. split; [exact Ht|]. intros n module c Hc (module' & Hn' & Hn).
    apply (names_iff uni_word full_regex file_regex hashable key_code ast_classes tokenize order ast_parse) in Hn' as (c' & Hc' & E').
    assert (c' = c) as -> by (apply (same_class uni_word full_regex file_regex hashable key_code ast_classes tokenize order ast_parse HA module' c' module c Hc' Hc E')).
    assert (En : entry (fun _ => true) (modules uni_word full_regex file_regex hashable key_code ast_classes tokenize order ast_parse) n c) by (apply entry_iff; exists module'; split; [exact Hc'|exact Hn]).
    specialize (C n c En). destruct (dget t n) as [c1|] eqn:E1; [|destruct (C eq_refl)]. apply f_equal. destruct (S n c1 E1) as [E2|E2]; [discriminate E2|]. apply entry_iff in E2 as (m1 & Hm1 & Hn1).
    apply (same_class uni_word full_regex file_regex hashable key_code ast_classes tokenize order ast_parse HA m1 c1 module' c Hm1 Hc').
    rewrite (last_of uni_word full_regex file_regex hashable key_code ast_classes tokenize order ast_parse HA m1 c1 m1 n Hm1 Hn1). symmetry.
    apply (last_of uni_word full_regex file_regex hashable key_code ast_classes tokenize order ast_parse HA module' c module' n Hc' Hn).
  Qed.

  Lemma no_syntax_error pull src d : (forall v, pull v <> Err SyntaxError) -> base_ast_pattern tokenize order ast_parse pull src d <> Err SyntaxError.
  Proof.
    intros Hp. unfold base_ast_pattern. destruct (remapped_ast tokenize order ast_parse src d) as [[[v names] subs]|x]; [|destruct x; discriminate].
    assert (V : verify_variables v names <> Err SyntaxError).
    { unfold verify_variables. repeat match goal with |- context [if ?b then _ else _] => destruct b end; discriminate. }
    destruct (verify_variables v names) as [[]|x]; cbn [bind]; [|congruence]. specialize (Hp v). destruct (pull v) as [w|x]; cbn [bind]; [discriminate|congruence].
  Qed.
  Lemma pull_stmt_errors v : pull_stmt v <> Err SyntaxError.
  Proof. unfold pull_stmt. repeat match goal with |- context [match ?x with _ => _ end] => destruct x; try discriminate end. Qed.
  Lemma pull_expr_errors v : pull_expr v <> Err SyntaxError.
  Proof.
    unfold pull_expr. pose proof (pull_stmt_errors v) as H. destruct (pull_stmt v) as [w|x]; cbn [bind]; [|congruence]. destruct (negb _); discriminate.
  Qed.

  Variable negate_other : const -> const.
  Variable dedent : text -> text.
  Variable parse : text -> res pexpr.
  Notation py_matcher := (py_matcher uni_word full_regex file_regex hashable key_code ast_classes tokenize order ast_parse negate_other dedent parse).

  Lemma class_call k compile i src f n args kws q :
    nth_error (syntax_classes tokenize order ast_parse) i = Some (pattern_class k compile) -> (forall s, compile s [] <> Err SyntaxError) ->
    parse (dedent src) = Ok (ECall f args kws) -> dotted f n -> named ast_classes n k ->
    args = [EConst (CStr q)] /\ kws = [] \/ args = [] /\ kws = [(Some (TX "pattern"), EConst (CStr q))] ->
    py_matcher src = compile q [].
  Proof.
    intros Hi Hc Hp Hd Hn Ha. destruct table_entry as (t & Et & T).
    assert (Ec : dget t n = Some (pattern_class k compile)).
    { apply (T n (TX "syntax_matchers")); [|exact Hn]. apply (in_syntax uni_word full_regex file_regex hashable key_code ast_classes tokenize order ast_parse i); [exact Hi|reflexivity]. }
    unfold Compile.py_matcher. rewrite Et. cbn [bind]. unfold evaluated, compile_matcher. rewrite Hp. apply dotted_iff in Hd.
    assert (K : forall h, convert obj OConst (negate negate_other) OTuple OList OSet ODict hashable (map (fun nc => (fst nc, instantiate (snd nc))) t) constant_table (ECall f args kws) h
      = (h ++ [match args with [] => Event n [] [(TX "pattern", OConst (CStr q))] | _ => Event n [OConst (CStr q)] [] end], do m <- compile q []; Ok (OMatcher m))).
    { intros h. cbn [convert]. rewrite Hd, dget_callables, Ec. destruct Ha as [[-> ->]|[-> ->]]; reflexivity. }
    rewrite K. specialize (Hc q). destruct (compile q []) as [m|x]; cbn [bind snd]; [reflexivity|]. destruct x; cbn [snd bind]; congruence.
  Qed.
  Lemma expr_call src f n args kws q : parse (dedent src) = Ok (ECall f args kws) -> dotted f n -> named ast_classes n (TX "ExprPattern") ->
    args = [EConst (CStr q)] /\ kws = [] \/ args = [] /\ kws = [(Some (TX "pattern"), EConst (CStr q))] -> py_matcher src = expr_pattern tokenize order ast_parse q [].
  Proof. apply (class_call (TX "ExprPattern") (expr_pattern tokenize order ast_parse) 0); [reflexivity|]. intros s. apply no_syntax_error. exact pull_expr_errors. Qed.
  Lemma stmt_call src f n args kws q : parse (dedent src) = Ok (ECall f args kws) -> dotted f n -> named ast_classes n (TX "StmtPattern") ->
    args = [EConst (CStr q)] /\ kws = [] \/ args = [] /\ kws = [(Some (TX "pattern"), EConst (CStr q))] -> py_matcher src = stmt_pattern tokenize order ast_parse q [].
  Proof. apply (class_call (TX "StmtPattern") (stmt_pattern tokenize order ast_parse) 14); [reflexivity|]. intros s. apply no_syntax_error. exact pull_stmt_errors. Qed.
End Short.
