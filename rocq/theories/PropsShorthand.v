(** C88: --mode=py.expr and --mode=py.stmt are shorthands for --mode=py.  Theorems only. *)
From Verif Require Import Py PyFacts Regex Subst Fmt Ast Template Matcher Search Removal Fixer PatTok Pattern PyTemplate Codec Runner Cli Eval EvalSpec
  Main MainSpec MainProofs PropsPattern Compile CompileSpec CompileProofs CompileTable Shorthand PropsCompile.

(** The expression [src] is a call of the class [k], [ExprPattern('q')] or
    [StmtPattern('q')], with the pattern [q] alone, with or without the name of
    the parameter; the class may be behind the name of its module. *)
Definition pattern_call (ast_classes : list (text * list text)) (dedent : text -> text) (parse : text -> res pexpr) (k src q : text) : Prop :=
  exists f n args kws, parse (dedent src) = Ok (ECall f args kws) /\ dotted f n /\ named ast_classes n k
    /\ (args = [EConst (CStr q)] /\ kws = [] \/ args = [] /\ kws = [(Some (TX "pattern"), EConst (CStr q))]).
Inductive shorthand : search_mode -> text -> Prop :=
  | Short_expr : shorthand ModeExpr (TX "ExprPattern")
  | Short_stmt : shorthand ModeStmt (TX "StmtPattern").

(** The same pattern or the same refusal: with any templates, the search of
    [--mode=py "ExprPattern('q')"] is that of [--mode=py.expr q]. *)
Theorem C88_same_search : forall uni_word full_regex file_regex hashable key_code ast_classes tokenize order ast_parse negate_other dedent parse
    re_compile fixers parse_ast context pass_template mode k src q ts,
  ast_module ast_classes -> shorthand mode k -> pattern_call ast_classes dedent parse k src q ->
  let searcher_of := make_searcher re_compile
    (py_matcher uni_word full_regex file_regex hashable key_code ast_classes tokenize order ast_parse negate_other dedent parse)
    fixers tokenize order ast_parse parse_ast context pass_template in
  searcher_of ModePy (Some src) ts = searcher_of mode (Some q) ts.
Proof.
  intros uni_word full_regex file_regex hashable key_code ast_classes tokenize order ast_parse negate_other dedent parse
    re_compile fixers parse_ast context pass_template mode k src q ts HA Hs (f & n & args & kws & Hp & Hd & Hn & Ha) searcher_of.
  unfold searcher_of. destruct Hs; cbn [make_searcher].
  - rewrite (expr_call uni_word full_regex file_regex hashable key_code ast_classes tokenize order ast_parse HA negate_other dedent parse src f n args kws q Hp Hd Hn Ha). reflexivity.
  - rewrite (stmt_call uni_word full_regex file_regex hashable key_code ast_classes tokenize order ast_parse HA negate_other dedent parse src f n args kws q Hp Hd Hn Ha). reflexivity.
Qed.
Print Assumptions C88_same_search.

(** The whole program.  Two command lines that differ only in this way, with the
    templates in the same language, have the same effect: the same files with the same
    contents, the same output, the same errors. *)
Theorem C88_same_run : forall uni_word full_regex file_regex hashable key_code ast_classes tokenize order ast_parse negate_other dedent parse
    re_compile re_template fixers parse_env parse_ast context pass_template w dirs display f sty mode k lang c c' srs srs' args,
  ast_module ast_classes -> shorthand mode k ->
  cm_mode c = ModePy -> cm_mode c' = mode -> language ModePy (cm_sub_mode c) lang -> language mode (cm_sub_mode c') lang ->
  cm_options c = cm_options c' -> cm_recursive c = cm_recursive c' ->
  cm_includefile c = cm_includefile c' -> cm_excludefile c = cm_excludefile c' ->
  parse_options (cm_opts c) (cm_positional c) (cm_unknown c) = Some (srs, args) ->
  parse_options (cm_opts c') (cm_positional c') (cm_unknown c') = Some (srs', args) ->
  Forall2 (fun sr sr' => sr_sub sr = sr_sub sr'
     /\ exists src q, sr_match sr = Some src /\ sr_match sr' = Some q /\ pattern_call ast_classes dedent parse k src q) srs srs' ->
  let refex_of := refex re_compile re_template
    (py_matcher uni_word full_regex file_regex hashable key_code ast_classes tokenize order ast_parse negate_other dedent parse)
    fixers tokenize order ast_parse parse_env parse_ast context pass_template w dirs display f sty in
  refex_of c = refex_of c'.
Proof.
  intros uni_word full_regex file_regex hashable key_code ast_classes tokenize order ast_parse negate_other dedent parse
    re_compile re_template fixers parse_env parse_ast context pass_template w dirs display f sty mode k lang c c' srs srs' args
    HA Hs Hm Hm' HL HL' HO HRc HI HE HP HP' HF refex_of.
  assert (L : get_sub_parser (cm_mode c) (cm_sub_mode c) = lang) by (rewrite Hm; inversion HL; reflexivity).
  assert (L' : get_sub_parser (cm_mode c') (cm_sub_mode c') = lang) by (rewrite Hm'; destruct Hs; inversion HL'; reflexivity).
  assert (S : make_searchers re_compile re_template
      (py_matcher uni_word full_regex file_regex hashable key_code ast_classes tokenize order ast_parse negate_other dedent parse)
      fixers tokenize order ast_parse parse_env parse_ast context pass_template ModePy lang srs
    = make_searchers re_compile re_template
      (py_matcher uni_word full_regex file_regex hashable key_code ast_classes tokenize order ast_parse negate_other dedent parse)
      fixers tokenize order ast_parse parse_env parse_ast context pass_template mode lang srs').
  { clear HP HP'. induction HF as [|sr sr' srs srs' (E1 & src & q & E2 & E3 & E4) HF IH]; [reflexivity|]. cbn [make_searchers]. rewrite E1, E2, E3, IH.
    destruct (parse_templates _ _ _ _ _ lang (sr_sub sr')) as [ts|]; [|reflexivity].
    pose proof (C88_same_search uni_word full_regex file_regex hashable key_code ast_classes tokenize order ast_parse negate_other dedent parse
      re_compile fixers parse_ast context pass_template mode k src q ts HA Hs E4) as E. cbv zeta in E. rewrite E. reflexivity. }
  assert (F : options_of c = options_of c').
  { unfold options_of. rewrite HO, Hm, Hm'. destruct Hs; reflexivity. }
  unfold refex_of, refex, prepare. rewrite HP, HP', L, L', Hm, Hm', S, F, HRc, HI, HE. reflexivity.
Qed.
Print Assumptions C88_same_run.

(** A concrete case: [syntax_matchers.ExprPattern(pattern='$x+$x')] is [$x+$x]. *)
Definition sh_parse (src : text) : res pexpr :=
  if text_eqb src (TX "q")
  then Ok (ECall (EAttribute (EName (TX "syntax_matchers")) (TX "ExprPattern")) [] [(Some (TX "pattern"), EConst (CStr (TX "$x+$x")))])
  else Err SyntaxError.
Definition sh_matcher (src : text) : res matcher :=
  py_matcher (fun _ => false) (fun _ => Err ValueError) (fun _ => Err ValueError) (fun _ => true) (fun _ => 0) q_classes
    (fun _ => Ok xx_toks) (fun l => l) p_parse (fun c => c) (fun s => s) sh_parse src.
Example C88_nonvacuous :
  ast_module q_classes /\ pattern_call q_classes (fun s => s) sh_parse (TX "ExprPattern") (TX "q") (TX "$x+$x")
  /\ sh_matcher (TX "q") = xx_pattern /\ exists m, xx_pattern = Ok m.
Proof.
  assert (HA : ast_module q_classes) by apply C87_nonvacuous.
  assert (P : pattern_call q_classes (fun s => s) sh_parse (TX "ExprPattern") (TX "q") (TX "$x+$x")).
  { exists (EAttribute (EName (TX "syntax_matchers")) (TX "ExprPattern")), (TX "syntax_matchers.ExprPattern"), [], [(Some (TX "pattern"), EConst (CStr (TX "$x+$x")))].
    split; [vm_compute; reflexivity|]. split; [exact (D_attr _ _ (TX "ExprPattern") (D_name (TX "syntax_matchers")))|]. split; [|right; split; reflexivity].
    exists (TX "syntax_matchers"). split; [left; eexists; split; [right; right; now left|now left]|now right]. }
  split; [exact HA|]. split; [exact P|]. split.
  - destruct P as (f & n & args & kws & Hp & Hd & Hn & Ha). unfold sh_matcher, xx_pattern.
    exact (expr_call (fun _ => false) (fun _ => Err ValueError) (fun _ => Err ValueError) (fun _ => true) (fun _ => 0) q_classes
      (fun _ => Ok xx_toks) (fun l => l) p_parse HA (fun c => c) (fun s => s) sh_parse (TX "q") f n args kws (TX "$x+$x") Hp Hd Hn Ha).
  - eexists. vm_compute. reflexivity.
Qed.
