(** Syntax-aware templates without metavariables, such as the [pass] that is left
    in an empty suite: proofs. *)
From Verif Require Import Py PyFacts Ast Template FromDiff Matcher MatchSpec FindSpec MatcherProofs PatTok Pattern PatternSpec
  PyTemplate PyTemplateSpec PyTemplateProofs.

Lemma set_all_nothing toks x new : set_all toks [] x new = toks.
Proof. reflexivity. Qed.
Lemma lex_constant lt r : lex_variables lt = [] -> lex_substitute lt r = lex_substitute lt [].
Proof.
  intros H. unfold lex_substitute. destruct (lt_template lt); [reflexivity|]. rewrite H. cbn [forallb].
  assert (E : lt_vars lt = []) by (unfold lex_variables in H; now destruct (lt_vars lt)). rewrite E.
  cbn [fold_left]. f_equal. generalize (lt_tokens lt). induction r as [|kv r IH]; intros ts; [reflexivity|]. cbn [fold_left]. apply IH.
Qed.

Section Const.
  Context (parse_ast : text -> res env) (G : grammar) (lt : lex_template) (txt : text) (e : env).
  Hypothesis HG : proper G.
  Hypothesis HP : python_parser G parse_ast.
  Hypothesis Hvars : lex_variables lt = [].
  Hypothesis Htxt : lex_substitute lt [] = Ok txt.
  Hypothesis Hparse : parse_ast txt = Ok e.

  Lemma drop_constant todo : forall safe, exists safe',
    drop_parens parse_ast lt (ast_matchers_matcher (e_tree e)) todo safe txt = Ok (txt, safe').
  Proof.
    destruct (HP _ _ Hparse) as [Pt Nt].
    induction todo as [|[k raw] todo IH]; intros safe; [now exists safe|]. cbn [drop_parens].
    rewrite (lex_constant lt _ Hvars), Htxt. cbn [bind]. rewrite Hparse. cbn [bind].
    destruct (literal_match e G (e_tree e) (e_tree e) [] HG (pt_conforms _ _ Pt) (pt_conforms _ _ Pt) Nt) as [(S & rm & b & reps & E)|[S E]];
      rewrite E; cbn [snd]; apply IH.
  Qed.
  Lemma parenthesized_constant t matchers strings rm reps : py_lex t = lt ->
    snd (eval e (py_matcher t) (e_tree e) []) = Ok (Some (RInfo rm (Some []) reps)) ->
    exists safe, parenthesized parse_ast t matchers strings = Ok (txt, safe).
  Proof.
    intros El Em. unfold parenthesized. rewrite El, (lex_constant lt _ Hvars), Htxt. cbn [bind]. rewrite Hparse, Em.
    cbn [r_bindings bind not_none check_bindings]. apply drop_constant.
  Qed.
End Const.

(** Filled in for a match that is no expression, it is always the same text. *)
Theorem constant_template tokenize order ast_parse parse_ast G t txt e rm reps parsed m matches :
  proper G -> python_parser G parse_ast -> lex_variables (py_lex t) = [] -> lex_substitute (py_lex t) [] = Ok txt ->
  parse_ast txt = Ok e -> snd (eval e (py_matcher t) (e_tree e) []) = Ok (Some (RInfo rm (Some []) reps)) ->
  (forall v tx f l a b, m = PLex v tx f l a b -> is_expr v = false) ->
  py_substitute tokenize order ast_parse parse_ast t parsed m matches = Ok txt.
Proof.
  intros HG HP Hv Ht Hp Hm He.
  destruct (parenthesized_constant parse_ast G (py_lex t) txt e HG HP Hv Ht Hp t (matchers_for_matches matches) (stringify_matches matches) rm reps eq_refl Hm)
    as (safe & E).
  eapply substitute_verbatim; [exact E|]. right. now left.
Qed.
