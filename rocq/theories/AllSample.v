(** All of the default fixers on the file of C76. *)
From Verif Require Import TemplateProofs Py PyFacts Regex Subst ApplySpec Ast Template FromDiff Matcher MatchSpec MatcherProofs FindSpec FindProofs
  FilterSpec NavSpec NavProofs PatTok PatSpec Pattern PatternSpec EquivProofs PatternProofs PatternApi
  PyTemplate PyTemplateSpec PyTemplateProofs Search SearchSpec Removal OwnSpec SampleTrees PropsPattern
  PropsTemplate ExprSubSpec ExprSubProofs PropsExprSub Fixer FixerSpec FixerProofs PropsFixer PyCode BuiltinFixers BuiltinSpec CodeProofs BuiltinProofs BuiltinApply BuiltinTables BuiltinMain BuiltinSample PropsBuiltin
  CorrectnessFixers CorrectnessSpec CorrectnessProofs CorrectnessMain CorrectnessSearch CorrectnessSample PropsCorrectness
  ThoroughSpec ThoroughCode ThoroughProofs ThoroughSearch ThoroughMain ThoroughAttrib ThoroughTables PropsThorough
  IdiomFixers IdiomSpec IdiomProofs IdiomThorough IdiomSample PropsIdiom LoggingSpec LoggingEval LoggingProofs LoggingError LoggingMain LoggingSample PropsLogging
  LoggingExcSpec LoggingExc LoggingExcProofs LoggingExcMain LoggingExcSample PropsLoggingExc AllSpec.
From Coq Require Import Permutation.

(** The parser understands all of the code. *)
Lemma stripped_unless c r : c <> 40 -> stripped (c :: r) = c :: r.
Proof. intros H. unfold stripped. destruct c as [|c|c]; try reflexivity. do 6 (destruct c; try reflexivity). congruence. Qed.
Definition starts_plain (c : code label) : bool :=
  match pieces c with
  | inl (x :: _) :: _ => negb (x =? 40)
  | inr _ :: _ => true
  | _ => false
  end.
Lemma starts_plain_ok c : starts_plain c = true -> forall rename, (forall x, invented (rename x)) -> stripped (show rename c) = show rename c.
Proof.
  intros H rename Hr. unfold starts_plain in H. unfold show. destruct (pieces c) as [|[[|x w]|x] ps] eqn:E; try discriminate H.
  - cbn [map concat app]. apply stripped_unless. intros ->. discriminate H.
  - cbn [map concat]. destruct (Hr x) as (_ & r & ->). reflexivity.
Qed.
Lemma l_understands c : In c q_table -> lexed c -> starts_plain c = true -> understood_as (q_kind c) q_tokenize l_parse c.
Proof. intros H L P. apply l_understood; [exact H|exact L|now apply starts_plain_ok]. Qed.
Lemma l_both (ocs : list (code label * code label)) k : (forall c, In c (flat_map (fun oc => [fst oc; snd oc]) ocs) -> In c q_table) ->
  Forall (fun oc => lexed (fst oc) /\ lexed (snd oc)) ocs ->
  forallb (fun oc => starts_plain (fst oc) && starts_plain (snd oc)) ocs = true ->
  Forall (fun oc => q_kind (fst oc) = k /\ q_kind (snd oc) = k) ocs ->
  Forall (fun oc => understood_as k q_tokenize l_parse (fst oc) /\ understood_as k q_tokenize l_parse (snd oc)) ocs.
Proof.
  intros H L P K. rewrite forallb_forall in P. rewrite Forall_forall in *. intros oc Hoc. destruct (L _ Hoc) as [L1 L2], (K _ Hoc) as [K1 K2].
  specialize (P _ Hoc). cbn beta in P. apply andb_prop in P as [P1 P2].
  assert (I2 : forall c, c = fst oc \/ c = snd oc -> In c q_table).
  { intros c Hc. apply H. apply in_flat_map. exists oc. split; [exact Hoc|]. cbn. destruct Hc as [->| ->]; auto. }
  rewrite <- K1 at 1. rewrite <- K2. split; apply l_understands; auto.
Qed.
Lemma l_interpreter : interpreter q_tokenize q_order l_parse l_parse_env q_grammar.
Proof.
  constructor.
  - intros l. reflexivity.
  - exact q_proper.
  - split; reflexivity.
  - split; reflexivity.
  - reflexivity.
  - exact l_ast.
  - exact l_evaluates.
  - exact l_parser.
  - apply (l_both (all_codes ++ entry_codes) KExpr).
    + intros c Hc. apply in_or_app. left. exact Hc.
    + apply Forall_app. split; [exact all_lexed|exact entry_lexed].
    + vm_compute. reflexivity.
    + pose proof q_expressions as X. rewrite Forall_forall in *. intros oc Hoc. destruct (X _ Hoc) as [X1 X2]. unfold q_kind. now rewrite X1, X2.
  - pose proof attrib_lexed as L. rewrite Forall_forall in *. intros c Hc.
    assert (K : q_kind c = KExpr /\ starts_plain c = true) by (destruct Hc as [<-|[<-|[<-|[<-|[]]]]]; split; reflexivity). destruct K as [K1 K2].
    change (understood_as KExpr q_tokenize l_parse c). rewrite <- K1. apply l_understands; auto. apply in_or_app. right. apply in_or_app. left. exact Hc.
  - apply (l_both constant_codes KStmt).
    + intros c Hc. apply in_or_app. right. apply in_or_app. right. apply in_or_app. left. exact Hc.
    + exact constant_lexed.
    + vm_compute. reflexivity.
    + repeat (apply Forall_cons; [split; reflexivity|]). apply Forall_nil.
  - exact l_error.
  - exact l_exception.
  - exact x_logs.
Qed.
Lemma l_python_file : python_file q_tokenize q_grammar l_parse_file q_env l_text (TX "x.py") l_file l_e.
Proof.
  constructor; [exact l_parsed|exact l_unshared|exact l_nodes|exact l_positioned|]. intros anc sp c_span _ _. apply q_plain.
Qed.
Definition a_correctness := correctness_fixers q_tokenize q_order l_parse l_parse_env.
Definition a_idiom := idiom_fixers q_tokenize q_order l_parse l_parse_env i_digit.
Definition a_unittest := unittest_fixers q_tokenize q_order l_parse l_parse_env.
Definition a_registry : res registry :=
  do c <- a_correctness; do i <- a_idiom; do u <- a_unittest; register_builtins (Registry [] []) c i u.
Definition a_search : res searcher := do r <- a_registry; fixers_from_pattern l_parse_file q_env (literal_template (TX "pass")) r (TX "*").
Lemma a_replaced : summary (find_with a_search l_file)
  = Some [([(TX "logging_error", (26, 39)); (TX "__root", (26, 42))], Some [(TX "logging_error", TX "logging.exception")]);
          ([(TX "arg", (62, 63)); (TX "logging_exception", (44, 64)); (TX "func", (6, 7)); (TX "__root", (44, 64))], Some [(TX "logging_exception", call_failed (TX "f"))])].
Proof. vm_compute. reflexivity. Qed.
