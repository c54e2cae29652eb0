(** The file [self.assertTrue(not a in b)], and what becomes of it in two rounds. *)
From Verif Require Import TemplateProofs Py PyFacts Regex Subst ApplySpec Ast Template FromDiff Matcher MatchSpec MatcherProofs FindSpec FindProofs
  FilterSpec NavSpec NavProofs PatTok PatSpec Pattern PatternSpec EquivProofs PatternProofs PatternApi
  PyTemplate PyTemplateSpec PyTemplateProofs Search SearchSpec Removal OwnSpec SampleTrees PropsPattern
  PropsTemplate ExprSubSpec ExprSubProofs PropsExprSub Fixer FixerSpec FixerProofs PropsFixer PyCode BuiltinFixers BuiltinSpec CodeProofs BuiltinProofs BuiltinApply BuiltinTables BuiltinMain BuiltinSample PropsBuiltin
  CorrectnessFixers CorrectnessSpec CorrectnessProofs CorrectnessMain CorrectnessSearch CorrectnessSample PropsCorrectness
  ThoroughSpec ThoroughCode ThoroughProofs ThoroughSearch ThoroughMain ThoroughAttrib ThoroughTables PropsThorough
  IdiomFixers IdiomSpec IdiomProofs IdiomThorough IdiomSample PropsIdiom LoggingSpec LoggingEval LoggingProofs LoggingError LoggingMain LoggingSample PropsLogging
  LoggingExcSpec LoggingExc LoggingExcProofs LoggingExcMain LoggingExcSample PropsLoggingExc AllSpec AllProofs AllSample IterSpec IterProofs IterAll.
From Coq Require Import Permutation.

Definition j_text1 : text := TX "self.assertTrue(not a in b)".
Definition j_text2 : text := TX "self.assertTrue(a not in b)".
Definition j_text3 : text := TX "self.assertNotIn(a, b)".
Section Tree.
  Variable t : text.
  Definition j_tok (i a b : Z) : token := tk i a b (slice t a b).
  Definition j_file (meth : text) (k : Z) (mid : list token) (args : list value) : parsed_file :=
    let self := j_tok 0 0 4 in
    let close := j_tok (k + 10) (tlen t - 1) (tlen t) in
    let m := j_tok 2 5 (5 + tlen meth) in
    let toks := [self; j_tok 1 4 5; m; j_tok 3 (5 + tlen meth) (6 + tlen meth)] ++ mid ++ [close] in
    let call := nd 20 (TX "Call") self close
      [(TX "func", nd 30 (TX "Attribute") self m [(TX "value", q_var 34 self); (TX "attr", ident 31 meth); (TX "ctx", load 32)]);
       (TX "args", VList 21 args); (TX "keywords", VList 22 [])] in
    PF t (TX "x.py") [] (Some (PyInfo toks
      (nd 10 (TX "Module") self close
        [(TX "body", VList 11 [nd 12 (TX "Expr") self close [(TX "value", call)]]); (TX "type_ignores", VList 13 [])]))).
  Definition j_compare (op : text) (a b : token) : value :=
    nd 40 (TX "Compare") a b [(TX "left", q_var 50 a); (TX "ops", VList 41 [q_node 42 op []]); (TX "comparators", VList 43 [q_var 60 b])].
End Tree.
Definition j_file1 : parsed_file :=
  let n := j_tok j_text1 4 16 19 in let a := j_tok j_text1 5 20 21 in let b := j_tok j_text1 7 25 26 in
  j_file j_text1 (TX "assertTrue") 0 [n; a; j_tok j_text1 6 22 24; b]
    [nd 70 (TX "UnaryOp") n b [(TX "op", q_node 71 (TX "Not") []); (TX "operand", j_compare (TX "In") a b)]].
Definition j_file2 : parsed_file :=
  let a := j_tok j_text2 4 16 17 in let b := j_tok j_text2 7 25 26 in
  j_file j_text2 (TX "assertTrue") 0 [a; j_tok j_text2 5 18 21; j_tok j_text2 6 22 24; b] [j_compare (TX "NotIn") a b].
Definition j_file3 : parsed_file :=
  let a := j_tok j_text3 4 17 18 in let b := j_tok j_text3 6 20 21 in
  j_file j_text3 (TX "assertNotIn") 0 [a; j_tok j_text3 5 18 19; b] [q_var 50 a; q_var 60 b].
Definition j_parse_file (data path : text) : res parsed_file :=
  if negb (text_eqb path (TX "x.py")) then Err ParseError
  else if text_eqb data j_text1 then Ok j_file1 else if text_eqb data j_text2 then Ok j_file2 else if text_eqb data j_text3 then Ok j_file3 else Err ParseError.

Definition j_after1 : value := fst (build (fun x : label => x) false (Compare NotIn (Name (TX "a")) (Name (TX "b"))) 10).
Definition j_after2 : value := fst (build (fun x : label => x) false (self_call (TX "assertTrue") [Compare NotIn (Name (TX "a")) (Name (TX "b"))]) 10).
Definition j_after3 : value := fst (build (fun x : label => x) false (self_call (TX "assertNotIn") [Name (TX "a"); Name (TX "b")]) 10).
Definition j_parse_env (s : text) : res env :=
  if tmem s [TX "a not in b"; TX "(a) not in (b)"; TX "a not in (b)"] then Ok (l_env s j_after1)
  else if tmem s [TX "self.assertTrue(a not in b)"; TX "self.assertTrue((a not in b))"; TX "(self.assertTrue((a not in b)))"; TX "(self.assertTrue(a not in b))"] then Ok (l_env s j_after2)
  else if tmem s [TX "self.assertNotIn(a, b)"; TX "self.assertNotIn((a), (b))"; TX "self.assertNotIn(a, (b))"] then Ok (l_env s j_after3)
  else Err SyntaxError.
Definition j_correctness := correctness_fixers q_tokenize q_order l_parse j_parse_env.
Definition j_idiom := idiom_fixers q_tokenize q_order l_parse j_parse_env i_digit.
Definition j_unittest := unittest_fixers q_tokenize q_order l_parse j_parse_env.
Definition j_registry : res registry :=
  do c <- j_correctness; do i <- j_idiom; do u <- j_unittest; register_builtins (Registry [] []) c i u.
Definition j_search : res searcher := do r <- j_registry; fixers_from_pattern j_parse_file q_env (literal_template (TX "pass")) r (TX "*").
Lemma j_parser : python_parser q_grammar j_parse_env.
Proof.
  intros s e. unfold j_parse_env.
  assert (K : forall v, q_sample (q_module v) = true -> l_env s v = e -> parsed_tree q_grammar (e_tree e) /\ is_node (e_tree e) = true).
  { intros v Hv <-. split; [now apply q_sample_ok|reflexivity]. }
  destruct (tmem s _); [intros [= E]; apply (K j_after1); [vm_compute; reflexivity|exact E]|].
  destruct (tmem s _); [intros [= E]; apply (K j_after2); [vm_compute; reflexivity|exact E]|].
  destruct (tmem s _); [intros [= E]; apply (K j_after3); [vm_compute; reflexivity|exact E]|]. discriminate.
Qed.
Lemma j_interpreter : interpreter q_tokenize q_order l_parse j_parse_env q_grammar.
Proof. destruct l_interpreter as [I1 I2 I3 I4 I5 I6 I7 I8 I9 I10 I11 I12 I13 I14]. constructor; try assumption. exact j_parser. Qed.

(** All that can be checked by looking at every node. *)
Definition nodes_named (root : value) : bool :=
  forallb (fun v => match v with VNode i fs => if text_eqb (n_type i) (TX "Name") then match dget fs (TX "id") with Some (VConst _ (CStr _)) => true | _ => false end else true | _ => true end) (everything root).
Definition nodes_called (root : value) : bool :=
  forallb (fun v => match v with VNode i fs => if text_eqb (n_type i) (TX "Call") then match dget fs (TX "args") with Some (VList _ l) => forallb is_node l | _ => true end else true | _ => true end) (everything root).
Lemma nodes_ok root : nodes_named root = true -> nodes_called root = true -> python_nodes root.
Proof.
  intros N A. unfold nodes_named in N. unfold nodes_called in A. rewrite forallb_forall in N, A. constructor.
  - intros i fs (q & Hq) E. apply inside_everything in Hq. specialize (N _ Hq). cbn beta iota in N. rewrite (proj2 (text_eqb_eq _ _) E) in N.
    destruct (dget fs (TX "id")) as [[| |id []]|]; try discriminate N. eauto.
  - intros i fs id l a (q & Hq) E Ed Hin. apply inside_everything in Hq. specialize (A _ Hq). cbn beta iota in A. rewrite (proj2 (text_eqb_eq _ _) E), Ed in A.
    rewrite forallb_forall in A. now apply A.
Qed.
Definition countedb (root : value) : bool := forallb (fun v => match first_token v with Ok f => 0 <=? tk_start f | _ => true end) (everything root).
Lemma counted_ok e : countedb (e_tree e) = true -> counted e.
Proof. intros H n f (q & Hq) Hf. apply inside_everything in Hq. unfold countedb in H. rewrite forallb_forall in H. specialize (H _ Hq). cbn beta in H. rewrite Hf in H. lia. Qed.
Definition one_other (root : value) : bool :=
  match vfield root (TX "body") with
  | VList _ [v] => negb (text_eqb (vtype v) (TX "Import")) && negb (text_eqb (vtype v) (TX "ImportFrom"))
  | _ => false
  end.
Definition sound_file (parsed : parsed_file) : bool :=
  match pf_py parsed with
  | Some info =>
      let root := py_tree info in let e := q_env parsed info in
      laid_outb root parsed && q_sample root && all_unshared (places (vsize root) root) && nodes_named root && nodes_called root
      && located_exprsb root && evaluated_exprsb root && spansb e && one_other root && countedb root
  | None => false
  end.
Lemma sound_file_ok parse t parsed : parse t (TX "x.py") = Ok parsed -> pf_text parsed = t -> sound_file parsed = true ->
  exists e, python_file q_tokenize q_grammar parse q_env t (TX "x.py") parsed e /\ counted e.
Proof.
  intros Hp Ht H. unfold sound_file in H. destruct (pf_py parsed) as [info|] eqn:Ep; [|discriminate H]. exists (q_env parsed info).
  apply andb_prop in H as [H X9]. apply andb_prop in H as [H X8]. apply andb_prop in H as [H X7]. apply andb_prop in H as [H X6]. apply andb_prop in H as [H X5].
  apply andb_prop in H as [H X4]. apply andb_prop in H as [H X3]. apply andb_prop in H as [H X2]. apply andb_prop in H as [H X1].
  split; [|apply counted_ok; assumption]. constructor.
  - constructor.
    + exact Hp.
    + exists info. auto.
    + reflexivity.
    + apply q_sample_ok. assumption.
    + intros v a b Hv Hs. apply (lo_start _ _ (laid_out_ok _ _ H) _ _ _ Hv) in Hs. lia.
  - apply unshared_ok. assumption.
  - apply nodes_ok; assumption.
  - constructor.
    + apply located_exprs_ok. assumption.
    + apply evaluated_exprs_ok. assumption.
    + apply spans_ok. assumption.
    + unfold one_other in *. cbn [e_tree q_env]. destruct (vfield (py_tree info) (TX "body")) as [|id [|v [|]]|] eqn:Eb; try discriminate.
      apply andb_prop in X8 as [N1 N2]. exists (concat [[]]). exists id, [v], [[]]. split; [exact Eb|]. split; [|reflexivity].
      apply Forall2_cons; [|apply Forall2_nil]. apply FilterSpec.G_other; intros K; rewrite K in *; discriminate.
  - intros anc sp c_span _ _. apply q_plain.
Qed.
Lemma j_file_parser : file_parser q_tokenize q_grammar j_parse_file q_env (TX "x.py").
Proof.
  intros t parsed H. pose proof H as H0. unfold j_parse_file in H. cbn [negb] in H. change (text_eqb (TX "x.py") (TX "x.py")) with true in H. cbn [negb] in H.
  assert (K : pf_text parsed = t -> pf_path parsed = TX "x.py" -> sound_file parsed = true ->
    exists e, python_file q_tokenize q_grammar j_parse_file q_env t (TX "x.py") parsed e /\ counted e /\ pf_text parsed = t /\ pf_path parsed = TX "x.py").
  { intros K1 K2 K3. destruct (sound_file_ok j_parse_file t parsed H0 K1 K3) as (e & A & B). exists e. auto. }
  destruct (text_eqb_spec t j_text1) as [->|_]; [injection H as <-; apply K; [reflexivity|reflexivity|vm_compute; reflexivity]|].
  destruct (text_eqb_spec t j_text2) as [->|_]; [injection H as <-; apply K; [reflexivity|reflexivity|vm_compute; reflexivity]|].
  destruct (text_eqb_spec t j_text3) as [->|_]; [injection H as <-; apply K; [reflexivity|reflexivity|vm_compute; reflexivity]|]. discriminate H.
Qed.
Definition j_rewrite (n : Z) : res text := do s <- j_search; rewrite_string j_parse_file (pragma_suppressed s) j_text1 (TX "x.py") n.
Lemma j_rewrites : match j_rewrite 1, j_rewrite 10 with Ok t2, Ok t3 => text_eqb t2 j_text2 && text_eqb t3 j_text3 | _, _ => false end = true.
Proof. vm_compute. reflexivity. Qed.
