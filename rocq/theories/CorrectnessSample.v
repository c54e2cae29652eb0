(** The correctness fixers on a small file. *)
From Verif Require Import TemplateProofs Py PyFacts Subst ApplySpec Ast Template FromDiff Matcher MatchSpec MatcherProofs FindSpec FindProofs
  NavSpec NavProofs PatTok PatSpec Pattern PatternSpec EquivProofs PatternProofs PatternApi
  PyTemplate PyTemplateSpec PyTemplateProofs Search SearchSpec Removal OwnSpec SampleTrees PropsPattern
  PropsTemplate ExprSubSpec ExprSubProofs PropsExprSub Fixer FixerSpec FixerProofs PyCode BuiltinFixers BuiltinSpec CodeProofs BuiltinProofs BuiltinApply BuiltinTables BuiltinMain BuiltinSample
  CorrectnessFixers CorrectnessSpec CorrectnessProofs CorrectnessMain CorrectnessSearch.
From Coq Require Import Permutation.

Lemma c_understood : Forall (fun oc => understood q_tokenize q_parse (fst oc) /\ understood q_tokenize q_parse (snd oc)) entry_codes.
Proof.
  pose proof all_lexed as L. pose proof entry_lexed as L'.
  assert (K : Forall (fun oc => lexed (fst oc) /\ lexed (snd oc)) q_codes) by (apply Forall_app; auto).
  apply q_understood_all in K. now apply Forall_app in K.
Qed.
Lemma c_attribs : Forall (understood q_tokenize q_parse) attrib_codes.
Proof.
  apply Forall_forall. intros c Hc. pose proof attrib_lexed as L. rewrite Forall_forall in L.
  constructor; [now apply q_tokens, L|]. apply q_tree; [apply in_or_app; right; apply in_or_app; left; exact Hc|].
  destruct Hc as [<-|[<-|[<-|[<-|[]]]]]; reflexivity.
Qed.
(** The file
<<
a is 42
attr.ib(default=[])
>> *)
Definition c_after : code label := Compare Eq (Name (TX "a")) (Int 42).
Definition c_parse_env (s : text) : res env :=
  if tmem s [TX "(a) == (42)"; TX "a == (42)"; TX "a == 42"]
  then let m := q_module (fst (build (fun x => x) false c_after 10)) in Ok (q_env (PF s [] [] (Some (PyInfo [] m))) (PyInfo [] m))
  else Err SyntaxError.
Lemma c_parser : python_parser q_grammar c_parse_env.
Proof.
  intros s e. unfold c_parse_env. destruct (tmem s _); [|discriminate]. intros [= <-]. split; [apply q_sample_ok; vm_compute; reflexivity|reflexivity].
Qed.
Definition c_text : text := TX "a is 42" ++ [10] ++ TX "attr.ib(default=[])".
Definition c_tok (i a b : Z) : token := tk i a b (slice c_text a b).
Definition c_a := c_tok 0 0 1.
Definition c_42 := c_tok 2 5 7.
Definition c_attr := c_tok 4 8 12.
Definition c_ib := c_tok 6 13 15.
Definition c_default := c_tok 8 16 23.
Definition c_open := c_tok 10 24 25.
Definition c_shut := c_tok 11 25 26.
Definition c_close := c_tok 12 26 27.
Definition c_tokens : list token :=
  [c_a; c_tok 1 2 4; c_42; c_tok 3 7 8; c_attr; c_tok 5 12 13; c_ib; c_tok 7 15 16; c_default; c_tok 9 23 24; c_open; c_shut; c_close].
Definition c_compare : value :=
  nd 40 (TX "Compare") c_a c_42 [(TX "left", q_var 50 c_a); (TX "ops", VList 41 [q_node 42 (TX "Is") []]);
    (TX "comparators", VList 43 [nd 60 (TX "Constant") c_42 c_42 [(TX "value", VConst 61 (CNum KInt 84)); (TX "kind", VNone)]])].
Definition c_keyword : value :=
  nd 90 (TX "keyword") c_default c_shut
    [(TX "arg", ident 91 (TX "default")); (TX "value", nd 92 (TX "List") c_open c_shut [(TX "elts", VList 93 []); (TX "ctx", load 94)])].
Definition c_call : value :=
  nd 70 (TX "Call") c_attr c_close
    [(TX "func", nd 71 (TX "Attribute") c_attr c_ib [(TX "value", q_var 76 c_attr); (TX "attr", ident 72 (TX "ib")); (TX "ctx", load 73)]);
     (TX "args", VList 74 []); (TX "keywords", VList 75 [c_keyword])].
Definition c_tree : value :=
  nd 10 (TX "Module") c_a c_close
    [(TX "body", VList 11 [nd 12 (TX "Expr") c_a c_42 [(TX "value", c_compare)]; nd 14 (TX "Expr") c_attr c_close [(TX "value", c_call)]]);
     (TX "type_ignores", VList 13 [])].
Definition c_info : pyinfo := PyInfo c_tokens c_tree.
Definition c_file : parsed_file := PF c_text (TX "x.py") [] (Some c_info).
Definition c_e : env := q_env c_file c_info.
Definition c_parse_file (data path : text) : res parsed_file := Ok c_file.
Lemma c_parsed : parsed_source c_parse_file q_env q_grammar c_text (TX "x.py") c_file c_e.
Proof.
  assert (L : laid_out c_tree c_file) by (apply laid_out_ok; vm_compute; reflexivity).
  constructor.
  - reflexivity.
  - exists c_info. auto.
  - reflexivity.
  - apply q_sample_ok. vm_compute. reflexivity.
  - intros v a b Hv Hs. apply (lo_start _ _ L _ _ _ Hv) in Hs. lia.
Qed.
Lemma c_located : located_exprs (e_tree c_e).
Proof. apply located_exprs_ok. vm_compute. reflexivity. Qed.
Definition c_fixers := fixers_of (correctness_fixers q_tokenize q_order q_parse c_parse_env).
Lemma c_accepted : correctness_fixers q_tokenize q_order q_parse c_parse_env = Ok c_fixers.
Proof. apply fixers_ok. vm_compute. reflexivity. Qed.
Definition c_search := combining_fixer c_parse_file q_env (literal_template (TX "pass")) c_fixers.
Lemma c_replaced : summary (find_with c_search c_file)
  = Some [([(TX "lhs", (0, 1)); (TX "rhs", (5, 7)); (TX "__root", (0, 7))], Some [(TX "__root", TX "a == 42")]);
          ([(TX "keyword", (16, 26)); (TX "__root", (8, 27))], Some [(TX "keyword", TX "factory=list")])].
Proof. vm_compute. reflexivity. Qed.
Lemma two_found (r : res searcher) parsed x y : summary (find_with r parsed) = Some [x; y] ->
  exists s sub1 sub2, r = Ok s /\ s_find s parsed = Ok [sub1; sub2] /\ (matched_spans sub1, replacements sub1) = x /\ (matched_spans sub2, replacements sub2) = y.
Proof.
  unfold find_with, summary. destruct r as [s|]; [|discriminate]. cbn [bind]. destruct (s_find s parsed) as [[|sub1 [|sub2 [|]]]|] eqn:Es; try discriminate.
  cbn [map]. intros E. exists s, sub1, sub2. split; [reflexivity|]. split; [exact Es|]. injection E as E1 E2. subst. split; reflexivity.
Qed.
Lemma c_run : exists s sub1 sub2, c_search = Ok s /\ s_find s c_file = Ok [sub1; sub2]
  /\ replacements sub1 = Some [(TX "__root", TX "a == 42")]
  /\ replacements sub2 = Some [(TX "keyword", TX "factory=list")].
Proof.
  pose proof (two_found c_search c_file _ _ c_replaced) as K. revert K. generalize c_search. intros r K. destruct K as (s & sub1 & sub2 & A & B & C & D). exists s, sub1, sub2. split; [exact A|]. split; [exact B|].
  split; [exact (f_equal snd C)|exact (f_equal snd D)].
Qed.
