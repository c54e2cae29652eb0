(** The fixers for mutable constants on a small file. *)
From Verif Require Import TemplateProofs Py PyFacts Subst ApplySpec Ast Template FromDiff Matcher MatchSpec MatcherProofs FindSpec FindProofs
  NavSpec NavProofs PatTok PatSpec Pattern PatternSpec EquivProofs PatternProofs PatternApi
  PyTemplate PyTemplateSpec PyTemplateProofs Search SearchSpec Removal OwnSpec SampleTrees PropsPattern
  PropsTemplate ExprSubSpec ExprSubProofs PropsExprSub Fixer FixerSpec FixerProofs PyCode BuiltinFixers BuiltinSpec CodeProofs BuiltinProofs BuiltinApply BuiltinTables BuiltinMain BuiltinSample
  CorrectnessFixers CorrectnessSpec CorrectnessProofs CorrectnessMain CorrectnessSearch CorrectnessSample IdiomFixers IdiomSpec IdiomProofs.
From Coq Require Import Permutation.

Lemma i_constants : Forall (fun oc => understood_as KStmt q_tokenize q_parse (fst oc) /\ understood_as KStmt q_tokenize q_parse (snd oc)) constant_codes.
Proof.
  pose proof constant_lexed as L. rewrite Forall_forall in *. intros oc Hoc. destruct (L _ Hoc) as [L1 L2].
  assert (S : is_statement (fst oc) = true /\ is_statement (snd oc) = true) by (destruct Hoc as [<-|[<-|[<-|[]]]]; split; reflexivity).
  assert (K : forall c, lexed c -> is_statement c = true -> (c = fst oc \/ c = snd oc) -> understood_as KStmt q_tokenize q_parse c).
  { intros c Lc Sc Hc. constructor; [now apply q_tokens|]. pose proof (q_tree_as c) as K. unfold q_kind in K. rewrite Sc in K. apply K.
    apply in_or_app. right. apply in_or_app. right. apply in_or_app. left. apply in_flat_map. exists oc. split; [exact Hoc|]. cbn. destruct Hc; auto. }
  split; apply K; tauto.
Qed.
Definition i_digit (c : Z) : bool := (48 <=? c) && (c <=? 57).
(** The file
<<
A1 = {x}
B = set(x)
b = set(x)
>> *)
Definition i_text : text := TX "A1 = {x}" ++ [10] ++ TX "B = set(x)" ++ [10] ++ TX "b = set(x)".
Definition i_tok (i a b : Z) : token := tk i a b (slice i_text a b).
Definition i_A := i_tok 0 0 2.
Definition i_open := i_tok 2 5 6.
Definition i_x := i_tok 3 6 7.
Definition i_close := i_tok 4 7 8.
Definition i_B := i_tok 6 9 10.
Definition i_set := i_tok 8 13 16.
Definition i_y := i_tok 10 17 18.
Definition i_end := i_tok 11 18 19.
Definition i_b := i_tok 13 20 21.
Definition i_set' := i_tok 15 24 27.
Definition i_z := i_tok 17 28 29.
Definition i_end' := i_tok 18 29 30.
Definition i_tokens : list token :=
  [i_A; i_tok 1 3 4; i_open; i_x; i_close; i_tok 5 8 9; i_B; i_tok 7 11 12; i_set; i_tok 9 16 17; i_y; i_end; i_tok 12 19 20; i_b; i_tok 14 22 23; i_set'; i_tok 16 27 28; i_z; i_end'].
Definition i_store (id : Z) (t : token) : value :=
  nd id (TX "Name") t t [(TX "id", ident (id + 2) (tk_string t)); (TX "ctx", q_node (id + 1) (TX "Store") [])].
Definition i_assign (id : Z) (target : value) (a b : token) (v : value) : value :=
  nd id (TX "Assign") a b [(TX "targets", VList (id + 1) [target]); (TX "value", v); (TX "type_comment", VConst (id + 2) CNone)].
Definition i_call (id : Z) (f x z : token) : value :=
  nd id (TX "Call") f z [(TX "func", q_var (id + 10) f); (TX "args", VList (id + 1) [q_var (id + 20) x]); (TX "keywords", VList (id + 2) [])].
Definition i_tree : value :=
  nd 10 (TX "Module") i_A i_end'
    [(TX "body", VList 11 [i_assign 20 (i_store 30 i_A) i_A i_close (nd 40 (TX "Set") i_open i_close [(TX "elts", VList 41 [q_var 50 i_x])]);
                           i_assign 60 (i_store 70 i_B) i_B i_end (i_call 80 i_set i_y i_end);
                           i_assign 160 (i_store 170 i_b) i_b i_end' (i_call 180 i_set' i_z i_end')]);
     (TX "type_ignores", VList 13 [])].
Definition i_info : pyinfo := PyInfo i_tokens i_tree.
Definition i_file : parsed_file := PF i_text (TX "x.py") [] (Some i_info).
Definition i_e : env := q_env i_file i_info.
Definition i_parse_file (data path : text) : res parsed_file := Ok i_file.
(** What the templates give. *)
Definition i_after1 : value :=
  q_node 10 (TX "Assign") [(TX "targets", VList 11 [q_name 20 true (TX "A1")]);
    (TX "value", q_node 30 (TX "Call") [(TX "func", q_name 40 false (TX "frozenset"));
      (TX "args", VList 31 [q_node 50 (TX "Set") [(TX "elts", VList 51 [q_name 60 false (TX "x")])]]); (TX "keywords", VList 32 [])]);
    (TX "type_comment", VConst 12 CNone)].
Definition i_after2 : value := fst (build (fun x => x) false (frozen_is (TX "B") (TX "x")) 10).
Definition i_env (s : text) (v : value) : env := let m := q_body v in q_env (PF s [] [] (Some (PyInfo [] m))) (PyInfo [] m).
Definition i_parse_env (s : text) : res env :=
  if tmem s [TX "(A1) = frozenset(({x}))"; TX "A1 = frozenset(({x}))"; TX "A1 = frozenset({x})"] then Ok (i_env s i_after1)
  else if tmem s [TX "(B) = frozenset((x))"; TX "B = frozenset((x))"; TX "B = frozenset(x)"] then Ok (i_env s i_after2)
  else Err SyntaxError.
Lemma i_parser : python_parser q_grammar i_parse_env.
Proof.
  intros s e. unfold i_parse_env.
  assert (K : forall v, q_sample (q_body v) = true -> i_env s v = e -> parsed_tree q_grammar (e_tree e) /\ is_node (e_tree e) = true).
  { intros v Hv <-. split; [now apply q_sample_ok|reflexivity]. }
  destruct (tmem s _); [intros [= E]; apply (K i_after1); [vm_compute; reflexivity|exact E]|].
  destruct (tmem s _); [intros [= E]; apply (K i_after2); [vm_compute; reflexivity|exact E]|]. discriminate.
Qed.
Lemma i_parsed : parsed_source i_parse_file q_env q_grammar i_text (TX "x.py") i_file i_e.
Proof.
  assert (L : laid_out i_tree i_file) by (apply laid_out_ok; vm_compute; reflexivity).
  constructor.
  - reflexivity.
  - exists i_info. auto.
  - reflexivity.
  - apply q_sample_ok. vm_compute. reflexivity.
  - intros v a b Hv Hs. apply (lo_start _ _ L _ _ _ Hv) in Hs. lia.
Qed.
Lemma i_located : located_exprs (e_tree i_e).
Proof. apply located_exprs_ok. vm_compute. reflexivity. Qed.
Definition i_fixers := fixers_of (constant_fixers q_tokenize q_order q_parse i_parse_env i_digit).
Lemma i_accepted : constant_fixers q_tokenize q_order q_parse i_parse_env i_digit = Ok i_fixers.
Proof. apply fixers_ok. vm_compute. reflexivity. Qed.
Definition i_search := combining_fixer i_parse_file q_env (literal_template (TX "pass")) i_fixers.
Lemma i_replaced : summary (find_with i_search i_file)
  = Some [([(TX "constant", (0, 2)); (TX "set", (5, 8)); (TX "__root", (0, 8))], Some [(TX "__root", TX "A1 = frozenset({x})")]);
          ([(TX "constant", (9, 10)); (TX "iterable", (17, 18)); (TX "__root", (9, 19))], Some [(TX "__root", TX "B = frozenset(x)")])].
Proof. vm_compute. reflexivity. Qed.
Lemma i_run : exists s sub1 sub2, i_search = Ok s /\ s_find s i_file = Ok [sub1; sub2]
  /\ replacements sub1 = Some [(TX "__root", TX "A1 = frozenset({x})")]
  /\ replacements sub2 = Some [(TX "__root", TX "B = frozenset(x)")].
Proof.
  pose proof (two_found i_search i_file _ _ i_replaced) as K. revert K. generalize i_search. intros r K. destruct K as (s & sub1 & sub2 & A & B & C & D). exists s, sub1, sub2. split; [exact A|]. split; [exact B|].
  split; [exact (f_equal snd C)|exact (f_equal snd D)].
Qed.
