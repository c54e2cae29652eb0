(** The fixers for logging on a small file. *)
From Verif Require Import TemplateProofs Py PyFacts Subst ApplySpec Ast Template FromDiff Matcher MatchSpec MatcherProofs FindSpec FindProofs
  NavSpec NavProofs PatTok PatSpec Pattern PatternSpec EquivProofs PatternProofs PatternApi
  PyTemplate PyTemplateSpec PyTemplateProofs Search SearchSpec Removal OwnSpec SampleTrees PropsPattern
  PropsTemplate ExprSubSpec ExprSubProofs PropsExprSub Fixer FixerSpec FixerProofs PyCode BuiltinFixers BuiltinSpec CodeProofs BuiltinProofs BuiltinApply BuiltinTables BuiltinMain BuiltinSample
  CorrectnessFixers CorrectnessSpec CorrectnessProofs CorrectnessMain CorrectnessSearch CorrectnessSample ThoroughSpec ThoroughProofs PropsThorough
  IdiomFixers IdiomSpec IdiomProofs LoggingSpec LoggingError LoggingMain.
From Coq Require Import Permutation.

(** The parser, with code in parentheses. *)
Definition stripped (s : text) : text :=
  match s with
  | 40 :: r => if endswith (TX ")") r then firstn (length r - 1) r else s
  | _ => s
  end.
Definition l_parse (s : text) : res value := q_parse (stripped s).
Lemma l_ast : python_ast q_grammar l_parse.
Proof. intros s m. apply q_ast. Qed.
Lemma l_evaluates : parses_evaluated l_parse.
Proof. intros s m. apply q_evaluates. Qed.
Lemma l_understood c : In c q_table -> lexed c -> (forall rename, (forall x, invented (rename x)) -> stripped (show rename c) = show rename c) ->
  understood_as (q_kind c) q_tokenize l_parse c.
Proof.
  intros Hc L E. constructor; [now apply q_tokens|]. intros rename module p Hr. unfold l_parse. rewrite (E rename Hr). now apply q_tree_as.
Qed.
Lemma l_error : understood q_tokenize l_parse logging_error.
Proof. apply (l_understood logging_error); [|exact error_lexed|intros rename _; reflexivity]. unfold q_table. do 3 (apply in_or_app; right). now left. Qed.
Lemma l_exception : understood_as KStmt q_tokenize l_parse (Do logging_exception).
Proof. apply (l_understood (Do logging_exception)); [|exact exception_lexed|intros rename _; reflexivity]. unfold q_table. do 3 (apply in_or_app; right). right. now left. Qed.

(** The file
<<
try:
 f()
except E as e:
 logging.error(e)
 logging.exception(e)
>> *)
Definition l_text : text :=
  TX "try:" ++ [10] ++ TX " f()" ++ [10] ++ TX "except E as e:" ++ [10] ++ TX " logging.error(e)" ++ [10] ++ TX " logging.exception(e)".
Definition l_tok (i a b : Z) : token := tk i a b (slice l_text a b).
Definition l_try := l_tok 0 0 3.
Definition l_f := l_tok 4 6 7.
Definition l_fend := l_tok 6 8 9.
Definition l_except := l_tok 9 10 16.
Definition l_E := l_tok 10 17 18.
Definition l_log := l_tok 16 26 33.
Definition l_err := l_tok 18 34 39.
Definition l_earg := l_tok 20 40 41.
Definition l_eend := l_tok 21 41 42.
Definition l_log' := l_tok 23 44 51.
Definition l_exc := l_tok 25 52 61.
Definition l_xarg := l_tok 27 62 63.
Definition l_xend := l_tok 28 63 64.
Definition l_tokens : list token :=
  [l_try; l_tok 1 3 4; l_tok 2 4 5; l_tok 3 5 6; l_f; l_tok 5 7 8; l_fend; l_tok 7 9 10; l_tok 8 10 10; l_except; l_E; l_tok 11 19 21; l_tok 12 22 23; l_tok 13 23 24; l_tok 14 24 25;
   l_tok 15 25 26; l_log; l_tok 17 33 34; l_err; l_tok 19 39 40; l_earg; l_eend; l_tok 22 42 43; l_log'; l_tok 24 51 52; l_exc; l_tok 26 61 62; l_xarg; l_xend].
Definition l_attr (id : Z) (a b : token) : value :=
  nd id (TX "Attribute") a b [(TX "value", q_var (id + 4) a); (TX "attr", ident (id + 1) (tk_string b)); (TX "ctx", load (id + 2))].
Definition l_logs (id : Z) (a b x z : token) : value :=
  nd id (TX "Expr") a z [(TX "value", nd (id + 1) (TX "Call") a z
    [(TX "func", l_attr (id + 10) a b); (TX "args", VList (id + 2) [q_var (id + 20) x]); (TX "keywords", VList (id + 3) [])])].
Definition l_call : value :=
  nd 20 (TX "Expr") l_f l_fend [(TX "value", nd 21 (TX "Call") l_f l_fend [(TX "func", q_var 24 l_f); (TX "args", VList 22 []); (TX "keywords", VList 23 [])])].
Definition l_handler : value :=
  nd 40 (TX "ExceptHandler") l_except l_xend
    [(TX "type", q_var 45 l_E); (TX "name", ident 41 (TX "e")); (TX "body", VList 42 [l_logs 60 l_log l_err l_earg l_eend; l_logs 100 l_log' l_exc l_xarg l_xend])].
Definition l_tree : value :=
  nd 10 (TX "Module") l_try l_xend
    [(TX "body", VList 11 [nd 12 (TX "Try") l_try l_xend
        [(TX "body", VList 13 [l_call]); (TX "handlers", VList 14 [l_handler]); (TX "orelse", VList 15 []); (TX "finalbody", VList 16 [])]]);
     (TX "type_ignores", VList 17 [])].
Definition l_info : pyinfo := PyInfo l_tokens l_tree.
Definition l_file : parsed_file := PF l_text (TX "x.py") [] (Some l_info).
Definition l_e : env := q_env l_file l_info.
Definition l_parse_file (data path : text) : res parsed_file := Ok l_file.
(** What the templates give. *)
Definition l_after1 : value := fst (build (fun x : label => x) false logging_exception 10).
Definition l_after2 : value := fst (build (fun x : label => x) false (Call logging_exception [Name (TX "e")]) 10).
Definition l_env (s : text) (v : value) : env := let m := q_module v in q_env (PF s [] [] (Some (PyInfo [] m))) (PyInfo [] m).
Definition l_parse_env (s : text) : res env :=
  if tmem s [TX "logging.exception"] then Ok (l_env s l_after1)
  else if tmem s [TX "((logging.exception)(e))"; TX "(logging.exception(e))"] then Ok (l_env s l_after2)
  else Err SyntaxError.
Lemma l_parser : python_parser q_grammar l_parse_env.
Proof.
  intros s e. unfold l_parse_env.
  assert (K : forall v, q_sample (q_module v) = true -> l_env s v = e -> parsed_tree q_grammar (e_tree e) /\ is_node (e_tree e) = true).
  { intros v Hv <-. split; [now apply q_sample_ok|reflexivity]. }
  destruct (tmem s _); [intros [= E]; apply (K l_after1); [vm_compute; reflexivity|exact E]|].
  destruct (tmem s _); [intros [= E]; apply (K l_after2); [vm_compute; reflexivity|exact E]|]. discriminate.
Qed.
Lemma l_parsed : parsed_source l_parse_file q_env q_grammar l_text (TX "x.py") l_file l_e.
Proof.
  assert (L : laid_out l_tree l_file) by (apply laid_out_ok; vm_compute; reflexivity).
  constructor.
  - reflexivity.
  - exists l_info. auto.
  - reflexivity.
  - apply q_sample_ok. vm_compute. reflexivity.
  - intros v a b Hv Hs. apply (lo_start _ _ L _ _ _ Hv) in Hs. lia.
Qed.
Lemma l_located : located_exprs (e_tree l_e).
Proof. apply located_exprs_ok. vm_compute. reflexivity. Qed.
Lemma l_unshared : unshared (e_tree l_e).
Proof. apply unshared_ok. vm_compute. reflexivity. Qed.
Lemma l_positioned : well_positioned l_e.
Proof.
  constructor.
  - exact l_located.
  - apply evaluated_exprs_ok. vm_compute. reflexivity.
  - apply spans_ok. vm_compute. reflexivity.
  - exists (concat [[]]). eexists _, _, [[]]. split; [reflexivity|]. split; [|reflexivity].
    apply Forall2_cons; [|apply Forall2_nil]. apply FilterSpec.G_other; intros K; apply text_eqb_eq in K; vm_compute in K; discriminate K.
Qed.
Definition l_result := logging_error_fixer q_tokenize q_order l_parse l_parse_env.
Definition l_fixers := match l_result with Ok f => [f] | _ => [] end.
Lemma l_accepted : exists f, logging_error_fixer q_tokenize q_order l_parse l_parse_env = Ok f /\ l_fixers = [f].
Proof.
  assert (K : is_ok l_result = true) by (vm_compute; reflexivity). unfold l_fixers. change (logging_error_fixer q_tokenize q_order l_parse l_parse_env) with l_result.
  revert K. generalize l_result. intros [f|]; [|discriminate]. eauto.
Qed.
Definition l_search := combining_fixer l_parse_file q_env (literal_template (TX "pass")) l_fixers.
Lemma l_replaced : summary (find_with l_search l_file)
  = Some [([(TX "logging_error", (26, 39)); (TX "__root", (26, 42))], Some [(TX "logging_error", TX "logging.exception")])].
Proof. vm_compute. reflexivity. Qed.

Definition l_nodes : python_nodes (e_tree l_e).
Proof.
  assert (N : forallb (fun v => match v with VNode i fs => if text_eqb (n_type i) (TX "Name") then match dget fs (TX "id") with Some (VConst _ (CStr _)) => true | _ => false end else true | _ => true end)
    (everything (e_tree l_e)) = true) by (vm_compute; reflexivity).
  assert (A : forallb (fun v => match v with VNode i fs => if text_eqb (n_type i) (TX "Call") then match dget fs (TX "args") with Some (VList _ l) => forallb is_node l | _ => true end else true | _ => true end)
    (everything (e_tree l_e)) = true) by (vm_compute; reflexivity).
  rewrite forallb_forall in N, A. constructor.
  - intros i fs (q & Hq) E. apply inside_everything in Hq. specialize (N _ Hq). cbn beta iota in N. rewrite (proj2 (text_eqb_eq _ _) E) in N.
    destruct (dget fs (TX "id")) as [[| |id []]|]; try discriminate N. eauto.
  - intros i fs id l a (q & Hq) E Ed Hin. apply inside_everything in Hq. specialize (A _ Hq). cbn beta iota in A. rewrite (proj2 (text_eqb_eq _ _) E), Ed in A.
    rewrite forallb_forall in A. now apply A.
Qed.
(** The call [logging.error(e)] *)
Definition l_func : value := l_attr 70 l_log l_err.
Lemma l_logs_error : logs_error (e_tree l_e) [0; 0; 1; 0; 2; 0; 0]%nat l_func.
Proof.
  do 2 eexists. exists 62, [q_var 80 l_earg], (q_var 80 l_earg), (TX "e"), 63, [].
  split; [reflexivity|]. split; [reflexivity|]. split; [reflexivity|]. split.
  - apply ST_node; [reflexivity|]. q_fields; [|apply ST_const; reflexivity|now apply ST_context].
    apply ST_node; [reflexivity|]. q_fields; [apply ST_const; reflexivity|now apply ST_context].
  - split; [reflexivity|]. split; [now left|]. split; [do 3 eexists; split; [reflexivity|]; split; [reflexivity|]; split; [reflexivity|]; eexists; reflexivity|]. split.
    + exists l_handler. split.
      * exists [0; 0; 1; 0]%nat, [2; 0; 0]%nat. split; [reflexivity|]. split; [discriminate|]. split; [reflexivity|]. split; [reflexivity|].
        intros r1 r2 w E N1 N2 Hw. destruct r1 as [|a [|b [|c r1]]]; [now elim N1| | |].
        -- injection E as <- <-. injection Hw as <-. discriminate.
        -- injection E as <- <- <-. injection Hw as <-. intros K. apply text_eqb_eq in K. vm_compute in K. discriminate K.
        -- injection E as _ _ _ E. symmetry in E. apply app_eq_nil in E. now elim N2.
      * do 3 eexists. split; [reflexivity|]. split; [reflexivity|]. split; [reflexivity|]. left. eexists. reflexivity.
    + split; [reflexivity|constructor].
Qed.
Lemma l_run : exists s sub, l_search = Ok s /\ s_find s l_file = Ok [sub] /\ matched_spans sub = [(TX "logging_error", (26, 39)); (TX "__root", (26, 42))]
  /\ replacements sub = Some [(TX "logging_error", TX "logging.exception")].
Proof.
  pose proof (one_found l_search l_file _ l_replaced) as K. revert K. generalize l_search. intros r K. destruct K as (s & sub & A & B & C). exists s, sub. split; [exact A|]. split; [exact B|].
  split; [exact (f_equal fst C)|exact (f_equal snd C)].
Qed.
