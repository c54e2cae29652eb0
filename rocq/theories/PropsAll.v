(** C79: the default fixers together. *)
From Verif Require Import TemplateProofs Py PyFacts Regex Subst ApplySpec Ast Template FromDiff Matcher MatchSpec MatcherProofs FindSpec FindProofs
  FilterSpec NavSpec NavProofs PatTok PatSpec Pattern PatternSpec EquivProofs PatternProofs PatternApi
  PyTemplate PyTemplateSpec PyTemplateProofs Search SearchSpec Removal OwnSpec SampleTrees PropsPattern
  PropsTemplate ExprSubSpec ExprSubProofs PropsExprSub Fixer FixerSpec FixerProofs PropsFixer PyCode BuiltinFixers BuiltinSpec CodeProofs BuiltinProofs BuiltinApply BuiltinTables BuiltinMain BuiltinSample PropsBuiltin
  CorrectnessFixers CorrectnessSpec CorrectnessProofs CorrectnessMain CorrectnessSearch CorrectnessSample PropsCorrectness
  ThoroughSpec ThoroughCode ThoroughProofs ThoroughSearch ThoroughMain ThoroughAttrib ThoroughTables PropsThorough
  IdiomFixers IdiomSpec IdiomProofs IdiomThorough IdiomSample PropsIdiom LoggingSpec LoggingEval LoggingProofs LoggingError LoggingMain LoggingSample PropsLogging
  LoggingExcSpec LoggingExc LoggingExcProofs LoggingExcMain LoggingExcSample PropsLoggingExc AllSpec AllProofs AllSample.
From Coq Require Import Permutation.

(** The fixers that a name stands for. *)
Lemma named_fixers parse_ast context pass_template cf idf uf r pat s :
  register_builtins (Registry [] []) cf idf uf = Ok r -> fixers_from_pattern parse_ast context pass_template r pat = Ok s ->
  exists fs, combining_fixer parse_ast context pass_template fs = Ok s /\ incl fs (cf ++ idf ++ uf) /\ (pat = TX "*" -> fs = cf ++ idf ++ uf).
Proof.
  intros Hr Hs. destruct (C60_builtins cf idf uf) as (r' & Er & R1 & R2 & R3 & R4 & R5). rewrite Hr in Er. injection Er as <-.
  unfold fixers_from_pattern in Hs. change (match registered r pat with Some fs => combining_fixer parse_ast context pass_template fs | None => Err ValueError end = Ok s) in Hs.
  destruct (registered r pat) as [fs|] eqn:E; [|discriminate Hs]. exists fs. split; [exact Hs|]. split; [|intros ->; congruence].
  destruct (text_eqb_spec pat (TX "*")) as [->|N1]; [rewrite R1 in E; injection E as <-; apply incl_refl|].
  destruct (text_eqb_spec pat (TX "correctness")) as [->|N2]; [rewrite R2 in E; injection E as <-; apply incl_appl, incl_refl|].
  destruct (text_eqb_spec pat (TX "idiom")) as [->|N3]; [rewrite R3 in E; injection E as <-; apply incl_appr, incl_appl, incl_refl|].
  destruct (text_eqb_spec pat (TX "unittest")) as [->|N4]; [rewrite R4 in E; injection E as <-; apply incl_appr, incl_appr, incl_refl|].
  rewrite R5 in E; [discriminate E|]. intros [K|[K|[K|[K|[]]]]]; congruence.
Qed.

(** C79.  Whatever default fixers are asked for by name, together or some of them:
    everything that is replaced is one of the rewrites, corrections and suggestions
    of C72 to C77, and is reported as such. *)
Theorem C79_explained : forall tokenize order ast_parse parse_env decimal G parse_ast context pass_template cf idf uf r pat s data path parsed e subs sub reps l txt,
  interpreter tokenize order ast_parse parse_env G ->
  correctness_fixers tokenize order ast_parse parse_env = Ok cf -> idiom_fixers tokenize order ast_parse parse_env decimal = Ok idf ->
  unittest_fixers tokenize order ast_parse parse_env = Ok uf -> register_builtins (Registry [] []) cf idf uf = Ok r ->
  fixers_from_pattern parse_ast context pass_template r pat = Ok s ->
  python_file tokenize G parse_ast context data path parsed e ->
  s_find s parsed = Ok subs -> In sub subs -> replacements sub = Some reps -> In (l, txt) reps ->
  explained tokenize order ast_parse parse_env decimal e sub l txt.
Proof.
  intros tokenize order ast_parse parse_env decimal G parse_ast context pass_template cf idf uf r pat s data path parsed e subs sub reps l txt I Hcf Hid Huf Hr Hs HF Hf Hin Er Hl.
  destruct (named_fixers _ _ _ _ _ _ _ _ _ Hr Hs) as (fs & Hc & Hi & _).
  destruct (idioms_split tokenize order ast_parse parse_env decimal idf Hid) as (nf & mf & kf & fe & fx & Hn & Hm & Hk & He & Hx & ->).
  eapply (all_sound tokenize order ast_parse parse_env decimal G I cf uf Hcf Huf nf mf kf fe fx Hn Hm Hk He Hx parse_ast context pass_template data path parsed e HF fs Hi s Hc subs Hf); eassumption.
Qed.
Print Assumptions C79_explained.

(** With [*], nothing of all that they look for is missed. *)
Theorem C79_nothing_missed : forall tokenize order ast_parse parse_env decimal G parse_ast context pass_template cf idf uf r s data path parsed e subs q,
  interpreter tokenize order ast_parse parse_env G ->
  correctness_fixers tokenize order ast_parse parse_env = Ok cf -> idiom_fixers tokenize order ast_parse parse_env decimal = Ok idf ->
  unittest_fixers tokenize order ast_parse parse_env = Ok uf -> register_builtins (Registry [] []) cf idf uf = Ok r ->
  fixers_from_pattern parse_ast context pass_template r (TX "*") = Ok s ->
  python_file tokenize G parse_ast context data path parsed e ->
  s_find s parsed = Ok subs -> defect decimal e q -> dealt_with e (cf ++ idf ++ uf) subs q.
Proof.
  intros tokenize order ast_parse parse_env decimal G parse_ast context pass_template cf idf uf r s data path parsed e subs q I Hcf Hid Huf Hr Hs HF Hf D.
  destruct (named_fixers _ _ _ _ _ _ _ _ _ Hr Hs) as (fs & Hc & Hi & Ef). specialize (Ef eq_refl). subst fs.
  destruct (idioms_split tokenize order ast_parse parse_env decimal idf Hid) as (nf & mf & kf & fe & fx & Hn & Hm & Hk & He & Hx & ->).
  apply (all_found tokenize order ast_parse parse_env decimal G I cf uf Hcf Huf nf mf kf fe fx Hn Hm Hk He Hx parse_ast context pass_template data path parsed e HF _ Hi s Hc subs Hf); [apply incl_refl|exact D].
Qed.
Print Assumptions C79_nothing_missed.

(** Without iterating, the new text is the old one with these edits and no others. *)
Theorem C79_rewritten : forall tokenize order ast_parse parse_env decimal G parse_ast context pass_template cf idf uf r pat s data path parsed e n out,
  interpreter tokenize order ast_parse parse_env G ->
  correctness_fixers tokenize order ast_parse parse_env = Ok cf -> idiom_fixers tokenize order ast_parse parse_env decimal = Ok idf ->
  unittest_fixers tokenize order ast_parse parse_env = Ok uf -> register_builtins (Registry [] []) cf idf uf = Ok r ->
  fixers_from_pattern parse_ast context pass_template r pat = Ok s ->
  python_file tokenize G parse_ast context data path parsed e -> n <= 1 ->
  rewrite_string parse_ast s data path n = Ok out ->
  exists subs edits, s_find s parsed = Ok subs /\ Permutation edits (flat_map edits_of subs) /\ Edited data 0 edits out
    /\ forall txt a b, In (txt, a, b) edits ->
       exists sub l, In sub subs /\ In (l, (a, b)) (matched_spans sub) /\ explained tokenize order ast_parse parse_env decimal e sub l txt.
Proof.
  intros tokenize order ast_parse parse_env decimal G parse_ast context pass_template cf idf uf r pat s data path parsed e n out I Hcf Hid Huf Hr Hs HF Hn1 H.
  destruct (named_fixers _ _ _ _ _ _ _ _ _ Hr Hs) as (fs & Hc & Hi & _).
  destruct (idioms_split tokenize order ast_parse parse_env decimal idf Hid) as (nf & mf & kf & fe & fx & Hn & Hm & Hk & He & Hx & ->).
  assert (exists subs, s_find s parsed = Ok subs) as (subs & Hf).
  { unfold rewrite_string in H. apply bind_Ok in H as (subs & H1 & _). apply find_iter_inv in H1 as (parsed' & E1 & E2); [|exact Hn1].
    exists subs. replace parsed with parsed'; [exact E2|]. pose proof Hc as Hc'. unfold combining_fixer in Hc'. apply bind_Ok in Hc' as (ms & _ & Hc').
    match type of Hc' with (if ?c then _ else _) = _ => destruct c; [|discriminate Hc'] end. injection Hc' as <-.
    cbn [s_parse file_regex_filtered python_searcher] in E1. unfold python_parse in E1. rewrite (ps_parsed _ _ _ _ _ _ _ (pf_source _ _ _ _ _ _ _ _ HF)) in E1. now injection E1 as <-. }
  destruct (all_rewritten tokenize order ast_parse parse_env decimal G I cf uf Hcf Huf nf mf kf fe fx Hn Hm Hk He Hx parse_ast context pass_template data path parsed e HF fs Hi s Hc subs Hf n out Hn1 H)
    as (edits & K1 & K2 & K3).
  exists subs, edits. auto.
Qed.
Print Assumptions C79_rewritten.

(** *** The file of C76, with [logging.error(e)] and [logging.exception(e)] *)
Definition a_output : text :=
  TX "try:" ++ [10] ++ TX " f()" ++ [10] ++ TX "except E as e:" ++ [10] ++ TX " logging.exception(e)" ++ [10] ++ TX " " ++ call_failed (TX "f").
Definition a_rewrite : res text := do s <- a_search; rewrite_string l_parse_file s l_text (TX "x.py") 1.
Lemma a_rewrites : match a_rewrite with Ok t => text_eqb t a_output | Err _ => false end = true.
Proof. vm_compute. reflexivity. Qed.
Example C79_nonvacuous :
  interpreter q_tokenize q_order l_parse l_parse_env q_grammar
  /\ python_file q_tokenize q_grammar l_parse_file q_env l_text (TX "x.py") l_file l_e
  /\ defect i_digit l_e [0; 0; 1; 0; 2; 0; 0]%nat /\ defect i_digit l_e [0; 0; 1; 0; 2; 1]%nat
  /\ exists cf idf uf r s sub1 sub2,
     correctness_fixers q_tokenize q_order l_parse l_parse_env = Ok cf /\ idiom_fixers q_tokenize q_order l_parse l_parse_env i_digit = Ok idf
     /\ unittest_fixers q_tokenize q_order l_parse l_parse_env = Ok uf /\ register_builtins (Registry [] []) cf idf uf = Ok r
     /\ fixers_from_pattern l_parse_file q_env (literal_template (TX "pass")) r (TX "*") = Ok s
     /\ s_find s l_file = Ok [sub1; sub2]
     /\ replacements sub1 = Some [(TX "logging_error", TX "logging.exception")] /\ replacements sub2 = Some [(TX "logging_exception", call_failed (TX "f"))]
     /\ explained q_tokenize q_order l_parse l_parse_env i_digit l_e sub1 (TX "logging_error") (TX "logging.exception")
     /\ explained q_tokenize q_order l_parse l_parse_env i_digit l_e sub2 (TX "logging_exception") (call_failed (TX "f"))
     /\ rewrite_string l_parse_file s l_text (TX "x.py") 1 = Ok a_output.
Proof.
  split; [exact l_interpreter|]. split; [exact l_python_file|]. split; [exact (Logged_error _ _ _ _ l_logs_error)|]. split; [exact (Logged_exception _ _ _ _ x_logs_caught)|].
  pose proof a_replaced as H. pose proof a_rewrites as W. unfold a_rewrite, a_search, a_registry, a_correctness, a_idiom, a_unittest in *.
  assert (X : forall cf idf uf r s subs sub l t reps, correctness_fixers q_tokenize q_order l_parse l_parse_env = Ok cf -> idiom_fixers q_tokenize q_order l_parse l_parse_env i_digit = Ok idf ->
     unittest_fixers q_tokenize q_order l_parse l_parse_env = Ok uf -> register_builtins (Registry [] []) cf idf uf = Ok r ->
     fixers_from_pattern l_parse_file q_env (literal_template (TX "pass")) r (TX "*") = Ok s -> s_find s l_file = Ok subs -> In sub subs -> replacements sub = Some reps -> In (l, t) reps ->
     explained q_tokenize q_order l_parse l_parse_env i_digit l_e sub l t).
  { intros cf idf uf r s subs sub l t reps H1 H2 H3 H4 H5 H6 H7 H8 H9.
    exact (C79_explained q_tokenize q_order l_parse l_parse_env i_digit q_grammar l_parse_file q_env (literal_template (TX "pass")) cf idf uf r (TX "*") s l_text (TX "x.py") l_file l_e subs sub reps l t
      l_interpreter H1 H2 H3 H4 H5 l_python_file H6 H7 H8 H9). }
  revert H W X.
  generalize (correctness_fixers q_tokenize q_order l_parse l_parse_env), (idiom_fixers q_tokenize q_order l_parse l_parse_env i_digit), (unittest_fixers q_tokenize q_order l_parse l_parse_env).
  intros [cf|] [idf|] [uf|] H W X; cbn [bind find_with summary] in H, W; try discriminate H.
  destruct (register_builtins (Registry [] []) cf idf uf) as [r|] eqn:Er; cbn [bind find_with summary] in H, W; [|discriminate H].
  destruct (fixers_from_pattern l_parse_file q_env (literal_template (TX "pass")) r (TX "*")) as [s|] eqn:Es; cbn [bind find_with summary] in H, W; [|discriminate H].
  destruct (s_find s l_file) as [subs|] eqn:Ef; cbn [bind summary] in H; [|discriminate H].
  exists cf, idf, uf, r, s.
  destruct subs as [|sub1 [|sub2 [|sub3 subs]]]; try discriminate H. exists sub1, sub2.
  injection H as S1 R1 S2 R2. do 5 (split; [auto|]). split; [exact Ef|]. split; [exact R1|]. split; [exact R2|].
  split; [eapply (X cf idf uf r s [sub1; sub2]); eauto; now left|]. split; [eapply (X cf idf uf r s [sub1; sub2]); eauto; [right; now left|now left]|].
  destruct (rewrite_string l_parse_file s l_text (TX "x.py") 1) as [t|]; [|discriminate W]. apply text_eqb_eq in W. now rewrite W.
Qed.
