(** C77: [logging.exception] of a caught exception describes the call instead. *)
From Verif Require Import TemplateProofs Py PyFacts Regex Subst ApplySpec Ast Template FromDiff Matcher MatchSpec MatcherProofs FindSpec FindProofs
  FilterSpec NavSpec NavProofs PatTok PatSpec Pattern PatternSpec EquivProofs PatternProofs PatternApi
  PyTemplate PyTemplateSpec PyTemplateProofs Search SearchSpec Removal OwnSpec SampleTrees PropsPattern
  PropsTemplate ExprSubSpec ExprSubProofs PropsExprSub Fixer FixerSpec FixerProofs PyCode BuiltinFixers BuiltinSpec CodeProofs BuiltinProofs BuiltinApply BuiltinTables BuiltinMain BuiltinSample
  CorrectnessFixers CorrectnessSpec CorrectnessProofs CorrectnessMain CorrectnessSearch CorrectnessSample
  ThoroughSpec ThoroughCode ThoroughProofs ThoroughSearch ThoroughMain PropsThorough IdiomFixers IdiomSpec LoggingSpec LoggingEval LoggingProofs LoggingError LoggingMain LoggingSample
  LoggingExcSpec LoggingExc LoggingExcProofs LoggingExcMain LoggingExcSample.
From Coq Require Import Permutation.

(** C77.  What the fixer should do: replace a statement [logging.exception(x)], where
    [x] is the exception that was caught, by a call of [logging.exception] with a
    string literal that names the call that has failed.

    When a search with this fixer (and others, perhaps) replaces something on its
    behalf, then it is such a statement, the innermost [try] around it has nothing
    but one call in its body, and the new text is
    [logging.exception('Call to "..." resulted in an error')] with the source of what
    is called there.  It is reported as not significant.

    Missing (and not so, see below): that this is the [try] whose exception was
    caught, and that the new text is a string literal. *)
Theorem C77_described_partial : forall tokenize order ast_parse parse_env G parse_ast context pass_template fs fx s data path parsed e subs sub,
  (forall l, Permutation (order l) l) -> proper G -> python_grammar G -> call_grammar G -> try_grammar G -> python_ast G ast_parse -> python_parser G parse_env ->
  understood_as KStmt tokenize ast_parse (logs_exception (TX "arg")) ->
  logging_exception_fixer tokenize order ast_parse = Ok fx -> (forall f, In f fs -> f = fx \/ plain_fixer f) ->
  combining_fixer parse_ast context pass_template fs = Ok s ->
  parsed_source parse_ast context G data path parsed e -> unshared (e_tree e) -> python_nodes (e_tree e) -> spans_in_file e -> located_exprs (e_tree e) ->
  (forall anc sp c_span, PatternSpec.inside (e_tree e) anc -> m_span (create_match parsed anc) = Some sp ->
    plain_source tokenize (around parsed anc sp (TX "$current_expr") c_span)) ->
  s_find s parsed = Ok subs -> In sub subs ->
  exists f, In f fs /\ carries f sub
    /\ (f = fx -> (message sub, category sub, significant sub) = described_meta
        /\ forall reps l txt, replacements sub = Some reps -> In (l, txt) reps -> described_instead e sub l txt).
Proof.
  intros tokenize order ast_parse parse_env G parse_ast context pass_template fs fx s data path parsed e subs sub HO HG HGp HGc HGt HA HPa UL Hfx Hfs Hs HP Hun PN Sp Lo Hctx Hf Hin.
  destruct (exc_fixer_plain tokenize order ast_parse G HO HGp HA UL fx Hfx) as [Pf _].
  assert (Hpl : Forall plain_fixer fs) by (apply Forall_forall; intros f H; destruct (Hfs f H) as [->|K]; assumption).
  destruct (applied_to tokenize order ast_parse parse_env parse_ast context pass_template G HO HG HGp HA HPa fs s data path parsed e subs sub Hs Hpl HP Hun Hctx Hf Hin)
    as (f & Hff & Hca & (h & mb & ts & key & Hat & Hby & Hde) & _).
  exists f. split; [exact Hff|]. split; [exact Hca|]. intros ->. split.
  - destruct (exc_shape tokenize order ast_parse G HO HGp HA UL fx Hfx) as (_ & _ & _ & _ & _ & _ & _ & _ & _ & Em & _).
    destruct Hca as (C1 & _ & C3 & C4). unfold meta_of in Em. now rewrite C1, C3, C4.
  - intros reps l txt Er Hl. destruct (ps_python _ _ _ _ _ _ _ HP) as (info & P1 & P2 & P3). pose proof (ps_env _ _ _ _ _ _ _ HP) as P4. rewrite <- P4 in *.
    eapply (exc_replaced tokenize order ast_parse pass_template G HO HG HGp HGc HGt HA UL fs fx e info h mb ts key sub reps l txt); try assumption.
    apply (ps_tree _ _ _ _ _ _ _ HP).
Qed.
Print Assumptions C77_described_partial.

(** No such statement is missed: there is a substitution of it, or of some code
    around it that one of the fixers matches (unless a template has failed for this
    code). *)
Theorem C77_every_exception : forall tokenize order ast_parse parse_ast context pass_template G fs fx s data path parsed e subs q func,
  (forall l, Permutation (order l) l) -> proper G -> python_grammar G -> call_grammar G -> try_grammar G -> python_ast G ast_parse -> parses_evaluated ast_parse ->
  understood_as KStmt tokenize ast_parse (logs_exception (TX "arg")) ->
  logging_exception_fixer tokenize order ast_parse = Ok fx ->
  In fx fs -> (forall f, In f fs -> f = fx \/ (plain_fixer f /\ decisive e f)) ->
  combining_fixer parse_ast context pass_template fs = Ok s ->
  parsed_source parse_ast context G data path parsed e -> unshared (e_tree e) -> python_nodes (e_tree e) -> well_positioned e ->
  s_find s parsed = Ok subs ->
  logs_caught parsed (e_tree e) q func -> dealt_with e fs subs q.
Proof.
  intros tokenize order ast_parse parse_ast context pass_template G fs fx s data path parsed e subs q func HO HG HGp HGc HGt HA HE UL Hfx Hin Hfs Hc Hp Un PN HW Hs Hl.
  pose proof (ps_tree _ _ _ _ _ _ _ Hp) as PT. pose proof (ps_env _ _ _ _ _ _ _ Hp) as P4.
  assert (Hq : exists c, at_path (e_tree e) q = Some c) by (destruct Hl as (c & ? & ? & Hq & _); eauto). destruct Hq as [c Hq].
  eapply (search_all parse_ast context pass_template G fs s data path parsed e subs q c (fun g => g = fx) fx _); eauto.
  - intros g ->. apply (exc_reliable tokenize order ast_parse G); try assumption. exact (wp_spans _ HW).
  - apply (exc_sure tokenize order ast_parse G); try assumption. exact (wp_spans _ HW).
  - cbn beta. exists q, func. split; [exact Hq|]. now rewrite P4.
Qed.
Print Assumptions C77_every_exception.

(** What is asked of the other fixers in C72 to C77 holds for this one. *)
Theorem C77_decisive : forall tokenize order ast_parse G fx e,
  (forall l, Permutation (order l) l) -> proper G -> python_grammar G -> call_grammar G -> try_grammar G -> python_ast G ast_parse ->
  understood_as KStmt tokenize ast_parse (logs_exception (TX "arg")) ->
  logging_exception_fixer tokenize order ast_parse = Ok fx ->
  parsed_tree G (e_tree e) -> unshared (e_tree e) -> python_nodes (e_tree e) -> spans_in_file e -> plain_fixer fx /\ decisive e fx.
Proof.
  intros tokenize order ast_parse G fx e HO HG HGp HGc HGt HA UL Hfx PT Un PN Sp.
  assert (R : reliable e fx) by (apply (exc_reliable tokenize order ast_parse G); assumption).
  split; [apply (rl_plain e), R|apply reliable_decisive, R].
Qed.
Print Assumptions C77_decisive.

(** The new text has a string literal exactly if the source of what is called could
    be part of one. *)
Lemma body_app a b : ~ In 39 a -> ~ In 92 a -> ~ In 10 a -> string_body (a ++ b) <-> string_body b.
Proof.
  intros H1 H2 H3. induction a as [|c a IH]; [reflexivity|]. cbn [app]. rewrite <- IH.
  - split.
    + intros H. inversion H; subst; [assumption|]. exfalso. apply H2. now left.
    + intros H. apply SB_char; [intros ->; apply H1; now left|intros ->; apply H2; now left|intros ->; apply H3; now left|exact H].
  - intros K. apply H1. now right.
  - intros K. apply H2. now right.
  - intros K. apply H3. now right.
Qed.
Lemma body_join a b : string_body a -> string_body b -> string_body (a ++ b).
Proof. induction 1; intros Hb; cbn [app]; [exact Hb|apply SB_char; auto|apply SB_escape; auto]. Qed.
Lemma body_front : forall n a x b, (length a <= n)%nat -> (forall s, a <> s ++ [92]) -> string_body (a ++ x :: b) -> string_body a.
Proof.
  induction n as [|n IH]; intros a x b Hn Ha H; (destruct a as [|c a]; [constructor|]); cbn [length] in Hn; [lia|]. cbn [app] in H.
  inversion H as [|? ? H1 H2 H3 H4|c' ? H4]; subst.
  - apply SB_char; try assumption. apply (IH a x b); [lia| |exact H4]. intros s E. apply (Ha (c :: s)). now rewrite E.
  - destruct a as [|d a]; [exfalso; now apply (Ha [])|]. match goal with K : _ = (d :: a) ++ _ |- _ => cbn [app] in K; injection K as -> -> end.
    apply SB_escape. apply (IH a x b); [cbn [length] in Hn; lia| |exact H4]. intros s E. apply (Ha (92 :: d :: s)). now rewrite E.
Qed.
Theorem C77_literal : forall f, (forall s, f <> s ++ [92]) -> logs_a_string (call_failed f) <-> string_body f.
Proof.
  intros f Hf.
  assert (E : call_failed f = TX "logging.exception('" ++ (TX "Call to """ ++ f ++ TX """ resulted in an error") ++ TX "')").
  { unfold call_failed. rewrite <- !app_assoc. reflexivity. }
  assert (P : forall b, string_body (TX "Call to """ ++ b) <-> string_body b).
  { intros b. apply body_app; intros K; vm_compute in K; repeat (destruct K as [K|K]; [discriminate K|]); destruct K. }
  assert (Q : string_body (TX """ resulted in an error")).
  { rewrite <- (app_nil_r (TX """ resulted in an error")). apply body_app; [| | |constructor]; intros K; vm_compute in K; repeat (destruct K as [K|K]; [discriminate K|]); destruct K. }
  split.
  - intros (b & Eb & Hb). rewrite E in Eb. apply app_inv_head in Eb. apply app_inv_tail in Eb. subst b. apply (proj1 (P _)) in Hb. exact (body_front (length f) f 34 (TX " resulted in an error") (le_n _) Hf Hb).
  - intros H. eexists. split; [exact E|]. apply (proj2 (P _)). now apply body_join.
Qed.
Print Assumptions C77_literal.

(** If the innermost [try] is the one with the [except], then its call is what the
    text names. *)
Theorem C77_names_failed_partial : forall parsed tree p func i fs,
  logs_caught parsed tree p func -> handled_try tree p i fs -> innermost tree (TX "Try") p (VNode i fs) -> handled_call tree p func.
Proof.
  intros parsed tree p func i fs (c & arg & x & Hp & _ & _ & _ & (i' & fs' & id & st & I' & Eb & J & _)) Ht I1.
  assert (E : VNode i fs = VNode i' fs').
  { destruct I1 as (q & r & E1 & E2 & E3 & E4 & E5), I' as (q' & r' & E1' & E2' & E3' & E4' & E5').
    pose proof (place_nearest (TX "Try") tree p c q r _ Hp E1 E2 E3 E4 E5) as N1. pose proof (place_nearest (TX "Try") tree p c q' r' _ Hp E1' E2' E3' E4' E5') as N2. congruence. }
  injection E as <- <-. exists i, fs, id, st. auto.
Qed.
Print Assumptions C77_names_failed_partial.

(** *** The file [try: f() except E as e: ... logging.exception(e)] *)
Example C77_nonvacuous :
  understood_as KStmt q_tokenize l_parse (logs_exception (TX "arg"))
  /\ python_parser q_grammar l_parse_env /\ python_ast q_grammar l_parse /\ parses_evaluated l_parse /\ try_grammar q_grammar
  /\ parsed_source (fun _ _ => Ok l_file) q_env q_grammar l_text (TX "x.py") l_file l_e /\ unshared (e_tree l_e) /\ python_nodes (e_tree l_e) /\ well_positioned l_e
  /\ logs_caught l_file (e_tree l_e) [0; 0; 1; 0; 2; 1]%nat (q_var 24 l_f) /\ handled_call (e_tree l_e) [0; 0; 1; 0; 2; 1]%nat (q_var 24 l_f)
  /\ exists fx s sub, logging_exception_fixer q_tokenize q_order l_parse = Ok fx
     /\ combining_fixer (fun _ _ => Ok l_file) q_env (literal_template (TX "pass")) [fx] = Ok s /\ s_find s l_file = Ok [sub]
     /\ matched_spans sub = [(TX "arg", (62, 63)); (TX "logging_exception", (44, 64)); (TX "func", (6, 7)); (TX "__root", (44, 64))]
     /\ replacements sub = Some [(TX "logging_exception", call_failed (TX "f"))]
     /\ described_instead l_e sub (TX "logging_exception") (call_failed (TX "f")) /\ logs_a_string (call_failed (TX "f"))
     /\ dealt_with l_e [fx] [sub] [0; 0; 1; 0; 2; 1]%nat.
Proof.
  split; [exact x_logs|]. split; [exact l_parser|]. split; [exact l_ast|]. split; [exact l_evaluates|]. split; [reflexivity|]. split; [exact l_parsed|].
  split; [exact l_unshared|]. split; [exact l_nodes|]. split; [exact l_positioned|]. split; [exact x_logs_caught|]. split.
  - do 2 eexists. exists 13, l_call. split; [|split].
    + exists [0; 0]%nat, 1%nat, 0%nat, [2; 1]%nat, 14, [l_handler], l_handler. do 6 (split; [reflexivity|]).
      apply (only_front _ "ExceptHandler" _ [0; 0; 1; 0]%nat _ [2; 1]%nat); [reflexivity|discriminate|reflexivity|reflexivity|vm_compute; reflexivity].
    + reflexivity.
    + do 4 eexists. split; [reflexivity|]. split; [right; now left|]. split; [reflexivity|]. split; reflexivity.
  - destruct x_accepted as (fx & A & El). pose proof (x_run l_file _ _ x_replaced) as R. unfold x_search in R. rewrite El in R. clear El. destruct R as (s & sub & Hc & Hs & R1 & R2).
    exists fx, s, sub. do 5 (split; [assumption|]). split; [|split].
    + destruct (C77_described_partial q_tokenize q_order l_parse l_parse_env q_grammar (fun _ _ => Ok l_file) q_env (literal_template (TX "pass")) [fx] fx s l_text (TX "x.py") l_file l_e [sub] sub)
        as (f & Hf & _ & K).
      * intros l. reflexivity.
      * exact q_proper.
      * split; reflexivity.
      * split; reflexivity.
      * reflexivity.
      * exact l_ast.
      * exact l_parser.
      * exact x_logs.
      * exact A.
      * intros f [<-|[]]. now left.
      * exact Hc.
      * exact l_parsed.
      * exact l_unshared.
      * exact l_nodes.
      * exact (wp_spans _ l_positioned).
      * exact l_located.
      * intros anc sp c_span _ _. apply q_plain.
      * exact Hs.
      * now left.
      * destruct Hf as [<-|[]]. destruct (K eq_refl) as [_ K']. apply (K' _ _ _ R2). now left.
    + apply C77_literal; [intros s0 K; destruct s0 as [|? [|]]; discriminate K|]. apply SB_char; [discriminate|discriminate|discriminate|constructor].
    + apply (C77_every_exception q_tokenize q_order l_parse (fun _ _ => Ok l_file) q_env (literal_template (TX "pass")) q_grammar [fx] fx s l_text (TX "x.py") l_file l_e [sub] _ (q_var 24 l_f)); try assumption.
      * intros l. reflexivity.
      * exact q_proper.
      * split; reflexivity.
      * split; reflexivity.
      * reflexivity.
      * exact l_ast.
      * exact l_evaluates.
      * exact x_logs.
      * now left.
      * intros f [<-|[]]. now left.
      * exact l_parsed.
      * exact l_unshared.
      * exact l_nodes.
      * exact l_positioned.
      * exact x_logs_caught.
Qed.
(** [try: f('a')() except E as e: logging.exception(e)]: the new text is no Python,
    since the quotes of the call end the string. *)
Theorem C77_literal_refuted : exists fx s sub,
  parsed_source (fun _ _ => Ok y_file) q_env q_grammar y_text (TX "y.py") y_file y_e /\ unshared (e_tree y_e) /\ python_nodes (e_tree y_e) /\ well_positioned y_e
  /\ logging_exception_fixer q_tokenize q_order l_parse = Ok fx /\ combining_fixer (fun _ _ => Ok y_file) q_env (literal_template (TX "pass")) [fx] = Ok s
  /\ s_find s y_file = Ok [sub] /\ replacements sub = Some [(TX "logging_exception", TX "logging.exception('Call to ""f('a')"" resulted in an error')")]
  /\ ~ logs_a_string (TX "logging.exception('Call to ""f('a')"" resulted in an error')").
Proof.
  destruct x_accepted as (fx & A & El). pose proof (x_run y_file _ _ y_replaced) as R. unfold x_search in R. rewrite El in R. clear El. destruct R as (s & sub & Hc & Hs & R1 & R2).
  exists fx, s, sub. split; [exact y_parsed|]. split; [exact y_unshared|]. split; [exact y_nodes|]. split; [exact y_positioned|]. do 3 (split; [assumption|]). split; [exact R2|].
  change (TX "logging.exception('Call to ""f('a')"" resulted in an error')") with (call_failed (TX "f('a')")). intros K. apply C77_literal in K.
  - inversion K as [|? ? _ _ _ K1|]; subst. inversion K1 as [|? ? _ _ _ K2|]; subst. inversion K2 as [|? ? N _ _ _|]; subst. now elim N.
  - intros s0 E. apply (f_equal (@rev Z)) in E. rewrite rev_app_distr in E. vm_compute in E. discriminate E.
Qed.
Print Assumptions C77_literal_refuted.
(** [try: f() except E as e: try: g() finally: logging.exception(e)]: the new text
    names [g], but the exception is from [f]. *)
Theorem C77_names_failed_refuted : exists fx s sub p func,
  parsed_source (fun _ _ => Ok z_file) q_env q_grammar z_text (TX "z.py") z_file z_e /\ unshared (e_tree z_e) /\ python_nodes (e_tree z_e) /\ well_positioned z_e
  /\ logging_exception_fixer q_tokenize q_order l_parse = Ok fx /\ combining_fixer (fun _ _ => Ok z_file) q_env (literal_template (TX "pass")) [fx] = Ok s
  /\ s_find s z_file = Ok [sub] /\ In (TX "logging_exception", (49, 69)) (matched_spans sub) /\ replacements sub = Some [(TX "logging_exception", call_failed (TX "g"))]
  /\ at_path (e_tree z_e) p = Some z_logs /\ m_span (create_match z_file z_logs) = Some (49, 69)
  /\ handled_call (e_tree z_e) p func /\ m_string (create_match z_file func) = Some (TX "f")
  /\ forall func', handled_call (e_tree z_e) p func' -> func' = func.
Proof.
  destruct x_accepted as (fx & A & El). pose proof (x_run z_file _ _ z_replaced) as R. unfold x_search in R. rewrite El in R. clear El. destruct R as (s & sub & Hc & Hs & R1 & R2).
  exists fx, s, sub, [0; 0; 1; 0; 2; 0; 3; 0]%nat, (q_var 24 (z_tok 4 6 7)). split; [exact z_parsed|]. split; [exact z_unshared|]. split; [exact z_nodes|]. split; [exact z_positioned|].
  do 3 (split; [assumption|]). split; [rewrite R1; right; now left|]. split; [exact R2|]. split; [reflexivity|]. split; [reflexivity|]. split; [|split; [reflexivity|]].
  - do 2 eexists. exists 13, (z_call 20 (z_tok 4 6 7) (z_tok 6 8 9)). split; [|split].
    + exists [0; 0]%nat, 1%nat, 0%nat, [2; 0; 3; 0]%nat, 14, [z_handler], z_handler. do 6 (split; [reflexivity|]).
      apply (only_front _ "ExceptHandler" _ [0; 0; 1; 0]%nat _ [2; 0; 3; 0]%nat); [reflexivity|discriminate|reflexivity|reflexivity|vm_compute; reflexivity].
    + reflexivity.
    + do 4 eexists. split; [reflexivity|]. split; [right; now left|]. split; [reflexivity|]. split; reflexivity.
  - intros func' (i & fs & id & st & (q & a & b & r & idh & hs & h & E & Hq & Et & Hd & Ha & Hb & (q1 & r1 & _ & _ & _ & Eh & _)) & Ebody & J).
    assert (Q : q = [0; 0]%nat).
    { pose proof (fronts q _ _ E) as K. vm_compute in K.
      assert (Z : text_eqb (vtype h) (TX "ExceptHandler") = true) by (rewrite Eh; apply text_eqb_refl). clear - K E Hb Z.
      repeat (destruct K as [<-|K]; [try reflexivity; exfalso; cbn [app] in E; try discriminate E; injection E; intros; subst; injection Hb as <-; vm_compute in Z; discriminate Z|]).
      destruct K. }
    subst q. injection Hq as <- <-. injection Ebody as <- <-. destruct J as (i1 & fs1 & j & gs & E1 & _ & E2 & _ & E3). injection E1 as <- <-. injection E2 as <- <-. now injection E3 as <-.
Qed.
Print Assumptions C77_names_failed_refuted.
