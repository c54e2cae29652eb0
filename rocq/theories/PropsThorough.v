(** C74: no place is missed. *)
From Verif Require Import TemplateProofs Py PyFacts Subst ApplySpec Ast Template FromDiff Matcher MatchSpec MatcherProofs FindSpec FindProofs
  FilterSpec NavSpec NavProofs PatTok PatSpec Pattern PatternSpec EquivProofs PatternProofs PatternApi
  PyTemplate PyTemplateSpec PyTemplateProofs Search SearchSpec Removal OwnSpec SampleTrees PropsPattern
  PropsTemplate ExprSubSpec ExprSubProofs PropsExprSub Fixer FixerSpec FixerProofs PyCode BuiltinFixers BuiltinSpec CodeProofs BuiltinProofs BuiltinApply BuiltinTables BuiltinMain BuiltinSample
  CorrectnessFixers CorrectnessSpec CorrectnessProofs CorrectnessMain CorrectnessSearch CorrectnessSample
  ThoroughSpec ThoroughCode ThoroughProofs ThoroughSearch ThoroughMain ThoroughAttrib ThoroughTables.
From Coq Require Import Permutation.

Lemma search_all parse_ast context pass_template G fs s data path parsed e subs q c (good : fixer -> Prop) f Q :
  (forall g, In g fs -> good g \/ (plain_fixer g /\ decisive e g)) -> (forall g, good g -> reliable e g) ->
  combining_fixer parse_ast context pass_template fs = Ok s ->
  parsed_source parse_ast context G data path parsed e ->
  s_find s parsed = Ok subs -> at_path (e_tree e) q = Some c -> In f fs -> sure e f Q -> Q c ->
  dealt_with e fs subs q.
Proof.
  intros Hgood Hrel Hc Hp Hs Hq Hf [_ Hsp] HQ. destruct (ps_python _ _ _ _ _ _ _ Hp) as (info & P1 & P2 & P3). pose proof (ps_env _ _ _ _ _ _ _ Hp) as P4.
  apply (thorough parse_ast context pass_template fs s parsed info e subs q c f Q); auto.
  - rewrite Forall_forall. intros g Hg. destruct (Hgood g Hg) as [K|[K _]]; [apply (rl_plain e), Hrel, K|exact K].
  - intros g Hg. destruct (Hgood g Hg) as [K|[_ K]]; [apply reliable_decisive, Hrel, K|exact K].
  - intros v a b. rewrite P4. apply (ps_offsets _ _ _ _ _ _ _ Hp).
Qed.

(** C74.  Wherever in the file there is a bug that the table of correctness fixers
    describes, in the circumstances given there, or a mutable default of [attr.ib],
    a search with these fixers (and others, perhaps) deals with it: there is a
    substitution of this code, or of some code around it that one of the fixers
    matches (unless a template has failed for this code). *)
Theorem C74_every_bug : forall tokenize order ast_parse parse_env parse_ast context pass_template G fs cf s data path parsed e subs q c,
  (forall l, Permutation (order l) l) -> proper G -> python_grammar G -> call_grammar G -> python_ast G ast_parse -> parses_evaluated ast_parse ->
  Forall (fun oc => understood tokenize ast_parse (fst oc) /\ understood tokenize ast_parse (snd oc)) entry_codes ->
  Forall (understood tokenize ast_parse) attrib_codes ->
  correctness_fixers tokenize order ast_parse parse_env = Ok cf ->
  incl cf fs -> (forall f, In f fs -> In f cf \/ (plain_fixer f /\ decisive e f)) ->
  combining_fixer parse_ast context pass_template fs = Ok s ->
  parsed_source parse_ast context G data path parsed e -> well_positioned e ->
  s_find s parsed = Ok subs ->
  at_path (e_tree e) q = Some c -> (exists en, In en entries /\ bug en e c) \/ shared_default c ->
  dealt_with e fs subs q.
Proof.
  intros tokenize order ast_parse parse_env parse_ast context pass_template G fs cf s data path parsed e subs q c HO HG HGp HGc HA HE UE UA Hcf Hin Hfs Hc Hp HW Hs Hq Hb.
  pose proof (ps_tree _ _ _ _ _ _ _ Hp) as PT.
  destruct (bugs_sure tokenize order ast_parse parse_env G HO HG HGp HGc HA HE e PT HW UE UA cf c Hcf Hb) as (f & Q & Hf & Hsure & HQ).
  eapply (search_all parse_ast context pass_template G fs s data path parsed e subs q c (fun g => In g cf) f Q); eauto.
  apply (correctness_sure tokenize order ast_parse parse_env G HO HG HGp HGc HA HE e PT HW UE UA cf Hcf).
Qed.
Print Assumptions C74_every_bug.

(** Likewise for the unittest fixers and the idiom fixers for negations and
    comprehensions. *)
Theorem C74_every_idiom : forall tokenize order ast_parse parse_env parse_ast context pass_template G fs uf nf mf s data path parsed e subs q c,
  (forall l, Permutation (order l) l) -> proper G -> python_grammar G -> python_ast G ast_parse -> parses_evaluated ast_parse ->
  Forall (fun oc => understood tokenize ast_parse (fst oc) /\ understood tokenize ast_parse (snd oc)) all_codes ->
  unittest_fixers tokenize order ast_parse parse_env = Ok uf -> negation_fixers tokenize order ast_parse parse_env = Ok nf ->
  comprehension_fixers tokenize order ast_parse parse_env = Ok mf ->
  incl (uf ++ nf ++ mf) fs -> (forall f, In f fs -> In f (uf ++ nf ++ mf) \/ (plain_fixer f /\ decisive e f)) ->
  combining_fixer parse_ast context pass_template fs = Ok s ->
  parsed_source parse_ast context G data path parsed e -> well_positioned e ->
  s_find s parsed = Ok subs ->
  at_path (e_tree e) q = Some c -> unidiomatic c ->
  dealt_with e fs subs q.
Proof.
  intros tokenize order ast_parse parse_env parse_ast context pass_template G fs uf nf mf s data path parsed e subs q c HO HG HGp HA HE U Hu Hn Hm Hin Hfs Hc Hp HW Hs Hq Hb.
  pose proof (ps_tree _ _ _ _ _ _ _ Hp) as PT.
  destruct (unidiomatic_sure tokenize order ast_parse parse_env G HO HG HGp HA HE e PT HW U uf nf mf c Hu Hn Hm Hb) as (f & Q & Hf & Hsure & HQ).
  eapply (search_all parse_ast context pass_template G fs s data path parsed e subs q c (fun g => In g (uf ++ nf ++ mf)) f Q); eauto.
  intros g Hg. eapply (unidiomatic_reliable tokenize order ast_parse parse_env G HO HG HGp HA HE e PT HW U uf nf mf); eassumption.
Qed.
Print Assumptions C74_every_idiom.

(** What is asked of the other fixers above holds for all of these: the two lists
    of fixers can be combined. *)
Theorem C74_decisive : forall tokenize order ast_parse parse_env G cf uf nf mf e f,
  (forall l, Permutation (order l) l) -> proper G -> python_grammar G -> call_grammar G -> python_ast G ast_parse -> parses_evaluated ast_parse ->
  Forall (fun oc => understood tokenize ast_parse (fst oc) /\ understood tokenize ast_parse (snd oc)) (all_codes ++ entry_codes) ->
  Forall (understood tokenize ast_parse) attrib_codes ->
  correctness_fixers tokenize order ast_parse parse_env = Ok cf ->
  unittest_fixers tokenize order ast_parse parse_env = Ok uf -> negation_fixers tokenize order ast_parse parse_env = Ok nf ->
  comprehension_fixers tokenize order ast_parse parse_env = Ok mf ->
  parsed_tree G (e_tree e) -> well_positioned e ->
  In f (cf ++ uf ++ nf ++ mf) -> plain_fixer f /\ decisive e f.
Proof.
  intros tokenize order ast_parse parse_env G cf uf nf mf e f HO HG HGp HGc HA HE U UA Hcf Hu Hn Hm PT HW Hf. apply Forall_app in U as [U UE].
  assert (R : reliable e f).
  { apply in_app_or in Hf as [Hf|Hf].
    - apply (correctness_sure tokenize order ast_parse parse_env G HO HG HGp HGc HA HE e PT HW UE UA cf Hcf). exact Hf.
    - eapply (unidiomatic_reliable tokenize order ast_parse parse_env G HO HG HGp HA HE e PT HW U uf nf mf); eassumption. }
  split; [apply (rl_plain e), R|apply reliable_decisive, R].
Qed.
Print Assumptions C74_decisive.

(** *** The file with [a is 42] and [attr.ib(default=[])] *)
Definition evaluatedb (v : value) : bool :=
  match v with VNode i fs => forallb (fun kv => negb (text_eqb (fst kv) (TX "ctx")) || text_eqb (vtype (snd kv)) (TX "Load")) fs | _ => true end.
Definition evaluated_exprsb (root : value) : bool :=
  forallb (fun v => match v with
    | VNode i fs => forallb (fun kv =>
        (negb (existsb (fun x => text_eqb (fst x) (n_type i) && text_eqb (snd x) (fst kv)) evaluated_fields) || evaluatedb (snd kv))
        && (negb (existsb (fun x => text_eqb (fst x) (n_type i) && text_eqb (snd x) (fst kv)) evaluated_lists) || forallb evaluatedb (vchildren (snd kv)))) fs
    | _ => true
    end) (everything root).
Lemma evaluated_exprs_ok root : evaluated_exprsb root = true -> evaluated_exprs root.
Proof.
  intros H i fs f v (q & Hq) Hin. apply inside_everything in Hq. unfold evaluated_exprsb in H. rewrite forallb_forall in H. specialize (H _ Hq). cbn beta iota in H.
  rewrite forallb_forall in H. specialize (H _ Hin). cbn [fst snd] in H. apply andb_prop in H as [H1 H2].
  assert (B : forall w, evaluatedb w = true -> evaluated w).
  { intros w Hw j gs x -> Hx. cbn [evaluatedb] in Hw. rewrite forallb_forall in Hw. specialize (Hw _ Hx). cbn [fst snd] in Hw.
    rewrite (proj2 (text_eqb_eq (TX "ctx") (TX "ctx")) eq_refl) in Hw. now apply text_eqb_eq in Hw. }
  assert (E : forall l, In (n_type i, f) l -> existsb (fun x => text_eqb (fst x) (n_type i) && text_eqb (snd x) f) l = true).
  { intros l Hl. apply existsb_exists. exists (n_type i, f). split; [exact Hl|]. cbn [fst snd]. now rewrite !(proj2 (text_eqb_eq _ _)). }
  split.
  - intros K. rewrite (E _ K) in H1. now apply B.
  - intros K w Hw. rewrite (E _ K) in H2. cbn in H2. rewrite forallb_forall in H2. apply B, H2, Hw.
Qed.
Lemma q_evaluations : Forall (fun c => forall f, evaluated_exprsb (q_program c (fst (build f false c 10))) = true) q_table.
Proof. repeat (apply Forall_cons; [intros f; vm_compute; reflexivity|]); apply Forall_nil. Qed.
Lemma q_evaluates : parses_evaluated q_parse.
Proof.
  intros s m. unfold q_parse. destruct (scan [] s) as [k ns]. destruct (q_find k) as [c|] eqn:E; [|discriminate]. intros [= <-].
  unfold q_find in E. apply find_some in E as [Hc _]. pose proof q_evaluations as V. rewrite Forall_forall in V. apply evaluated_exprs_ok, (V c Hc).
Qed.
Definition spansb (e : env) : bool :=
  forallb (fun v => match m_span (create_match (e_parsed e) v) with Some (a, b) => (0 <=? a) && (0 <=? b) && (b <=? tlen (pf_text (e_parsed e))) | None => true end) (everything (e_tree e)).
Lemma spans_ok e : spansb e = true -> forall v a b, PatternSpec.inside (e_tree e) v -> m_span (create_match (e_parsed e) v) = Some (a, b) ->
  0 <= a /\ 0 <= b <= tlen (pf_text (e_parsed e)).
Proof.
  intros H v a b (q & Hq) Hs. apply inside_everything in Hq. unfold spansb in H. rewrite forallb_forall in H. specialize (H _ Hq). cbn beta in H. rewrite Hs in H. lia.
Qed.
Lemma c_positioned : well_positioned c_e.
Proof.
  constructor.
  - exact c_located.
  - apply evaluated_exprs_ok. vm_compute. reflexivity.
  - apply spans_ok. vm_compute. reflexivity.
  - exists (concat [[]; []]). eexists _, _, [[]; []]. split; [reflexivity|]. split; [|reflexivity].
    apply Forall2_cons; [apply G_other; discriminate|]. apply Forall2_cons; [apply G_other; discriminate|]. apply Forall2_nil.
Qed.
Lemma c_bug : exists en, In en entries /\ bug en c_e c_compare.
Proof.
  eexists. split; [now left|]. 
  exists (fun x => if text_eqb x (TX "lhs") then q_var 50 c_a else nd 60 (TX "Constant") c_42 c_42 [(TX "value", VConst 61 (CNum KInt 84)); (TX "kind", VNone)]).
  split.
  - apply ST_node; [reflexivity|]. q_fields.
    + now apply ST_var.
    + apply ST_list. constructor; [apply ST_node; [reflexivity|constructor]|constructor].
    + apply ST_list. constructor; [now apply ST_var|constructor].
  - cbn [en_when]. exists (CNum KInt 84). split; [|left; exact I]. eexists _, _, _. split; [reflexivity|]. split; reflexivity.
Qed.
Lemma c_shared : shared_default c_call.
Proof.
  eexists _, _, _, _, _, c_keyword, EmptyList, _. split; [reflexivity|]. split; [reflexivity|]. split; [reflexivity|]. split.
  { apply ST_node; [reflexivity|]. q_fields.
    - apply ST_node; [reflexivity|]. q_fields; [apply ST_const; reflexivity|now apply ST_context].
    - apply ST_const; reflexivity.
    - now apply ST_context. }
  split; [reflexivity|]. split; [now left|]. split; [|now left].
  eexists _, _, _, _. split; [reflexivity|]. split; [reflexivity|]. split; [reflexivity|]. split; [reflexivity|].
  apply ST_node; [reflexivity|]. q_fields; [apply ST_list; constructor|now apply ST_context].
Qed.
Example C74_nonvacuous :
  parses_evaluated q_parse /\ Forall (fun oc => understood q_tokenize q_parse (fst oc) /\ understood q_tokenize q_parse (snd oc)) entry_codes
  /\ parsed_source c_parse_file q_env q_grammar c_text (TX "x.py") c_file c_e /\ well_positioned c_e
  /\ correctness_fixers q_tokenize q_order q_parse c_parse_env = Ok c_fixers
  /\ (exists en, In en entries /\ bug en c_e c_compare) /\ shared_default c_call
  /\ exists s sub1 sub2, combining_fixer c_parse_file q_env (literal_template (TX "pass")) c_fixers = Ok s /\ s_find s c_file = Ok [sub1; sub2]
     /\ (forall q c, at_path (e_tree c_e) q = Some c -> (exists en, In en entries /\ bug en c_e c) \/ shared_default c -> dealt_with c_e c_fixers [sub1; sub2] q).
Proof.
  split; [exact q_evaluates|]. split; [exact c_understood|]. split; [exact c_parsed|]. split; [exact c_positioned|]. split; [exact c_accepted|].
  split; [exact c_bug|]. split; [exact c_shared|]. pose proof c_run as R. pose proof c_accepted as A. unfold c_search in R. revert R A. generalize c_fixers. intros fs R A.
  destruct R as (s & sub1 & sub2 & Hc & Hs & _). exists s, sub1, sub2. split; [exact Hc|]. split; [exact Hs|]. intros q c Hq Hb.
  apply (C74_every_bug q_tokenize q_order q_parse c_parse_env c_parse_file q_env (literal_template (TX "pass")) q_grammar fs fs s c_text (TX "x.py") c_file c_e [sub1; sub2] q c); try assumption.
  - intros l. reflexivity.
  - exact q_proper.
  - split; reflexivity.
  - split; reflexivity.
  - exact q_ast.
  - exact q_evaluates.
  - exact c_understood.
  - exact c_attribs.
  - intros f Hf. exact Hf.
  - intros f Hf. left. exact Hf.
  - exact c_parsed.
  - exact c_positioned.
Qed.
(** The file [self.assertTrue(a is b)]. *)
Example C74_idiom_nonvacuous : evaluated q_call /\ unidiomatic q_call /\ well_positioned q_e.
Proof.
  assert (Ev : evaluated q_call).
  { intros i fs w E Hin. injection E as <- <-. cbn [In] in Hin. repeat (destruct Hin as [Hin|Hin]; [apply (f_equal fst) in Hin; discriminate Hin|]). destruct Hin. }
  split; [exact Ev|]. split.
  - left. split; [exact Ev|]. exists (self_call (TX "assertTrue") [Compare Is (Var (TX "lhs")) (Var (TX "rhs"))]).
    exists (self_call (TX "assertIs") [Var (TX "lhs"); Var (TX "rhs")]), (fun x => if text_eqb x (TX "lhs") then q_var 50 q_a else q_var 60 q_b). split.
    + unfold message_codes, alias_codes. cbn [app]. do 5 right. now left.
    + apply ST_node; [reflexivity|]. q_fields.
      * apply ST_node; [reflexivity|]. q_fields; [|apply ST_const; reflexivity|now apply ST_context].
        apply ST_node; [reflexivity|]. q_fields; [apply ST_const; reflexivity|now apply ST_context].
      * apply ST_list. constructor; [|constructor]. apply ST_node; [reflexivity|]. q_fields; [now apply ST_var|apply ST_list; constructor; [apply ST_node; [reflexivity|constructor]|constructor]|].
        apply ST_list. constructor; [now apply ST_var|constructor].
      * apply ST_list. constructor.
  - constructor.
    + exact q_located.
    + apply evaluated_exprs_ok. vm_compute. reflexivity.
    + apply spans_ok. vm_compute. reflexivity.
    + exists (concat [[]]). eexists _, _, [[]]. split; [reflexivity|]. split; [|reflexivity]. apply Forall2_cons; [apply G_other; discriminate|]. apply Forall2_nil.
Qed.
