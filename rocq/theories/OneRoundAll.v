(** C81: with a single round, what the default fixers find can always be applied. *)
From Verif Require Import TemplateProofs Py PyFacts Regex Subst ApplySpec ApplyProofs SubstSpec SubstProofs Ast Template FromDiff Matcher MatchSpec MatcherProofs FindSpec FindProofs
  FilterSpec NavSpec NavProofs PatTok PatSpec Pattern PatternSpec EquivProofs PatternProofs PatternApi
  PyTemplate PyTemplateSpec PyTemplateProofs Search SearchSpec Removal OwnSpec SampleTrees PropsPattern
  PropsTemplate ExprSubSpec ExprSubProofs PropsExprSub Fixer FixerSpec FixerProofs PyCode BuiltinFixers BuiltinSpec BuiltinProofs BuiltinApply BuiltinTables BuiltinMain
  CorrectnessFixers CorrectnessSpec CorrectnessSearch ThoroughSpec ThoroughSearch IdiomFixers IdiomSpec LoggingSpec LoggingError LoggingMain
  LoggingExcSpec LoggingExcProofs LoggingExcMain AllSpec AllProofs PragmaProofs Cli OneRoundSpec OneRound PiecesSpec Pieces.
From Coq Require Import Permutation.

(** The dictionaries of a fixer that does not remove anything. *)
Lemma used_dicts pass e fs h g mb ts : decisive e g -> plain_fixer g -> at_path (e_tree e) (h_path h) = Some (h_value h) -> by_fixer pass e fs h g mb ts ->
  ts = fixer_templates g /\ dget mb (TX "__root") = Some (create_match (e_parsed e) (h_value h))
  /\ exists b, r_bindings (h_result h) = Ok (Some b) /\ forall l, dget mb l = option_map b_value (dget b l).
Proof.
  intros [Hd Hn] HP Hat ((d & Hff) & (Dmb & b & Eb & Hmb) & Hts). destruct (first_fixer_matches _ _ _ _ _ _ _ Hff) as [Hg (s1 & m0 & Hm0 & He)].
  assert (Hmb' : forall l, dget mb l = option_map b_value (dget b l)).
  { intros l. destruct (Hmb l) as [E|(v & txt & f1 & l1 & a1 & b1 & f2 & l2 & a2 & b2 & t & E1 & E2 & _)]; [exact E|]. exfalso. exact (Hn _ _ E1 E2). }
  split; [|split].
  - apply (own_templates_same pass); auto. apply fixer_templates_ok. auto.
  - destruct (Hd m0 d (h_value h) s1 Hm0 (ex_intro _ _ Hat)) as (s' & o & E & Rt). rewrite He in E. injection E as <- <-.
    rewrite Hmb'. apply (Rt (h_result h)); auto.
  - exists b. auto.
Qed.

(** The fixer has one template, for something inside of what it matches. *)
Definition anchored (e : env) (f : fixer) : Prop :=
  exists l0 t0, fx_base f = [(l0, t0)] /\ ~ In l0 meta_labels
    /\ forall pass fs h mb ts, at_path (e_tree e) (h_path h) = Some (h_value h) -> by_fixer pass e fs h f mb ts ->
       exists w, PatternSpec.inside (h_value h) w /\ dget mb l0 = Some (create_match (e_parsed e) w)
         /\ (w = h_value h \/ m_span (create_match (e_parsed e) w) <> None).

Lemma flat_map_one {A B} (g : label * A -> list B) d l0 x : dict_ok d -> In (l0, x) d -> (forall l y, In (l, y) d -> l <> l0 -> g (l, y) = []) -> flat_map g d = g (l0, x).
Proof.
  induction d as [|[l y] d IH]; intros D Hin H; [destruct Hin|]. unfold dict_ok, dkeys in D. cbn [map fst] in D. inversion D as [|? ? D1 D2]; subst. cbn [flat_map].
  destruct Hin as [[= -> ->]|Hin].
  - assert (E : flat_map g d = []).
    { assert (K : forall l y, In (l, y) d -> g (l, y) = []).
      { intros l y Hy. apply H; [now right|]. intros ->. apply D1. exact (in_map fst _ _ Hy). }
      clear -K. induction d as [|[l y] d IH]; [reflexivity|]. cbn [flat_map]. rewrite (K l y) by now left. apply IH. intros. apply K. now right. }
    now rewrite E, app_nil_r.
  - rewrite (H l y (or_introl eq_refl)), (IH D2 Hin); [reflexivity|intros l' y' Hy; apply H; now right|]. intros ->. apply D1. exact (in_map fst _ _ Hin).
Qed.
Lemma anchored_one pass e fs h f key mb ts sub : laid_out_file (e_tree e) (e_parsed e) -> decisive e f -> plain_fixer f -> anchored e f ->
  at_path (e_tree e) (h_path h) = Some (h_value h) -> by_fixer pass e fs h f mb ts -> describes (e_parsed e) key mb ts sub ->
  (forall l x, ~ fills (e_parsed e) mb ts l (Err x)) -> wf_sub sub ->
  one_edit sub /\ forall a b, has_primary sub a b -> m_span (create_match (e_parsed e) (h_value h)) = Some (a, b).
Proof.
  intros L HD HP (l0 & t0 & Eb & Nm & An) Hat Hby (Hsp & Hpl & (reps & Er & Hreps) & _) NoErr (D1 & D2 & V).
  destruct (used_dicts pass e fs h f mb ts HD HP Hat Hby) as (-> & Rt & _). destruct (An pass fs h mb _ Hat Hby) as (w & Iw & Ew & Sw).
  pose proof Hby as (_ & (Dmb & _) & _).
  assert (Iv : PatternSpec.inside (e_tree e) (h_value h)) by now exists (h_path h).
  assert (Prim : forall a b, has_primary sub a b -> m_span (create_match (e_parsed e) (h_value h)) = Some (a, b)).
  { intros a b K. unfold has_primary in K. rewrite Hpl in K. apply Hsp in K as (m & Hm & Hs & _). apply In_dget in Hm; [|exact Dmb]. rewrite Rt in Hm. now injection Hm as <-. }
  split; [|exact Prim].
  assert (exists pa pb, has_primary sub pa pb) as (pa & pb & Hpr).
  { unfold validate in V. match type of V with (if ?c then _ else _) = _ => destruct c; [discriminate V|] end. destruct (dmem (matched_spans sub) (primary_label sub)) eqn:E; [|discriminate V].
    unfold dmem in E. destruct (dget (matched_spans sub) (primary_label sub)) as [[pa pb]|] eqn:Eg; [|discriminate E]. exists pa, pb. unfold has_primary. now apply dget_In. }
  pose proof (Prim _ _ Hpr) as Sv. pose proof (lo_start _ _ (lf_out _ _ L) _ _ _ Iv Sv) as Pv.
  assert (exists a b, m_span (create_match (e_parsed e) w) = Some (a, b)) as (a & b & Sa).
  { destruct Sw as [->|Sw]; [eauto|]. destruct (m_span (create_match (e_parsed e) w)) as [[a b]|]; [eauto|congruence]. }
  assert (Iw' : PatternSpec.inside (e_tree e) w).
  { destruct Iw as (q & Hq). exists (h_path h ++ q). rewrite at_path_app, Hat. exact Hq. }
  pose proof (lo_start _ _ (lf_out _ _ L) _ _ _ Iw' Sa) as Pw. pose proof (lf_nested _ _ L _ _ _ _ _ _ Iv Iw Sv Sa) as Nw.
  assert (Hin : In (l0, (a, b)) (matched_spans sub)).
  { apply Hsp. exists (create_match (e_parsed e) w). split; [now apply dget_In|]. split; [exact Sa|]. intros [= -> _]. lia. }
  assert (T0 : dget (fixer_templates f) l0 = Some t0).
  { rewrite fixer_templates_get, Eb. cbn [dget]. rewrite text_eqb_refl.
    repeat match goal with |- context[text_eqb ?x l0] => destruct (text_eqb_spec x l0) as [<-|_]; [exfalso; apply Nm; cbn; auto 6|] end. reflexivity. }
  assert (F0 : fills (e_parsed e) mb (fixer_templates f) l0 (t_substitute t0 (e_parsed e) (create_match (e_parsed e) w) mb)).
  { exists t0. split; [now apply dget_In|]. left. exists (create_match (e_parsed e) w). split; [now apply dget_In|]. split; [|reflexivity]. exists (a, b). split; [exact Sa|]. intros [= -> _]. lia. }
  destruct (t_substitute t0 (e_parsed e) (create_match (e_parsed e) w) mb) as [txt|x]; [|exfalso; exact (NoErr _ _ F0)].
  assert (R0 : In (l0, txt) reps) by (apply Hreps; now split).
  exists txt, a, b, pa, pb. split; [|split; [exact Hpr|lia] ].
  unfold edits_of. rewrite Er. rewrite (flat_map_one _ (matched_spans sub) l0 (a, b) D1 Hin).
  - rewrite (In_dget _ _ _ (D2 _ Er) R0). reflexivity.
  - intros l [c d] Hl Nl. destruct (dget reps l) as [txt'|] eqn:El; [|reflexivity]. exfalso. apply dget_In in El. apply Hreps in El as [(t1 & Ht1 & _) Nl'].
    apply Nl. apply In_dget in Ht1; [|apply fixer_templates_ok; exact HP]. rewrite fixer_templates_get, Eb in Ht1. cbn [dget] in Ht1.
    repeat match type of Ht1 with context[text_eqb ?x l] => destruct (text_eqb_spec x l) as [<-|_]; [exfalso; apply Nl'; cbn; auto 6|] end.
    destruct (text_eqb_spec l0 l) as [->|_]; [reflexivity|discriminate Ht1].
Qed.

Lemma anchored_root e f t : decisive e f -> plain_fixer f -> fx_replacement f = inl t -> anchored e f.
Proof.
  intros HD HP E. exists ROOT_LABEL, t. unfold fx_base. rewrite E. split; [reflexivity|]. split; [intros K; apply tmem_In in K; vm_compute in K; discriminate K|].
  intros pass fs h mb ts Hat Hby. destruct (used_dicts pass e fs h f mb ts HD HP Hat Hby) as (_ & Rt & _). exists (h_value h). split; [now exists []|]. split; [exact Rt|now left].
Qed.

(** *** The spans are places in the text *)
Lemma with_done_good e d v : good e v -> good (with_done e d) v.
Proof. exact (fun H => H). Qed.
Lemma groupless_oriented pass e fs h f key mb ts sub : positioned (e_parsed e) (e_tree e) -> groupless (fx_matcher f) = true -> decisive e f -> plain_fixer f ->
  at_path (e_tree e) (h_path h) = Some (h_value h) -> by_fixer pass e fs h f mb ts -> describes (e_parsed e) key mb ts sub -> well_oriented sub.
Proof.
  intros HT HG HD HP Hat Hby (Hsp & _). destruct (used_dicts pass e fs h f mb ts HD HP Hat Hby) as (_ & _ & b & Eb & Hmb).
  pose proof Hby as ((d & Hff) & (Dmb & _) & _). destruct (first_fixer_matches _ _ _ _ _ _ _ Hff) as [_ (s1 & m0 & Hm0 & He)]. apply with_meta_shape in Hm0. subst m0.
  assert (F : fine_result (with_done e d) (h_result h)).
  { eapply (results_are_pieces (with_done e d)); [exact HT| | |exact He].
    - apply groupless_ok. exact HG.
    - apply (good_inside (with_done e d) (e_tree e)); [exact (good_tree (with_done e d))|now exists (h_path h)]. }
  intros l x y Hin. unfold spans_of in Hin. apply Hsp in Hin as (m & Hm & Hs & Nm). apply In_dget in Hm; [|exact Dmb]. rewrite Hmb in Hm.
  destruct (dget b l) as [bv|] eqn:El; [|discriminate Hm]. injection Hm as <-. apply dget_In in El. destruct (proj2 F b Eb l bv El) as [Pc _].
  destruct ((proj1 Pc) _ Hs) as [K|[K _]]; [congruence|]. unfold in_text in K. cbn [fst snd] in K. lia.
Qed.
(** Patterns have no groups. *)
Lemma ast_pattern_groupless subs : (forall n m, dget subs n = Some m -> groupless m = true) -> forall v, groupless (ast_pattern subs v) = true.
Proof.
  intros Hs. induction v as [i fs IH|i l IH|i c] using value_ind'.
  - cbn [ast_pattern]. assert (K : groupless (MNode (n_type i) (map (fun kv => (fst kv, if ignored_field (n_type i) (fst kv) then MAnything else ast_pattern subs (snd kv))) fs)) = true).
    { cbn [groupless]. apply forallb_forall. intros x Hx. apply in_map_iff in Hx as (kv & <- & Hin). cbn [snd]. destruct (ignored_field _ _); [reflexivity|].
      rewrite Forall_forall in IH. now apply IH. }
    destruct (name_id _) as [n|]; [|exact K]. destruct (dget subs n) as [m|] eqn:E; [now apply (Hs n)|exact K].
  - cbn [ast_pattern groupless]. apply forallb_forall. intros x Hx. apply in_map_iff in Hx as (v & <- & Hin). rewrite Forall_forall in IH. now apply IH.
  - reflexivity.
Qed.
Lemma submatchers_groupless restrictions vars anon : (forall x r, dget restrictions x = Some r -> groupless r = true) ->
  forall n m, dget (submatchers restrictions vars anon) n = Some m -> groupless m = true.
Proof.
  intros HR. unfold submatchers.
  assert (A : forall l d, (forall n m, dget d n = Some m -> groupless m = true) -> forall n m, dget (fold_left (fun d n => dset d n MAnything) l d) n = Some m -> groupless m = true).
  { induction l as [|x l IH]; intros d Hd; [exact Hd|]. cbn [fold_left]. apply IH. intros n m. rewrite dget_dset. destruct (text_eqb _ _); [now intros [= <-]|apply Hd]. }
  assert (B : forall l d, (forall n m, dget d n = Some m -> groupless m = true) -> forall n m, dget (fold_left (fun d kv => dset d (snd kv)
      (MBind (fst kv) (or_default (dget restrictions (fst kv)) MAnything) (Some MERGE_EQUIVALENT_AST) None)) l d) n = Some m -> groupless m = true).
  { induction l as [|x l IH]; intros d Hd; [exact Hd|]. cbn [fold_left]. apply IH. intros n m. rewrite dget_dset. destruct (text_eqb _ _); [|apply Hd].
    intros [= <-]. cbn [groupless]. destruct (dget restrictions (fst x)) as [r|] eqn:E; [exact (HR _ _ E)|reflexivity]. }
  apply B. apply A. intros n m [=].
Qed.
Lemma pattern_groupless tokenize order ast_parse pull src restrictions m : (forall x r, dget restrictions x = Some r -> groupless r = true) ->
  base_ast_pattern tokenize order ast_parse pull src restrictions = Ok m -> groupless m = true.
Proof.
  intros HR H. unfold base_ast_pattern, remapped_ast, rewrite_submatchers in H.
  destruct (remap_macro_variables tokenize order src) as [[[s names] anon]|x] eqn:Er; cbn [bind] in H; [|destruct x; discriminate H].
  destruct (forallb _ _); cbn [bind] in H; [|discriminate H].
  destruct (ast_parse s) as [module|x] eqn:Ep; cbn [bind] in H; [|destruct x; discriminate H].
  destruct (verify_variables module names) as [[]|]; cbn [bind] in H; [|discriminate H].
  destruct (pull module) as [p|]; cbn [bind] in H; [|discriminate H]. injection H as <-. unfold rebound. cbn [groupless].
  apply ast_pattern_groupless. now apply submatchers_groupless.
Qed.

Section Fixers.
  Variable tokenize : text -> res (list ptok).
  Variable order : list nat -> list nat.
  Variable ast_parse : text -> res value.
  Variable parse_env : text -> res env.
  Variable decimal : Z -> bool.
  Variable G : grammar.
  Hypothesis I : interpreter tokenize order ast_parse parse_env G.
  Variable cf idf uf : list fixer.
  Hypothesis Hcf : correctness_fixers tokenize order ast_parse parse_env = Ok cf.
  Hypothesis Hid : idiom_fixers tokenize order ast_parse parse_env decimal = Ok idf.
  Hypothesis Huf : unittest_fixers tokenize order ast_parse parse_env = Ok uf.
  Variable parse_ast : text -> text -> res parsed_file.
  Variable context : parsed_file -> pyinfo -> env.
  Variable pass_template : template.
  Variable data path : text.
  Variable parsed : parsed_file.
  Variable e : env.
  Hypothesis HF : python_file tokenize G parse_ast context data path parsed e.
  Hypothesis L : laid_out_file (e_tree e) (e_parsed e).

  Lemma pattern_root old new msg url cat sig f : pattern_fixer tokenize order ast_parse parse_env old new msg url cat sig = Ok f -> exists t, fx_replacement f = inl t.
  Proof. unfold pattern_fixer. intros H. apply bind_Ok in H as (m & _ & H). apply bind_Ok in H as (t & _ & H). injection H as <-. eexists. reflexivity. Qed.
  Lemma mapM_all {A B} (g : A -> res B) (P : B -> Prop) l out : mapM g l = Ok out -> (forall x y, g x = Ok y -> P y) -> forall y, In y out -> P y.
  Proof. intros H K. apply mapM_Forall2 in H. induction H as [|x y l out Hy F IH]; intros z Hz; [destruct Hz|]. destruct Hz as [<-|Hz]; eauto. Qed.
  Lemma unittest_root f : In f uf -> exists t, fx_replacement f = inl t.
  Proof.
    pose proof Huf as H. unfold unittest_fixers in H. apply bind_Ok in H as (a & Ha & H). apply bind_Ok in H as (m & Hm & H). injection H as <-.
    intros Hin. apply in_app_iff in Hin as [Hin|Hin]; revert f Hin.
    - apply (mapM_all _ _ _ _ Ha). intros [[old new] url] y Hy. unfold assert_alias_fixer in Hy. apply bind_Ok in Hy as (o & _ & Hy). apply bind_Ok in Hy as (n & _ & Hy). now apply pattern_root in Hy.
    - apply (mapM_all _ _ _ _ Hm). intros [[[old new] method] absl] y Hy. unfold assert_message_fixer in Hy. repeat (apply bind_Ok in Hy as (? & _ & Hy)). injection Hy as <-. eexists. reflexivity.
  Qed.
  Lemma idiom_root es fs f : mapM (idiom_fixer tokenize order ast_parse parse_env) es = Ok fs -> In f fs -> exists t, fx_replacement f = inl t.
  Proof.
    intros H. revert f. apply (mapM_all _ _ _ _ H). intros [[old new] cat] y Hy. unfold idiom_fixer in Hy. repeat (apply bind_Ok in Hy as (? & _ & Hy)). injection Hy as <-. eexists. reflexivity.
  Qed.
  Lemma constant_root kf f : constant_fixers tokenize order ast_parse parse_env decimal = Ok kf -> In f kf -> exists t, fx_replacement f = inl t.
  Proof.
    intros H. revert f. apply (mapM_all _ _ _ _ H). intros [[old new] cat] y Hy. unfold mutable_constant_fixer in Hy. repeat (apply bind_Ok in Hy as (? & _ & Hy)). injection Hy as <-. eexists. reflexivity.
  Qed.
  (** *** No fixer has groups *)
  Lemma no_restrictions : forall x r, dget ([] : dict matcher) x = Some r -> groupless r = true.
  Proof. discriminate. Qed.
  Ltac restricted := let x := fresh in let r := fresh in let H := fresh in
    intros x r H; cbn [dget] in H; repeat match type of H with (if ?c then _ else _) = _ => destruct c; [injection H as <-; reflexivity|] end; discriminate H.
  Lemma unittest_groupless f : In f uf -> groupless (fx_matcher f) = true.
  Proof.
    pose proof Huf as H. unfold unittest_fixers in H. apply bind_Ok in H as (a & Ha & H). apply bind_Ok in H as (m & Hm & H). injection H as <-.
    intros Hin. apply in_app_iff in Hin as [Hin|Hin]; revert f Hin.
    - apply (mapM_all _ _ _ _ Ha). intros [[old new] url] y Hy. unfold assert_alias_fixer, pattern_fixer in Hy. apply bind_Ok in Hy as (o & _ & Hy). apply bind_Ok in Hy as (n & _ & Hy).
      apply bind_Ok in Hy as (pm & Hp & Hy). apply bind_Ok in Hy as (t & _ & Hy). injection Hy as <-. exact (pattern_groupless _ _ _ _ _ _ _ no_restrictions Hp).
    - apply (mapM_all _ _ _ _ Hm). intros [[[old new] method] absl] y Hy. unfold assert_message_fixer, pattern_fixer in Hy. apply bind_Ok in Hy as (o & _ & Hy). apply bind_Ok in Hy as (n & _ & Hy).
      apply bind_Ok in Hy as (pm & Hp & Hy). apply bind_Ok in Hy as (t & _ & Hy). injection Hy as <-. exact (pattern_groupless _ _ _ _ _ _ _ no_restrictions Hp).
  Qed.
  Lemma idiom_groupless es fs f : mapM (idiom_fixer tokenize order ast_parse parse_env) es = Ok fs -> In f fs -> groupless (fx_matcher f) = true.
  Proof.
    intros H. revert f. apply (mapM_all _ _ _ _ H). intros [[old new] cat] y Hy. unfold idiom_fixer, pattern_fixer in Hy. apply bind_Ok in Hy as (o & _ & Hy). apply bind_Ok in Hy as (n & _ & Hy).
    apply bind_Ok in Hy as (pm & Hp & Hy). apply bind_Ok in Hy as (t & _ & Hy). injection Hy as <-. exact (pattern_groupless _ _ _ _ _ _ _ no_restrictions Hp).
  Qed.
  Lemma constant_groupless kf f : constant_fixers tokenize order ast_parse parse_env decimal = Ok kf -> In f kf -> groupless (fx_matcher f) = true.
  Proof.
    intros H. unfold constant_fixers in H. apply mapM_Forall2 in H.
    assert (K : forall x y, In x (constant_entries decimal) -> mutable_constant_fixer tokenize order ast_parse parse_env x = Ok y -> groupless (fx_matcher y) = true).
    { intros x y Hx Hy. unfold mutable_constant_fixer in Hy. destruct x as [[old restr] new]. apply bind_Ok in Hy as (pm & Hp & Hy). apply bind_Ok in Hy as (t & _ & Hy). injection Hy as <-.
      refine (pattern_groupless _ _ _ _ _ _ _ _ Hp). destruct Hx as [[= <- <- <-]|[[= <- <- <-]|[[= <- <- <-]|[]]]]; restricted. }
    revert K. induction H as [|x y l l' Hy F IH]; intros K Hin; [destruct Hin|]. destruct Hin as [<-|Hin]; [exact (K x y (or_introl eq_refl) Hy)|].
    apply IH; [|exact Hin]. intros x' y' Hx'. apply K. now right.
  Qed.
  Lemma error_groupless f : logging_error_fixer tokenize order ast_parse parse_env = Ok f -> groupless (fx_matcher f) = true.
  Proof.
    unfold logging_error_fixer, logging_error_matcher. intros H. apply bind_Ok in H as (m & Hm & H). apply bind_Ok in H as (t & _ & H). injection H as <-. cbn [fx_matcher].
    apply bind_Ok in Hm as (pm & Hp & Hm). injection Hm as <-. apply (pattern_groupless _ _ _ _ _ _ _ no_restrictions) in Hp. unfold call_of. cbn [groupless forallb snd]. rewrite Hp. reflexivity.
  Qed.
  Lemma exception_groupless f : logging_exception_fixer tokenize order ast_parse = Ok f -> groupless (fx_matcher f) = true.
  Proof.
    unfold logging_exception_fixer, logging_exception_matcher. intros H. apply bind_Ok in H as (m & Hm & H). injection H as <-. cbn [fx_matcher].
    apply bind_Ok in Hm as (pm & Hp & Hm). injection Hm as <-. apply pattern_groupless in Hp; [|restricted]. cbn [groupless forallb]. rewrite Hp. reflexivity.
  Qed.
  Lemma python_fixer_groupless pm new msg url cat f : python_fixer tokenize order ast_parse parse_env pm new msg url cat = Ok f -> (forall m, pm = Ok m -> groupless m = true) -> groupless (fx_matcher f) = true.
  Proof. unfold python_fixer. intros H K. apply bind_Ok in H as (m & Hm & H). apply bind_Ok in H as (t & _ & H). injection H as <-. exact (K m Hm). Qed.
  Lemma listed_all (P : fixer -> Prop) l out : mapM (fun f : res fixer => f) l = Ok out -> (forall x, In x l -> forall y, x = Ok y -> P y) -> forall y, In y out -> P y.
  Proof.
    intros H. apply mapM_Forall2 in H. induction H as [|x y l out Hy F IH]; intros K z Hz; [destruct Hz|].
    destruct Hz as [<-|Hz]; [exact (K x (or_introl eq_refl) y Hy)|]. apply IH; [|exact Hz]. intros x' Hx'. apply K. now right.
  Qed.
  Lemma correctness_groupless f : In f cf -> groupless (fx_matcher f) = true.
  Proof.
    pose proof Hcf as H. unfold correctness_fixers in H. apply bind_Ok in H as (l1 & H1 & H). apply bind_Ok in H as (l2 & H2 & H). apply bind_Ok in H as (l3 & H3 & H). injection H as <-.
    rewrite !in_app_iff. intros [Hin|[Hin|Hin]].
    - assert (K : forall x, In x [is_fixer tokenize order ast_parse parse_env; is_not_fixer tokenize order ast_parse parse_env; yaml_load_fixer tokenize order ast_parse parse_env;
          yaml_load_all_fixer tokenize order ast_parse parse_env; percent_fixer tokenize order ast_parse parse_env] -> forall y, x = Ok y -> groupless (fx_matcher y) = true).
      { intros x Hx y Hy. destruct Hx as [<-|[<-|[<-|[<-|[<-|[]]]]]]; apply (python_fixer_groupless _ _ _ _ _ _ Hy); intros m Hm.
        - refine (pattern_groupless _ _ _ _ _ _ _ _ Hm). restricted.
        - refine (pattern_groupless _ _ _ _ _ _ _ _ Hm). restricted.
        - apply bind_Ok in Hm as (pm & Hp & Hm). injection Hm as <-. exact (pattern_groupless _ _ _ _ _ _ _ no_restrictions Hp).
        - apply bind_Ok in Hm as (pm & Hp & Hm). injection Hm as <-. exact (pattern_groupless _ _ _ _ _ _ _ no_restrictions Hp).
        - apply bind_Ok in Hm as (pm & Hp & Hm). injection Hm as <-. apply pattern_groupless in Hp; [|restricted]. cbn [groupless forallb]. rewrite Hp. reflexivity. }
      exact (listed_all _ _ _ H1 K f Hin).
    - revert f Hin. apply (mapM_all _ _ _ _ H2). intros [d r] y Hy. unfold attrib_fixer, attrib_matcher in Hy. apply bind_Ok in Hy as (m & Hm & Hy). injection Hy as <-. cbn [fx_matcher].
      apply bind_Ok in Hm as (fm & Hf & Hm). apply bind_Ok in Hm as (vm & Hv & Hm). injection Hm as <-.
      apply (pattern_groupless _ _ _ _ _ _ _ no_restrictions) in Hf, Hv. cbn [groupless forallb snd]. rewrite Hf, Hv. reflexivity.
    - assert (K : forall x, In x [utcfromtimestamp_fixer tokenize order ast_parse parse_env; utcnow_fixer tokenize order ast_parse parse_env] -> forall y, x = Ok y -> groupless (fx_matcher y) = true).
      { intros x Hx y Hy. destruct Hx as [<-|[<-|[]]]; apply (python_fixer_groupless _ _ _ _ _ _ Hy); intros m Hm; exact (pattern_groupless _ _ _ _ _ _ _ no_restrictions Hm). }
      exact (listed_all _ _ _ H3 K f Hin).
  Qed.
  Lemma all_groupless f : In f (cf ++ idf ++ uf) -> groupless (fx_matcher f) = true.
  Proof.
    destruct (idioms_split tokenize order ast_parse parse_env decimal idf Hid) as (nf & mf & kf & fe & fx & Hn & Hm & Hk & He & Hx & Eid). rewrite Eid.
    rewrite !in_app_iff. intros [Hin|[[Hin|[Hin|[Hin|[<-|[<-|[]]]]]]|Hin]].
    - now apply correctness_groupless.
    - exact (idiom_groupless _ _ _ Hn Hin).
    - exact (idiom_groupless _ _ _ Hm Hin).
    - exact (constant_groupless _ _ Hk Hin).
    - now apply error_groupless.
    - now apply exception_groupless.
    - now apply unittest_groupless.
  Qed.
  Lemma inside_field i fs x v : dget fs x = Some v -> PatternSpec.inside (VNode i fs) v.
  Proof.
    intros H. eapply (EquivProofs.inside_child _ (VNode i fs)); [now exists []|]. cbn [vchildren]. apply dget_In in H. exact (in_map snd _ _ H).
  Qed.
  Lemma attrib_anchored f value txt : attrib_implements G value txt f -> decisive e f -> anchored e f.
  Proof.
    intros (Pf & Em & Efr & fm & vm & Efm & Hy) HD. pose proof HF as [F1 F2 F3 F4 F5]. pose proof (ps_tree _ _ _ _ _ _ _ F1) as PT. destruct (Hy e PT) as [Yf Yv].
    exists (TX "keyword"), (sh_template txt). unfold fx_base. rewrite Efr. split; [reflexivity|]. split; [intros K; apply tmem_In in K; vm_compute in K; discriminate K|].
    intros pass fs h mb ts Hat Hby. destruct (used_dicts pass e fs h f mb ts HD Pf Hat Hby) as (_ & _ & b & Eb & Hmb).
    destruct Hby as ((d & Hff') & _). destruct (first_fixer_matches _ _ _ _ _ _ _ Hff') as [_ (s1 & m0 & Hm0 & He)].
    apply with_meta_shape in Hm0. subst m0. rewrite Efm in He.
    set (e' := with_done e d) in *. cbn [eval] in He.
    apply mbind_Ok in He as (s0 & o0 & He & Hend). destruct o0 as [r0|]; [|apply ret_Ok in Hend as [_ Hend]; discriminate Hend].
    assert (He' : (run o <- eval e' (call_matcher fm vm) (h_value h);
       match o with
       | None => ret None
       | Some r =>
           run rb <- lift (do b <- r_bindings r; not_none b);
           run rm <- lift (r_match r);
           run rt <- lift (r_reps r);
           run mb <- lift (merge_bindings rb [(ROOT_LABEL, bound_value rm None None)]);
           ret (match mb with None => None | Some b => Some (RInfo rm (Some b) rt) end)
       end) s1 = (s0, Ok (Some r0))) by exact He. clear He.
    apply mbind_Ok in He' as (s2 & o & E & He). destruct o as [r1|]; [|apply ret_Ok in He as [_ He]; discriminate He].
    destruct (call_eval e fm vm (made_of attr_ib) (made_of value) Yf Yv G (in_call _ _ _ _ _ I) PT d (h_value h) s1 s2 r1 (ex_intro _ _ Hat) E)
      as (i & fs0 & func & id & kws & kw & Ev & Ei & Efu & Pfu & Ek & Hkw & (j & gs & id' & w & Ekw & Ej & Ea & Ew & Pw) & ->).
    cbn [r_bindings r_match r_reps bind not_none] in He. unfold mbind, lift, ret in He.
    assert (M : merge_bindings [(TX "keyword", bound_value (create_match (e_parsed e) kw) None None)] [(ROOT_LABEL, bound_value (create_match (e_parsed e) (h_value h)) None None)]
      = Ok (Some [(TX "keyword", bound_value (create_match (e_parsed e) kw) None None); (ROOT_LABEL, bound_value (create_match (e_parsed e) (h_value h)) None None)])) by reflexivity.
    rewrite M in He. injection He as _ <-.
    cbn [r_bindings r_match r_reps bind not_none] in Hend. unfold mbind, lift, ret in Hend. cbn [merge_replacements] in Hend.
    assert (Em2 : option_map b_value (dget b (TX "keyword")) = Some (create_match (e_parsed e) kw)).
    { destruct (merge_replacements [] (fixer_templates f)); [|discriminate Hend]. injection Hend as _ Hend. rewrite <- Hend in Eb. cbn [r_bindings] in Eb. injection Eb as <-. reflexivity. }
    exists kw. split; [|split; [rewrite Hmb; exact Em2|right] ].
    - rewrite Ev. eapply (EquivProofs.inside_child _ (VList id kws)); [|exact Hkw]. exact (inside_field i fs0 _ _ Ek).
    - rewrite Ekw. apply (lf_keywords _ _ L); [|exact Ej]. rewrite <- Ekw. eapply (EquivProofs.inside_child _ (VList id kws)); [|exact Hkw].
      eapply (EquivProofs.inside_child _ (VNode i fs0)); [rewrite <- Ev; now exists (h_path h)|]. cbn [vchildren]. apply dget_In in Ek. exact (in_map snd _ _ Ek).
  Qed.
  Lemma error_anchored f : logging_error_fixer tokenize order ast_parse parse_env = Ok f -> plain_fixer f -> decisive e f -> anchored e f.
  Proof.
    intros H HP HD. pose proof I as [I1 I2 I3 I4 I5 I6 I7 I8 I9 I10 I11 I12 I13 I14]. pose proof HF as [F1 F2 F3 F4 F5]. pose proof (ps_tree _ _ _ _ _ _ _ F1) as PT.
    destruct (fixer_shape tokenize order ast_parse parse_env f H) as (fm & t & Hfm & Em & Ht & Efr & _).
    exists (TX "logging_error"), (as_template tokenize order ast_parse parse_env t). unfold fx_base. rewrite Efr. split; [reflexivity|].
    split; [intros K; apply tmem_In in K; vm_compute in K; discriminate K|].
    assert (B : ~ In ROOT_LABEL (bind_variables (fx_matcher f))).
    { rewrite Em. destruct (error_plain tokenize order ast_parse parse_env parse_ast I1 I12 fm Hfm) as (_ & _ & _ & D). intros Hr. apply D in Hr. destruct Hr as [Hr|[Hr|[]]]; apply text_eqb_eq in Hr; discriminate Hr. }
    intros pass fs h mb ts Hat Hby.
    destruct (error_gives tokenize order ast_parse G I1 I2 I3 I4 I6 e PT F2 F3 fm I12 Hfm _ _ Hat) as [(func & x & k & Lg & Hk & Gv)|[Gv _]].
    2:{ rewrite <- Em in Gv. destruct (fixer_result _ _ _ _ _ _ _ _ HP B (proj2 HD) Hby Gv) as (b & K & _). discriminate K. }
    rewrite <- Em in Gv.
    destruct (fixer_result _ _ _ _ _ _ _ _ HP B (proj2 HD) Hby Gv) as (b & K & Hmb). assert (b = error_result e func x) by congruence. subst b. clear K.
    specialize (Hmb ltac:(unfold error_result, dict_ok, dkeys; cbn [map fst]; nodup_tac)).
    pose proof (Hmb (TX "logging_error")) as K1. change (dget mb (TX "logging_error") = Some (create_match (e_parsed e) func)) in K1.
    exists func. split; [|split; [exact K1|right] ].
    - rewrite at_path_app, Hat in Hk. now exists [k].
    - destruct Lg as (i & fs0 & ida & args & arg & x' & idk & kws & Hp' & Ei & Ef & _).
      assert (Lf : located_expr func).
      { refine (proj1 (wp_located _ F4 i fs0 (TX "func") func (ex_intro _ _ Hp') (dget_In _ _ _ Ef)) _). rewrite Ei. cbn [PyCode.expr_fields In]. tauto. }
      destruct Lf as [_ Lf]. unfold create_match. destruct (lexical_tokens func) as [[f0 l0]|]; [cbn; discriminate|congruence].
  Qed.
  Lemma exception_anchored f : logging_exception_fixer tokenize order ast_parse = Ok f -> plain_fixer f -> decisive e f -> anchored e f.
  Proof.
    intros H HP HD. pose proof I as [I1 I2 I3 I4 I5 I6 I7 I8 I9 I10 I11 I12 I13 I14]. pose proof HF as [F1 F2 F3 F4 F5]. pose proof (ps_tree _ _ _ _ _ _ _ F1) as PT.
    destruct (exc_fixer_plain tokenize order ast_parse G I1 I3 I6 I14 f H) as [A B].
    destruct (exc_shape tokenize order ast_parse G I1 I3 I6 I14 f H) as (module & pf & Em & C & N & S & Im & E & Efr & Mt & Ur).
    exists (TX "logging_exception"), exc_template. unfold fx_base. rewrite Efr. split; [reflexivity|].
    split; [intros K; apply tmem_In in K; vm_compute in K; discriminate K|].
    intros pass fs h mb ts Hat Hby.
    destruct (exc_gives G I2 I3 I4 e PT module pf C N S Im F3 I5 F2 (wp_spans _ F4) _ _ Hat) as [(arg & x & func & Lg & Gv)|[Gv _]].
    2:{ rewrite <- Em in Gv. destruct (fixer_result _ _ _ _ _ _ _ _ HP B (proj2 HD) Hby Gv) as (b & K & _). discriminate K. }
    rewrite <- Em in Gv.
    destruct (fixer_result _ _ _ _ _ _ _ _ HP B (proj2 HD) Hby Gv) as (b & K & Hmb). assert (b = exc_result e arg x (h_value h) func) by congruence. subst b. clear K.
    specialize (Hmb (exc_dict e arg x (h_value h) func)).
    pose proof (Hmb (TX "logging_exception")) as K1. change (dget mb (TX "logging_exception") = Some (create_match (e_parsed e) (h_value h))) in K1.
    exists (h_value h). split; [now exists []|]. split; [exact K1|now left].
  Qed.

  Lemma all_anchored f : In f (cf ++ idf ++ uf) -> plain_fixer f -> decisive e f -> anchored e f.
  Proof.
    intros Hin HP HD. pose proof I as [I1 I2 I3 I4 I5 I6 I7 I8 I9 I10 I11 I12 I13 I14].
    destruct (idioms_split tokenize order ast_parse parse_env decimal idf Hid) as (nf & mf & kf & fe & fx & Hn & Hm & Hk & He & Hx & Eid). rewrite Eid in Hin.
    assert (Rt : (exists t, fx_replacement f = inl t) -> anchored e f) by (intros (t & Et); now apply (anchored_root e f t)).
    destruct (codes_split tokenize order ast_parse parse_env G I) as [UA UE].
    rewrite !in_app_iff in Hin. destruct Hin as [Hin|[[Hin|[Hin|[Hin|[<-|[<-|[]]]]]]|Hin]].
    - destruct (all_implemented tokenize order ast_parse parse_env parse_ast G I1 I2 I3 I6 I10 UE cf f Hcf Hin) as [(en & Hen & _ & Em & holes & p & t & Ht & Efr & _)|(value & fac & Hfac & Im)].
      + apply Rt. eauto.
      + exact (attrib_anchored f value fac Im HD).
    - apply Rt. exact (idiom_root _ _ _ Hn Hin).
    - apply Rt. exact (idiom_root _ _ _ Hm Hin).
    - apply Rt. exact (constant_root _ _ Hk Hin).
    - now apply error_anchored.
    - now apply exception_anchored.
    - apply Rt. now apply unittest_root.
  Qed.

  (** *** What is found *)
  Lemma left_apart h h' a b c d : at_path (e_tree e) (h_path h) = Some (h_value h) -> at_path (e_tree e) (h_path h') = Some (h_value h') -> FindSpec.left_of (h_path h) (h_path h') ->
    m_span (create_match (e_parsed e) (h_value h)) = Some (a, b) -> m_span (create_match (e_parsed e) (h_value h')) = Some (c, d) -> b <= c \/ d <= a.
  Proof. intros H1 H2 H3 H4 H5. exact (lo_apart _ _ (lf_out _ _ L) _ _ _ _ _ _ _ _ H1 H2 H3 H4 H5). Qed.
  Lemma all_positioned : positioned (e_parsed e) (e_tree e).
  Proof.
    intros w [a b] Hw Hs. pose proof HF as [F1 F2 F3 F4 F5]. pose proof (wp_spans _ F4 _ _ _ Hw Hs). pose proof (lo_start _ _ (lf_out _ _ L) _ _ _ Hw Hs). unfold in_text. cbn [fst snd]. lia.
  Qed.
  Lemma all_orderly fs s subs : incl fs (cf ++ idf ++ uf) -> combining_fixer parse_ast context pass_template fs = Ok s -> s_find s parsed = Ok subs -> orderly subs.
  Proof.
    intros Hi Hc Hf. pose proof HF as [F1 F2 F3 F4 F5].
    destruct (idioms_split tokenize order ast_parse parse_env decimal idf Hid) as (nf & mf & kf & fe & fx & Hn & Hm & Hk & He & Hx & Eid).
    assert (Hd : forall f, In f fs -> plain_fixer f /\ decisive e f).
    { intros f Hin. apply (everyone_decisive tokenize order ast_parse parse_env decimal G I cf uf Hcf Huf nf mf kf fe fx Hn Hm Hk He Hx parse_ast context data path parsed e HF).
      unfold everyone. rewrite <- Eid. exact (Hi f Hin). }
    clear Eid. assert (Pl : Forall plain_fixer fs) by (apply Forall_forall; intros f Hin; now apply Hd).
    pose proof (combined_wf _ _ _ _ _ _ _ Hc Pl Hf) as W.
    destruct (combined_filled _ _ _ _ _ _ _ Hc Pl Hf) as (info' & ms & hs & Ei & Hms & Hfd & Hmade).
    destruct (ps_python _ _ _ _ _ _ _ F1) as (info & P1 & P2 & P3). rewrite P1 in Ei. injection Ei as <-. rewrite <- P2 in Hfd, Hmade. clear P2.
    assert (At : Forall (fun h => at_path (e_tree e) (h_path h) = Some (h_value h)) hs).
    { apply Forall_forall. intros h Hh. apply in_split in Hh as (h1 & h2 & Eh). now destruct (fd_match _ _ _ Hfd h1 h h2 Eh). }
    assert (K : exists hs', Forall2 (fun h sub => at_path (e_tree e) (h_path h) = Some (h_value h) /\ one_edit sub /\ well_oriented sub
        /\ forall a b, has_primary sub a b -> m_span (create_match (e_parsed e) (h_value h)) = Some (a, b)) hs' subs
      /\ StronglySorted (fun h h' => FindSpec.left_of (h_path h) (h_path h')) hs' /\ incl hs' hs).
    { pose proof (fd_order _ _ _ Hfd) as Ord. clear Hf Hfd. revert W At Ord. induction Hmade as [|h hs subs Hsk M IH|h hs sub subs (f & mb & ts & Hby & Hde & _ & Ne) M IH]; intros W At Ord.
      - exists []. split; [constructor|]. split; [constructor|]. intros x [].
      - inversion At; subst. inversion Ord; subst. destruct IH as (hs' & A & B & C); auto. exists hs'. split; [exact A|]. split; [exact B|]. intros y Hy. right. auto.
      - inversion W as [|? ? W1 W2]; subst. inversion At as [|? ? A1 A2]; subst. inversion Ord as [|? ? O1 O2]; subst. destruct IH as (hs' & A & B & C); auto.
        exists (h :: hs'). split; [|split].
        + constructor; [|exact A]. split; [exact A1|].
          pose proof Hby as ((dd & Hff) & _). destruct (first_fixer_matches _ _ _ _ _ _ _ Hff) as [Hg _]. destruct (Hd f Hg) as [HP HD].
          assert (Hde' : describes (e_parsed e) (key_span_for_dict (py_tree info)) mb ts sub) by (rewrite (ps_env _ _ _ _ _ _ _ F1); exact Hde).
          destruct (anchored_one pass_template e fs h f (key_span_for_dict (py_tree info)) mb ts sub L HD HP) as [X1 X2]; auto using all_anchored.
          * rewrite (ps_env _ _ _ _ _ _ _ F1). exact Ne.
          * split; [exact X1|]. split; [|exact X2]. exact (groupless_oriented pass_template e fs h f _ mb ts sub all_positioned (all_groupless f (Hi f Hg)) HD HP A1 Hby Hde').
        + constructor; [exact B|]. rewrite Forall_forall in *. auto.
        + intros y [<-|Hy]; [now left|right; auto]. }
    clear At Hfd Hmade. destruct K as (hs' & F & O & _). constructor; [exact W| | |].
    - clear -F. induction F as [|h sub hs' subs (_ & H & _) F IH]; constructor; auto.
    - clear -F O L. induction F as [|h sub hs' subs (At & _ & _ & Pr) F IH]; [constructor|]. inversion O as [|? ? O1 O2]; subst. constructor; [|auto].
      apply Forall_forall. intros sub' Hin. assert (exists h', In h' hs' /\ at_path (e_tree e) (h_path h') = Some (h_value h')
        /\ forall a b, has_primary sub' a b -> m_span (create_match (e_parsed e) (h_value h')) = Some (a, b)) as (h' & Hh' & At' & Pr').
      { clear -F Hin. induction F as [|h sub hs' subs (At & _ & _ & Pr) F IH]; [destruct Hin|]. destruct Hin as [->|Hin]; [exists h; split; [now left|auto]|].
        destruct (IH Hin) as (h' & A & B). exists h'. split; [now right|exact B]. }
      rewrite Forall_forall in O2. intros a b c d H1 H2. eapply (left_apart h h'); eauto.
    - clear -F. induction F as [|h sub hs' subs (_ & _ & H & _) F IH]; constructor; auto.
  Qed.
End Fixers.
