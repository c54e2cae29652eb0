(** The fixers for logging: what their matchers find.  Proofs. *)
From Verif Require Import TemplateProofs Py PyFacts Regex Subst ApplySpec Ast Template FromDiff Matcher MatchSpec MergeSpec MergeProofs MatcherProofs BindProofs OnceProofs FindSpec FindProofs
  NavSpec NavProofs CollSpec CollProofs PatTok PatSpec Pattern PatternSpec EquivProofs PatternProofs PatternApi
  PyTemplate PyTemplateSpec PyTemplateProofs Search SearchSpec Removal OwnSpec
  PropsTemplate ExprSubSpec ExprSubProofs PropsExprSub Fixer FixerSpec FixerProofs PyCode BuiltinFixers BuiltinSpec CodeProofs BuiltinProofs BuiltinApply BuiltinTables BuiltinMain
  CorrectnessFixers CorrectnessSpec CorrectnessProofs CorrectnessMain CorrectnessSearch ThoroughSpec ThoroughCode ThoroughProofs
  IdiomFixers IdiomSpec LoggingSpec LoggingEval.
From Coq Require Import Permutation.

Notation EB m := (Bound m MERGE_IDENTICAL KEEP_LAST).

Lemma decides_keyword x : decides (MNode (TX "keyword") [(TX "arg", MEquals (VConst 0 (CStr x))); (TX "value", MAnything)]) (keyword_named x).
Proof.
  intros e c. destruct (text_eqb_spec (vtype c) (TX "keyword")) as [E|E].
  - destruct (node_of_type c (TX "keyword") eq_refl E) as (i & fs & ->). change (vtype (VNode i fs)) with (n_type i) in E.
    destruct (py_eq (vfield (VNode i fs) (TX "arg")) (VConst 0 (CStr x))) eqn:Ep.
    + left. split.
      * cbn [vfield] in Ep. destruct (dget fs (TX "arg")) as [w|] eqn:Ed; [|discriminate Ep]. exists i, fs, w. do 3 (split; [assumption || reflexivity|]).
        destruct w as [| |id k]; try discriminate Ep. destruct k; try discriminate Ep. cbn [py_eq const_eqb] in Ep. apply text_eqb_eq in Ep. subst. eexists. reflexivity.
      * intros s. cbn [eval]. change (vtype (VNode i fs)) with (n_type i). rewrite E, text_eqb_refl.
        cbn [map fst snd eval]. rewrite Ep. reflexivity.
    + right. split.
      * intros (j & gs & w & Ec & _ & Ea & id & ->). injection Ec as <- <-. cbn [vfield] in Ep. rewrite Ea in Ep. cbn [py_eq const_eqb] in Ep. now rewrite text_eqb_refl in Ep.
      * intros s. cbn [eval]. change (vtype (VNode i fs)) with (n_type i). rewrite E, text_eqb_refl.
        cbn [map fst snd eval]. rewrite Ep. reflexivity.
  - right. split.
    + intros (j & gs & w & -> & Et & _). contradiction.
    + intros s. cbn [eval]. now rewrite (proj2 (text_eqb_neq _ _) E).
Qed.

(** *** In a handler *)
Definition name_match (parsed : parsed_file) (h : value) : pymatch :=
  let w := vfield h (TX "name") in
  if text_eqb (vtype w) (TX "Name") then create_match parsed (vfield w (TX "id")) else create_match parsed w.
Lemma gives_e e c : gives e c bind_e (Some [(TX "e", EB (create_match (e_parsed e) c))]).
Proof. intros d s. reflexivity. Qed.
Lemma gives_name_with e c m o : vtype c = TX "Name" -> gives e (vfield c (TX "id")) m o -> gives e c (name_with m) o.
Proof.
  intros E H. apply (gives_node e c _ _ [o; Some []]); [exact E| |].
  - constructor; [exact H|]. constructor; [apply gives_anything|constructor].
  - cbn [joined]. destruct o as [b|]; [|reflexivity]. rewrite merge_bindings_nil. cbn [bind]. now rewrite merge_bindings_nil_r.
Qed.
Lemma gives_handler e h : vtype h = TX "ExceptHandler" -> gives e h (handler (MAnyOf [name_with bind_e; bind_e])) (Some [(TX "e", EB (name_match (e_parsed e) h))]).
Proof.
  intros E. apply (gives_node e h _ _ [Some []; Some [(TX "e", EB (name_match (e_parsed e) h))]; Some []]); [exact E| |reflexivity].
  constructor; [apply gives_anything|]. constructor; [|constructor; [apply gives_anything|constructor]]. cbn [fst snd]. unfold name_match.
  intros d s. rewrite eval_anyof. cbn [filter]. change (type_filter (name_with bind_e)) with (Some [TX "Name"]). change (admits (type_filter bind_e) _) with true.
  destruct (text_eqb_spec (vtype (vfield h (TX "name"))) (TX "Name")) as [En|Nn].
  - assert (admits (Some [TX "Name"]) (vtype (vfield h (TX "name"))) = true) as -> by (rewrite En; reflexivity).
    cbn [map first_of]. unfold mbind at 1. rewrite (gives_name_with e _ bind_e _ En (gives_e e _)). reflexivity.
  - assert (admits (Some [TX "Name"]) (vtype (vfield h (TX "name"))) = false) as ->.
    { unfold admits, tmem. cbn [existsb]. rewrite orb_false_r. apply text_eqb_neq. congruence. }
    cbn [map first_of]. unfold mbind at 1. rewrite gives_e. reflexivity.
Qed.
Lemma gives_in_handler e p x : unshared (e_tree e) -> climbable (e_tree e) p x ->
  gives e x in_exception_handler (match nearest (TX "ExceptHandler") (e_tree e) p with Some h => Some [(TX "e", EB (name_match (e_parsed e) h))] | None => None end).
Proof.
  intros Un Cl. apply (gives_first_ancestor e (TX "ExceptHandler") _ _ p x (fun h => Some [(TX "e", EB (name_match (e_parsed e) h))]) Un Cl eq_refl).
  - repeat constructor.
  - intros anc Hn. apply gives_handler. unfold nearest in Hn. apply find_some in Hn as [_ Hn]. now apply text_eqb_eq in Hn.
Qed.
Lemma name_matched root parsed h x : python_nodes root -> PatternSpec.inside root h -> vtype h = TX "ExceptHandler" ->
  name_match parsed h = PString x <-> handler_as h x.
Proof.
  intros [PN _] Ih E. destruct (node_of_type h (TX "ExceptHandler") eq_refl E) as (i & fs & ->). change (vtype (VNode i fs)) with (n_type i) in E. unfold name_match. cbn [vfield].
  assert (St : forall w, create_match parsed w = PString x <-> string_is w x).
  { intros w. unfold create_match. split.
    - destruct (lexical_tokens w) as [[f l]|]; [discriminate|]. destruct w as [| |id [| | | |]]; try discriminate. intros [= ->]. eexists. reflexivity.
    - intros (id & ->). reflexivity. }
  destruct (dget fs (TX "name")) as [w|] eqn:Ed.
  2:{ split; [discriminate|]. intros (j & gs & w & Ec & _ & Ew & _). injection Ec as <- <-. congruence. }
  assert (Iw : PatternSpec.inside root w).
  { apply dget_In in Ed. eapply EquivProofs.inside_child; [exact Ih|]. cbn [vchildren]. now apply (in_map snd) in Ed. }
  split.
  - intros H. exists i, fs, w. do 3 (split; [assumption || reflexivity|]). destruct (text_eqb_spec (vtype w) (TX "Name")) as [En|Nn].
    + right. destruct (node_of_type w (TX "Name") eq_refl En) as (j & gs & ->). destruct (PN j gs Iw En) as (id & y & Ey). cbn [vfield] in H. rewrite Ey in H.
      exists j, gs, (VConst id (CStr y)). do 3 (split; [assumption || reflexivity|]). now apply St.
    + left. now apply St.
  - intros (j & gs & w' & Ec & _ & Ew & H). injection Ec as <- <-. rewrite Ed in Ew. injection Ew as <-. destruct H as [H|(j & gs & u & -> & Et & Eu & H)].
    + destruct H as (id & ->). reflexivity.
    + change (vtype (VNode j gs)) with (n_type j). rewrite Et, text_eqb_refl. cbn [vfield]. rewrite Eu. now apply St.
Qed.
Lemma caught_nearest e p v x : python_nodes (e_tree e) -> at_path (e_tree e) p = Some v ->
  caught_as (e_tree e) p x <-> exists h, nearest (TX "ExceptHandler") (e_tree e) p = Some h /\ name_match (e_parsed e) h = PString x.
Proof.
  intros PN Hp. split.
  - intros (h & (q & r & E1 & E2 & E3 & E4 & E5) & Hh). exists h. split; [eapply place_nearest; eassumption|].
    apply (name_matched (e_tree e)); [exact PN|now exists q|exact E4|exact Hh].
  - intros (h & Hn & Hm). destruct (nearest_place _ _ _ _ Hp _ Hn) as (q & r & E1 & E2 & E3 & E4 & E5). exists h. split; [exists q, r; auto|].
    apply (name_matched (e_tree e)) in Hm; [exact Hm|exact PN|now exists q|exact E4].
Qed.
Lemma nearest_step ty tree q i y x : at_path tree q = Some y -> at_path tree (q ++ [i]) = Some x -> vtype y <> ty -> nearest ty tree (q ++ [i]) = nearest ty tree q.
Proof. intros Hq Hx N. unfold nearest. rewrite (ancestors_snoc _ _ _ _ Hq). cbn [find]. now rewrite (proj2 (text_eqb_neq _ _) N). Qed.

(** *** [logging.error] *)
Lemma merge_same a b : merge_bindings [(TX "e", EB a)] [(TX "e", EB b)] = Ok (if pymatch_eqb a b then Some [(TX "e", EB b)] else None).
Proof.
  unfold merge_bindings, merge_bindings_in.
  change (shared_keys [(TX "e", EB a)] [(TX "e", EB b)]) with [TX "e"]. cbn [merge_shared].
  change (dget [(TX "e", EB a)] (TX "e")) with (Some (EB a)). change (dget [(TX "e", EB b)] (TX "e")) with (Some (EB b)). cbn iota.
  cbn [b_conflict b_merge conflict_eqb merge_eqb negb resolve]. unfold bound_eqb. cbn [b_value b_conflict b_merge conflict_eqb merge_eqb]. rewrite !andb_true_r.
  cbn [bind]. destruct (pymatch_eqb a b); reflexivity.
Qed.
Definition argument_matcher : matcher := MAllOf [in_exception_handler; name_with bind_e].
(** The argument is the exception that was caught. *)
Lemma gives_argument e p a : unshared (e_tree e) -> python_nodes (e_tree e) -> at_path (e_tree e) p = Some a -> is_node a = true ->
  (exists x, variable_is a x /\ caught_as (e_tree e) p x /\ gives e a argument_matcher (Some [(TX "e", EB (PString x))]))
  \/ (~ (exists x, variable_is a x /\ caught_as (e_tree e) p x) /\ gives e a argument_matcher None).
Proof.
  intros Un PN Hp Hn.
  assert (Cl : climbable (e_tree e) p a).
  { split; [apply Un; [exact Hp|now rewrite Hn]|]. intros. left. destruct a; try discriminate Hn. reflexivity. }
  pose proof (gives_in_handler e p a Un Cl) as H1.
  destruct (text_eqb_spec (vtype a) (TX "Name")) as [Et|Nt].
  - destruct (node_of_type a (TX "Name") eq_refl Et) as (i & fs & ->). change (vtype (VNode i fs)) with (n_type i) in Et.
    destruct (pn_names _ PN i fs (ex_intro _ p Hp) Et) as (id & x & Ex).
    assert (H2 : gives e (VNode i fs) (name_with bind_e) (Some [(TX "e", EB (PString x))])).
    { apply gives_name_with; [exact Et|]. cbn [vfield]. rewrite Ex. apply gives_e. }
    assert (Vx : variable_is (VNode i fs) x) by (exists i, fs, (VConst id (CStr x)); do 3 (split; [assumption || reflexivity|]); eexists; reflexivity).
    assert (Ux : forall y, variable_is (VNode i fs) y -> y = x).
    { intros y (j & gs & w & Ec & _ & Ew & id' & ->). injection Ec as <- <-. rewrite Ex in Ew. now injection Ew as _ <-. }
    destruct (nearest (TX "ExceptHandler") (e_tree e) p) as [h|] eqn:Eh.
    + destruct (pymatch_eqb (name_match (e_parsed e) h) (PString x)) eqn:Em.
      * left. exists x. split; [exact Vx|]. split.
        -- apply (caught_nearest e p _ x PN Hp). exists h. split; [exact Eh|]. destruct (name_match (e_parsed e) h); try discriminate Em. cbn [pymatch_eqb] in Em.
           apply text_eqb_eq in Em. now subst.
        -- apply (gives_all e _ _ [Some [(TX "e", EB (name_match (e_parsed e) h))]; Some [(TX "e", EB (PString x))]]); [constructor; [exact H1|constructor; [exact H2|constructor]]|].
           cbn [joined]. rewrite merge_bindings_nil. cbn [bind]. rewrite merge_same, Em. reflexivity.
      * right. split.
        -- intros (y & Vy & Cy). apply Ux in Vy as ->. apply (caught_nearest e p _ x PN Hp) in Cy as (h' & Eh' & Hm). rewrite Eh in Eh'. injection Eh' as <-.
           rewrite Hm in Em. cbn [pymatch_eqb] in Em. now rewrite text_eqb_refl in Em.
        -- apply (gives_all e _ _ [Some [(TX "e", EB (name_match (e_parsed e) h))]; Some [(TX "e", EB (PString x))]]); [constructor; [exact H1|constructor; [exact H2|constructor]]|].
           cbn [joined]. rewrite merge_bindings_nil. cbn [bind]. rewrite merge_same, Em. reflexivity.
    + right. split.
      * intros (y & _ & Cy). apply (caught_nearest e p _ y PN Hp) in Cy as (h' & Eh' & _). congruence.
      * apply (gives_all e _ _ [None; Some [(TX "e", EB (PString x))]]); [constructor; [exact H1|constructor; [exact H2|constructor]]|reflexivity].
  - right. split; [intros (x & (i & fs & w & -> & Et & _) & _); contradiction|].
    apply (gives_all e _ _ [match nearest (TX "ExceptHandler") (e_tree e) p with Some h => Some [(TX "e", EB (name_match (e_parsed e) h))] | None => None end; None]).
    + constructor; [exact H1|]. constructor; [now apply gives_other|constructor].
    + destruct (nearest _ _ _); reflexivity.
Qed.
