(** Proofs for C79. *)
From Verif Require Import TemplateProofs Py PyFacts Regex Subst ApplySpec Ast Template FromDiff Matcher MatchSpec MatcherProofs FindSpec FindProofs
  FilterSpec NavSpec NavProofs PatTok PatSpec Pattern PatternSpec EquivProofs PatternProofs PatternApi
  PyTemplate PyTemplateSpec PyTemplateProofs Search SearchSpec Removal OwnSpec SampleTrees PropsPattern
  PropsTemplate ExprSubSpec ExprSubProofs PropsExprSub Fixer FixerSpec FixerProofs PropsFixer PyCode BuiltinFixers BuiltinSpec CodeProofs BuiltinProofs BuiltinApply BuiltinTables BuiltinMain BuiltinSample PropsBuiltin
  CorrectnessFixers CorrectnessSpec CorrectnessProofs CorrectnessMain CorrectnessSearch CorrectnessSample PropsCorrectness
  ThoroughSpec ThoroughCode ThoroughProofs ThoroughSearch ThoroughMain ThoroughAttrib ThoroughTables PropsThorough
  IdiomFixers IdiomSpec IdiomProofs IdiomThorough IdiomSample PropsIdiom LoggingSpec LoggingEval LoggingProofs LoggingError LoggingMain LoggingSample PropsLogging
  LoggingExcSpec LoggingExc LoggingExcProofs LoggingExcMain LoggingExcSample PropsLoggingExc AllSpec.
From Coq Require Import Permutation.

(** *** The kinds of fixers, told apart by what they say *)
Definition meta := (option text * option text * bool)%type.
Definition kinds : list (list meta) :=
  [map alias_meta alias_codes ++ map message_meta message_codes ++ map (idiom_meta (TX "pylint.g-comparison-negation")) negation_codes;
   map (idiom_meta (TX "idioms.uncessary-comprehension")) comprehension_codes;
   map entry_meta (firstn 5 entries) ++ [attrib_meta; attrib_meta; attrib_meta] ++ map entry_meta (skipn 5 entries);
   map (fun en => (Some (en_message en), Some (en_category en), false)) (constant_table (fun _ => false));
   [error_meta]; [described_meta]].
Definition otext_eqb (a b : option text) : bool := match a, b with Some x, Some y => text_eqb x y | None, None => true | _, _ => false end.
Definition meta_eqb (a b : meta) : bool :=
  otext_eqb (snd (fst a)) (snd (fst b)) && Bool.eqb (snd a) (snd b).
Lemma meta_eqb_refl a : meta_eqb a a = true.
Proof.
  destruct a as [[m c] s]. unfold meta_eqb. cbn [fst snd]. rewrite Bool.eqb_reflx, andb_true_r. destruct c as [c|]; [|reflexivity]. cbn. now apply text_eqb_eq.
Qed.
Fixpoint apart (ks : list (list meta)) : bool :=
  match ks with
  | [] => true
  | k :: ks => forallb (fun k' => forallb (fun a => forallb (fun b => negb (meta_eqb a b)) k') k) ks && apart ks
  end.
Lemma kinds_apart : apart kinds = true.
Proof. vm_compute. reflexivity. Qed.
Lemma apart_nth ks : apart ks = true -> forall i j k k' a, nth_error ks i = Some k -> nth_error ks j = Some k' -> In a k -> In a k' -> i = j.
Proof.
  assert (W : forall ks i j k k' a, apart ks = true -> (i < j)%nat -> nth_error ks i = Some k -> nth_error ks j = Some k' -> In a k -> In a k' -> False).
  { clear ks. induction ks as [|k0 ks IH]; intros i j k k' a H L Ei Ej Ha Ha'; [destruct i; discriminate Ei|]. cbn [apart] in H. apply andb_prop in H as [H1 H2].
    destruct j as [|j]; [lia|]. cbn [nth_error] in Ej. destruct i as [|i].
    - cbn [nth_error] in Ei. injection Ei as ->. rewrite forallb_forall in H1. specialize (H1 _ (nth_error_In _ _ Ej)). cbn beta in H1. rewrite forallb_forall in H1. specialize (H1 _ Ha). cbn beta in H1.
      rewrite forallb_forall in H1. specialize (H1 _ Ha'). cbn beta in H1. rewrite meta_eqb_refl in H1. discriminate H1.
    - cbn [nth_error] in Ei. apply (IH i j k k' a); auto. lia. }
  intros H i j k k' a Ei Ej Ha Ha'. destruct (lt_eq_lt_dec i j) as [[L|L]|L]; [|exact L|]; exfalso; eauto.
Qed.

Lemma paired {A B} (R : A -> B -> Prop) la lb : Forall2 R la lb -> forall n a, nth_error la n = Some a -> exists b, nth_error lb n = Some b /\ R a b.
Proof.
  intros M. induction M as [|a b la lb Hab M IH]; intros [|n] x Hn; try discriminate Hn.
  - injection Hn as <-. exists b. now split.
  - exact (IH n x Hn).
Qed.

(** *** The substitutions of a search are well-formed *)
Lemma sub_of_match_wf ms reps key s : dict_ok ms -> dict_ok reps -> sub_of_match ms reps key = Ok s -> wf_sub s.
Proof.
  intros Hm Hr H. unfold sub_of_match in H.
  assert (D : dict_ok (ddel (ddel (ddel (ddel reps MESSAGE_LABEL) URL_LABEL) CATEGORY_LABEL) SIGNIFICANT_LABEL)) by (repeat apply dict_ok_ddel; exact Hr).
  revert H D. generalize (ddel (ddel (ddel (ddel reps MESSAGE_LABEL) URL_LABEL) CATEGORY_LABEL) SIGNIFICANT_LABEL). intros r4 H D.
  unfold make_sub in H. destruct (validate _) as [[]|] eqn:EV; [|discriminate H]. cbn [bind] in H. injection H as <-.
  split; [now apply RewriteProofs.located_ok|]. split; [|exact EV]. cbn [replacements]. intros r [= <-]. exact D.
Qed.
Lemma rewriting_find_wf parsed key dicts out :
  Forall (fun mt : dict pymatch * dict template => dict_ok (fst mt) /\ dict_ok (snd mt)) dicts ->
  rewriting_find parsed key dicts = Ok out -> Forall wf_sub out.
Proof.
  intro HD. revert out. induction HD as [|[ms ts] dicts [Hms Hts] HD IH]; intros out H.
  - injection H as <-. constructor.
  - cbn [fst snd] in Hms, Hts. cbn [rewriting_find] in H.
    destruct (rewrite_templates parsed ms ts) as [reps|x] eqn:Er.
    + destruct (key ms) as [k|] eqn:Ek; cbn [bind] in H; [|discriminate].
      destruct (sub_of_match ms reps k) as [s|] eqn:Es; cbn [bind] in H; [|discriminate].
      destruct (rewriting_find parsed key dicts) as [r|] eqn:Ef; cbn [bind] in H; [|discriminate].
      injection H as <-. constructor; [|now apply IH]. apply (sub_of_match_wf ms reps k s); auto.
      now destruct (RewriteProofs.rewrite_ok parsed ms Hms ts reps Hts Er) as (? & _).
    + destruct x; try discriminate H. now apply IH.
Qed.
Lemma combined_wf parse_ast context pass_template fs s parsed subs :
  combining_fixer parse_ast context pass_template fs = Ok s -> Forall plain_fixer fs -> s_find s parsed = Ok subs -> Forall wf_sub subs.
Proof.
  intros Hc HP H. unfold combining_fixer in Hc. apply bind_Ok in Hc as (ms & Hms & Hc).
  match type of Hc with (if ?c then _ else _) = _ => destruct c; [|discriminate Hc] end. injection Hc as <-.
  change (s_find (python_searcher parse_ast context pass_template (MAnyOf ms)) parsed = Ok subs) in H.
  assert (Hm : dicts_ok (MAnyOf ms)).
  { cbn [dicts_ok]. pose proof (mapM_Forall2 _ _ _ Hms) as HF. clear - HF HP. induction HF as [|f m fs ms Hm HF IH]; [exact Logic.I|].
    inversion HP; subst. cbn [fold_right]. split; [|apply IH; assumption]. apply with_meta_shape in Hm as ->.
    cbn [dicts_ok]. split; [now apply fixer_templates_ok|now apply pf_dicts]. }
  cbn [s_find python_searcher] in H. apply bind_Ok in H as (outs & H1 & H2). unfold find_dicts in *. destruct (pf_py parsed) as [info|] eqn:E; [|discriminate H1].
  apply (rewriting_find_wf _ _ _ _) in H2; [exact H2|].
  apply bind_Ok in H1 as (out & H1 & H3). eapply RemovalSearch.sanitize_all_dicts; [|exact H3]. eapply RemovalSearch.find_iter_results; eassumption.
Qed.
(** What is replaced is something in the file. *)
Lemma explained_at tokenize order ast_parse parse_env decimal e sub l txt : explained tokenize order ast_parse parse_env decimal e sub l txt ->
  exists c sp, PatternSpec.inside (e_tree e) c /\ m_span (create_match (e_parsed e) c) = Some sp /\ In (l, sp) (matched_spans sub).
Proof.
  intros [old new _ W|W|en _ _ W|_ W|en _ _ W|_ W|_ W].
  - destruct W as (q & c & sp & ? & ? & ? & ? & ? & _ & H1 & H2 & H3 & _). exists c, sp. split; [now exists q|auto].
  - destruct W as (q & c & sp & ? & ? & ? & ? & ? & ? & ? & ? & ? & _ & H1 & H2 & H3 & _). exists c, sp. split; [now exists q|auto].
  - destruct W as (q & c & sp & ? & ? & ? & ? & ? & _ & H1 & H2 & H3 & _). exists c, sp. split; [now exists q|auto].
  - destruct W as (q & i & fs & func & id & kws & kw & v & sp & H1 & _ & _ & _ & H2 & H3 & _ & _ & _ & H4 & H5). exists kw, sp. split; [|auto].
    eapply (EquivProofs.inside_child _ (VList id kws)); [|exact H3]. eapply (EquivProofs.inside_child _ (VNode i fs)); [now exists q|]. cbn [vchildren]. apply dget_In in H2. exact (in_map snd _ _ H2).
  - destruct W as (q & c & sp & ? & ? & ? & ? & _ & H1 & H2 & H3 & _). exists c, sp. split; [now exists q|auto].
  - destruct W as (p & func & q & sp & _ & H1 & _ & H2 & H3 & _). exists func, sp. split; [now exists q|auto].
  - destruct W as (p & c & func & sp & ? & ? & H1 & _ & _ & H2 & H3 & _). exists c, sp. split; [now exists p|auto].
Qed.

Section All.
  Variable tokenize : text -> res (list ptok).
  Variable order : list nat -> list nat.
  Variable ast_parse : text -> res value.
  Variable parse_env : text -> res env.
  Variable decimal : Z -> bool.
  Variable G : grammar.
  Hypothesis I : interpreter tokenize order ast_parse parse_env G.
  Variable cf idf uf : list fixer.
  Hypothesis Hcf : correctness_fixers tokenize order ast_parse parse_env = Ok cf.
  Hypothesis Hid : idiom_fixers tokenize order ast_parse parse_env decimal = Ok idf.
  Hypothesis Huf : unittest_fixers tokenize order ast_parse parse_env = Ok uf.

  Lemma idioms_split : exists nf mf kf fe fx, negation_fixers tokenize order ast_parse parse_env = Ok nf /\ comprehension_fixers tokenize order ast_parse parse_env = Ok mf
    /\ constant_fixers tokenize order ast_parse parse_env decimal = Ok kf /\ logging_error_fixer tokenize order ast_parse parse_env = Ok fe
    /\ logging_exception_fixer tokenize order ast_parse = Ok fx /\ idf = nf ++ mf ++ kf ++ [fe; fx].
  Proof.
    pose proof Hid as H. unfold idiom_fixers in H. apply bind_Ok in H as (nf & H1 & H). apply bind_Ok in H as (mf & H2 & H). apply bind_Ok in H as (kf & H3 & H).
    apply bind_Ok in H as (fe & H4 & H). apply bind_Ok in H as (fx & H5 & H). injection H as <-. exists nf, mf, kf, fe, fx. auto 10.
  Qed.
  Variable nf mf kf : list fixer.
  Variable fe fx : fixer.
  Hypothesis Hn : negation_fixers tokenize order ast_parse parse_env = Ok nf.
  Hypothesis Hm : comprehension_fixers tokenize order ast_parse parse_env = Ok mf.
  Hypothesis Hk : constant_fixers tokenize order ast_parse parse_env decimal = Ok kf.
  Hypothesis He : logging_error_fixer tokenize order ast_parse parse_env = Ok fe.
  Hypothesis Hx : logging_exception_fixer tokenize order ast_parse = Ok fx.
  Definition groups : list (list fixer) := [uf ++ nf; mf; cf; kf; [fe]; [fx]].
  Lemma codes_split : Forall (fun oc => understood tokenize ast_parse (fst oc) /\ understood tokenize ast_parse (snd oc)) all_codes
    /\ Forall (fun oc => understood tokenize ast_parse (fst oc) /\ understood tokenize ast_parse (snd oc)) entry_codes.
  Proof. exact (proj1 (Forall_app _ _ _) (in_codes _ _ _ _ _ I)). Qed.
  Lemma grouped_metas : Forall2 (fun g k => forall f, In f g -> In (meta_of f) k) groups kinds.
  Proof.
    pose proof (C72_messages _ _ _ _ _ _ _ Huf Hn Hm) as M. change (map meta_of (uf ++ nf ++ mf) =
      map alias_meta alias_codes ++ map message_meta message_codes ++ map (idiom_meta (TX "pylint.g-comparison-negation")) negation_codes ++ map (idiom_meta (TX "idioms.uncessary-comprehension")) comprehension_codes) in M.
    assert (L : length mf = 2%nat).
    { pose proof Hm as K. unfold comprehension_fixers in K. apply mapM_Forall2 in K. unfold comprehension_entries in K. repeat match goal with H : Forall2 _ (_ :: _) ?l |- _ => inversion H; clear H; subst | H : Forall2 _ [] ?l |- _ => inversion H; clear H; subst end. reflexivity. }
    assert (M1 : map meta_of (uf ++ nf) = map alias_meta alias_codes ++ map message_meta message_codes ++ map (idiom_meta (TX "pylint.g-comparison-negation")) negation_codes
      /\ map meta_of mf = map (idiom_meta (TX "idioms.uncessary-comprehension")) comprehension_codes).
    { rewrite !app_assoc, map_app, <- !app_assoc in M. rewrite (app_assoc _ _ (map (idiom_meta (TX "idioms.uncessary-comprehension")) comprehension_codes)) in M.
      rewrite (app_assoc (map alias_meta alias_codes)) in M. apply app_eq_app in M as (r & [[E1 E2]|[E1 E2]]).
      - apply (f_equal (@length _)) in E2 as E3. rewrite app_length, !map_length, L in E3. cbn in E3. destruct r; [|cbn in E3; lia]. rewrite app_nil_r in E1. now split.
      - apply (f_equal (@length _)) in E2 as E3. rewrite app_length, !map_length, L in E3. cbn in E3. destruct r; [|cbn in E3; lia]. rewrite app_nil_r in E1. now split. }
    destruct M1 as [M1 M2]. unfold groups, kinds.
    apply Forall2_cons; [intros f Hf; rewrite <- M1; now apply in_map|].
    apply Forall2_cons; [intros f Hf; rewrite <- M2; now apply in_map|].
    apply Forall2_cons; [intros f Hf; pose proof (C73_messages _ _ _ _ _ Hcf) as K; change (map meta_of cf = map entry_meta (firstn 5 entries) ++ [attrib_meta; attrib_meta; attrib_meta] ++ map entry_meta (skipn 5 entries)) in K; rewrite <- K; now apply in_map|].
    apply Forall2_cons.
    { intros f Hf. destruct (constant_implemented tokenize order ast_parse parse_env decimal G (in_order _ _ _ _ _ I) (in_proper _ _ _ _ _ I) (in_python _ _ _ _ _ I) (in_ast _ _ _ _ _ I) (in_constants _ _ _ _ _ I) kf f Hk Hf) as (en & Hen & _ & Em & _). rewrite Em.
      destruct Hen as [<-|[<-|[<-|[]]]]; cbn; auto. }
    apply Forall2_cons; [intros f [<-|[]]; destruct (fixer_shape tokenize order ast_parse parse_env fe He) as (_ & _ & _ & _ & _ & _ & Em & _); rewrite Em; now left|].
    apply Forall2_cons; [|constructor]. intros f [<-|[]].
    destruct (exc_shape tokenize order ast_parse G (in_order _ _ _ _ _ I) (in_python _ _ _ _ _ I) (in_ast _ _ _ _ _ I) (in_caught _ _ _ _ _ I) fx Hx) as (_ & _ & _ & _ & _ & _ & _ & _ & _ & Em & _). rewrite Em. now left.
  Qed.

  Variable parse_ast : text -> text -> res parsed_file.
  Variable context : parsed_file -> pyinfo -> env.
  Variable pass_template : template.
  Variable data path : text.
  Variable parsed : parsed_file.
  Variable e : env.
  Hypothesis HF : python_file tokenize G parse_ast context data path parsed e.
  Definition everyone : list fixer := cf ++ (nf ++ mf ++ kf ++ [fe; fx]) ++ uf.
  Lemma everyone_grouped f : In f everyone -> exists i g, nth_error groups i = Some g /\ In f g.
  Proof.
    unfold everyone. rewrite !in_app_iff. intros [H|[[H|[H|[H|[<-|[<-|[]]]]]]|H]].
    - exists 2%nat, cf. now split.
    - exists 0%nat, (uf ++ nf). split; [reflexivity|]. apply in_or_app. now right.
    - exists 1%nat, mf. now split.
    - exists 3%nat, kf. now split.
    - exists 4%nat, [fe]. split; [reflexivity|now left].
    - exists 5%nat, [fx]. split; [reflexivity|now left].
    - exists 0%nat, (uf ++ nf). split; [reflexivity|]. apply in_or_app. now left.
  Qed.
  Lemma everyone_decisive f : In f everyone -> plain_fixer f /\ decisive e f.
  Proof.
    destruct I as [I1 I2 I3 I4 I5 I6 I7 I8 I9 I10 I11 I12 I13 I14]. destruct HF as [F1 F2 F3 F4 F5]. pose proof (ps_tree _ _ _ _ _ _ _ F1) as PT.
    intros H. assert (K : In f (cf ++ uf ++ nf ++ mf) \/ In f kf \/ f = fe \/ f = fx).
    { revert H. unfold everyone. rewrite !in_app_iff. cbn [In]. intuition auto. }
    clear H. destruct K as [H|[H|[E|E] ] ]; [| |subst f|subst f].
    - apply (C74_decisive tokenize order ast_parse parse_env G cf uf nf mf e f); assumption.
    - apply (C75_decisive tokenize order ast_parse parse_env decimal G kf e f); assumption.
    - apply (C76_decisive tokenize order ast_parse parse_env G fe e); assumption.
    - apply (C77_decisive tokenize order ast_parse G fx e); try assumption. exact (wp_spans _ F4).
  Qed.
  Variable fs : list fixer.
  Hypothesis Hfs : incl fs everyone.
  Variable s : searcher.
  Hypothesis Hs : combining_fixer parse_ast context pass_template fs = Ok s.
  Variable subs : list substitution.
  Hypothesis Hf : s_find s parsed = Ok subs.
  Lemma by_group (sub : substitution) (P : Prop) (Ps : nat -> Prop) :
    (forall i g, nth_error groups i = Some g -> exists f, In f fs /\ carries f sub /\ (In f g -> Ps i)) ->
    (forall i, (i < 6)%nat -> Ps i -> P) -> P.
  Proof.
    intros H HP. destruct (H 0%nat (uf ++ nf) eq_refl) as (f & H1 & H2 & _). destruct (everyone_grouped f (Hfs _ H1)) as (i & g & Hi & Hg).
    destruct (H i g Hi) as (f' & H1' & H2' & K). destruct (everyone_grouped f' (Hfs _ H1')) as (j & g' & Hj & Hg').
    assert (E : meta_of f = meta_of f').
    { destruct H2 as (A1 & _ & A3 & A4), H2' as (B1 & _ & B3 & B4). unfold meta_of. congruence. }
    assert (N : forall n g0, nth_error groups n = Some g0 -> exists k, nth_error kinds n = Some k /\ forall f0, In f0 g0 -> In (meta_of f0) k).
    { exact (paired _ _ _ grouped_metas). }
    destruct (N _ _ Hi) as (k & Ek & Hk0), (N _ _ Hj) as (k' & Ek' & Hk').
    pose proof (Hk0 _ Hg) as M1. pose proof (Hk' _ Hg') as M2. rewrite E in M1.
    assert (Eij : i = j) by exact (apart_nth kinds kinds_apart i j k k' (meta_of f') Ek Ek' M1 M2). subst j. rewrite Hi in Hj. injection Hj as <-.
    apply (HP i); [|exact (K Hg')]. change 6%nat with (length groups). apply nth_error_Some. congruence.
  Qed.
  Lemma all_sound sub reps l txt : In sub subs -> replacements sub = Some reps -> In (l, txt) reps -> explained tokenize order ast_parse parse_env decimal e sub l txt.
  Proof.
    destruct codes_split as [UA UE].
    intros Hin Er Hl. pose proof I as [I1 I2 I3 I4 I5 I6 I7 I8 I9 I10 I11 I12 I13 I14]. pose proof HF as [F1 F2 F3 F4 F5]. pose proof (ps_tree _ _ _ _ _ _ _ F1) as PT.
    assert (Pl : forall f, In f fs -> plain_fixer f) by (intros f H; apply everyone_decisive, Hfs, H).
    destruct (C72_behaviour tokenize order ast_parse parse_env parse_ast context pass_template G fs uf nf mf s data path parsed e subs sub I1 I2 I3 I6 I8 UA Huf Hn Hm
      (fun f H => or_intror (Pl f H)) Hs F1 F2 (wp_located _ F4) F5 Hf Hin) as (f1 & A1 & B1 & C1 & D1).
    destruct (C73_corrections tokenize order ast_parse parse_env parse_ast context pass_template G fs cf s data path parsed e subs sub I1 I2 I3 I4 I6 I8 UE I10 Hcf
      (fun f H => or_intror (Pl f H)) Hs F1 F2 (wp_located _ F4) F5 Hf Hin) as (f2 & A2 & B2 & C2).
    destruct (C75_frozen tokenize order ast_parse parse_env decimal G parse_ast context pass_template fs kf s data path parsed e subs sub I1 I2 I3 I6 I8 I11 Hk
      (fun f H => or_intror (Pl f H)) Hs F1 F2 (wp_located _ F4) F5 Hf Hin) as (f3 & A3 & B3 & C3).
    destruct (C76_exception_instead tokenize order ast_parse parse_env G parse_ast context pass_template fs fe s data path parsed e subs sub I1 I2 I3 I4 I6 I8 I12 I13 He
      (fun f H => or_intror (Pl f H)) Hs F1 F2 F3 F5 Hf Hin) as (f4 & A4 & B4 & C4).
    destruct (C77_described_partial tokenize order ast_parse parse_env G parse_ast context pass_template fs fx s data path parsed e subs sub I1 I2 I3 I4 I5 I6 I8 I14 Hx
      (fun f H => or_intror (Pl f H)) Hs F1 F2 F3 (wp_spans _ F4) (wp_located _ F4) F5 Hf Hin) as (f5 & A5 & B5 & C5).
    apply (by_group sub _ (fun _ => explained tokenize order ast_parse parse_env decimal e sub l txt)); [|auto].
    intros [|[|[|[|[|[|n]]]]]] g Eg; cbn in Eg; try (injection Eg as <-).
    - exists f1. split; [exact A1|]. split; [exact B1|]. intros H. destruct (C1 H reps l txt Er Hl) as (old & new & K1 & K2). exact (By_equivalent _ _ _ _ _ _ _ _ _ _ _ K1 K2).
    - exists f1. split; [exact A1|]. split; [exact B1|]. intros H. apply By_comprehension. exact (D1 H reps l txt Er Hl).
    - exists f2. split; [exact A2|]. split; [exact B2|]. intros H. destruct (C2 H reps l txt Er Hl) as [(en & K1 & K2 & K3)|[K1 K2]]; [exact (By_correction _ _ _ _ _ _ _ _ _ _ K1 K2 K3)|now apply By_factory].
    - exists f3. split; [exact A3|]. split; [exact B3|]. intros H. destruct (C3 H reps l txt Er Hl) as (en & K1 & K2 & K3). exact (By_freezing _ _ _ _ _ _ _ _ _ _ K1 K2 K3).
    - exists f4. split; [exact A4|]. split; [exact B4|]. intros [H|[]]. destruct (C4 (eq_sym H)) as [K1 K2]. apply By_exception; [exact K1|exact (K2 reps l txt Er Hl)].
    - exists f5. split; [exact A5|]. split; [exact B5|]. intros [H|[]]. destruct (C5 (eq_sym H)) as [K1 K2]. apply By_description; [exact K1|exact (K2 reps l txt Er Hl)].
    - destruct n; discriminate Eg.
  Qed.
  Lemma all_found q : incl everyone fs -> defect decimal e q -> dealt_with e fs subs q.
  Proof.
    destruct codes_split as [UA UE].
    intros Hall D. pose proof I as [I1 I2 I3 I4 I5 I6 I7 I8 I9 I10 I11 I12 I13 I14]. pose proof HF as [F1 F2 F3 F4 F5]. pose proof (ps_tree _ _ _ _ _ _ _ F1) as PT.
    assert (Pl : forall f, In f fs -> plain_fixer f /\ decisive e f) by (intros f H; apply everyone_decisive, Hfs, H).
    assert (In1 : incl (uf ++ nf ++ mf) fs /\ incl cf fs /\ incl kf fs /\ In fe fs /\ In fx fs).
    { assert (K : forall f, In f (uf ++ nf ++ mf) \/ In f cf \/ In f kf \/ f = fe \/ f = fx -> In f fs).
      { intros f H. apply Hall. unfold everyone. rewrite !in_app_iff. rewrite !in_app_iff in H. cbn [In]. intuition auto. }
      repeat split; try (intros f H); apply K; tauto. }
    destruct In1 as (J1 & J2 & J3 & J4 & J5).
    destruct D as [c Hc U|en c Hen Hc B|c Hc Sh|en c Hen Hc B|func L|func L].
    - apply (C74_every_idiom tokenize order ast_parse parse_env parse_ast context pass_template G fs uf nf mf s data path parsed e subs q c); auto.
    - apply (C74_every_bug tokenize order ast_parse parse_env parse_ast context pass_template G fs cf s data path parsed e subs q c); eauto.
    - apply (C74_every_bug tokenize order ast_parse parse_env parse_ast context pass_template G fs cf s data path parsed e subs q c); eauto.
    - apply (C75_every_constant tokenize order ast_parse parse_env decimal parse_ast context pass_template G fs kf s data path parsed e subs q c); eauto.
    - apply (C76_every_error tokenize order ast_parse parse_env parse_ast context pass_template G fs fe s data path parsed e subs q func); auto.
    - apply (C77_every_exception tokenize order ast_parse parse_ast context pass_template G fs fx s data path parsed e subs q func); auto.
      now rewrite (ps_env _ _ _ _ _ _ _ F1) in L.
  Qed.
  (** The text after one round. *)
  Lemma all_rewritten n out : n <= 1 -> rewrite_string parse_ast s data path n = Ok out ->
    exists edits, Permutation edits (flat_map edits_of subs) /\ Edited data 0 edits out
      /\ forall t a b, In (t, a, b) edits -> exists sub l, In sub subs /\ In (l, (a, b)) (matched_spans sub) /\ explained tokenize order ast_parse parse_env decimal e sub l t.
  Proof.
    intros Hn1 H. pose proof HF as [F1 F2 F3 F4 F5].
    assert (Pl : Forall plain_fixer fs) by (apply Forall_forall; intros f Hin; apply everyone_decisive, Hfs, Hin).
    unfold rewrite_string in H. apply bind_Ok in H as (subs' & H1 & H2). apply find_iter_inv in H1 as (parsed' & E1 & E2); [|exact Hn1].
    assert (parsed' = parsed) as ->.
    { pose proof Hs as Hc. unfold combining_fixer in Hc. apply bind_Ok in Hc as (ms & _ & Hc).
      match type of Hc with (if ?c then _ else _) = _ => destruct c; [|discriminate Hc] end. injection Hc as <-.
      cbn [s_parse file_regex_filtered python_searcher] in E1. unfold python_parse in E1. rewrite (ps_parsed _ _ _ _ _ _ _ F1) in E1. now injection E1 as <-. }
    assert (subs' = subs) as -> by (rewrite Hf in E2; now injection E2 as <-).
    pose proof (combined_wf _ _ _ _ _ _ _ Hs Pl Hf) as W.
    assert (X : forall sub t a b, In sub subs -> In (t, a, b) (edits_of sub) ->
      exists l, In (l, (a, b)) (matched_spans sub) /\ explained tokenize order ast_parse parse_env decimal e sub l t /\ 0 <= a).
    { intros sub t a b Hin Hed. unfold edits_of in Hed. apply in_flat_map in Hed as ([l [a' b']] & Hl & Hed). destruct (replacements sub) as [r|] eqn:Er; [|destruct Hed].
      destruct (dget r l) as [t'|] eqn:El; [|destruct Hed]. destruct Hed as [[= -> -> ->]|[]]. exists l. split; [exact Hl|].
      pose proof (all_sound sub r l t Hin Er (dget_In _ _ _ El)) as S. split; [exact S|]. destruct (explained_at _ _ _ _ _ _ _ _ _ S) as (c & sp & I1 & I2 & I3).
      rewrite Forall_forall in W. destruct (W _ Hin) as (D1 & _ & _).
      assert (E : sp = (a, b)) by (pose proof (In_dget _ _ _ D1 Hl) as K1; pose proof (In_dget _ _ _ D1 I3) as K2; rewrite K1 in K2; now injection K2).
      subst sp. exact (proj1 (wp_spans _ F4 _ _ _ I1 I2)). }
    destruct (ApplyProofs.apply_edits_of data subs out W) as (es & Pe & Ed); [|exact H2|].
    - apply Forall_forall. intros sub Hin [[t a] b] He0. destruct (X sub t a b Hin He0) as (_ & _ & _ & K). exact K.
    - exists es. split; [exact Pe|]. split; [exact Ed|]. intros t a b Hin. apply (Permutation_in _ Pe) in Hin. apply in_flat_map in Hin as (sub & K1 & K2).
      destruct (X sub t a b K1 K2) as (l & L1 & L2 & _). eauto.
  Qed.
End All.
