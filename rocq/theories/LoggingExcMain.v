(** The fixer for [logging.exception] in a search.  Proofs. *)
From Verif Require Import TemplateProofs Py PyFacts Regex Subst ApplySpec Ast Template FromDiff Matcher MatchSpec MergeSpec MergeProofs MatcherProofs BindProofs OnceProofs FindSpec FindProofs
  NavSpec NavProofs CollSpec CollProofs PatTok PatSpec PatTokProofs LexProofs Pattern PatternSpec EquivProofs PatternProofs PatternApi
  PyTemplate PyTemplateSpec PyTemplateProofs Search SearchSpec Removal OwnSpec
  PropsTemplate ExprSubSpec ExprSubProofs PropsExprSub Fixer FixerSpec FixerProofs PyCode BuiltinFixers BuiltinSpec CodeProofs BuiltinProofs BuiltinApply BuiltinTables BuiltinMain
  CorrectnessFixers CorrectnessSpec CorrectnessProofs CorrectnessMain CorrectnessSearch ThoroughSpec ThoroughCode ThoroughProofs ThoroughSearch ThoroughMain
  IdiomFixers IdiomSpec LoggingSpec LoggingEval LoggingProofs LoggingError LoggingMain LoggingExcSpec LoggingExc LoggingExcProofs.
From Coq Require Import Permutation.

Section Search.
  Variable tokenize : text -> res (list ptok).
  Variable order : list nat -> list nat.
  Variable ast_parse : text -> res value.
  Variable pass_template : template.
  Variable G : grammar.
  Hypothesis HO : forall l, Permutation (order l) l.
  Hypothesis HG : proper G.
  Hypothesis HGp : python_grammar G.
  Hypothesis HGc : call_grammar G.
  Hypothesis HGt : try_grammar G.
  Hypothesis HA : python_ast G ast_parse.
  Hypothesis UL : understood_as KStmt tokenize ast_parse (logs_exception (TX "arg")).

  Notation the_fixer := (logging_exception_fixer tokenize order ast_parse).
  Notation the_name := (name_with (MBind (TX "e") MAnything None None)).
  Definition exc_template : template := sh_template (TX "logging.exception('Call to """ ++ TX "$func"" resulted in an error')").
  Lemma exc_shape f : the_fixer = Ok f -> exists module pf,
    fx_matcher f = exception_matcher (logs_pattern the_name pf)
    /\ conforms G pf /\ is_node pf = true /\ stands (fun (_ : label) _ => False) (tree_of logging_exception) pf
    /\ PatternSpec.inside module pf /\ (parses_evaluated ast_parse -> evaluated_exprs module /\ evaluated pf)
    /\ fx_replacement f = inr [(TX "logging_exception", exc_template)] /\ meta_of f = described_meta
    /\ fx_url f = Some (TX "https://refex.readthedocs.io/en/latest/guide/fixers/logging_exceptions.html").
  Proof.
    unfold logging_exception_fixer. intros H. apply bind_Ok in H as (m & Hm & H). injection H as <-.
    unfold logging_exception_matcher in Hm. apply bind_Ok in Hm as (m0 & Hm0 & Hm). injection Hm as <-.
    destruct (logs_shape tokenize order ast_parse G HO HGp HA UL _ _ Hm0) as (module & pf & -> & C & N & S & I & E). exists module, pf.
    split; [reflexivity|]. do 5 (split; [assumption|]). split; [reflexivity|]. split; reflexivity.
  Qed.
  Lemma exc_plain pf : plain_matcher [TX "logging_exception"; TX "arg"; TX "e"; TX "func"] (exception_matcher (logs_pattern the_name pf)).
  Proof.
    destruct (pattern_plain [] [] ltac:(discriminate) pf) as (A1 & A2 & A3 & A4). unfold exception_matcher, logs_pattern, rebound, ast_matchers_matcher.
    revert A1 A2 A3 A4. generalize (ast_pattern [] pf). intros fm A1 A2 A3 A4.
    assert (E : bind_variables fm = []) by (destruct (bind_variables fm) as [|x l]; [reflexivity|destruct (A4 x (or_introl eq_refl))]).
    split; [|split; [|split]].
    - cbn. assert (dict_ok (@nil (label * matcher))) by constructor. repeat split; try exact A1; constructor.
    - cbn. now rewrite A2.
    - cbn. now rewrite A3.
    - intros x Hx. unfold call_of in Hx. cbn [bind_variables flat_map snd app] in Hx. rewrite E in Hx. vm_compute in Hx. vm_compute. tauto.
  Qed.
  Lemma exc_templates f l t : the_fixer = Ok f -> dget (fixer_templates f) l = Some t -> t_template t <> [].
  Proof.
    intros H. destruct (exc_shape f H) as (module & pf & _ & _ & _ & _ & _ & _ & Er & Mt & Ur).
    rewrite fixer_templates_get. unfold fx_base. rewrite Er, Ur. unfold meta_of in Mt.
    assert (M1 : fx_message f = fst (fst described_meta)) by (rewrite <- Mt; reflexivity). assert (M2 : fx_category f = snd (fst described_meta)) by (rewrite <- Mt; reflexivity).
    assert (M3 : fx_significant f = snd described_meta) by (rewrite <- Mt; reflexivity). rewrite M1, M2, M3. clear.
    assert (K : dget [(TX "logging_exception", exc_template)] l = Some t -> t_template t <> []).
    { intros Hd. apply dget_In in Hd. destruct Hd as [Hd|[]]. apply (f_equal snd) in Hd. cbn [snd] in Hd. subst t. discriminate. }
    destruct (text_eqb SIGNIFICANT_LABEL l); [exact K|]. destruct (text_eqb CATEGORY_LABEL l); [intros [= <-]; discriminate|].
    destruct (text_eqb URL_LABEL l); [intros [= <-]; discriminate|]. destruct (text_eqb MESSAGE_LABEL l); [intros [= <-]; discriminate|]. exact K.
  Qed.
  Lemma exc_fixer_plain f : the_fixer = Ok f -> plain_fixer f /\ ~ In ROOT_LABEL (bind_variables (fx_matcher f)).
  Proof.
    intros H. destruct (exc_shape f H) as (module & pf & Em & _ & _ & _ & _ & _ & Er & _). destruct (exc_plain pf) as (A & B & C & D). rewrite Em. split.
    - constructor; rewrite ?Em, ?Er; auto.
      + intros l Hl Hb. apply D in Hb. apply tmem_In in Hl. destruct Hb as [<-|[<-|[<-|[<-|[]]]]]; vm_compute in Hl; discriminate Hl.
      + split; [repeat constructor; intros []|]. intros l Hmeta [<-|[]]. apply tmem_In in Hmeta. vm_compute in Hmeta. discriminate Hmeta.
    - intros Hr. apply D in Hr. destruct Hr as [Hr|[Hr|[Hr|[Hr|[]]]]]; apply text_eqb_eq in Hr; discriminate Hr.
  Qed.

  Section File.
    Variable e : env.
    Hypothesis PT : parsed_tree G (e_tree e).
    Hypothesis Un : unshared (e_tree e).
    Hypothesis PN : python_nodes (e_tree e).
    Hypothesis Sp : spans_fine e.
    Lemma exc_dict arg x c func : dict_ok (exc_result e arg x c func).
    Proof. unfold exc_result, dict_ok, dkeys. cbn [map fst]. nodup_tac. Qed.
    Lemma exc_reliable f : the_fixer = Ok f -> reliable e f.
    Proof.
      intros H. destruct (exc_fixer_plain f H) as [A B]. destruct (exc_shape f H) as (module & pf & Em & C & N & S & I & E & Er & Mt & Ur). constructor; [exact A|exact B| | |].
      - rewrite Em. intros d c s (p & Hp).
        destruct (exc_gives G HG HGp HGc e PT module pf C N S I PN HGt Un Sp p c Hp) as [(arg & x & func & _ & Gv)|[Gv _]].
        + right. exists (exc_result e arg x c func). split; [apply Gv|apply exc_dict].
        + left. apply Gv.
      - rewrite Er. intros l t0 Hd. apply (exc_templates f l t0 H). rewrite fixer_templates_get. unfold fx_base. rewrite Er.
        assert (El : l = TX "logging_exception") by (pose proof (dget_In _ _ _ Hd) as K; destruct K as [K|[]]; apply (f_equal fst) in K; now symmetry).
        subst l. exact Hd.
      - unfold meta_of in Mt. pose proof (f_equal (fun x => fst (fst x)) Mt) as M1. pose proof (f_equal (fun x => snd (fst x)) Mt) as M2. cbn [fst snd] in M1, M2.
        intros x K ->. destruct K as [K|[K|[K|[]]]]; rewrite ?M1, ?M2, ?Ur in K; discriminate K.
    Qed.
    Lemma exc_sure f : the_fixer = Ok f -> parses_evaluated ast_parse -> well_positioned e ->
      sure e f (fun c => exists p func, at_path (e_tree e) p = Some c /\ logs_caught (e_parsed e) (e_tree e) p func).
    Proof.
      intros H HE HW. pose proof (exc_reliable f H) as R. split; [exact R|]. intros mm d c s Hmm Ic (p & func & Hp & Hl).
      destruct (exc_shape f H) as (module & pf & Em & C & N & S & I & E & _). destruct (E HE) as [E1 E2].
      destruct (exc_gives G HG HGp HGc e PT module pf C N S I PN HGt Un Sp p c Hp) as [(arg & x & func' & _ & Gv)|[_ K]]; [|exfalso; exact (K E1 E2 (wp_evaluated _ HW) func Hl)].
      rewrite <- Em in Gv. pose proof (Gv d s) as Ev. cbn [option_map] in Ev.
      destruct (with_root (with_done e d) _ mm c s _ _ (rl_plain _ _ R) (rl_root _ _ R) Hmm Ev (exc_dict _ _ _ _)) as (b'' & E'' & _). eauto.
    Qed.
  End File.

  Lemma tried_inside e p func : only_tries (e_parsed e) (e_tree e) p func -> exists j gs, PatternSpec.inside (e_tree e) (VNode j gs) /\ n_type j = TX "Call" /\ In (TX "func", func) gs.
  Proof.
    intros (i & fs & id & st & (q & r & E1 & E2 & E3 & _) & Eb & (i' & fs' & j & gs & -> & _ & Ev & Ej & Ef) & _).
    pose proof (inside_of _ _ _ E3) as It.
    assert (Fld : forall i fs x w, PatternSpec.inside (e_tree e) (VNode i fs) -> dget fs x = Some w -> PatternSpec.inside (e_tree e) w).
    { intros i0 fs0 x w I0 Hd. refine (EquivProofs.inside_child _ _ _ I0 _). apply dget_In in Hd. exact (in_map snd _ _ Hd). }
    pose proof (Fld _ _ _ _ It Eb) as Ib.
    assert (Is : PatternSpec.inside (e_tree e) (VNode i' fs')) by (refine (EquivProofs.inside_child _ _ _ Ib _); now left).
    pose proof (Fld _ _ _ _ Is Ev) as Ic. exists j, gs. split; [exact Ic|]. split; [exact Ej|]. now apply dget_In.
  Qed.
  Lemma fill_letters s rest m : sh_fill (map (fun c => ShLit [c]) s ++ rest) m = do t <- sh_fill rest m; Ok (s ++ t).
  Proof.
    induction s as [|c s IH]; cbn [map app]; [now destruct (sh_fill rest m)|]. cbn [sh_fill]. rewrite IH. destruct (sh_fill rest m); reflexivity.
  Qed.
  Lemma exc_filled parsed m mb r : t_substitute exc_template parsed m mb = Ok r -> exists s, dget (stringify_matches mb) (TX "func") = Some s /\ r = call_failed s.
  Proof.
    unfold exc_template, sh_template. cbn [t_substitute]. generalize (stringify_matches mb). intros d.
    replace (sh_pieces _) with (map (fun c => ShLit [c]) (TX "logging.exception('Call to """) ++ ShVar (TX "func") :: map (fun c => ShLit [c]) (TX """ resulted in an error')") ++ []) by (vm_compute; reflexivity).
    rewrite fill_letters. cbn [sh_fill]. destruct (dget d (TX "func")) as [s|]; [|discriminate]. rewrite fill_letters. cbn [sh_fill bind]. rewrite app_nil_r.
    intros [= <-]. exists s. split; [reflexivity|]. unfold call_failed. reflexivity.
  Qed.

  Lemma exc_replaced fs f e info h mb ts key sub reps l txt :
    the_fixer = Ok f ->
    pf_py (e_parsed e) = Some info -> py_tree info = e_tree e -> parsed_tree G (e_tree e) -> unshared (e_tree e) -> python_nodes (e_tree e) -> spans_fine e -> located_exprs (e_tree e) ->
    at_path (e_tree e) (h_path h) = Some (h_value h) -> by_fixer pass_template e fs h f mb ts -> describes (e_parsed e) key mb ts sub ->
    replacements sub = Some reps -> In (l, txt) reps ->
    described_instead e sub l txt.
  Proof.
    intros H Hpy Htr PT Un PN Sp Lo Hat Hby Hde Er Hl.
    destruct (exc_fixer_plain f H) as [A B]. destruct (exc_shape f H) as (module & pf & Em & C & N & S & I & E & Efr & Mt & Ur).
    destruct (labels_apply pass_template e fs h f _ key mb ts sub reps l txt Efr) as (t' & b' & m & sp & Ed & Eb & Em' & Esp & Hsp & Et); try assumption.
    { intros x t0 Hd.
      assert (El : x = TX "logging_exception") by (pose proof (dget_In _ _ _ Hd) as K; destruct K as [K|[]]; apply (f_equal fst) in K; now symmetry).
      subst x. split; [|reflexivity]. apply (exc_templates f (TX "logging_exception") t0 H). rewrite fixer_templates_get. unfold fx_base. rewrite Efr. exact Hd. }
    assert (El : l = TX "logging_exception" /\ t' = exc_template).
    { apply dget_In in Ed. destruct Ed as [Ed|[]]. split; [apply (f_equal fst) in Ed|apply (f_equal snd) in Ed]; now symmetry. }
    destruct El as [-> ->].
    pose proof Hby as (_ & (Dmb & _) & _).
    destruct (exc_gives G HG HGp HGc e PT module pf C N S I PN HGt Un Sp _ _ Hat) as [(arg & x & func & Lg & Gv)|[Gv _]].
    2:{ rewrite <- Em in Gv. destruct (fixer_result _ _ _ _ _ _ _ _ A B (fun l t0 => exc_templates f l t0 H) Hby Gv) as (b & K & _). discriminate K. }
    rewrite <- Em in Gv.
    destruct (fixer_result _ _ _ _ _ _ _ _ A B (fun l t0 => exc_templates f l t0 H) Hby Gv) as (b & K & Hmb). assert (b = exc_result e arg x (h_value h) func) by congruence. subst b. clear K.
    specialize (Hmb (exc_dict e arg x (h_value h) func)).
    assert (Efn : m = create_match (e_parsed e) (h_value h)).
    { pose proof (Hmb (TX "logging_exception")) as K1. change (dget mb (TX "logging_exception") = Some (create_match (e_parsed e) (h_value h))) in K1.
      destruct Hby as (_ & (_ & b2 & Eb2 & Hb2) & _). rewrite Eb in Eb2. assert (b2 = b') by congruence. subst b2.
      destruct (Hb2 (TX "logging_exception")) as [E1|(v & txt' & f1 & l1 & a1 & b1 & f2 & l2 & a2 & b2 & t0 & E1 & E2 & _)]; [congruence|].
      exfalso. exact (exc_templates f _ _ H E1 E2). }
    subst m. apply exc_filled in Et as (s & Es & ->).
    rewrite (stringify_dget _ _ Dmb), (Hmb (TX "func")) in Es. change (m_string (create_match (e_parsed e) func) = Some s) in Es.
    assert (Lf : located_expr func).
    { destruct Lg as (c' & a' & x' & _ & _ & _ & _ & Ot). apply tried_inside in Ot as (j & gs & Ij & Ej & Ef). refine (proj1 (Lo j gs (TX "func") func Ij Ef) _).
      rewrite Ej. cbn [PyCode.expr_fields In]. tauto. }
    destruct Lf as [_ Lf]. unfold create_match in Es. destruct (lexical_tokens func) as [[f0 l0]|] eqn:Elx; [|now elim Lf].
    exists (h_path h), (h_value h), func, sp, (fst (lex_span f0 l0 true true)), (snd (lex_span f0 l0 true true)). do 5 (split; [assumption || reflexivity|]).
    split; [unfold create_match; rewrite Elx; reflexivity|]. cbn [m_string] in Es. f_equal. now injection Es as <-.
  Qed.
End Search.
