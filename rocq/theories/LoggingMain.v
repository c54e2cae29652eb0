(** The fixer for [logging.error] in a search.  Proofs. *)
From Verif Require Import TemplateProofs Py PyFacts Regex Subst ApplySpec Ast Template FromDiff Matcher MatchSpec MergeSpec MergeProofs MatcherProofs BindProofs OnceProofs FindSpec FindProofs
  NavSpec NavProofs CollSpec CollProofs PatTok PatSpec PatTokProofs LexProofs Pattern PatternSpec EquivProofs PatternProofs PatternApi
  PyTemplate PyTemplateSpec PyTemplateProofs Search SearchSpec Removal OwnSpec
  PropsTemplate ExprSubSpec ExprSubProofs PropsExprSub Fixer FixerSpec FixerProofs PyCode BuiltinFixers BuiltinSpec CodeProofs BuiltinProofs BuiltinApply BuiltinTables BuiltinMain
  CorrectnessFixers CorrectnessSpec CorrectnessProofs CorrectnessMain CorrectnessSearch ThoroughSpec ThoroughCode ThoroughProofs ThoroughSearch ThoroughMain
  IdiomFixers IdiomSpec LoggingSpec LoggingEval LoggingProofs LoggingError ConstTemplate.
From Coq Require Import Permutation.

(** The matches of a fixer whose matcher gives [b0] here. *)
Lemma fixer_result pass e fs h f mb ts b0 : plain_fixer f -> ~ In ROOT_LABEL (bind_variables (fx_matcher f)) ->
  (forall l t, dget (fixer_templates f) l = Some t -> t_template t <> []) ->
  by_fixer pass e fs h f mb ts -> gives e (h_value h) (fx_matcher f) b0 ->
  exists b, b0 = Some b /\ (dict_ok b -> forall l, dget mb l = if text_eqb ROOT_LABEL l then Some (create_match (e_parsed e) (h_value h)) else option_map b_value (dget b l)).
Proof.
  intros Hf Nr Nt ((d & Hff) & (Dmb & b' & Eb & Hmb) & _) Hg. destruct (first_fixer_matches _ _ _ _ _ _ _ Hff) as [_ (s1 & m0 & Hm0 & He)].
  pose proof (Hg d s1) as Ev. destruct b0 as [b|]; cbn [option_map] in Ev.
  2:{ pose proof (with_root_none _ f m0 _ _ Hm0 Ev) as K. pose proof (eq_trans (eq_sym K) He) as X. discriminate X. }
  exists b. split; [reflexivity|]. intros Db l.
  assert (Nb : dget b ROOT_LABEL = None).
  { destruct (dget b ROOT_LABEL) as [x|] eqn:E; [|reflexivity]. exfalso. apply Nr. apply dget_In in E. apply (in_map fst) in E. cbn [fst] in E.
    apply (bind_variables_cover _ (fx_matcher f) (h_value h) s1 s1 _ ROOT_LABEL (pf_rewrite_free _ Hf) Ev). exact E. }
  assert (Hb' : forall x, dget b' x = if text_eqb ROOT_LABEL x then Some (bound_value (create_match (e_parsed e) (h_value h)) None None) else dget b x).
  { apply with_meta_shape in Hm0. subst m0.
    assert (He' : (run o <- (run o <- eval (with_done e d) (fx_matcher f) (h_value h);
      match o with
      | None => ret None
      | Some r =>
          run rb <- lift (do b <- r_bindings r; not_none b);
          run rm <- lift (r_match r);
          run rt <- lift (r_reps r);
          run mb <- lift (merge_bindings rb [(ROOT_LABEL, bound_value rm None None)]);
          ret (match mb with None => None | Some b => Some (RInfo rm (Some b) rt) end)
      end);
      match o with
      | None => ret None
      | Some r =>
          run rt <- lift (r_reps r);
          run rb <- lift (r_bindings r);
          run rm <- lift (r_match r);
          run t <- lift (merge_replacements rt (fixer_templates f));
          ret (Some (RInfo rm rb t))
      end) s1 = (h_ran h, Ok (Some (h_result h)))) by exact He. clear He.
    unfold mbind, lift, ret in He'. rewrite Ev in He'. cbn [r_bindings r_match r_reps bind not_none] in He'.
    pose proof (merge_bindings_spec b [(ROOT_LABEL, bound_value (create_match (e_parsed e) (h_value h)) None None)] Db) as HM.
    destruct (merge_bindings b _) as [[b2|]|]; [|discriminate He'|discriminate He'].
    cbn [r_bindings r_match r_reps] in He'. destruct (merge_replacements [] (fixer_templates f)) as [t2|]; [|discriminate He'].
    assert (Er : RInfo (create_match (e_parsed e) (h_value h)) (Some b2) t2 = h_result h) by congruence. clear He'.
    rewrite <- Er in Eb. cbn [r_bindings] in Eb. assert (b2 = b') by congruence. subst b2.
    destruct HM as (_ & _ & HM); [repeat constructor; intros []|]. intros x. rewrite (HM x). cbn [dget].
    destruct (text_eqb_spec ROOT_LABEL x) as [<-|N]; [now rewrite Nb|]. now destruct (dget b x). }
  destruct (Hmb l) as [E|(v & txt & f1 & l1 & a1 & b1 & f2 & l2 & a2 & b2 & t & E1 & E2 & _)]; [|exfalso; exact (Nt _ _ E1 E2)].
  rewrite E, Hb'. now destruct (text_eqb ROOT_LABEL l).
Qed.

Section Search.
  Variable tokenize : text -> res (list ptok).
  Variable order : list nat -> list nat.
  Variable ast_parse : text -> res value.
  Variable parse_env : text -> res env.
  Variable parse_ast : text -> text -> res parsed_file.
  Variable context : parsed_file -> pyinfo -> env.
  Variable pass_template : template.
  Variable G : grammar.
  Hypothesis HO : forall l, Permutation (order l) l.
  Hypothesis HG : proper G.
  Hypothesis HGp : python_grammar G.
  Hypothesis HGc : call_grammar G.
  Hypothesis HA : python_ast G ast_parse.
  Hypothesis UE : understood tokenize ast_parse logging_error.
  Hypothesis UX : understood_as KStmt tokenize ast_parse (Do logging_exception).

  Notation the_fixer := (logging_error_fixer tokenize order ast_parse parse_env).
  Lemma exception_lexed : lexed (Do logging_exception).
  Proof. lexed_tac. Qed.
  Lemma fixer_shape f : the_fixer = Ok f -> exists fm t,
    expr_pattern tokenize order ast_parse (TX "logging.error") [] = Ok fm /\ fx_matcher f = MAllOf [error_call fm]
    /\ template_of tokenize order ast_parse KStmt (TX "logging.exception") = Ok t
    /\ fx_replacement f = inr [(TX "logging_error", as_template tokenize order ast_parse parse_env t)] /\ meta_of f = error_meta
    /\ fx_url f = Some (TX "https://refex.readthedocs.io/en/latest/guide/fixers/logging_exceptions.html").
  Proof.
    unfold logging_error_fixer. intros H. apply bind_Ok in H as (m & Hm & H). apply bind_Ok in H as (t & Ht & H). injection H as <-.
    unfold logging_error_matcher in Hm. apply bind_Ok in Hm as (fm & Hfm & Hm). injection Hm as <-. exists fm, t. auto 10.
  Qed.
  Lemma error_plain fm : expr_pattern tokenize order ast_parse (TX "logging.error") [] = Ok fm -> plain_matcher [TX "logging_error"; TX "e"] (MAllOf [error_call fm]).
  Proof.
    intros Hfm. destruct (closed_plain tokenize order ast_parse HO _ _ UE error_lexed eq_refl Hfm) as (A1 & A2 & A3 & A4).
    assert (E : bind_variables fm = []) by (destruct (bind_variables fm) as [|x l]; [reflexivity|destruct (A4 x (or_introl eq_refl))]).
    repeat split.
    - cbn. tauto.
    - cbn. now rewrite A2.
    - cbn. now rewrite A3.
    - intros x Hx. unfold error_call, call_of, argument_matcher, exc_info_keyword in Hx. cbn [bind_variables flat_map snd app] in Hx. rewrite E in Hx.
      vm_compute in Hx. vm_compute. tauto.
  Qed.

  Lemma exception_text f : expand f (without_newline (line_tokens (TX "logging.exception"))) = TX "logging.exception".
  Proof. vm_compute. reflexivity. Qed.
  Lemma template_text t repl r : template_of tokenize order ast_parse KStmt (TX "logging.exception") = Ok t -> lex_substitute (py_lex t) repl = Ok r ->
    r = TX "logging.exception".
  Proof.
    intros Ht Hr. pose proof (una_tokens _ _ _ _ UX) as Tk.
    assert (Hl : lexical_template tokenize order (TX "logging.exception") = Ok (py_lex t)).
    { clear - Ht. cbn [template_of] in Ht; unfold python_stmt_template, make_template in Ht.
      apply bind_Ok in Ht as (lt & Hl & Ht). apply bind_Ok in Ht as (m & _ & Ht). now injection Ht as <-. }
    destruct (lex_template_spec tokenize order (TX "logging.exception") (line_tokens (TX "logging.exception"))) as [_ K].
    - exact Tk.
    - apply lineb_spelled, (lx_line _ exception_lexed).
    - exact HO.
    - destruct (K _ Hl) as [V S].
      assert (Vn : lex_variables (py_lex t) = []).
      { destruct (lex_variables (py_lex t)) as [|x l]; [reflexivity|]. exfalso. specialize (V x). destruct V as [V _]. specialize (V (or_introl eq_refl)).
        change (metavars (map snd (line_tokens (TX "logging.exception")))) with (@nil text) in V. destruct V. }
      rewrite (lex_constant _ _ Vn), (S [] ltac:(constructor)) in Hr by discriminate.
      pose proof (exception_text (lookup [])) as X.
      change (if negb (endswith [NL] (TX "logging.exception")) then without_newline (line_tokens (TX "logging.exception")) else line_tokens (TX "logging.exception"))
        with (without_newline (line_tokens (TX "logging.exception"))) in Hr. rewrite X in Hr.
      destruct (forallb _ _); [now injection Hr as <-|discriminate Hr].
  Qed.

  Lemma error_templates f l t : the_fixer = Ok f -> dget (fixer_templates f) l = Some t -> t_template t <> [].
  Proof.
    unfold logging_error_fixer. intros H. apply bind_Ok in H as (m & Hm & H). apply bind_Ok in H as (t0 & Ht & H). injection H as <-.
    assert (Es : py_source t0 = TX "logging.exception").
    { clear - Ht. unfold python_stmt_template, make_template in Ht. repeat (apply bind_Ok in Ht as (? & _ & Ht)). now injection Ht as <-. }
    rewrite fixer_templates_get. unfold fx_base. cbn [fx_replacement fx_message fx_url fx_category fx_significant].
    destruct (text_eqb SIGNIFICANT_LABEL l); [intros [= <-]; discriminate|]. destruct (text_eqb CATEGORY_LABEL l); [intros [= <-]; discriminate|].
    destruct (text_eqb URL_LABEL l); [intros [= <-]; discriminate|]. destruct (text_eqb MESSAGE_LABEL l); [intros [= <-]; discriminate|].
    intros Hd. apply dget_In in Hd. destruct Hd as [Hd|[]]. apply (f_equal snd) in Hd. cbn [snd] in Hd. subst t. cbn [as_template t_template]. rewrite Es. discriminate.
  Qed.
  Lemma error_fixer_plain f : the_fixer = Ok f -> plain_fixer f /\ ~ In ROOT_LABEL (bind_variables (fx_matcher f)).
  Proof.
    intros H. destruct (fixer_shape f H) as (fm & t & Hfm & Em & Ht & Er & _). destruct (error_plain fm Hfm) as (A & B & C & D). rewrite Em. split.
    - constructor; rewrite ?Em, ?Er; auto.
      + intros l Hl Hb. apply D in Hb. apply tmem_In in Hl. destruct Hb as [<-|[<-|[]]]; vm_compute in Hl; discriminate Hl.
      + split; [repeat constructor; intros []|]. intros l Hmeta [<-|[]]. apply tmem_In in Hmeta. vm_compute in Hmeta. discriminate Hmeta.
    - intros Hr. apply D in Hr. destruct Hr as [Hr|[Hr|[]]]; apply text_eqb_eq in Hr; discriminate Hr.
  Qed.

  Section File.
    Variable e : env.
    Hypothesis PT : parsed_tree G (e_tree e).
    Hypothesis Un : unshared (e_tree e).
    Hypothesis PN : python_nodes (e_tree e).
    Lemma error_answers fm : expr_pattern tokenize order ast_parse (TX "logging.error") [] = Ok fm -> answers e (MAllOf [error_call fm]).
    Proof.
      intros Hfm d c s (p & Hp).
      destruct (error_gives tokenize order ast_parse G HO HG HGp HGc HA e PT Un PN fm UE Hfm p c Hp) as [(func & x & k & _ & _ & Gv)|[Gv _]].
      - right. exists (error_result e func x). split; [apply Gv|]. unfold error_result, dict_ok, dkeys. cbn [map fst]. nodup_tac.
      - left. apply Gv.
    Qed.
    Lemma error_reliable f : the_fixer = Ok f -> reliable e f.
    Proof.
      intros H. destruct (error_fixer_plain f H) as [A B]. destruct (fixer_shape f H) as (fm & t & Hfm & Em & Ht & Er & Mt & Ur). constructor; [exact A|exact B| | |].
      - rewrite Em. now apply error_answers.
      - rewrite Er. intros l t0 Hd. apply (error_templates f l t0 H). rewrite fixer_templates_get. unfold fx_base. rewrite Er.
        assert (El : l = TX "logging_error") by (pose proof (dget_In _ _ _ Hd) as K; destruct K as [K|[]]; apply (f_equal fst) in K; now symmetry).
        subst l. exact Hd.
      - unfold meta_of in Mt. pose proof (f_equal (fun x => fst (fst x)) Mt) as M1. pose proof (f_equal (fun x => snd (fst x)) Mt) as M2. cbn [fst snd] in M1, M2.
        intros x K ->. destruct K as [K|[K|[K|[]]]]; rewrite ?M1, ?M2, ?Ur in K; discriminate K.
    Qed.
    Lemma error_sure f : the_fixer = Ok f -> parses_evaluated ast_parse -> well_positioned e ->
      sure e f (fun c => exists p func, at_path (e_tree e) p = Some c /\ logs_error (e_tree e) p func).
    Proof.
      intros H HE HW. pose proof (error_reliable f H) as R. split; [exact R|]. intros mm d c s Hmm Ic (p & func & Hp & Hl).
      destruct (fixer_shape f H) as (fm & t & Hfm & Em & _).
      destruct (error_gives tokenize order ast_parse G HO HG HGp HGc HA e PT Un PN fm UE Hfm p c Hp) as [(func' & x & k & _ & _ & Gv)|[_ N]]; [|exfalso; exact (N HE HW func Hl)].
      rewrite <- Em in Gv. pose proof (Gv d s) as Ev. cbn [option_map] in Ev.
      assert (D : dict_ok (error_result e func' x)) by (unfold error_result, dict_ok, dkeys; cbn [map fst]; nodup_tac).
      destruct (with_root (with_done e d) _ mm c s _ _ (rl_plain _ _ R) (rl_root _ _ R) Hmm Ev D) as (b'' & E'' & _). eauto.
    Qed.
  End File.

  Hypothesis HPa : python_parser G parse_env.
  Lemma error_replaced fs f e info h mb ts key sub reps l txt :
    the_fixer = Ok f ->
    pf_py (e_parsed e) = Some info -> py_tree info = e_tree e -> parsed_tree G (e_tree e) -> unshared (e_tree e) -> python_nodes (e_tree e) ->
    (forall anc sp c_span, PatternSpec.inside (e_tree e) anc -> m_span (create_match (e_parsed e) anc) = Some sp ->
      plain_source tokenize (around (e_parsed e) anc sp (TX "$current_expr") c_span)) ->
    at_path (e_tree e) (h_path h) = Some (h_value h) -> by_fixer pass_template e fs h f mb ts -> describes (e_parsed e) key mb ts sub ->
    replacements sub = Some reps -> In (l, txt) reps ->
    exception_instead tokenize order ast_parse parse_env e sub l txt.
  Proof.
    intros H Hpy Htr PT Un PN Hctx Hat Hby Hde Er Hl.
    destruct (error_fixer_plain f H) as [A B]. destruct (fixer_shape f H) as (fm & t & Hfm & Em & Ht & Efr & Mt & Ur).
    destruct (labels_apply pass_template e fs h f _ key mb ts sub reps l txt Efr) as (t' & b' & m & sp & Ed & Eb & Em' & Esp & Hsp & Et); try assumption.
    { intros x t0 Hd.
      assert (El : x = TX "logging_error") by (pose proof (dget_In _ _ _ Hd) as K; destruct K as [K|[]]; apply (f_equal fst) in K; now symmetry).
      subst x. split; [|reflexivity]. apply (error_templates f (TX "logging_error") t0 H). rewrite fixer_templates_get. unfold fx_base. rewrite Efr. exact Hd. }
    assert (El : l = TX "logging_error" /\ t' = as_template tokenize order ast_parse parse_env t).
    { apply dget_In in Ed. destruct Ed as [Ed|[]]. split; [apply (f_equal fst) in Ed|apply (f_equal snd) in Ed]; now symmetry. }
    destruct El as [-> ->].
    pose proof Hby as (_ & (Dmb & _) & _).
    destruct (error_gives tokenize order ast_parse G HO HG HGp HGc HA e PT Un PN fm UE Hfm _ _ Hat) as [(func & x & k & Lg & Hk & Gv)|[Gv _]].
    2:{ rewrite <- Em in Gv. destruct (fixer_result _ _ _ _ _ _ _ _ A B (fun l t0 => error_templates f l t0 H) Hby Gv) as (b & K & _). discriminate K. }
    rewrite <- Em in Gv.
    destruct (fixer_result _ _ _ _ _ _ _ _ A B (fun l t0 => error_templates f l t0 H) Hby Gv) as (b & K & Hmb). assert (b = error_result e func x) by congruence. subst b. clear K.
    specialize (Hmb ltac:(unfold error_result, dict_ok, dkeys; cbn [map fst]; nodup_tac)).
    assert (Efn : m = create_match (e_parsed e) func).
    { pose proof Hde as (_ & _ & _ & _). pose proof (Hmb (TX "logging_error")) as K1. change (dget mb (TX "logging_error") = Some (create_match (e_parsed e) func)) in K1.
      destruct Hby as (_ & (_ & b2 & Eb2 & Hb2) & _). rewrite Eb in Eb2. assert (b2 = b') by congruence. subst b2.
      destruct (Hb2 (TX "logging_error")) as [E1|(v & txt' & f1 & l1 & a1 & b1 & f2 & l2 & a2 & b2 & t0 & E1 & E2 & _)]; [congruence|].
      exfalso. exact (error_templates f _ _ H E1 E2). }
    subst m. change (py_substitute tokenize order ast_parse parse_env t (e_parsed e) (create_match (e_parsed e) func) mb = Ok txt) in Et.
    assert (PM : parsed_matches G mb).
    { intros y v Hy. exists (e_tree e). split; [exact PT|]. unfold bound_expr in Hy. rewrite (Hmb y) in Hy.
      assert (Cm : forall w, match create_match (e_parsed e) w with PLex v0 _ _ _ _ _ => if is_expr v0 then Some v0 else None | _ => None end = Some v -> v = w).
      { intros w. unfold create_match. destruct (lexical_tokens w) as [[f0 l0]|]; [|destruct w as [| |? []]; discriminate]. destruct (is_expr w); [now intros [= <-]|discriminate]. }
      destruct (text_eqb ROOT_LABEL y).
      - apply Cm in Hy. subst v. now exists (h_path h).
      - unfold error_result in Hy. cbn [dget] in Hy. destruct (text_eqb (TX "logging_error") y).
        + cbn [option_map] in Hy. apply Cm in Hy. subst v. now exists (h_path h ++ [k]).
        + destruct (text_eqb (TX "e") y); discriminate Hy. }
    destruct (has_tokens_of tokenize ast_parse _ UX exception_lexed) as [HT _].
    destruct (filled_at tokenize order ast_parse parse_env G KStmt (TX "logging.exception") t e info (h_path h ++ [k]) func mb txt HO HG HGp HA HPa HT Ht Hpy Htr Un Hk)
      as (r & safe & holes & p & _ & (full & e0 & e1 & c1 & F1 & F2 & F3 & F4 & _) & PI); try assumption.
    { congruence. }
    exists (h_path h), func, (h_path h ++ [k]), sp. do 5 (split; [assumption || reflexivity|]).
    assert (r = TX "logging.exception") as ->; [|exact PI].
    exact (template_text t safe r Ht F4).
  Qed.
End Search.
