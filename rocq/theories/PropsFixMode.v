(** C81: the whole program in fix mode. *)
From Verif Require Import TemplateProofs Py PyFacts Regex Subst ApplySpec Ast Template FromDiff Matcher MatchSpec MatcherProofs FindSpec FindProofs
  FilterSpec NavSpec NavProofs PatTok PatSpec Pattern PatternSpec EquivProofs PatternProofs PatternApi
  PyTemplate PyTemplateSpec PyTemplateProofs Search SearchSpec PropsSearch Removal OwnSpec SampleTrees PropsPattern
  PropsTemplate ExprSubSpec ExprSubProofs PropsExprSub Fixer FixerSpec FixerProofs PropsFixer PyCode BuiltinFixers BuiltinSpec BuiltinSample
  CorrectnessFixers CorrectnessSpec ThoroughSpec ThoroughTables IdiomFixers IdiomSpec IdiomSample LoggingSpec LoggingSample LoggingExcSpec
  AllSpec AllProofs AllSample PropsAll IterSpec IterProofs IterAll IterSample PropsIter
  Fmt Codec Runner RunnerSpec Cli CliSpec Main MainSpec PropsRunner PropsMain FixMode OverlapSample
  SubstSpec OneRoundSpec OneRound OneRoundAll.
From Coq Require Import Permutation.

(** An edit of the text [t] that one of the registered fixers, or several of them
    under a common name, propose for it. *)
Definition fixes tokenize order ast_parse parse_env decimal G parse_ast context pass_template (fixers : registry) (path : text) (t : text) (ed : edit) : Prop :=
  exists name s, fixers_from_pattern parse_ast context pass_template fixers name = Ok s
    /\ proposed tokenize order ast_parse parse_env decimal G parse_ast context s path t ed.

(** C81.  [refex --mode=fix -i] with the default fixers, however many patterns,
    rounds and other options there are: when a run has completed, each of the
    files it is about is as it was or holds (encoded) a text that comes from its
    old one by rewrites, corrections and suggestions of C72 to C77 only; and no
    other file has changed.  (Missing: that the run completes; see below.) *)
Theorem C81_fix_mode_partial : forall re_compile re_template py_matcher_of fixers tokenize order ast_parse parse_env decimal G parse_ast context pass_template cf idf uf
    w dirs display f sty c ru files,
  interpreter tokenize order ast_parse parse_env G ->
  correctness_fixers tokenize order ast_parse parse_env = Ok cf -> idiom_fixers tokenize order ast_parse parse_env decimal = Ok idf ->
  unittest_fixers tokenize order ast_parse parse_env = Ok uf -> register_builtins (Registry [] []) cf idf uf = Ok fixers ->
  cm_mode c = ModeFix -> co_in_place (cm_options c) = true ->
  (forall p, w_writable w p = true) -> (forall p b, w_device w p b = (b, false)) ->
  (forall p d, dirs p = Some d -> tidy d) ->
  prepare re_compile re_template py_matcher_of fixers tokenize order ast_parse parse_env parse_ast context pass_template dirs c = Ready (ru, files) ->
  NoDup (map fst files) ->
  (forall p, In p (map fst files) -> file_parser tokenize G parse_ast context (display p)) ->
  let r := refex re_compile re_template py_matcher_of fixers tokenize order ast_parse parse_env parse_ast context pass_template w dirs display f sty c in
  d_end r = Ready tt ->
  (forall p, In p (map fst files) ->
     d_fs r p = f p
     \/ exists t out b, file_text w f p t /\ codec_write out = Some b /\ d_fs r p = Some b
        /\ improves (fixes tokenize order ast_parse parse_env decimal G parse_ast context pass_template fixers (display p)) t out)
  /\ (forall q, ~ In q (map fst files) -> d_fs r q = f q).
Proof.
  intros re_compile re_template py_matcher_of fixers tokenize order ast_parse parse_env decimal G parse_ast context pass_template cf idf uf
    w dirs display f sty c ru files I Hcf Hid Huf Hr Hm Hi Hw Hd T HS Hn HP r Hend.
  destruct (C67_completed_run re_compile re_template py_matcher_of fixers tokenize order ast_parse parse_env parse_ast context pass_template
              w dirs display f sty c ru files Hw Hd T HS Hn Hi Hend) as (A & B & _). fold r in A, B.
  split; [|exact B]. intros p Hp. destruct (A p Hp) as [(b & (t & ms & out & (Hft & Hfi & Hms) & Ha & Hb) & E)|[_ E]]; [right|now left].
  exists t, out, b. split; [exact Hft|]. split; [exact Hb|]. split; [exact E|].
  destruct (C66_options re_compile re_template py_matcher_of fixers tokenize order ast_parse parse_env parse_ast context pass_template dirs c ru files HS)
    as (srs & args & lang & ss & s & n & _ & _ & HF & Hbuild & _ & Hfind & _).
  rewrite Hfind in Hfi. set (OK := fixes tokenize order ast_parse parse_env decimal G parse_ast context pass_template fixers (display p)).
  assert (SS : Forall (sound_searcher OK parse_ast (display p)) ss).
  { clear -HF Hm I Hcf Hid Huf Hr HP Hp. specialize (HP p Hp). rewrite Hm in HF. induction HF as [|sr s srs ss (ts & _ & _ & H) HF IH]; constructor; [|exact IH].
    apply (C66_modes re_compile py_matcher_of fixers tokenize order ast_parse parse_ast context pass_template) in H as (q & _ & H).
    assert (Hs : fixers_from_pattern parse_ast context pass_template fixers q = Ok s).
    { inversion H as [| | | |q0 s0 fs Hq Hc]; subst. unfold fixers_from_pattern, star. destruct Hq as [[-> ->]|[Nq Hq]]; [exact Hc|].
      destruct (text_eqb_spec q (TX "*")) as [->|_]; [congruence|]. rewrite Hq. exact Hc. }
    destruct (named_fixers _ _ _ _ _ _ _ _ _ Hr Hs) as (fs & Hc & Hin & _).
    pose proof (all_justified tokenize order ast_parse parse_env decimal G I cf idf uf Hcf Hid Huf parse_ast context pass_template (display p) HP fs s Hin Hc) as J.
    split.
    - intros t parsed subs H1 H2. destruct (J t parsed subs H1 H2) as (J1 & J2 & J3 & J4 & J5). repeat (split; [assumption|]).
      intros x e Hx He. destruct (J5 x e Hx He) as [K1 K2]. split; [exact K1|]. exists q, s. auto.
    - intros t parsed Hpp. unfold combining_fixer in Hc. apply bind_Ok in Hc as (mm & _ & Hc).
      match type of Hc with (if ?b then _ else _) = _ => destruct b; [|discriminate Hc] end. injection Hc as <-.
      cbn [s_parse file_regex_filtered python_searcher] in Hpp. unfold python_parse in Hpp. destruct (parse_ast t (display p)) as [u|[]]; try discriminate Hpp. exact Hpp. }
  destruct (sound_built OK parse_ast (display p) _ ss s SS Hbuild) as [J _].
  apply (rewrite_improves OK parse_ast s (display p) J t n out). unfold rewrite_string. rewrite Hfi. exact Ha.
Qed.
Print Assumptions C81_fix_mode_partial.

(** With a single round ([--iterate=1], or 0), the run always completes: no file is
    lost, provided that the files are laid out as Python files are and that what
    is written can be encoded. *)
Theorem C81_one_round : forall re_compile re_template py_matcher_of fixers tokenize order ast_parse parse_env decimal G parse_ast context pass_template cf idf uf
    w dirs display f sty c ru files rounds,
  interpreter tokenize order ast_parse parse_env G ->
  correctness_fixers tokenize order ast_parse parse_env = Ok cf -> idiom_fixers tokenize order ast_parse parse_env decimal = Ok idf ->
  unittest_fixers tokenize order ast_parse parse_env = Ok uf -> register_builtins (Registry [] []) cf idf uf = Ok fixers ->
  cm_mode c = ModeFix -> co_in_place (cm_options c) = true -> co_iterate (cm_options c) = Some rounds -> rounds <= 1 ->
  (forall p, w_writable w p = true) -> (forall p b, w_device w p b = (b, false)) ->
  (forall p d, dirs p = Some d -> tidy d) ->
  prepare re_compile re_template py_matcher_of fixers tokenize order ast_parse parse_env parse_ast context pass_template dirs c = Ready (ru, files) ->
  NoDup (map fst files) ->
  (forall p, In p (map fst files) -> file_parser tokenize G parse_ast context (display p)) ->
  (forall p t parsed e, In p (map fst files) -> python_file tokenize G parse_ast context t (display p) parsed e -> laid_out_file (e_tree e) (e_parsed e)) ->
  (forall p t ms out, In p (map fst files) -> finds w ru display f p p t ms -> apply_substitutions t ms = Ok out -> exists b, codec_write out = Some b) ->
  let r := refex re_compile re_template py_matcher_of fixers tokenize order ast_parse parse_env parse_ast context pass_template w dirs display f sty c in
  d_end r = Ready tt
  /\ (forall p, In p (map fst files) ->
     d_fs r p = f p
     \/ exists t out b, file_text w f p t /\ codec_write out = Some b /\ d_fs r p = Some b
        /\ improves (fixes tokenize order ast_parse parse_env decimal G parse_ast context pass_template fixers (display p)) t out)
  /\ (forall q, ~ In q (map fst files) -> d_fs r q = f q).
Proof.
  intros re_compile re_template py_matcher_of fixers tokenize order ast_parse parse_env decimal G parse_ast context pass_template cf idf uf
    w dirs display f sty c ru files rounds I Hcf Hid Huf Hr Hm Hi Hit Hle Hw Hd T HS Hn HP HL HE r.
  assert (Hend : d_end r = Ready tt).
  { apply (C67_completes re_compile re_template py_matcher_of fixers tokenize order ast_parse parse_env parse_ast context pass_template w dirs display f sty c ru files T HS Hn).
    intros p t ms Hp Hfind0.
    destruct (C66_options re_compile re_template py_matcher_of fixers tokenize order ast_parse parse_env parse_ast context pass_template dirs c ru files HS)
      as (srs & args & lang & ss & s & n & _ & _ & HF & Hbuild & Hiter & Hfind & _).
    unfold iterations in Hiter. rewrite Hit in Hiter. subst n.
    pose proof Hfind0 as (_ & Hfi & _). rewrite Hfind in Hfi.
    assert (SS : Forall (orderly_searcher parse_ast (display p)) ss).
    { clear -HF Hm I Hcf Hid Huf Hr HP HL Hp. specialize (HP p Hp). rewrite Hm in HF. induction HF as [|sr s srs ss (ts & _ & _ & H) HF IH]; constructor; [|exact IH].
      apply (C66_modes re_compile py_matcher_of fixers tokenize order ast_parse parse_ast context pass_template) in H as (q & _ & H).
      assert (Hs : fixers_from_pattern parse_ast context pass_template fixers q = Ok s).
      { inversion H as [| | | |q0 s0 fs Hq Hc]; subst. unfold fixers_from_pattern, star. destruct Hq as [[-> ->]|[Nq Hq]]; [exact Hc|].
        destruct (text_eqb_spec q (TX "*")) as [->|_]; [congruence|]. rewrite Hq. exact Hc. }
      destruct (named_fixers _ _ _ _ _ _ _ _ _ Hr Hs) as (fs & Hc & Hin & _).
      split.
      - intros t parsed subs H1 H2. destruct (HP t parsed H1) as (e & He & _).
        exact (all_orderly tokenize order ast_parse parse_env decimal G I cf idf uf Hcf Hid Huf parse_ast context pass_template t (display p) parsed e He (HL p t parsed e Hp He) fs s subs Hin Hc H2).
      - intros t parsed Hpp. unfold combining_fixer in Hc. apply bind_Ok in Hc as (mm & _ & Hc).
        match type of Hc with (if ?b then _ else _) = _ => destruct b; [|discriminate Hc] end. injection Hc as <-.
        cbn [s_parse file_regex_filtered python_searcher] in Hpp. unfold python_parse in Hpp. destruct (parse_ast t (display p)) as [u|[]]; try discriminate Hpp. exact Hpp. }
    destruct (orderly_built parse_ast (display p) _ ss s SS Hbuild) as [J JP].
    destruct (find_iter_inv parse_ast s t (display p) rounds ms Hle Hfi) as (parsed & H1 & H2).
    pose proof (J t parsed ms (JP _ _ H1) H2) as O. split.
    - apply Forall_forall. intros x Hx. pose proof (od_wf _ O) as W. pose proof (od_one _ O) as E. pose proof (od_oriented _ O) as R.
      rewrite Forall_forall in W, E, R. destruct (W x Hx) as [D _]. split; [exact D|]. split; [|exact (R x Hx)].
      destruct (E x Hx) as (tt' & a & b & pa & pb & _ & K & _). unfold has_primary in K. intros K0. rewrite K0 in K. destruct K.
    - intros _. destruct (orderly_applies t ms O) as (out & Ho). destruct (HE p t ms out Hp Hfind0 Ho) as (b & Hb). eauto. }
  split; [exact Hend|].
  exact (C81_fix_mode_partial re_compile re_template py_matcher_of fixers tokenize order ast_parse parse_env decimal G parse_ast context pass_template cf idf uf
    w dirs display f sty c ru files I Hcf Hid Huf Hr Hm Hi Hw Hd T HS Hn HP Hend).
Qed.
Print Assumptions C81_one_round.

(** FINDING: the run need not complete, and a file can be lost.  The file
    [f(attr.ib(default=[]), attr.ib(default=[]) if x else y)] has two defects.  The
    first is searched again together with the whole statement, the second alone
    with the branch of the conditional expression (whose field is called [body], as
    the field of a compound statement is).  What the further rounds make of the
    statement and of the branch overlaps, so with the ten rounds that are the
    default the program ends with a ValueError, when the file has already been
    emptied for writing.  With a single round all is well. *)
Theorem C81_overlapping_rounds_refuted :
  interpreter q_tokenize q_order l_parse j_parse_env q_grammar /\ file_parser q_tokenize q_grammar w_parse_file q_env (TX "x.py")
  /\ exists cf idf uf r,
     correctness_fixers q_tokenize q_order l_parse j_parse_env = Ok cf /\ idiom_fixers q_tokenize q_order l_parse j_parse_env i_digit = Ok idf
     /\ unittest_fixers q_tokenize q_order l_parse j_parse_env = Ok uf /\ register_builtins (Registry [] []) cf idf uf = Ok r
     /\ let refex_x := refex (fun _ => None) no_text no_text r q_tokenize q_order l_parse j_parse_env w_parse_file q_env (literal_template (TX "pass"))
              good_world (fun _ => None) (fun p => p)
              (fun p => if text_eqb p (TX "x.py") then Some (TX "f(attr.ib(default=[]), attr.ib(default=[]) if x else y)") else None) (rstate_init 0) in
        let options rounds := CliOptions [] [] false rounds false true false true false default_fmt in
        let go rounds := refex_x (Command ModeFix None [OMatch (TX "*")] None [TX "x.py"] (options rounds) false None None) in
        d_end (go None) = Crash ValueError /\ d_fs (go None) (TX "x.py") = Some []
        /\ d_end (go (Some 1)) = Ready tt
        /\ d_fs (go (Some 1)) (TX "x.py") = Some (TX "f(attr.ib(factory=list), attr.ib(factory=list) if x else y)").
Proof.
  split; [exact j_interpreter|]. split; [exact w_file_parser|].
  pose proof w_runs_ok as W. unfold w_runs, j_registry, j_correctness, j_idiom, j_unittest in W.
  destruct (correctness_fixers q_tokenize q_order l_parse j_parse_env) as [cf|] eqn:E1; [|discriminate W].
  destruct (idiom_fixers q_tokenize q_order l_parse j_parse_env i_digit) as [idf|] eqn:E2; [|discriminate W].
  destruct (unittest_fixers q_tokenize q_order l_parse j_parse_env) as [uf|] eqn:E3; [|discriminate W]. cbn [bind] in W.
  destruct (register_builtins (Registry [] []) cf idf uf) as [r|] eqn:E4; [|discriminate W].
  exists cf, idf, uf, r. do 4 (split; [first [assumption|reflexivity]|]).
  cbv zeta in W |- *. apply andb_prop in W as [W W4]. apply andb_prop in W as [W W3]. apply andb_prop in W as [W1 W2].
  unfold w_run, w_command, w_sources in W1, W2, W3, W4.
  change w_text1 with (TX "f(attr.ib(default=[]), attr.ib(default=[]) if x else y)") in W1, W2, W3, W4.
  change w_text3 with (TX "f(attr.ib(factory=list), attr.ib(factory=list) if x else y)") in W3.
  split; [|split; [|split] ].
  - match goal with |- d_end ?x = _ => change (match d_end x with Crash ValueError => true | _ => false end = true) in W2; destruct (d_end x) as [| |[]]; try discriminate W2; reflexivity end.
  - match goal with |- ?x = _ => change (contents_eqb x [] = true) in W1; unfold contents_eqb in W1; destruct x as [b|]; [|discriminate W1] end. apply text_eqb_eq in W1. now rewrite W1.
  - match goal with |- d_end ?x = _ => change (match d_end x with Ready tt => true | _ => false end = true) in W4; destruct (d_end x) as [[]| |]; try discriminate W4; reflexivity end.
  - match goal with |- ?x = Some ?t => change (contents_eqb x t = true) in W3; unfold contents_eqb in W3; destruct x as [b|]; [|discriminate W3] end. apply text_eqb_eq in W3. now rewrite W3.
Qed.
Print Assumptions C81_overlapping_rounds_refuted.

(** With one round, what C81_fix_mode_partial asks for is met. *)
Example C81_nonvacuous : exists cf idf uf r ru files,
  correctness_fixers q_tokenize q_order l_parse j_parse_env = Ok cf /\ idiom_fixers q_tokenize q_order l_parse j_parse_env i_digit = Ok idf
  /\ unittest_fixers q_tokenize q_order l_parse j_parse_env = Ok uf /\ register_builtins (Registry [] []) cf idf uf = Ok r
  /\ prepare (fun _ => None) no_text no_text r q_tokenize q_order l_parse j_parse_env w_parse_file q_env (literal_template (TX "pass"))
       (fun _ => None) (w_command (Some 1)) = Ready (ru, files)
  /\ NoDup (map fst files) /\ (forall p, In p (map fst files) -> file_parser q_tokenize q_grammar w_parse_file q_env p)
  /\ d_end (w_run r (w_command (Some 1))) = Ready tt
  /\ d_fs (w_run r (w_command (Some 1))) (TX "x.py") <> w_sources (TX "x.py").
Proof.
  destruct C81_overlapping_rounds_refuted as (_ & _ & cf & idf & uf & r & E1 & E2 & E3 & E4 & H). cbv zeta in H. destruct H as (_ & _ & H3 & H4).
  exists cf, idf, uf, r.
  change (d_end (w_run r (w_command (Some 1))) = Ready tt) in H3.
  change (d_fs (w_run r (w_command (Some 1))) (TX "x.py") = Some (TX "f(attr.ib(factory=list), attr.ib(factory=list) if x else y)")) in H4.
  pose proof H3 as H5. unfold w_run, refex in H5.
  pose proof (C66_setup (fun _ => None) no_text no_text r q_tokenize q_order l_parse j_parse_env w_parse_file q_env (literal_template (TX "pass"))
       (fun _ => None) (w_command (Some 1))) as S.
  destruct (prepare (fun _ => None) no_text no_text r q_tokenize q_order l_parse j_parse_env w_parse_file q_env (literal_template (TX "pass"))
       (fun _ => None) (w_command (Some 1))) as [[ru files]| |x] eqn:E; try discriminate H5.
  destruct S as (srs & args & lang & ss & Hp & _ & _ & _ & Hfiles). exists ru, files. vm_compute in Hp. injection Hp as _ <-.
  assert (Ef : files = [(TX "x.py", TX "x.py")]) by (rewrite Hfiles; vm_compute; reflexivity).
  do 4 (split; [assumption|]). split; [reflexivity|]. rewrite Ef. cbn [map fst].
  split; [constructor; [intros []|constructor]|]. split; [intros p [<-|[]]; exact w_file_parser|]. split; [exact H3|]. rewrite H4.
  unfold w_sources. cbn. intros K. apply (f_equal (fun o => contents_eqb o w_text1)) in K. vm_compute in K. discriminate K.
Qed.

(** The same for C81_one_round: the files of the sample are laid out as it asks. *)
Definition laid_out_fileb (tree : value) (parsed : parsed_file) : bool :=
  let l := places (vsize tree) tree in
  let sp (x : FindSpec.path * value) := m_span (create_match parsed (snd x)) in
  laid_outb tree parsed
  && forallb (fun x => forallb (fun y => match sp x, sp y with Some (a, b), Some (c, d) => (a <=? c) && (d <=? b) | _, _ => true end) (places (vsize (snd x)) (snd x))) l
  && forallb (fun x => match snd x with VNode i _ => negb (text_eqb (n_type i) (TX "keyword")) || is_some (sp x) | _ => true end) l.
Lemma laid_out_file_ok tree parsed : laid_out_fileb tree parsed = true -> laid_out_file tree parsed.
Proof.
  unfold laid_out_fileb. intros H. apply andb_prop in H as [H H3]. apply andb_prop in H as [H1 H2]. rewrite forallb_forall in H2, H3. constructor.
  - now apply laid_out_ok.
  - intros v x a b c d (q & Hq) (r & Hr) Hs Hs'. specialize (H2 (q, v) (places_all _ _ _ _ (le_n _) Hq)). rewrite forallb_forall in H2.
    specialize (H2 (r, x) (places_all _ _ _ _ (le_n _) Hr)). cbn [snd] in H2. rewrite Hs, Hs' in H2. lia.
  - intros i fs (q & Hq) Ht Hs. specialize (H3 (q, VNode i fs) (places_all _ _ _ _ (le_n _) Hq)). cbn [snd] in H3. rewrite Ht, Hs, text_eqb_refl in H3. discriminate H3.
Qed.
Lemma w_laid_out t parsed e : python_file q_tokenize q_grammar w_parse_file q_env t (TX "x.py") parsed e -> laid_out_file (e_tree e) (e_parsed e).
Proof.
  intros [F _ _ _ _]. destruct (ps_python _ _ _ _ _ _ _ F) as (info & Hi & Ee & Et). rewrite (ps_env _ _ _ _ _ _ _ F), <- Et.
  pose proof (ps_parsed _ _ _ _ _ _ _ F) as H. clear F Ee Et. apply laid_out_file_ok.
  assert (K : match pf_py parsed with Some info => laid_out_fileb (py_tree info) parsed | None => true end = true); [|now rewrite Hi in K].
  unfold w_parse_file in H. change (text_eqb (TX "x.py") (TX "x.py")) with true in H. cbn [negb] in H. clear Hi.
  repeat match type of H with (if ?c then _ else _) = _ => destruct c; [injection H as <-; vm_compute; reflexivity|] end. discriminate H.
Qed.
Example C81_one_round_nonvacuous : exists cf idf uf r ru files,
  interpreter q_tokenize q_order l_parse j_parse_env q_grammar
  /\ correctness_fixers q_tokenize q_order l_parse j_parse_env = Ok cf /\ idiom_fixers q_tokenize q_order l_parse j_parse_env i_digit = Ok idf
  /\ unittest_fixers q_tokenize q_order l_parse j_parse_env = Ok uf /\ register_builtins (Registry [] []) cf idf uf = Ok r
  /\ prepare (fun _ => None) no_text no_text r q_tokenize q_order l_parse j_parse_env w_parse_file q_env (literal_template (TX "pass"))
       (fun _ => None) (w_command (Some 1)) = Ready (ru, files)
  /\ NoDup (map fst files) /\ (forall p, In p (map fst files) -> file_parser q_tokenize q_grammar w_parse_file q_env p)
  /\ (forall p t parsed e, In p (map fst files) -> python_file q_tokenize q_grammar w_parse_file q_env t p parsed e -> laid_out_file (e_tree e) (e_parsed e))
  /\ (forall p t ms out, In p (map fst files) -> finds good_world ru (fun p => p) w_sources p p t ms -> apply_substitutions t ms = Ok out -> exists b, codec_write out = Some b)
  /\ d_fs (w_run r (w_command (Some 1))) (TX "x.py") <> w_sources (TX "x.py").
Proof.
  destruct C81_nonvacuous as (cf & idf & uf & r & ru & files & E1 & E2 & E3 & E4 & Hp & Hn & HP & Hend & Hne).
  exists cf, idf, uf, r, ru, files. split; [exact j_interpreter|]. do 7 (split; [assumption|]). split; [|split; [|exact Hne] ].
  - intros p t parsed e _ F. pose proof (ps_parsed _ _ _ _ _ _ _ (pf_source _ _ _ _ _ _ _ _ F)) as H. unfold w_parse_file in H.
    destruct (text_eqb_spec p (TX "x.py")) as [->|]; [exact (w_laid_out t parsed e F)|discriminate H].
  - intros p t ms out Hin Hf Ha.
    destruct (C67_completed_run (fun _ => None) no_text no_text r q_tokenize q_order l_parse j_parse_env w_parse_file q_env (literal_template (TX "pass"))
      good_world (fun _ => None) (fun p => p) w_sources (rstate_init 0) (w_command (Some 1)) ru files (fun _ => eq_refl) (fun _ _ => eq_refl)
      (fun p d H => match H with eq_refl => I end) Hp Hn eq_refl Hend) as (A & _).
    destruct (A p Hin) as [(b & (t' & ms' & out' & Hf' & Ha' & Hb) & _)|[N _] ]; [|destruct (N t ms Hf)].
    exists b. destruct Hf as ((b1 & B1 & _ & B2) & Hf & _), Hf' as ((b2 & C1 & _ & C2) & Hf' & _). congruence.
Qed.
