(** C65: which files a command line is about; C66: what it searches for, and what
    is a usage error; C67: the whole program. *)
From Verif Require Import Py PyFacts Subst Fmt ApplySpec SubstSpec Ast Template FromDiff Matcher Search Removal Fixer PatTok Pattern
  PyTemplate Codec Runner RunnerSpec RunnerProofs Cli CliSpec CliProofs Main MainSpec MainProofs PropsRunner PropsCli.

(** *** C65 *)

(** Each argument stands for itself or, with -R, for exactly the files below it,
    each once; the files are processed in the order of the arguments, in place.
    (Missing: --includefile and --excludefile, see below.) *)
Theorem C65_files_partial : forall dirs args recursive incl excl,
  (forall p d, dirs p = Some d -> tidy d) ->
  exists ls, Forall2 (stands_for dirs recursive) args ls
    /\ files_from_options dirs (FileOptions args recursive incl excl) = map (fun q => (q, q)) (concat ls).
Proof. intros dirs args recursive incl excl H. exact (files_stand_for dirs (FileOptions args recursive incl excl) H). Qed.
Print Assumptions C65_files_partial.

(** FINDING: --includefile and --excludefile have no effect at all. *)
Theorem C65_excludefile_refuted : forall dirs args recursive incl excl incl' excl',
  files_from_options dirs (FileOptions args recursive incl excl)
  = files_from_options dirs (FileOptions args recursive incl' excl')
  /\ exists dirs0 args0 p, In (p, p) (files_from_options dirs0 (FileOptions args0 true None (Some (fun q => text_eqb q p)))).
Proof.
  intros dirs args recursive incl excl incl' excl'. split; [reflexivity|].
  exists (fun _ => None), [TX "skip.py"], (TX "skip.py"). left. reflexivity.
Qed.
Print Assumptions C65_excludefile_refuted.

(** The name that is shown for a file is a shortest one among the path as given,
    the absolute path and the path relative to the current directory. *)
Theorem C65_displayed_name : forall abspath relpath p,
  In (shorten_path abspath relpath p) [p; abspath p; relpath p]
  /\ Forall (fun q => tlen (shorten_path abspath relpath p) <= tlen q) [p; abspath p; relpath p].
Proof. exact shorten_spec. Qed.
Print Assumptions C65_displayed_name.

Definition sample_dirs : path -> option (list (text * entry)) := fun p =>
  if text_eqb p (TX "src") then
    Some [(TX "a.py", EFile); (TX "lib", EDir [(TX "b.py", EFile); (TX "c", EDir [])]); (TX "link", EClosed); (TX "z.py", EFile)]
  else None.
Example C65_nonvacuous :
  (forall p d, sample_dirs p = Some d -> tidy d)
  /\ files_from_options sample_dirs (FileOptions [TX "src"; TX "x.py"] true None None)
     = map (fun q => (q, q)) [TX "src/a.py"; TX "src/z.py"; TX "src/lib/b.py"; TX "x.py"]
  /\ files_from_options sample_dirs (FileOptions [TX "src"; TX "x.py"] false None None)
     = map (fun q => (q, q)) [TX "src"; TX "x.py"]
  /\ shorten_path (fun p => TX "/home/me/" ++ p) (fun _ => TX "a.py") (TX "../me/a.py") = TX "a.py".
Proof.
  split; [|repeat split; vm_compute; reflexivity].
  intros p d H. unfold sample_dirs in H. destruct (text_eqb p (TX "src")); [|discriminate H]. injection H as <-.
  assert (K : forall n, In n [TX "a.py"; TX "lib"; TX "link"; TX "z.py"; TX "b.py"; TX "c"] -> n <> [] /\ ~ In SLASH n).
  { intros n Hn. cbn [In] in Hn. decompose [or] Hn; subst; try contradiction; (split; [discriminate|]);
      intros C; vm_compute in C; decompose [or] C; try discriminate; contradiction. }
  constructor.
  - repeat (apply NoDup_cons; [vm_compute; intuition discriminate|]). apply NoDup_nil.
  - repeat (apply Forall_cons; [apply K; cbn [In map fst]; tauto|]). apply Forall_nil.
  - intros n d' H. cbn [In] in H. destruct H as [H|[H|[H|[H|[]]]]]; try discriminate H. injection H as _ <-. constructor.
    + repeat (apply NoDup_cons; [vm_compute; intuition discriminate|]). apply NoDup_nil.
    + repeat (apply Forall_cons; [apply K; cbn [In map fst]; tauto|]). apply Forall_nil.
    + intros n' d'' H'. cbn [In] in H'. destruct H' as [H'|[H'|[]]]; try discriminate H'. injection H' as _ <-. constructor; [constructor|constructor|intros ? ? []].
Qed.

Section Oracles.
  Variable re_compile : text -> option regex.
  Variable re_template : text -> res (list re_piece).
  Variable py_matcher_of : text -> res matcher.
  Variable fixers : registry.
  Variable tokenize : text -> res (list ptok).
  Variable order : list nat -> list nat.
  Variable ast_parse : text -> res value.
  Variable parse_env : text -> res env.
  Variable parse_ast : text -> text -> res parsed_file.
  Variable context : parsed_file -> pyinfo -> env.
  Variable pass_template : template.
  Notation searcher_for := (make_searcher re_compile py_matcher_of fixers tokenize order ast_parse parse_ast context pass_template).
  Notation template_for := (make_template_of re_template tokenize order ast_parse parse_env).
  Notation means_search := (searches_for re_compile py_matcher_of fixers tokenize order ast_parse parse_ast context pass_template).
  Notation set_up := (prepare re_compile re_template py_matcher_of fixers tokenize order ast_parse parse_env parse_ast context pass_template).
  Notation run_refex := (refex re_compile re_template py_matcher_of fixers tokenize order ast_parse parse_env parse_ast context pass_template).

  (** *** C66 *)

  (** Exactly one of three things happens: every template and every pattern is
      accepted; or the options are malformed or the first template or pattern that
      is not accepted is refused with a ValueError (for a template: any
      exception), which is a usage error; or the first pattern that is not
      accepted raises something else, which is not caught. *)
  Theorem C66_setup : forall dirs c,
    match set_up dirs c with
    | Ready (ru, files) => exists srs args lang ss,
        parse_options (cm_opts c) (cm_positional c) (cm_unknown c) = Some (srs, args)
        /\ language (cm_mode c) (cm_sub_mode c) lang
        /\ Forall2 (accepted (template_for lang) (searcher_for (cm_mode c))) srs ss
        /\ runner_from_options parse_ast (options_of c) ss = Some ru
        /\ files = files_from_options dirs (FileOptions args (cm_recursive c) (cm_includefile c) (cm_excludefile c))
    | Usage =>
        parse_options (cm_opts c) (cm_positional c) (cm_unknown c) = None
        \/ exists good sr rest args lang ss,
             parse_options (cm_opts c) (cm_positional c) (cm_unknown c) = Some (good ++ sr :: rest, args)
             /\ language (cm_mode c) (cm_sub_mode c) lang
             /\ Forall2 (accepted (template_for lang) (searcher_for (cm_mode c))) good ss
             /\ exists why, refused (template_for lang) (searcher_for (cm_mode c)) sr why
                  /\ match why with None => True | Some x => x = ValueError \/ x = UnicodeError end
    | Crash x => exists good sr rest args lang ss,
             parse_options (cm_opts c) (cm_positional c) (cm_unknown c) = Some (good ++ sr :: rest, args)
             /\ language (cm_mode c) (cm_sub_mode c) lang
             /\ Forall2 (accepted (template_for lang) (searcher_for (cm_mode c))) good ss
             /\ refused (template_for lang) (searcher_for (cm_mode c)) sr (Some x) /\ x <> ValueError /\ x <> UnicodeError
    end.
  Proof. exact (prepare_cases re_compile re_template py_matcher_of fixers tokenize order ast_parse parse_env parse_ast context pass_template). Qed.

  (** What a pattern means in each mode. *)
  Theorem C66_modes : forall m p ts s,
    searcher_for m p ts = Ok s <-> exists q, p = Some q /\ means_search m q ts s.
  Proof. exact (modes_spec re_compile py_matcher_of fixers tokenize order ast_parse parse_ast context pass_template). Qed.

  (** What a template means in each language. *)
  Theorem C66_languages : forall lang src t,
    template_for lang src = Ok t <-> template_means re_template tokenize order ast_parse parse_env lang src t.
  Proof.
    intros lang src t. split.
    - unfold make_template_of. destruct lang.
      + destruct (re_template src) eqn:E; cbn [bind]; intros [= <-]. now constructor.
      + intros [= <-]. constructor.
      + destruct (python_template _ _ _ src) eqn:E; cbn [bind]; intros [= <-]. now constructor.
      + destruct (python_expr_template _ _ _ src) eqn:E; cbn [bind]; intros [= <-]. now constructor.
      + destruct (python_stmt_template _ _ _ src) eqn:E; cbn [bind]; intros [= <-]. now constructor.
    - intros H. unfold make_template_of. destruct H as [src ps H|src|src t H|src t H|src t H]; try rewrite H; reflexivity.
  Qed.

  (** What the other options do. *)
  Theorem C66_options : forall dirs c ru files,
    set_up dirs c = Ready (ru, files) ->
    exists srs args lang ss s n,
      parse_options (cm_opts c) (cm_positional c) (cm_unknown c) = Some (srs, args)
      /\ language (cm_mode c) (cm_sub_mode c) lang
      /\ Forall2 (accepted (template_for lang) (searcher_for (cm_mode c))) srs ss
      /\ build_searcher (cm_options c) ss = Some s
      /\ iterations (cm_mode c) (co_iterate (cm_options c)) n
      /\ (forall contents name, ru_find ru contents name = find_iter parse_ast s contents name n)
      /\ ru_dry_run ru = negb (co_in_place (cm_options c))
      /\ ru_show_diff ru = negb (co_list_files (cm_options c))
      /\ ru_show_files ru = (co_list_files (cm_options c) || co_print_filename (cm_options c))
      /\ ru_color ru = co_color (cm_options c) /\ ru_fmt ru = co_format (cm_options c).
  Proof.
    intros dirs c ru files H. pose proof (C66_setup dirs c) as C. rewrite H in C.
    destruct C as (srs & args & lang & ss & Hp & HL & HF & Hr & _).
    unfold runner_from_options in Hr. destruct (build_searcher (options_of c) ss) as [s|] eqn:E; [|discriminate].
    injection Hr as <-. exists srs, args, lang, ss, s, (iteration_count (options_of c)).
    split; [assumption|]. split; [assumption|]. split; [assumption|]. split; [exact E|]. split; [|repeat split; reflexivity].
    unfold iterations, iteration_count, options_of. cbn [co_iterate co_fix_mode].
    destruct (co_iterate (cm_options c)); [reflexivity|].
    split; destruct (cm_mode c); cbn; intros; (reflexivity || discriminate || contradiction).
  Qed.

  (** --mode=fix takes no substitutions, and needs the name of registered fixers. *)
  Theorem C66_fix_mode : forall dirs c ru files srs args,
    cm_mode c = ModeFix -> set_up dirs c = Ready (ru, files) ->
    parse_options (cm_opts c) (cm_positional c) (cm_unknown c) = Some (srs, args) ->
    Forall (fun sr => sr_sub sr = [] /\ exists name, sr_match sr = Some name
                      /\ (name = TX "*" \/ dget (rg_extra fixers) name <> None)) srs.
  Proof.
    intros dirs c ru files srs args Hm H Hp. pose proof (C66_setup dirs c) as C. rewrite H in C.
    destruct C as (srs' & args' & lang & ss & Hp' & _ & HF & _). rewrite Hp in Hp'. injection Hp' as <- <-. rewrite Hm in HF.
    clear -HF. induction HF as [|sr s srs ss (ts & H1 & _ & H) HF IH]; constructor; [|exact IH].
    apply C66_modes in H as (q & Hq & H). inversion H; subst. split.
    - cbn [map] in H1. destruct (sr_sub sr); [reflexivity|discriminate H1].
    - exists q. split; [assumption|]. destruct H0 as [[-> _]|[_ H0]]; [now left|right; congruence].
  Qed.
  Theorem C66_fix_mode_substitution_is_usage_error : forall dirs c p args sr,
    cm_mode c = ModeFix -> sr_sub sr <> [] -> sr_match sr = Some p ->
    parse_options (cm_opts c) (cm_positional c) (cm_unknown c) = Some ([sr], args) ->
    set_up dirs c = Usage.
  Proof.
    intros dirs c p args sr Hm Hs Hp HP. pose proof (C66_setup dirs c) as C.
    destruct (set_up dirs c) as [[ru files]| |x] eqn:E; [|reflexivity|].
    - pose proof (C66_fix_mode dirs c ru files [sr] args Hm E HP) as F. inversion F; subst. destruct H1 as [H1 _]. contradiction.
    - destruct C as (good & sr' & rest & args' & lang & ss & HP' & _ & _ & (ts & H1 & _ & H2) & H3 & _).
      rewrite HP in HP'. destruct good as [|g [|? ?]]; try discriminate HP'. injection HP' as <- <- <-. rewrite Hm in H2. cbn [make_searcher] in H2.
      destruct ts; [destruct (sr_sub sr); [contradiction|discriminate H1]|]. injection H2 as <-. contradiction.
  Qed.

  (** FINDING: without any pattern the modes other than fix end with a TypeError
      or AttributeError instead of a usage message. *)
  Theorem C66_no_pattern_refuted : forall dirs c args,
    cm_mode c <> ModeFix ->
    parse_options (cm_opts c) (cm_positional c) (cm_unknown c) = Some ([SR None []], args) ->
    set_up dirs c = Crash TypeError \/ set_up dirs c = Crash AttributeError.
  Proof.
    intros dirs c args Hm H. unfold prepare. rewrite H. cbn [make_searchers sr_sub parse_templates mapM sr_match].
    unfold parse_templates. cbn [mapM]. unfold make_searcher. destruct (cm_mode c); cbn; auto. contradiction.
  Qed.

  (** *** C67 *)

  (** If setting up fails, nothing at all happens. *)
  Theorem C67_usage_errors_come_first : forall w dirs display f sty c,
    match set_up dirs c with
    | Ready _ => True
    | Usage => run_refex w dirs display f sty c = Done f [] [] None Usage
    | Crash x => run_refex w dirs display f sty c = Done f [] [] None (Crash x)
    end.
  Proof. intros w dirs display f sty c. unfold refex. now destruct (set_up dirs c) as [[ru files]| |x]. Qed.

  (** Without -i no file is changed, whatever happens. *)
  Theorem C67_dry_run : forall w dirs display f sty c,
    co_in_place (cm_options c) = false -> d_fs (run_refex w dirs display f sty c) = f.
  Proof.
    intros w dirs display f sty c Hi. unfold refex. pose proof (C66_setup dirs c) as C.
    destruct (set_up dirs c) as [[ru files]| |x] eqn:E; [|reflexivity|reflexivity].
    destruct C as (srs & args & lang & ss & _ & _ & _ & Hr & _).
    destruct (rewrite_files w ru display f sty files) as [st e] eqn:Ef.
    assert (x_fs st = f) as Hf by (eapply C49_nothing_written_without_in_place; [exact Hr|exact Hi|exact Ef]).
    destruct e; exact Hf.
  Qed.

  (** With -i only files that the arguments stand for can change, whatever
      happens and even if a file is named twice ... *)
  Theorem C67_only_named_files : forall w dirs display f sty c q,
    (forall p d, dirs p = Some d -> tidy d) ->
    d_fs (run_refex w dirs display f sty c) q <> f q ->
    co_in_place (cm_options c) = true
    /\ exists srs args p l,
         parse_options (cm_opts c) (cm_positional c) (cm_unknown c) = Some (srs, args)
         /\ In p args /\ stands_for dirs (cm_recursive c) p l /\ In q l.
  Proof.
    intros w dirs display f sty c q T Hne. split.
    { destruct (co_in_place (cm_options c)) eqn:E; [reflexivity|]. exfalso. apply Hne. now rewrite (C67_dry_run w dirs display f sty c E). }
    revert Hne. unfold refex. pose proof (C66_setup dirs c) as C.
    destruct (set_up dirs c) as [[ru files]| |x] eqn:E; [|intros []; reflexivity|intros []; reflexivity].
    destruct C as (srs & args & lang & ss & Hp & _ & _ & _ & ->).
    destruct (rewrite_files w ru display f sty _) as [st e] eqn:Ef.
    assert (X : d_fs match e with None => Done (x_fs st) (x_stdout st) (x_skipped st) (report_failures (x_failures st)) (Ready tt)
                    | Some x => Done (x_fs st) (x_stdout st) (x_skipped st) None (Crash x) end = x_fs st) by now destruct e.
    intros Hne. rewrite X in Hne. clear X. exists srs, args.
    destruct (C65_files_partial dirs args (cm_recursive c) (cm_includefile c) (cm_excludefile c) T) as (ls & HF & HE).
    assert (Hin : In q (concat ls)).
    { destruct (in_dec (list_eq_dec Z.eq_dec) q (concat ls)) as [Hin|Hn]; [exact Hin|]. exfalso. apply Hne.
      apply rewrite_loop in Ef as (st1 & Ef & <- & _). apply (loop_outside w ru display _ _ _ _ _ Ef).
      rewrite HE, map_map, map_id. exact Hn. }
    apply in_concat in Hin as (l & Hl & Hq). clear -HF Hl Hq Hp.
    assert (exists p, In p args /\ stands_for dirs (cm_recursive c) p l) as (p & Hp1 & Hp2).
    { clear Hp Hq. induction HF as [|p l' args ls H HF IH]; [destruct Hl|]. destruct Hl as [->|Hl]; [exists p; split; [now left|assumption]|].
      destruct (IH Hl) as (p' & H1 & H2). exists p'. split; [now right|assumption]. }
    exists p, l. auto.
  Qed.

  (** ... and if no file is named twice and the disks work, then after a run that
      was not cut short each of them holds exactly its rewritten contents, or is
      as it was if nothing was found in it; the exit status is 0 even if searches
      crashed, and the number of those is what is reported. *)
  Theorem C67_completed_run : forall w dirs display f sty c ru files,
    (forall p, w_writable w p = true) -> (forall p b, w_device w p b = (b, false)) ->
    (forall p d, dirs p = Some d -> tidy d) ->
    set_up dirs c = Ready (ru, files) -> NoDup (map fst files) -> co_in_place (cm_options c) = true ->
    let r := run_refex w dirs display f sty c in
    d_end r = Ready tt ->
    (forall p, In p (map fst files) ->
       (exists b, new_contents w ru display f p p b /\ d_fs r p = Some b)
       \/ ((forall t ms, ~ finds w ru display f p p t ms) /\ d_fs r p = f p))
    /\ (forall q, ~ In q (map fst files) -> d_fs r q = f q)
    /\ match d_reported r with
       | None => forall p t, In p (map fst files) -> ~ search_crashes w ru display f p p t
       | Some (n, log) => n = tlen log /\ n > 0 /\ NoDup (map fst log)
           /\ forall p t, In (p, t) log <-> In p (map fst files) /\ search_crashes w ru display f p p t
       end.
  Proof.
    intros w dirs display f sty c ru files Hw Hd T HS Hn Hi r Hend.
    assert (Hpairs : exists l, files = map (fun q : path => (q, q)) l).
    { pose proof (C66_setup dirs c) as C. rewrite HS in C. destruct C as (srs & args & lang & ss & _ & _ & _ & _ & ->).
      destruct (C65_files_partial dirs args (cm_recursive c) (cm_includefile c) (cm_excludefile c) T) as (ls & _ & HE). eauto. }
    destruct Hpairs as (l & ->). rewrite map_map, map_id in *.
    assert (Hdry : ru_dry_run ru = false).
    { pose proof (C66_setup dirs c) as C. rewrite HS in C. destruct C as (srs & args & lang & ss & _ & _ & _ & Hr & _).
      unfold runner_from_options in Hr. destruct (build_searcher _ ss); [|discriminate]. injection Hr as <-. cbn. now rewrite Hi. }
    unfold r, refex in *. rewrite HS in *. clear r.
    destruct (rewrite_files w ru display f sty _) as [st [x|]] eqn:Ef; cbn [d_end d_fs d_reported] in *; [discriminate Hend|].
    pose proof (in_place_no_clash l Hn) as Hc.
    destruct (C36_completed_run_writes_exactly w ru display f sty _ st Hw Hd Hdry Hc Ef) as [A B].
    assert (P : forall p, In p l <-> In (p, p) (map (fun q : path => (q, q)) l)).
    { intros p. rewrite in_map_iff. split; [intros H; now exists p|]. intros (x & E & H). injection E as E _. now subst. }
    split; [intros p Hp; apply A; now apply P|]. split; [intros q Hq; apply B; now rewrite map_map, map_id|].
    pose proof (C36_failures_reported_exactly w ru display f sty _ st Hc Ef) as F.
    assert (F' : forall p t, dget (x_failures st) p = Some t <-> In p l /\ search_crashes w ru display f p p t).
    { intros p t. rewrite F. split.
      - intros (q & H & Hx). apply in_map_iff in H as (x & [= <- <-] & H). now split.
      - intros [H Hx]. exists p. split; [now apply P|assumption]. }
    assert (K : dict_ok (x_failures st)).
    { apply rewrite_loop in Ef as (st1 & Ef & _ & <-). clear -Ef.
      assert (G : dict_ok (x_failures (RW f [] false [] [] sty))) by constructor. revert Ef G.
      generalize (RW f [] false [] [] sty) as s0. generalize (map (fun q : path => (q, q)) l) as pairs.
      induction pairs as [|[r p] pairs IH]; intros s0 H G; cbn [run_loop] in H; [now injection H as <-|].
      destruct (run_file w ru display s0 r p) as [s1 [e|]] eqn:E; [discriminate H|]. apply (IH s1 H).
      apply run_file_failures in E as [[E _]|(t & E & _)]; rewrite E; [exact G|]. now apply dict_ok_dset. }
    unfold report_failures. destruct (x_failures st) as [|kv log] eqn:Ex.
    - intros p t Hp C. assert (H : dget (x_failures st) p = Some t) by (rewrite Ex; apply F'; now split). rewrite Ex in H. discriminate H.
    - cbv beta iota. split; [reflexivity|]. split; [unfold tlen; cbn [length]; lia|]. split; [exact K|]. intros p t. rewrite <- F'. split.
      + now apply In_dget.
      + apply dget_In.
  Qed.

  (** Crashing searches, files that cannot be read and the like do not stop it. *)
  Theorem C67_completes : forall w dirs display f sty c ru files,
    (forall p d, dirs p = Some d -> tidy d) ->
    set_up dirs c = Ready (ru, files) -> NoDup (map fst files) ->
    (forall p t ms, In p (map fst files) -> finds w ru display f p p t ms -> presentable ru t ms) ->
    d_end (run_refex w dirs display f sty c) = Ready tt.
  Proof.
    intros w dirs display f sty c ru files T HS Hn HP.
    assert (Hpairs : exists l, files = map (fun q : path => (q, q)) l).
    { pose proof (C66_setup dirs c) as C. rewrite HS in C. destruct C as (srs & args & lang & ss & _ & _ & _ & _ & ->).
      destruct (C65_files_partial dirs args (cm_recursive c) (cm_includefile c) (cm_excludefile c) T) as (ls & _ & HE). eauto. }
    destruct Hpairs as (l & ->). rewrite map_map, map_id in *.
    destruct (C36_search_failures_do_not_stop_the_run w ru display f sty _ (in_place_no_clash l Hn)) as (st & E).
    - intros r p t ms Hin. apply in_map_iff in Hin as (x & [= <- <-] & Hin). now apply HP.
    - unfold refex. rewrite HS, E. reflexivity.
  Qed.
End Oracles.
Print Assumptions C66_setup.
Print Assumptions C66_modes.
Print Assumptions C66_languages.
Print Assumptions C66_options.
Print Assumptions C66_fix_mode.
Print Assumptions C66_fix_mode_substitution_is_usage_error.
Print Assumptions C66_no_pattern_refuted.
Print Assumptions C67_usage_errors_come_first.
Print Assumptions C67_dry_run.
Print Assumptions C67_only_named_files.
Print Assumptions C67_completed_run.
Print Assumptions C67_completes.

(** A run: [refex --match=foo --sub=bar -i -R src]. *)
Definition foo_regex : regex :=
  Regex 1 [(TX "g", 1)] (TX "f(?P<g>oo)")
    (fun t => if startswith (TX "foo") t then [[(0, 3); (1, 3)]] else if startswith (TX "!") t then [[(0, 1)]] else []).
Definition sample_command (os : list opt) (m : search_mode) (in_place : bool) : command :=
  Command m None os None [TX "src"] (CliOptions [] [] false None false in_place false true false default_fmt) true None None.
Definition no_text {A} : text -> res A := fun _ => Err ValueError.
Definition run_sample (c : command) (f : fs) : done :=
  refex (fun p => if text_eqb p (TX "f(?P<g>oo)") then Some foo_regex else None) (fun s => Ok [ReLit s; ReGroup (TX "g")])
    no_text (Registry [] []) no_text (fun l => l) no_text no_text (fun _ _ => Err ParseError) (fun pf _ => Env pf VNone [] [] (fun c => c) (fun c => c) (fun _ _ => []))
    (sh_template []) good_world sample_dirs (fun p => p) f (rstate_init 0) c.
Definition sample_sources : fs := fun p =>
  if text_eqb p (TX "src/a.py") then Some (TX "foo(1)")
  else if text_eqb p (TX "src/z.py") then Some (TX "!")
  else if text_eqb p (TX "src/lib/b.py") then Some (TX "other")
  else if text_eqb p (TX "elsewhere") then Some (TX "foo") else None.
Example C66_nonvacuous :
  let start os m := d_end (run_sample (sample_command os m true) sample_sources) in
  start [OMatch (TX "f(?P<g>oo)"); OSub (TX "bar")] ModeRe = Ready tt
  /\ start [OMatch (TX "f(oo"); OSub (TX "bar")] ModeRe = Usage
  /\ start [OMatch (TX "x"); OSub (TX "bar")] ModeFix = Usage
  /\ start [OMatch (TX "f(?P<g>oo)"); OSub (TX "bar"); OSub (TX "baz")] ModeRe = Usage
  /\ start [] ModeRe = Crash TypeError.
Proof. repeat split; vm_compute; reflexivity. Qed.
Example C67_nonvacuous :
  let go b := run_sample (sample_command [OMatch (TX "f(?P<g>oo)"); OSub (TX "bar")] ModeRe b) sample_sources in
  (d_fs (go true) (TX "src/a.py") = Some (TX "baroo(1)")
   /\ d_fs (go true) (TX "src/z.py") = Some (TX "!")
   /\ d_fs (go true) (TX "src/lib/b.py") = Some (TX "other")
   /\ d_fs (go true) (TX "elsewhere") = Some (TX "foo")
   /\ d_reported (go true) = Some (1, [(TX "src/z.py", TX "!")])
   /\ d_end (go true) = Ready tt)
  /\ d_fs (go false) (TX "src/a.py") = Some (TX "foo(1)") /\ d_stdout (go false) <> [].
Proof. cbn zeta. split; [repeat split; vm_compute; reflexivity|]. split; [vm_compute; reflexivity|]. vm_compute. discriminate. Qed.
