(** C39, C40, C49: the command line.  Theorems only. *)
From Verif Require Import Py PyFacts Subst Fmt ApplySpec SubstSpec Ast Template Search SearchSpec SearchProofs PragmaProofs
  Codec Runner RunnerSpec RunnerProofs ReportProofs Cli CliSpec CliProofs PropsRunner PropsSearch.

(** C39: however the options are ordered, each --match makes one search-replace
    pair whose substitutions are given by the options up to the next --match
    (those before the first --match belong to the first one); anything else
    than one --sub or several distinct --named-sub per pattern is a usage error. *)
Theorem C39_pairing : forall pre gs srs, no_matches pre gs ->
  (actions (cmdline pre gs) no_search_replace = Some srs <-> means pre gs srs).
Proof. exact actions_spec. Qed.
Print Assumptions C39_pairing.
Theorem C39_every_command_line : forall os, exists pre gs, os = cmdline pre gs /\ no_matches pre gs.
Proof. exact cmdline_exists. Qed.
Print Assumptions C39_every_command_line.

(** Consequences: combinations that are never accepted, wherever they stand. *)
Theorem C39_sub_twice_rejected : forall os1 os2 os3 v v' l,
  Forall (fun o => ~ is_match_opt o) os2 -> l <> [] ->
  actions (os1 ++ OSub v :: os2 ++ OSub v' :: os3) l = None.
Proof.
  assert (Hstep : forall o l l', action o l = Some l' -> l' <> []).
  { intros o l l'. assert (Hu : forall f l l', update_last f l = Some l' -> l' <> []).
    { intros f l0. destruct l0 as [|x [|y l0]]; intros l1 H; simpl in H; [discriminate H| |].
      - destruct (f x); [|discriminate H]. injection H as <-. discriminate.
      - match type of H with match ?t with _ => _ end = _ => destruct t end; [|discriminate H]. injection H as <-. discriminate. }
    destruct o; cbn [action]; try apply Hu. destruct (last_match l); [|apply Hu]. intros [= <-]. now destruct l. }
  induction os1 as [|o os1 IH]; intros os2 os3 v v' l H2 Hl; cbn [app].
  - destruct (exists_last Hl) as (l0 & [m d] & ->).
    change (OSub v :: os2 ++ OSub v' :: os3) with ((OSub v :: os2) ++ OSub v' :: os3).
    replace (actions ((OSub v :: os2) ++ OSub v' :: os3) (l0 ++ [SR m d])) with (actions (((OSub v :: os2) ++ [OSub v']) ++ os3) (l0 ++ [SR m d]))
      by (now rewrite <- app_assoc).
    rewrite actions_seg.
    2:{ apply Forall_app. split; [constructor; [intros []|assumption]|constructor; [intros []|constructor]]. }
    rewrite steps_app. cbn [steps step]. unfold set_sub at 1. cbn [sr_sub].
    destruct d as [|kv d]; [|reflexivity]. cbn [sr_sub].
    destruct (steps os2 [(ROOT_LABEL, v)]) as [d'|] eqn:E; [|reflexivity].
    apply steps_more in E; [|assumption|discriminate|cbn; repeat constructor; tauto].
    destruct E as (nps & _ & -> & _). reflexivity.
  - cbn [actions]. destruct (action o l) as [l'|] eqn:E; [|reflexivity]. apply IH; [assumption|]. eapply Hstep. exact E.
Qed.
Print Assumptions C39_sub_twice_rejected.

Example C39_nonvacuous :
  let os := cmdline [OSub (TX "s0")] [(TX "m1", []); (TX "m2", [ONamed (TX "a=1"); ONamed (TX "b=x=y")])] in
  no_matches [OSub (TX "s0")] [(TX "m1", []); (TX "m2", [ONamed (TX "a=1"); ONamed (TX "b=x=y")])]
  /\ actions os no_search_replace
     = Some [SR (Some (TX "m1")) [(TX "__root", TX "s0")];
             SR (Some (TX "m2")) [(TX "a", TX "1"); (TX "b", TX "x=y")]]
  /\ actions [OMatch (TX "m"); ONamed (TX "a=1"); OSub (TX "s")] no_search_replace = None
  /\ actions [OMatch (TX "m"); ONamed (TX "a=1"); ONamed (TX "a=2")] no_search_replace = None
  /\ actions [OMatch (TX "m"); ONamed (TX "a")] no_search_replace = None.
Proof.
  cbn zeta. split; [|repeat split; vm_compute; reflexivity].
  split; repeat constructor; intros [].
Qed.

(** C40: leftovers before "--" that look like flags are usage errors; all other
    leftovers are files, in order, and "--" itself is dropped. *)
Theorem C40_leftovers : forall pre rest,
  Forall (fun a => a <> TX "--") pre -> rest = [] \/ (exists post, rest = TX "--" :: post) ->
  forall files, parse_leftovers (pre ++ rest) = Some files <->
    Forall (fun a => startswith (TX "-") a = false) pre /\ files = pre ++ tl rest.
Proof. exact parse_leftovers_spec. Qed.
Print Assumptions C40_leftovers.

(** C40: the positional is the pattern if there is no --match, and otherwise the
    first file. *)
Theorem C40_positional_is_pattern_or_file : forall pre gs pattern unknown srs files, no_matches pre gs ->
  (parse_options (cmdline pre gs) pattern unknown = Some (srs, files) <->
   exists srs0 leftovers, means pre gs srs0 /\ parse_leftovers unknown = Some leftovers /\
     match pattern with
     | None => srs = srs0 /\ files = leftovers
     | Some p =>
         match gs with
         | [] => exists d, srs0 = [SR None d] /\ srs = [SR (Some p) d] /\ files = leftovers
         | _ => srs = srs0 /\ files = p :: leftovers
         end
     end).
Proof. exact parse_options_spec. Qed.
Print Assumptions C40_positional_is_pattern_or_file.

Example C40_nonvacuous :
  parse_options [OSub (TX "s")] (Some (TX "pat")) [TX "a.py"; TX "--"; TX "-x.py"; TX "--"]
    = Some ([SR (Some (TX "pat")) [(TX "__root", TX "s")]], [TX "a.py"; TX "-x.py"; TX "--"])
  /\ parse_options [OMatch (TX "m")] (Some (TX "pat")) [TX "a.py"]
    = Some ([SR (Some (TX "m")) []], [TX "pat"; TX "a.py"])
  /\ parse_options [OMatch (TX "m")] (Some (TX "pat")) [TX "-z"] = None.
Proof. repeat split; vm_compute; reflexivity. Qed.

(** C49: without -i/--in-place a run started from the command line changes no
    file, whatever the searchers, files and failures. *)
Theorem C49_nothing_written_without_in_place : forall parse_ast o searchers ru w display f sty pairs st e,
  runner_from_options parse_ast o searchers = Some ru -> co_in_place o = false ->
  rewrite_files w ru display f sty pairs = (st, e) -> x_fs st = f.
Proof.
  intros parse_ast o ss ru w display f sty pairs st e H Hi. apply C36_dry_run_never_writes.
  unfold runner_from_options in H. destruct (build_searcher o ss); [|discriminate]. injection H as <-. cbn. now rewrite Hi.
Qed.
Print Assumptions C49_nothing_written_without_in_place.

(** C49: without --force-enable nothing that pragmas exclude is reported, however
    many patterns and --also filters there are; with it, pragmas play no role. *)
Theorem C49_pragmas_respected : forall o searchers s parsed subs,
  build_searcher o searchers = Some s -> co_force_enable o = false -> s_find s parsed = Ok subs ->
  exists inner found, build_searcher (CliOptions (co_also o) (co_noalso o) true (co_iterate o) (co_fix_mode o)
                  (co_in_place o) (co_list_files o) (co_print_filename o) (co_color o) (co_format o)) searchers = Some inner
    /\ s_find inner parsed = Ok found
    /\ (Forall (fun x => dict_ok (matched_spans x) /\ validate x = Ok tt) found ->
        forall x, In x subs <-> In x found /\ ~ pragma_excluded (pf_pragmas parsed) x).
Proof.
  intros o ss s parsed subs H Hf Hs. unfold build_searcher in *. destruct ss as [|s0 rest]; [discriminate|].
  cbv zeta in *. cbn [co_force_enable co_also co_noalso]. rewrite Hf in H.
  set (s2 := match co_also o with [] => _ | _ :: _ => _ end) in *.
  injection H as <-. exists s2. destruct (s_find s2 parsed) as [found|x] eqn:E.
  - exists found. split; [reflexivity|]. split; [reflexivity|]. intro Hw.
    destruct (C13_suppressed_exactly s2 parsed found E Hw) as (keep & Hk & Hk2).
    rewrite Hs in Hk. injection Hk as ->. intro x. rewrite filter_In. split.
    + intros [Hin Hkx]. split; [assumption|]. now apply Hk2.
    + intros [Hin Hx]. split; [assumption|]. now apply Hk2.
  - cbn [pragma_suppressed s_find] in Hs. rewrite E in Hs. discriminate.
Qed.
Print Assumptions C49_pragmas_respected.

(** C49: all patterns are searched for: the results are those of the one pattern,
    or all those of the patterns together except for some that collide with
    another that is no larger. *)
Theorem C49_all_patterns_searched : forall o searchers s parsed lists,
  build_searcher o searchers = Some s -> co_force_enable o = true ->
  Forall2 (fun s l => s_find s parsed = Ok l) searchers lists -> Forall wf_primary (concat lists) ->
  exists out dropped,
    s_find s parsed = Ok out /\ Permutation (concat lists) (out ++ dropped)
    /\ (forall d, In d dropped -> exists rest t, Permutation (concat lists) (d :: rest) /\ In t rest
          /\ collide d t /\ not_larger t d)
    /\ (forall x, searchers = [x] -> dropped = []).
Proof.
  intros o ss s parsed lists H Hf HL Hw. unfold build_searcher in H.
  destruct ss as [|s0 rest]; [discriminate H|]. cbv zeta in H. rewrite Hf in H. injection H as <-.
  assert (HF : forall x, s_find (match co_also o, co_noalso o with [], [] => x
                                 | also, noalso => also_regexp also noalso x end) parsed = s_find x parsed)
    by (intros x; destruct (co_also o), (co_noalso o); reflexivity).
  rewrite HF. destruct rest as [|s1 rest].
  - inversion HL as [|? l ? ls Hl Hls]; subst. inversion Hls; subst. exists l, [].
    cbn [concat]. rewrite !app_nil_r. split; [assumption|]. split; [reflexivity|]. split; [intros d [] | reflexivity].
  - destruct (C42_combined_results _ _ _ HL Hw) as (out & dropped & H1 & H2 & _ & H3 & _).
    exists out, dropped. split; [exact H1|]. split; [exact H2|]. split; [exact H3|]. intros x Hx. discriminate Hx.
Qed.
Print Assumptions C49_all_patterns_searched.

(** C49: --also and --noalso decide which files are looked at. *)
Theorem C49_also_filters : forall o searchers s data path,
  build_searcher o searchers = Some s ->
  (Forall (fun r => r data = true) (co_also o) /\ Forall (fun r => r data = false) (co_noalso o) ->
     s_parse s data path = s_parse (match searchers with [x] => x | _ => combined searchers end) data path)
  /\ (~ (Forall (fun r => r data = true) (co_also o) /\ Forall (fun r => r data = false) (co_noalso o)) ->
     s_parse s data path = Err SkipFileNoResultsError).
Proof.
  intros o ss s data path H. unfold build_searcher in H. destruct ss as [|s0 rest]; [discriminate H|].
  cbv zeta in H. injection H as <-.
  set (s1 := match rest with [] => s0 | _ :: _ => combined (s0 :: rest) end).
  replace (match s0 :: rest with [x] => x | _ => combined (s0 :: rest) end) with s1 by (unfold s1; now destruct rest).
  assert (E : s_parse (if co_force_enable o then
                match co_also o with [] => match co_noalso o with [] => s1 | _ :: _ => also_regexp (co_also o) (co_noalso o) s1 end
                | _ :: _ => also_regexp (co_also o) (co_noalso o) s1 end
              else pragma_suppressed (match co_also o with [] => match co_noalso o with [] => s1 | _ :: _ => also_regexp (co_also o) (co_noalso o) s1 end
                | _ :: _ => also_regexp (co_also o) (co_noalso o) s1 end)) data path
          = s_parse (also_regexp (co_also o) (co_noalso o) s1) data path).
  { destruct (co_force_enable o), (co_also o), (co_noalso o); reflexivity. }
  match goal with |- (_ -> ?l = _) /\ _ => replace l with (s_parse (also_regexp (co_also o) (co_noalso o) s1) data path) end.
  2: { rewrite <- E. destruct (co_force_enable o), (co_also o), (co_noalso o); reflexivity. }
  cbn [also_regexp s_parse].
  assert (D : (Forall (fun r => r data = true) (co_also o) /\ Forall (fun r => r data = false) (co_noalso o)) <->
              negb (forallb (fun r => r data) (co_also o)) || existsb (fun r => r data) (co_noalso o) = false).
  { rewrite orb_false_iff, negb_false_iff, forallb_forall, !Forall_forall.
    split; intros [H1 H2]; split; try assumption.
    - destruct (existsb _ _) eqn:Ex; [|reflexivity]. apply existsb_exists in Ex as (r & Hr & Hr').
      apply H2 in Hr. congruence.
    - intros r Hr. destruct (r data) eqn:Er; [|reflexivity].
      assert (existsb (fun r => r data) (co_noalso o) = true) by (apply existsb_exists; eauto). congruence. }
  split; intros HD.
  - apply D in HD. now rewrite HD.
  - destruct (_ || _); [reflexivity|]. exfalso. apply HD. now apply D.
Qed.
Print Assumptions C49_also_filters.

(** C49: with -l a run prints exactly the names of the files with matches. *)
Theorem C49_list_files : forall parse_ast o searchers ru w display f sty pairs st,
  runner_from_options parse_ast o searchers = Some ru -> co_list_files o = true -> no_clash pairs ->
  rewrite_files w ru display f sty pairs = (st, None) ->
  x_stdout st = flat_map (match_name w ru display f) pairs.
Proof.
  intros parse_ast o ss ru w display f sty pairs st H Hl. unfold runner_from_options in H.
  destruct (build_searcher o ss); [|discriminate]. injection H as <-.
  apply rewrite_names; cbn; now rewrite Hl.
Qed.
Print Assumptions C49_list_files.
(** C49: the search is that of the built searcher, iterated as --iterate says. *)
Theorem C49_iterations : forall parse_ast o searchers ru s data path,
  runner_from_options parse_ast o searchers = Some ru -> build_searcher o searchers = Some s ->
  ru_find ru data path = find_iter parse_ast s data path
    (match co_iterate o with Some n => n | None => if co_fix_mode o then 10 else 0 end).
Proof.
  intros parse_ast o ss ru s data path H H1. unfold runner_from_options in H. rewrite H1 in H.
  injection H as <-. reflexivity.
Qed.
Print Assumptions C49_iterations.
(** FINDING: --no-iterate stores the same None as the absence of --iterate
    (cli.py:842-847), so in --mode=fix it does not disable iteration. *)

Example C49_nonvacuous :
  let o := CliOptions [] [] false None false false false true false default_fmt in
  exists ru, runner_from_options (fun _ _ => Err ParseError) o [ab_searcher] = Some ru
    /\ ru_find ru (TX "aa") (TX "p") <> Ok []
    /\ co_in_place o = false.
Proof. cbn zeta. eexists. split; [reflexivity|]. split; [vm_compute; discriminate|reflexivity]. Qed.
