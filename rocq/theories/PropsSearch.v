(** C13, C32, C34, C35, C42, C45, C46, C47.  Theorems only. *)
From Verif Require Import Py PyFacts Regex Subst Fmt ApplySpec SubstSpec Ast Template Search SearchSpec
  SearchProofs PragmaProofs RewriteProofs RegexProofs TemplateProofs Samples PropsSubst.

(** *** C34 *)

(** One iteration, or a substitution outside the span: passed through. *)
Theorem C34_passed_through : forall parse_ast s parsed initial a b max,
  Forall (fun x => validate x = Ok tt) initial ->
  max <= 1 \/ (exists x, In x initial /\ ~ inside a b x) ->
  fixed_point parse_ast s parsed initial a b max = Ok initial.
Proof. exact fixed_point_same. Qed.
Print Assumptions C34_passed_through.

(** Otherwise: a run of at most [max] rewrites, each of which parses, stopping
    for one of the stated reasons; or an exception raised by a rewrite, a
    search, or a non-ParseError of the parser. *)
Theorem C34_fixed_point_is_a_run : forall parse_ast s parsed initial a b max,
  initial <> [] -> Forall (fun x => validate x = Ok tt) initial ->
  1 < max -> Forall (inside a b) initial ->
  exists rels, Forall2 (is_shifted a) initial rels /\
  match fixed_point parse_ast s parsed initial a b max with
  | Ok out => exists batches t pending,
        run parse_ast s (pf_path parsed) (slice (pf_text parsed) a b) rels batches t pending
        /\ Zlen batches <= max
        /\ stops parse_ast (pf_path parsed) (Z.to_nat max) (length batches) t pending
        /\ fp_result initial batches a b t out
  | Err e => exists batches t pending,
        run parse_ast s (pf_path parsed) (slice (pf_text parsed) a b) rels batches t pending
        /\ Zlen batches < max /\ breaks parse_ast s (pf_path parsed) t pending e
  end.
Proof. exact fixed_point_spec. Qed.
Print Assumptions C34_fixed_point_is_a_run.

(** What is yielded rewrites the span to the final text of the run. *)
Theorem C34_yields_the_step_by_step_text :
  forall parse_ast s path data initial rels a b batches t pending out,
  0 <= a -> a <= b -> b <= tlen data ->
  Forall (fun x => validate x = Ok tt) initial -> Forall nonneg_spans initial ->
  Forall (inside a b) initial -> Forall2 (is_shifted a) initial rels ->
  (exists x, initial = [x]) \/ (forall x, In x initial -> edits_of x <> []) ->
  run parse_ast s path (slice data a b) rels batches t pending ->
  batches <> [] -> fp_result initial batches a b t out ->
  apply_substitutions data out = Ok (slice_to data a ++ t ++ slice_from data b).
Proof. exact fixed_point_rewrites. Qed.
Print Assumptions C34_yields_the_step_by_step_text.

(** [find_iter] treats maximal runs of results with the same key span; with
    one iteration it yields the searcher's results as they are. *)
Theorem C34_find_iter_groups : forall parse_ast s data path max out,
  find_iter parse_ast s data path max = Ok out <->
  exists parsed subs outs,
    s_check s path = Ok tt /\ s_parse s data path = Ok parsed /\ s_find s parsed = Ok subs
    /\ Forall2 (fun g o => process_group parse_ast s parsed max g = Ok o) (group_by_key subs) outs
    /\ out = concat outs.
Proof. exact find_iter_ok. Qed.
Print Assumptions C34_find_iter_groups.
Theorem C34_groups_are_maximal_runs : forall l, grouped l (group_by_key l).
Proof. exact group_by_key_spec. Qed.
Print Assumptions C34_groups_are_maximal_runs.
Theorem C34_one_iteration_is_plain_search : forall parse_ast s data path max,
  max <= 1 ->
  find_iter parse_ast s data path max
  = (do _ <- s_check s path; do parsed <- s_parse s data path; s_find s parsed).
Proof. exact find_iter_one. Qed.
Print Assumptions C34_one_iteration_is_plain_search.

(** A searcher that turns the first 'a' into 'b', keyed to the whole text. *)
Fixpoint index_a (t : text) (k : Z) : option Z :=
  match t with [] => None | c :: r => if c =? 97 then Some k else index_a r (k + 1) end.
Definition ab_searcher : searcher :=
  Searcher default_parse
    (fun p => Ok (match index_a (pf_text p) 0 with
                  | Some i => [Sub [(TX "r", (i, i + 1))] (TX "r") (Some [(TX "r", TX "b")])
                                   (Some (TX "no a")) None true None (Some (0, tlen (pf_text p)))]
                  | None => [] end))
    default_check None.
Definition ab_sub (i : Z) : substitution :=
  Sub [(TX "r", (i, i + 1))] (TX "r") (Some [(TX "r", TX "b")]) (Some (TX "no a")) None true None (Some (0, 4)).

Example C34_nonvacuous :
  (* two steps merged into one *)
  rewrite_string default_parse ab_searcher (TX "xaay") [] 5 = Ok (TX "xbby")
  /\ (exists m, find_iter default_parse ab_searcher (TX "xaay") [] 5 = Ok [m]
        /\ replacements m = Some [(TX "fixedpoint", TX "xbby")] /\ message m = Some (TX "no a"))
  (* the bound is respected *)
  /\ rewrite_string default_parse ab_searcher (TX "xaaaay") [] 2 = Ok (TX "xbbaay")
  /\ Forall (inside 0 4) [ab_sub 1] /\ Forall (fun x => validate x = Ok tt) [ab_sub 1].
Proof.
  split; [vm_compute; reflexivity|]. split; [eexists; split; [vm_compute; reflexivity|split; reflexivity]|].
  split; [vm_compute; reflexivity|]. split.
  - constructor; [|constructor]. intros l sp [E|[]]. injection E as <- <-. cbn. lia.
  - repeat constructor.
Qed.

(** *** C35 *)
Theorem C35_merged_metadata : forall subs a b t m,
  subs <> [] -> compile_substitutions subs a b t = Ok m ->
  significant m = existsb significant subs
  /\ category m = Some (if existsb significant subs then TX "refex.merged.significant"
                        else TX "refex.merged.not-significant")
  /\ (all_equal (map url (counted subs)) ->
        (forall x, In x (counted subs) -> url m = url x)
        /\ (messages_of (counted subs) = [] -> message m = None)
        /\ (forall x, In x (messages_of (counted subs)) -> all_equal (messages_of (counted subs)) ->
              message m = Some x)
        /\ (~ all_equal (messages_of (counted subs)) ->
              message m = Some (findings (messages_of (counted subs)))))
  /\ (~ all_equal (map url (counted subs)) ->
        url m = Some (TX "https://refex.readthedocs.io/en/latest/guide/fixers/merged.html")
        /\ message m = Some (findings (map entry (counted subs)))).
Proof. exact compile_meta. Qed.
Print Assumptions C35_merged_metadata.

Theorem C35_merging_never_fails : forall subs a b contents,
  exists m, compile_substitutions subs a b contents = Ok m
   /\ matched_spans m = [(TX "fixedpoint", (a, b))] /\ primary_label m = TX "fixedpoint"
   /\ replacements m = Some [(TX "fixedpoint", contents)] /\ key_span m = None.
Proof. exact compile_eq. Qed.
Print Assumptions C35_merging_never_fails.

Definition meta_sub (msg u : option text) (sig : bool) : substitution :=
  Sub [(TX "r", (0, 1))] (TX "r") None msg u sig None None.
Example C35_nonvacuous :
  let s1 := meta_sub (Some (TX "m")) (Some (TX "u")) true in
  let s2 := meta_sub (Some (TX "z")) (Some (TX "v")) false in
  let s3 := meta_sub None (Some (TX "w")) true in
  (exists m, compile_substitutions [s1; s2] 0 1 [] = Ok m /\ url m = Some (TX "u") /\ message m = Some (TX "m"))
  /\ (exists m, compile_substitutions [s1; s3] 0 1 [] = Ok m /\ message m =
        Some (TX "There are a few findings here:" ++ [NL; NL] ++ TX "m" ++ [NL] ++ TX "(u)" ++ [NL; NL]
              ++ TX "(no message)" ++ [NL] ++ TX "(w)")).
Proof. cbn zeta. split; eexists; repeat split; vm_compute; reflexivity. Qed.

(** *** C46 *)
Theorem C46_rewrite_string : forall parse_ast s source path n out,
  well_behaved s -> rewrite_string parse_ast s source path n = Ok out ->
  exists subs es, find_iter parse_ast s source path n = Ok subs
    /\ Permutation es (flat_map edits_of subs) /\ Edited source 0 es out.
Proof. exact rewrite_string_spec. Qed.
Print Assumptions C46_rewrite_string.
Theorem C46_nothing_found : forall parse_ast s source path n parsed,
  s_check s path = Ok tt -> s_parse s source path = Ok parsed -> s_find s parsed = Ok [] ->
  rewrite_string parse_ast s source path n = Ok source.
Proof. exact rewrite_string_none. Qed.
Print Assumptions C46_nothing_found.

Lemma index_a_nonneg t k i : index_a t k = Some i -> k <= i.
Proof.
  revert k; induction t as [|c t IH]; intros k H; cbn in H; [discriminate|].
  destruct (c =? 97); [injection H as <-; lia|]. apply IH in H. lia.
Qed.
Example C46_nonvacuous : well_behaved ab_searcher
  /\ rewrite_string default_parse ab_searcher (TX "xaay") [] 1 = Ok (TX "xbay").
Proof.
  split; [|vm_compute; reflexivity]. intros p subs H. cbn in H. injection H as <-.
  destruct (index_a (pf_text p) 0) as [i|] eqn:E; [|repeat constructor].
  apply index_a_nonneg in E. split; [|split].
  - constructor; [|constructor]. split; [|split; [|reflexivity]].
    + repeat constructor. tauto.
    + intros r Er. injection Er as <-. repeat constructor. tauto.
  - repeat constructor. exact E.
  - constructor; [|constructor]. intros a b Hk. injection Hk as <- <-. lia.
Qed.

(** *** C13 *)
Theorem C13_disabled_ranges_exact : forall ps k r,
  (exists rs, In (k, rs) (pragma_excluded_ranges ps) /\ In r rs)
  <-> exists c, k = Some c /\ disabled_range ps c r.
Proof. exact excluded_ranges_spec. Qed.
Print Assumptions C13_disabled_ranges_exact.

Theorem C13_suppressed_exactly : forall s parsed subs,
  s_find s parsed = Ok subs ->
  Forall (fun x => dict_ok (matched_spans x) /\ validate x = Ok tt) subs ->
  exists keep, s_find (pragma_suppressed s) parsed = Ok (filter keep subs)
    /\ forall x, In x subs -> (keep x = true <-> ~ pragma_excluded (pf_pragmas parsed) x).
Proof. exact pragma_suppressed_spec. Qed.
Print Assumptions C13_suppressed_exactly.
(** Which files are searched, and how they are read, does not depend on pragmas. *)
Theorem C13_same_files : forall s data path,
  s_check (pragma_suppressed s) path = s_check s path /\ s_parse (pragma_suppressed s) data path = s_parse s data path
  /\ s_approx (pragma_suppressed s) = s_approx s.
Proof. intros. repeat split; reflexivity. Qed.
Print Assumptions C13_same_files.

(** A refex pragma for the whole file, enabled again from 50 on; a pylint one. *)
Definition pragmas_sample : list pragma :=
  [Pragma (TX "refex") [(TX "disable", TX "foo, bar")] 0 100;
   Pragma (TX "refex") [(TX "enable", TX "foo")] 50 100;
   Pragma (TX "pylint") [(TX "disable", TX "baz")] 10 20;
   Pragma (TX "other") [(TX "disable", TX "qux")] 0 100].
Example C13_nonvacuous :
  let s := Searcher default_parse
     (fun _ => Ok [in_cat (TX "foo.x") 10 12; in_cat (TX "foo") 60 62; in_cat (TX "bar") 60 62;
                   in_cat (TX "baz") 12 13; in_cat (TX "pylint.baz") 12 13; in_cat (TX "qux") 1 2])
     default_check None in
  pragma_excluded_ranges pragmas_sample
    = [(Some (TX "foo"), [(0, 50)]); (Some (TX "bar"), [(0, 100)]); (Some (TX "pylint.baz"), [(10, 20)])]
  /\ s_find (pragma_suppressed s) (PF [] [] pragmas_sample None)
     = Ok [in_cat (TX "foo") 60 62; in_cat (TX "baz") 12 13; in_cat (TX "qux") 1 2].
Proof. split; vm_compute; reflexivity. Qed.

(** *** C32 *)
Theorem C32_match_to_substitution : forall parsed key dicts out,
  Forall (fun mt : dict pymatch * dict template => dict_ok (fst mt) /\ dict_ok (snd mt)) dicts ->
  rewriting_find parsed key dicts = Ok out -> described parsed key dicts out.
Proof. exact rewriting_find_ok. Qed.
Print Assumptions C32_match_to_substitution.

(** It raises only for one of these reasons (in particular never RewriteError). *)
Theorem C32_when_it_raises : forall parsed key dicts e,
  Forall (fun mt : dict pymatch * dict template => dict_ok (fst mt) /\ dict_ok (snd mt)) dicts ->
  rewriting_find parsed key dicts = Err e ->
  exists ms ts, In (ms, ts) dicts
    /\ ((e <> RewriteError /\ exists l, fills parsed ms ts l (Err e))
        \/ (bad_int ms ts /\ e = AttributeError)
        \/ key ms = Err e
        \/ (e = ValueError /\ exists s, describes parsed key ms ts s /\ ~ good_sub s)).
Proof. exact rewriting_find_err. Qed.
Print Assumptions C32_when_it_raises.

Example C32_nonvacuous :
  let txt := TX "f(x)" in
  let ms := [(TX "__root", span_match txt (0, 4)); (TX "x", span_match txt (2, 3));
             (TX "y", span_match txt (-1, -1))] in
  let ts := [(TX "__root", sh_template (TX "g($x)")); (TX "y", sh_template (TX "nope"));
             (TX "__message", sh_template (TX "call of $x")); (TX "__significant", sh_template (TX "1"))] in
  let bad := [(TX "__root", Template [] (Ok []) (fun _ _ _ => Err RewriteError))] in
  dict_ok ms /\ dict_ok ts
  /\ rewriting_find (PF txt [] [] None) (fun _ => Ok None) [(ms, bad); (ms, ts)]
     = Ok [Sub [(TX "__root", (0, 4)); (TX "x", (2, 3))] (TX "__root") (Some [(TX "__root", TX "g(x)")])
               (Some (TX "call of x")) None true None None].
Proof. cbn zeta. repeat split; try (apply nodupb_ok; reflexivity). Qed.

(** *** C42 *)
Theorem C42_also_regexps : forall parse_ast also also_not s data path n,
  (Forall (fun r => r data = true) also /\ Forall (fun r => r data = false) also_not ->
     find_iter parse_ast (also_regexp also also_not s) data path n = find_iter parse_ast s data path n)
  /\ (~ (Forall (fun r => r data = true) also /\ Forall (fun r => r data = false) also_not) ->
     s_check s path = Ok tt ->
     find_iter parse_ast (also_regexp also also_not s) data path n = Err SkipFileNoResultsError).
Proof. exact also_find_iter. Qed.
Print Assumptions C42_also_regexps.

Theorem C42_combined_results : forall ss parsed lists,
  Forall2 (fun s l => s_find s parsed = Ok l) ss lists ->
  Forall wf_primary (concat lists) ->
  exists out dropped,
    s_find (combined ss) parsed = Ok out
    /\ Permutation (concat lists) (out ++ dropped)
    /\ ForallOrdPairs before out
    /\ (forall d, In d dropped -> exists rest t, Permutation (concat lists) (d :: rest) /\ In t rest
          /\ collide d t /\ not_larger t d)
    /\ (concat lists <> [] -> out <> []).
Proof. exact combined_find. Qed.
Print Assumptions C42_combined_results.

Theorem C42_combined_included : forall ss path,
  (s_check (combined ss) path = Ok tt <-> Forall (fun s => s_check s path = Ok tt) ss)
  /\ (forall e, s_check (combined ss) path = Err e <->
        exists pre s post, ss = pre ++ s :: post
          /\ Forall (fun s => s_check s path = Ok tt) pre /\ s_check s path = Err e).
Proof. exact combined_check. Qed.
Print Assumptions C42_combined_included.

Theorem C42_combined_approximate_regex : forall ss,
  (s_approx (combined ss) = None <-> exists s, In s ss /\ s_approx s = None)
  /\ (forall rs, map s_approx ss = map Some rs ->
        s_approx (combined ss) = Some (join (TX "|") (map (fun r => TX "(?:" ++ r ++ TX ")") rs))).
Proof. exact combined_approx. Qed.
Print Assumptions C42_combined_approximate_regex.

(** The combined parse is the result of one of the parts, a Python one if there is one. *)
Theorem C42_combined_parse : forall ss data path p,
  ss <> [] -> s_parse (combined ss) data path = Ok p ->
  exists ps, Forall2 (fun s q => s_parse s data path = Ok q) ss ps
    /\ In p ps /\ (is_python p <-> exists q, In q ps /\ is_python q).
Proof.
  intros ss data path p Hne H. cbn [s_parse combined] in H.
  destruct (combined_parse ss data path None) as [r|] eqn:E; cbn [bind] in H; [|discriminate].
  destruct (combined_parse_spec ss data path None r E) as (ps & H2 & HN & _).
  destruct (HN eq_refl Hne) as (p' & -> & H3). injection H as <-. exists ps. auto.
Qed.
Print Assumptions C42_combined_parse.
(** All that read the file in the same way have seen the same text and pragmas. *)
Theorem C42_combined_parse_agrees : forall ss data path p s q,
  s_parse (combined ss) data path = Ok p -> In s ss -> s_parse s data path = Ok q -> (is_python q <-> is_python p) ->
  pf_text q = pf_text p /\ pf_path q = pf_path p /\ pf_pragmas q = pf_pragmas p.
Proof.
  intros ss data path p s q H Hs Hq K. cbn [s_parse combined] in H.
  destruct (combined_parse ss data path None) as [r|] eqn:E; cbn [bind] in H; [|discriminate].
  destruct (combined_parse_agrees ss data path None r E) as [A _].
  destruct r as [p'|]; injection H as <-; [eapply A; eauto|]. exfalso. destruct (combined_parse_spec ss data path None None E) as (ps & _ & N & _).
  destruct (N eq_refl) as (x & Hx & _); [intros ->; destruct Hs|discriminate Hx].
Qed.
Print Assumptions C42_combined_parse_agrees.
Theorem C42_combined_parse_succeeds : forall ss data path ps,
  Forall2 (fun s p => s_parse s data path = Ok p) ss ps ->
  (forall p q, In p ps -> In q ps -> (is_python p <-> is_python q) -> p = q) ->
  exists p, s_parse (combined ss) data path = Ok p.
Proof.
  intros ss data path ps H HE. destruct (combined_parse_ok ss data path ps None H) as (r & E).
  - exact HE.
  - cbn [s_parse combined]. rewrite E. cbn [bind]. eauto.
Qed.
Print Assumptions C42_combined_parse_succeeds.

Theorem C42_file_filter : forall include s path,
  (s_check (file_regex_filtered include s) path = Ok tt <-> s_check s path = Ok tt /\ include path = true)
  /\ (s_check s path = Ok tt -> include path = false ->
        s_check (file_regex_filtered include s) path = Err SkipFileError)
  /\ (forall e, s_check s path = Err e -> s_check (file_regex_filtered include s) path = Err e).
Proof. exact file_filter_check. Qed.
Print Assumptions C42_file_filter.

Example C42_nonvacuous :
  let s1 := Searcher default_parse (fun _ => Ok [in_cat (TX "a") 5 9; in_cat (TX "b") 0 2]) default_check (Some (TX "x")) in
  let s2 := Searcher default_parse (fun _ => Ok [in_cat (TX "c") 6 7]) default_check (Some (TX "y")) in
  s_find (combined [s1; s2]) (PF [] [] [] None) = Ok [in_cat (TX "b") 0 2; in_cat (TX "c") 6 7]
  /\ s_approx (combined [s1; s2]) = Some (TX "(?:x)|(?:y)")
  /\ Forall wf_primary [in_cat (TX "a") 5 9; in_cat (TX "b") 0 2; in_cat (TX "c") 6 7].
Proof.
  cbn zeta. split; [vm_compute; reflexivity|]. split; [vm_compute; reflexivity|].
  repeat (constructor; [split; [repeat constructor; tauto|do 2 eexists; split; [left; reflexivity|lia]]|]).
  constructor.
Qed.

(** *** C45 *)
Theorem C45_constructor_checks_groups : forall r ts,
  0 <= r_groups r ->
  Forall (fun kt : label * template => exists vs, t_variables (snd kt) = Ok vs) ts ->
  ((forall l, mentions ts l -> group_label r l) -> exists s, regex_searcher r ts = Ok s)
  /\ (~ (forall l, mentions ts l -> group_label r l) -> regex_searcher r ts = Err ValueError).
Proof. exact regex_check_spec. Qed.
Print Assumptions C45_constructor_checks_groups.

(** Full statement (every accepted template can be filled in on every match) is
    false: group 0 is accepted but not available when rewriting. *)
Definition word_regex : regex :=
  Regex 1 [(TX "n", 1)] (TX "a(?P<n>b)?") (fun _ => [[(0, 2); (1, 2)]; [(3, 4); (-1, -1)]]).
Theorem C45_accepted_templates_fill_refuted : exists r ts s parsed,
  valid_regex r /\ dict_ok ts /\ Forall (valid_regs r) (r_finditer r (pf_text parsed))
  /\ Forall (fun kt : label * template => std_template (snd kt) /\ exists vs, t_variables (snd kt) = Ok vs) ts
  /\ regex_searcher r ts = Ok s /\ s_find s parsed = Err KeyError.
Proof.
  exists word_regex, [(TX "__root", regex_template (TX "x\g<0>") [ReLit (TX "x"); ReGroup (int_label 0)])].
  eexists. exists (PF (TX "ab a") [] [] None).
  split; [split; [cbn; lia|split; [apply nodupb_ok; reflexivity|]]|].
  { intros n i [E|[]]. injection E as <- <-. cbn. repeat split; lia. }
  split; [apply nodupb_ok; reflexivity|].
  split; [repeat constructor; discriminate|].
  split; [constructor; [split; [constructor|eexists; reflexivity]|constructor]|].
  split; [cbn; reflexivity|]. vm_compute. reflexivity.
Qed.
Print Assumptions C45_accepted_templates_fill_refuted.

(** What holds: if the templates do not use group number 0, searching never
    fails, and each match gives a substitution whose spans are those of the
    groups that took part in the match and whose replaced labels are the
    template labels among these: an unmatched group is never a destination. *)
Theorem C45_accepted_templates_fill_partial : forall r ts s parsed,
  valid_regex r -> dict_ok ts ->
  Forall (fun kt : label * template => std_template (snd kt) /\ exists vs, t_variables (snd kt) = Ok vs) ts ->
  ~ uses_group_zero ts ->
  regex_searcher r ts = Ok s ->
  Forall (valid_regs r) (r_finditer r (pf_text parsed)) ->
  exists subs, s_find s parsed = Ok subs
    /\ Forall2 (fun regs sub =>
         (forall l sp, In (l, sp) (matched_spans sub) <-> group_span r regs l sp /\ sp <> (-1, -1))
         /\ exists reps, replacements sub = Some reps
              /\ forall l, In l (dkeys reps) <->
                    In l (dkeys ts) /\ exists sp, group_span r regs l sp /\ sp <> (-1, -1))
       (r_finditer r (pf_text parsed)) subs.
Proof. exact regex_find_spec. Qed.
Print Assumptions C45_accepted_templates_fill_partial.

(** An unmatched group reads as the empty string. *)
Theorem C45_unmatched_group_is_empty : forall txt, m_string (span_match txt (-1, -1)) = Some [].
Proof. intro txt. cbn. now rewrite slice_empty. Qed.
Print Assumptions C45_unmatched_group_is_empty.

Example C45_nonvacuous :
  let ts := [(TX "__root", regex_template (TX "<\g<n>>") [ReLit (TX "<"); ReGroup (TX "n"); ReLit (TX ">")]);
             (TX "n", literal_template (TX "c"))] in
  valid_regex word_regex /\ ~ uses_group_zero ts
  /\ exists s, regex_searcher word_regex ts = Ok s
     /\ s_find s (PF (TX "ab a") [] [] None)
        = Ok [Sub [(TX "__root", (0, 2)); (int_label 1, (1, 2)); (TX "n", (1, 2))] (TX "__root")
                  (Some [(TX "__root", TX "<b>"); (TX "n", TX "c")]) None None false None None;
              Sub [(TX "__root", (3, 4))] (TX "__root") (Some [(TX "__root", TX "<>")]) None None false None None].
Proof.
  cbn zeta. split; [split; [cbn; lia|split; [apply nodupb_ok; reflexivity|]]|].
  { intros n i [E|[]]. injection E as <- <-. cbn. repeat split; lia. }
  split.
  - intros (k & t & [E|[E|[]]] & H); injection E as <- <-; destruct H as [H|(vs & Hv & H)]; try discriminate;
      injection Hv as <-; cbn in H; destruct H as [H|[]] || destruct H; discriminate.
  - eexists. split; [cbn; reflexivity|]. vm_compute. reflexivity.
Qed.

(** *** C47 *)
Theorem C47_sh_template_expansion : forall src parsed m ms out, dict_ok ms ->
  (t_substitute (sh_template src) parsed m ms = Ok out <-> expands (text_of ms) src out).
Proof. exact sh_template_spec. Qed.
Print Assumptions C47_sh_template_expansion.

(** All declared variables bound: the template can be filled in. *)
Theorem C47_declared_variables_suffice : forall src vs ms parsed m, dict_ok ms ->
  t_variables (sh_template src) = Ok vs -> (forall v, In v vs -> text_of ms v <> None) ->
  exists out, t_substitute (sh_template src) parsed m ms = Ok out.
Proof.
  intros src vs ms parsed m Hd Hv H. eapply std_fill; [constructor|exact Hv|]. intros v Hin.
  specialize (H v Hin). rewrite (stringify_dget ms v Hd). unfold text_of in H.
  destruct (dget ms v) as [x|]; [|congruence]. destruct (m_string x); [eauto|congruence].
Qed.
Print Assumptions C47_declared_variables_suffice.

Example C47_nonvacuous :
  let ms := [(TX "x", PString (TX "1")); (TX "xy", PString (TX "2"))] in
  dict_ok ms
  /\ t_substitute (sh_template (TX "$xy+${x}y-$$x")) (PF [] [] [] None) PMatch ms = Ok (TX "2+1y-$x")
  /\ t_substitute (sh_template (TX "$")) (PF [] [] [] None) PMatch ms = Err ValueError.
Proof. cbn zeta. split; [apply nodupb_ok; reflexivity|]. split; vm_compute; reflexivity. Qed.
