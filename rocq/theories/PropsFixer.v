(** C59: which templates a matcher accepts; C60: fixers.  Theorems only. *)
From Verif Require Import Py PyFacts Subst SubstSpec Ast Template Matcher MatchSpec FindSpec Search SearchSpec Removal OwnSpec
  Fixer FixerSpec FixerProofs SampleTrees.

(** *** C59 *)
(** The labels that are looked at are those that templates are given for, and the
    variables of the templates. *)
Theorem C59_labels : forall ts vars, template_variables ts = Ok vars ->
  forall x, In x vars <-> exists l t, In (l, t) ts /\ (x = l \/ exists vs, t_variables t = Ok vs /\ In x vs).
Proof. exact template_variables_spec. Qed.
Print Assumptions C59_labels.
(** Templates are accepted for a matcher if and only if all of these are variables
    that the matcher can bind, or special; otherwise it is a ValueError. *)
Theorem C59_accepted : forall m ts vars, template_variables ts = Ok vars ->
  ((forall x, In x vars -> In x (ROOT_LABEL :: bind_variables m) \/ startswith (TX "__") x = true) ->
     from_matcher m ts = Ok (MWithReplacements (MBind ROOT_LABEL m None None) ts))
  /\ ((exists x, In x vars /\ ~ In x (ROOT_LABEL :: bind_variables m) /\ startswith (TX "__") x = false) ->
     from_matcher m ts = Err ValueError).
Proof. intros m ts vars. exact (with_replacements_spec (MBind ROOT_LABEL m None None) ts vars). Qed.
Print Assumptions C59_accepted.
(** In particular, for an accepted matcher every label that it binds and every
    label that a template uses are known beforehand (with C19). *)
Example C59_nonvacuous :
  let m := MNode (TX "Call") [(TX "func", m_bind (TX "f") MAnything); (TX "args", m_bind (TX "x") MAnything)] in
  let ts := [(ROOT_LABEL, sh_template (TX "$f($x)")); (MESSAGE_LABEL, sh_template (TX "call of $f"))] in
  template_variables ts = Ok [ROOT_LABEL; TX "f"; TX "x"; MESSAGE_LABEL; TX "f"]
  /\ from_matcher m ts = Ok (MWithReplacements (MBind ROOT_LABEL m None None) ts)
  /\ from_matcher m [(ROOT_LABEL, sh_template (TX "$f($y)"))] = Err ValueError
  /\ from_matcher m [(TX "y", sh_template (TX "$f"))] = Err ValueError.
Proof. repeat split. Qed.

(** *** C60 *)
(** A list of fixers is accepted if and only if all of them are. *)
Theorem C60_accepted : forall parse_ast context pass_template fs,
  (exists s, combining_fixer parse_ast context pass_template fs = Ok s) <-> Forall accepted fs.
Proof. exact combining_accepts. Qed.
Print Assumptions C60_accepted.
(** What is found: the outermost matches, from left to right, of any of the
    fixers; each one is changed by the first fixer that matches, and carries the
    message, URL, category and significance of that fixer.  A match is left out if
    one of the templates raises RewriteError, and no template raises anything in
    what is found. *)
Theorem C60_findings : forall parse_ast context pass_template fs s parsed subs,
  combining_fixer parse_ast context pass_template fs = Ok s -> Forall plain_fixer fs ->
  s_find s parsed = Ok subs ->
  exists info ms hs, pf_py parsed = Some info /\ mapM matcher_with_meta fs = Ok ms
    /\ found (context parsed info) (MAnyOf ms) hs
    /\ made_from
         (fun h => exists f mb ts l, by_fixer pass_template (context parsed info) fs h f mb ts /\ fills parsed mb ts l (Err RewriteError))
         (fun h sub => exists f mb ts, by_fixer pass_template (context parsed info) fs h f mb ts
            /\ describes parsed (key_span_for_dict (py_tree info)) mb ts sub /\ carries f sub
            /\ forall l x, ~ fills parsed mb ts l (Err x))
         hs subs.
Proof. exact combined_filled. Qed.
Print Assumptions C60_findings.
(** Only Python files are looked at. *)
Theorem C60_only_python_files : forall parse_ast context pass_template fs s path,
  combining_fixer parse_ast context pass_template fs = Ok s ->
  ((exists p, path = p ++ TX ".py" \/ path = p ++ TX ".py" ++ [NL]) -> s_check s path = Ok tt)
  /\ (~ (exists p, path = p ++ TX ".py" \/ path = p ++ TX ".py" ++ [NL]) -> s_check s path = Err SkipFileError).
Proof.
  intros parse_ast context pass_template fs s path H. unfold combining_fixer in H. apply MatcherProofs.bind_Ok in H as (ms & _ & H).
  match type of H with (if ?c then _ else _) = _ => destruct c; [|discriminate H] end. injection H as <-.
  cbn [s_check file_regex_filtered python_searcher default_check bind]. rewrite <- py_path_spec. split.
  - intros ->. reflexivity.
  - intros N. destruct (py_path path); [now contradiction N|reflexivity].
Qed.
Print Assumptions C60_only_python_files.

(** The registry of fixers by name. *)
Definition registered (r : registry) (name : label) : option (list fixer) :=
  if text_eqb name star then Some (rg_default r) else dget (rg_extra r) name.
Theorem C60_from_pattern : forall parse_ast context pass_template r name,
  match registered r name with
  | Some fs => fixers_from_pattern parse_ast context pass_template r name = combining_fixer parse_ast context pass_template fs
  | None => fixers_from_pattern parse_ast context pass_template r name = Err ValueError
  end.
Proof.
  intros parse_ast context pass_template r name. unfold registered, fixers_from_pattern.
  destruct (text_eqb name star); [reflexivity|]. now destruct (dget _ _).
Qed.
Print Assumptions C60_from_pattern.
(** A name can be registered once; the others stay as they are. *)
Theorem C60_register : forall r name fs,
  match registered r name with
  | Some _ => register_fixers r name fs = Err ValueError
  | None => exists r', register_fixers r name fs = Ok r'
      /\ forall x, registered r' x = if text_eqb name x then Some fs else registered r x
  end.
Proof.
  intros r name fs. unfold registered, register_fixers. destruct (text_eqb name star) eqn:E; [reflexivity|]. cbn [orb].
  unfold dmem. destruct (dget (rg_extra r) name) eqn:Eg; [reflexivity|].
  eexists. split; [reflexivity|]. intros x. cbn [rg_default rg_extra]. rewrite dget_dset.
  destruct (text_eqb_spec name x) as [<-|N]; [|reflexivity]. now rewrite E.
Qed.
Print Assumptions C60_register.
Theorem C60_register_default : forall r fs x,
  registered (register_default_fixers r fs) x =
  if text_eqb x star then Some (rg_default r ++ fs) else registered r x.
Proof. intros r fs x. unfold registered, register_default_fixers. cbn [rg_default rg_extra]. now destruct (text_eqb x star). Qed.
Print Assumptions C60_register_default.
(** The built-in ones: [*] is all of them, in order. *)
Theorem C60_builtins : forall correctness idiom unittest,
  exists r, register_builtins (Registry [] []) correctness idiom unittest = Ok r
    /\ registered r (TX "*") = Some (correctness ++ idiom ++ unittest)
    /\ registered r (TX "correctness") = Some correctness
    /\ registered r (TX "idiom") = Some idiom
    /\ registered r (TX "unittest") = Some unittest
    /\ forall x, ~ In x [TX "*"; TX "correctness"; TX "idiom"; TX "unittest"] -> registered r x = None.
Proof.
  intros c i u. eexists. split; [reflexivity|]. split; [cbn; now rewrite ?app_assoc|]. do 3 (split; [reflexivity|]).
  intros x Hx. unfold registered.
  match goal with |- context [dget ?d x] => change d with [(TX "correctness", c); (TX "idiom", i); (TX "unittest", u)] end.
  cbn [dget].
  replace (text_eqb x star) with false by (symmetry; apply text_eqb_neq; intros ->; apply Hx; cbn; auto).
  destruct (text_eqb_spec (TX "correctness") x) as [<-|_]; [exfalso; apply Hx; cbn; auto|].
  destruct (text_eqb_spec (TX "idiom") x) as [<-|_]; [exfalso; apply Hx; cbn; auto|].
  destruct (text_eqb_spec (TX "unittest") x) as [<-|_]; [exfalso; apply Hx; cbn; auto 6|]. reflexivity.
Qed.
Print Assumptions C60_builtins.

(** Three fixers on [f(a, b)]: [a] to [z], any name to its double, any call. *)
Definition x_context (p : parsed_file) (i : pyinfo) : env :=
  Env p (py_tree i) (py_tokens i) [] (fun c => 1000 + c) (fun c => 2000 + c) (fun _ _ => []).
Definition x_fixers : list fixer :=
  [Fixer (m_name (TX "a")) (inl (sh_template (TX "z"))) (Some (TX "no a")) (Some (TX "url-a")) (Some (TX "x.a")) true;
   Fixer (m_bind (TX "n") (MNode (TX "Name") [(TX "id", MAnything); (TX "ctx", MAnything)])) (inr [(TX "n", sh_template (TX "$n$n"))]) None None None false;
   Fixer (MNode (TX "Lambda") [(TX "args", m_bind (TX "args") MAnything)]) (inl (sh_template (TX "$args"))) None None None true].
Example C60_nonvacuous : exists s,
  combining_fixer (fun _ _ => Ok s_file) x_context (literal_template (TX "pass")) x_fixers = Ok s
  /\ Forall accepted x_fixers /\ Forall plain_fixer x_fixers
  /\ s_find s s_file = Ok
      [Sub [(TX "n", (0, 1)); (TX "__root", (0, 1))] (TX "__root") (Some [(TX "n", TX "ff")]) None None false None (Some (0, 7));
       Sub [(TX "__root", (2, 3))] (TX "__root") (Some [(TX "__root", TX "z")]) (Some (TX "no a")) (Some (TX "url-a")) true (Some (TX "x.a")) (Some (0, 7));
       Sub [(TX "n", (5, 6)); (TX "__root", (5, 6))] (TX "__root") (Some [(TX "n", TX "bb")]) None None false None (Some (0, 7))]
  /\ s_check s (TX "dir/x.py") = Ok tt /\ s_check s (TX "x.pyc") = Err SkipFileError.
Proof.
  eexists. split; [reflexivity|]. split; [|split; [|split; [vm_compute; reflexivity|split; reflexivity]]].
  - repeat constructor; eexists; (split; [reflexivity|discriminate]).
  - repeat apply Forall_cons; try apply Forall_nil; split; try reflexivity;
      try (intros l Hl X; cbn in Hl, X; decompose [or] Hl; decompose [or] X; subst; try discriminate; tauto);
      try (cbn; repeat split; auto; constructor).
    split; [repeat constructor; intros []|].
    intros l Hl X; cbn in Hl, X; decompose [or] Hl; decompose [or] X; subst; try discriminate; tauto.
Qed.
(** Fixers that are not accepted: a template variable that is not bound; any
    object at all. *)
Example C60_not_accepted :
  combining_fixer (fun _ _ => Ok s_file) x_context (literal_template (TX "pass"))
    [Fixer (m_name (TX "a")) (inl (sh_template (TX "$q"))) None None None true] = Err ValueError
  /\ combining_fixer (fun _ _ => Ok s_file) x_context (literal_template (TX "pass"))
    [Fixer MAnything (inl (sh_template (TX "z"))) None None None true] = Err ValueError.
Proof. split; reflexivity. Qed.
