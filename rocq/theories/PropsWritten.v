(** C86: what a search of Python code finds lies in the file; rewriting makes exactly those edits. *)
From Verif Require Import TemplateProofs Py PyFacts NavProofs Regex Subst ApplySpec Ast Template FromDiff Matcher MatchSpec MatcherProofs FindSpec FindProofs NavSpec PatTok PatSpec Pattern
  PatternSpec EquivProofs PatternProofs PatternApi PyTemplate PyTemplateSpec PyTemplateProofs Search SearchSpec Removal OwnSpec SampleTrees PropsPattern PropsTemplate ExprSubSpec ExprSubProofs PropsExprSub
  Fixer Fmt Codec Runner RunnerSpec Cli CliSpec Main MainSpec PropsRunner PropsMain PropsRemoval PiecesSpec Pieces OneRoundAll WrittenSpec Written.
From Coq Require Import Permutation.

(** C86, finding.  Whatever the matcher, and however often what it proposes is
    searched again: everything that is reported is a place in the text. *)
Theorem C86_found_in_file : forall parse_ast context pass_template m data path n subs,
  dicts_ok m -> engines_ok data m -> written_source parse_ast context data path ->
  find_iter parse_ast (python_searcher parse_ast context pass_template m) data path n = Ok subs ->
  forall s l a b, In s subs -> In (l, (a, b)) (matched_spans s) -> 0 <= a <= b /\ b <= tlen data.
Proof.
  intros parse_ast context pass_template m data path n subs Hm HE HW H s l a b Hs Hl.
  pose proof (find_iter_placed parse_ast data path _ n subs (python_places parse_ast data path context pass_template m Hm HE HW) H) as P.
  rewrite Forall_forall in P. destruct (P s Hs) as (_ & Q & _). specialize (Q _ _ Hl). unfold in_text in Q. cbn [fst snd] in Q. lia.
Qed.
Print Assumptions C86_found_in_file.

(** C86, rewriting.  If it succeeds, then the result is the text with exactly the
    proposed edits, each of them at its place in the text, which do not overlap. *)
Theorem C86_rewritten : forall parse_ast context pass_template m data path n out,
  dicts_ok m -> engines_ok data m -> written_source parse_ast context data path ->
  rewrite_string parse_ast (python_searcher parse_ast context pass_template m) data path n = Ok out ->
  exists subs es, find_iter parse_ast (python_searcher parse_ast context pass_template m) data path n = Ok subs
    /\ Permutation es (flat_map edits_of subs) /\ Edited data 0 es out
    /\ forall r a b, In (r, a, b) es -> 0 <= a <= b /\ b <= tlen data.
Proof.
  intros parse_ast context pass_template m data path n out Hm HE HW H. unfold rewrite_string in H. apply bind_Ok in H as (subs & H1 & H2).
  pose proof (find_iter_placed parse_ast data path _ n subs (python_places parse_ast data path context pass_template m Hm HE HW) H1) as P.
  destruct (placed_edits data subs out P H2) as (es & A & B & C). exists subs, es. repeat (split; [assumption|]).
  intros r a b Hin. specialize (C _ _ _ Hin). unfold in_text in C. cbn [fst snd] in C. lia.
Qed.
Print Assumptions C86_rewritten.

(** *** The whole program *)
Lemma groupless_dicts m : groupless m = true -> no_templates m = true -> dicts_ok m.
Proof.
  induction m using matcher_ind'; cbn [groupless no_templates dicts_ok]; intros HG HT; try exact I; try (now auto); try discriminate HG; try discriminate HT.
  all: try (apply andb_prop in HG as [G1 G2]; destruct (cr_groups _); [|discriminate G1]; split; [constructor|now auto]).
  all: try (destruct (cr_groups _); [constructor|discriminate HG]).
  all: try (apply andb_prop in HG as [G1 G2]; apply andb_prop in HT as [T1 T2]; split; now auto).
  all: match goal with H : Forall _ ?l |- _ => revert HG HT; induction H as [|x l Hx F IH]; cbn [forallb fold_right]; intros HG HT; [exact I|];
         apply andb_prop in HG as [G1 G2]; apply andb_prop in HT as [T1 T2]; split; auto end.
Qed.
Lemma pattern_no_templates subs : (forall n m, dget subs n = Some m -> no_templates m = true) -> forall v, no_templates (ast_pattern subs v) = true.
Proof.
  intros Hs. induction v as [i fs IH|i l IH|i c] using value_ind'.
  - cbn [ast_pattern]. assert (K : no_templates (MNode (n_type i) (map (fun kv => (fst kv, if ignored_field (n_type i) (fst kv) then MAnything else ast_pattern subs (snd kv))) fs)) = true).
    { cbn [no_templates]. apply forallb_forall. intros x Hx. apply in_map_iff in Hx as (kv & <- & Hin). cbn [snd]. destruct (ignored_field _ _); [reflexivity|].
      rewrite Forall_forall in IH. now apply IH. }
    destruct (name_id _) as [n|]; [|exact K]. destruct (dget subs n) as [m|] eqn:E; [now apply (Hs n)|exact K].
  - cbn [ast_pattern no_templates]. apply forallb_forall. intros x Hx. apply in_map_iff in Hx as (v & <- & Hin). rewrite Forall_forall in IH. now apply IH.
  - reflexivity.
Qed.
Lemma pattern_dicts tokenize order ast_parse pull src m : base_ast_pattern tokenize order ast_parse pull src [] = Ok m -> groupless m = true /\ dicts_ok m.
Proof.
  intros H. assert (G : groupless m = true) by (refine (pattern_groupless _ _ _ _ _ _ _ _ H); intros x r [=]). split; [exact G|].
  apply groupless_dicts; [exact G|]. unfold base_ast_pattern, remapped_ast, rewrite_submatchers in H.
  destruct (remap_macro_variables tokenize order src) as [[[s names] anon]|x] eqn:Er; cbn [bind] in H; [|destruct x; discriminate H].
  destruct (forallb _ _); cbn [bind] in H; [|discriminate H].
  destruct (ast_parse s) as [module|x] eqn:Ep; cbn [bind] in H; [|destruct x; discriminate H].
  destruct (verify_variables module names) as [[]|]; cbn [bind] in H; [|discriminate H].
  destruct (pull module) as [p|]; cbn [bind] in H; [|discriminate H]. injection H as <-. unfold rebound. cbn [no_templates].
  apply pattern_no_templates. unfold submatchers.
  assert (A : forall l d, (forall n m, dget d n = Some m -> no_templates m = true) -> forall n m, dget (fold_left (fun d n => dset d n MAnything) l d) n = Some m -> no_templates m = true).
  { induction l as [|x l IH]; intros d Hd; [exact Hd|]. cbn [fold_left]. apply IH. intros n m. rewrite dget_dset. destruct (text_eqb _ _); [now intros [= <-]|apply Hd]. }
  assert (B : forall l d, (forall n m, dget d n = Some m -> no_templates m = true) -> forall n m, dget (fold_left (fun d kv => dset d (snd kv)
      (MBind (fst kv) (or_default (dget ([] : dict matcher) (fst kv)) MAnything) (Some MERGE_EQUIVALENT_AST) None)) l d) n = Some m -> no_templates m = true).
  { induction l as [|x l IH]; intros d Hd; [exact Hd|]. cbn [fold_left]. apply IH. intros n m. rewrite dget_dset. destruct (text_eqb _ _); [|apply Hd].
    intros [= <-]. reflexivity. }
  apply B. apply A. intros n m [=].
Qed.
(** The templates of a pair have different labels. *)
Lemma update_last_all (P : search_replace -> Prop) f l l' : Forall P l -> (forall x y, P x -> f x = Some y -> P y) -> update_last f l = Some l' -> Forall P l'.
Proof.
  intros HP Hf. revert l'. induction HP as [|x l Hx HP IH]; intros l' H; [discriminate H|]. cbn [update_last] in H. destruct l as [|y l].
  - destruct (f x) as [y|] eqn:E; [|discriminate H]. injection H as <-. constructor; [exact (Hf x y Hx E)|constructor].
  - destruct (update_last f (y :: l)) as [r|]; [|discriminate H]. injection H as <-. constructor; [exact Hx|]. now apply IH.
Qed.
Lemma labels_differ os p unknown srs args : parse_options os p unknown = Some (srs, args) -> Forall (fun sr => dict_ok (sr_sub sr)) srs.
Proof.
  assert (A : forall o l l', Forall (fun sr => dict_ok (sr_sub sr)) l -> action o l = Some l' -> Forall (fun sr => dict_ok (sr_sub sr)) l').
  { intros o l l' HF H. destruct o; cbn [action] in H.
    - destruct (last_match l); [injection H as <-; apply Forall_app; split; [exact HF|]; constructor; [constructor|constructor]|].
      refine (update_last_all _ _ _ _ HF _ H). intros x y Hx [= <-]. exact Hx.
    - refine (update_last_all _ _ _ _ HF _ H). intros x y Hx Hy. unfold set_sub in Hy. destruct (sr_sub x); [|discriminate Hy]. injection Hy as <-.
      cbn [sr_sub]. unfold dict_ok. cbn. constructor; [intros []|constructor].
    - refine (update_last_all _ _ _ _ HF _ H). intros x y Hx Hy. unfold add_named in Hy. destruct (dmem _ _); [discriminate Hy|].
      destruct (partition_char _ _) as [[name sep] pattern]. destruct (negb sep); [discriminate Hy|]. destruct (dmem _ _); [discriminate Hy|].
      injection Hy as <-. cbn [sr_sub]. now apply dict_ok_dset. }
  assert (B : forall os l l', Forall (fun sr => dict_ok (sr_sub sr)) l -> actions os l = Some l' -> Forall (fun sr => dict_ok (sr_sub sr)) l').
  { clear os. induction os as [|o os IH]; intros l l' HF H; cbn [actions] in H; [injection H as <-; exact HF|].
    destruct (action o l) as [l1|] eqn:E; [|discriminate H]. exact (IH l1 l' (A _ _ _ HF E) H). }
  intros H. unfold parse_options in H. destruct (actions os no_search_replace) as [srs0|] eqn:E; [|discriminate H].
  apply B in E; [|constructor; [constructor|constructor] ]. destruct (parse_leftovers unknown) as [args0|]; [|discriminate H].
  destruct p as [p|]; [|injection H as <- <-; exact E].
  destruct srs0 as [|[[q|] d] [|sr rest] ]; injection H as <- <-; try exact E. inversion E as [|? ? E1 E2]; subst. constructor; [exact E1|constructor].
Qed.

(** C86, the whole program: [refex -i] in the modes expr, stmt and py (for matchers
    whose regexes report places in what they search), with any templates, options,
    patterns and files.  When a run has completed, each of the files it is about
    is as it was, or its text with exactly the edits that were found, all of them
    at places in the file; no other file has changed. *)
Theorem C86_program : forall re_compile re_template py_matcher_of fixers tokenize order ast_parse parse_env parse_ast context pass_template
    w dirs display f sty c ru files,
  cm_mode c = ModeExpr \/ cm_mode c = ModeStmt
  \/ cm_mode c = ModePy /\ (forall q m, py_matcher_of q = Ok m -> dicts_ok m /\ forall t, engines_ok t m) ->
  co_in_place (cm_options c) = true ->
  (forall p, w_writable w p = true) -> (forall p b, w_device w p b = (b, false)) ->
  (forall p d, dirs p = Some d -> tidy d) ->
  prepare re_compile re_template py_matcher_of fixers tokenize order ast_parse parse_env parse_ast context pass_template dirs c = Ready (ru, files) ->
  NoDup (map fst files) ->
  (forall p t, In p (map fst files) -> file_text w f p t -> written_source parse_ast context t (display p)) ->
  let r := refex re_compile re_template py_matcher_of fixers tokenize order ast_parse parse_env parse_ast context pass_template w dirs display f sty c in
  d_end r = Ready tt ->
  (forall p, In p (map fst files) ->
     d_fs r p = f p
     \/ exists t ms es out b, finds w ru display f p p t ms /\ codec_write out = Some b /\ d_fs r p = Some b
        /\ Permutation es (flat_map edits_of ms) /\ Edited t 0 es out
        /\ forall new i j, In (new, i, j) es -> 0 <= i <= j /\ j <= tlen t)
  /\ (forall q, ~ In q (map fst files) -> d_fs r q = f q).
Proof.
  intros re_compile re_template py_matcher_of fixers tokenize order ast_parse parse_env parse_ast context pass_template
    w dirs display f sty c ru files Hm Hi Hw Hd T HS Hn HW r Hend.
  destruct (C67_completed_run re_compile re_template py_matcher_of fixers tokenize order ast_parse parse_env parse_ast context pass_template
              w dirs display f sty c ru files Hw Hd T HS Hn Hi Hend) as (A & B & _). fold r in A, B.
  split; [|exact B]. intros p Hp. destruct (A p Hp) as [(b & (t & ms & out & (Hft & Hfi & Hms) & Ha & Hb) & E)|[_ E]]; [right|now left].
  destruct (C66_options re_compile re_template py_matcher_of fixers tokenize order ast_parse parse_env parse_ast context pass_template dirs c ru files HS)
    as (srs & args & lang & ss & s & n & Hpo & _ & HF & Hbuild & _ & Hfind & _).
  pose proof Hfi as Hfi0. rewrite Hfind in Hfi. specialize (HW p t Hp Hft). apply labels_differ in Hpo.
  assert (SS : Forall (places_all parse_ast t (display p)) ss).
  { clear -HF Hm HW Hpo. induction HF as [|sr s srs ss (ts & H1 & _ & H) HF IH]; constructor; [|inversion Hpo; auto]. inversion Hpo as [|? ? Dsr _]; subst.
    assert (Dts : dict_ok ts) by (unfold dict_ok, dkeys in *; rewrite H1; exact Dsr). clear Dsr H1 IH.
    apply (C66_modes re_compile py_matcher_of fixers tokenize order ast_parse parse_ast context pass_template) in H as (q & _ & H).
    assert (K : forall m m', from_matcher m ts = Ok m' -> dicts_ok m -> engines_ok t m -> places_all parse_ast t (display p) (python_searcher parse_ast context pass_template m')).
    { intros m m' Hf Dm Em. apply python_places; [| |exact HW]; unfold from_matcher, with_replacements in Hf; apply bind_Ok in Hf as (vars & _ & Hf); destruct (forallb _ _); [|discriminate Hf| |discriminate Hf];
        injection Hf as <-; cbn [dicts_ok engines_ok]; [split; [exact Dts|exact Dm]|exact Em]. }
    assert (K1 : forall pull m, base_ast_pattern tokenize order ast_parse pull q [] = Ok m -> dicts_ok m /\ engines_ok t m).
    { intros pull m Hb. destruct (pattern_dicts _ _ _ _ _ _ Hb) as [G D]. split; [exact D|now apply groupless_ok]. }
    inversion H as [? ? rg s0 R1 R2 R3|? ? m m' Hq Hf R|? ? m m' Hq Hf R|? ? m m' Hq Hf R|? ? fs R1 R2 R3]; subst.
    - exfalso. destruct Hm as [Hm|[Hm|[Hm _]]]; congruence.
    - destruct Hm as [Hm|[Hm|[_ Hm]]]; [congruence|congruence|]. destruct (Hm _ _ Hq) as [D En]. exact (K m m' Hf D (En t)).
    - destruct (K1 _ _ Hq) as [D En]. exact (K m m' Hf D En).
    - destruct (K1 _ _ Hq) as [D En]. exact (K m m' Hf D En).
    - exfalso. destruct Hm as [Hm|[Hm|[Hm _]]]; congruence. }
  pose proof (find_iter_placed parse_ast t (display p) s n ms (places_built parse_ast t (display p) _ ss s SS Hbuild) Hfi) as P.
  destruct (placed_edits t ms out P Ha) as (es & P1 & P2 & P3). exists t, ms, es, out, b.
  split; [repeat split; assumption|]. repeat (split; [assumption|]).
  intros new i j Hin. specialize (P3 _ _ _ Hin). unfold in_text in P3. cbn [fst snd] in P3. lia.
Qed.
Print Assumptions C86_program.

(** *** A concrete case *)
Definition writtenb (e : env) : bool :=
  let ps := map snd (places (vsize (e_tree e)) (e_tree e)) in let n := tlen (pf_text (e_parsed e)) in
  forallb (fun v => match first_token v, last_token v with
                    | Ok f, Ok l => (0 <=? tk_start f) && (tk_start f <=? tk_end l) && (tk_end l <=? n)
                    | _, _ => true end) ps
  && forallb (fun v => match v with
                       | VList _ stmts => forallb (fun xy : value * value => match last_token (fst xy), first_token (snd xy) with
                                                    | Ok l, Ok f => (0 <=? tk_end l) && (tk_end l <=? tk_start f) && (tk_start f <=? n)
                                                    | _, _ => true end) (combine stmts (tl stmts))
                       | _ => true end) ps
  && forallb (fun v => match last_token v with
                       | Ok l => match next_token (e_tokens e) l with
                                 | Ok u => negb (text_eqb (tk_string u) (TX ";")) || (tk_end l <=? tk_end u) && (tk_end u <=? n)
                                 | _ => true end
                       | _ => true end) ps.
Lemma neighbours {A} (l : list A) : forall i x y, nth_error l i = Some x -> nth_error l (S i) = Some y -> In (x, y) (combine l (tl l)).
Proof.
  induction l as [|a l IH]; intros [|i] x y H1 H2; try discriminate H1.
  - injection H1 as ->. destruct l as [|b l]; [discriminate H2|]. injection H2 as ->. now left.
  - destruct l as [|b l]; [discriminate H2|]. cbn [tl combine]. right. exact (IH i x y H1 H2).
Qed.
Lemma writtenb_ok e : unshared (e_tree e) -> writtenb e = true -> written e.
Proof.
  intros U H. unfold writtenb in H. cbv zeta in H. apply andb_prop in H as [H H3]. apply andb_prop in H as [H1 H2]. rewrite forallb_forall in H1, H2, H3.
  assert (In_ps : forall v, PatternSpec.inside (e_tree e) v -> In v (map snd (places (vsize (e_tree e)) (e_tree e)))).
  { intros v (q & Hq). apply in_map_iff. exists (q, v). split; [reflexivity|]. exact (NavProofs.places_all _ _ _ _ (le_n _) Hq). }
  split; [exact U| | |].
  - intros v f l Hv Hf Hl. specialize (H1 v (In_ps v Hv)). rewrite Hf, Hl in H1. unfold in_text. cbn [fst snd]. lia.
  - intros id stmts i v w l f Hv Hi Hj _ Hl Hf. specialize (H2 _ (In_ps _ Hv)). cbn beta iota in H2. rewrite forallb_forall in H2.
    specialize (H2 (v, w) (neighbours stmts i v w Hi Hj)). cbn [fst snd] in H2. rewrite Hl, Hf in H2. lia.
  - intros v l u Hv _ Hl Hu Es. specialize (H3 v (In_ps v Hv)). rewrite Hl, Hu, Es, text_eqb_refl in H3. cbn in H3. lia.
Qed.

(** All expression statements of
<<
if x:
  a
  b
c
>>
    are removed: what is found are the three places, with the space between statements. *)
Definition r_parse (data path : text) : res parsed_file := if text_eqb data r_text then Ok r_file else Err ParseError.
Definition r_matcher : matcher := MWithReplacements (MBind ROOT_LABEL any_stmt None None) [(ROOT_LABEL, literal_template [])].
(** [refex --mode=expr --match='$x*$y' --sub='$y*$x' --sub-mode=sh -i x.py], for the file [k*z] *)
Definition kz_parse_file (data path : text) : res parsed_file := if text_eqb data (TX "k*z") then Ok kz_source else Err ParseError.
Definition kz_command : command :=
  Command ModeExpr (Some SubSh) [OMatch (TX "$x*$y"); OSub (TX "$y*$x")] None [TX "x.py"] (CliOptions [] [] false None false true false true false default_fmt) false None None.
Definition kz_files : fs := fun p => if text_eqb p (TX "x.py") then Some (TX "k*z") else None.
Example C86_nonvacuous :
  (dicts_ok r_matcher /\ engines_ok r_text r_matcher /\ written_source r_parse r_context r_text (TX "x.py")
   /\ match find_iter r_parse (python_searcher r_parse r_context (literal_template (TX "pass")) r_matcher) r_text (TX "x.py") 1 with
      | Ok subs => map matched_spans subs = [[(ROOT_LABEL, (8, 12))]; [(ROOT_LABEL, (12, 13))]; [(ROOT_LABEL, (13, 15))]]
      | Err _ => False end
   /\ rewrite_string r_parse (python_searcher r_parse r_context (literal_template (TX "pass")) r_matcher) r_text (TX "x.py") 1 = Ok (TX "if x:" ++ [NL] ++ TX "  pass"))
  /\ exists ru files,
       prepare (fun _ => None) no_text no_text (Registry [] []) t_tokenize t_id t_parse no_text kz_parse_file kz_context (literal_template (TX "pass")) (fun _ => None) kz_command = Ready (ru, files)
       /\ NoDup (map fst files) /\ In (TX "x.py") (map fst files)
       /\ (forall p t, In p (map fst files) -> file_text good_world kz_files p t -> written_source kz_parse_file kz_context t p)
       /\ let r := refex (fun _ => None) no_text no_text (Registry [] []) t_tokenize t_id t_parse no_text kz_parse_file kz_context (literal_template (TX "pass"))
                     good_world (fun _ => None) (fun p => p) kz_files (rstate_init 0) kz_command in
          d_end r = Ready tt /\ d_fs r (TX "x.py") = Some (TX "z*k").
Proof.
  split.
  - split. { cbn. repeat split. repeat constructor. intros []. }
    split; [apply groupless_ok; vm_compute; reflexivity|]. split.
    { intros parsed H. unfold r_parse in H. rewrite text_eqb_refl in H. injection H as <-. exists (PyInfo r_tokens r_module).
      split; [reflexivity|]. split; [reflexivity|]. split; [reflexivity|]. split; [reflexivity|].
      apply writtenb_ok; [apply unshared_ok|]; vm_compute; reflexivity. }
    split; vm_compute; reflexivity.
  - destruct (prepare (fun _ => None) no_text no_text (Registry [] []) t_tokenize t_id t_parse no_text kz_parse_file kz_context (literal_template (TX "pass")) (fun _ => None) kz_command)
      as [[ru files]| |x] eqn:E.
    2, 3: exfalso; apply (f_equal (fun r => match r with Ready _ => true | _ => false end)) in E; vm_compute in E; discriminate E.
    exists ru, files. split; [reflexivity|].
    assert (Ef : map fst files = [TX "x.py"]).
    { apply (f_equal (fun r => match r with Ready (_, fs) => map fst fs | _ => [] end)) in E. cbv beta iota in E. rewrite <- E. vm_compute. reflexivity. }
    rewrite Ef. split; [constructor; [intros []|constructor]|]. split; [now left|]. split.
    { intros p t _ _ parsed H. unfold kz_parse_file in H. destruct (text_eqb_spec t (TX "k*z")) as [->|_]; [|discriminate H]. injection H as <-. exists (PyInfo [] kz_module).
      split; [reflexivity|]. split; [reflexivity|]. split; [reflexivity|]. split; [reflexivity|].
      apply writtenb_ok; [apply unshared_ok|]; vm_compute; reflexivity. }
    split; vm_compute; reflexivity.
Qed.
