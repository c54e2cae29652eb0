(** C68: rewriting with a regular expression and a regex template does what
    [re.sub] does. *)
From Verif Require Import Py PyFacts Subst Fmt ApplySpec SubstSpec Ast Template FromDiff Matcher Search SearchSpec Removal Fixer
  PatTok Pattern PyTemplate Codec Runner RunnerSpec Cli Main MainSpec ReSubSpec ReSubProofs PropsMain.

(** [re_sub] determines the result. *)
Theorem C68_re_sub_unique : forall r ps txt p ms out out',
  valid_regex r -> re_sub r ps txt p ms out -> re_sub r ps txt p ms out' -> out = out'.
Proof. exact re_sub_fun. Qed.
Print Assumptions C68_re_sub_unique.

(** Rewriting a string, with any number of iterations. *)
Theorem C68_rewrite_string : forall r src ps s parse_ast data path n,
  valid_regex r -> finditer_ok r data -> ~ In (int_label 0) (re_vars ps) ->
  regex_searcher r [(TX "__root", regex_template src ps)] = Ok s ->
  exists out, rewrite_string parse_ast s data path n = Ok out /\ re_sub r ps data 0 (r_finditer r data) out.
Proof.
  intros r src ps s parse_ast data path n Hr Hf Hz Hs.
  destruct (re_sub_find r src ps s parse_ast data path n true Hr Hf Hz Hs) as (subs & out & E & _ & _ & _ & _ & Ea & RS).
  exists out. split; [|exact RS]. unfold rewrite_string. cbn [maybe_suppressed] in E. rewrite E. exact Ea.
Qed.
Print Assumptions C68_rewrite_string.

Section Oracles.
  Variable re_compile : text -> option regex.
  Variable re_template : text -> res (list re_piece).
  Variable py_matcher_of : text -> res matcher.
  Variable fixers : registry.
  Variable tokenize : text -> res (list ptok).
  Variable order : list nat -> list nat.
  Variable ast_parse : text -> res value.
  Variable parse_env : text -> res env.
  Variable parse_ast : text -> text -> res parsed_file.
  Variable context : parsed_file -> pyinfo -> env.
  Variable pass_template : template.
  Notation set_up := (prepare re_compile re_template py_matcher_of fixers tokenize order ast_parse parse_env parse_ast context pass_template).
  Notation run_refex := (refex re_compile re_template py_matcher_of fixers tokenize order ast_parse parse_env parse_ast context pass_template).

  (** The command [refex --mode=re PATTERN --sub=TEMPLATE FILE...]. *)
  Definition sed_like (c : command) (pattern template : text) (args : list text) : Prop :=
    cm_mode c = ModeRe /\ (cm_sub_mode c = None \/ cm_sub_mode c = Some SubRe)
    /\ parse_options (cm_opts c) (cm_positional c) (cm_unknown c) = Some ([SR (Some pattern) [(TX "__root", template)]], args)
    /\ co_also (cm_options c) = [] /\ co_noalso (cm_options c) = [].

  Lemma sed_like_ready dirs c pattern template args r ps :
    sed_like c pattern template args ->
    re_compile pattern = Some r -> re_template template = Ok ps -> valid_regex r ->
    (forall v, In v (re_vars ps) -> group_label r v) ->
    exists ru s n, set_up dirs c = Ready (ru, files_from_options dirs (FileOptions args (cm_recursive c) (cm_includefile c) (cm_excludefile c)))
      /\ regex_searcher r [(TX "__root", regex_template template ps)] = Ok s
      /\ ru_dry_run ru = negb (co_in_place (cm_options c))
      /\ forall t name, ru_find ru t name = find_iter parse_ast (maybe_suppressed (co_force_enable (cm_options c)) s) t name n.
  Proof.
    intros (Hm & Hs & Hp & Ha & Hna) Hr Ht Hv Hl.
    assert (E : exists s, regex_searcher r [(TX "__root", regex_template template ps)] = Ok s).
    { destruct (RegexProofs.regex_check_spec r [(TX "__root", regex_template template ps)]) as [H _].
      - apply Hv.
      - constructor; [|constructor]. exists (re_vars ps). reflexivity.
      - apply H. intros l (k & t & [E|[]] & HH). injection E as <- <-. destruct HH as [->|(vs & E & Hin)]; [now left|].
        cbn in E. injection E as <-. auto. }
    destruct E as (s & E). unfold prepare. rewrite Hp, Hm.
    assert (Hlang : get_sub_parser ModeRe (cm_sub_mode c) = SubRe) by (destruct Hs as [-> | ->]; reflexivity).
    rewrite Hlang. unfold make_searchers, parse_templates. cbn [sr_sub mapM fst snd make_template_of sr_match make_searcher].
    unfold default_compile_regex. rewrite Ht, Hr. cbn [bind].
    match goal with |- context [match regex_searcher ?a ?b with Ok _ => _ | Err _ => _ end] =>
      replace (regex_searcher a b) with (Ok s) by (symmetry; exact E) end.
    unfold runner_from_options, build_searcher. cbn [options_of co_also co_noalso co_force_enable]. rewrite Ha, Hna.
    eexists. exists s. eexists. split; [reflexivity|]. split; [exact E|]. split; [reflexivity|]. intros. reflexivity.
  Qed.

  Lemma stands_for_perm dirs rec args ls : forall ls',
    Forall2 (stands_for dirs rec) args ls -> Forall2 (stands_for dirs rec) args ls' -> Permutation (concat ls) (concat ls').
  Proof.
    intros ls' HF. revert ls'. induction HF as [|p l args ls H HF IH]; intros ls' HF'; inversion HF' as [|? l' ? ? H' HF2]; subst; [constructor|].
    cbn [concat]. apply Permutation_app; [|now apply IH]. unfold stands_for in *.
    destruct (dirs p) as [d|]; [|subst; reflexivity]. destruct rec; [|subst; reflexivity].
    destruct H as [N1 M1], H' as [N2 M2]. apply NoDup_Permutation; [assumption|assumption|]. intros q. now rewrite M1, M2.
  Qed.

  (** The whole program, with -i: it runs to the end, and each file whose text is
      matched somewhere then holds the result of [re.sub]; all others are as they
      were. *)
  Theorem C68_in_place : forall w dirs display f sty c pattern template args r ps,
    sed_like c pattern template args -> co_in_place (cm_options c) = true ->
    re_compile pattern = Some r -> re_template template = Ok ps ->
    valid_regex r -> (forall t, finditer_ok r t) ->
    (forall v, In v (re_vars ps) -> group_label r v /\ v <> int_label 0) ->
    (forall p, w_writable w p = true) -> (forall p b, w_device w p b = (b, false)) ->
    (forall p d, dirs p = Some d -> tidy d) ->
    forall ls, Forall2 (stands_for dirs (cm_recursive c)) args ls -> NoDup (concat ls) ->
    (forall p t out, In p (concat ls) -> file_text w f p t -> re_sub r ps t 0 (r_finditer r t) out ->
       exists b, codec_write out = Some b) ->
    let res := run_refex w dirs display f sty c in
    d_end res = Ready tt /\ d_reported res = None
    /\ (forall p t, In p (concat ls) -> file_text w f p t -> r_finditer r t <> [] ->
          exists out b, re_sub r ps t 0 (r_finditer r t) out /\ codec_write out = Some b /\ d_fs res p = Some b)
    /\ (forall p t, In p (concat ls) -> file_text w f p t -> r_finditer r t = [] -> d_fs res p = f p)
    /\ (forall p, (forall t, ~ file_text w f p t) -> d_fs res p = f p)
    /\ (forall p, ~ In p (concat ls) -> d_fs res p = f p).
  Proof.
    intros w dirs display f sty c pattern template args r ps Hc Hi Hr Ht Hv Hf Hl Hw Hd T ls HF Hn Henc res.
    assert (Hz : ~ In (int_label 0) (re_vars ps)) by (intro C; apply Hl in C; now destruct C).
    destruct (sed_like_ready dirs c pattern template args r ps Hc Hr Ht Hv (fun v H => proj1 (Hl v H)))
      as (ru & s & n & HS & Es & Hdry & Hfind).
    destruct (C65_files_partial dirs args (cm_recursive c) (cm_includefile c) (cm_excludefile c) T) as (ls' & HF' & Efiles).
    assert (HP : Permutation (concat ls) (concat ls')) by (eapply stands_for_perm; eassumption).
    assert (HI : forall p, In p (concat ls) <-> In p (concat ls'))
      by (intros p; split; apply Permutation_in; [|symmetry]; exact HP).
    apply (Permutation_NoDup HP) in Hn.
    assert (Henc' : forall p t out, In p (concat ls') -> file_text w f p t -> re_sub r ps t 0 (r_finditer r t) out ->
       exists b, codec_write out = Some b) by (intros p t out Hp; apply Henc; now apply HI).
    clear Henc. rename Henc' into Henc. setoid_rewrite HI. clear HF HI HP. clear ls. rename ls' into ls.
    rewrite Efiles in HS.
    assert (Emap : map fst (map (fun q : path => (q, q)) (concat ls)) = concat ls) by (rewrite map_map; apply map_id).
    assert (HX : forall t name, exists subs out, ru_find ru t name = Ok subs
        /\ Forall (fun s => dict_ok (matched_spans s) /\ matched_spans s <> [] /\ well_oriented s) subs
        /\ (subs = [] <-> r_finditer r t = [])
        /\ apply_substitutions t subs = Ok out /\ re_sub r ps t 0 (r_finditer r t) out).
    { intros t name. destruct (re_sub_find r template ps s parse_ast t name n (co_force_enable (cm_options c)) Hv (Hf t) Hz Es)
        as (subs & out & E & W & _ & O & NE & A & RS). exists subs, out. rewrite Hfind.
      split; [exact E|]. split; [|auto]. clear -W O. induction W; inversion O; subst; constructor; [|auto].
      split; [apply H|assumption]. }
    assert (Hend : d_end res = Ready tt).
    { eapply C67_completes; [exact T|exact HS|rewrite Emap; exact Hn|]. rewrite Emap. intros p t ms Hp (Hft & Hfi & Hms).
      destruct (HX t (display p)) as (subs & out & E & P & NE & A & RS). rewrite E in Hfi. injection Hfi as <-.
      split; [exact P|]. intros _. destruct (Henc p t out Hp Hft RS) as (b & Eb). exists out, b. auto. }
    destruct (C67_completed_run re_compile re_template py_matcher_of fixers tokenize order ast_parse parse_env parse_ast context pass_template
                w dirs display f sty c ru _ Hw Hd T HS ltac:(rewrite Emap; exact Hn) Hi Hend) as (A & B & C).
    fold res in A, B, C. rewrite Emap in A, B, C.
    assert (A1 : forall p t, In p (concat ls) -> file_text w f p t -> r_finditer r t <> [] ->
          exists out b, re_sub r ps t 0 (r_finditer r t) out /\ codec_write out = Some b /\ d_fs res p = Some b).
    { intros p t Hp Hft Hm. destruct (HX t (display p)) as (subs & out & E & P & NE & Ap & RS).
      assert (FD : finds w ru display f p p t subs) by (split; [exact Hft|]; split; [exact E|]; intros ->; apply Hm; now apply NE).
      destruct (A p Hp) as [(b & (t' & ms & out' & (Hft' & E' & _) & Ap' & Ew) & Eb)|[Hno _]]; [|exfalso; eapply Hno; exact FD].
      assert (t' = t) as ->.
      { destruct Hft as (b1 & X1 & _ & X2), Hft' as (b2 & X3 & _ & X4). congruence. }
      rewrite E in E'. injection E' as <-. rewrite Ap in Ap'. injection Ap' as <-. exists out, b. auto. }
    assert (A2 : forall p, In p (concat ls) -> (forall t, file_text w f p t -> r_finditer r t = []) -> d_fs res p = f p).
    { intros p Hp Hno. destruct (A p Hp) as [(b & (t & ms & out & (Hft & E' & Hms) & _) & _)|[_ E]]; [|exact E].
      exfalso. destruct (HX t (display p)) as (subs & out' & E & P & NE & _). rewrite E in E'. injection E' as <-.
      apply Hms. apply NE. apply Hno. exact Hft. }
    split; [exact Hend|]. split.
    { destruct (d_reported res) as [[k log]|]; [|reflexivity]. exfalso. destruct C as (Ck & Cp & _ & C).
      destruct log as [|[p t] log]; [cbn in Ck; lia|]. destruct (proj1 (C p t) (or_introl eq_refl)) as (_ & Hft & e & E & _).
      destruct (HX t (display p)) as (subs & out & E' & _). congruence. }
    split; [exact A1|]. split; [|split].
    - intros p t Hp Hft Hm. apply A2; [exact Hp|]. intros t' Hft'.
      assert (t' = t) as -> by (destruct Hft as (b1 & X1 & _ & X2), Hft' as (b2 & X3 & _ & X4); congruence). exact Hm.
    - intros p Hno. destruct (in_dec (list_eq_dec Z.eq_dec) p (concat ls)) as [Hp|Hp]; [|now apply B].
      apply A2; [exact Hp|]. intros t Hft. exfalso. now apply (Hno t).
    - exact B.
  Qed.
End Oracles.
Print Assumptions C68_in_place.

(** Words and word boundaries, [\b|(\w+)] on "ab": an empty match right before a
    longer one, and a group that does not always take part. *)
Definition words_regex : regex :=
  Regex 1 [] (TX "\b|(\w+)")
    (fun t => if text_eqb t (TX "ab") then [[(0, 0); (-1, -1)]; [(0, 2); (0, 2)]; [(2, 2); (-1, -1)]] else []).
Definition words_template : list re_piece := [ReLit (TX "<"); ReGroup (int_label 1); ReLit (TX ">")].
Definition words_command : command :=
  Command ModeRe None [OMatch (TX "\b|(\w+)"); OSub (TX "<\1>")] None [TX "src"]
    (CliOptions [] [] false None false true false true false default_fmt) true None None.
Definition words_sources : fs := fun p =>
  if text_eqb p (TX "src/a.py") then Some (TX "ab") else if text_eqb p (TX "src/z.py") then Some (TX "..") else None.
Definition run_words : done :=
  refex (fun p => if text_eqb p (TX "\b|(\w+)") then Some words_regex else None)
    (fun s => if text_eqb s (TX "<\1>") then Ok words_template else Err ValueError)
    no_text (Registry [] []) no_text (fun l => l) no_text no_text (fun _ _ => Err ParseError)
    (fun pf _ => Env pf VNone [] [] (fun c => c) (fun c => c) (fun _ _ => []))
    (sh_template []) PropsRunner.good_world sample_dirs (fun p => p) words_sources (rstate_init 0) words_command.
Example C68_nonvacuous :
  valid_regex words_regex /\ (forall t, finditer_ok words_regex t)
  /\ (forall v, In v (re_vars words_template) -> group_label words_regex v /\ v <> int_label 0)
  /\ sed_like words_command (TX "\b|(\w+)") (TX "<\1>") [TX "src"]
  /\ re_sub words_regex words_template (TX "ab") 0 (r_finditer words_regex (TX "ab")) (TX "<><ab><>")
  /\ d_fs run_words (TX "src/a.py") = Some (TX "<><ab><>")
  /\ d_fs run_words (TX "src/z.py") = Some (TX "..").
Proof.
  split; [|split; [|split; [|split; [|split]]]].
  - split; [cbn; lia|]. split; [constructor|]. intros n i [].
  - intros t. unfold finditer_ok. cbn [r_finditer words_regex]. destruct (text_eqb t (TX "ab")); [|split; constructor].
    split.
    + repeat (apply Forall_cons; [split; [reflexivity|discriminate]|]). apply Forall_nil.
    + assert (G : forall sp, sp = (-1, -1) \/ sp = (0, 2) -> group_in sp) by (intros sp [->| ->]; [now left|right; cbn; lia]).
      cbn [left_to_right]. do 3 (eexists; eexists; eexists; split; [reflexivity|]; split; [lia|]; split; [lia|];
        split; [constructor; [apply G; auto|constructor]|]). exact I.
  - intros v [<-|[]]. split; [|intros C; apply RegexProofs.int_label_inj in C; lia]. right. right. exists 1. cbn. split; [lia|reflexivity].
  - repeat split; auto.
  - cbn [r_finditer words_regex text_eqb]. change (r_finditer words_regex (TX "ab")) with [[(0, 0); (-1, -1)]; [(0, 2); (0, 2)]; [(2, 2); (-1, -1)]].
    assert (X : forall a b sp u, captured (TX "ab") sp = u ->
              expands words_regex (TX "ab") [(a, b); sp] words_template (TX "<" ++ u ++ TX ">" ++ [])).
    { intros a b sp u <-. apply Expands_literal, Expands_group; [right; left; exists 1; split; [lia|]; split; reflexivity|].
      apply Expands_literal, Expands_end. }
    exact (Re_sub_match _ _ _ 0 0 0 _ _ _ _ (X 0 0 (-1, -1) [] eq_refl)
            (Re_sub_match _ _ _ 0 0 2 _ _ _ _ (X 0 2 (0, 2) (TX "ab") eq_refl)
              (Re_sub_match _ _ _ 2 2 2 _ _ _ _ (X 2 2 (-1, -1) [] eq_refl) (Re_sub_end _ _ _ 2)))).
  - vm_compute. split; reflexivity.
Qed.
