(** Which files a command line is about; setting up. *)
From Verif Require Import Py PyFacts Subst Fmt Ast Template FromDiff Matcher Search Removal Fixer PatTok Pattern PyTemplate
  Codec Runner RunnerSpec Cli Main MainSpec
  SubstProofs FromTextProofs FixerProofs MergeProofs SweepProofs.

(** *** Paths *)
Lemma last_app_one {A} (l : list A) x d : last (l ++ [x]) d = x.
Proof. induction l as [|a l IH]; [reflexivity|]. cbn [app]. destruct (l ++ [x]) eqn:E; [destruct l; discriminate E|]. exact IH. Qed.
Lemma ends_slash s : s <> [] -> endswith [SLASH] s = (last s 0 =? SLASH).
Proof.
  intros H. destruct (exists_last H) as (r & x & ->). rewrite last_app_one.
  destruct (endswith [SLASH] (r ++ [x])) eqn:E; symmetry.
  - apply endswith_spec in E as (r' & E). apply app_inj_tail in E as [_ ->]. reflexivity.
  - apply Z.eqb_neq. intros ->. assert (endswith [SLASH] (r ++ [SLASH]) = true) as C by (apply endswith_spec; eauto).
    congruence.
Qed.
Lemma path_join_slash top n : path_join top n = with_slash top ++ n.
Proof.
  destruct top as [|c top]; [reflexivity|]. unfold path_join, with_slash.
  rewrite ends_slash by discriminate. destruct (last (c :: top) 0 =? SLASH); [reflexivity|]. now rewrite <- app_assoc.
Qed.
Definition good_name (n : text) : Prop := n <> [] /\ ~ In SLASH n.
Lemma with_slash_app a n : good_name n -> with_slash (a ++ n) = a ++ n ++ [SLASH].
Proof.
  intros [Hn Hs]. destruct (exists_last Hn) as (r & x & ->).
  unfold with_slash. destruct (a ++ r ++ [x]) eqn:E; [destruct a; [destruct r|]; discriminate E|]. rewrite <- E. clear E.
  rewrite app_assoc, last_app_one. assert (x =? SLASH = false) as ->; [|now rewrite <- !app_assoc].
  apply Z.eqb_neq. intros ->. apply Hs. apply in_or_app. right. now left.
Qed.
Lemma full_path_cons top n ns : good_name n -> ns <> [] ->
  full_path (path_join top n) ns = full_path top (n :: ns).
Proof.
  intros Hn Hns. unfold full_path. rewrite path_join_slash, with_slash_app by assumption.
  destruct ns as [|m ns]; [contradiction|]. cbn [join]. now rewrite <- !app_assoc.
Qed.
Lemma full_path_inj top a b : a <> [] -> b <> [] -> Forall good_name a -> Forall good_name b ->
  full_path top a = full_path top b -> a = b.
Proof.
  intros Ha Hb Ga Gb H. unfold full_path in H. apply app_inv_head in H.
  assert (S : forall l, l <> [] -> Forall good_name l -> split_char SLASH (join [SLASH] l) = l).
  { intros l Hl Hg. apply split_join; [assumption|]. eapply Forall_impl; [|exact Hg]. intros x Hx. apply Hx. }
  rewrite <- (S a Ha Ga), <- (S b Hb Gb), H. reflexivity.
Qed.

(** *** Walking *)
Section EntryInd.
  Variable P : list (text * entry) -> Prop.
  Hypothesis H : forall d, (forall n d', In (n, EDir d') d -> P d') -> P d.
  Lemma dir_ind : forall d, P d.
  Proof.
    assert (G : forall e, match e with EDir d => P d | _ => True end).
    { fix IH 1. intros [|d|]; [exact I| |exact I]. apply H.
      induction d as [|[m e] d IHd]; intros n d' Hin; [destruct Hin|].
      destruct Hin as [Hin|Hin].
      - injection Hin as _ E. specialize (IH e). rewrite E in IH. exact IH.
      - exact (IHd n d' Hin). }
    intros d. exact (G (EDir d)).
  Qed.
End EntryInd.

Lemma walk_dir top d :
  walk top (EDir d) = (top, files_in d) :: flat_map (fun nx => walk (path_join top (fst nx)) (snd nx)) d.
Proof. cbn [walk]. f_equal. induction d as [|[n x] d IH]; [reflexivity|]. cbn [flat_map fst snd]. now rewrite <- IH. Qed.

Fixpoint names_below (e : entry) : list (list text) :=
  match e with
  | EDir d =>
      map (fun n => [n]) (files_in d)
      ++ (fix go (l : list (text * entry)) : list (list text) :=
            match l with [] => [] | (n, x) :: rest => map (cons n) (names_below x) ++ go rest end) d
  | _ => []
  end.
Lemma names_dir d :
  names_below (EDir d) = map (fun n => [n]) (files_in d) ++ flat_map (fun nx => map (cons (fst nx)) (names_below (snd nx))) d.
Proof. cbn [names_below]. f_equal. induction d as [|[n x] d IH]; [reflexivity|]. cbn [flat_map fst snd]. now rewrite <- IH. Qed.

Lemma in_files_in d n : In n (files_in d) <-> In (n, EFile) d.
Proof.
  unfold files_in. rewrite in_map_iff. split.
  - intros ([m e] & <- & H). apply filter_In in H as [H E]. destruct e; try discriminate E. exact H.
  - intros H. exists (n, EFile). split; [reflexivity|]. apply filter_In. now split.
Qed.
Lemma names_below_spec d : forall ns, In ns (names_below (EDir d)) <-> below d ns.
Proof.
  induction d as [d IH] using dir_ind. intros ns. rewrite names_dir, in_app_iff, in_map_iff, in_flat_map. split.
  - intros [(n & <- & H)|([n x] & Hin & H)].
    + apply in_files_in in H. now constructor.
    + cbn [fst snd] in H. apply in_map_iff in H as (ns' & <- & H). destruct x as [|d'|]; try (destruct H; fail).
      apply (IH n d' Hin) in H. eapply Below_dir; eassumption.
  - intros H. destruct H as [d n H|d n d' ns H H'].
    + left. exists n. split; [reflexivity|]. now apply in_files_in.
    + right. exists (n, EDir d'). split; [assumption|]. cbn [fst snd]. apply in_map. now apply (IH n d' H).
Qed.
Lemma below_names d ns : below d ns -> tidy d -> ns <> [] /\ Forall good_name ns.
Proof.
  intros H. induction H as [d n H|d n d' ns H H' IH]; intros T; inversion T as [d0 Hn Hg Hs E]; subst; split; try discriminate.
  - constructor; [|constructor]. rewrite Forall_forall in Hg. apply Hg. apply in_map_iff. now exists (n, EFile).
  - constructor; [|now apply IH, (Hs n)]. rewrite Forall_forall in Hg. apply Hg. apply in_map_iff. now exists (n, EDir d').
Qed.
Lemma nodup_names d : tidy d -> NoDup (names_below (EDir d)).
Proof.
  induction d as [d IH] using dir_ind. intros T. inversion T as [d0 Hn Hg Hs E]; subst. rewrite names_dir.
  apply NoDup_app_intro.
  - apply FinFun.Injective_map_NoDup; [intros a b [= ->]; reflexivity|]. unfold files_in.
    clear -Hn. induction d as [|[n e] d IHd]; [constructor|]. inversion Hn; subst. cbn [filter snd].
    destruct e; cbn [map fst]; [constructor|..]; auto.
    intros C. apply in_map_iff in C as (x & <- & C). apply filter_In in C as [C _]. apply H1. now apply in_map.
  - assert (W : forall n d', In (n, EDir d') d -> NoDup (names_below (EDir d'))) by (intros n d' Hin; apply (IH n d' Hin), (Hs n d' Hin)).
    clear -Hn W. induction d as [|[n e] d IHd]; [constructor|]. inversion Hn; subst. cbn [flat_map fst snd].
    apply NoDup_app_intro.
    + apply FinFun.Injective_map_NoDup; [intros a b [= ->]; reflexivity|].
      destruct e as [|d'|]; try constructor. apply (W n d'). now left.
    + apply IHd; [assumption|]. intros n' d' Hin. apply (W n' d'). now right.
    + intros ns H3 H4. apply in_map_iff in H3 as (a & <- & _). apply in_flat_map in H4 as ([m e'] & Hin & H4).
      cbn [fst snd] in H4. apply in_map_iff in H4 as (b & [= -> ->] & _). apply H1. apply in_map_iff. now exists (n, e').
  - intros ns H3 H4. apply in_map_iff in H3 as (n & <- & _). apply in_flat_map in H4 as ([m e] & Hin & H4).
    cbn [fst snd] in H4. apply in_map_iff in H4 as (b & [= -> ->] & H4). destruct e as [|d'|]; try (destruct H4; fail).
    apply names_below_spec in H4. inversion H4.
Qed.
Definition listing (top : path) (e : entry) : list path :=
  flat_map (fun pf : path * list text => map (path_join (fst pf)) (snd pf)) (walk top e).
Lemma listing_names d : tidy d -> forall top, listing top (EDir d) = map (full_path top) (names_below (EDir d)).
Proof.
  induction d as [d IH] using dir_ind. intros T top. inversion T as [d0 Hn Hg Hs E]; subst.
  unfold listing. rewrite walk_dir, names_dir. cbn [flat_map fst snd]. rewrite map_app, map_map. f_equal.
  - apply map_ext. intros n. apply path_join_slash.
  - clear Hn T. induction d as [|[n e] d IHd]; [reflexivity|]. cbn [flat_map fst snd]. rewrite flat_map_app, map_app.
    inversion Hg as [|n0 l Hn Hg']; subst.
    f_equal.
    + fold (listing (path_join top n) e). destruct e as [|d'|]; [reflexivity| |reflexivity].
      rewrite (IH n d') by ((now left) || (apply (Hs n); now left)). rewrite map_map. apply map_ext_in. intros ns Hin.
      apply names_below_spec in Hin. apply below_names in Hin as [H1 _]; [|apply (Hs n); now left].
      now apply full_path_cons.
    + apply IHd; [intros m d' Hin; apply (IH m d'); now right | assumption | intros m d' Hin; apply (Hs m d'); now right].
Qed.
Lemma files_pairs dirs o :
  files_from_options dirs o
  = map (fun q => (q, q)) (flat_map (fun p => match (if fo_recursive o then dirs p else None) with
                                               | None => [p] | Some d => listing p (EDir d) end) (fo_files o)).
Proof.
  unfold files_from_options. induction (fo_files o) as [|p l IH]; [reflexivity|]. cbn [flat_map]. rewrite IH, map_app. f_equal.
  destruct (if fo_recursive o then dirs p else None) as [d|]; [|reflexivity]. unfold listing.
  generalize (walk p (EDir d)) as w. induction w as [|[t fs] w IHw]; [reflexivity|]. cbn [flat_map fst snd]. rewrite IHw, map_app. f_equal.
  now rewrite map_map.
Qed.
Lemma files_stand_for dirs o :
  (forall p d, dirs p = Some d -> tidy d) ->
  exists ls, Forall2 (stands_for dirs (fo_recursive o)) (fo_files o) ls
    /\ files_from_options dirs o = map (fun q => (q, q)) (concat ls).
Proof.
  intros T. exists (map (fun p => match (if fo_recursive o then dirs p else None) with
                                               | None => [p] | Some d => listing p (EDir d) end) (fo_files o)).
  split; [|now rewrite files_pairs, flat_map_concat_map].
  induction (fo_files o) as [|p l IH]; cbn [map]; constructor; [|exact IH].
  unfold stands_for. destruct (dirs p) as [d|] eqn:E; [|now destruct (fo_recursive o)]. destruct (fo_recursive o); [|reflexivity].
  specialize (T p d E). rewrite (listing_names d T). split.
  - assert (N : NoDup (names_below (EDir d))) by now apply nodup_names.
    assert (G : forall ns, In ns (names_below (EDir d)) -> ns <> [] /\ Forall good_name ns).
    { intros ns H. apply names_below_spec in H. now apply below_names in H. }
    clear -N G. induction (names_below (EDir d)) as [|ns l IH]; cbn [map]; [constructor|]. inversion N; subst. constructor.
    + intros C. apply in_map_iff in C as (ns' & E & C).
      destruct (G ns) as [A1 A2]; [now left|]. destruct (G ns') as [B1 B2]; [now right|].
      apply full_path_inj in E; auto. now subst.
    + apply IH; [assumption|]. intros; apply G; now right.
  - intros q. rewrite in_map_iff. split.
    + intros (ns & <- & H). exists ns. split; [now apply names_below_spec | reflexivity].
    + intros (ns & H & ->). exists ns. split; [reflexivity | now apply names_below_spec].
Qed.

Lemma in_place_no_clash l : NoDup l -> no_clash (map (fun q : path => (q, q)) l).
Proof.
  induction l as [|q l IH]; intros H; cbn [map no_clash]; [exact I|]. inversion H; subst. split; [|now apply IH].
  intros r p Hin. apply in_map_iff in Hin as (x & [= <- <-] & Hin). split; intros ->; contradiction.
Qed.
Lemma shorten_spec abspath relpath p :
  In (shorten_path abspath relpath p) [p; abspath p; relpath p]
  /\ Forall (fun q => tlen (shorten_path abspath relpath p) <= tlen q) [p; abspath p; relpath p].
Proof.
  unfold shorten_path. destruct (Z.ltb_spec (tlen (abspath p)) (tlen p)) as [H|H];
    match goal with |- context [?a <? ?b] => destruct (Z.ltb_spec a b) as [H'|H'] end;
    (split; [cbn [In]; auto | repeat (apply Forall_cons; [lia|]); apply Forall_nil]).
Qed.

(** *** Setting up *)
Section Setup.
  Variable template_of : text -> res template.
  Lemma templates_ok (subs : dict text) ts :
    mapM (fun kv : label * text => do t <- template_of (snd kv); Ok (fst kv, t)) subs = Ok ts <->
    map fst ts = map fst subs /\ Forall2 (fun src t => template_of src = Ok t) (map snd subs) (map snd ts).
  Proof.
    revert ts. induction subs as [|[k src] subs IH]; intros ts; cbn [mapM map fst snd].
    - split; [intros [= <-]; split; constructor|]. intros [H _]. now destruct ts.
    - destruct (template_of src) as [t|x] eqn:E; cbn [bind].
      + destruct (mapM _ subs) as [ts'|x] eqn:E'; cbn [bind].
        * destruct (IH ts') as [I1 _]. specialize (I1 eq_refl) as [A B]. split.
          -- intros [= <-]. cbn [map fst snd]. split; [now f_equal|]. now constructor.
          -- intros [H1 H2]. destruct ts as [|[k' t'] ts]; [discriminate H1|]. cbn [map fst snd] in *.
             inversion H2; subst. injection H1 as -> H1. f_equal. f_equal; [congruence|].
             specialize (IH ts) as [_ I2]. assert (Ok ts' = Ok ts) as [= ->]; [|reflexivity]. now apply I2.
        * split; [discriminate|]. intros [H1 H2]. destruct ts as [|[k' t'] ts]; [discriminate H1|].
          cbn [map fst snd] in *. inversion H2; subst. injection H1 as -> H1.
          specialize (IH ts) as [_ I2]. now assert (Err x = Ok ts) by (now apply I2).
      + split; [discriminate|]. intros [_ H2]. destruct ts as [|[k' t'] ts]; cbn [map snd] in H2; inversion H2; subst. congruence.
  Qed.
  Lemma templates_err (subs : dict text) x :
    mapM (fun kv : label * text => do t <- template_of (snd kv); Ok (fst kv, t)) subs = Err x ->
    exists src, In src (map snd subs) /\ template_of src = Err x.
  Proof.
    induction subs as [|[k src] subs IH]; cbn [mapM map fst snd]; [discriminate|].
    destruct (template_of src) as [t|y] eqn:E; cbn [bind].
    - destruct (mapM _ subs) as [ts'|y] eqn:E'; cbn [bind]; [discriminate|]. intros [= ->].
      destruct (IH eq_refl) as (src' & H1 & H2). exists src'. split; [now right|assumption].
    - intros [= ->]. exists src. split; [now left|assumption].
  Qed.
End Setup.

Section Prep.
  Variable re_compile : text -> option regex.
  Variable re_template : text -> res (list re_piece).
  Variable py_matcher_of : text -> res matcher.
  Variable fixers : registry.
  Variable tokenize : text -> res (list ptok).
  Variable order : list nat -> list nat.
  Variable ast_parse : text -> res value.
  Variable parse_env : text -> res env.
  Variable parse_ast : text -> text -> res parsed_file.
  Variable context : parsed_file -> pyinfo -> env.
  Variable pass_template : template.
  Let mk := make_searcher re_compile py_matcher_of fixers tokenize order ast_parse parse_ast context pass_template.
  Let tm := make_template_of re_template tokenize order ast_parse parse_env.
  Let mks := make_searchers re_compile re_template py_matcher_of fixers tokenize order ast_parse parse_env parse_ast context pass_template.
  Let prep := prepare re_compile re_template py_matcher_of fixers tokenize order ast_parse parse_env parse_ast context pass_template.

  Lemma make_searchers_cases m s srs :
    match mks m s srs with
    | Ready ss => Forall2 (accepted (tm s) (mk m)) srs ss
    | Usage => exists good sr rest ss, srs = good ++ sr :: rest /\ Forall2 (accepted (tm s) (mk m)) good ss
        /\ exists why, refused (tm s) (mk m) sr why /\ match why with None => True | Some x => x = ValueError \/ x = UnicodeError end
    | Crash x => exists good sr rest ss, srs = good ++ sr :: rest /\ Forall2 (accepted (tm s) (mk m)) good ss
        /\ refused (tm s) (mk m) sr (Some x) /\ x <> ValueError /\ x <> UnicodeError
    end.
  Proof.
    induction srs as [|sr srs IH]; cbn [mks make_searchers]; [constructor|]. unfold mks. cbn [make_searchers].
    unfold parse_templates. fold tm. fold mk.
    destruct (mapM _ (sr_sub sr)) as [ts|x] eqn:E.
    - pose proof (proj1 (templates_ok (tm s) (sr_sub sr) ts) E) as [E1 E2].
      destruct (mk m (sr_match sr) ts) as [x|x] eqn:Ex.
      + change (make_searchers re_compile re_template py_matcher_of fixers tokenize order ast_parse parse_env parse_ast context pass_template m s srs)
          with (mks m s srs).
        assert (A : accepted (tm s) (mk m) sr x) by (exists ts; auto).
        destruct (mks m s srs) as [l| |y].
        * constructor; assumption.
        * destruct IH as (g & sr' & rest & ss & -> & H & W). exists (sr :: g), sr', rest, (x :: ss). split; [reflexivity|]. split; [now constructor|exact W].
        * destruct IH as (g & sr' & rest & ss & -> & H & W). exists (sr :: g), sr', rest, (x :: ss). split; [reflexivity|]. split; [now constructor|exact W].
      + assert (R : refused (tm s) (mk m) sr (Some x)) by (exists ts; auto).
        destruct (is_value_error x) eqn:V.
        * exists [], sr, srs, []. split; [reflexivity|]. split; [constructor|]. exists (Some x). split; [assumption|]. destruct x; try discriminate V; auto.
        * exists [], sr, srs, []. split; [reflexivity|]. split; [constructor|]. split; [assumption|]. split; intros ->; discriminate V.
    - exists [], sr, srs, []. split; [reflexivity|]. split; [constructor|]. exists None. split; [|exact I].
      destruct (templates_err (tm s) _ _ E) as (src & H1 & H2). exists src, x. now split.
  Qed.
  Lemma language_spec m g s : get_sub_parser m g = s <-> language m g s.
  Proof.
    split.
    - intros <-. destruct g as [s|]; [apply Lang_given|]. destruct m; constructor.
    - intros H. destruct H; reflexivity.
  Qed.
  Lemma modes_spec m p ts s :
    mk m p ts = Ok s <-> exists q, p = Some q
      /\ searches_for re_compile py_matcher_of fixers tokenize order ast_parse parse_ast context pass_template m q ts s.
  Proof.
    assert (F : forall (r : res matcher), from_matcher_searcher parse_ast context pass_template r ts = Ok s <->
                 exists x y, r = Ok x /\ from_matcher x ts = Ok y /\ s = python_searcher parse_ast context pass_template y).
    { intros r. unfold from_matcher_searcher. destruct r as [x|]; cbn [bind]; [|split; [discriminate|intros (? & ? & ? & _); discriminate]].
      destruct (from_matcher x ts) as [y|e] eqn:E; cbn [bind]; split.
      - intros [= <-]. eauto.
      - intros (x' & y' & [= <-] & H & ->). congruence.
      - discriminate.
      - intros (x' & y' & [= <-] & H & ->). congruence. }
    split.
    - unfold mk, make_searcher. destruct m, p as [p|]; try discriminate; intros H.
      + exists p. split; [reflexivity|]. unfold default_compile_regex in H. destruct (re_compile p) eqn:E; cbn [bind] in H; [|discriminate]. eapply For_regex; eassumption.
      + exists p. split; [reflexivity|]. apply F in H as (x & y & H1 & H2 & ->). eapply For_matcher; eassumption.
      + exists p. split; [reflexivity|]. apply F in H as (x & y & H1 & H2 & ->). eapply For_expr; eassumption.
      + exists p. split; [reflexivity|]. apply F in H as (x & y & H1 & H2 & ->). eapply For_stmt; eassumption.
      + exists p. split; [reflexivity|]. destruct ts; [|discriminate]. unfold fixers_from_pattern in H.
        destruct (text_eqb p star) eqn:E.
        * apply text_eqb_eq in E. eapply For_fixers; [|exact H]. now left.
        * destruct (dget (rg_extra fixers) p) as [fs|] eqn:Ed; [|discriminate]. eapply For_fixers; [|exact H]. right. split; [|assumption].
          intros ->. change (text_eqb star star = false) in E. now rewrite text_eqb_refl in E.
      + destruct ts; discriminate.
    - intros (q & -> & H). unfold mk, make_searcher. destruct H as [p ts r s H1 H2|p ts m m' H1 H2|p ts m m' H1 H2|p ts m m' H1 H2|p s fs H1 H2].
      + unfold default_compile_regex. rewrite H1. exact H2.
      + apply F. eauto.
      + apply F. eauto.
      + apply F. eauto.
      + unfold fixers_from_pattern. destruct H1 as [[-> ->]|[H1 H3]].
        * change (text_eqb (TX "*") star) with (text_eqb star star). now rewrite text_eqb_refl.
        * destruct (text_eqb p star) eqn:E; [apply text_eqb_eq in E; contradiction|]. now rewrite H3.
  Qed.
  Lemma actions_nonempty os : forall l l', l <> [] -> actions os l = Some l' -> l' <> [].
  Proof.
    assert (Hu : forall f l l', update_last f l = Some l' -> l' <> []).
    { intros f l0. destruct l0 as [|x [|y l0]]; intros l1 H; simpl in H; [discriminate H| |].
      - destruct (f x); [|discriminate H]. injection H as <-. discriminate.
      - match type of H with match ?t with _ => _ end = _ => destruct t end; [|discriminate H]. injection H as <-. discriminate. }
    induction os as [|o os IH]; intros l l' H; cbn [actions]; [now intros [= <-]|].
    destruct (action o l) as [l1|] eqn:E; [|discriminate]. apply IH.
    destruct o; cbn [action] in E; try (now apply Hu in E). destruct (last_match l); [|now apply Hu in E]. injection E as <-. now destruct l.
  Qed.
  Lemma parse_options_nonempty os p u srs files : parse_options os p u = Some (srs, files) -> srs <> [].
  Proof.
    unfold parse_options. destruct (actions os no_search_replace) as [l|] eqn:E; [|discriminate].
    apply actions_nonempty in E; [|discriminate]. destruct (parse_leftovers u); [|discriminate].
    destruct p as [p|]; [|intros [= <- _]; assumption].
    destruct l as [|[[m|] d] [|y l]]; intros [= <- _]; try discriminate. contradiction.
  Qed.
  Lemma prepare_cases dirs c :
    match prep dirs c with
    | Ready (ru, files) => exists srs args lang ss,
        parse_options (cm_opts c) (cm_positional c) (cm_unknown c) = Some (srs, args)
        /\ language (cm_mode c) (cm_sub_mode c) lang
        /\ Forall2 (accepted (tm lang) (mk (cm_mode c))) srs ss
        /\ runner_from_options parse_ast (options_of c) ss = Some ru
        /\ files = files_from_options dirs (FileOptions args (cm_recursive c) (cm_includefile c) (cm_excludefile c))
    | Usage =>
        parse_options (cm_opts c) (cm_positional c) (cm_unknown c) = None
        \/ exists good sr rest args lang ss,
             parse_options (cm_opts c) (cm_positional c) (cm_unknown c) = Some (good ++ sr :: rest, args)
             /\ language (cm_mode c) (cm_sub_mode c) lang
             /\ Forall2 (accepted (tm lang) (mk (cm_mode c))) good ss
             /\ exists why, refused (tm lang) (mk (cm_mode c)) sr why
                  /\ match why with None => True | Some x => x = ValueError \/ x = UnicodeError end
    | Crash x => exists good sr rest args lang ss,
             parse_options (cm_opts c) (cm_positional c) (cm_unknown c) = Some (good ++ sr :: rest, args)
             /\ language (cm_mode c) (cm_sub_mode c) lang
             /\ Forall2 (accepted (tm lang) (mk (cm_mode c))) good ss
             /\ refused (tm lang) (mk (cm_mode c)) sr (Some x) /\ x <> ValueError /\ x <> UnicodeError
    end.
  Proof.
    unfold prep, prepare. destruct (parse_options _ _ _) as [[srs args]|] eqn:E; [|now left].
    set (lang := get_sub_parser _ _). assert (L : language (cm_mode c) (cm_sub_mode c) lang) by now apply language_spec.
    pose proof (make_searchers_cases (cm_mode c) lang srs) as H. unfold mks in H.
    destruct (make_searchers _ _ _ _ _ _ _ _ _ _ _ _ _ _) as [ss| |x].
    - destruct (runner_from_options parse_ast (options_of c) ss) as [ru|] eqn:Er.
      + exists srs, args, lang, ss. auto.
      + exfalso. unfold runner_from_options, build_searcher in Er. destruct ss; [|discriminate]. inversion H; subst.
        now apply parse_options_nonempty in E.
    - right. destruct H as (g & sr & rest & ss & -> & H1 & H2). exists g, sr, rest, args, lang, ss. auto.
    - destruct H as (g & sr & rest & ss & -> & H1 & H2). exists g, sr, rest, args, lang, ss. auto.
  Qed.
End Prep.
