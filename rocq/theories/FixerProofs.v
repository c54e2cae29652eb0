(** Fixers: proofs. *)
From Verif Require Import Py PyFacts Subst Fmt ApplySpec SubstSpec ApplyProofs Ast Template FromDiff Matcher MatchSpec MergeSpec MergeProofs MatcherProofs BindProofs
  OwnSpec OwnProofs FindSpec FindProofs Search SearchSpec RewriteProofs PragmaProofs Removal RemovalSpec RemovalProofs RemovalApi RemovalSearch Fixer FixerSpec.

(** *** The check of the labels *)
Lemma with_replacements_spec m ts vars : template_variables ts = Ok vars ->
  ((forall x, In x vars -> In x (bind_variables m) \/ startswith (TX "__") x = true) ->
     with_replacements m ts = Ok (MWithReplacements m ts))
  /\ ((exists x, In x vars /\ ~ In x (bind_variables m) /\ startswith (TX "__") x = false) ->
     with_replacements m ts = Err ValueError).
Proof.
  intros H. unfold with_replacements. rewrite H. cbn [bind]. split.
  - intros Ha. replace (forallb _ vars) with true; [reflexivity|]. symmetry. apply forallb_forall. intros x Hx.
    apply orb_true_iff. destruct (Ha x Hx) as [G|G]; [left; now apply tmem_In|now right].
  - intros (x & Hx & H1 & H2). replace (forallb _ vars) with false; [reflexivity|]. symmetry. apply not_true_is_false.
    intros G. rewrite forallb_forall in G. specialize (G x Hx). apply orb_true_iff in G as [G|G]; [|congruence].
    apply tmem_In in G. contradiction.
Qed.
Lemma template_variables_spec ts vars : template_variables ts = Ok vars ->
  forall x, In x vars <-> exists l t, In (l, t) ts /\ (x = l \/ exists vs, t_variables t = Ok vs /\ In x vs).
Proof.
  revert vars. induction ts as [|[l t] ts IH]; intros vars H x; cbn [template_variables] in H.
  - injection H as <-. split; [intros []|intros (l & t & [] & _)].
  - apply bind_Ok in H as (vs & H1 & H). apply bind_Ok in H as (r & H2 & H). injection H as <-.
    cbn [In]. rewrite in_app_iff, (IH _ H2). split.
    + intros [<-|[Hx|(l' & t' & Hin & Hx)]].
      * exists l, t. split; [now left|now left].
      * exists l, t. split; [now left|right; eauto].
      * exists l', t'. split; [now right|exact Hx].
    + intros (l' & t' & [E|Hin] & Hx).
      * injection E as <- <-. destruct Hx as [->|(vs' & E & Hx)]; [now left|]. rewrite H1 in E. injection E as <-. tauto.
      * right. right. eauto.
Qed.

(** *** What [matcher_with_meta] gives *)
Lemma set_literal_ok d l o : dict_ok d -> dict_ok (set_literal d l o).
Proof. destruct o; [apply dict_ok_dset|tauto]. Qed.
Lemma fixer_templates_ok f : plain_fixer f -> dict_ok (fixer_templates f).
Proof.
  intros [_ _ _ _ Hr]. unfold fixer_templates. do 4 apply set_literal_ok.
  destruct (fx_replacement f) as [t|d]; [repeat constructor; intros []|tauto].
Qed.
Lemma with_meta_shape f m : matcher_with_meta f = Ok m ->
  m = MWithReplacements (MBind ROOT_LABEL (fx_matcher f) None None) (fixer_templates f).
Proof.
  unfold matcher_with_meta, with_replacements. intros H. apply bind_Ok in H as (vars & _ & H).
  match type of H with (if ?c then _ else _) = _ => destruct c end; [now injection H as <-|discriminate H].
Qed.
Lemma dget_set_literal d l o k : dget (set_literal d l o) k =
  if text_eqb l k then match o with Some s => Some (literal_template s) | None => dget d k end else dget d k.
Proof.
  destruct o as [s|]; cbn [set_literal]; [apply dget_dset|]. now destruct (text_eqb l k).
Qed.
Definition fx_base (f : fixer) : dict template := match fx_replacement f with inl t => [(ROOT_LABEL, t)] | inr d => d end.
Lemma fixer_templates_get f l : dget (fixer_templates f) l =
  match (if text_eqb SIGNIFICANT_LABEL l then (if fx_significant f then Some (TX "HACK_TRUE") else None)
         else if text_eqb CATEGORY_LABEL l then fx_category f
         else if text_eqb URL_LABEL l then fx_url f
         else if text_eqb MESSAGE_LABEL l then fx_message f else None) with
  | Some s => Some (literal_template s)
  | None => dget (fx_base f) l
  end.
Proof.
  unfold fixer_templates. cbv zeta. rewrite !dget_set_literal. fold (fx_base f).
  destruct (text_eqb_spec SIGNIFICANT_LABEL l) as [<-|_].
  { destruct (fx_significant f); reflexivity. }
  destruct (text_eqb_spec CATEGORY_LABEL l) as [<-|_].
  { destruct (fx_category f); reflexivity. }
  destruct (text_eqb_spec URL_LABEL l) as [<-|_].
  { destruct (fx_url f); reflexivity. }
  destruct (text_eqb_spec MESSAGE_LABEL l) as [<-|_].
  { destruct (fx_message f); reflexivity. }
  reflexivity.
Qed.
Lemma fx_base_meta f l : plain_fixer f -> In l meta_labels -> dget (fx_base f) l = None.
Proof.
  intros [_ _ _ _ Hr] Hl. apply dget_None. unfold fx_base. destruct (fx_replacement f) as [t|d].
  - cbn. intros [E|[]]. rewrite <- E in Hl. cbn in Hl. decompose [or] Hl; try discriminate; tauto.
  - now apply Hr.
Qed.

(** The result of a fixer's matcher. *)
Lemma with_meta_result e f m v s s' r : plain_fixer f -> matcher_with_meta f = Ok m ->
  eval e m v s = (s', Ok (Some r)) ->
  exists b, r_bindings r = Ok (Some b) /\ r_reps r = Ok (fixer_templates f)
    /\ dict_ok b /\ forall l, In l meta_labels -> dget b l = None.
Proof.
  intros Hf Hm HH. pose proof (with_meta_shape _ _ Hm) as ->. pose proof (pf_dicts _ Hf) as Hdo.
  assert (Hm' : dicts_ok (MWithReplacements (MBind ROOT_LABEL (fx_matcher f) None None) (fixer_templates f))).
  { cbn [dicts_ok]. split; [now apply fixer_templates_ok|exact Hdo]. }
  pose proof (results_are_dicts _ _ _ _ _ _ Hm' HH) as Hrd.
  assert (Hbv : forall k, In k (dkeys (bindings_of r)) -> In k (ROOT_LABEL :: bind_variables (fx_matcher f))).
  { intros k Hk.
    apply (bind_variables_cover e (MWithReplacements (MBind ROOT_LABEL (fx_matcher f) None None) (fixer_templates f))
             v s s' r k (pf_rewrite_free _ Hf) HH) in Hk.
    cbn [bind_variables] in Hk. exact Hk. }
  cbn [eval] in HH.
  apply mbind_Ok in HH as (s1 & [r1|] & H1 & HH); [|none HH].
  apply mbind_Ok in HH as (s2 & rt & H2 & HH). apply lift_Ok in H2 as [-> H2].
  apply mbind_Ok in HH as (s3 & rb & H3 & HH). apply lift_Ok in H3 as [-> H3].
  apply mbind_Ok in HH as (s4 & rm & H4 & HH). apply lift_Ok in H4 as [-> H4].
  apply mbind_Ok in HH as (s5 & tt & H5 & HH). apply lift_Ok in H5 as [-> H5].
  apply ret_Ok in HH as [_ Er].
  apply mbind_Ok in H1 as (s6 & [r2|] & G1 & H1); [|none H1].
  apply mbind_Ok in H1 as (s7 & rb2 & G2 & H1). apply lift_Ok in G2 as [-> G2].
  apply bind_Ok in G2 as (ob & G2 & G2'). apply not_none_Ok in G2' as ->.
  apply mbind_Ok in H1 as (s8 & rm2 & G3 & H1). apply lift_Ok in G3 as [-> G3].
  apply mbind_Ok in H1 as (s9 & rt2 & G4 & H1). apply lift_Ok in G4 as [-> G4].
  apply mbind_Ok in H1 as (s10 & mb & G5 & H1). apply lift_Ok in G5 as [-> G5].
  destruct mb as [b|]; [|none H1]. apply ret_Ok in H1 as [_ Er1]. injection Er1 as Er1. subst r1. cbn in H2, H3, H4.
  injection H2 as <-. injection H3 as <-. injection H4 as <-.
  rewrite (no_replacements _ _ _ _ _ _ _ (pf_no_templates _ Hf) G1 G4) in H5. cbn in H5. injection H5 as <-.
  injection Er as Er. subst r. exists b. split; [reflexivity|]. split; [reflexivity|].
  split; [now apply Hrd|]. intros l Hl. apply dget_None. intros Hk. apply Hbv in Hk.
  destruct Hk as [E|Hk]; [|exact (pf_bind _ Hf _ Hl Hk)].
  rewrite <- E in Hl. cbn in Hl. decompose [or] Hl; try discriminate; tauto.
Qed.

(** *** Tidying up removals *)
Section Sanitize.
  Context (pass_template : template) (tree : value) (tokens : list token).
  Definition widened (o o' : option pymatch) (t : template) : Prop :=
    o' = o \/ exists v txt f1 l1 a1 b1 f2 l2 a2 b2, t_template t = [] /\ is_stmt v = true
      /\ o = Some (PLex v txt f1 l1 a1 b1) /\ o' = Some (PLex v txt f2 l2 a2 b2).
  Lemma sanitize_one_frame o t st o' t' st' : sanitize_one pass_template tree tokens o t st = Ok (o', t', st') ->
    widened o o' t /\ (t' = t \/ (t_template t = [] /\ t' = pass_template /\ o <> None)).
  Proof.
    unfold sanitize_one, removes_stmt, widened.
    destruct o as [p|]; [|intros [= <- <- _]; auto].
    destruct p; try (intros [= <- <- _]; auto).
    destruct (t_template t) eqn:Et; [|intros [= <- <- _]; auto].
    match goal with |- context [is_stmt ?x] => destruct (is_stmt x) eqn:Es end; [|intros [= <- <- _]; auto].
    destruct (get_parent tree _) as [[| |]|]; try discriminate.
    assert (G : forall (c : bool) (x : template), (if c then t else x) = t \/ (if c then t else x) = x) by (intros [|] x; auto).
    destruct (get_next_sibling tree _) as [nx|].
    { intros H. apply bind_Ok in H as (ft & _ & H). injection H as <- <- _. split; [|now left].
      right. repeat eexists; eauto. }
    destruct (get_prev_sibling tree _) as [pv|].
    - intros H. apply bind_Ok in H as (own & _ & H). apply bind_Ok in H as ([st1 st2] & _ & H).
      apply bind_Ok in H as (semi & _ & H). injection H as <- <- _. split; [right; repeat eexists; eauto|].
      destruct (zmem _ _); [|now left].
      match goal with |- (if ?c then _ else _) = _ \/ _ => destruct c; [now left|right; split; [first [exact Et|reflexivity]|split; [reflexivity|discriminate]]] end.
    - intros [= <- <- _]. split; [now left|].
      match goal with |- (if ?c then _ else _) = _ \/ _ => destruct c; [now left|right; split; [first [exact Et|reflexivity]|split; [reflexivity|discriminate]]] end.
  Qed.
  Lemma sanitize_frame todo : forall ms done st ms' ts' st', dict_ok todo ->
    sanitize pass_template tree tokens ms todo done st = Ok (ms', ts', st') ->
    (exists ts1, ts' = done ++ ts1 /\ Forall2 (fun xt xt' : label * template => fst xt = fst xt' /\
      (snd xt' = snd xt \/ (t_template (snd xt) = [] /\ snd xt' = pass_template /\ dget ms (fst xt) <> None))) todo ts1)
    /\ forall l, dget ms' l = dget ms l \/ exists t, dget todo l = Some t /\ widened (dget ms l) (dget ms' l) t.
  Proof.
    induction todo as [|[x t] todo IH]; intros ms done st ms' ts' st' Hd H; cbn [sanitize] in H.
    - injection H as <- <- _. split; [exists []; rewrite app_nil_r; auto|]. intros l. now left.
    - destruct (sanitize_one _ _ _ _ _ _) as [[[m1 t1] st1]|] eqn:E; [|discriminate H]. cbn [bind] in H.
      apply sanitize_one_frame in E as [E1 E2]. inversion Hd as [|? ? Hx Hd']; subst.
      apply IH in H as [(ts1 & -> & HF) HM]; [|exact Hd'].
      assert (Hs : forall l, dget (match m1 with Some m => dset ms x m | None => ms end) l = dget ms l \/ (l = x /\ widened (dget ms x) (dget (match m1 with Some m => dset ms x m | None => ms end) x) t)).
        { intros l. destruct m1 as [m1|]; [|now left]. destruct (text_eqb_spec x l) as [<-|N].
          - right. split; [reflexivity|]. rewrite dget_dset, text_eqb_refl. exact E1.
          - left. rewrite dget_dset. replace (text_eqb x l) with false by (symmetry; now apply text_eqb_neq). reflexivity. }
      split.
      + exists ((x, t1) :: ts1). rewrite <- app_assoc. split; [reflexivity|]. constructor; [cbn [fst snd]; auto|].
        eapply Forall2_weaken; [|exact HF]. intros [y u] [y' u'] [A1 A2]. cbn [fst snd] in *. split; [exact A1|].
        destruct A2 as [A2|(A2 & A3 & A4)]; [now left|right]. split; [exact A2|]. split; [exact A3|]. intros N. apply A4.
        destruct (Hs y) as [->|[-> Hw]]; [exact N|]. rewrite N in Hw. destruct Hw as [Hw|Hw]; [exact Hw|].
        decompose [ex and] Hw. discriminate.
      + intros l. destruct (HM l) as [E|(t0 & Ht & Hw)].
        * rewrite E. destruct (Hs l) as [->|[-> Hw]]; [now left|]. right. exists t. cbn [dget]. rewrite text_eqb_refl. auto.
        * assert (N : x <> l) by (intros ->; apply Hx; eapply dget_Some_keys; exact Ht).
          right. exists t0. cbn [dget]. replace (text_eqb x l) with false by (symmetry; now apply text_eqb_neq).
          split; [exact Ht|]. destruct (Hs l) as [E|[-> _]]; [now rewrite <- E|congruence].
  Qed.
End Sanitize.

(** *** The combined fixer *)
Lemma mapM_Forall2 {A B} (f : A -> res B) l l' : mapM f l = Ok l' -> Forall2 (fun x y => f x = Ok y) l l'.
Proof.
  revert l'. induction l as [|x l IH]; intros l' H; cbn [mapM] in H; [injection H as <-; constructor|].
  apply bind_Ok in H as (y & H1 & H). apply bind_Ok in H as (ys & H2 & H). injection H as <-. constructor; auto.
Qed.
Lemma first_match_fixer e v : forall fs ms s s' r, mapM matcher_with_meta fs = Ok ms ->
  first_match e v ms s s' (Ok (Some r)) -> exists f, In f fs /\ first_fixer e v fs s s' f r.
Proof.
  induction fs as [|f fs IH]; intros ms s s' r Hm H; cbn [mapM] in Hm.
  - injection Hm as <-. inversion H.
  - apply bind_Ok in Hm as (m & H1 & Hm). apply bind_Ok in Hm as (ms' & H2 & Hm). injection Hm as <-.
    inversion H; subst.
    + destruct (IH _ _ _ _ H2 ltac:(eassumption)) as (f' & Hin & Hf). exists f'. split; [now right|].
      eapply FF_excluded; [exists m; eauto|exact Hf].
    + destruct (IH _ _ _ _ H2 ltac:(eassumption)) as (f' & Hin & Hf). exists f'. split; [now right|].
      eapply FF_fails; [exists m; eauto|exact Hf].
    + exists f. split; [now left|]. apply FF_here. exists m. auto.
Qed.
Lemma first_fixer_matches e v fs s s' f r : first_fixer e v fs s s' f r ->
  In f fs /\ exists s1, fixer_matches e v f s1 s' (Some r).
Proof. induction 1; [split; [now left|eauto]| |]; destruct IHfirst_fixer as [H1 H2]; (split; [now right|exact H2]). Qed.

Lemma not_bound (ms : dict pymatch) l : dget ms l = None -> forall m, ~ In (l, m) ms.
Proof. intros H m Hin. apply dget_None in H. apply H. apply in_map_iff. now exists (l, m). Qed.
Lemma fills_literal parsed ms ts l s r : dict_ok ts -> dget ms l = None -> startswith (TX "__") l = true ->
  dget ts l = Some (literal_template s) -> fills parsed ms ts l r <-> r = Ok s.
Proof.
  intros Hd Hm Hl Ht. split.
  - intros (t & Hin & Ho). apply dict_ok_In in Hin; [|exact Hd]. assert (t = literal_template s) as -> by congruence.
    destruct Ho as [(m & Hin' & _)|(_ & _ & ->)]; [|reflexivity].
    exact (False_ind _ (not_bound ms l Hm m Hin')).
  - intros ->. exists (literal_template s). split; [now apply dget_In|]. right. split; [|auto]. now apply not_bound.
Qed.
Lemma fills_absent parsed ms ts l r : dict_ok ts -> dget ts l = None -> ~ fills parsed ms ts l r.
Proof. intros Hd Ht (t & Hin & _). apply dict_ok_In in Hin; [congruence|exact Hd]. Qed.

Lemma same_templates_get (pass_template : template) (P : label -> Prop) d ts l :
  Forall2 (fun xt xt' : label * template => fst xt = fst xt' /\
      (snd xt' = snd xt \/ (t_template (snd xt) = [] /\ snd xt' = pass_template /\ P (fst xt)))) d ts ->
  ~ P l -> dget ts l = dget d l.
Proof.
  intros H HP. induction H as [|[x t] [x' t'] d ts [H1 H2] H IH]; [reflexivity|].
  cbn [fst snd] in H1, H2. subst x'. cbn [dget]. destruct (text_eqb_spec x l) as [->|]; [|exact IH].
  destruct H2 as [->|(_ & _ & H2)]; [reflexivity|contradiction].
Qed.

Section Combined.
  Context (parse_ast : text -> text -> res parsed_file) (context : parsed_file -> pyinfo -> env) (pass_template : template).

  Lemma carries_meta e fs h f ms ts parsed key sub : Forall plain_fixer fs ->
    by_fixer pass_template e fs h f ms ts -> (forall l, In l meta_labels -> dget ms l = None /\ dget ts l = dget (fixer_templates f) l) ->
    dict_ok ts -> describes parsed key ms ts sub -> carries f sub.
  Proof.
    intros HP ((d & Hff) & _) HM Hd (_ & _ & _ & D1 & D2 & D3 & D4 & _).
    pose proof (first_fixer_matches _ _ _ _ _ _ _ Hff) as [Hin _]. rewrite Forall_forall in HP. specialize (HP f Hin).
    assert (G : forall l o, In l meta_labels -> startswith (TX "__") l = true ->
       dget (fixer_templates f) l = option_map literal_template o -> forall o', optional_fill parsed ms ts l o' -> o' = o).
    { intros l o Hl Hs Ho o' Hf. destruct (HM l Hl) as [M1 M2]. rewrite Ho in M2. destruct o as [s|]; cbn [option_map] in M2.
      - assert (F : fills parsed ms ts l (Ok s)) by (apply (fills_literal parsed ms ts l s); auto).
        apply Hf in F. exact F.
      - destruct o' as [s|]; [|reflexivity]. exfalso. eapply fills_absent; [exact Hd|exact M2|]. apply (proj1 (Hf s) eq_refl). }
    assert (T : forall l o, In l meta_labels ->
       (if text_eqb SIGNIFICANT_LABEL l then (if fx_significant f then Some (TX "HACK_TRUE") else None)
         else if text_eqb CATEGORY_LABEL l then fx_category f
         else if text_eqb URL_LABEL l then fx_url f
         else if text_eqb MESSAGE_LABEL l then fx_message f else None) = o ->
       dget (fixer_templates f) l = option_map literal_template o).
    { intros l o Hl Ho. rewrite fixer_templates_get, Ho. destruct o; [reflexivity|]. now apply fx_base_meta. }
    unfold carries. repeat split.
    - apply (G MESSAGE_LABEL); [cbn; auto|reflexivity|apply T; [cbn; auto|reflexivity]|exact D1].
    - apply (G URL_LABEL); [cbn; auto|reflexivity|apply T; [cbn; auto|reflexivity]|exact D2].
    - apply (G CATEGORY_LABEL); [cbn; auto|reflexivity|apply T; [cbn; auto|reflexivity]|exact D3].
    - pose proof (T SIGNIFICANT_LABEL _ ltac:(cbn; auto) eq_refl) as TS. change (text_eqb SIGNIFICANT_LABEL SIGNIFICANT_LABEL) with true in TS.
      cbv iota in TS. destruct (HM SIGNIFICANT_LABEL ltac:(cbn; auto)) as [M1 M2]. rewrite TS in M2.
      destruct (fx_significant f); cbn [option_map] in M2.
      + apply D4. exists (TX "HACK_TRUE"). split; [discriminate|]. apply (fills_literal parsed ms ts SIGNIFICANT_LABEL (TX "HACK_TRUE")); auto.
      + apply not_true_is_false. intros E. apply D4 in E as (t & _ & F). exact (fills_absent _ _ _ _ _ Hd M2 F).
  Qed.

  Theorem combined_filled fs s parsed subs :
    combining_fixer parse_ast context pass_template fs = Ok s -> Forall plain_fixer fs ->
    s_find s parsed = Ok subs ->
    exists info ms hs, pf_py parsed = Some info /\ mapM matcher_with_meta fs = Ok ms
      /\ found (context parsed info) (MAnyOf ms) hs
      /\ made_from
           (fun h => exists f mb ts l, by_fixer pass_template (context parsed info) fs h f mb ts /\ fills parsed mb ts l (Err RewriteError))
           (fun h sub => exists f mb ts, by_fixer pass_template (context parsed info) fs h f mb ts
              /\ describes parsed (key_span_for_dict (py_tree info)) mb ts sub /\ carries f sub
              /\ forall l x, ~ fills parsed mb ts l (Err x))
           hs subs.
  Proof.
    intros Hc HP Hs. unfold combining_fixer in Hc. apply bind_Ok in Hc as (ms & Hms & Hc).
    match type of Hc with (if ?c then _ else _) = _ => destruct c; [|discriminate Hc] end. injection Hc as <-.
    change (s_find (python_searcher parse_ast context pass_template (MAnyOf ms)) parsed = Ok subs) in Hs.
    assert (Hdo : dicts_ok (MAnyOf ms)).
    { cbn [dicts_ok]. pose proof (mapM_Forall2 _ _ _ Hms) as HF. clear - HF HP. induction HF as [|f m fs ms Hm HF IH]; [exact I|].
      inversion HP; subst. cbn [fold_right]. split; [|apply IH; assumption]. apply with_meta_shape in Hm as ->.
      cbn [dicts_ok]. split; [now apply fixer_templates_ok|now apply pf_dicts]. }
    apply searcher_finds in Hs as (info & outs & Hi & Hfd & Hde); [|exact Hdo].
    unfold find_dicts in Hfd. rewrite Hi in Hfd. apply bind_Ok in Hfd as (out & Hout & Hsan).
    pose proof (find_iter_results _ _ _ Hdo Hout) as Hres.
    apply find_iter_found in Hout as (hs & Hf & ->).
    exists info, ms, hs. split; [exact Hi|]. split; [exact Hms|]. split; [exact Hf|].
    assert (HB : Forall (fun h => exists f d, In f fs /\ first_fixer (with_done (context parsed info) d) (h_value h) fs [] (h_ran h) f (h_result h)) hs).
    { apply Forall_forall. intros h Hin. apply in_split in Hin as (h1 & h2 & ->).
      destruct (fd_match _ _ _ Hf h1 h h2 eq_refl) as [_ Ha]. unfold attempt in Ha. destruct (admits _ _); [|discriminate Ha].
      apply anyof_first_match in Ha. destruct (first_match_fixer _ _ _ _ _ _ _ Hms Ha) as (f & Hin & Hff). eauto. }
    assert (HD := sanitize_all_dicts pass_template _ _ _ _ _ Hres Hsan).
    clear Hf Hres. rewrite map_map in Hsan. cbn [snd] in Hsan.
    assert (HO : Forall2 (fun h mt => exists f, In f fs /\ by_fixer pass_template (context parsed info) fs h f (fst mt) (snd mt)
        /\ (forall l, In l meta_labels -> dget (fst mt) l = None /\ dget (snd mt) l = dget (fixer_templates f) l)) hs outs).
    { clear Hde. revert Hsan HD. generalize (Removed [] []). revert outs. induction HB as [|h hs (f & d & Hin & Hff) HB IH]; intros outs st Hsan HD; cbn [map sanitize_all] in Hsan.
      - injection Hsan as <-. constructor.
      - apply bind_Ok in Hsan as (ob & H1 & H). apply bind_Ok in H as (b & H2 & H).
        apply bind_Ok in H as (reps & H3 & H). apply bind_Ok in H as ([[mb ts] st'] & H4 & H). apply bind_Ok in H as (outs' & H5 & H).
        injection H as <-. apply not_none_Ok in H2. subst ob. inversion HD as [|? ? [HD1 HD2] HD']; subst.
        constructor; [|eapply IH; eassumption]. exists f. split; [exact Hin|]. cbn [fst snd] in *.
        destruct (first_fixer_matches _ _ _ _ _ _ _ Hff) as [_ (s1 & m & Hm & He)].
        rewrite Forall_forall in HP. specialize (HP f Hin).
        destruct (with_meta_result _ _ _ _ _ _ _ HP Hm He) as (b' & E1 & E2 & Hbd & Hbm).
        rewrite E1 in H1. injection H1 as <-. rewrite E2 in H3. injection H3 as <-.
        destruct (sanitize_frame _ _ _ _ _ _ _ _ _ _ (fixer_templates_ok _ HP) H4) as [(ts1 & Ets & HF) HM].
        cbn [app] in Ets. subst ts1.
        assert (HM' : forall l, dget (map (fun kv : label * bound => (fst kv, b_value (snd kv))) b') l = option_map b_value (dget b' l)).
        { intros l. apply dget_map. }
        assert (Hmeta : forall l, In l meta_labels -> dget mb l = None).
        { intros l Hl. destruct (HM l) as [E|(t & _ & Hw)].
          - rewrite E, HM', (Hbm l Hl). reflexivity.
          - rewrite HM', (Hbm l Hl) in Hw. destruct Hw as [Hw|Hw]; [exact Hw|]. decompose [ex and] Hw. discriminate. }
        split; [|intros l Hl; split; [now apply Hmeta|]].
        + split; [eauto|]. split; [|eapply Forall2_weaken; [|exact HF]; intros xt xt' [A1 A2]; split; [exact A1|tauto]].
          split; [exact HD1|]. exists b'. split; [exact E1|]. intros l. rewrite <- HM'. destruct (HM l) as [E|(t & Ht & Hw)]; [now left|].
          destruct Hw as [Hw|(v & txt & f1 & l1 & a1 & b1 & f2 & l2 & a2 & b2 & W1 & W2 & W3 & W4)]; [now left|].
          right. exists v, txt, f1, l1, a1, b1, f2, l2, a2, b2, t. auto.
        + eapply same_templates_get with (P := fun x => dget (map (fun kv : label * bound => (fst kv, b_value (snd kv))) b') x <> None); [exact HF|].
          rewrite HM', (Hbm l Hl). cbn. tauto. }
    clear HB Hsan. revert subs outs Hde HD HO. induction hs as [|h hs IH]; intros subs outs Hde HD HO; inversion HO as [|? mt ? outs' (f & Hin & Hby & Hme) HO']; subst.
    - inversion Hde. constructor.
    - inversion HD as [|? ? [HD1 HD2] HD']; subst. destruct mt as [mb ts]. cbn [fst snd] in *.
      inversion Hde; subst.
      + match goal with X : exists l, fills _ _ _ l _ |- _ => destruct X as (l & Hl) end. apply MF_skip; [|eapply IH; eauto]. exists f, mb, ts, l. auto.
      + apply MF_keep; [|eapply IH; eauto]. exists f, mb, ts. split; [exact Hby|]. split; [assumption|].
        split; [eapply carries_meta; eauto|assumption].
  Qed.
  Theorem combined_finds fs s parsed subs :
    combining_fixer parse_ast context pass_template fs = Ok s -> Forall plain_fixer fs ->
    s_find s parsed = Ok subs ->
    exists info ms hs, pf_py parsed = Some info /\ mapM matcher_with_meta fs = Ok ms
      /\ found (context parsed info) (MAnyOf ms) hs
      /\ made_from
           (fun h => exists f mb ts l, by_fixer pass_template (context parsed info) fs h f mb ts /\ fills parsed mb ts l (Err RewriteError))
           (fun h sub => exists f mb ts, by_fixer pass_template (context parsed info) fs h f mb ts
              /\ describes parsed (key_span_for_dict (py_tree info)) mb ts sub /\ carries f sub)
           hs subs.
  Proof.
    intros Hc HP Hs. destruct (combined_filled fs s parsed subs Hc HP Hs) as (info & ms & hs & E1 & E2 & E3 & M).
    exists info, ms, hs. do 3 (split; [assumption|]). clear -M.
    induction M as [|h hs subs Hk M IH|h hs sub subs (f & mb & ts & A & B & C & _) M IH]; [constructor|now apply MF_skip|]. apply MF_keep; [|exact IH]. exists f, mb, ts. auto.
  Qed.
End Combined.

(** *** Which lists of fixers are accepted *)
Lemma with_meta_filter f m : matcher_with_meta f = Ok m -> type_filter m = type_filter (fx_matcher f).
Proof. intros H. apply with_meta_shape in H as ->. reflexivity. Qed.
Theorem combining_accepts parse_ast context pass_template fs :
  (exists s, combining_fixer parse_ast context pass_template fs = Ok s) <-> Forall accepted fs.
Proof.
  unfold combining_fixer. split.
  - intros (s & H). apply bind_Ok in H as (ms & Hms & H).
    match type of H with (if ?c then _ else _) = _ => destruct c eqn:E; [|discriminate H] end. clear H.
    apply mapM_Forall2 in Hms. revert E. induction Hms as [|f m fs ms Hm HF IH]; intros E; [constructor|].
    cbn [forallb] in E. apply andb_true_iff in E as [E1 E2]. constructor; [|auto]. exists m. split; [exact Hm|].
    rewrite <- (with_meta_filter _ _ Hm). now destruct (type_filter m).
  - intros H. assert (G : exists ms, mapM matcher_with_meta fs = Ok ms
        /\ forallb (fun m => match type_filter m with Some _ => true | None => false end) ms = true).
    { induction H as [|f fs (m & Hm & Ht) HF (ms & IH1 & IH2)]; [exists []; auto|].
      exists (m :: ms). cbn [mapM]. rewrite Hm, IH1. split; [reflexivity|]. cbn [forallb]. rewrite IH2, (with_meta_filter _ _ Hm).
      now destruct (type_filter (fx_matcher f)). }
    destruct G as (ms & G1 & G2). rewrite G1. cbn [bind]. rewrite G2. eauto.
Qed.
Lemma startswith_app p s : startswith p s = true <-> exists r, s = p ++ r.
Proof.
  revert s. induction p as [|c p IH]; intros s; cbn [startswith app]; [split; eauto|].
  destruct s as [|d s]; [split; [discriminate|intros (r & E); discriminate E]|]. rewrite andb_true_iff, Z.eqb_eq, IH. split.
  - intros [-> (r & ->)]. eauto.
  - intros (r & E). injection E as -> ->. eauto.
Qed.
Lemma endswith_spec p s : endswith p s = true <-> exists r, s = r ++ p.
Proof.
  unfold endswith. rewrite startswith_app. split; intros (r & E).
  - exists (rev r). rewrite <- (rev_involutive s), E, rev_app_distr, rev_involutive. reflexivity.
  - exists (rev r). rewrite E, rev_app_distr. reflexivity.
Qed.
Lemma py_path_spec path : py_path path = true <-> exists p, path = p ++ TX ".py" \/ path = p ++ TX ".py" ++ [NL].
Proof.
  unfold py_path. rewrite orb_true_iff, !endswith_spec. split.
  - intros [(p & ->)|(p & ->)]; exists p; auto.
  - intros (p & [-> | ->]); [left|right]; eauto.
Qed.
