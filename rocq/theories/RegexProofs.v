(** C45: regex searchers only use existing groups. *)
From Verif Require Import Py PyFacts Regex Subst Fmt ApplySpec SubstSpec SubstProofs Ast Template
  Search SearchSpec SearchProofs RewriteProofs.

Lemma int_label_inj i j : int_label i = int_label j -> i = j.
Proof. unfold int_label. intro H. injection H. auto. Qed.

Lemma zseq_In a n x : In x (zseq a n) <-> a <= x < a + Z.of_nat n.
Proof.
  revert a; induction n as [|n IH]; intro a; cbn [zseq In]; [lia|]. rewrite IH. lia.
Qed.
Lemma regex_labels_spec r l : 0 <= r_groups r -> (In l (regex_labels r) <-> group_label r l).
Proof.
  intro Hg. unfold regex_labels, group_label. rewrite !in_app_iff, in_map_iff. cbn [In]. split.
  - intros [(i & <- & Hi)|[H|[<-|[]]]]; [|auto|auto].
    apply zseq_In in Hi. right. right. exists i. split; [lia|reflexivity].
  - intros [->|[H|(i & Hi & ->)]]; [auto|auto|]. left. exists i. rewrite zseq_In. split; [reflexivity|lia].
Qed.

Lemma template_variables_spec ts :
  Forall (fun kt : label * template => exists vs, t_variables (snd kt) = Ok vs) ts ->
  exists vs, template_variables ts = Ok vs /\ forall l, In l vs <-> mentions ts l.
Proof.
  induction 1 as [|[k t] ts (vs & Hv) H (r & Er & IH)].
  - exists []. split; [reflexivity|]. intro l. split; [intros []|]. intros (k & t & [] & _).
  - cbn [snd] in Hv. exists (k :: vs ++ r). cbn [template_variables]. rewrite Hv, Er. cbn [bind].
    split; [reflexivity|]. intro l. cbn [In]. rewrite in_app_iff, IH. unfold mentions. split.
    + intros [<-|[Hl|(k' & t' & Hin & HH)]].
      * exists k, t. cbn; auto.
      * exists k, t. cbn. split; [auto|]. right. eauto.
      * exists k', t'. cbn; auto.
    + intros (k' & t' & [E|Hin] & HH).
      * injection E as <- <-. destruct HH as [->|(vs' & E & Hl)]; [auto|]. rewrite Hv in E. injection E as <-. auto.
      * right. right. exists k', t'. auto.
Qed.

Lemma regex_check_spec r ts :
  0 <= r_groups r ->
  Forall (fun kt : label * template => exists vs, t_variables (snd kt) = Ok vs) ts ->
  ((forall l, mentions ts l -> group_label r l) -> exists s, regex_searcher r ts = Ok s)
  /\ (~ (forall l, mentions ts l -> group_label r l) -> regex_searcher r ts = Err ValueError).
Proof.
  intros Hg HT. destruct (template_variables_spec ts HT) as (vs & Ev & Hvs).
  unfold regex_searcher, regex_searcher_check. rewrite Ev. cbn [bind].
  destruct (forallb (fun v => tmem v (regex_labels r)) vs) eqn:E.
  - split; [intros _; cbn [bind]; eauto|]. intro Hn. exfalso. apply Hn. intros l Hl. apply Hvs in Hl.
    rewrite forallb_forall in E. apply E in Hl. apply tmem_In in Hl. now apply regex_labels_spec in Hl.
  - split; [|reflexivity]. intro H. exfalso. assert (forallb (fun v => tmem v (regex_labels r)) vs = true); [|congruence].
    apply forallb_forall. intros l Hl. apply Hvs in Hl. apply tmem_In, regex_labels_spec; auto.
Qed.

(** The match dictionary. *)
Lemma numbered_spec i regs txt l m : 0 <= i ->
  (In (l, m) (numbered i regs txt) <->
   exists j sp, i <= j /\ nth_error regs (Z.to_nat (j - i)) = Some sp
     /\ l = (if j =? 0 then ROOT_LABEL else int_label j) /\ m = span_match txt sp).
Proof.
  revert i; induction regs as [|sp regs IH]; intros i Hi; cbn [numbered In].
  - split; [contradiction|]. intros (j & sp & _ & H & _). destruct (Z.to_nat (j - i)); discriminate.
  - rewrite IH by lia. split.
    + intros [E|(j & sp' & Hj & Hn & -> & ->)].
      * injection E as <- <-. exists i, sp. rewrite Z.sub_diag. repeat split; lia || reflexivity.
      * exists j, sp'. split; [lia|]. replace (Z.to_nat (j - i)) with (S (Z.to_nat (j - (i + 1)))) by lia. auto.
    + intros (j & sp' & Hj & Hn & -> & ->). destruct (Z.eq_dec j i) as [->|Hne].
      * left. rewrite Z.sub_diag in Hn. injection Hn as <-. reflexivity.
      * right. exists j, sp'. split; [lia|].
        replace (Z.to_nat (j - i)) with (S (Z.to_nat (j - (i + 1)))) in Hn by lia. auto.
Qed.
Lemma num_label_inj i j :
  (if i =? 0 then ROOT_LABEL else int_label i) = (if j =? 0 then ROOT_LABEL else int_label j) -> i = j.
Proof.
  destruct (Z.eqb_spec i 0), (Z.eqb_spec j 0); intro H; try lia; try discriminate.
  now apply int_label_inj.
Qed.
Lemma numbered_ok i regs txt : 0 <= i -> dict_ok (numbered i regs txt).
Proof.
  unfold dict_ok. revert i; induction regs as [|sp regs IH]; intros i Hi; cbn; constructor; [|apply IH; lia].
  intro H. unfold dkeys in H. apply in_map_iff in H. destruct H as ([l m] & E & H). cbn in E. subst l.
  apply numbered_spec in H; [|lia]. destruct H as (j & sp' & Hj & _ & E & _).
  apply num_label_inj in E. lia.
Qed.

Lemma nth_some {A} (l : list A) i : 0 <= i < tlen l -> exists x, nth_error l (Z.to_nat i) = Some x.
Proof.
  intro H. destruct (nth_error l (Z.to_nat i)) eqn:E; [eauto|].
  apply nth_error_None in E. unfold tlen in H. lia.
Qed.

Definition has_match (d : dict pymatch) txt l sp := dget d l = Some (span_match txt sp).

Lemma named_fold r txt regs gi d :
  valid_regs r regs -> 0 <= r_groups r ->
  (forall n i, In (n, i) gi -> 1 <= i <= r_groups r /\ is_int_label n = false /\ startswith (TX "__") n = false) ->
  NoDup (dkeys gi) ->
  dict_ok d ->
  (forall i sp, 1 <= i -> nth_error regs (Z.to_nat i) = Some sp -> has_match d txt (int_label i) sp) ->
  exists d', fold_left (fun acc kv =>
      do d <- acc;
      match dget d (int_label (snd kv)) with
      | Some m => Ok (dset d (fst kv) m)
      | None => Err KeyError
      end) gi (Ok d) = Ok d'
    /\ dict_ok d'
    /\ (forall l m, dget d' l = Some m <->
          (~ In l (dkeys gi) /\ dget d l = Some m)
          \/ (exists i sp, In (l, i) gi /\ nth_error regs (Z.to_nat i) = Some sp /\ m = span_match txt sp)).
Proof.
  intros Hregs Hgr. revert d; induction gi as [|[n i] gi IH]; intros d Hgi Hnd Hd Hint; cbn [fold_left].
  - exists d. split; [reflexivity|]. split; [exact Hd|]. intros l m. split.
    + intro H. left. split; [intros []|exact H].
    + intros [[_ H]|(i & sp & [] & _)]. exact H.
  - cbn [bind fst snd]. destruct (Hgi n i (or_introl eq_refl)) as (Hi & Hn & Hroot).
    destruct (nth_some regs i) as (sp & Esp); [destruct Hregs; lia|].
    pose proof (Hint i sp ltac:(lia) Esp) as Eget. unfold has_match in Eget. rewrite Eget.
    cbn in Hnd. inversion Hnd as [|? ? Hni Hnd']; subst.
    destruct (IH (dset d n (span_match txt sp))) as (d' & Ef & Hd' & Hspec).
    + intros n' i' Hin. apply Hgi. now right.
    + exact Hnd'.
    + now apply dict_ok_dset.
    + intros j spj Hj Ej. unfold has_match. rewrite dget_dset.
      rewrite (proj2 (text_eqb_neq n (int_label j))); [now apply Hint|]. intros ->. discriminate Hn.
    + exists d'. split; [exact Ef|]. split; [exact Hd'|]. intros l m. rewrite Hspec, dget_dset. cbn [dkeys map fst In].
      fold (dkeys gi). destruct (text_eqb_spec n l) as [->|Hne].
      * split.
        -- intros [[_ E]|(j & spj & Hin & Ej & ->)].
           ++ injection E as <-. right. exists i, sp. auto.
           ++ right. exists j, spj. auto.
        -- intros [[Hc _]|(j & spj & [E|Hin] & Ej & ->)].
           ++ exfalso. apply Hc. auto.
           ++ injection E as <-. left. split; [exact Hni|]. rewrite Esp in Ej. congruence.
           ++ right. exists j, spj. auto.
      * split.
        -- intros [[Hc E]|(j & spj & Hin & Ej & ->)].
           ++ left. split; [intros [?|?]; auto|exact E].
           ++ right. exists j, spj. auto.
        -- intros [[Hc E]|(j & spj & [E|Hin] & Ej & ->)].
           ++ left. split; [tauto|exact E].
           ++ congruence.
           ++ right. exists j, spj. auto.
Qed.

Lemma dget_iff {V} (d : dict V) l m : dict_ok d -> (dget d l = Some m <-> In (l, m) d).
Proof. intro H. split; [apply dget_In|now apply In_dget]. Qed.

Lemma regex_dict_spec r txt regs :
  valid_regex r -> valid_regs r regs ->
  exists d, regex_dict r txt regs = Ok d /\ dict_ok d
    /\ forall l m, In (l, m) d <-> exists sp, group_span r regs l sp /\ m = span_match txt sp.
Proof.
  intros (Hg & Hgi & Hn) Hregs. unfold regex_dict.
  pose proof (numbered_ok 0 regs txt (Z.le_refl 0)) as Hnum.
  destruct (named_fold r txt regs (r_groupindex r) (numbered 0 regs txt) Hregs Hg Hn Hgi Hnum) as (d & E & Hd & HS).
  { intros i sp Hi Ei. unfold has_match. apply In_dget; [exact Hnum|]. apply numbered_spec; [lia|].
    exists i, sp. rewrite Z.sub_0_r. replace (i =? 0) with false by lia. repeat split; auto; lia. }
  exists d. split; [exact E|]. split; [exact Hd|]. intros l m. rewrite <- (dget_iff d) by exact Hd. rewrite HS.
  rewrite dget_iff by exact Hnum. rewrite numbered_spec by lia. unfold group_span. split.
  - intros [[Hni (j & sp & Hj & Ej & -> & ->)]|(i & sp & Hin & Ei & ->)].
    + exists sp. split; [|reflexivity]. rewrite Z.sub_0_r in Ej. destruct (Z.eqb_spec j 0) as [Hz|Hne].
      * left. subst j. split; [reflexivity|exact Ej].
      * right. left. exists j. split; [lia|]. auto.
    + exists sp. split; [|reflexivity]. right. right. exists i. auto.
  - intros (sp & [(-> & E0)|[(i & Hi & -> & Ei)|(i & Hin & Ei)]] & ->).
    + left. split.
      * intro Hc. unfold dkeys in Hc. apply in_map_iff in Hc. destruct Hc as ([n i] & En & Hin). cbn [fst] in En. rewrite En in Hin.
        destruct (Hn _ _ Hin) as (_ & _ & Hr). discriminate Hr.
      * exists 0, sp. split; [lia|]. split; [exact E0|]. split; reflexivity.
    + left. split.
      * intro Hc. unfold dkeys in Hc. apply in_map_iff in Hc. destruct Hc as ([n j] & En & Hin). cbn [fst] in En. rewrite En in Hin.
        destruct (Hn _ _ Hin) as (_ & Hr & _). discriminate Hr.
      * exists i, sp. rewrite Z.sub_0_r. replace (i =? 0) with false by lia. repeat split; auto; lia.
    + right. exists i, sp. auto.
Qed.

Lemma stringify_get d l m : dict_ok d -> In (l, m) d -> forall s, m_string m = Some s ->
  dget (stringify_matches d) l = Some s.
Proof.
  intros Hd Hin s Hs. induction d as [|[l' m'] d IH]; [contradiction|].
  unfold dict_ok in Hd. cbn in Hd. inversion Hd as [|? ? Hni Hd']; subst. cbn [stringify_matches].
  destruct Hin as [E|Hin].
  - injection E as -> ->. rewrite Hs. cbn. now rewrite text_eqb_refl.
  - assert (Hne : l' <> l).
    { intros ->. apply Hni. unfold dkeys. apply in_map_iff. exists (l, m). auto. }
    destruct (m_string m'); [|now apply IH]. cbn. rewrite (proj2 (text_eqb_neq l' l) Hne). now apply IH.
Qed.

Lemma re_fill_ok ps env : (forall v, In v (re_vars ps) -> exists s, dget env v = Some s) ->
  exists out, re_fill ps env = Ok out.
Proof.
  induction ps as [|[s|v] ps IH]; intro H; cbn [re_fill]; [eauto| |].
  - destruct IH as (out & E); [exact H|]. rewrite E. cbn. eauto.
  - destruct (H v) as (s & E); [now left|]. rewrite E.
    destruct IH as (out & E'); [intros; apply H; now right|]. rewrite E'. cbn. eauto.
Qed.
Lemma sh_fill_ok ps env vs : sh_vars ps = Ok vs -> (forall v, In v vs -> exists s, dget env v = Some s) ->
  exists out, sh_fill ps env = Ok out.
Proof.
  revert vs; induction ps as [|[s|v|] ps IH]; intros vs Hv H; cbn [sh_fill sh_vars] in *; [eauto| | |discriminate].
  - destruct (IH vs Hv H) as (out & E). rewrite E. cbn. eauto.
  - destruct (sh_vars ps) as [vs'|] eqn:Ev; cbn [bind] in Hv; [|discriminate]. injection Hv as <-.
    destruct (H v) as (s & E); [now left|]. rewrite E.
    destruct (IH vs' eq_refl) as (out & E'); [intros; apply H; now right|]. rewrite E'. cbn. eauto.
Qed.

Lemma std_fill t vs ms : std_template t -> t_variables t = Ok vs ->
  (forall v, In v vs -> exists s, dget (stringify_matches ms) v = Some s) ->
  forall parsed m, exists out, t_substitute t parsed m ms = Ok out.
Proof.
  intros Hs Hv H parsed m. destruct Hs; cbn in *.
  - eauto.
  - eapply sh_fill_ok; eauto.
  - injection Hv as <-. now apply re_fill_ok.
Qed.

Section OneMatch.
  Variables (r : regex) (ts : dict template) (parsed : parsed_file) (regs : list span).
  Hypothesis Hr : valid_regex r.
  Hypothesis Hregs : valid_regs r regs.
  Hypothesis Hts : dict_ok ts.
  Hypothesis Hstd : Forall (fun kt : label * template => std_template (snd kt)
                            /\ exists vs, t_variables (snd kt) = Ok vs) ts.
  Hypothesis Hlab : forall l, mentions ts l -> group_label r l.
  Hypothesis Hzero : ~ uses_group_zero ts.

  Lemma mentioned_has_span l : mentions ts l -> exists sp, group_span r regs l sp.
  Proof.
    intro Hm. destruct Hregs as [Hlen _]. destruct Hr as (Hg & Hgi & Hn).
    destruct (Hlab l Hm) as [->|[H|(i & Hi & ->)]].
    - destruct (nth_some regs 0) as (sp & E); [lia|]. exists sp. left. auto.
    - unfold dkeys in H. apply in_map_iff in H. destruct H as ([n i] & E & Hin). cbn in E. subst n.
      destruct (Hn _ _ Hin) as (Hi & _). destruct (nth_some regs i) as (sp & E); [lia|].
      exists sp. right. right. exists i. auto.
    - destruct (Z.eq_dec i 0) as [->|Hne]; [contradiction|].
      destruct (nth_some regs i) as (sp & E); [lia|]. exists sp. right. left. exists i. repeat split; auto; lia.
  Qed.

  Lemma regex_one : exists d s,
    regex_dict r (pf_text parsed) regs = Ok d /\ dict_ok d
    /\ rewriting_find parsed (fun _ => Ok None) [(d, ts)] = Ok [s]
    /\ (forall l sp, In (l, sp) (matched_spans s) <-> group_span r regs l sp /\ sp <> (-1, -1))
    /\ exists reps, replacements s = Some reps
         /\ forall l, In l (dkeys reps) <-> In l (dkeys ts) /\ exists sp, group_span r regs l sp /\ sp <> (-1, -1).
  Proof.
    destruct (regex_dict_spec r (pf_text parsed) regs Hr Hregs) as (d & Ed & Hd & HS).
    assert (Hpres : forall l, mentions ts l -> exists sp, In (l, span_match (pf_text parsed) sp) d /\ group_span r regs l sp).
    { intros l Hm. destruct (mentioned_has_span l Hm) as (sp & Hsp). exists sp. split; [|exact Hsp]. apply HS. eauto. }
    assert (Hment : forall l t, In (l, t) ts -> mentions ts l) by (intros l t Hin; exists l, t; auto).
    assert (Hfill : forall l t, In (l, t) ts -> forall m, exists out, t_substitute t parsed m d = Ok out).
    { intros l t Hin m. rewrite Forall_forall in Hstd. destruct (Hstd (l, t) Hin) as (Hst & vs & Hv). cbn in *.
      eapply std_fill; [exact Hst|exact Hv|]. intros v Hvin.
      destruct (Hpres v) as (sp & Hin' & _); [exists l, t; eauto|].
      eexists. eapply stringify_get; [exact Hd|exact Hin'|reflexivity]. }
    destruct (rewrite_templates parsed d ts) as [reps|e] eqn:Er.
    2: { exfalso. apply rewrite_err in Er; [|exact Hd]. destruct Er as [(l & t & Hin & HH)|((l & t & Hin & Hi & Ha) & _)].
         - destruct HH as [(m & _ & _ & E)|(_ & _ & E)].
           + destruct (Hfill l t Hin m) as (out & E'). congruence.
           + destruct (Hfill l t Hin PMatch) as (out & E'). congruence.
         - destruct (Hpres l (Hment l t Hin)) as (sp & Hin' & _). now apply (Ha _) in Hin'. }
    destruct (rewrite_ok parsed d Hd ts reps Hts Er) as (Hrok & Hf & _ & _).
    assert (Hfl : forall l, (exists t, dget reps l = Some t) <->
              In l (dkeys ts) /\ exists sp, group_span r regs l sp /\ sp <> (-1, -1)).
    { intro l. split.
      - intros (t & E). apply Hf in E. destruct E as (tm & Hin & HH).
        split; [unfold dkeys; apply in_map_iff; exists (l, tm); auto|].
        destruct HH as [(m & Hm & (sp & Esp & Hne) & _)|(Ha & _)].
        + apply HS in Hm. destruct Hm as (sp' & Hsp' & ->). cbn in Esp. injection Esp as <-. eauto.
        + exfalso. destruct (Hpres l (Hment l tm Hin)) as (sp & Hin' & _). now apply Ha in Hin'.
      - intros (Hk & sp & Hsp & Hne). unfold dkeys in Hk. apply in_map_iff in Hk. destruct Hk as ([l' tm] & E & Hin).
        cbn in E. subst l'. destruct (Hfill l tm Hin (span_match (pf_text parsed) sp)) as (out & E). exists out.
        apply Hf. exists tm. split; [exact Hin|]. left. exists (span_match (pf_text parsed) sp).
        split; [apply HS; eauto|]. split; [exists sp; auto|symmetry; exact E]. }
    assert (Hkey : forall l, In l (dkeys ts) -> ~ In l meta_labels).
    { intros l Hk Hl. unfold dkeys in Hk. apply in_map_iff in Hk. destruct Hk as ([l' tm] & E & Hin).
      cbn [fst] in E. subst l'. destruct Hr as (_ & _ & Hn). destruct (Hlab l (Hment l tm Hin)) as [->|[H|(i & _ & ->)]].
      - cbn in Hl. repeat destruct Hl as [Hl|Hl]; try discriminate; contradiction.
      - unfold dkeys in H. apply in_map_iff in H. destruct H as ([n i] & E & Hin'). cbn [fst] in E. subst n.
        destruct (Hn _ _ Hin') as (_ & _ & Hs). cbn in Hl.
        repeat destruct Hl as [Hl|Hl]; subst; try discriminate; contradiction.
      - cbn in Hl. repeat destruct Hl as [Hl|Hl]; try discriminate; contradiction. }
    assert (Hmeta : forall l, In l meta_labels -> dget reps l = None).
    { intros l Hl. destruct (dget reps l) as [t|] eqn:E; [|reflexivity]. exfalso.
      destruct (proj1 (Hfl l)) as [Hk _]; [eauto|]. exact (Hkey l Hk Hl). }
    assert (Hdel : forall l (rs : dict text), dget rs l = None -> ddel rs l = rs).
    { intros l rs. induction rs as [|[k v] rs IH]; cbn; [reflexivity|].
      destruct (text_eqb k l); [discriminate|]. intro E. now rewrite IH. }
    set (s := Sub (located d) ROOT_LABEL (Some reps) None None false None None).
    assert (Hsub : sub_of_match d reps None = do _ <- validate s; Ok s).
    { unfold sub_of_match, make_sub.
      rewrite !(Hdel MESSAGE_LABEL), !(Hdel URL_LABEL), !(Hdel CATEGORY_LABEL), !(Hdel SIGNIFICANT_LABEL)
        by (apply Hmeta; cbn; tauto).
      rewrite !Hmeta by (cbn; tauto). reflexivity. }
    assert (Hloc : forall l sp, In (l, sp) (located d) <-> group_span r regs l sp /\ sp <> (-1, -1)).
    { intros l sp. rewrite located_spec. unfold located_at. split.
      - intros (m & Hin & Esp & Hne). apply HS in Hin. destruct Hin as (sp' & Hg' & ->). cbn in Esp.
        injection Esp as <-. auto.
      - intros [Hg' Hne]. exists (span_match (pf_text parsed) sp). split; [apply HS; eauto|]. auto. }
    assert (Hval : validate s = Ok tt).
    { apply validate_spec. split; [discriminate|]. split; cbn [primary_label matched_spans replacements s].
      - destruct Hregs as [Hlen H0]. destruct (nth_some regs 0) as (sp & E0); [destruct Hr; lia|].
        unfold dkeys. apply in_map_iff. exists (ROOT_LABEL, sp). split; [reflexivity|]. apply Hloc.
        split; [left; auto|]. intros ->. apply H0. exact E0.
      - intros rs E. injection E as <-. intros l Hl. apply keys_dget in Hl. apply Hfl in Hl.
        destruct Hl as (_ & sp & Hsp & Hne). unfold dkeys. apply in_map_iff. exists (l, sp). split; [reflexivity|].
        now apply Hloc. }
    exists d, s. split; [exact Ed|]. split; [exact Hd|]. split.
    { cbn [rewriting_find]. rewrite Er. cbn [bind]. rewrite Hsub, Hval. reflexivity. }
    split; [exact Hloc|]. exists reps. split; [reflexivity|]. intro l. rewrite <- Hfl. split; [apply keys_dget|].
    intros (t & E). now apply dget_Some_keys in E.
  Qed.
End OneMatch.

Lemma rewriting_find_cons parsed key x xs :
  rewriting_find parsed key (x :: xs)
  = do a <- rewriting_find parsed key [x]; do b <- rewriting_find parsed key xs; Ok (a ++ b).
Proof.
  destruct x as [ms ts]. cbn [rewriting_find]. destruct (rewrite_templates parsed ms ts) as [reps|e].
  - destruct (key ms) as [k|]; cbn [bind]; [|reflexivity].
    destruct (sub_of_match ms reps k); cbn [bind]; [|reflexivity].
    destruct (rewriting_find parsed key xs); reflexivity.
  - destruct e; try reflexivity. cbn [bind]. destruct (rewriting_find parsed key xs); reflexivity.
Qed.

Lemma regex_find_spec r ts s parsed :
  valid_regex r -> dict_ok ts ->
  Forall (fun kt : label * template => std_template (snd kt) /\ exists vs, t_variables (snd kt) = Ok vs) ts ->
  ~ uses_group_zero ts ->
  regex_searcher r ts = Ok s ->
  Forall (valid_regs r) (r_finditer r (pf_text parsed)) ->
  exists subs, s_find s parsed = Ok subs
    /\ Forall2 (fun regs sub =>
         (forall l sp, In (l, sp) (matched_spans sub) <-> group_span r regs l sp /\ sp <> (-1, -1))
         /\ exists reps, replacements sub = Some reps
              /\ forall l, In l (dkeys reps) <->
                    In l (dkeys ts) /\ exists sp, group_span r regs l sp /\ sp <> (-1, -1))
       (r_finditer r (pf_text parsed)) subs.
Proof.
  intros Hr Hts Hstd Hzero Hs Hregs.
  assert (Hlab : forall l, mentions ts l -> group_label r l).
  { assert (HT : Forall (fun kt : label * template => exists vs, t_variables (snd kt) = Ok vs) ts)
      by (eapply Forall_impl; [|exact Hstd]; cbn; tauto).
    destruct (template_variables_spec ts HT) as (vs & Ev & Hvs).
    unfold regex_searcher, regex_searcher_check in Hs. rewrite Ev in Hs. cbn [bind] in Hs.
    destruct (forallb (fun v => tmem v (regex_labels r)) vs) eqn:E; [|discriminate].
    intros l Hl. apply Hvs in Hl. rewrite forallb_forall in E. apply E in Hl. apply tmem_In in Hl.
    apply regex_labels_spec in Hl; [exact Hl|]. apply Hr. }
  unfold regex_searcher in Hs. destruct (regex_searcher_check r ts); cbn [bind] in Hs; [|discriminate].
  injection Hs as <-. cbn [s_find].
  induction Hregs as [|regs rest H Hrest IH].
  - exists []. split; [reflexivity|constructor].
  - destruct IH as (subs & E & H2).
    destruct (regex_one r ts parsed regs Hr H Hts Hstd Hlab Hzero) as (d & sub & Ed & _ & Ef & Hspec).
    exists (sub :: subs). cbn [mapM]. rewrite Ed. cbn [bind].
    destruct (mapM _ rest) as [ds|]; cbn [bind] in *; [|discriminate].
    split; [|constructor; [exact Hspec|exact H2]].
    rewrite rewriting_find_cons, Ef. cbn [bind]. rewrite E. reflexivity.
Qed.
