(** Which object a match is about: proofs. *)
From Verif Require Import Py PyFacts Ast Template FromDiff Matcher MatchSpec MergeSpec MergeProofs MatcherProofs BindProofs FromDiffProofs OwnSpec.

Lemma climb_match n e sub v s s' r :
  climb n e sub v s = (s', Ok (Some r)) ->
  succeeds (sub v) r \/ exists b, r = RInfo (create_match (e_parsed e) v) b [].
Proof.
  destruct n; cbn [climb]; intros H; [apply lift_Ok in H as [_ H]; discriminate H|].
  apply mbind_Ok in H as (s1 & [r0|] & H1 & H).
  - apply ret_Ok in H as [-> [= ->]]. left. now exists s, s1.
  - destruct (parent e v) as [p|]; [|none H].
    apply mbind_Ok in H as (s2 & o' & H2 & H). apply rewrap_inv in H as (_ & r0 & b & _ & _ & ->). right. now exists b.
Qed.
Lemma descend_match e sub v s s' r :
  descend e sub v s = (s', Ok (Some r)) ->
  succeeds (sub v) r \/ exists b, r = RInfo (create_match (e_parsed e) v) b [].
Proof.
  rewrite descend_eq. intros H. apply mbind_Ok in H as (s1 & [r0|] & H1 & H).
  - apply ret_Ok in H as [-> [= ->]]. left. now exists s, s1.
  - apply mbind_Ok in H as (s2 & o' & H2 & H). apply rewrap_inv in H as (_ & r0 & b & _ & _ & ->). right. now exists b.
Qed.

Theorem own_match e m : forall v s s' r rm,
  own_head m = true -> eval e m v s = (s', Ok (Some r)) -> r_match r = Ok rm ->
  rm = create_match (e_parsed e) v \/ about_nothing rm.
Proof.
  assert (Hinfo : forall v (b : option (dict bound)) rm, r_match (info e v b) = Ok rm -> rm = create_match (e_parsed e) v \/ about_nothing rm)
    by (intros v b rm H; left; now injection H).
  induction m using matcher_ind'; intros v0 s0 s' r0 rm0 HF HH Hk;
    cbn [own_head] in HF; cbn [eval] in HH.
  - apply anything_inv in HH as [_ ->]. now apply Hinfo in Hk.
  - apply lift_Ok in HH as [_ HH]. discriminate HH.
  - apply accumulating_inv in HH as (_ & _ & HH). left. congruence.
  - rewrite Forall_forall in H. rewrite forallb_forall in HF.
    apply first_of_inv in HH as (a & Ha & (s1 & s2 & Hs)). apply in_flat_map in Ha as (m & Hm & Ha).
    destruct (tried _ _ _); [|destruct Ha]. destruct Ha as [<-|[]]. eapply H; eauto.
  - apply unless_inv in HH as [-> _]. now apply Hinfo in Hk.
  - destruct (_ || _); apply accumulating_inv in HH as (_ & _ & HH); left; congruence.
  - apply mbind_Ok in HH as (s1 & [r1|] & H1 & HH); [|none HH].
    apply mbind_Ok in HH as (s2 & rb & H2 & HH). apply lift_Ok in H2 as [-> H2].
    apply mbind_Ok in HH as (s3 & rm & H3 & HH). apply lift_Ok in H3 as [-> H3].
    apply mbind_Ok in HH as (s4 & rt & H4 & HH). apply lift_Ok in H4 as [-> H4].
    apply mbind_Ok in HH as (s5 & mb & H5 & HH). apply lift_Ok in H5 as [-> H5].
    destruct mb as [b|]; [|none HH]. apply ret_Ok in HH as [-> [= <-]]. injection Hk as <-. eauto.
  - apply mbind_Ok in HH as (s1 & [r1|] & H1 & HH); [|none HH].
    apply mbind_Ok in HH as (s2 & rb & H2 & HH). apply lift_Ok in H2 as [-> H2].
    apply mbind_Ok in HH as (s3 & rm & H3 & HH). apply lift_Ok in H3 as [-> H3].
    apply mbind_Ok in HH as (s4 & rt & H4 & HH). apply lift_Ok in H4 as [-> H4].
    apply ret_Ok in HH as [-> [= <-]]. injection Hk as <-. eauto.
  - apply ret_Ok in HH as [_ [= <-]]. injection Hk as <-. right. right. now eexists.
  - apply mbind_Ok in HH as (s1 & [r1|] & H1 & HH); [|none HH].
    apply mbind_Ok in HH as (s2 & rt & H2 & HH). apply lift_Ok in H2 as [-> H2].
    apply mbind_Ok in HH as (s3 & rb & H3 & HH). apply lift_Ok in H3 as [-> H3].
    apply mbind_Ok in HH as (s4 & rm & H4 & HH). apply lift_Ok in H4 as [-> H4].
    apply mbind_Ok in HH as (s5 & t & H5 & HH). apply lift_Ok in H5 as [-> H5].
    apply ret_Ok in HH as [-> [= <-]]. injection Hk as <-. eauto.
  - eauto.
  - destruct (py_eq _ _); [|none HH]. apply anything_inv in HH as [_ ->]. now apply Hinfo in Hk.
  - destruct (text_eqb _ _); [|none HH]. apply anything_inv in HH as [_ ->]. now apply Hinfo in Hk.
  - apply mbind_Ok in HH as (s1 & [r1|] & H1 & HH); [|none HH].
    apply mbind_Ok in HH as (s2 & rm & H2 & HH). apply lift_Ok in H2 as [-> H2].
    destruct (m_span rm) as [[a b]|]; [|none HH]. destruct (cr_match r _ a b) as [regs|]; [|none HH].
    apply mbind_Ok in HH as (s3 & rb & H3 & HH). apply lift_Ok in H3 as [-> H3].
    apply mbind_Ok in HH as (s4 & rt & H4 & HH). apply lift_Ok in H4 as [-> H4].
    apply mbind_Ok in HH as (s5 & mb & H5 & HH). apply lift_Ok in H5 as [-> H5].
    destruct mb as [d|]; [|none HH]. apply ret_Ok in HH as [-> [= <-]]. injection Hk as <-. eauto.
  - destruct (cr_search _ _) as [regs|]; [|none HH]. apply ret_Ok in HH as [_ [= <-]].
    injection Hk as <-. right. now left.
  - apply has_item_inv in HH as (x & r1 & _ & _ & _ & E). left. congruence.
  - apply items_are_inv in HH as [_ E]. left. congruence.
  - destruct (seq_items e v0) as [l|]; [|none HH].
    apply mbind_Ok in HH as (s1 & o & H1 & HH). apply rewrap_bindings in HH as (r1 & -> & _ & E). left. congruence.
  - destruct v0 as [i fs|i l'|i c]; try none HH. destruct (n_line i) as [n|]; [|none HH].
    destruct (zmem n l); [|none HH]. apply anything_inv in HH as [_ ->]. now apply Hinfo in Hk.
  - apply lift_Ok in HH as [_ HH]. discriminate HH.
  - unfold glob in HH. destruct (seq_items e v0) as [l|].
    + apply glob_loop_inv in HH as (d & -> & _). now apply Hinfo in Hk.
    + apply ret_Ok in HH as [_ [= <-]]. discriminate Hk.
  - destruct (text_eqb _ _); [|none HH]. apply accumulating_inv in HH as (_ & _ & E). left. congruence.
  - destruct (negb _); [none HH|]. destruct (negb _); [none HH|].
    apply mbind_Ok in HH as (s1 & o & H1 & HH). apply rewrap_bindings in HH as (r1 & -> & _ & E). left. congruence.
  - destruct (parent e v0) as [p|]; [|none HH].
    apply mbind_Ok in HH as (s1 & o & H1 & HH). apply rewrap_bindings in HH as (r1 & -> & _ & E). left. congruence.
  - apply climb_match in HH as [(s1 & s2 & Hs)|[b ->]]; [|left; now injection Hk].
    destruct (admits _ _); [eauto | none Hs].
  - apply mbind_Ok in HH as (s1 & o & H1 & HH). apply rewrap_bindings in HH as (r1 & -> & _ & E). left. congruence.
  - apply descend_match in HH as [(s1 & s2 & Hs)|[b ->]]; [|left; now injection Hk].
    destruct (admits _ _); [eauto | none Hs].
  - apply mbind_Ok in HH as (s1 & [r1|] & H1 & HH); [|none HH].
    apply mbind_Ok in HH as (s2 & rm & H2 & HH). apply lift_Ok in H2 as [-> H2].
    apply mbind_Ok in HH as (s3 & anc & H3 & HH). apply lift_Ok in H3 as [-> H3].
    apply mbind_Ok in HH as (s4 & [r2|] & H4 & HH); [|none HH].
    apply mbind_Ok in HH as (s5 & b1 & H5 & HH). apply lift_Ok in H5 as [-> H5].
    apply mbind_Ok in HH as (s6 & b2 & H6 & HH). apply lift_Ok in H6 as [-> H6].
    apply mbind_Ok in HH as (s7 & mb & H7 & HH). apply lift_Ok in H7 as [-> H7].
    apply ret_Ok in HH as [-> [= <-]]. now apply Hinfo in Hk.
  - discriminate HF.
  - discriminate HF.
  - destruct (dget _ _) as [n|]; [|none HH]. destruct (text_eqb _ _); [|none HH]. eauto.
  - apply mbind_Ok in HH as (s1 & [r1|] & H1 & HH); [|none HH].
    apply mbind_Ok in HH as (s2 & c & H2 & HH). apply lift_Ok in H2 as [-> H2].
    destruct c; [|none HH]. apply ret_Ok in HH as [-> [= <-]]. eauto.
  - apply mbind_Ok in HH as (s1 & [r1|] & H1 & HH); [|none HH].
    apply mbind_Ok in HH as (s2 & c & H2 & HH). apply lift_Ok in H2 as [-> H2].
    destruct c; [none HH|]. apply ret_Ok in HH as [-> [= <-]]. eauto.
  - apply mbind_Ok in HH as (s1 & [after|] & H1 & HH); [|none HH].
    apply mbind_Ok in HH as (s2 & d & H2 & HH). apply lift_Ok in H2 as [-> H2].
    apply ret_Ok in HH as [-> [= <-]]. left. now injection Hk.
Qed.

Lemma accumulate_reps acts : (forall a r t, In a acts -> succeeds a r -> r_reps r = Ok t -> t = []) ->
  forall b s s' b' t', accumulate acts b [] s = (s', Ok (Some (b', t'))) -> t' = [].
Proof.
  induction acts as [|a acts IH]; cbn [accumulate]; intros HA b s s' b' t' H.
  - now apply ret_Ok in H as [_ [= _ ->]].
  - apply mbind_Ok in H as (s1 & [r|] & H1 & H); [|none H].
    apply mbind_Ok in H as (s2 & ob & H2 & H). apply lift_Ok in H2 as [-> H2].
    apply mbind_Ok in H as (s3 & rb & H3 & H). apply lift_Ok in H3 as [-> H3].
    apply mbind_Ok in H as (s4 & mb & H4 & H). apply lift_Ok in H4 as [-> H4].
    destruct mb as [b1|]; [|none H].
    apply mbind_Ok in H as (s5 & rt & H5 & H). apply lift_Ok in H5 as [-> H5].
    apply mbind_Ok in H as (s6 & t1 & H6 & H). apply lift_Ok in H6 as [-> H6].
    rewrite (HA a r rt) in H6; [|now left|now exists s, s1|assumption].
    injection H6 as <-. apply IH in H; [assumption|]. intros a' r' t Ha. apply HA. now right.
Qed.
Lemma accumulating_reps e v acts s s' r t :
  (forall a r t, In a acts -> succeeds a r -> r_reps r = Ok t -> t = []) ->
  accumulating e v acts s = (s', Ok (Some r)) -> r_reps r = Ok t -> t = [].
Proof.
  unfold accumulating. intros HA H Ht. apply mbind_Ok in H as (s1 & [[b t0]|] & H1 & H); [|none H].
  apply ret_Ok in H as [-> [= <-]]. injection Ht as <-. eapply accumulate_reps; eassumption.
Qed.
Lemma rewrap_reps e v o s s' r t : rewrap e v o s = (s', Ok (Some r)) -> r_reps r = Ok t -> t = [].
Proof. intros H Ht. apply rewrap_inv in H as (_ & r0 & b & _ & _ & ->). now injection Ht. Qed.

Theorem no_replacements e m : forall v s s' r t,
  no_templates m = true -> eval e m v s = (s', Ok (Some r)) -> r_reps r = Ok t -> t = [].
Proof.
  assert (Hinfo : forall v (b : option (dict bound)) t, r_reps (info e v b) = Ok t -> t = [])
    by (intros v b rm H; now injection H).
  induction m using matcher_ind'; intros v0 s0 s' r0 t0 HF HH Hk;
    cbn [no_templates] in HF; cbn [eval] in HH.
  - apply anything_inv in HH as [_ ->]. now apply Hinfo in Hk.
  - apply lift_Ok in HH as [_ HH]. discriminate HH.
  - rewrite Forall_forall in H. rewrite forallb_forall in HF.
    eapply accumulating_reps in HH; [eassumption| |eassumption]. intros a r1 t1 Ha (s1 & s2 & Hs) Ht.
    apply in_map_iff in Ha as (m & <- & Hm). eapply H; eauto.
  - rewrite Forall_forall in H. rewrite forallb_forall in HF.
    apply first_of_inv in HH as (a & Ha & (s1 & s2 & Hs)). apply in_flat_map in Ha as (m & Hm & Ha).
    destruct (tried _ _ _); [|destruct Ha]. destruct Ha as [<-|[]]. eapply H; eauto.
  - apply unless_inv in HH as [-> _]. now apply Hinfo in Hk.
  - destruct (_ || _); (eapply accumulating_reps in HH; [eassumption| |eassumption]).
    + intros a r1 t1 [].
    + intros a r1 t1 [<-|[]] (s1 & s2 & Hs) Ht. apply mbind_Ok in Hs as (s3 & o & H1 & Hs). cbv beta in Hs. injection Hs as _ ->. eauto.
  - apply mbind_Ok in HH as (s1 & [r1|] & H1 & HH); [|none HH].
    apply mbind_Ok in HH as (s2 & rb & H2 & HH). apply lift_Ok in H2 as [-> H2].
    apply mbind_Ok in HH as (s3 & rm & H3 & HH). apply lift_Ok in H3 as [-> H3].
    apply mbind_Ok in HH as (s4 & rt & H4 & HH). apply lift_Ok in H4 as [-> H4].
    apply mbind_Ok in HH as (s5 & mb & H5 & HH). apply lift_Ok in H5 as [-> H5].
    destruct mb as [b|]; [|none HH]. apply ret_Ok in HH as [-> [= <-]]. injection Hk as <-. eauto.
  - apply mbind_Ok in HH as (s1 & [r1|] & H1 & HH); [|none HH].
    apply mbind_Ok in HH as (s2 & rb & H2 & HH). apply lift_Ok in H2 as [-> H2].
    apply mbind_Ok in HH as (s3 & rm & H3 & HH). apply lift_Ok in H3 as [-> H3].
    apply mbind_Ok in HH as (s4 & rt & H4 & HH). apply lift_Ok in H4 as [-> H4].
    apply ret_Ok in HH as [-> [= <-]]. injection Hk as <-. eauto.
  - apply ret_Ok in HH as [_ [= <-]]. now injection Hk as <-.
  - discriminate HF.
  - eauto.
  - destruct (py_eq _ _); [|none HH]. apply anything_inv in HH as [_ ->]. now apply Hinfo in Hk.
  - destruct (text_eqb _ _); [|none HH]. apply anything_inv in HH as [_ ->]. now apply Hinfo in Hk.
  - apply mbind_Ok in HH as (s1 & [r1|] & H1 & HH); [|none HH].
    apply mbind_Ok in HH as (s2 & rm & H2 & HH). apply lift_Ok in H2 as [-> H2].
    destruct (m_span rm) as [[a b]|]; [|none HH]. destruct (cr_match r _ a b) as [regs|]; [|none HH].
    apply mbind_Ok in HH as (s3 & rb & H3 & HH). apply lift_Ok in H3 as [-> H3].
    apply mbind_Ok in HH as (s4 & rt & H4 & HH). apply lift_Ok in H4 as [-> H4].
    apply mbind_Ok in HH as (s5 & mb & H5 & HH). apply lift_Ok in H5 as [-> H5].
    destruct mb as [d|]; [|none HH]. apply ret_Ok in HH as [-> [= <-]]. injection Hk as <-. eauto.
  - destruct (cr_search _ _) as [regs|]; [|none HH]. apply ret_Ok in HH as [_ [= <-]]. now injection Hk as <-.
  - unfold has_item in HH. destruct (subscript _ _ _); [|none HH]. apply mbind_Ok in HH as (s1 & o & H1 & HH). eapply rewrap_reps; eassumption.
  - rewrite Forall_forall in H. rewrite forallb_forall in HF. unfold items_are in HH.
    eapply accumulating_reps in HH; [eassumption| |eassumption]. intros a r1 t1 Ha (s1 & s2 & Hs) Ht.
    destruct Ha as [<-|Ha]; [apply unless_inv in Hs as [-> _]; now apply Hinfo in Ht|].
    apply numbered_items_In in Ha as (j & sub & _ & ->). unfold has_item in Hs.
    destruct (subscript _ _ _); [|none Hs]. apply mbind_Ok in Hs as (s3 & o & H3 & Hs). eapply rewrap_reps; eassumption.
  - destruct (seq_items e v0) as [l|]; [|none HH].
    apply mbind_Ok in HH as (s1 & o & H1 & HH). eapply rewrap_reps; eassumption.
  - destruct v0 as [i fs|i l'|i c]; try none HH. destruct (n_line i) as [n|]; [|none HH].
    destruct (zmem n l); [|none HH]. apply anything_inv in HH as [_ ->]. now apply Hinfo in Hk.
  - apply lift_Ok in HH as [_ HH]. discriminate HH.
  - unfold glob in HH. destruct (seq_items e v0) as [l|].
    + apply glob_loop_inv in HH as (d & -> & _). now apply Hinfo in Hk.
    + apply ret_Ok in HH as [_ [= <-]]. discriminate Hk.
  - rewrite Forall_forall in H. rewrite forallb_forall in HF.
    destruct (text_eqb _ _); [|none HH]. eapply accumulating_reps in HH; [eassumption| |eassumption].
    intros a r1 t1 Ha (s1 & s2 & Hs) Ht. apply in_map_iff in Ha as (m & <- & Hm). eapply H; eauto.
  - destruct (negb _); [none HH|]. destruct (negb _); [none HH|].
    apply mbind_Ok in HH as (s1 & o & H1 & HH). eapply rewrap_reps; eassumption.
  - destruct (parent e v0) as [p|]; [|none HH].
    apply mbind_Ok in HH as (s1 & o & H1 & HH). eapply rewrap_reps; eassumption.
  - apply climb_match in HH as [(s1 & s2 & Hs)|[b ->]]; [|now injection Hk].
    destruct (admits _ _); [eauto | none Hs].
  - apply mbind_Ok in HH as (s1 & o & H1 & HH). eapply rewrap_reps; eassumption.
  - apply descend_match in HH as [(s1 & s2 & Hs)|[b ->]]; [|now injection Hk].
    destruct (admits _ _); [eauto | none Hs].
  - apply mbind_Ok in HH as (s1 & [r1|] & H1 & HH); [|none HH].
    apply mbind_Ok in HH as (s2 & rm & H2 & HH). apply lift_Ok in H2 as [-> H2].
    apply mbind_Ok in HH as (s3 & anc & H3 & HH). apply lift_Ok in H3 as [-> H3].
    apply mbind_Ok in HH as (s4 & [r2|] & H4 & HH); [|none HH].
    apply mbind_Ok in HH as (s5 & b1 & H5 & HH). apply lift_Ok in H5 as [-> H5].
    apply mbind_Ok in HH as (s6 & b2 & H6 & HH). apply lift_Ok in H6 as [-> H6].
    apply mbind_Ok in HH as (s7 & mb & H7 & HH). apply lift_Ok in H7 as [-> H7].
    apply ret_Ok in HH as [-> [= <-]]. now apply Hinfo in Hk.
  - destruct (get_prev_sibling _ _) as [x|]; [|none HH]. destruct (py_truthy x); [eauto | none HH].
  - destruct (get_next_sibling _ _) as [x|]; [|none HH]. destruct (py_truthy x); [eauto | none HH].
  - destruct (dget _ _) as [n|]; [|none HH]. destruct (text_eqb _ _); [|none HH]. eauto.
  - apply mbind_Ok in HH as (s1 & [r1|] & H1 & HH); [|none HH].
    apply mbind_Ok in HH as (s2 & c & H2 & HH). apply lift_Ok in H2 as [-> H2].
    destruct c; [|none HH]. apply ret_Ok in HH as [-> [= <-]]. eauto.
  - apply mbind_Ok in HH as (s1 & [r1|] & H1 & HH); [|none HH].
    apply mbind_Ok in HH as (s2 & c & H2 & HH). apply lift_Ok in H2 as [-> H2].
    destruct c; [none HH|]. apply ret_Ok in HH as [-> [= <-]]. eauto.
  - discriminate HF.
Qed.

(** *** The bindings and replacements of a match are dictionaries *)
Lemma dict_ok_nil {V} : dict_ok ([] : dict V). Proof. constructor. Qed.
Lemma merge_bindings_dict lhs rhs d : dict_ok lhs -> dict_ok rhs -> merge_bindings lhs rhs = Ok (Some d) -> dict_ok d.
Proof. intros Hl Hr E. pose proof (merge_bindings_spec lhs rhs Hl Hr) as H. rewrite E in H. apply H. Qed.
Lemma merge_replacements_dict lhs rhs d : dict_ok lhs -> dict_ok rhs -> merge_replacements lhs rhs = Ok d -> dict_ok d.
Proof. intros Hl Hr E. pose proof (merge_replacements_spec lhs rhs Hl Hr) as H. rewrite E in H. apply H. Qed.

Lemma accumulate_dict acts : (forall a r, In a acts -> succeeds a r -> result_ok r) ->
  forall b t s s' b' t', dict_ok b -> dict_ok t -> accumulate acts b t s = (s', Ok (Some (b', t'))) -> dict_ok b' /\ dict_ok t'.
Proof.
  induction acts as [|a acts IH]; cbn [accumulate]; intros HA b t s s' b' t' Hb Ht H.
  - apply ret_Ok in H as [_ [= -> ->]]. now split.
  - apply mbind_Ok in H as (s1 & [r|] & H1 & H); [|none H].
    apply mbind_Ok in H as (s2 & ob & H2 & H). apply lift_Ok in H2 as [-> H2].
    apply mbind_Ok in H as (s3 & rb & H3 & H). apply lift_Ok in H3 as [-> H3]. apply not_none_Ok in H3 as ->.
    apply mbind_Ok in H as (s4 & mb & H4 & H). apply lift_Ok in H4 as [-> H4].
    destruct mb as [b1|]; [|none H].
    apply mbind_Ok in H as (s5 & rt & H5 & H). apply lift_Ok in H5 as [-> H5].
    apply mbind_Ok in H as (s6 & t1 & H6 & H). apply lift_Ok in H6 as [-> H6].
    assert (Hr : result_ok r) by (apply (HA a r); [now left | now exists s, s1]).
    apply IH in H; [assumption| | |].
    + intros a' r' Ha. apply HA. now right.
    + eapply merge_bindings_dict; [eassumption| |eassumption]. now apply (proj1 Hr).
    + eapply merge_replacements_dict; [eassumption| |eassumption]. now apply (proj2 Hr).
Qed.
Lemma accumulating_dict e v acts s s' r :
  (forall a r, In a acts -> succeeds a r -> result_ok r) ->
  accumulating e v acts s = (s', Ok (Some r)) -> result_ok r.
Proof.
  unfold accumulating. intros HA H. apply mbind_Ok in H as (s1 & [[b t0]|] & H1 & H); [|none H].
  apply ret_Ok in H as [-> [= <-]]. eapply accumulate_dict in H1; [|eassumption|apply dict_ok_nil..].
  destruct H1 as [G1 G2]. split; cbn; intros ? [= <-]; assumption.
Qed.
Lemma info_dict e v b : (forall d, b = Some d -> dict_ok d) -> result_ok (info e v b).
Proof. intros H. split; cbn; [intros d [= ->]; now apply H | intros t [= <-]; apply dict_ok_nil]. Qed.
Lemma anything_dict e v : result_ok (info e v (Some [])).
Proof. apply info_dict. intros d [= <-]. apply dict_ok_nil. Qed.
Lemma rewrap_dict e v o s s' r : rewrap e v o s = (s', Ok (Some r)) -> (forall r0, o = Some r0 -> result_ok r0) -> result_ok r.
Proof.
  intros H Ho. apply rewrap_inv in H as (_ & r0 & b & -> & Hb & ->). apply info_dict. intros d ->. now apply (proj1 (Ho _ eq_refl)).
Qed.
Lemma has_item_dict e i sub v s s' r : (forall x r, succeeds (sub x) r -> result_ok r) ->
  has_item e i sub v s = (s', Ok (Some r)) -> result_ok r.
Proof.
  intros Hs H. unfold has_item in H. destruct (subscript _ _ _); [|none H]. apply mbind_Ok in H as (s1 & o & H1 & H).
  eapply rewrap_dict; [eassumption|]. intros r0 ->. eapply Hs. exists s, s1. exact H1.
Qed.
Lemma items_are_dict e subs v s s' r : (forall sub x r, In sub subs -> succeeds (sub x) r -> result_ok r) ->
  items_are e subs v s = (s', Ok (Some r)) -> result_ok r.
Proof.
  intros Hs H. unfold items_are in H. eapply accumulating_dict in H; [eassumption|]. intros a r1 Ha (s1 & s2 & Hr).
  destruct Ha as [<-|Ha]; [apply unless_inv in Hr as [-> _]; apply anything_dict|].
  apply numbered_items_In in Ha as (j & sub & Hsub & ->). eapply has_item_dict; [|exact Hr]. intros x r2. now apply Hs.
Qed.
Lemma glob_loop_dict e v len : forall blocks is_search pos b s s' r,
  (forall blk sub x r, In (Some blk) blocks -> In sub blk -> succeeds (sub x) r -> result_ok r) -> dict_ok b ->
  glob_loop e v len blocks is_search pos b s = (s', Ok (Some r)) -> result_ok r.
Proof.
  induction blocks as [|[blk|] blocks IH]; cbn [glob_loop]; intros is_search pos b s s' r HS Hb H.
  - destruct (_ && _); apply ret_Ok in H as [_ H]; [discriminate H|]. injection H as <-. apply info_dict. now intros d [= <-].
  - match type of H with (let '(_, _) := ?p in _) _ = _ => destruct p as [pos0 send] end.
    apply mbind_Ok in H as (s1 & [[r0 p']|] & H1 & H); [|none H].
    apply glob_search_inv in H1 as (a & _ & _ & (s3 & s4 & H1)).
    apply items_are_dict in H1; [|intros sub x r1 Hsub; apply (HS blk sub x r1); [now left | assumption]].
    apply mbind_Ok in H as (s5 & ob & H2 & H). apply lift_Ok in H2 as [-> H2].
    apply mbind_Ok in H as (s6 & rb & H3 & H). apply lift_Ok in H3 as [-> H3]. apply not_none_Ok in H3 as ->.
    apply mbind_Ok in H as (s7 & mb & H4 & H). apply lift_Ok in H4 as [-> H4].
    destruct mb as [b1|]; [|none H]. apply IH in H; [assumption| |].
    + intros blk' sub x r1 Hin. apply HS. now right.
    + eapply merge_bindings_dict; [eassumption| |eassumption]. now apply (proj1 H1).
  - apply IH in H; [assumption| |assumption]. intros blk' sub x r1 Hin. apply HS. now right.
Qed.
Lemma climb_dict n e sub : (forall x r, succeeds (sub x) r -> result_ok r) -> forall v s s' r,
  climb n e sub v s = (s', Ok (Some r)) -> result_ok r.
Proof.
  intros HS. induction n; cbn [climb]; intros v s s' r H; [apply lift_Ok in H as [_ H]; discriminate H|].
  apply mbind_Ok in H as (s1 & [r0|] & H1 & H).
  - apply ret_Ok in H as [-> [= ->]]. apply (HS v). now exists s, s1.
  - destruct (parent e v) as [p|]; [|none H].
    apply mbind_Ok in H as (s2 & o' & H2 & H). eapply rewrap_dict; [eassumption|]. intros r0 ->. now apply IHn in H2.
Qed.
Lemma descend_dict e sub : (forall x r, succeeds (sub x) r -> result_ok r) -> forall v s s' r,
  descend e sub v s = (s', Ok (Some r)) -> result_ok r.
Proof.
  intros HS.
  assert (Hch : forall (l : list value) s s' r v,
    Forall (fun w => forall s s' r, descend e sub w s = (s', Ok (Some r)) -> result_ok r) l ->
    (run o' <- first_of (map (descend e sub) l); rewrap e v o') s = (s', Ok (Some r)) -> result_ok r).
  { intros l s s' r v HF H. apply mbind_Ok in H as (s1 & o & H1 & H).
    eapply rewrap_dict; [eassumption|]. intros r0 ->.
    apply first_of_inv in H1 as (a & Ha & (s2 & s3 & Hs)). apply in_map_iff in Ha as (w & <- & Hw).
    rewrite Forall_forall in HF. now apply HF in Hs. }
  induction v as [i fs IH|i l IH|i c] using value_ind'; intros s s' r H; rewrite descend_eq in H;
    apply mbind_Ok in H as (s1 & [r0|] & H1 & H);
    try (apply ret_Ok in H as [-> [= ->]]; eapply HS; exists s, s1; exact H1);
    cbn [vchildren] in H; eapply Hch in H; eauto.
  apply Forall_map. assumption.
Qed.

Lemma all_ok_In ms m : fold_right (fun m' P => dicts_ok m' /\ P) True ms -> In m ms -> dicts_ok m.
Proof. induction ms as [|m0 ms IH]; cbn; [intros _ []|]. intros [H1 H2] [<-|H]; auto. Qed.
Lemma all_fields_ok_In (fs : list (text * matcher)) fm :
  fold_right (fun (fm : text * matcher) P => dicts_ok (snd fm) /\ P) True fs -> In fm fs -> dicts_ok (snd fm).
Proof. induction fs as [|m0 ms IH]; cbn; [intros _ []|]. intros [H1 H2] [<-|H]; auto. Qed.

Theorem results_are_dicts e m : forall v s s' r,
  dicts_ok m -> eval e m v s = (s', Ok (Some r)) -> result_ok r.
Proof.
  induction m using matcher_ind'; intros v0 s0 s' r0 HF HH;
    cbn [dicts_ok] in HF; cbn [eval] in HH.
  - apply anything_inv in HH as [_ ->]. apply anything_dict.
  - apply lift_Ok in HH as [_ HH]. discriminate HH.
  - rewrite Forall_forall in H.
    eapply accumulating_dict; [|eassumption]. intros a r1 Ha (s1 & s2 & Hs).
    apply in_map_iff in Ha as (m & <- & Hm). eapply H; eauto. eapply all_ok_In; eassumption.
  - rewrite Forall_forall in H.
    apply first_of_inv in HH as (a & Ha & (s1 & s2 & Hs)). apply in_flat_map in Ha as (m & Hm & Ha).
    destruct (tried _ _ _); [|destruct Ha]. destruct Ha as [<-|[]]. eapply H; eauto. eapply all_ok_In; eassumption.
  - apply unless_inv in HH as [-> _]. apply anything_dict.
  - destruct (_ || _); (eapply accumulating_dict; [|eassumption]).
    + intros a r1 [].
    + intros a r1 [<-|[]] (s1 & s2 & Hs). apply mbind_Ok in Hs as (s3 & o & H1 & Hs). cbv beta in Hs. injection Hs as _ ->. eauto.
  - apply mbind_Ok in HH as (s1 & [r1|] & H1 & HH); [|none HH].
    apply mbind_Ok in HH as (s2 & rb & H2 & HH). apply lift_Ok in H2 as [-> H2].
    apply bind_Ok in H2 as (ob & H2 & H2'). apply not_none_Ok in H2' as ->.
    apply mbind_Ok in HH as (s3 & rm & H3 & HH). apply lift_Ok in H3 as [-> H3].
    apply mbind_Ok in HH as (s4 & rt & H4 & HH). apply lift_Ok in H4 as [-> H4].
    apply mbind_Ok in HH as (s5 & mb & H5 & HH). apply lift_Ok in H5 as [-> H5].
    destruct mb as [b|]; [|none HH]. apply ret_Ok in HH as [-> [= <-]].
    assert (Hr : result_ok r1) by eauto. split; cbn; intros ? [= <-].
    + eapply merge_bindings_dict; [apply (proj1 Hr), H2| |eassumption]. repeat constructor. intros [].
    + now apply (proj2 Hr).
  - apply mbind_Ok in HH as (s1 & [r1|] & H1 & HH); [|none HH].
    apply mbind_Ok in HH as (s2 & rb & H2 & HH). apply lift_Ok in H2 as [-> H2].
    apply bind_Ok in H2 as (ob & H2 & H2'). apply not_none_Ok in H2' as ->.
    apply mbind_Ok in HH as (s3 & rm & H3 & HH). apply lift_Ok in H3 as [-> H3].
    apply mbind_Ok in HH as (s4 & rt & H4 & HH). apply lift_Ok in H4 as [-> H4].
    apply ret_Ok in HH as [-> [= <-]].
    assert (Hr : result_ok r1) by eauto. split; cbn; intros ? [= <-].
    + unfold dict_ok, dkeys. rewrite map_map. cbn. now apply (proj1 Hr).
    + now apply (proj2 Hr).
  - apply ret_Ok in HH as [_ [= <-]]. split; cbn; intros ? [= <-]; apply dict_ok_nil.
  - destruct HF as [HF1 HF2]. apply mbind_Ok in HH as (s1 & [r1|] & H1 & HH); [|none HH].
    apply mbind_Ok in HH as (s2 & rt & H2 & HH). apply lift_Ok in H2 as [-> H2].
    apply mbind_Ok in HH as (s3 & rb & H3 & HH). apply lift_Ok in H3 as [-> H3].
    apply mbind_Ok in HH as (s4 & rm & H4 & HH). apply lift_Ok in H4 as [-> H4].
    apply mbind_Ok in HH as (s5 & t & H5 & HH). apply lift_Ok in H5 as [-> H5].
    apply ret_Ok in HH as [-> [= <-]].
    assert (Hr : result_ok r1) by eauto. split; cbn.
    + intros b [= ->]. apply (proj1 Hr). assumption.
    + intros ? [= <-]. eapply merge_replacements_dict; [apply (proj2 Hr), H2 | exact HF1 | exact H5].
  - eauto.
  - destruct (py_eq _ _); [|none HH]. apply anything_inv in HH as [_ ->]. apply anything_dict.
  - destruct (text_eqb _ _); [|none HH]. apply anything_inv in HH as [_ ->]. apply anything_dict.
  - destruct HF as [HF1 HF2]. apply mbind_Ok in HH as (s1 & [r1|] & H1 & HH); [|none HH].
    apply mbind_Ok in HH as (s2 & rm & H2 & HH). apply lift_Ok in H2 as [-> H2].
    destruct (m_span rm) as [[a b]|]; [|none HH]. destruct (cr_match r _ a b) as [regs|]; [|none HH].
    apply mbind_Ok in HH as (s3 & rb & H3 & HH). apply lift_Ok in H3 as [-> H3].
    apply bind_Ok in H3 as (ob & H3 & H3'). apply not_none_Ok in H3' as ->.
    apply mbind_Ok in HH as (s4 & rt & H4 & HH). apply lift_Ok in H4 as [-> H4].
    apply mbind_Ok in HH as (s5 & mb & H5 & HH). apply lift_Ok in H5 as [-> H5].
    destruct mb as [d|]; [|none HH]. apply ret_Ok in HH as [-> [= <-]].
    assert (Hr : result_ok r1) by eauto. split; cbn; intros ? [= <-].
    + eapply merge_bindings_dict; [|apply (proj1 Hr), H3|eassumption]. unfold dict_ok. now rewrite re_bindings_keys.
    + now apply (proj2 Hr).
  - destruct (cr_search _ _) as [regs|]; [|none HH]. apply ret_Ok in HH as [_ [= <-]]. split; cbn [r_bindings r_reps]; intros ? [= <-].
    + unfold dict_ok. now rewrite re_bindings_keys.
    + apply dict_ok_nil.
  - eapply has_item_dict; [|eassumption]. intros x r1 (s1 & s2 & Hs). eauto.
  - rewrite Forall_forall in H. eapply items_are_dict; [|eassumption]. intros sub x r1 Hsub (s1 & s2 & Hs).
    apply in_map_iff in Hsub as (m & <- & Hm). eapply H; eauto. eapply all_ok_In; eassumption.
  - destruct (seq_items e v0) as [l|]; [|none HH].
    apply mbind_Ok in HH as (s1 & o & H1 & HH). eapply rewrap_dict; [eassumption|]. intros r1 ->.
    apply first_of_inv in H1 as (a & Ha & (s2 & s3 & Hs)). apply in_map_iff in Ha as (x & <- & _). eauto.
  - destruct v0 as [i fs|i l'|i c]; try none HH. destruct (n_line i) as [n|]; [|none HH].
    destruct (zmem n l); [|none HH]. apply anything_inv in HH as [_ ->]. apply anything_dict.
  - apply lift_Ok in HH as [_ HH]. discriminate HH.
  - rewrite Forall_forall in H. unfold glob in HH. destruct (seq_items e v0) as [l|].
    + eapply glob_loop_dict; [| |eassumption]; [|apply dict_ok_nil].
      intros blk sub x r1 Hb Hs (s1 & s2 & Hr).
      eapply blockify_In in Hb as [(c & [= <-] & [])|Hb]; [|exact Hs].
      apply in_map_iff in Hb as (m & [= _ <-] & Hm). eapply H; eauto. eapply all_ok_In; eassumption.
    + apply ret_Ok in HH as [_ [= <-]]. split; discriminate.
  - rewrite Forall_forall in H.
    destruct (text_eqb _ _); [|none HH]. eapply accumulating_dict; [|eassumption].
    intros a r1 Ha (s1 & s2 & Hs). apply in_map_iff in Ha as (m & <- & Hm). eapply H; eauto. eapply all_fields_ok_In; eassumption.
  - destruct (negb _); [none HH|]. destruct (negb _); [none HH|].
    apply mbind_Ok in HH as (s1 & o & H1 & HH). eapply rewrap_dict; [eassumption|]. intros r1 ->. eauto.
  - destruct (parent e v0) as [p|]; [|none HH].
    apply mbind_Ok in HH as (s1 & o & H1 & HH). eapply rewrap_dict; [eassumption|]. intros r1 ->. eauto.
  - eapply climb_dict; [|eassumption]. intros x r1 (s1 & s2 & Hs).
    destruct (admits _ _); [eauto | none Hs].
  - apply mbind_Ok in HH as (s1 & o & H1 & HH). eapply rewrap_dict; [eassumption|]. intros r1 ->.
    apply first_of_inv in H1 as (a & Ha & (s2 & s3 & Hs)). apply in_map_iff in Ha as (x & <- & _). eauto.
  - eapply descend_dict; [|eassumption]. intros x r1 (s1 & s2 & Hs).
    destruct (admits _ _); [eauto | none Hs].
  - destruct HF as [HF1 HF2]. apply mbind_Ok in HH as (s1 & [r1|] & H1 & HH); [|none HH].
    apply mbind_Ok in HH as (s2 & rm & H2 & HH). apply lift_Ok in H2 as [-> H2].
    apply mbind_Ok in HH as (s3 & anc & H3 & HH). apply lift_Ok in H3 as [-> H3].
    apply mbind_Ok in HH as (s4 & [r2|] & H4 & HH); [|none HH].
    apply mbind_Ok in HH as (s5 & b1 & H5 & HH). apply lift_Ok in H5 as [-> H5].
    apply bind_Ok in H5 as (ob & H5 & H5'). apply not_none_Ok in H5' as ->.
    apply mbind_Ok in HH as (s6 & b2 & H6 & HH). apply lift_Ok in H6 as [-> H6].
    apply bind_Ok in H6 as (ob & H6 & H6'). apply not_none_Ok in H6' as ->.
    apply mbind_Ok in HH as (s7 & mb & H7 & HH). apply lift_Ok in H7 as [-> H7].
    apply ret_Ok in HH as [-> [= <-]]. apply info_dict. intros d ->.
    apply climb_first_inv in H1 as (w & (s8 & s9 & Hw)).
    eapply merge_bindings_dict; [| |exact H7].
    + assert (Hr : result_ok r1) by eauto. now apply (proj1 Hr).
    + assert (Hr : result_ok r2) by eauto. now apply (proj1 Hr).
  - destruct (get_prev_sibling _ _) as [x|]; [|none HH]. destruct (py_truthy x); [eauto | none HH].
  - destruct (get_next_sibling _ _) as [x|]; [|none HH]. destruct (py_truthy x); [eauto | none HH].
  - destruct (dget _ _) as [n|]; [|none HH]. destruct (text_eqb _ _); [|none HH]. eauto.
  - apply mbind_Ok in HH as (s1 & [r1|] & H1 & HH); [|none HH].
    apply mbind_Ok in HH as (s2 & c & H2 & HH). apply lift_Ok in H2 as [-> H2].
    destruct c; [|none HH]. apply ret_Ok in HH as [-> [= <-]]. eauto.
  - apply mbind_Ok in HH as (s1 & [r1|] & H1 & HH); [|none HH].
    apply mbind_Ok in HH as (s2 & c & H2 & HH). apply lift_Ok in H2 as [-> H2].
    destruct c; [none HH|]. apply ret_Ok in HH as [-> [= <-]]. eauto.
  - apply mbind_Ok in HH as (s1 & [after|] & H1 & HH); [|none HH].
    apply mbind_Ok in HH as (s2 & d & H2 & HH). apply lift_Ok in H2 as [-> H2].
    apply ret_Ok in HH as [-> [= <-]]. unfold from_diff in H2. apply bind_Ok in H2 as ([hs rep] & _ & H2).
    destruct rep; [|discriminate H2]. injection H2 as <-.
    match goal with |- context [hunk_dicts ?p ?b ?i ?h] => destruct (hunk_keys p b h i) as (K1 & K2 & _) end.
    split; cbn [r_bindings r_reps]; intros ? [= <-]; unfold dict_ok.
    + unfold dkeys. rewrite map_map. cbn [fst]. refine (eq_ind_r (fun l => NoDup l) _ K1). apply labels_nodup.
    + rewrite K2. apply labels_nodup.
Qed.
