From Verif Require Import Py PyFacts Subst Fmt Ast Search Codec Runner RunnerSpec
  ApplySpec SubstSpec SweepProofs PragmaProofs.

Lemma fs_set_same f p b : fs_set f p b p = Some b.
Proof. unfold fs_set. now rewrite text_eqb_refl. Qed.
Lemma fs_set_other f p b q : q <> p -> fs_set f p b q = f q.
Proof. unfold fs_set. intro H. destruct (text_eqb q p) eqn:E; [apply text_eqb_eq in E; congruence|reflexivity]. Qed.

Lemma concat_loop_err data l : forall j f p e, concat_loop data l j f p = Err e -> e = ValueError.
Proof.
  induction l as [|[[t a] b] l IH]; intros j f p e; cbn [concat_loop]; [discriminate|].
  destruct (a >? b); [now intros [= <-]|].
  destruct (match p with Some le => le >? a | None => false end); [now intros [= <-]|apply IH].
Qed.
Lemma apply_err data subs e : apply_substitutions data subs = Err e -> e = ValueError \/ e = AssertionError.
Proof.
  unfold apply_substitutions. destruct (mapM (substitution_to_replacement data) subs) as [all|x] eqn:E; cbn [bind].
  - destruct (concatenate_replacements data _) as [[[i a] b]|x] eqn:E2; cbn [bind]; [discriminate|].
    intros [= <-]. left. eapply concat_loop_err. exact E2.
  - intros [= <-]. apply mapM_Err in E. destruct E as (pre & s & post & _ & _ & Hs).
    unfold substitution_to_replacement in Hs.
    destruct (rewrite_to_replacements _ _) as [l|y] eqn:E3; cbn [bind] in Hs.
    + left. eapply concat_loop_err. exact Hs.
    + injection Hs as <-. right. unfold rewrite_to_replacements in E3. destruct (replacements s) as [r|]; [|discriminate].
      destruct (forallb _ _); congruence.
Qed.

Section Run.
  Variables (w : world) (ru : runner) (display : path -> path).

  Lemma run_read_spec st p st' o : run_read w st p = (st', o) ->
    x_fs st' = x_fs st /\ x_failures st' = x_failures st
    /\ forall t, o = Some t <-> file_text w (x_fs st) p t.
  Proof.
    unfold run_read, file_text. intro H.
    destruct (x_fs st p) as [b|].
    - destruct (w_readable w p).
      + destruct (codec_read b) as [t|] eqn:E; injection H as <- <-; cbn; (split; [reflexivity|]; split; [reflexivity|]).
        * intro t'. split; [intro Ht; injection Ht as <-; eauto|]. intros (b' & Hb & _ & Hc). congruence.
        * intro t'. split; [discriminate|]. intros (b' & Hb & _ & Hc). congruence.
      + injection H as <- <-. cbn. split; [reflexivity|]. split; [reflexivity|].
        intro t. split; [discriminate|]. intros (b' & _ & Hc & _). discriminate.
    - injection H as <- <-. split; [reflexivity|]. split; [reflexivity|].
      intro t. split; [discriminate|]. intros (b' & Hb & _). discriminate.
  Qed.

  Lemma run_write_other st p t ms st' e q : run_write w st p t ms = (st', e) -> q <> p -> x_fs st' q = x_fs st q.
  Proof.
    unfold run_write. intros H Hq.
    destruct (negb (w_writable w p)); [injection H as <- <-; reflexivity|].
    destruct (apply_substitutions t ms) as [new|x].
    - destruct (codec_write new) as [b|].
      + destruct (w_device w p b) as [wr fl]. injection H as <- <-. cbn. now apply fs_set_other.
      + injection H as <- <-. cbn. now apply fs_set_other.
    - destruct x; injection H as <- <-; cbn; now apply fs_set_other.
  Qed.
  Lemma run_write_failures st p t ms st' e : run_write w st p t ms = (st', e) -> x_failures st' = x_failures st.
  Proof.
    unfold run_write. intros H.
    destruct (negb (w_writable w p)); [injection H as <- <-; reflexivity|].
    destruct (apply_substitutions t ms) as [new|x].
    - destruct (codec_write new) as [b|].
      + destruct (w_device w p b) as [wr fl]. injection H as <- <-. reflexivity.
      + injection H as <- <-. reflexivity.
    - destruct x; injection H as <- <-; reflexivity.
  Qed.

  (** What one iteration does. *)
  Lemma run_file_cases st r p st' e : run_file w ru display st r p = (st', e) ->
    (x_fs st' = x_fs st /\ x_failures st' = x_failures st /\ e = None
     /\ forall t, ~ file_text w (x_fs st) r t)
    \/ exists t, file_text w (x_fs st) r t /\
       ((x_fs st' = x_fs st /\ x_failures st' = dset (x_failures st) r t /\ e = None
         /\ search_crashes w ru display (x_fs st) r p t)
        \/ ((forall x, ru_find ru t (display p) = Err x -> x = SkipFileError \/ x = SkipFileNoResultsError)
            /\ x_failures st' = x_failures st
            /\ exists ms, ((ru_find ru t (display p) = Ok ms)
                           \/ (ms = [] /\ exists x, ru_find ru t (display p) = Err x))
               /\ ((x_fs st' = x_fs st /\ exists sty x, run_log ru t ms (display p) sty = Err x /\ e = Some x)
                   \/ (x_fs st' = x_fs st /\ e = None /\ (ms = [] \/ ru_dry_run ru = true))
                   \/ (ms <> [] /\ ru_dry_run ru = false
                       /\ exists st1, x_fs st1 = x_fs st /\ run_write w st1 p t ms = (st', e))))).
  Proof.
    unfold run_file. destruct (run_read w st r) as [st1 o] eqn:Er.
    apply run_read_spec in Er. destruct Er as (Hfs & Hfl & Ht). destruct o as [t|].
    2:{ intro H. injection H as <- <-. left. repeat (split; [assumption||reflexivity|]).
        intros t H. apply Ht in H. discriminate. }
    intro H. right. exists t. split; [now apply Ht|].
    unfold run_get_matches in H.
    assert (Hgo : forall ms sk,
      ((ru_find ru t (display p) = Ok ms) \/ (ms = [] /\ exists x, ru_find ru t (display p) = Err x)) ->
      match run_log ru t ms (display p) (x_styles st1) with
      | Err e0 => (RW (x_fs st1) (x_failures st1) (x_has_changes st1) (x_stdout st1) sk (x_styles st1), Some e0)
      | Ok (changed, out, styles) =>
          let st0 := RW (x_fs st1) (x_failures st1) (x_has_changes st1 || changed) (x_stdout st1 ++ out) sk styles in
          if negb (ru_dry_run ru) && (match ms with [] => false | _ => true end)
          then run_write w st0 p t ms else (st0, None)
      end = (st', e) ->
      x_failures st' = x_failures st
      /\ exists ms, ((ru_find ru t (display p) = Ok ms)
                           \/ (ms = [] /\ exists x, ru_find ru t (display p) = Err x))
         /\ ((x_fs st' = x_fs st /\ exists sty x, run_log ru t ms (display p) sty = Err x /\ e = Some x)
             \/ (x_fs st' = x_fs st /\ e = None /\ (ms = [] \/ ru_dry_run ru = true))
             \/ (ms <> [] /\ ru_dry_run ru = false
                 /\ exists st1, x_fs st1 = x_fs st /\ run_write w st1 p t ms = (st', e)))).
    { intros ms sk Hms Hrun. destruct (run_log ru t ms (display p) (x_styles st1)) as [[[ch out] sty]|x] eqn:El.
      - cbv zeta in Hrun. destruct (negb (ru_dry_run ru) && _) eqn:Ed.
        + split; [apply run_write_failures in Hrun; cbn in Hrun; congruence|].
          exists ms. split; [assumption|]. right. right.
          apply andb_true_iff in Ed. destruct Ed as [Ed1 Ed2]. apply negb_true_iff in Ed1.
          split; [destruct ms; congruence|]. split; [assumption|].
          eexists. split; [|exact Hrun]. cbn. assumption.
        + injection Hrun as <- <-. cbn. split; [assumption|]. exists ms. split; [assumption|].
          right. left. split; [assumption|]. split; [reflexivity|].
          apply andb_false_iff in Ed. destruct Ed as [Ed|Ed]; [right; now apply negb_false_iff in Ed|].
          left. destruct ms; [reflexivity|discriminate].
      - injection Hrun as <- <-. cbn. split; [assumption|]. exists ms. split; [assumption|].
        left. split; [assumption|]. eauto. }
    destruct (ru_find ru t (display p)) as [ms|x] eqn:Ef.
    - right. split; [discriminate|]. apply (Hgo ms _ (or_introl eq_refl)) in H. exact H.
    - destruct x;
        try (left; injection H as <- <-; cbn;
             split; [assumption|]; split; [now rewrite Hfl|]; split; [reflexivity|];
             split; [now apply Ht|]; eexists; split; [exact Ef|split; discriminate]).
      + right. split; [intros x E; injection E as <-; auto|].
        apply (Hgo [] _ (or_intror (conj eq_refl (ex_intro _ _ eq_refl)))) in H. exact H.
      + right. split; [intros x E; injection E as <-; auto|].
        apply (Hgo [] _ (or_intror (conj eq_refl (ex_intro _ _ eq_refl)))) in H. exact H.
  Qed.

  Lemma run_file_other st r p st' e q : run_file w ru display st r p = (st', e) -> q <> p -> x_fs st' q = x_fs st q.
  Proof.
    intros H Hq. apply run_file_cases in H.
    destruct H as [(-> & _)|(t & _ & [(-> & _)|(_ & _ & ms & _ & [(-> & _)|[(-> & _)|(_ & _ & st1 & <- & H)]])])];
      try reflexivity.
    eapply run_write_other; eassumption.
  Qed.

  (** *** Dry run *)
  Lemma dry_run_loop pairs st st' e : ru_dry_run ru = true ->
    run_loop w ru display st pairs = (st', e) -> x_fs st' = x_fs st.
  Proof.
    intro Hd. revert st. induction pairs as [|[r p] pairs IH]; intros st H; cbn in H; [now injection H as <- <-|].
    destruct (run_file w ru display st r p) as [st1 [x|]] eqn:E; apply run_file_cases in E;
      (assert (E1 : x_fs st1 = x_fs st);
        [destruct E as [(-> & _)|(t & _ & [(-> & _)|(_ & _ & ms & _ & [(-> & _)|[(-> & _)|(_ & Hd' & _)]])])];
           congruence|]).
    - injection H as <- <-. assumption.
    - apply IH in H. congruence.
  Qed.

  Lemma loop_outside pairs st st' e q : run_loop w ru display st pairs = (st', e) ->
    ~ In q (map snd pairs) -> x_fs st' q = x_fs st q.
  Proof.
    revert st. induction pairs as [|[r p] pairs IH]; intros st H Hq; cbn in H; [now injection H as <- <-|].
    cbn in Hq. destruct (run_file w ru display st r p) as [st1 [x|]] eqn:E;
      assert (E1 : x_fs st1 q = x_fs st q) by (eapply run_file_other; [exact E|intuition]).
    - injection H as <- <-. assumption.
    - apply IH in H; [congruence|tauto].
  Qed.

  (** File texts only depend on the file. *)
  Lemma file_text_ext f g p t : f p = g p -> file_text w f p t <-> file_text w g p t.
  Proof. unfold file_text. intros ->. reflexivity. Qed.
  Lemma finds_ext f g r p t ms : f r = g r -> finds w ru display f r p t ms <-> finds w ru display g r p t ms.
  Proof. unfold finds. intro H. rewrite (file_text_ext f g r t H). reflexivity. Qed.
  Lemma crashes_ext f g r p t : f r = g r -> search_crashes w ru display f r p t <-> search_crashes w ru display g r p t.
  Proof. unfold search_crashes. intro H. rewrite (file_text_ext f g r t H). reflexivity. Qed.
  Lemma new_ext f g r p b : f r = g r -> new_contents w ru display f r p b <-> new_contents w ru display g r p b.
  Proof.
    unfold new_contents. intro H. split; intros (t & ms & out & Hf & Ho); exists t, ms, out; split; auto.
    - now rewrite <- (finds_ext f g).
    - now rewrite (finds_ext f g).
  Qed.

  (** *** Only files with matches change, whatever happens *)
  Lemma changed_loop pairs st st' e q : no_clash pairs -> run_loop w ru display st pairs = (st', e) ->
    x_fs st' q <> x_fs st q ->
    ru_dry_run ru = false /\ exists r t ms, In (r, q) pairs /\ finds w ru display (x_fs st) r q t ms.
  Proof.
    revert st. induction pairs as [|[r p] pairs IH]; intros st Hnc H Hne; cbn in H; [injection H as <- <-; congruence|].
    destruct Hnc as [Hnc1 Hnc].
    destruct (run_file w ru display st r p) as [st1 x] eqn:E.
    assert (Hothers : forall q, q <> p -> x_fs st1 q = x_fs st q) by (intros; eapply run_file_other; eauto).
    assert (Hfirst : x_fs st1 p <> x_fs st p -> ru_dry_run ru = false /\
                     exists t ms, finds w ru display (x_fs st) r p t ms).
    { intro Hp. apply run_file_cases in E.
      destruct E as [(E & _)|(t & Ht & [(E & _)|(_ & _ & ms & Hms & [(E & _)|[(E & _)|(Hn & Hd & _)]])])];
        try congruence.
      split; [assumption|]. exists t, ms. split; [assumption|]. split; [|assumption].
      destruct Hms as [|[-> _]]; congruence. }
    destruct (list_eq_dec Z.eq_dec q p) as [->|Hqp].
    - assert (Hp : x_fs st1 p <> x_fs st p).
      { destruct x; [injection H as <- <-; assumption|].
        assert (x_fs st' p = x_fs st1 p); [|congruence].
        eapply loop_outside; [exact H|]. intro Hin. apply in_map_iff in Hin. destruct Hin as ([r' p'] & E1 & Hin).
        cbn in E1. subst p'. apply Hnc1 in Hin. tauto. }
      destruct (Hfirst Hp) as (Hd & t & ms & Hf). split; [assumption|]. exists r, t, ms. split; [now left|assumption].
    - destruct x; [injection H as <- <-; rewrite (Hothers q Hqp) in Hne; congruence|].
      rewrite <- (Hothers q Hqp) in Hne. destruct (IH st1 Hnc H Hne) as (Hd & r' & t & ms & Hin & Hf).
      split; [assumption|]. exists r', t, ms. split; [now right|].
      rewrite <- (finds_ext (x_fs st1)); [assumption|]. apply Hothers. now apply Hnc1 in Hin.
  Qed.

  (** *** A completed run in place *)
  Hypothesis all_writable : forall p, w_writable w p = true.
  Hypothesis device_ok : forall p b, w_device w p b = (b, false).

  Lemma complete_loop pairs st st' : ru_dry_run ru = false -> no_clash pairs ->
    run_loop w ru display st pairs = (st', None) ->
    forall r p, In (r, p) pairs ->
      (exists b, new_contents w ru display (x_fs st) r p b /\ x_fs st' p = Some b)
      \/ ((forall t ms, ~ finds w ru display (x_fs st) r p t ms) /\ x_fs st' p = x_fs st p).
  Proof.
    intro Hdry. revert st. induction pairs as [|[r0 p0] pairs IH]; intros st Hnc H r p Hin; [destruct Hin|].
    destruct Hnc as [Hnc1 Hnc]. cbn in H.
    destruct (run_file w ru display st r0 p0) as [st1 [x|]] eqn:E; [discriminate|].
    assert (Hothers : forall q, q <> p0 -> x_fs st1 q = x_fs st q) by (intros; eapply run_file_other; eauto).
    destruct Hin as [Heq|Hin].
    - injection Heq as -> ->.
      assert (Hlast : x_fs st' p = x_fs st1 p).
      { eapply loop_outside; [exact H|]. intro Hin. apply in_map_iff in Hin. destruct Hin as ([r' p'] & E1 & Hin).
        cbn in E1. subst p'. apply Hnc1 in Hin. tauto. }
      rewrite Hlast. apply run_file_cases in E.
      destruct E as [(E & _ & _ & Hno)|(t & Ht & [(E & _ & _ & Hcr)|(Hsk & _ & ms & Hms & [(E & sty & x & _ & Ex)|[(E & _ & Hn)|(Hn & Hd & st2 & Hst2 & Hw)]])])].
      + right. split; [|now rewrite E]. intros t ms [Ht _]. exact (Hno t Ht).
      + right. split; [|now rewrite E]. intros t' ms (Ht' & Hf & _). destruct Hcr as (_ & x & Hx & _).
        assert (t' = t); [|congruence]. destruct Ht as (b & Hb & _ & Hc), Ht' as (b' & Hb' & _ & Hc'). congruence.
      + discriminate.
      + right. split; [|now rewrite E]. intros t' ms' (Ht' & Hf & Hne).
        assert (t' = t) by (destruct Ht as (b & Hb & _ & Hc), Ht' as (b' & Hb' & _ & Hc'); congruence).
        subst t'. destruct Hn as [->|Hn]; [|congruence]. destruct Hms as [Hms|[_ (x & Hx)]]; congruence.
      + left. unfold run_write in Hw. rewrite all_writable in Hw. cbn [negb] in Hw.
        destruct (apply_substitutions t ms) as [out|x] eqn:Ea;
          [|destruct (apply_err _ _ _ Ea) as [->| ->]; discriminate].
        destruct (codec_write out) as [b|] eqn:Ec; [|discriminate]. rewrite device_ok in Hw.
          injection Hw as <-. cbn. exists b. rewrite fs_set_same. split; [|reflexivity].
          exists t, ms, out. split; [|auto]. split; [assumption|]. split; [|assumption].
          destruct Hms as [|[-> _]]; congruence.
    - destruct (Hnc1 r p Hin) as [Hr Hp]. destruct (IH st1 Hnc H r p Hin) as [(b & Hb & Hs)|(Hb & Hs)].
      + left. exists b. split; [|assumption]. rewrite <- (new_ext (x_fs st1)); [assumption|auto].
      + right. split; [|rewrite Hs; auto]. intros t ms Hf. apply (Hb t ms).
        rewrite (finds_ext (x_fs st1) (x_fs st)); [assumption|auto].
  Qed.
End Run.


Section Run2.
  Variables (w : world) (ru : runner) (display : path -> path).

  Lemma text_fun f r t t' : file_text w f r t -> file_text w f r t' -> t = t'.
  Proof. intros (b & Hb & _ & Hc) (b' & Hb' & _ & Hc'). congruence. Qed.

  Lemma run_file_failures st r p st' e : run_file w ru display st r p = (st', e) ->
    (x_failures st' = x_failures st /\ forall t, ~ search_crashes w ru display (x_fs st) r p t)
    \/ (exists t, x_failures st' = dset (x_failures st) r t /\ search_crashes w ru display (x_fs st) r p t
                  /\ e = None).
  Proof.
    intro H. apply run_file_cases in H.
    destruct H as [(_ & Hf & _ & Hno)|(t & Ht & [(_ & Hf & He & Hc)|(Hsk & Hf & _)])].
    - left. split; [assumption|]. intros t [Ht _]. exact (Hno t Ht).
    - right. eauto.
    - left. split; [assumption|]. intros t' (Ht' & x & Hx & Hx1 & Hx2).
      rewrite (text_fun _ _ _ _ Ht' Ht) in Hx. destruct (Hsk x Hx); congruence.
  Qed.

  Lemma failures_sound pairs st st' e r t : no_clash pairs -> run_loop w ru display st pairs = (st', e) ->
    dget (x_failures st') r = Some t ->
    dget (x_failures st) r = Some t \/ exists p, In (r, p) pairs /\ search_crashes w ru display (x_fs st) r p t.
  Proof.
    revert st. induction pairs as [|[r0 p0] pairs IH]; intros st Hnc H Hg; cbn in H; [injection H as <- <-; auto|].
    destruct Hnc as [Hnc1 Hnc].
    destruct (run_file w ru display st r0 p0) as [st1 x] eqn:E.
    assert (Hothers : forall q, q <> p0 -> x_fs st1 q = x_fs st q) by (intros; eapply run_file_other; eauto).
    assert (Hfirst : dget (x_failures st1) r = Some t ->
             dget (x_failures st) r = Some t \/ exists p, In (r, p) ((r0, p0) :: pairs) /\ search_crashes w ru display (x_fs st) r p t).
    { intro Hg1. apply run_file_failures in E. destruct E as [[E _]|(t0 & E & Hc & _)].
      - rewrite E in Hg1. auto.
      - rewrite E in Hg1. destruct (text_eq_dec r r0) as [->|Hr].
        + rewrite dget_dset, text_eqb_refl in Hg1. injection Hg1 as ->. right. exists p0. split; [now left|assumption].
        + rewrite dget_dset in Hg1. destruct (text_eqb _ _) eqn:Eb; [apply text_eqb_eq in Eb; congruence|auto]. }
    destruct x; [injection H as <- <-; auto|].
    destruct (IH st1 Hnc H Hg) as [|(p & Hin & Hc)]; [auto|].
    right. exists p. split; [now right|]. rewrite <- (crashes_ext w ru display (x_fs st1)); [assumption|].
    apply Hothers. now apply Hnc1 in Hin.
  Qed.

  Lemma failures_kept pairs st st' e r : run_loop w ru display st pairs = (st', e) ->
    dget (x_failures st) r <> None -> dget (x_failures st') r <> None.
  Proof.
    revert st. induction pairs as [|[r0 p0] pairs IH]; intros st H Hg; cbn in H; [injection H as <- <-; auto|].
    destruct (run_file w ru display st r0 p0) as [st1 x] eqn:E.
    assert (dget (x_failures st1) r <> None).
    { apply run_file_failures in E. destruct E as [[E _]|(t0 & E & Hc & _)]; rewrite E; [assumption|].
      rewrite dget_dset. destruct (text_eqb _ _); [discriminate|assumption]. }
    destruct x; [injection H as <- <-; auto|eauto].
  Qed.

  Lemma failures_found pairs st st' r p t : no_clash pairs -> run_loop w ru display st pairs = (st', None) ->
    In (r, p) pairs -> search_crashes w ru display (x_fs st) r p t -> dget (x_failures st') r <> None.
  Proof.
    revert st. induction pairs as [|[r0 p0] pairs IH]; intros st Hnc H Hin Hc; cbn in H; [destruct Hin|].
    destruct Hnc as [Hnc1 Hnc].
    destruct (run_file w ru display st r0 p0) as [st1 [x|]] eqn:E; [discriminate|].
    destruct Hin as [Heq|Hin].
    - injection Heq as -> ->. eapply failures_kept; [exact H|].
      apply run_file_failures in E. destruct E as [[_ E]|(t0 & E & _)]; [destruct (E t Hc)|].
      rewrite E, dget_dset, text_eqb_refl. discriminate.
    - eapply IH; eauto. rewrite (crashes_ext w ru display (x_fs st1) (x_fs st)); [assumption|].
      eapply run_file_other; [exact E|]. now apply Hnc1 in Hin.
  Qed.

  Lemma failures_exact pairs st st' r t : no_clash pairs -> run_loop w ru display st pairs = (st', None) ->
    x_failures st = [] ->
    (dget (x_failures st') r = Some t <->
     exists p, In (r, p) pairs /\ search_crashes w ru display (x_fs st) r p t).
  Proof.
    intros Hnc H H0. split.
    - intro Hg. destruct (failures_sound _ _ _ _ _ _ Hnc H Hg) as [Hx|]; [rewrite H0 in Hx; discriminate|assumption].
    - intros (p & Hin & Hc). pose proof (failures_found _ _ _ _ _ _ Hnc H Hin Hc) as Hd.
      destruct (dget (x_failures st') r) as [t'|] eqn:Eg; [|congruence].
      destruct (failures_sound _ _ _ _ _ _ Hnc H Eg) as [Hx|(p' & _ & Hc')]; [rewrite H0 in Hx; discriminate|].
      destruct Hc as [Ht _], Hc' as [Ht' _]. now rewrite (text_fun _ _ _ _ Ht Ht').
  Qed.

  (** *** When a run completes *)
  Lemma as_diff_ok s : dict_ok (matched_spans s) -> well_oriented s -> exists d, as_diff s = Ok d.
  Proof.
    intros Hd Hw. unfold as_diff. destruct (labeled_spans s) as [l|x] eqn:E; [eexists; reflexivity|].
    apply labeled_spans_err in E; [|assumption]. tauto.
  Qed.
  Lemma render_ok c s st : dict_ok (matched_spans s) -> matched_spans s <> [] -> well_oriented s ->
    exists r, render (ru_color ru) (ru_fmt ru) c s st = Ok r.
  Proof.
    intros Hd Hn Hw. unfold render. destruct (as_diff_ok s Hd Hw) as [d ->]. cbn [bind].
    destruct (matched_spans s) as [|[k [a b]] rest]; [congruence|]. cbn [match_hull bind].
    destruct (line_expanded_span _ _ _) as [ls le]. destruct (has_replacements s).
    - destruct (render_blocks _ _ _ _ _). eexists; reflexivity.
    - destruct (render_diff_block _ _ _ _ _ _ _). eexists; reflexivity.
  Qed.
  Lemma diff_subs_ok c ms : Forall (fun s => dict_ok (matched_spans s) /\ matched_spans s <> [] /\ well_oriented s) ms ->
    forall last st, exists r, diff_substitutions_loop (ru_color ru) (ru_fmt ru) c ms last st = Ok r.
  Proof.
    induction 1 as [|s ms (Hd & Hn & Hw) _ IH]; intros last st; cbn [diff_substitutions_loop]; [eexists; reflexivity|].
    destruct (render_ok c s st Hd Hn Hw) as [[st1 [d disp]] ->]. cbn [bind].
    destruct (IH d st1) as [[st2 out] ->]. cbn [bind]. eexists; reflexivity.
  Qed.
  Lemma run_log_ok c ms n st : Forall (fun s => dict_ok (matched_spans s) /\ matched_spans s <> [] /\ well_oriented s) ms ->
    exists r, run_log ru c ms n st = Ok r.
  Proof.
    intro H. unfold run_log. destruct ms as [|s ms]; [eexists; reflexivity|].
    destruct (negb (ru_show_diff ru) && negb (ru_show_files ru)); [eexists; reflexivity|].
    destruct (negb (ru_show_diff ru) && ru_show_files ru); [eexists; reflexivity|]. cbv zeta.
    unfold diff_substitutions.
    destruct (diff_subs_ok c (s :: ms) H false st) as [[st2 out] ->]. cbn [bind]. eexists; reflexivity.
  Qed.

  Lemma run_file_completes st r p : (forall t ms, finds w ru display (x_fs st) r p t ms -> presentable ru t ms) ->
    exists st', run_file w ru display st r p = (st', None).
  Proof.
    intro Hp. destruct (run_file w ru display st r p) as [st' [x|]] eqn:E; [|eauto]. exfalso.
    apply run_file_cases in E.
    destruct E as [(_ & _ & E & _)|(t & Ht & [(_ & _ & E & _)|(Hsk & _ & ms & Hms & Hc)])]; try discriminate.
    assert (Hpres : ms <> [] -> presentable ru t ms).
    { intro Hn. apply Hp. split; [assumption|]. split; [|assumption]. destruct Hms as [|[-> _]]; congruence. }
    destruct Hc as [(_ & sty & y & Hl & _)|[(_ & E & _)|(Hn & Hd & st1 & _ & Hw)]]; try discriminate.
    - destruct ms as [|s ms]; [discriminate|]. destruct Hpres as [Hpr _]; [discriminate|].
      destruct (run_log_ok t _ (display p) sty Hpr) as [r0 Hr0]. congruence.
    - destruct (Hpres Hn) as [_ Ha]. destruct (Ha Hd) as (out & b & E1 & E2).
      unfold run_write in Hw. destruct (negb (w_writable w p)); [discriminate|]. rewrite E1, E2 in Hw.
      destruct (w_device w p b). discriminate.
  Qed.

  Lemma loop_completes pairs st : no_clash pairs ->
    (forall r p t ms, In (r, p) pairs -> finds w ru display (x_fs st) r p t ms -> presentable ru t ms) ->
    exists st', run_loop w ru display st pairs = (st', None).
  Proof.
    revert st. induction pairs as [|[r p] pairs IH]; intros st Hnc H; cbn; [eauto|].
    destruct Hnc as [Hnc1 Hnc].
    destruct (run_file_completes st r p) as [st1 E]; [intros; apply (H r p); [now left|assumption]|].
    rewrite E. apply IH; [assumption|]. intros r' p' t ms Hin Hf. apply (H r' p'); [now right|].
    rewrite <- (finds_ext w ru display (x_fs st1)); [assumption|]. eapply run_file_other; [exact E|].
    now apply Hnc1 in Hin.
  Qed.

  (** *** rewrite_files *)
  Lemma rewrite_loop f sty pairs st' e : rewrite_files w ru display f sty pairs = (st', e) ->
    exists st1, run_loop w ru display (RW f [] false [] [] sty) pairs = (st1, e)
      /\ x_fs st1 = x_fs st' /\ x_failures st1 = x_failures st'.
  Proof.
    unfold rewrite_files. destruct (run_loop _ _ _ _ _) as [st1 [x|]]; intros [= <- <-]; [eauto|].
    exists st1. split; [reflexivity|]. destruct (x_has_changes st1 && ru_dry_run ru); auto.
  Qed.
End Run2.
