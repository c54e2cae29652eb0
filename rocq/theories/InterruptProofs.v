From Verif Require Import Py PyFacts Subst Fmt Ast Search Codec Runner RunnerSpec RunnerProofs Interrupt InterruptSpec.

Lemma play_app f a b : play f (a ++ b) = play (play f a) b.
Proof. apply fold_left_app. Qed.
Lemma play_ext es : forall f g q, (forall q, f q = g q) -> play f es q = play g es q.
Proof.
  induction es as [|e es IH]; intros f g q H; [apply H|].
  change (play ?h (e :: es)) with (play (do_event h e) es). apply IH. intros q'.
  destruct e as [p|p b]; cbn; unfold fs_set; rewrite ?H; reflexivity.
Qed.
Definition at_path (p : path) (e : event) : Prop := match e with Truncate q | Append q _ => q = p end.
Lemma play_other p es : Forall (at_path p) es -> forall f q, q <> p -> play f es q = f q.
Proof.
  induction 1 as [|e es He H IH]; intros f q Hq; [reflexivity|].
  change (play f (e :: es)) with (play (do_event f e) es). rewrite IH by exact Hq.
  destruct e; cbn in He; subst; now apply fs_set_other.
Qed.
Lemma play_appends p cs : forall f c, f p = Some c -> play f (map (Append p) cs) p = Some (c ++ concat cs).
Proof.
  induction cs as [|b cs IH]; intros f c H; cbn [map concat]; [rewrite app_nil_r; exact H|].
  change (play f (Append p b :: map (Append p) cs)) with (play (do_event f (Append p b)) (map (Append p) cs)).
  rewrite (IH _ (c ++ b)); [now rewrite app_assoc|]. cbn. rewrite H. apply fs_set_same.
Qed.

Section Trace.
  Variables (w : world) (ru : runner) (display : path -> path) (chunks : bytes -> list bytes).
  Hypothesis chunks_ok : forall b, concat (chunks b) = b.

  Lemma write_events_spec st p t ms st' e f : (forall q, f q = x_fs st q) ->
    run_write w st p t ms = (st', e) -> forall q, play f (write_events w chunks p t ms) q = x_fs st' q.
  Proof.
    intros Hf H q. unfold run_write in H. unfold write_events.
    destruct (negb (w_writable w p)); [injection H as <- <-; apply Hf|].
    cbn [play fold_left]. set (f0 := do_event f (Truncate p)).
    assert (E0 : f0 p = Some []) by apply fs_set_same.
    assert (E1 : forall q, q <> p -> f0 q = x_fs st q) by (intros q' Hq; unfold f0; cbn; rewrite fs_set_other by exact Hq; apply Hf).
    assert (T : f0 q = fs_set (x_fs st) p [] q).
    { unfold f0. cbn. unfold fs_set. now rewrite Hf. }
    destruct (apply_substitutions t ms) as [new|x].
    - destruct (codec_write new) as [b|].
      + destruct (w_device w p b) as [wr fl]. injection H as <- <-. cbn [fst x_fs].
        change (fold_left do_event (map (Append p) (chunks wr)) f0) with (play f0 (map (Append p) (chunks wr))).
        destruct (list_eq_dec Z.eq_dec q p) as [->|Hq].
        * rewrite (play_appends p _ f0 [] E0). cbn [app]. rewrite chunks_ok. symmetry. apply fs_set_same.
        * rewrite (play_other p) by (try exact Hq; apply Forall_map, Forall_forall; reflexivity).
          rewrite fs_set_other by exact Hq. now apply E1.
      + injection H as <- <-. exact T.
    - destruct x; injection H as <- <-; exact T.
  Qed.
  Lemma write_events_at p t ms : Forall (at_path p) (write_events w chunks p t ms).
  Proof.
    unfold write_events. destruct (negb (w_writable w p)); [constructor|]. constructor; [reflexivity|].
    destruct (apply_substitutions t ms); [|constructor]. destruct (codec_write _); [|constructor].
    apply Forall_map, Forall_forall. reflexivity.
  Qed.

  (** The events of one file: none, or those of writing what was found. *)
  Lemma file_events_cases st r p : 
    (file_events w ru display chunks st r p = [] /\ x_fs (fst (run_file w ru display st r p)) = x_fs st)
    \/ exists t ms st1, finds w ru display (x_fs st) r p t ms
         /\ file_events w ru display chunks st r p = write_events w chunks p t ms
         /\ x_fs st1 = x_fs st /\ run_file w ru display st r p = run_write w st1 p t ms /\ ru_dry_run ru = false.
  Proof.
    unfold file_events, run_file. destruct (run_read w st r) as [st1 o] eqn:Er.
    apply run_read_spec in Er. destruct Er as (Hfs & _ & Ht). destruct o as [t|]; [|left; split; [reflexivity|exact Hfs]].
    pose proof (proj1 (Ht t) eq_refl) as Hft.
    unfold run_get_matches. destruct (ru_find ru t (display p)) as [ms|x] eqn:Ef.
    - destruct (run_log ru t ms (display p) (x_styles st1)) as [[[ch out] sty]|x]; [|left; split; [reflexivity|exact Hfs]].
      destruct (negb (ru_dry_run ru) && _) eqn:E; [|left; split; [reflexivity|exact Hfs]].
      apply andb_true_iff in E. destruct E as [E1 E2]. apply negb_true_iff in E1.
      right. exists t, ms. eexists. split; [split; [exact Hft|split; [exact Ef|now destruct ms]]|].
      split; [reflexivity|]. split; [|split; [reflexivity|exact E1]]. exact Hfs.
    - destruct x; try (left; split; [reflexivity|exact Hfs]);
        (destruct (run_log ru t [] (display p) (x_styles st1)) as [[[ch out] sty]|x];
         [|left; split; [reflexivity|exact Hfs]]); rewrite andb_false_r; left; split; try reflexivity; exact Hfs.
  Qed.
  Lemma file_events_spec st r p st' e f : (forall q, f q = x_fs st q) ->
    run_file w ru display st r p = (st', e) -> forall q, play f (file_events w ru display chunks st r p) q = x_fs st' q.
  Proof.
    intros Hf H q. destruct (file_events_cases st r p) as [[-> E]|(t & ms & st1 & _ & -> & E1 & E2 & _)].
    - rewrite H in E. cbn in *. rewrite E. apply Hf.
    - rewrite E2 in H. eapply write_events_spec; [|exact H]. intros q'. now rewrite E1.
  Qed.
  Lemma run_events_spec pairs : forall st st' e f, (forall q, f q = x_fs st q) ->
    run_loop w ru display st pairs = (st', e) -> forall q, play f (run_events w ru display chunks st pairs) q = x_fs st' q.
  Proof.
    induction pairs as [|[r p] pairs IH]; intros st st' e f Hf H q; cbn [run_loop run_events] in *.
    - injection H as <- <-. apply Hf.
    - rewrite play_app. destruct (run_file w ru display st r p) as [st1 [x|]] eqn:E.
      + injection H as <- <-. cbn [play fold_left]. eapply file_events_spec; eassumption.
      + eapply IH; [|exact H]. intros q'. eapply file_events_spec; eassumption.
  Qed.

  (** Without -i nothing is ever touched. *)
  Lemma dry_events pairs : ru_dry_run ru = true -> forall st, run_events w ru display chunks st pairs = [].
  Proof.
    intros Hd. induction pairs as [|[r p] pairs IH]; intros st; cbn [run_events]; [reflexivity|].
    destruct (file_events_cases st r p) as [[-> _]|(t & ms & st1 & _ & _ & _ & _ & C)]; [|congruence].
    destruct (run_file w ru display st r p) as [st1 [x|]]; [reflexivity|]. apply IH.
  Qed.

  Hypothesis all_writable : forall p, w_writable w p = true.
  Hypothesis device_ok : forall p b, w_device w p b = (b, false).

  Lemma firstn_appends p k cs : firstn k (map (Append p) cs) = map (Append p) (firstn k cs).
  Proof. apply firstn_map. Qed.

  Lemma halfway_write st r p t ms k : finds w ru display (x_fs st) r p t ms ->
    halfway w ru display (x_fs st) (play (x_fs st) (firstn k (write_events w chunks p t ms))) r p.
  Proof.
    intros Hf. unfold write_events. rewrite all_writable. cbn [negb]. destruct k as [|k]; [left; reflexivity|].
    cbn [firstn play fold_left]. set (f0 := do_event (x_fs st) (Truncate p)).
    assert (E0 : f0 p = Some []) by apply fs_set_same.
    assert (Huniq : forall b, new_contents w ru display (x_fs st) r p b ->
              exists out, apply_substitutions t ms = Ok out /\ codec_write out = Some b).
    { intros b (t' & ms' & out & (Ht' & Hf' & _) & Ha & Hc). destruct Hf as (Ht & Hf & _).
      assert (t' = t) as -> by (eapply text_fun; eassumption). rewrite Hf in Hf'. injection Hf' as <-. eauto. }
    destruct (apply_substitutions t ms) as [new|x] eqn:Ea.
    - destruct (codec_write new) as [b|] eqn:Ec.
      + rewrite device_ok. cbn [fst]. rewrite firstn_appends.
        right. left. exists (concat (firstn k (chunks b))), (concat (skipn k (chunks b))).
        split; [|exact (play_appends p _ f0 [] E0)]. rewrite <- concat_app, firstn_skipn, chunks_ok. exists t, ms, new. auto.
      + rewrite firstn_nil. cbn [fold_left]. right. right. split; [eauto|]. split; [|exact E0].
        intros b Hb. destruct (Huniq b Hb) as (out & Eo & Eb). congruence.
    - rewrite firstn_nil. cbn [fold_left]. right. right. split; [eauto|]. split; [|exact E0].
      intros b Hb. destruct (Huniq b Hb) as (out & Eo & Eb). congruence.
  Qed.
  Lemma halfway_file st r p k :
    halfway w ru display (x_fs st) (play (x_fs st) (firstn k (file_events w ru display chunks st r p))) r p.
  Proof.
    destruct (file_events_cases st r p) as [[-> _]|(t & ms & st1 & Hf & -> & _)].
    - rewrite firstn_nil. left. reflexivity.
    - now apply halfway_write.
  Qed.
  Lemma file_events_at st r p : Forall (at_path p) (file_events w ru display chunks st r p).
  Proof.
    destruct (file_events_cases st r p) as [[-> _]|(t & ms & st1 & Hf & -> & _)]; [constructor|apply write_events_at].
  Qed.
  Lemma firstn_at p es k : Forall (at_path p) es -> Forall (at_path p) (firstn k es).
  Proof. intros H. apply Forall_forall. intros e He. rewrite Forall_forall in H. apply H. rewrite <- (firstn_skipn k es). apply in_app_iff. now left. Qed.

  Lemma finished_ext f f' g r p : f r = f' r -> f p = f' p -> finished w ru display f g r p -> finished w ru display f' g r p.
  Proof.
    intros Hr Hp [(b & Hb & Hg)|[Hno Hg]].
    - left. exists b. split; [|exact Hg]. now rewrite <- (new_ext w ru display f f').
    - right. split; [|congruence]. intros t ms Hx. apply (Hno t ms). now rewrite (finds_ext w ru display f f').
  Qed.
  Lemma halfway_ext f f' g r p : f r = f' r -> f p = f' p -> halfway w ru display f g r p -> halfway w ru display f' g r p.
  Proof.
    intros Hr Hp [H|[(c & rest & Hb & Hg)|((t & ms & Hf) & Hno & Hg)]].
    - left. congruence.
    - right. left. exists c, rest. split; [|exact Hg]. now rewrite <- (new_ext w ru display f f').
    - right. right. split; [exists t, ms; now rewrite <- (finds_ext w ru display f f')|]. split; [|exact Hg].
      intros b Hb. apply (Hno b). now rewrite (new_ext w ru display f f').
  Qed.

  Lemma interrupted_spec pairs : ru_dry_run ru = false -> no_clash pairs -> forall st k g,
    (forall q, g q = play (x_fs st) (firstn k (run_events w ru display chunks st pairs)) q) ->
    interrupted w ru display (x_fs st) g pairs.
  Proof.
    intros Hdry. induction pairs as [|[r p] pairs IH]; intros Hnc st k g Hg.
    - exists [], [], []. cbn [run_events] in Hg. rewrite firstn_nil in Hg. cbn in Hg.
      repeat (split; [solve [reflexivity|cbn; lia|intros ? ? []]|]). intros q _. apply Hg.
    - destruct Hnc as [Hnc1 Hnc]. cbn [run_events] in Hg.
      set (A := file_events w ru display chunks st r p) in *.
      set (B := match run_file w ru display st r p with (st', None) => run_events w ru display chunks st' pairs | (_, Some _) => [] end) in *.
      assert (Hat : Forall (at_path p) A) by apply file_events_at.
      assert (HnotIn : ~ In p (map snd pairs)).
      { intro C. apply in_map_iff in C. destruct C as ([r' p'] & E & Hin). cbn in E. subst p'. now apply Hnc1 in Hin. }
      assert (Here : forall k', (forall q, g q = play (x_fs st) (firstn k' A) q) ->
                interrupted w ru display (x_fs st) g ((r, p) :: pairs)).
      { intros k' Hg'.
        assert (Hother : forall q, q <> p -> g q = x_fs st q).
        { intros q Hq. rewrite Hg'. apply (play_other p); [now apply firstn_at|exact Hq]. }
        exists [], [(r, p)], pairs. split; [reflexivity|]. split; [cbn; lia|]. split; [intros ? ? []|].
        split; [|split].
        - intros r' p' [E|[]]. injection E as <- <-. pose proof (halfway_file st r p k') as H. fold A in H.
          unfold halfway in *. rewrite <- !Hg' in H. exact H.
        - intros r' p' Hin. apply Hother. intros ->. apply HnotIn. apply in_map_iff. exists (r', p). auto.
        - intros q Hq. apply Hother. intros ->. apply Hq. now left. }
      destruct (Nat.le_gt_cases k (length A)) as [Hk|Hk].
      + apply (Here k). intros q. rewrite Hg, firstn_app. replace (k - length A)%nat with 0%nat by lia.
        now rewrite firstn_O, app_nil_r.
      + destruct (run_file w ru display st r p) as [st' [x|]] eqn:E.
        * apply (Here (length A)). intros q. rewrite Hg. unfold B. rewrite app_nil_r, firstn_all, firstn_all2 by lia. reflexivity.
        * assert (Hst' : forall q, play (x_fs st) A q = x_fs st' q) by (intros q; eapply file_events_spec; [reflexivity|exact E]).
          assert (Hoth : forall q, q <> p -> x_fs st' q = x_fs st q) by (intros q Hq; rewrite <- Hst'; now apply (play_other p)).
          destruct (IH Hnc st' (k - length A)%nat g) as (before & cur & later & Epairs & Hlen & H1 & H2 & H3 & H4).
          { intros q. rewrite Hg, firstn_app, play_app. rewrite firstn_all2 by lia.
            apply play_ext. exact Hst'. }
          exists ((r, p) :: before), cur, later. split; [now rewrite Epairs|]. split; [exact Hlen|].
          assert (Hin : forall r' p', In (r', p') before \/ In (r', p') cur \/ In (r', p') later ->
                    x_fs st' r' = x_fs st r' /\ x_fs st' p' = x_fs st p').
          { intros r' p' Hx. destruct (Hnc1 r' p') as [K1 K2]; [|split; apply Hoth; assumption].
            rewrite Epairs, !in_app_iff. exact Hx. }
          assert (Hgp : g p = x_fs st' p) by (apply H4; exact HnotIn).
          split; [|split; [|split]].
          -- intros r' p' [Ep|Hb].
             ++ injection Ep as <- <-.
                assert (L : run_loop w ru display st [(r, p)] = (st', None)) by (cbn [run_loop]; now rewrite E).
                assert (NC : no_clash [(r, p)]) by (split; [intros ? ? []|exact I]).
                destruct (complete_loop w ru display all_writable device_ok [(r, p)] st st' Hdry NC L r p (or_introl eq_refl))
                  as [(b & Hb & Hs)|(Hb & Hs)].
                ** left. exists b. split; [exact Hb|congruence].
                ** right. split; [exact Hb|congruence].
             ++ destruct (Hin r' p' (or_introl Hb)) as [K1 K2]. eapply finished_ext; [exact K1|exact K2|]. now apply H1.
          -- intros r' p' Hc. destruct (Hin r' p' (or_intror (or_introl Hc))) as [K1 K2].
             eapply halfway_ext; [exact K1|exact K2|]. now apply H2.
          -- intros r' p' Hl. destruct (Hin r' p' (or_intror (or_intror Hl))) as [K1 K2]. rewrite <- K2. now apply (H3 r').
          -- intros q Hq. cbn [map In snd] in Hq. rewrite H4 by tauto. apply Hoth. intros ->. apply Hq. now left.
  Qed.
End Trace.
