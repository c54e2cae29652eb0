(** What a run prints: the skip notes, and the file names of -l. *)
From Verif Require Import Py PyFacts Subst Fmt ApplySpec SubstSpec ApplyProofs Ast Search Codec Runner
  RunnerSpec CodecProofs RunnerProofs.

Section Report.
  Variables (w : world) (ru : runner) (display : path -> path).
  Definition working : Prop :=
    ru_dry_run ru = true \/ ((forall p, w_writable w p = true) /\ (forall p b, w_device w p b = (b, false))).

  Lemma write_notes st p t ms st' : working -> ru_dry_run ru = false ->
    run_write w st p t ms = (st', None) -> x_skipped st' = x_skipped st.
  Proof.
    intros [H0|[H1 H2]] Hd H; [congruence|]. unfold run_write in H. rewrite H1 in H. cbn [negb] in H.
    destruct (apply_substitutions t ms) as [new|x] eqn:E.
    - destruct (codec_write new) as [b|]; [|discriminate H]. rewrite H2 in H. injection H as <-. reflexivity.
    - apply apply_err in E as [->| ->]; discriminate H.
  Qed.

  Lemma file_notes st r p st' : working -> run_file w ru display st r p = (st', None) ->
    x_skipped st' = x_skipped st ++ skip_notes w ru display (x_fs st) (r, p).
  Proof.
    intros HW H. unfold run_file, run_read in H. unfold skip_notes.
    destruct (x_fs st r) as [b|]; [|injection H as <-; now rewrite app_nil_r].
    destruct (w_readable w r); cbn [negb]; [|injection H as <-; reflexivity].
    destruct (codec_read b) as [t|]; [|injection H as <-; reflexivity].
    unfold run_get_matches in H.
    destruct (ru_find ru t (display p)) as [ms|x].
    - destruct (run_log ru t ms (display p) (x_styles st)) as [[[c out] sty]|x]; [|discriminate H].
      rewrite app_nil_r. destruct (negb (ru_dry_run ru)) eqn:Ed; cbn [andb] in H.
      + destruct ms as [|m ms]; [injection H as <-; reflexivity|].
        apply write_notes in H; [exact H | assumption | now destruct (ru_dry_run ru)].
      + injection H as <-. reflexivity.
    - destruct x; try (injection H as <-; reflexivity);
        cbn [run_log] in H; rewrite andb_false_r in H; injection H as <-; cbn; now rewrite ?app_nil_r.
  Qed.

  Lemma notes_ext f g rp : f (fst rp) = g (fst rp) -> skip_notes w ru display f rp = skip_notes w ru display g rp.
  Proof. destruct rp as [r p]. cbn. now intros ->. Qed.
  Lemma name_ext f g rp : f (fst rp) = g (fst rp) -> match_name w ru display f rp = match_name w ru display g rp.
  Proof. destruct rp as [r p]. cbn. now intros ->. Qed.
  Lemma flat_map_ext_in {A B} (f g : A -> list B) l : (forall x, In x l -> f x = g x) -> flat_map f l = flat_map g l.
  Proof.
    induction l as [|x l IH]; intros H; [reflexivity|]. cbn. rewrite H by now left. f_equal. apply IH. intros; apply H; now right.
  Qed.

  Theorem loop_notes pairs : forall st st', working -> no_clash pairs ->
    run_loop w ru display st pairs = (st', None) ->
    x_skipped st' = x_skipped st ++ flat_map (skip_notes w ru display (x_fs st)) pairs.
  Proof.
    induction pairs as [|[r p] pairs IH]; intros st st' HW Hnc H; cbn [run_loop] in H.
    - injection H as <-. cbn. now rewrite app_nil_r.
    - destruct Hnc as [Hnc1 Hnc]. destruct (run_file w ru display st r p) as [st1 [x|]] eqn:E; [discriminate H|].
      apply IH in H; [|assumption..]. cbn [flat_map]. rewrite H, (file_notes _ _ _ _ HW E), <- app_assoc. f_equal. f_equal.
      apply flat_map_ext_in. intros [r' p'] Hin. apply notes_ext. cbn.
      eapply run_file_other; [exact E|]. now apply Hnc1 in Hin.
  Qed.

  (** -l *)
  Hypothesis Hl : ru_show_diff ru = false /\ ru_show_files ru = true.
  Lemma write_stdout st p t ms st' e : run_write w st p t ms = (st', e) ->
    x_stdout st' = x_stdout st /\ x_has_changes st' = x_has_changes st.
  Proof.
    unfold run_write. intros H. destruct (negb (w_writable w p)); [injection H as <- <-; now split|].
    destruct (apply_substitutions t ms) as [new|x].
    - destruct (codec_write new) as [b|]; [|injection H as <- <-; now split].
      destruct (w_device w p b). injection H as <- <-. now split.
    - destruct x; injection H as <- <-; now split.
  Qed.
  Lemma file_names st r p st' e : run_file w ru display st r p = (st', e) ->
    x_stdout st' = x_stdout st ++ match_name w ru display (x_fs st) (r, p)
    /\ x_has_changes st' = x_has_changes st.
  Proof.
    destruct Hl as [Hd Hf]. intros H. unfold run_file, run_read in H. unfold match_name.
    destruct (x_fs st r) as [b|]; [|injection H as <- <-; rewrite app_nil_r; now split].
    destruct (w_readable w r); cbn [negb]; [|injection H as <- <-; rewrite app_nil_r; now split].
    destruct (codec_read b) as [t|]; [|injection H as <- <-; rewrite app_nil_r; now split].
    unfold run_get_matches in H.
    destruct (ru_find ru t (display p)) as [ms|x].
    - unfold run_log in H. rewrite Hd, Hf in H. destruct ms as [|m ms]; cbn [negb andb] in H.
      + rewrite andb_false_r in H. injection H as <- <-. cbn. rewrite orb_false_r. now split.
      + destruct (negb (ru_dry_run ru)); cbn [andb] in H.
        * apply write_stdout in H as [-> ->]. cbn. now rewrite orb_false_r.
        * injection H as <- <-. cbn. now rewrite orb_false_r.
    - rewrite app_nil_r. destruct x; try (injection H as <- <-; now split);
        cbn [run_log] in H; rewrite andb_false_r in H; injection H as <- <-; cbn;
        rewrite app_nil_r, orb_false_r; now split.
  Qed.
  Theorem loop_names pairs : forall st st', no_clash pairs ->
    run_loop w ru display st pairs = (st', None) ->
    x_stdout st' = x_stdout st ++ flat_map (match_name w ru display (x_fs st)) pairs
    /\ x_has_changes st' = x_has_changes st.
  Proof.
    induction pairs as [|[r p] pairs IH]; intros st st' Hnc H; cbn [run_loop] in H.
    - injection H as <-. cbn. now rewrite app_nil_r.
    - destruct Hnc as [Hnc1 Hnc]. destruct (run_file w ru display st r p) as [st1 [x|]] eqn:E; [discriminate H|].
      apply IH in H as [H1 H2]; [|assumption]. destruct (file_names _ _ _ _ _ E) as [E1 E2].
      split; [|congruence]. cbn [flat_map]. rewrite H1, E1, <- app_assoc. f_equal. f_equal.
      apply flat_map_ext_in. intros [r' p'] Hin. apply name_ext. cbn.
      eapply run_file_other; [exact E|]. now apply Hnc1 in Hin.
  Qed.
End Report.

Theorem rewrite_notes w ru display f sty pairs st :
  working w ru -> no_clash pairs ->
  rewrite_files w ru display f sty pairs = (st, None) ->
  x_skipped st = flat_map (skip_notes w ru display f) pairs.
Proof.
  intros HW Hnc H. unfold rewrite_files in H.
  destruct (run_loop w ru display (RW f [] false [] [] sty) pairs) as [st1 [x|]] eqn:E; [discriminate H|].
  apply loop_notes in E; [|assumption..]. cbn in E.
  destruct (x_has_changes st1 && ru_dry_run ru); injection H as <-; exact E.
Qed.
Theorem rewrite_names w ru display f sty pairs st :
  ru_show_diff ru = false -> ru_show_files ru = true -> no_clash pairs ->
  rewrite_files w ru display f sty pairs = (st, None) ->
  x_stdout st = flat_map (match_name w ru display f) pairs.
Proof.
  intros H1 H2 Hnc H. unfold rewrite_files in H.
  destruct (run_loop w ru display (RW f [] false [] [] sty) pairs) as [st1 [x|]] eqn:E; [discriminate H|].
  apply loop_names in E as [E1 E2]; [|now split | assumption]. cbn in E1, E2.
  rewrite E2 in H. injection H as <-. exact E1.
Qed.
