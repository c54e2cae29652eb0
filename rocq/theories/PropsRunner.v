(** C36, C37: which files a run touches, and what it writes.  Theorems only. *)
From Verif Require Import Py PyFacts Subst Fmt ApplySpec SubstSpec ApplyProofs Ast Search Codec Runner
  RunnerSpec CodecProofs RunnerProofs ReportProofs Samples.

(** C36: a dry run changes no file, whatever else happens. *)
Theorem C36_dry_run_never_writes : forall w ru display f sty pairs st e,
  ru_dry_run ru = true -> rewrite_files w ru display f sty pairs = (st, e) -> x_fs st = f.
Proof.
  intros w ru display f sty pairs st e Hd H. apply rewrite_loop in H. destruct H as (st1 & H & <- & _).
  now apply dry_run_loop in H.
Qed.
Print Assumptions C36_dry_run_never_writes.

(** C36: even if the run is cut short by an exception, or a disk misbehaves, a
    file is only touched in place of a file for which something was found. *)
Theorem C36_only_files_with_matches_change : forall w ru display f sty pairs st e q,
  no_clash pairs -> rewrite_files w ru display f sty pairs = (st, e) -> x_fs st q <> f q ->
  ru_dry_run ru = false /\ exists r t ms, In (r, q) pairs /\ finds w ru display f r q t ms.
Proof.
  intros w ru display f sty pairs st e q Hnc H Hne. apply rewrite_loop in H. destruct H as (st1 & H & E & _).
  rewrite <- E in Hne. exact (changed_loop w ru display _ _ _ _ _ Hnc H Hne).
Qed.
Print Assumptions C36_only_files_with_matches_change.

(** C36: after a completed run in place, with working disks, every output file
    holds exactly the rewritten contents if there was a match, and is as before
    otherwise; and all files that are not outputs are as before. *)
Theorem C36_completed_run_writes_exactly : forall w ru display f sty pairs st,
  (forall p, w_writable w p = true) -> (forall p b, w_device w p b = (b, false)) ->
  ru_dry_run ru = false -> no_clash pairs ->
  rewrite_files w ru display f sty pairs = (st, None) ->
  (forall r p, In (r, p) pairs ->
      (exists b, new_contents w ru display f r p b /\ x_fs st p = Some b)
      \/ ((forall t ms, ~ finds w ru display f r p t ms) /\ x_fs st p = f p))
  /\ (forall q, ~ In q (map snd pairs) -> x_fs st q = f q).
Proof.
  intros w ru display f sty pairs st Hw Hv Hd Hnc H. apply rewrite_loop in H. destruct H as (st1 & H & <- & _).
  split.
  - intros r p Hin. exact (complete_loop w ru display Hw Hv _ _ _ Hd Hnc H r p Hin).
  - intros q Hq. exact (loop_outside w ru display _ _ _ _ _ H Hq).
Qed.
Print Assumptions C36_completed_run_writes_exactly.

(** C36: the files whose search crashed are exactly the ones reported, with
    their contents; the crashes do not end the run. *)
Theorem C36_failures_reported_exactly : forall w ru display f sty pairs st,
  no_clash pairs -> rewrite_files w ru display f sty pairs = (st, None) ->
  forall r t, dget (x_failures st) r = Some t <->
              exists p, In (r, p) pairs /\ search_crashes w ru display f r p t.
Proof.
  intros w ru display f sty pairs st Hnc H r t. apply rewrite_loop in H. destruct H as (st1 & H & _ & <-).
  exact (failures_exact w ru display _ _ _ r t Hnc H eq_refl).
Qed.
Print Assumptions C36_failures_reported_exactly.

(** C36: exactly the files that could not be read, decoded or searched are noted
    as skipped, in order (when what is to be written can be written). *)
Theorem C36_skipped_files_are_noted : forall w ru display f sty pairs st,
  ru_dry_run ru = true \/ ((forall p, w_writable w p = true) /\ (forall p b, w_device w p b = (b, false))) ->
  no_clash pairs ->
  rewrite_files w ru display f sty pairs = (st, None) ->
  x_skipped st = flat_map (skip_notes w ru display f) pairs.
Proof. exact rewrite_notes. Qed.
Print Assumptions C36_skipped_files_are_noted.

(** C36: the run completes, whatever searches crash and whatever files cannot be
    read or written, provided that what is found can be shown and applied. *)
Theorem C36_search_failures_do_not_stop_the_run : forall w ru display f sty pairs,
  no_clash pairs ->
  (forall r p t ms, In (r, p) pairs -> finds w ru display f r p t ms -> presentable ru t ms) ->
  exists st, rewrite_files w ru display f sty pairs = (st, None).
Proof.
  intros w ru display f sty pairs Hnc H.
  destruct (loop_completes w ru display pairs (RW f [] false [] [] sty) Hnc H) as [st E].
  unfold rewrite_files. rewrite E. destruct (x_has_changes st && ru_dry_run ru); eauto.
Qed.
Print Assumptions C36_search_failures_do_not_stop_the_run.

(** The hypothesis on the substitutions cannot be dropped: a searcher with
    overlapping substitutions empties the file and ends the run, so that the
    later files are not processed. *)
Definition overlap_runner (show : bool) : runner :=
  Runner (fun t _ => if text_eqb t (TX "crash") then Err ValueError
                     else if text_eqb t (TX "foo(bar, baz)") then Ok [sample_swap; sample_rename]
                     else Ok [mksub [(TX "r", (0, 2))] [(TX "r", TX "x")]; mksub [(TX "r", (1, 3))] [(TX "r", TX "y")]])
         false default_fmt false show true.
Definition good_world : world := World (fun _ => true) (fun _ => true) (fun _ b => (b, false)).
Definition sample_fs : fs := fun p =>
  if text_eqb p (TX "a.py") then Some (TX "crash")
  else if text_eqb p (TX "b.py") then Some (TX "foo(bar, baz)")
  else if text_eqb p (TX "c.py") then Some (TX "other") else None.
Definition id_pairs (l : list path) : list (path * path) := map (fun p => (p, p)) l.
Theorem C36_apply_failure_empties_the_file_refuted :
  exists st, rewrite_files good_world (overlap_runner false) (fun p => p) sample_fs (rstate_init 0)
               (id_pairs [TX "c.py"; TX "b.py"]) = (st, Some ValueError)
    /\ x_fs st (TX "c.py") = Some [] /\ x_fs st (TX "b.py") = Some (TX "foo(bar, baz)").
Proof. eexists. split; [vm_compute; reflexivity|]. split; vm_compute; reflexivity. Qed.
Print Assumptions C36_apply_failure_empties_the_file_refuted.

Example C36_nonvacuous :
  let pairs := id_pairs [TX "a.py"; TX "missing.py"; TX "b.py"] in
  no_clash pairs /\
  exists st, rewrite_files good_world (overlap_runner true) (fun p => p) sample_fs (rstate_init 0) pairs = (st, None)
    /\ x_fs st (TX "b.py") = Some (TX "quux(baz, bar)")
    /\ x_fs st (TX "a.py") = Some (TX "crash")
    /\ x_failures st = [(TX "a.py", TX "crash")].
Proof.
  cbn zeta. split.
  - cbn [id_pairs map no_clash]. split; [|split; [|split; [|exact I]]]; intros r p H; cbn in H;
      repeat match type of H with _ \/ _ => destruct H as [H|H] | False => destruct H end;
      injection H as <- <-; split; discriminate.
  - eexists. split; [vm_compute; reflexivity|]. repeat split; vm_compute; reflexivity.
Qed.

(** C37: what is written back for an unedited text is the original bytes with
    line endings normalised ... *)
Theorem C37_read_then_write_normalises_newlines : forall bs t,
  codec_read bs = Some t -> codec_write t = Some (universal_newlines bs).
Proof. exact write_read. Qed.
Print Assumptions C37_read_then_write_normalises_newlines.

(** ... hence the same bytes if there is no carriage return. *)
Theorem C37_read_then_write_identity_partial : forall bs t,
  ~ In CR bs -> codec_read bs = Some t -> codec_write t = Some bs.
Proof. intros bs t H E. rewrite (write_read bs t E), (un_no_cr bs H). reflexivity. Qed.
Print Assumptions C37_read_then_write_identity_partial.

(** C37, for all files: the file written is the file read, with line endings
    normalised, with the wanted edits performed on its bytes. *)
Theorem C37_bytes_outside_edits_survive_up_to_newlines : forall bs t subs out ob,
  codec_read bs = Some t ->
  Forall wf_sub subs -> Forall nonneg_spans subs ->
  apply_substitutions t subs = Ok out -> codec_write out = Some ob ->
  exists es, Permutation es (flat_map edits_of subs)
             /\ Edited (universal_newlines bs) 0 (map (byte_edit t) es) ob.
Proof.
  intros bs t subs out ob Hr Hw Hn Ha Ho. destruct (apply_edits t subs out Hw Hn Ha) as (es & Hp & HE).
  exists es. split; [assumption|].
  pose proof (write_read bs t Hr) as Ht. unfold codec_write in Ht.
  destruct (edited_bytes t _ 0 es out Ht HE) as (ob' & Ho' & HE').
  - eapply edited_encodable; [exact HE|]. unfold codec_write in Ho. congruence.
  - unfold codec_write in Ho. assert (ob' = ob) by congruence. subst ob'.
    replace (byte_offset t 0) with 0 in HE'; [exact HE'|]. now destruct t.
Qed.
Print Assumptions C37_bytes_outside_edits_survive_up_to_newlines.

(** C37 (missing: files with carriage returns): every byte outside the edits is
    kept. *)
Theorem C37_bytes_outside_edits_survive_partial : forall bs t subs out ob,
  ~ In CR bs -> codec_read bs = Some t ->
  Forall wf_sub subs -> Forall nonneg_spans subs ->
  apply_substitutions t subs = Ok out -> codec_write out = Some ob ->
  exists es, Permutation es (flat_map edits_of subs) /\ Edited bs 0 (map (byte_edit t) es) ob.
Proof.
  intros bs t subs out ob Hcr Hr Hw Hn Ha Ho.
  destruct (C37_bytes_outside_edits_survive_up_to_newlines bs t subs out ob Hr Hw Hn Ha Ho) as (es & H1 & H2).
  rewrite (un_no_cr bs Hcr) in H2. eauto.
Qed.
Print Assumptions C37_bytes_outside_edits_survive_partial.

(** Conversely any text can be written and read back, again up to newlines. *)
Theorem C37_write_then_read : forall t bs, codec_write t = Some bs -> codec_read bs = Some (universal_newlines t).
Proof. intros t bs H. unfold codec_read. now rewrite (encode_decode t bs H). Qed.
Print Assumptions C37_write_then_read.

(** The full claim is false: DOS line endings are lost everywhere in the file. *)
Theorem C37_crlf_preserved_refuted : exists bs t,
  codec_read bs = Some t /\ codec_write t <> Some bs
  /\ (exists s out ob, wf_sub s /\ apply_substitutions t [s] = Ok out /\ codec_write out = Some ob
        /\ bs = TX "a" ++ [CR; NL] ++ TX "b" ++ [CR; NL] /\ ob = TX "a" ++ [NL] ++ TX "c" ++ [NL]).
Proof.
  exists (TX "a" ++ [CR; NL] ++ TX "b" ++ [CR; NL]), (TX "a" ++ [NL] ++ TX "b" ++ [NL]).
  split; [vm_compute; reflexivity|]. split; [vm_compute; discriminate|].
  exists (mksub [(TX "r", (2, 3))] [(TX "r", TX "c")]). do 2 eexists.
  split; [apply wf_subb_ok; reflexivity|]. repeat split; vm_compute; reflexivity.
Qed.
Print Assumptions C37_crlf_preserved_refuted.

Example C37_nonvacuous :
  (* "é€" *)
  let bs := [195; 169; 226; 130; 172] in
  ~ In CR bs /\ codec_read bs = Some [233; 8364]
  /\ (let s := mksub [(TX "r", (1, 2))] [(TX "r", [128512])] in
      wf_sub s /\ nonneg_spans s
      /\ apply_substitutions [233; 8364] [s] = Ok [233; 128512]
      /\ codec_write [233; 128512] = Some [195; 169; 240; 159; 152; 128]).
Proof.
  cbn zeta. split; [cbn; unfold CR; intuition discriminate|]. split; [vm_compute; reflexivity|].
  split; [apply wf_subb_ok; reflexivity|]. split; [apply nonnegb_ok; reflexivity|].
  split; vm_compute; reflexivity.
Qed.
