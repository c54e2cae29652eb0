(** C08 (continued): exactly when the preview shows the text.  Theorems only. *)
From Verif Require Import Py PyFacts Subst Fmt ApplySpec SubstSpec SubstProofs SweepProofs DiffProofs Samples PropsSubst DiffExact.

(** With the replaced spans apart and inside the text, the lines the preview
    shows as removed or kept are the text itself if and only if no label starts
    where a replaced span ends (unless another replaced span does): the
    condition of [C08_preview_faithful_partial] cannot be weakened. *)
Theorem C08_preview_exactly_when : forall s data lo hi ps,
  wf_sub s -> nonneg_spans s -> well_oriented s -> replaced_apart s ->
  is_hull s lo hi -> hi <= tlen data -> as_diff s = Ok ps ->
  (concat (map (piece_before data) ps) = slice data lo hi <-> no_dangling_start s).
Proof. exact as_diff_exact. Qed.
Print Assumptions C08_preview_exactly_when.

(** Both sides happen: [(a)(b)] with group 1 replaced is not shown faithfully,
    with both groups replaced it is. *)
Definition d_one : substitution := mksub [(TX "0", (0, 2)); (TX "1", (0, 1)); (TX "2", (1, 2))] [(TX "1", TX "x")].
Definition d_both : substitution := mksub [(TX "0", (0, 2)); (TX "1", (0, 1)); (TX "2", (1, 2))] [(TX "1", TX "x"); (TX "2", TX "y")].
Example C08_exactly_when_nonvacuous :
  (wf_sub d_one /\ nonneg_spans d_one /\ well_oriented d_one /\ replaced_apart d_one /\ is_hull d_one 0 2 /\ ~ no_dangling_start d_one)
  /\ (wf_sub d_both /\ nonneg_spans d_both /\ well_oriented d_both /\ replaced_apart d_both /\ is_hull d_both 0 2 /\ no_dangling_start d_both)
  /\ (exists ps, as_diff d_both = Ok ps /\ concat (map (piece_before (TX "ab")) ps) = TX "ab" /\ concat (map (piece_after (TX "ab")) ps) = TX "xy").
Proof.
  assert (O : forall r, well_oriented (mksub [(TX "0", (0, 2)); (TX "1", (0, 1)); (TX "2", (1, 2))] r)) by (intros r l a b [E|[E|[E|[]]]]; injection E as <- <- <-; lia).
  assert (H : forall r, is_hull (mksub [(TX "0", (0, 2)); (TX "1", (0, 1)); (TX "2", (1, 2))] r) 0 2).
  { intros r. split; [exists (TX "0"), 2; now left|]. split; [exists (TX "0"), 0; now left|]. intros l a b [E|[E|[E|[]]]]; injection E as <- <- <-; lia. }
  assert (A1 : replaced_apart d_one).
  { intros l m a b c d t u (_ & r & Er & H1) (_ & r' & Er' & H2) Hne. injection Er as <-. injection Er' as <-. destruct H1 as [H1|[]], H2 as [H2|[]]. congruence. }
  assert (R2 : forall l a b t, replaced d_both l a b t -> (l = TX "1" /\ a = 0 /\ b = 1) \/ (l = TX "2" /\ a = 1 /\ b = 2)).
  { intros l a b t (H1 & r & E & H2). injection E as <-. destruct H1 as [H1|[H1|[H1|[]]]]; injection H1 as <- <- <-; [|auto|auto]. exfalso. destruct H2 as [H2|[H2|[]]]; discriminate. }
  split; [|split].
  - split; [apply wf_subb_ok; reflexivity|]. split; [apply nonnegb_ok; reflexivity|]. split; [apply O|]. split; [exact A1|]. split; [apply H|].
    intros N. destruct (N (TX "1") 0 1 (TX "x")) as (m & d & u & (M1 & r & Er & M2) & _).
    + split; [right; now left|]. eexists. split; [reflexivity|now left].
    + lia.
    + exists (TX "2"), 2. right; right; now left.
    + injection Er as <-. destruct M2 as [M2|[]]. injection M2 as <- <-. destruct M1 as [M1|[M1|[M1|[]]]]; injection M1; intros; discriminate.
  - split; [apply wf_subb_ok; reflexivity|]. split; [apply nonnegb_ok; reflexivity|]. split; [apply O|]. split.
    { intros l m a b c d t u R1 R1' Hne. apply R2 in R1, R1'. unfold apart. destruct R1 as [(-> & -> & ->)|(-> & -> & ->)], R1' as [(-> & -> & ->)|(-> & -> & ->)]; [congruence| | |congruence]; split; lia. }
    split; [apply H|]. intros l a b t R Hab Hst. apply R2 in R as [(-> & -> & ->)|(-> & -> & ->)].
    + exists (TX "2"), 2, (TX "y"). split; [|lia]. split; [right; right; now left|]. eexists. split; [reflexivity|right; now left].
    + exfalso. destruct Hst as (m & d & [E|[E|[E|[]]]]); injection E; intros; lia.
  - eexists. split; [vm_compute; reflexivity|]. split; vm_compute; reflexivity.
Qed.
