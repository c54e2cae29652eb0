(** C05-C08, C11, C12: substitutions.  Theorems only. *)
From Verif Require Import Py PyFacts Subst Fmt ApplySpec SubstSpec SubstProofs SweepProofs DiffProofs Samples.

(** *** C05 *)
Theorem C05_disjoint_sub_collection_in_order : forall subs,
  Forall wf_primary subs ->
  exists out dropped, disjoint_substitutions subs = Ok out
    /\ Permutation subs (out ++ dropped)
    /\ ForallOrdPairs before out
    /\ (subs <> [] -> out <> []).
Proof.
  intros subs H. destruct (disjoint_spec subs H) as (out & dr & H1 & H2 & H3 & _ & H5). eauto 6.
Qed.
Print Assumptions C05_disjoint_sub_collection_in_order.

Theorem C05_disjoint_keeps_disjoint_input : forall subs,
  Forall wf_primary subs -> ForallOrdPairs before subs -> disjoint_substitutions subs = Ok subs.
Proof. exact disjoint_id. Qed.
Print Assumptions C05_disjoint_keeps_disjoint_input.

Theorem C05_disjoint_idempotent : forall subs out,
  Forall wf_primary subs -> disjoint_substitutions subs = Ok out -> disjoint_substitutions out = Ok out.
Proof.
  intros subs out H E. destruct (disjoint_spec subs H) as (out' & dr & H1 & H2 & H3 & _).
  rewrite E in H1. injection H1 as <-. apply disjoint_id; [|assumption].
  apply (Permutation_Forall H2) in H. apply Forall_app in H. tauto.
Qed.
Print Assumptions C05_disjoint_idempotent.

Definition at_span (a b : Z) : substitution := mksub [(TX "__root", (a, b))] [].
Lemma at_span_wf a b : a <= b -> wf_primary (at_span a b).
Proof. intro H. split; [repeat constructor; cbn; tauto|]. exists a, b. split; [now left|assumption]. Qed.

Example C05_nonvacuous :
  Forall wf_primary [at_span 8 12; at_span 0 4; at_span 2 5; at_span 4 6]
  /\ disjoint_substitutions [at_span 8 12; at_span 0 4; at_span 2 5; at_span 4 6]
     = Ok [at_span 4 6; at_span 8 12].
Proof.
  split; [repeat (constructor; [apply at_span_wf; lia|]); constructor|]. vm_compute. reflexivity.
Qed.

(** *** C06 *)
Theorem C06_dropped_only_for_a_smaller_overlapping_one : forall subs,
  Forall wf_primary subs ->
  exists out dropped, disjoint_substitutions subs = Ok out
    /\ Permutation subs (out ++ dropped)
    /\ forall d, In d dropped -> exists rest t, Permutation subs (d :: rest) /\ In t rest
         /\ collide d t /\ not_larger t d.
Proof.
  intros subs H. destruct (disjoint_spec subs H) as (out & dr & H1 & H2 & _ & H4 & _). eauto 6.
Qed.
Print Assumptions C06_dropped_only_for_a_smaller_overlapping_one.

(** The result need not be maximal: A[0,10) is dropped for B[8,12), which is
    then dropped for C[11,13), although A and C are disjoint. *)
Theorem C06_maximality_refuted : exists subs out d,
  Forall wf_primary subs /\ disjoint_substitutions subs = Ok out
  /\ In d subs /\ ~ In d out /\ (forall k, In k out -> before d k).
Proof.
  exists [at_span 0 10; at_span 8 12; at_span 11 13], [at_span 11 13], (at_span 0 10).
  split; [repeat (constructor; [apply at_span_wf; lia|]); constructor|].
  split; [vm_compute; reflexivity|]. split; [now left|]. split.
  - intros [E|[]]. discriminate.
  - intros k [<-|[]] a b c d [H1|[]] [H2|[]]. injection H1 as <- <-. injection H2 as <- <-. lia.
Qed.
Print Assumptions C06_maximality_refuted.

Example C06_nonvacuous : collide (at_span 0 4) (at_span 2 5) /\ not_larger (at_span 4 6) (at_span 2 5).
Proof.
  split.
  - right. exists 0, 4, 2, 5. split; [now left|]. split; [now left|lia].
  - intros a b c d [H1|[]] [H2|[]]. injection H1 as <- <-. injection H2 as <- <-. lia.
Qed.

(** *** C07 *)
Theorem C07_labeled_spans_partition : forall s,
  dict_ok (matched_spans s) -> well_oriented s -> matched_spans s <> [] ->
  exists ps lo hi, labeled_spans s = Ok ps /\ is_hull s lo hi /\ tiles lo ps hi
    /\ Forall (labels_exact s) ps /\ Forall (no_boundary_inside s) ps
    /\ (forall p, (exists ls, In (LabeledSpan (p, p) ls) ps) <-> is_start s p /\ is_end s p).
Proof. exact labeled_spans_spec. Qed.
Print Assumptions C07_labeled_spans_partition.

Theorem C07_labeled_spans_fails_only_if_inverted : forall s e,
  dict_ok (matched_spans s) -> labeled_spans s = Err e -> e = AssertionError /\ ~ well_oriented s.
Proof. exact labeled_spans_err. Qed.
Print Assumptions C07_labeled_spans_fails_only_if_inverted.

Example C07_nonvacuous :
  dict_ok (matched_spans sample_swap) /\ well_oriented sample_swap
  /\ labeled_spans sample_swap
     = Ok [LabeledSpan (0, 4) [TX "__root"]; LabeledSpan (4, 7) [TX "__root"; TX "a"];
           LabeledSpan (7, 9) [TX "__root"]; LabeledSpan (9, 12) [TX "__root"; TX "b"];
           LabeledSpan (12, 13) [TX "__root"]]
  /\ labeled_spans (mksub [(TX "a", (5, 4))] []) = Err AssertionError.
Proof.
  split; [apply nodupb_ok; reflexivity|]. split.
  - intros l a b [E|[E|[E|[]]]]; injection E as <- <- <-; lia.
  - split; vm_compute; reflexivity.
Qed.

(** *** C08.  The full statement (no [replaced_apart], no [no_dangling_start]) is
    false: (a)(b) where only group 1 is replaced shows the replacement twice. *)
Theorem C08_preview_faithful_refuted : exists s ps data,
  wf_sub s /\ nonneg_spans s /\ well_oriented s /\ replaced_apart s
  /\ as_diff s = Ok ps
  /\ apply_substitutions data [s] = Ok (TX "xb")
  /\ concat (map (piece_before data) ps) = TX "aab"
  /\ concat (map (piece_after data) ps) = TX "xxb".
Proof.
  exists (mksub [(TX "0", (0, 2)); (TX "1", (0, 1)); (TX "2", (1, 2))] [(TX "1", TX "x")]).
  eexists. exists (TX "ab").
  split; [apply wf_subb_ok; reflexivity|]. split; [apply nonnegb_ok; reflexivity|].
  split; [intros l a b [E|[E|[E|[]]]]; injection E as <- <- <-; lia|].
  split.
  { intros l m a b c d t u (_ & r & Er & H) (_ & r' & Er' & H') Hne.
    injection Er as <-. injection Er' as <-. destruct H as [H|[]], H' as [H'|[]]. congruence. }
  split; [vm_compute; reflexivity|]. repeat split; vm_compute; reflexivity.
Qed.
Print Assumptions C08_preview_faithful_refuted.

(** What holds: if the replaced spans are apart and no other label starts where
    a replaced span ends, the preview is the change. *)
Theorem C08_preview_faithful_partial : forall s data,
  wf_sub s -> nonneg_spans s -> well_oriented s -> replaced_apart s -> no_dangling_start s ->
  exists ps lo hi, as_diff s = Ok ps /\ is_hull s lo hi /\ tiles lo ps hi
    /\ (forall l a b t, In (DiffSpan (a, b) l t) ps <-> replaced s l a b t)
    /\ concat (map (piece_before data) ps) = slice data lo hi
    /\ apply_substitutions data [s]
       = Ok (slice_to data lo ++ concat (map (piece_after data) ps) ++ slice_from data hi).
Proof. exact as_diff_spec. Qed.
Print Assumptions C08_preview_faithful_partial.

Example C08_nonvacuous :
  wf_sub sample_swap /\ nonneg_spans sample_swap /\ well_oriented sample_swap
  /\ replaced_apart sample_swap /\ no_dangling_start sample_swap
  /\ as_diff sample_swap
     = Ok [LabeledSpan (0, 4) [TX "__root"]; DiffSpan (4, 7) (TX "a") (TX "baz");
           LabeledSpan (7, 9) [TX "__root"]; DiffSpan (9, 12) (TX "b") (TX "bar");
           LabeledSpan (12, 13) [TX "__root"]].
Proof.
  assert (R : forall l a b t, replaced sample_swap l a b t ->
    (l = TX "a" /\ a = 4 /\ b = 7) \/ (l = TX "b" /\ a = 9 /\ b = 12)).
  { intros l a b t (H1 & r & E & H2). injection E as <-.
    destruct H1 as [H1|[H1|[H1|[]]]]; injection H1 as <- <- <-; [|auto|auto].
    exfalso. destruct H2 as [H2|[H2|[]]]; discriminate. }
  split; [apply wf_subb_ok; reflexivity|]. split; [apply nonnegb_ok; reflexivity|].
  split; [intros l a b [E|[E|[E|[]]]]; injection E as <- <- <-; lia|].
  split; [|split; [|vm_compute; reflexivity]].
  - intros l m a b c d t u H1 H2 Hne. apply R in H1, H2. unfold apart.
    destruct H1 as [(-> & -> & ->)|(-> & -> & ->)], H2 as [(-> & -> & ->)|(-> & -> & ->)]; try congruence; lia.
  - intros l a b t H1 _ (m & d & [E|[E|[E|[]]]]); injection E as <- E2 <-; apply R in H1;
      destruct H1 as [(_ & -> & ->)|(_ & -> & ->)]; discriminate.
Qed.

(** *** C11 *)
Theorem C11_suppress_exact : forall subs t,
  Forall (fun s => dict_ok (matched_spans s) /\ validate s = Ok tt) subs -> NoDup (map fst t) ->
  exists keep, suppress_exclude_bytes subs t = Ok (filter keep subs)
    /\ forall s, In s subs -> (keep s = true <-> ~ excluded s t).
Proof. exact suppress_spec. Qed.
Print Assumptions C11_suppress_exact.

Definition in_cat (c : text) (a b : Z) : substitution :=
  Sub [(TX "__root", (a, b))] (TX "__root") None None None true (Some c) None.
Example C11_nonvacuous :
  let t := [(Some (TX "foo"), [(0, 10)]); (None, [(20, 21)])] in
  NoDup (map fst t)
  /\ suppress_exclude_bytes
       [in_cat (TX "foo.bar") 3 5; in_cat (TX "foobar") 3 5; in_cat (TX "bar") 19 25; in_cat (TX "foo") 10 12] t
     = Ok [in_cat (TX "foobar") 3 5; in_cat (TX "foo") 10 12].
Proof.
  cbn zeta. split; [|vm_compute; reflexivity].
  constructor; [intros [E|[]]; discriminate|]. constructor; [tauto|constructor].
Qed.

(** *** C12 *)
Theorem C12_constructor_exact : forall s,
  (good_sub s -> make_sub s = Ok s) /\ (~ good_sub s -> make_sub s = Err ValueError).
Proof.
  intro s. destruct (validate_spec s) as [H1 H2]. unfold make_sub. split; intro H.
  - now rewrite (H1 H).
  - now rewrite (H2 H).
Qed.
Print Assumptions C12_constructor_exact.

Example C12_nonvacuous :
  good_sub (in_cat (TX "foo.b-r") 0 1) /\ ~ good_sub (in_cat (TX "-foo") 0 1)
  /\ ~ good_sub (in_cat (TX "foo..bar") 0 1).
Proof.
  split; [|split].
  - split; [|split].
    + intros c E. injection E as <-. exists (TX "foo"), [TX "b-r"].
      split; [reflexivity|]. split; [|discriminate].
      repeat constructor; try discriminate.
    + now left.
    + discriminate.
  - intro H. apply (proj1 (C12_constructor_exact _)) in H. vm_compute in H. discriminate.
  - intro H. apply (proj1 (C12_constructor_exact _)) in H. vm_compute in H. discriminate.
Qed.
