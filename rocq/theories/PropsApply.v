(** C01-C04: applying substitutions.  Theorems only. *)
From Verif Require Import Py PyFacts Subst Fmt ApplySpec ApplyProofs Samples.

(** C01: on success, the result is the original text with exactly the wanted
    edits performed (each once, in some left-to-right order) and all other
    characters kept.  [edits_of] lists exactly the wanted edits. *)
Theorem C01_apply_edits_exactly : forall data subs out,
  Forall wf_sub subs -> Forall nonneg_spans subs ->
  apply_substitutions data subs = Ok out ->
  exists es, Permutation es (flat_map edits_of subs) /\ Edited data 0 es out.
Proof. exact apply_edits. Qed.
Print Assumptions C01_apply_edits_exactly.

Theorem C01_edits_are_the_wanted_ones : forall s e,
  wf_sub s -> (In e (edits_of s) <-> exists l, wants s l e).
Proof. exact edits_of_wants. Qed.
Print Assumptions C01_edits_are_the_wanted_ones.

Example C01_nonvacuous :
  Forall wf_sub [sample_swap; sample_rename] /\ Forall nonneg_spans [sample_swap; sample_rename]
  /\ apply_substitutions sample_text [sample_swap; sample_rename] = Ok (TX "quux(baz, bar)").
Proof.
  split; [apply all_wf; vm_compute; reflexivity|].
  split; [apply all_nonneg; vm_compute; reflexivity|]. vm_compute. reflexivity.
Qed.

(** C02: [apply_substitutions] succeeds iff the edits, in the documented order,
    are well-formed and do not overlap; otherwise it raises ValueError. *)
Theorem C02_apply_exact : forall data subs order,
  Forall wf_sub subs -> Forall nonneg_spans subs -> is_edit_order subs order ->
  (in_order 0 order -> exists out, apply_substitutions data subs = Ok out /\ Edited data 0 order out)
  /\ (~ in_order 0 order -> apply_substitutions data subs = Err ValueError).
Proof. exact apply_exact. Qed.
Print Assumptions C02_apply_exact.

Theorem C02_edit_order_exists : forall subs, exists order, is_edit_order subs order.
Proof. exact (fun subs => ex_intro _ _ (proj2 (is_edit_order_iff subs _) eq_refl)). Qed.
Print Assumptions C02_edit_order_exists.

(** No silent corruption: success implies that no two edits share a character. *)
Theorem C02_overlap_never_succeeds : forall data subs out,
  Forall wf_sub subs -> Forall nonneg_spans subs ->
  apply_substitutions data subs = Ok out ->
  Forall edit_wf (flat_map edits_of subs)
  /\ ForallOrdPairs no_common_char (flat_map edits_of subs).
Proof. exact apply_ok_disjoint. Qed.
Print Assumptions C02_overlap_never_succeeds.

(** No false alarm: substitutions that lie apart always succeed. *)
Theorem C02_separate_always_succeeds : forall data subs,
  Forall wf_sub subs -> Forall nonneg_spans subs ->
  (forall s, In s subs -> edits_of s <> [] /\ Forall edit_wf (edits_of s)
     /\ ForallOrdPairs (fun x y => edit_ends_before x y \/ edit_ends_before y x) (edits_of s)) ->
  ForallOrdPairs (fun s t => left_of s t \/ left_of t s) subs ->
  exists out, apply_substitutions data subs = Ok out.
Proof. exact apply_separate_ok. Qed.
Print Assumptions C02_separate_always_succeeds.

Example C02_nonvacuous_fail :
  apply_substitutions sample_text [sample_swap; mksub [(TX "x", (5, 6))] [(TX "x", [])]] = Err ValueError.
Proof. vm_compute. reflexivity. Qed.
Example C02_nonvacuous_separate :
  let subs := [sample_swap; sample_rename] in
  (forall s, In s subs -> edits_of s <> [] /\ Forall edit_wf (edits_of s)
     /\ ForallOrdPairs (fun x y => edit_ends_before x y \/ edit_ends_before y x) (edits_of s))
  /\ ForallOrdPairs (fun s t => left_of s t \/ left_of t s) subs.
Proof.
  cbn zeta. split.
  - intros s [<-|[<-|[]]]; cbv; repeat split; try discriminate;
      repeat constructor; try (left; discriminate); discriminate.
  - constructor; [constructor; [right|constructor]|constructor; [constructor|constructor]].
    intros x y Hx Hy. cbv in Hx, Hy. destruct Hx as [<-|[]]. destruct Hy as [<-|[<-|[]]]; cbv; split;
      try reflexivity; discriminate.
Qed.

(** The outcome depends on the order of the list: an insertion at the start of
    another substitution's span fails or succeeds depending on which comes first. *)
Theorem C02_order_independence_refuted : exists data s t out,
  Forall wf_sub [s; t] /\ Forall nonneg_spans [s; t]
  /\ ForallOrdPairs no_common_char (flat_map edits_of [s; t])
  /\ apply_substitutions data [s; t] = Err ValueError
  /\ apply_substitutions data [t; s] = Ok out.
Proof.
  exists (TX "abcdefghij"), (mksub [(TX "x", (5, 8))] [(TX "x", TX "X")]),
    (mksub [(TX "y", (5, 5))] [(TX "y", TX "Y")]), (TX "abcdeYXij").
  split; [apply all_wf; reflexivity|]. split; [apply all_nonneg; reflexivity|].
  split; [|split; vm_compute; reflexivity].
  constructor; [constructor; [cbn; lia|constructor]|repeat constructor].
Qed.
Print Assumptions C02_order_independence_refuted.

(** C03 (full statement: for every replacement-free [m],
    [apply data (xs ++ m :: ys) = apply data (xs ++ ys)]) is false: *)
Theorem C03_match_only_harmless_refuted : exists data s m,
  Forall wf_sub [s; m] /\ Forall nonneg_spans [s; m] /\ edits_of m = []
  /\ apply_substitutions data [s] = Ok (TX "xbc")
  /\ apply_substitutions data [s; m] = Err ValueError.
Proof.
  exists (TX "abc"), (mksub [(TX "r", (0, 1))] [(TX "r", TX "x")]), (mksub [(TX "r", (2, 3))] []).
  split; [apply all_wf; reflexivity|]. split; [apply all_nonneg; reflexivity|].
  repeat split; vm_compute; reflexivity.
Qed.
Print Assumptions C03_match_only_harmless_refuted.

(** What holds: it is harmless exactly unless an earlier substitution starts
    replacing at offset 0 and replaces something. *)
Theorem C03_match_only_harmless_partial : forall data xs m ys,
  Forall wf_sub (xs ++ m :: ys) -> Forall nonneg_spans (xs ++ m :: ys) -> edits_of m = [] ->
  ((forall s, In s xs -> ~ reaches_from_zero s) ->
     apply_substitutions data (xs ++ m :: ys) = apply_substitutions data (xs ++ ys))
  /\ ((exists s, In s xs /\ reaches_from_zero s) ->
     apply_substitutions data (xs ++ m :: ys) = Err ValueError).
Proof. exact match_only_apply. Qed.
Print Assumptions C03_match_only_harmless_partial.

Example C03_nonvacuous :
  Forall wf_sub ([sample_swap] ++ sample_match :: [sample_rename])
  /\ edits_of sample_match = []
  /\ (forall s, In s [sample_swap] -> ~ reaches_from_zero s)
  /\ reaches_from_zero sample_rename.
Proof.
  split; [apply all_wf; reflexivity|]. split; [reflexivity|]. split.
  - intros s [<-|[]] [(e & He & H) _]. cbv in He. destruct He as [<-|[<-|[]]]; discriminate.
  - split; eexists; (split; [left; reflexivity|]); cbv; [reflexivity|discriminate].
Qed.

(** C04 *)
Theorem C04_relative_none : forall s a b, validate s = Ok tt ->
  (relative_to_span s a b = Ok None <-> ~ inside a b s).
Proof. exact relative_none. Qed.
Print Assumptions C04_relative_none.

Theorem C04_relative_shifted : forall s a b r, validate s = Ok tt ->
  (relative_to_span s a b = Ok (Some r) <-> inside a b s /\ is_shifted a s r).
Proof. exact relative_some. Qed.
Print Assumptions C04_relative_shifted.

Theorem C04_relative_same_edit : forall data subs rels a b,
  0 <= a -> a <= b -> b <= tlen data ->
  Forall (fun s => validate s = Ok tt) subs ->
  Forall2 (fun s r => is_shifted a s r) subs rels ->
  Forall (fun s => inside a b s) subs ->
  Forall nonneg_spans subs ->
  (exists s, subs = [s]) \/ (forall s, In s subs -> edits_of s <> []) ->
  apply_substitutions data subs
  = do mid <- apply_substitutions (slice data a b) rels;
    Ok (slice_to data a ++ mid ++ slice_from data b).
Proof. exact apply_relative_gen. Qed.
Print Assumptions C04_relative_same_edit.

Example C04_nonvacuous :
  let s := mksub [(TX "a", (4, 7)); (TX "b", (9, 12))] [(TX "a", TX "baz"); (TX "b", TX "bar")] in
  exists r, relative_to_span s 4 12 = Ok (Some r) /\ inside 4 12 s /\ is_shifted 4 s r
  /\ apply_substitutions (TX "bar, baz") [r] = Ok (TX "baz, bar").
Proof.
  eexists. split; [vm_compute; reflexivity|]. split.
  - intros l sp [E|[E|[]]]; injection E as <- <-; cbv; split; discriminate.
  - split; [repeat split|]. vm_compute. reflexivity.
Qed.
