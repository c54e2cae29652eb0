(** C69: what an interruption at any moment leaves behind. *)
From Verif Require Import Py PyFacts Subst Fmt ApplySpec SubstSpec Ast Search Codec Runner RunnerSpec RunnerProofs
  Interrupt InterruptSpec InterruptProofs Samples PropsRunner.

(** The operations are those of the run: played to the end they give the files
    that the run leaves. *)
Theorem C69_operations_of_the_run : forall w ru display chunks f sty pairs st e,
  (forall b, concat (chunks b) = b) ->
  rewrite_files w ru display f sty pairs = (st, e) ->
  forall q, play f (run_events w ru display chunks (RW f [] false [] [] sty) pairs) q = x_fs st q.
Proof.
  intros w ru display chunks f sty pairs st e Hc H q. apply rewrite_loop in H. destruct H as (st1 & H & <- & _).
  eapply run_events_spec; [exact Hc| |exact H]. reflexivity.
Qed.
Print Assumptions C69_operations_of_the_run.

(** However many of the operations have been carried out: the first files are
    finished, at most one holds only the beginning of its new contents (or is
    empty, if computing these fails), and all others are as they were. *)
Theorem C69_interrupted : forall w ru display chunks f sty pairs k g,
  (forall b, concat (chunks b) = b) ->
  (forall p, w_writable w p = true) -> (forall p b, w_device w p b = (b, false)) ->
  ru_dry_run ru = false -> no_clash pairs ->
  (forall q, g q = play f (firstn k (run_events w ru display chunks (RW f [] false [] [] sty) pairs)) q) ->
  interrupted w ru display f g pairs.
Proof.
  intros w ru display chunks f sty pairs k g Hc Hw Hd Hdry Hn Hg.
  exact (interrupted_spec w ru display chunks Hc Hw Hd pairs Hdry Hn (RW f [] false [] [] sty) k g Hg).
Qed.
Print Assumptions C69_interrupted.

(** Without -i there is no such operation. *)
Theorem C69_dry_run_has_no_operations : forall w ru display chunks f sty pairs,
  ru_dry_run ru = true -> run_events w ru display chunks (RW f [] false [] [] sty) pairs = [].
Proof. intros w ru display chunks f sty pairs H. now apply dry_events. Qed.
Print Assumptions C69_dry_run_has_no_operations.

(** FINDING: files are not replaced atomically.  Interrupting a run can leave a
    file that holds neither its old nor its new contents. *)
Definition by_two : bytes -> list bytes := fix go (l : bytes) : list bytes :=
  match l with a :: b :: rest => [a; b] :: go rest | [] => [] | _ => [l] end.
Lemma by_two_ok : forall n b, (length b <= n)%nat -> concat (by_two b) = b.
Proof.
  induction n as [|n IH]; intros [|a [|c b]] H; cbn [by_two concat app length] in *; try reflexivity; try lia.
  do 2 f_equal. apply IH. lia.
Qed.
Theorem C69_old_or_new_refuted : exists w ru display chunks f sty pairs k p old new got,
  (forall b, concat (chunks b) = b)
  /\ (forall p, w_writable w p = true) /\ (forall p b, w_device w p b = (b, false))
  /\ ru_dry_run ru = false /\ no_clash pairs
  /\ f p = Some old /\ new_contents w ru display f p p new
  /\ play f (firstn k (run_events w ru display chunks (RW f [] false [] [] sty) pairs)) p = Some got
  /\ got <> old /\ got <> new.
Proof.
  exists good_world, (overlap_runner false), (fun p => p), by_two, sample_fs, (rstate_init 0), (id_pairs [TX "b.py"]), 3%nat,
    (TX "b.py"), (TX "foo(bar, baz)"), (TX "quux(baz, bar)"), (TX "quux").
  split; [intros b; now apply (by_two_ok (length b))|]. split; [reflexivity|]. split; [reflexivity|]. split; [reflexivity|].
  split; [cbn; split; [intros ? ? []|exact I]|]. split; [reflexivity|].
  split; [|split; [vm_compute; reflexivity|split; discriminate]].
  exists (TX "foo(bar, baz)"), [sample_swap; sample_rename], (TX "quux(baz, bar)").
  split; [|split; vm_compute; reflexivity]. split; [|split; [vm_compute; reflexivity|discriminate]].
  exists (TX "foo(bar, baz)"). repeat split; vm_compute; reflexivity.
Qed.
Print Assumptions C69_old_or_new_refuted.

Example C69_nonvacuous :
  let es := run_events good_world (overlap_runner true) (fun p => p) by_two (RW sample_fs [] false [] [] (rstate_init 0))
              (id_pairs [TX "a.py"; TX "b.py"]) in
  es = Truncate (TX "b.py") :: map (Append (TX "b.py")) (by_two (TX "quux(baz, bar)"))
  /\ play sample_fs (firstn 1 es) (TX "b.py") = Some []
  /\ play sample_fs (firstn 4 es) (TX "b.py") = Some (TX "quux(b")
  /\ play sample_fs es (TX "b.py") = Some (TX "quux(baz, bar)")
  /\ play sample_fs es (TX "a.py") = sample_fs (TX "a.py").
Proof. repeat split; vm_compute; reflexivity. Qed.
