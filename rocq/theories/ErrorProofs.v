(** C82: proofs. *)
From Verif Require Import Py PyFacts FromDiffProofs ErrorStrings ErrorSpec.

Notation pre := (TX "    ").
Definition midline (s : text) : text := match splitlines_keep s with [] => [] | l :: ls => l ++ concat (map (app pre) ls) end.
Lemma split_pre w : splitlines_keep (pre ++ w) = match splitlines_keep w with [] => [pre] | l :: ls => (pre ++ l) :: ls end.
Proof. cbn [app]. change (TX "    ") with [32; 32; 32; 32]. cbn [app splitlines_keep is_linebreak]. cbn. destruct (splitlines_keep w); reflexivity. Qed.
Lemma split_nil s : splitlines_keep s = [] -> s = [].
Proof. intros H. rewrite <- (splitlines_concat s), H. reflexivity. Qed.
Lemma indent_mid s : s <> [] -> indent s = pre ++ midline s.
Proof. intros H. unfold indent, midline. destruct (splitlines_keep s) as [|l ls] eqn:E; [now apply split_nil in E|]. cbn [map concat]. now rewrite <- app_assoc. Qed.
Lemma split_midline n : forall s, (length s <= n)%nat ->
  splitlines_keep (midline s) = match splitlines_keep s with [] => [] | l :: ls => l :: map (app pre) ls end.
Proof.
  induction n as [|n IH]; intros s Hn; [destruct s; [reflexivity|cbn in Hn; lia]|].
  assert (IH' : forall s, (length s <= n)%nat -> splitlines_keep (indent s) = map (app pre) (splitlines_keep s)).
  { intros u Hu. destruct u as [|c u]; [reflexivity|]. rewrite indent_mid by discriminate. rewrite split_pre, IH by exact Hu.
    destruct (splitlines_keep (c :: u)) as [|l ls] eqn:E; [now apply split_nil in E|]. reflexivity. }
  destruct s as [|x rest]; [reflexivity|]. cbn [length] in Hn. destruct (is_linebreak x) eqn:Ex.
  - assert (C : (exists y, x = 13 /\ rest = 10 :: y) \/ (splitlines_keep (x :: rest) = [x] :: splitlines_keep rest)).
    { cbn [splitlines_keep]. rewrite Ex. destruct rest as [|y rest']; [right; reflexivity|]. destruct ((x =? 13) && (y =? 10)) eqn:E; [left|right; reflexivity].
      exists rest'. split; [lia|]. f_equal. lia. }
    destruct C as [(y & -> & ->)|C].
    + change (midline (13 :: 10 :: y)) with ([13; 10] ++ indent y). change (splitlines_keep (13 :: 10 :: y)) with ([13; 10] :: splitlines_keep y).
      change (splitlines_keep ([13; 10] ++ indent y)) with ([13; 10] :: splitlines_keep (indent y)). rewrite IH' by (cbn [length] in Hn; lia). reflexivity.
    + assert (M : midline (x :: rest) = x :: indent rest) by (unfold midline; rewrite C; reflexivity). rewrite M, C.
      assert (K : splitlines_keep (x :: indent rest) = [x] :: splitlines_keep (indent rest)).
      { cbn [splitlines_keep]. rewrite Ex. destruct (indent rest) as [|c v] eqn:E; [reflexivity|]. assert (c = 32) as ->.
        { destruct rest as [|r0 rest]; [discriminate E|]. rewrite indent_mid in E by discriminate. now injection E. }
        change (32 =? 10) with false. now rewrite andb_false_r. }
      rewrite K, IH' by lia. reflexivity.
  - specialize (IH rest ltac:(lia)). unfold midline in *. cbn [splitlines_keep]. rewrite Ex. destruct (splitlines_keep rest) as [|l ls] eqn:E; [cbn; rewrite Ex; reflexivity|].
    cbn [app splitlines_keep]. rewrite Ex, IH. reflexivity.
Qed.
Lemma split_indent s : splitlines_keep (indent s) = map (app pre) (splitlines_keep s).
Proof.
  destruct s as [|c u]; [reflexivity|]. rewrite indent_mid by discriminate. rewrite split_pre, (split_midline (length (c :: u))) by lia.
  destruct (splitlines_keep (c :: u)) as [|l ls] eqn:E; [now apply split_nil in E|]. reflexivity.
Qed.
Lemma indent_shows s : shows (indent s) s.
Proof.
  split.
  - rewrite split_indent. apply Forall_forall. intros l H. apply in_map_iff in H as (r & <- & _). eauto.
  - rewrite split_indent, map_map. rewrite <- (splitlines_concat s) at 2. f_equal. induction (splitlines_keep s) as [|l ls IH]; [reflexivity|]. cbn [map]. now rewrite IH.
Qed.
Lemma split_one s : one_line s -> s <> [] -> splitlines_keep s = [s].
Proof.
  induction 1 as [|c s Hc H IH]; intros N; [congruence|]. cbn [splitlines_keep]. rewrite Hc. destruct s as [|d s]; [reflexivity|]. rewrite IH by discriminate. reflexivity.
Qed.
Lemma split_two a b : one_line a -> one_line b -> b <> [] -> splitlines_keep (a ++ [NL] ++ b) = [a ++ [NL]; b].
Proof.
  intros Ha Hb N. induction Ha as [|c a Hc Ha IH].
  - cbn [app]. change (splitlines_keep (NL :: b)) with (match b with [] => [[NL]] | y :: r => if (NL =? 13) && (y =? 10) then [NL; y] :: splitlines_keep r else [NL] :: splitlines_keep b end).
    destruct b as [|y r]; [congruence|]. change (NL =? 13) with false. cbn [andb]. rewrite split_one by assumption. reflexivity.
  - cbn [app splitlines_keep]. rewrite Hc. cbn [app] in IH. rewrite IH. reflexivity.
Qed.
Lemma one_line_spaces n : one_line (spaces n).
Proof. unfold spaces. generalize (Z.to_nat n). induction n0; cbn; constructor; auto. Qed.
Lemma rstrip_line line tail : one_line line -> Forall (fun c => c = 13 \/ c = 10) tail -> rstrip_newlines (line ++ tail) = line.
Proof.
  intros H T. induction H as [|c l Hc H IH].
  - induction T as [|c t Hc T IH]; [reflexivity|]. cbn [app rstrip_newlines] in *. rewrite IH. destruct Hc as [->| ->]; reflexivity.
  - cbn [app rstrip_newlines]. rewrite IH. destruct l; [|reflexivity].
    destruct (Z.eqb_spec c 13) as [->|]; [discriminate Hc|]. destruct (Z.eqb_spec c 10) as [->|]; [discriminate Hc|]. reflexivity.
Qed.
Lemma located line o : one_line line ->
  indent (line ++ [NL] ++ spaces (o - 1) ++ TX "^") = (pre ++ line) ++ [NL] ++ pre ++ spaces (o - 1) ++ TX "^"
  /\ (1 <= o -> points_at (pre ++ line) (pre ++ spaces (o - 1) ++ TX "^") line o).
Proof.
  intros H. split.
  - unfold indent. rewrite split_two; [|exact H| |now destruct (spaces (o - 1))].
    + cbn [map concat]. rewrite app_nil_r, <- !app_assoc. reflexivity.
    + apply Forall_app. split; [apply one_line_spaces|]. repeat constructor.
  - intros Ho. exists (4 + Z.to_nat (o - 1))%nat. unfold spaces. set (k := Z.to_nat (o - 1)). split; [|split; [|split; [|split]]].
    + cbn. rewrite nth_error_app2 by (rewrite repeat_length; lia). rewrite repeat_length, Nat.sub_diag. reflexivity.
    + intros j Hj. do 4 (destruct j as [|j]; [reflexivity|]). cbn. rewrite nth_error_app1 by (rewrite repeat_length; lia).
      assert (In 32 (repeat 32 k)) by (destruct k; [lia|now left]). apply nth_error_repeat. lia.
    + reflexivity.
    + reflexivity.
    + change (pre ++ repeat 32 k ++ TX "^") with (32 :: 32 :: 32 :: 32 :: (repeat 32 k ++ [94])). cbn [length]. rewrite app_length, repeat_length. cbn. lia.
Qed.
