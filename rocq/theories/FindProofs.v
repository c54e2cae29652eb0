From Verif Require Import Py PyFacts Ast Template FromDiff Matcher MatchSpec MergeSpec MergeProofs
  MatcherProofs BindProofs FindSpec.
From Coq Require Import Sorted.

(** *** Paths *)
Lemma left_of_under p q q' : left_of p q -> under q q' -> left_of p q'.
Proof.
  intros (c & i & j & p' & r & -> & -> & H) (s & ->).
  exists c, i, j, p', (r ++ s). split; [reflexivity|]. split; [|assumption]. now rewrite <- app_assoc.
Qed.
Lemma under_left_of p p' q : left_of p q -> under p p' -> left_of p' q.
Proof.
  intros (c & i & j & r & q' & -> & -> & H) (s & ->).
  exists c, i, j, (r ++ s), q'. split; [now rewrite <- app_assoc|]. split; [reflexivity | assumption].
Qed.
Lemma left_of_trans p q r : left_of p q -> left_of q r -> left_of p r.
Proof.
  intros (c & i & j & p' & q' & -> & -> & H) (d & k & l & q2 & r' & E & -> & H2).
  revert d E. induction c as [|x c IH]; intros [|y d] E; cbn in E; injection E as -> E.
  - exists [], i, l, p', r'. repeat split; lia.
  - exists [], i, y, p', (d ++ l :: r'). repeat split; lia.
  - exists [], k, l, (c ++ i :: p'), r'. repeat split; lia.
  - cbn [app]. destruct (IH d E) as (c2 & i2 & j2 & p2 & r2 & -> & -> & H3).
    exists (y :: c2), i2, j2, p2, r2. repeat split; lia.
Qed.
Lemma left_of_irrefl p q : left_of p q -> ~ under p q.
Proof.
  intros (c & i & j & p' & q' & -> & -> & H) (s & E). rewrite <- app_assoc in E.
  apply app_inv_head in E. injection E as -> _. lia.
Qed.
Lemma left_of_irrefl' p q : left_of p q -> ~ under q p.
Proof.
  intros (c & i & j & p' & q' & -> & -> & H) (s & E). rewrite <- app_assoc in E.
  apply app_inv_head in E. injection E as -> _. lia.
Qed.
Lemma left_of_asym p q : left_of p q -> ~ left_of q p.
Proof.
  intros H1 H2. pose proof (left_of_trans _ _ _ H1 H2) as H3. apply left_of_irrefl in H3. apply H3.
  exists []. now rewrite app_nil_r.
Qed.
Lemma under_refl p : under p p.
Proof. exists []. now rewrite app_nil_r. Qed.
Lemma at_path_app v p q : at_path v (p ++ q) = match at_path v p with Some x => at_path x q | None => None end.
Proof.
  revert v. induction p as [|i p IH]; intros v; [reflexivity|]. cbn.
  destruct (nth_error (vchildren v) i); [apply IH | reflexivity].
Qed.

(** *** The loop with paths *)
Fixpoint number (p : path) (i : nat) (l : list value) : list (path * value) :=
  match l with [] => [] | x :: r => (p ++ [i], x) :: number p (S i) r end.
Lemma number_snd p l : forall i, map snd (number p i l) = l.
Proof. induction l as [|x l IH]; intros i; cbn; [reflexivity|]. now rewrite IH. Qed.
Lemma number_In p l : forall i q x,
  In (q, x) (number p i l) <-> exists k, nth_error l k = Some x /\ q = p ++ [i + k]%nat.
Proof.
  induction l as [|y l IH]; intros i q x; cbn.
  - split; [intros [] | intros ([|k] & H & _); discriminate].
  - rewrite IH. split.
    + intros [[= <- <-] | (k & H1 & ->)].
      * exists O. rewrite Nat.add_0_r. now split.
      * exists (S k). split; [assumption|]. now rewrite Nat.add_succ_r.
    + intros ([|k] & H1 & ->).
      * cbn in H1. injection H1 as ->. left. now rewrite Nat.add_0_r.
      * right. exists k. split; [assumption|]. now rewrite Nat.add_succ_r.
Qed.
Definition kids (p : path) (v : value) : list (path * value) := number p 0 (vchildren v).

(** A run of the loop: the stack with the places of its objects. *)
Inductive visits (e : env) (m : matcher) : list Z -> list (path * value) -> list hit -> Prop :=
  | V_nil done : visits e m done [] []
  | V_hit done p v rest r ran hs :
      attempt (with_done e done) m v = (ran, Ok (Some r)) ->
      visits e m (ran ++ done) rest hs ->
      visits e m done ((p, v) :: rest) (Hit p v r ran :: hs)
  | V_rejected done p v rest ran hs :
      attempt (with_done e done) m v = (ran, Err MatchError) ->
      visits e m done rest hs -> visits e m done ((p, v) :: rest) hs
  | V_none done p v rest ran hs :
      attempt (with_done e done) m v = (ran, Ok None) ->
      visits e m done (kids p v ++ rest) hs -> visits e m done ((p, v) :: rest) hs.

Definition is_found (e : env) (h : hit) : value * result := (h_value h, h_result h).

Definition sizes (l : list value) : nat := fold_right (fun v n => (vsize v + n)%nat) O l.
Lemma sizes_app a b : sizes (a ++ b) = (sizes a + sizes b)%nat.
Proof. induction a as [|x a IH]; [reflexivity|]. cbn [app sizes fold_right]. fold (sizes (a ++ b)) (sizes a). lia. Qed.
Lemma vsize_children v : vsize v = S (sizes (vchildren v)).
Proof.
  destruct v as [i fs|i l|i c]; cbn [vchildren]; [rewrite vsize_node; f_equal | rewrite vsize_list; f_equal | reflexivity].
  - induction fs as [|[k x] fs IH]; [reflexivity|]. cbn [map sizes fold_right snd]. fold (sizes (map snd fs)).
    rewrite <- IH. reflexivity.
Qed.

Lemma find_loop_visits e m : forall fuel done stack out,
  find_loop fuel e m done (map snd stack) = Ok out ->
  exists hs, visits e m done stack hs /\ out = map (is_found e) hs.
Proof.
  induction fuel as [|fuel IH]; intros done [|[p v] rest] out H; cbn [map snd find_loop] in H;
    try discriminate H.
  - injection H as <-. exists []. split; constructor.
  - injection H as <-. exists []. split; constructor.
  - destruct (attempt (with_done e done) m v) as [ran [[r|]|x]] eqn:E.
    + apply bind_Ok in H as (out' & H & H'). injection H' as <-.
      apply IH in H as (hs & H1 & ->). exists (Hit p v r ran :: hs). split; [|reflexivity]. now constructor.
    + replace (vchildren v ++ map snd rest) with (map snd (kids p v ++ rest)) in H
        by (rewrite map_app; unfold kids; now rewrite number_snd).
      apply IH in H as (hs & H1 & ->). exists hs. split; [|reflexivity]. eapply V_none; eassumption.
    + destruct x; try discriminate H.
      apply IH in H as (hs & H1 & ->). exists hs. split; [|reflexivity]. eapply V_rejected; eassumption.
Qed.

Lemma find_loop_error e m : forall fuel done stack x,
  (sizes (map snd stack) <= fuel)%nat ->
  find_loop fuel e m done (map snd stack) = Err x ->
  x <> MatchError /\
  exists hs q w ran, (exists p, In p (map fst stack) /\ under p q) /\
    (forall root, (forall p v, In (p, v) stack -> at_path root p = Some v) -> at_path root q = Some w) /\
    attempt (with_done e (done_after done hs)) m w = (ran, Err x).
Proof.
  induction fuel as [|fuel IH]; intros done [|[p v] rest] x Hf H; cbn [map snd find_loop] in H;
    try discriminate H.
  - exfalso. cbn [map snd sizes fold_right] in Hf. pose proof (vsize_pos v). lia.
  - cbn [map snd sizes fold_right] in Hf. fold (sizes (map snd rest)) in Hf.
    assert (Hrest : (sizes (map snd rest) <= fuel)%nat) by (pose proof (vsize_pos v); lia).
    assert (Hroot : forall root, (forall p0 v0, In (p0, v0) ((p, v) :: rest) -> at_path root p0 = Some v0) ->
              forall p0 v0, In (p0, v0) rest -> at_path root p0 = Some v0).
    { intros root HH p0 v0 Hin. apply HH. now right. }
    destruct (attempt (with_done e done) m v) as [ran [[r|]|y]] eqn:E.
    + destruct (find_loop fuel e m (ran ++ done) (map snd rest)) as [out|x'] eqn:E'; [discriminate H|].
      injection H as ->.
      apply IH in E' as (Hx & hs & q & w & ran' & (p' & Hp' & Hu) & Hw & H1); [|assumption].
      split; [assumption|]. exists (Hit p v r ran :: hs), q, w, ran'.
      split; [exists p'; split; [now right | assumption]|]. split; [|exact H1].
      intros root HH. apply Hw. eauto.
    + replace (vchildren v ++ map snd rest) with (map snd (kids p v ++ rest)) in H
        by (rewrite map_app; unfold kids; now rewrite number_snd).
      apply IH in H as (Hx & hs & q & w & ran' & (p' & Hp' & Hu) & Hw & H1).
      * split; [assumption|]. exists hs, q, w, ran'. split; [|split; [|exact H1]].
        -- rewrite map_app, in_app_iff in Hp'. destruct Hp' as [Hp'|Hp'].
           ++ apply in_map_iff in Hp' as ([p'' v'] & <- & Hin). unfold kids in Hin.
              apply number_In in Hin as (k & _ & ->). cbn in Hu. exists p. split; [now left|].
              destruct Hu as (s & ->). exists ([k] ++ s). now rewrite app_assoc.
           ++ exists p'. split; [now right | assumption].
        -- intros root HH. apply Hw. intros p0 v0 Hin. apply in_app_iff in Hin as [Hin|Hin]; [|eauto].
           unfold kids in Hin. apply number_In in Hin as (k & Hk & ->). rewrite at_path_app.
           rewrite (HH p v) by now left. cbn. now rewrite Hk.
      * rewrite map_app. unfold kids. rewrite number_snd, sizes_app. rewrite vsize_children in Hf. lia.
    + assert (D : y = MatchError \/ y <> MatchError) by (destruct y; (now left) || (right; discriminate)).
      destruct D as [->|D].
      * apply IH in H as (Hx & hs & q & w & ran' & (p' & Hp' & Hu) & Hw & H1); [|assumption].
        split; [assumption|]. exists hs, q, w, ran'.
        split; [exists p'; split; [now right | assumption]|]. split; [|exact H1].
        intros root HH. apply Hw. eauto.
      * assert (x = y) as -> by (destruct y; congruence).
        split; [assumption|]. exists [], p, v, ran.
        split; [exists p; split; [now left | apply under_refl]|]. split; [|exact E].
        intros root HH. apply HH. now left.
Qed.

(** *** Properties of a run *)
Definition stacked (root : value) (stack : list (path * value)) : Prop :=
  StronglySorted (fun a b => left_of (fst a) (fst b)) stack
  /\ forall p v, In (p, v) stack -> at_path root p = Some v.

Lemma kids_sorted p v : StronglySorted (fun a b : path * value => left_of (fst a) (fst b)) (kids p v).
Proof.
  unfold kids. generalize O. induction (vchildren v) as [|x l IH]; intros i; constructor; [apply IH|].
  apply Forall_forall. intros [q y] Hin. apply number_In in Hin as (k & _ & ->). cbn.
  exists p, i, (S i + k)%nat, [], []. repeat split. lia.
Qed.
Lemma sorted_app {A} (R : A -> A -> Prop) a b :
  StronglySorted R a -> StronglySorted R b -> (forall x y, In x a -> In y b -> R x y) ->
  StronglySorted R (a ++ b).
Proof.
  induction 1 as [|x a Ha IH Hx]; intros Hb H; [assumption|]. cbn. constructor.
  - apply IH; [assumption|]. intros; apply H; [now right | assumption].
  - apply Forall_app. split; [assumption|]. apply Forall_forall. intros y Hy. apply H; [now left | assumption].
Qed.
Lemma kids_under p v q x : In (q, x) (kids p v) -> under p q.
Proof. unfold kids. rewrite number_In. intros (k & _ & ->). now exists [0 + k]%nat. Qed.
Lemma stacked_tail root a rest : stacked root (a :: rest) -> stacked root rest.
Proof. intros [H1 H2]. inversion H1; subst. split; [assumption|]. intros; apply H2. now right. Qed.
Lemma stacked_head root p v rest q w : stacked root ((p, v) :: rest) -> In (q, w) rest -> left_of p q.
Proof.
  intros [H1 _] Hin. inversion H1; subst. rewrite Forall_forall in H3. exact (H3 _ Hin).
Qed.
Lemma stacked_kids root p v rest : stacked root ((p, v) :: rest) -> stacked root (kids p v ++ rest).
Proof.
  intros H. split.
  - apply sorted_app; [apply kids_sorted | apply (stacked_tail _ _ _ H) |].
    intros [q x] [q' y] H1 H2. cbn. eapply under_left_of; [eapply stacked_head; eassumption|].
    eapply kids_under; eassumption.
  - intros q x Hin. apply in_app_iff in Hin as [Hin|Hin].
    + unfold kids in Hin. apply number_In in Hin as (k & Hk & ->). rewrite at_path_app.
      destruct H as [_ H]. rewrite (H p v) by now left. cbn. now rewrite Hk.
    + destruct H as [_ H]. apply H. now right.
Qed.

Lemma visits_under e m done stack hs : visits e m done stack hs ->
  forall h, In h hs -> exists q w, In (q, w) stack /\ under q (h_path h).
Proof.
  induction 1 as [done|done p v rest r ran hs E V IH|done p v rest ran hs E V IH|done p v rest ran hs E V IH];
    intros h Hh.
  - destruct Hh.
  - destruct Hh as [<-|Hh]; [exists p, v; split; [now left | apply under_refl]|].
    destruct (IH _ Hh) as (q & w & H1 & H2). exists q, w. split; [now right | assumption].
  - destruct (IH _ Hh) as (q & w & H1 & H2). exists q, w. split; [now right | assumption].
  - destruct (IH _ Hh) as (q & w & H1 & H2). apply in_app_iff in H1 as [H1|H1].
    + exists p, v. split; [now left|]. apply kids_under in H1. destruct H1 as (s & ->), H2 as (s' & ->).
      exists (s ++ s'). now rewrite app_assoc.
    + exists q, w. split; [now right | assumption].
Qed.

Lemma visits_order e m done stack hs root : visits e m done stack hs -> stacked root stack ->
  StronglySorted (fun h h' => left_of (h_path h) (h_path h')) hs.
Proof.
  induction 1 as [done|done p v rest r ran hs E V IH|done p v rest ran hs E V IH|done p v rest ran hs E V IH];
    intros HS.
  - constructor.
  - constructor; [apply IH; eapply stacked_tail; eassumption|].
    apply Forall_forall. intros h Hh. cbn. eapply visits_under in Hh as (q & w & H1 & H2); [|eassumption].
    eapply left_of_under; [eapply stacked_head; eassumption | assumption].
  - apply IH. eapply stacked_tail; eassumption.
  - apply IH. now apply stacked_kids.
Qed.

Lemma visits_match e m done stack hs root : visits e m done stack hs -> stacked root stack ->
  forall hs1 h hs2, hs = hs1 ++ h :: hs2 ->
    at_path root (h_path h) = Some (h_value h)
    /\ attempt (with_done e (done_after done hs1)) m (h_value h) = (h_ran h, Ok (Some (h_result h))).
Proof.
  induction 1 as [done|done p v rest r ran hs E V IH|done p v rest ran hs E V IH|done p v rest ran hs E V IH];
    intros HS hs1 h hs2 EQ.
  - destruct hs1; discriminate.
  - destruct hs1 as [|h1 hs1]; cbn in EQ; injection EQ as <- ->.
    + split; [|exact E]. cbn. destruct HS as [_ HS]. apply HS. now left.
    + cbn. eapply IH; [eapply stacked_tail; eassumption | reflexivity].
  - eapply IH; [eapply stacked_tail; eassumption | eassumption].
  - eapply IH; [now apply stacked_kids | eassumption].
Qed.

(** The third part, for a search under way. *)
Definition attempted (e : env) (m : matcher) (done : list Z) (hs : list hit) (q : path) (w : value)
  (o : res (option result)) : Prop :=
  exists hs1 ran, before hs q hs1 /\ attempt (with_done e (done_after done hs1)) m w = (ran, o).

Lemma before_none hs p : (forall h, In h hs -> ~ left_of (h_path h) p) -> before hs p [].
Proof. intros H. exists hs. split; [reflexivity|]. split; [intros ? [] | assumption]. Qed.
Lemma before_cons h hs p hs1 : left_of (h_path h) p -> before hs p hs1 -> before (h :: hs) p (h :: hs1).
Proof.
  intros H (hs2 & -> & H1 & H2). exists hs2. split; [reflexivity|]. split; [|assumption].
  intros h' [<-|Hh']; [assumption | now apply H1].
Qed.

Lemma visits_complete e m done stack hs root : visits e m done stack hs -> stacked root stack ->
  forall q w p' x, In (q, w) stack -> at_path w p' = Some x ->
    (exists h, In h hs /\ under (h_path h) (q ++ p'))
    \/ attempted e m done hs (q ++ p') x (Ok None)
    \/ (exists p2 s y, p' = p2 ++ s /\ at_path w p2 = Some y
                       /\ attempted e m done hs (q ++ p2) y (Err MatchError)
                       /\ forall h, In h hs -> ~ under (q ++ p2) (h_path h)).
Proof.
  induction 1 as [done|done p v rest r ran hs E V IH|done p v rest ran hs E V IH|done p v rest ran hs E V IH];
    intros HS q w p' x Hin Hp.
  - destruct Hin.
  - destruct Hin as [[= -> ->]|Hin].
    + left. exists (Hit q w r ran). split; [now left|]. cbn. now exists p'.
    + specialize (IH (stacked_tail _ _ _ HS) q w p' x Hin Hp).
      pose proof (stacked_head _ _ _ _ _ _ HS Hin) as HL.
      assert (HL' : forall s, left_of p (q ++ s)) by (intros s; eapply left_of_under; [exact HL | now exists s]).
      destruct IH as [(h & Hh & Hu)|[(hs1 & ran' & Hb & Ha)|(p2 & s & y & -> & Hy & (hs1 & ran' & Hb & Ha) & Hn)]].
      * left. exists h. split; [now right | assumption].
      * right; left. exists (Hit p v r ran :: hs1), ran'. split; [|exact Ha].
        apply before_cons; [apply HL' | assumption].
      * right; right. exists p2, s, y. split; [reflexivity|]. split; [assumption|]. split.
        -- exists (Hit p v r ran :: hs1), ran'. split; [|exact Ha]. apply before_cons; [apply HL' | assumption].
        -- intros h [<-|Hh]; [|now apply Hn]. cbn. apply left_of_irrefl'. apply HL'.
  - destruct Hin as [[= -> ->]|Hin].
    + right; right. exists [], p', w. rewrite app_nil_r. split; [reflexivity|]. split; [reflexivity|].
      assert (HR : forall h, In h hs -> left_of q (h_path h)).
      { intros h Hh. eapply visits_under in Hh as (q' & w' & H1 & H2); [|eassumption].
        eapply left_of_under; [eapply stacked_head; eassumption | assumption]. }
      split.
      * exists [], ran. split; [|exact E]. apply before_none. intros h Hh. apply left_of_asym. now apply HR.
      * intros h Hh. apply left_of_irrefl. now apply HR.
    + eapply IH; [eapply stacked_tail; eassumption | eassumption | eassumption].
  - destruct Hin as [[= -> ->]|Hin].
    + destruct p' as [|i p'].
      * right; left. rewrite app_nil_r. cbn in Hp. injection Hp as ->.
        exists [], ran. split; [|exact E]. apply before_none. intros h Hh.
        eapply visits_under in Hh as (q' & w' & H1 & H2); [|eassumption].
        apply in_app_iff in H1 as [H1|H1].
        -- intros HL. apply left_of_irrefl' in HL. apply HL. apply kids_under in H1.
           destruct H1 as (s1 & ->), H2 as (s2 & ->). exists (s1 ++ s2). now rewrite app_assoc.
        -- apply left_of_asym. eapply left_of_under; [eapply stacked_head; eassumption | assumption].
      * cbn in Hp. destruct (nth_error (vchildren w) i) as [c|] eqn:Ec; [|discriminate Hp].
        specialize (IH (stacked_kids _ _ _ _ HS) (q ++ [i]) c p' x).
        rewrite <- app_assoc in IH. cbn [app] in IH.
        destruct IH as [H|[H|(p2 & s & y & -> & Hy & Ha & Hn)]].
        -- apply in_app_iff. left. unfold kids. apply number_In. exists i. now split.
        -- assumption.
        -- left. assumption.
        -- right; left. assumption.
        -- right; right. exists (i :: p2), s, y. split; [reflexivity|]. cbn [at_path]. rewrite Ec.
           split; [assumption|]. rewrite <- app_assoc in Ha, Hn. cbn [app] in Ha, Hn. now split.
    + eapply IH; [now apply stacked_kids | apply in_app_iff; right; eassumption | eassumption].
Qed.

Lemma stacked_root v : stacked v [([], v)].
Proof.
  split; [repeat constructor|]. intros p w [[= <- <-]|[]]. reflexivity.
Qed.

Theorem find_iter_found e m out :
  matcher_find_iter e m = Ok out ->
  exists hs, found e m hs /\ out = map (fun h => (h_value h, h_result h)) hs.
Proof.
  unfold matcher_find_iter. intros H. apply (find_loop_visits e m _ [] [([], e_tree e)]) in H as (hs & V & ->).
  exists hs. split; [|reflexivity]. pose proof (stacked_root (e_tree e)) as HS. constructor.
  - intros. eapply visits_match; eassumption.
  - eapply visits_order; eassumption.
  - intros p v Hp.
    destruct (visits_complete _ _ _ _ _ _ V HS [] (e_tree e) p v (or_introl eq_refl) Hp)
      as [H|[(hs1 & ran & H1 & H2)|(p2 & s & y & -> & Hy & (hs1 & ran & H1 & H2) & Hn)]]; cbn [app] in *.
    + left. assumption.
    + right; left. exists hs1, v, ran. repeat split; assumption.
    + right; right. exists p2. split; [now exists s|]. split; [|assumption].
      exists hs1, y, ran. repeat split; assumption.
Qed.

Theorem find_iter_raises e m x :
  matcher_find_iter e m = Err x ->
  x <> MatchError /\
  exists hs q w ran, at_path (e_tree e) q = Some w
    /\ attempt (with_done e (done_after [] hs)) m w = (ran, Err x).
Proof.
  unfold matcher_find_iter. intros H.
  apply (find_loop_error e m _ [] [([], e_tree e)]) in H as (Hx & hs & q & w & ran & _ & Hw & Ha).
  - split; [assumption|]. exists hs, q, w, ran. split; [|assumption]. apply Hw. apply stacked_root.
  - cbn. lia.
Qed.

(** *** The specification leaves no choice *)
Lemma left_of_dec p : forall q, {left_of p q} + {~ left_of p q}.
Proof.
  induction p as [|i p IH]; intros [|j q].
  - right. intros ([|? ?] & ? & ? & ? & ? & E & _); discriminate E.
  - right. intros ([|? ?] & ? & ? & ? & ? & E & _); discriminate E.
  - right. intros ([|? ?] & ? & ? & ? & ? & _ & E & _); discriminate E.
  - destruct (lt_eq_lt_dec i j) as [[H|H]|H].
    + left. now exists [], i, j, p, q.
    + subst j. destruct (IH q) as [H|H].
      * left. destruct H as (c & a & b & p' & q' & -> & -> & H). now exists (i :: c), a, b, p', q'.
      * right. intros ([|y c] & a & b & p' & q' & E1 & E2 & L); cbn in E1, E2.
        -- injection E1 as E1 _. injection E2 as E2 _. lia.
        -- injection E1 as _ ->. injection E2 as _ ->. apply H. now exists c, a, b, p', q'.
    + right. intros ([|y c] & a & b & p' & q' & E1 & E2 & L); cbn in E1, E2;
        injection E1 as E1 _; injection E2 as E2 _; lia.
Qed.
Lemma under_trans p q r : under p q -> under q r -> under p r.
Proof. intros (a & ->) (b & ->). exists (a ++ b). now rewrite app_assoc. Qed.
Lemma under_antisym p q : under p q -> under q p -> p = q.
Proof.
  intros (a & ->) (b & E). rewrite <- app_assoc in E. rewrite <- (app_nil_r p) in E at 1.
  apply app_inv_head in E. symmetry in E. apply app_eq_nil in E as [-> _]. now rewrite app_nil_r.
Qed.
Lemma left_of_prefix p q' q : left_of p q' -> under q q' -> left_of p q \/ under q p.
Proof.
  intros (c & i & j & pa & qa & -> & -> & Hij) (s & Hs).
  revert q Hs. induction c as [|y c IHc]; intros [|z q2] Hs; cbn in Hs.
  - right. now eexists.
  - injection Hs as -> Hs. left. now exists [], i, z, pa, q2.
  - right. now eexists.
  - injection Hs as -> Hs. apply IHc in Hs as [(c2 & i2 & j2 & p2 & r2 & E1 & -> & Hl)|(s2 & E2)].
    + left. exists (z :: c2), i2, j2, p2, r2. split; [cbn; now f_equal|]. now split.
    + right. exists s2. cbn. now rewrite E2.
Qed.

Lemma before_exact c t p hs1 :
  (forall h, In h c -> left_of (h_path h) p) -> (forall h, In h t -> ~ left_of (h_path h) p) ->
  before (c ++ t) p hs1 -> hs1 = c.
Proof.
  intros Hc Ht (hs2 & E & H1 & H2). revert hs1 E H1. induction c as [|x c IH]; intros hs1 E H1.
  - destruct hs1 as [|y hs1]; [reflexivity|]. cbn in E. exfalso. apply (Ht y); [subst t; now left|].
    apply H1. now left.
  - destruct hs1 as [|y hs1]; cbn in E.
    + exfalso. apply (H2 x); [subst hs2; now left | apply Hc; now left].
    + injection E as <- E. f_equal. apply IH; [|assumption|].
      * intros; apply Hc; now right.
      * intros; apply H1; now right.
Qed.
Lemma sorted_split {A} (R : A -> A -> Prop) a x b :
  StronglySorted R (a ++ x :: b) -> (forall y, In y a -> R y x) /\ (forall y, In y b -> R x y).
Proof.
  induction a as [|y a IH]; cbn; intros H; inversion H; subst.
  - split; [intros ? [] | now apply Forall_forall].
  - apply IH in H2 as [H1 H2]. split; [|assumption]. intros z [<-|Hz]; [|now apply H1].
    rewrite Forall_forall in H3. apply H3. apply in_app_iff. right. now left.
Qed.

Lemma tried_exact e m c t p o v :
  tried_at e m (c ++ t) p o -> at_path (e_tree e) p = Some v ->
  (forall h, In h c -> left_of (h_path h) p) -> (forall h, In h t -> ~ left_of (h_path h) p) ->
  exists ran, attempt (with_done e (done_after [] c)) m v = (ran, o).
Proof.
  intros (hs1 & w & ran & Hb & Hw & Ha) Hv Hc Ht. apply before_exact in Hb as ->; [|assumption..].
  exists ran. congruence.
Qed.

Lemma at_path_prefix v p q x : at_path v q = Some x -> under p q -> exists y, at_path v p = Some y.
Proof. intros H (s & ->). rewrite at_path_app in H. destruct (at_path v p); [eauto | discriminate]. Qed.

Lemma found_next e m c t h' t' :
  found e m (c ++ t) -> found e m (c ++ h' :: t') ->
  (forall h, In h t -> ~ left_of (h_path h) (h_path h')) ->
  exists t1, t = h' :: t1.
Proof.
  intros F F' Hn.
  destruct (fd_match _ _ _ F' c h' t' eq_refl) as [Hv Ha].
  destruct (sorted_split _ _ _ _ (fd_order _ _ _ F')) as [Hc' Ht'].
  (* nothing after h' is left of a place above h' *)
  assert (Hafter : forall q, under q (h_path h') -> forall h, In h (h' :: t') -> ~ left_of (h_path h) q).
  { intros q Hq h [<-|Hh] HL.
    - now apply left_of_irrefl' in HL.
    - apply (left_of_asym _ _ (Ht' _ Hh)). eapply left_of_under; eassumption. }
  (* a hit of F' at or above h' is h' itself *)
  assert (Hself : forall h, In h (c ++ h' :: t') -> under (h_path h) (h_path h') -> h = h').
  { intros h Hh Hu. apply in_app_iff in Hh as [Hh|[Hh|Hh]].
    - exfalso. apply (left_of_irrefl _ _ (Hc' _ Hh) Hu).
    - now symmetry.
    - exfalso. apply (left_of_irrefl' _ _ (Ht' _ Hh) Hu). }
  destruct (fd_complete _ _ _ F _ _ Hv) as [(h & Hh & Hu)|[HT|(q & Hq & HT & Hno)]].
  - apply in_app_iff in Hh as [Hh|Hh].
    { exfalso. apply (left_of_irrefl _ _ (Hc' _ Hh) Hu). }
    apply in_split in Hh as (u & w & ->).
    destruct (fd_match _ _ _ F (c ++ u) h w) as [Hv2 Ha2]; [now rewrite <- app_assoc|].
    pose proof (fd_order _ _ _ F) as HO. rewrite app_assoc in HO. apply sorted_split in HO as [HO1 HO2].
    assert (u = []) as ->.
    { destruct u as [|y u]; [reflexivity|]. exfalso. apply (Hn y); [now left|].
      eapply left_of_under; [apply HO1; apply in_app_iff; right; now left | exact Hu]. }
    rewrite app_nil_r in *.
    destruct (fd_complete _ _ _ F' _ _ Hv2) as [(h2 & Hh2 & Hu2)|[HT|(q & Hq & _ & Hno)]].
    + assert (h2 = h') as -> by (apply Hself; [assumption | eapply under_trans; eassumption]).
      assert (EP : h_path h = h_path h') by (now apply under_antisym).
      rewrite EP, Hv in Hv2. injection Hv2 as Hv2. rewrite <- Hv2, Ha in Ha2. injection Ha2 as Ea Eb.
      exists w. cbn. f_equal. destruct h, h'; cbn in *. congruence.
    + exfalso. eapply tried_exact in HT as (ran & HT); [| exact Hv2 | assumption | now apply Hafter].
      rewrite Ha2 in HT. discriminate HT.
    + exfalso. apply (Hno h'); [apply in_app_iff; right; now left|]. eapply under_trans; eassumption.
  - exfalso. eapply tried_exact in HT as (ran & HT); [| exact Hv | assumption | assumption].
    rewrite Ha in HT. discriminate HT.
  - exfalso. destruct (at_path_prefix _ _ _ _ Hv Hq) as (w & Hw).
    assert (Hcq : forall h, In h c -> left_of (h_path h) q).
    { intros h Hh. destruct (left_of_prefix _ _ _ (Hc' _ Hh) Hq) as [H|H]; [assumption|].
      exfalso. apply (Hno h); [apply in_app_iff; now left | assumption]. }
    assert (Htq : forall h, In h t -> ~ left_of (h_path h) q).
    { intros h Hh HL. apply (Hn _ Hh). eapply left_of_under; eassumption. }
    eapply tried_exact in HT as (ran & HT); [| exact Hw | assumption | assumption].
    destruct (fd_complete _ _ _ F' _ _ Hw) as [(h2 & Hh2 & Hu2)|[HT'|(q' & Hq' & _ & Hno')]].
    + assert (h2 = h') as -> by (apply Hself; [assumption | eapply under_trans; eassumption]).
      assert (EP : h_path h' = q) by (now apply under_antisym).
      rewrite EP, Hw in Hv. injection Hv as ->. rewrite Ha in HT. discriminate HT.
    + eapply tried_exact in HT' as (ran' & HT'); [| exact Hw | assumption | now apply Hafter].
      rewrite HT in HT'. discriminate HT'.
    + apply (Hno' h'); [apply in_app_iff; right; now left|]. eapply under_trans; eassumption.
Qed.

Theorem found_unique e m hs hs' : found e m hs -> found e m hs' -> hs = hs'.
Proof.
  assert (H : forall t c t', found e m (c ++ t) -> found e m (c ++ t') -> t = t').
  { induction t as [|h t IH]; intros c t' F F'.
    - destruct t' as [|h' t']; [reflexivity|].
      destruct (found_next _ _ _ _ _ _ F F') as (t1 & E); [intros ? []|discriminate E].
    - destruct t' as [|h' t'].
      { destruct (found_next _ _ _ _ _ _ F' F) as (t1 & E); [intros ? []|discriminate E]. }
      assert (h = h') as <-.
      { destruct (left_of_dec (h_path h) (h_path h')) as [L|L].
        - destruct (found_next _ _ _ _ _ _ F' F) as (t1 & E); [|congruence].
          intros x [<-|Hx] HL; [now apply (left_of_asym _ _ L)|].
          destruct (sorted_split _ _ _ _ (fd_order _ _ _ F')) as [_ Ht'].
          apply (left_of_asym _ _ L). eapply left_of_trans; [apply Ht'; exact Hx | exact HL].
        - destruct (found_next _ _ _ _ _ _ F F') as (t1 & E); [|congruence].
          intros x [<-|Hx] HL; [now apply L|].
          destruct (sorted_split _ _ _ _ (fd_order _ _ _ F)) as [_ Ht].
          apply L. eapply left_of_trans; [apply Ht; exact Hx | exact HL]. }
      f_equal. apply (IH (c ++ [h])); rewrite <- app_assoc; assumption. }
  apply (H hs [] hs').
Qed.
