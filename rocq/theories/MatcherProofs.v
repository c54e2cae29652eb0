(** General facts about evaluating matchers; type filters; bind_variables. *)
From Verif Require Import Py PyFacts Ast Template FromDiff Matcher MatchSpec MergeSpec MergeProofs.

(** *** Induction *)
Section MatcherInd.
  Variable P : matcher -> Prop.
  Hypothesis H0 : P MAnything.
  Hypothesis H1 : P MRaise.
  Hypothesis H2 : forall ms, Forall P ms -> P (MAllOf ms).
  Hypothesis H3 : forall ms, Forall P ms -> P (MAnyOf ms).
  Hypothesis H4 : forall m, P m -> P (MUnless m).
  Hypothesis H5 : forall k m, P m -> P (MOnce k m).
  Hypothesis H6 : forall n m c g, P m -> P (MBind n m c g).
  Hypothesis H7 : forall m c g, P m -> P (MRebind m c g).
  Hypothesis H8 : forall s, P (MStringMatch s).
  Hypothesis H9 : forall m reps, P m -> P (MWithReplacements m reps).
  Hypothesis H10 : forall m, P m -> P (MDebug m).
  Hypothesis H11 : forall v, P (MEquals v).
  Hypothesis H12 : forall t, P (MTypeIs t).
  Hypothesis H13 : forall r m, P m -> P (MMatchesRegex r m).
  Hypothesis H14 : forall r, P (MFileMatchesRegex r).
  Hypothesis H15 : forall i m, P m -> P (MHasItem i m).
  Hypothesis H16 : forall ms, Forall P ms -> P (MItemsAre ms).
  Hypothesis H17 : forall m, P m -> P (MContains m).
  Hypothesis H18 : forall l, P (MInLines l).
  Hypothesis H19 : P MGlobStar.
  Hypothesis H20 : forall ms, Forall P ms -> P (MGlob ms).
  Hypothesis H21 : forall ty fs, Forall (fun fm => P (snd fm)) fs -> P (MNode ty fs).
  Hypothesis H22 : forall tys m, P m -> P (MConst tys m).
  Hypothesis H23 : forall m, P m -> P (MHasParent m).
  Hypothesis H24 : forall m, P m -> P (MIsOrHasAncestor m).
  Hypothesis H25 : forall m, P m -> P (MHasChild m).
  Hypothesis H26 : forall m, P m -> P (MIsOrHasDescendant m).
  Hypothesis H27 : forall a b, P a -> P b -> P (MHasFirstAncestor a b).
  Hypothesis H28 : forall m, P m -> P (MHasPrevSibling m).
  Hypothesis H29 : forall m, P m -> P (MHasNextSibling m).
  Hypothesis H30 : forall m a b, P m -> P (MWithTopLevelImport m a b).
  Hypothesis H31 : forall m, P m -> P (MHasComments m).
  Hypothesis H32 : forall m, P m -> P (MNoComments m).
  Hypothesis H33 : forall p f, P (MRewriteFile p f).
  Fixpoint matcher_ind' (m : matcher) : P m :=
    let go := fix go (l : list matcher) : Forall P l :=
      match l with [] => Forall_nil _ | x :: r => Forall_cons x (matcher_ind' x) (go r) end in
    match m with
    | MAnything => H0 | MRaise => H1
    | MAllOf ms => H2 ms (go ms) | MAnyOf ms => H3 ms (go ms)
    | MUnless m => H4 m (matcher_ind' m) | MOnce k m => H5 k m (matcher_ind' m)
    | MBind n m c g => H6 n m c g (matcher_ind' m) | MRebind m c g => H7 m c g (matcher_ind' m)
    | MStringMatch s => H8 s | MWithReplacements m r => H9 m r (matcher_ind' m)
    | MDebug m => H10 m (matcher_ind' m) | MEquals v => H11 v | MTypeIs t => H12 t
    | MMatchesRegex r m => H13 r m (matcher_ind' m) | MFileMatchesRegex r => H14 r
    | MHasItem i m => H15 i m (matcher_ind' m) | MItemsAre ms => H16 ms (go ms)
    | MContains m => H17 m (matcher_ind' m) | MInLines l => H18 l | MGlobStar => H19
    | MGlob ms => H20 ms (go ms)
    | MNode ty fs =>
        H21 ty fs ((fix gof (l : list (text * matcher)) : Forall (fun fm => P (snd fm)) l :=
           match l with [] => Forall_nil _ | x :: r => Forall_cons x (matcher_ind' (snd x)) (gof r) end) fs)
    | MConst tys m => H22 tys m (matcher_ind' m) | MHasParent m => H23 m (matcher_ind' m)
    | MIsOrHasAncestor m => H24 m (matcher_ind' m) | MHasChild m => H25 m (matcher_ind' m)
    | MIsOrHasDescendant m => H26 m (matcher_ind' m)
    | MHasFirstAncestor a b => H27 a b (matcher_ind' a) (matcher_ind' b)
    | MHasPrevSibling m => H28 m (matcher_ind' m) | MHasNextSibling m => H29 m (matcher_ind' m)
    | MWithTopLevelImport m a b => H30 m a b (matcher_ind' m)
    | MHasComments m => H31 m (matcher_ind' m) | MNoComments m => H32 m (matcher_ind' m)
    | MRewriteFile p f => H33 p f
    end.
End MatcherInd.

(** *** Inversion of runs *)
Lemma mbind_Ok {A B} (m : M A) (f : A -> M B) s s2 b :
  mbind m f s = (s2, Ok b) -> exists s1 a, m s = (s1, Ok a) /\ f a s1 = (s2, Ok b).
Proof. unfold mbind. destruct (m s) as [s1 [a|x]]; intros H; [eauto | discriminate H]. Qed.
Lemma lift_Ok {A} (r : res A) s s2 b : lift r s = (s2, Ok b) -> s2 = s /\ r = Ok b.
Proof. unfold lift. intros [= -> ->]. tauto. Qed.
Lemma ret_Ok {A} (a : A) s s2 b : ret a s = (s2, Ok b) -> s2 = s /\ a = b.
Proof. unfold ret. intros [= -> ->]. tauto. Qed.
Lemma bind_Ok {A B} (r : res A) (f : A -> res B) b :
  bind r f = Ok b -> exists a, r = Ok a /\ f a = Ok b.
Proof. destruct r; [eauto | discriminate]. Qed.
Lemma not_none_Ok {A} (o : option A) a : not_none o = Ok a -> o = Some a.
Proof. destruct o; cbn; congruence. Qed.

(** Break up a successful run as far as possible. *)
Ltac runs :=
  repeat match goal with
  | H : mbind _ _ _ = (_, Ok _) |- _ =>
      let s := fresh "s" in let a := fresh "a" in let H1 := fresh "R" in let H2 := fresh "R" in
      apply mbind_Ok in H as (s & a & H1 & H2)
  | H : lift _ _ = (_, Ok _) |- _ => apply lift_Ok in H as [? H]; subst
  | H : ret _ _ = (_, Ok _) |- _ => apply ret_Ok in H as [? H]; subst
  | H : bind _ _ = Ok _ |- _ =>
      let a := fresh "a" in let H1 := fresh "R" in let H2 := fresh "R" in
      apply bind_Ok in H as (a & H1 & H2)
  | H : not_none _ = Ok _ |- _ => apply not_none_Ok in H; subst
  | H : Some _ = Some _ |- _ => injection H as H; subst
  | H : Ok _ = Ok _ |- _ => injection H as H; subst
  | H : (_, _) = (_, _) |- _ => injection H as ? H; subst
  | H : Some _ = None |- _ => discriminate H
  | H : None = Some _ |- _ => discriminate H
  | H : Err _ = Ok _ |- _ => discriminate H
  end.

(** [a] run from some state gives [r]. *)
Definition succeeds (a : outcome) (r : result) : Prop := exists s s', a s = (s', Ok (Some r)).
Lemma r_bindings_of r b : r_bindings r = Ok (Some b) -> bindings_of r = b.
Proof. destruct r as [x [d|] t|]; cbn; congruence. Qed.

Lemma rewrap_inv e v o s s' r :
  rewrap e v o s = (s', Ok (Some r)) ->
  s' = s /\ exists r0 b, o = Some r0 /\ r_bindings r0 = Ok b /\ r = info e v b.
Proof.
  destruct o as [r0|]; cbn [rewrap]; intros H.
  - apply mbind_Ok in H as (s1 & b & H1 & H2). apply lift_Ok in H1 as [-> H1].
    apply ret_Ok in H2 as [-> [= <-]]. split; [reflexivity|]. eauto.
  - apply ret_Ok in H as [_ H]. discriminate H.
Qed.
Lemma rewrap_bindings e v o s s' r :
  rewrap e v o s = (s', Ok (Some r)) ->
  exists r0, o = Some r0 /\ bindings_of r = bindings_of r0 /\ r_match r = Ok (create_match (e_parsed e) v).
Proof.
  intros H. apply rewrap_inv in H as (_ & r0 & b & -> & H1 & ->). exists r0.
  split; [reflexivity|]. split; [|reflexivity].
  destruct r0 as [x d t|]; cbn in H1; [|discriminate H1]. injection H1 as ->. now destruct b.
Qed.

Lemma first_of_inv acts s s' r :
  first_of acts s = (s', Ok (Some r)) -> exists a, In a acts /\ succeeds a r.
Proof.
  revert s. induction acts as [|a acts IH]; cbn [first_of]; intros s H; [apply ret_Ok in H as [_ H]; discriminate H|].
  apply mbind_Ok in H as (s1 & [r0|] & H1 & H2).
  - apply ret_Ok in H2 as [-> [= ->]]. exists a. split; [now left|]. now exists s, s1.
  - apply IH in H2 as (a' & H & H3). exists a'. split; [now right | assumption].
Qed.

(** Names bound by a merge. *)
Lemma merge_shared_keys keys lhs rhs : forall merged skip d,
  merge_shared keys lhs rhs merged skip = Ok (Some d) -> dkeys d = dkeys merged ++ keys.
Proof.
  induction keys as [|k keys IH]; cbn [merge_shared]; intros merged skip d H.
  - destruct skip; [discriminate H|]. injection H as <-. now rewrite app_nil_r.
  - destruct (dget lhs k) as [a|]; [|discriminate H]. destruct (dget rhs k) as [b|]; [|discriminate H].
    destruct (negb _); [discriminate H|]. destruct (negb _); [discriminate H|].
    apply bind_Ok in H as ([|] & _ & H).
    + apply IH in H. rewrite H. unfold dkeys. rewrite map_app, <- app_assoc. reflexivity.
    + exfalso. revert H. clear. revert merged. induction keys as [|k keys IH]; cbn [merge_shared]; intros merged H.
      * discriminate H.
      * destruct (dget lhs k) as [a|]; [|discriminate H]. destruct (dget rhs k) as [b|]; [|discriminate H].
        destruct (negb _); [discriminate H|]. destruct (negb _); [discriminate H|].
        apply bind_Ok in H as ([|] & _ & H); eapply IH; exact H.
Qed.
Lemma merge_bindings_keys lhs rhs d k :
  merge_bindings lhs rhs = Ok (Some d) -> In k (dkeys d) -> In k (dkeys lhs) \/ In k (dkeys rhs).
Proof.
  unfold merge_bindings, merge_bindings_in. intros H Hk. apply bind_Ok in H as ([m|] & H1 & H2); [|discriminate H2].
  injection H2 as <-. apply merge_shared_keys in H1. cbn in H1.
  unfold dkeys in *. rewrite !map_app, !in_app_iff in Hk. destruct Hk as [Hk|[Hk|Hk]].
  - rewrite H1 in Hk. unfold shared_keys in Hk. apply filter_In in Hk. left. apply Hk.
  - left. apply in_map_iff in Hk as (x & <- & Hx). apply filter_In in Hx as [Hx _]. now apply in_map.
  - right. apply in_map_iff in Hk as (x & <- & Hx). apply filter_In in Hx as [Hx _]. now apply in_map.
Qed.

Lemma accumulate_inv acts : forall b t s s' b' t',
  accumulate acts b t s = (s', Ok (Some (b', t'))) ->
  (forall a, In a acts -> exists r, succeeds a r) /\
  (forall k, In k (dkeys b') -> In k (dkeys b) \/
     exists a r, In a acts /\ succeeds a r /\ In k (dkeys (bindings_of r))).
Proof.
  induction acts as [|a acts IH]; cbn [accumulate]; intros b t s s' b' t' H.
  - apply ret_Ok in H as [_ [= -> ->]]. split; [intros ? []|]. tauto.
  - apply mbind_Ok in H as (s1 & [r|] & H1 & H).
    2:{ apply ret_Ok in H as [_ H]. discriminate H. }
    apply mbind_Ok in H as (s2 & ob & H2 & H). apply lift_Ok in H2 as [-> H2].
    apply mbind_Ok in H as (s3 & rb & H3 & H). apply lift_Ok in H3 as [-> H3]. apply not_none_Ok in H3 as ->.
    apply mbind_Ok in H as (s4 & mb & H4 & H). apply lift_Ok in H4 as [-> H4].
    destruct mb as [b1|]. 2:{ apply ret_Ok in H as [_ H]. discriminate H. }
    apply mbind_Ok in H as (s5 & rt & H5 & H). apply lift_Ok in H5 as [-> H5].
    apply mbind_Ok in H as (s6 & t1 & H6 & H). apply lift_Ok in H6 as [-> H6].
    apply IH in H as (HA & HK). apply r_bindings_of in H2.
    assert (Hs : succeeds a r) by now exists s, s1.
    split.
    + intros a' [<-|Hin]; [eauto | now apply HA].
    + intros k Hk. apply HK in Hk as [Hk|(a' & r' & Hin & Hs' & Hk)].
      * eapply merge_bindings_keys in Hk; [|exact H4]. destruct Hk as [Hk|Hk]; [now left|].
        right. exists a, r. split; [now left|]. split; [assumption|]. now rewrite H2.
      * right. exists a', r'. split; [now right|]. tauto.
Qed.
Lemma accumulating_inv e v acts s s' r :
  accumulating e v acts s = (s', Ok (Some r)) ->
  (forall a, In a acts -> exists r, succeeds a r) /\
  (forall k, In k (dkeys (bindings_of r)) ->
     exists a r', In a acts /\ succeeds a r' /\ In k (dkeys (bindings_of r'))) /\
  r_match r = Ok (create_match (e_parsed e) v).
Proof.
  unfold accumulating. intros H. apply mbind_Ok in H as (s1 & [[b t]|] & H1 & H).
  2:{ apply ret_Ok in H as [_ H]. discriminate H. }
  apply ret_Ok in H as [-> [= <-]]. apply accumulate_inv in H1 as (HA & HK).
  split; [assumption|]. split; [|reflexivity]. intros k Hk. cbn in Hk.
  apply HK in Hk as [[]|?]. assumption.
Qed.

Lemma anything_inv e v s s' r :
  anything e v s = (s', Ok (Some r)) -> s' = s /\ r = info e v (Some []).
Proof. unfold anything. intros H. apply ret_Ok in H as [-> [= <-]]. tauto. Qed.
Lemma unless_inv e a v s s' r :
  unless e a v s = (s', Ok (Some r)) -> r = info e v (Some []) /\ a s = (s', Ok None).
Proof.
  unfold unless. intros H. apply mbind_Ok in H as (s1 & [r0|] & H1 & H).
  - apply ret_Ok in H as [_ H]. discriminate H.
  - apply anything_inv in H as [-> ->]. tauto.
Qed.
Lemma has_item_inv e i sub v s s' r :
  has_item e i sub v s = (s', Ok (Some r)) ->
  exists x r0, subscript e v i = Some x /\ succeeds (sub x) r0
    /\ bindings_of r = bindings_of r0 /\ r_match r = Ok (create_match (e_parsed e) v).
Proof.
  unfold has_item. destruct (subscript e v i) as [x|]; intros H.
  2:{ apply ret_Ok in H as [_ H]. discriminate H. }
  apply mbind_Ok in H as (s1 & o & H1 & H). apply rewrap_bindings in H as (r0 & -> & H2 & H3).
  exists x, r0. repeat split; try assumption. now exists s, s1.
Qed.
Lemma numbered_items_In e v subs : forall i a,
  In a (numbered_items e i subs v) ->
  exists j sub, In sub subs /\ a = has_item e j sub v.
Proof.
  induction subs as [|m subs IH]; cbn; intros i a; [intros []|].
  intros [<-|H]; [eauto|]. apply IH in H as (j & sub & H & ->). eauto.
Qed.
Lemma items_are_inv e subs v s s' r :
  items_are e subs v s = (s', Ok (Some r)) ->
  (forall k, In k (dkeys (bindings_of r)) ->
     exists sub x r', In sub subs /\ succeeds (sub x) r' /\ In k (dkeys (bindings_of r')))
  /\ r_match r = Ok (create_match (e_parsed e) v).
Proof.
  unfold items_are. intros H. apply accumulating_inv in H as (HA & HK & HM).
  split; [|assumption]. intros k Hk. apply HK in Hk as (a & r' & [<-|Hin] & (s1 & s2 & Hs) & Hk).
  - apply unless_inv in Hs as [-> _]. destruct Hk.
  - apply numbered_items_In in Hin as (j & sub & Hsub & ->).
    apply has_item_inv in Hs as (x & r0 & _ & Hr0 & E & _). rewrite E in Hk. eauto 6.
Qed.

Lemma climb_inv n e sub : forall v s s' r,
  climb n e sub v s = (s', Ok (Some r)) ->
  exists w r0, succeeds (sub w) r0 /\ bindings_of r = bindings_of r0.
Proof.
  induction n as [|n IH]; cbn [climb]; intros v s s' r H.
  - apply lift_Ok in H as [_ H]. discriminate H.
  - apply mbind_Ok in H as (s1 & [r0|] & H1 & H).
    + apply ret_Ok in H as [-> [= ->]]. exists v, r. split; [now exists s, s1 | reflexivity].
    + destruct (parent e v) as [p|].
      2:{ apply ret_Ok in H as [_ H]. discriminate H. }
      apply mbind_Ok in H as (s2 & o' & H2 & H). apply rewrap_bindings in H as (r0 & -> & E & _).
      apply IH in H2 as (w & r1 & Hs & E'). exists w, r1. split; [assumption | congruence].
Qed.
Lemma climb_first_inv n e sub : forall v s s' r,
  climb_first n e sub v s = (s', Ok (Some r)) -> exists w, succeeds (sub w) r.
Proof.
  induction n as [|n IH]; cbn [climb_first]; intros v s s' r H.
  - apply lift_Ok in H as [_ H]. discriminate H.
  - destruct (parent e v) as [p|].
    2:{ apply ret_Ok in H as [_ H]. discriminate H. }
    apply mbind_Ok in H as (s1 & [r0|] & H1 & H).
    + apply ret_Ok in H as [-> [= ->]]. exists p. now exists s, s1.
    + now apply IH in H.
Qed.

Lemma glob_search_inv e blk v starts : forall s s' r p,
  glob_search e blk v starts s = (s', Ok (Some (r, p))) ->
  exists a, In a starts /\ p = a + tlen blk /\ succeeds (items_are e blk (vslice v a (a + tlen blk))) r.
Proof.
  induction starts as [|a starts IH]; cbn [glob_search]; intros s s' r p H.
  - apply ret_Ok in H as [_ H]. discriminate H.
  - apply mbind_Ok in H as (s1 & [r0|] & H1 & H).
    + apply ret_Ok in H as [-> [= -> <-]]. exists a. split; [now left|]. split; [reflexivity|]. now exists s, s1.
    + apply IH in H as (a' & ? & ?). exists a'. split; [now right | assumption].
Qed.
Lemma glob_loop_inv e v len blocks : forall is_search pos b s s' r,
  glob_loop e v len blocks is_search pos b s = (s', Ok (Some r)) ->
  exists d, r = info e v (Some d) /\
  forall k, In k (dkeys d) -> In k (dkeys b) \/
    exists blk sub x r', In (Some blk) blocks /\ In sub blk /\ succeeds (sub x) r'
                         /\ In k (dkeys (bindings_of r')).
Proof.
  induction blocks as [|[blk|] blocks IH]; cbn [glob_loop]; intros is_search pos b s s' r H.
  - destruct (_ && _); apply ret_Ok in H as [_ H]; [discriminate H|]. injection H as <-.
    exists b. tauto.
  - match type of H with (let '(_, _) := ?p in _) _ = _ => destruct p as [pos0 send] end.
    apply mbind_Ok in H as (s1 & [[r0 p']|] & H1 & H).
    2:{ apply ret_Ok in H as [_ H]. discriminate H. }
    apply glob_search_inv in H1 as (a & _ & _ & (s3 & s4 & H1)).
    apply items_are_inv in H1 as [H1 _].
    apply mbind_Ok in H as (s5 & ob & H2 & H). apply lift_Ok in H2 as [-> H2].
    apply mbind_Ok in H as (s6 & rb & H3 & H). apply lift_Ok in H3 as [-> H3]. apply not_none_Ok in H3 as ->.
    apply mbind_Ok in H as (s7 & mb & H4 & H). apply lift_Ok in H4 as [-> H4].
    destruct mb as [b1|]. 2:{ apply ret_Ok in H as [_ H]. discriminate H. }
    apply IH in H as (d & -> & HK). exists d. split; [reflexivity|].
    intros k Hk. apply HK in Hk as [Hk|(blk' & sub & x & r' & Hi & ? & ? & ?)].
    + eapply merge_bindings_keys in Hk; [|exact H4]. destruct Hk as [Hk|Hk]; [now left|].
      right. apply r_bindings_of in H2. rewrite <- H2 in Hk.
      apply H1 in Hk as (sub & x & r' & ? & ? & ?). exists blk, sub, x, r'. split; [now left|]. tauto.
    + right. exists blk', sub, x, r'. split; [now right|]. tauto.
  - apply IH in H as (d & -> & HK). exists d. split; [reflexivity|].
    intros k Hk. apply HK in Hk as [Hk|(blk' & sub & x & r' & Hi & ? & ? & ?)]; [now left|].
    right. exists blk', sub, x, r'. split; [now right|]. tauto.
Qed.
Lemma blockify_In ms : forall cur blk sub,
  In (Some blk) (blockify ms cur) -> In sub blk ->
  (exists c, cur = Some c /\ In sub c) \/ In (false, sub) ms.
Proof.
  induction ms as [|[[|] m] ms IH]; cbn [blockify]; intros cur blk sub H Hs.
  - destruct H as [->|[]]. left. eauto.
  - destruct cur as [[|x c]|].
    + apply IH with (sub := sub) in H as [(c & ? & ?)|H]; [discriminate | right; now right | assumption].
    + destruct H as [[= <-]|H]; [left; eauto|].
      apply IH with (sub := sub) in H as [(c' & ? & ?)|H]; [discriminate | right; now right | assumption].
    + destruct H as [[=]|H].
      apply IH with (sub := sub) in H as [(c' & ? & ?)|H]; [discriminate | right; now right | assumption].
  - destruct cur as [c|].
    + apply IH with (sub := sub) in H as [(c' & [= <-] & Hc)|H]; [|right; now right | assumption].
      apply in_app_iff in Hc as [Hc|[<-|[]]]; [left; eauto | right; now left].
    + destruct H as [[=]|H].
      apply IH with (sub := sub) in H as [(c' & [= <-] & [<-|[]])|H]; [right; now left | right; now right | assumption].
Qed.
Lemma glob_inv e ms v s s' r :
  glob e ms v s = (s', Ok (Some r)) ->
  forall k, In k (dkeys (bindings_of r)) ->
    exists sub x r', In (false, sub) ms /\ succeeds (sub x) r' /\ In k (dkeys (bindings_of r')).
Proof.
  unfold glob. destruct (seq_items e v) as [l|]; intros H k Hk.
  - apply glob_loop_inv in H as (d & -> & HK). cbn in Hk.
    apply HK in Hk as [[]|(blk & sub & x & r' & Hb & Hs & ? & ?)].
    eapply blockify_In in Hb as [(c & [= <-] & [])|Hb]; [|exact Hs]. eauto 6.
  - apply ret_Ok in H as [_ [= <-]]. destruct Hk.
Qed.

(** *** Type filters are sound *)

Lemma inter_admits a b ty : admits (filter_inter a b) ty = admits a ty && admits b ty.
Proof.
  destruct a as [s|], b as [t|]; cbn; try reflexivity.
  - induction s as [|x s IH]; cbn; [reflexivity|].
    destruct (tmem x t) eqn:E; cbn.
    + rewrite IH. destruct (text_eqb_spec x ty) as [->|N]; cbn; [now rewrite E | reflexivity].
    + rewrite IH. destruct (text_eqb_spec x ty) as [->|N]; cbn; [|reflexivity].
      rewrite E. now rewrite andb_false_r.
  - now rewrite andb_true_r.
Qed.
Lemma inter_all fs ty : forall acc,
  admits (fold_left filter_inter fs acc) ty = admits acc ty && forallb (fun f => admits f ty) fs.
Proof.
  induction fs as [|f fs IH]; cbn; intros acc; [now rewrite andb_true_r|].
  rewrite IH, inter_admits, andb_assoc. reflexivity.
Qed.
Lemma union_None fs : fold_left filter_union fs None = None.
Proof. induction fs as [|f fs IH]; cbn; [reflexivity|]. assumption. Qed.
Lemma tmem_app x a b : tmem x (a ++ b) = tmem x a || tmem x b.
Proof. induction a as [|y a IH]; cbn; [reflexivity | now rewrite IH, orb_assoc]. Qed.
Lemma union_some fs ty : forall acc f,
  In f fs -> admits f ty = true -> admits (fold_left filter_union fs acc) ty = true.
Proof.
  assert (Hacc : forall fs acc, admits acc ty = true -> admits (fold_left filter_union fs acc) ty = true).
  { clear. induction fs as [|g fs IH]; cbn; intros acc H; [assumption|]. apply IH.
    destruct acc as [s|], g as [t|]; cbn; try reflexivity. rewrite tmem_app. cbn in H. now rewrite H. }
  induction fs as [|g fs IH]; cbn; intros acc f; [intros []|].
  intros [->|Hin] Hf; [|now apply IH with f].
  apply Hacc. destruct acc as [s|], f as [t|]; cbn; try reflexivity. cbn in Hf.
  now rewrite tmem_app, Hf, orb_true_r.
Qed.

Lemma tried_admits fs ty f : In f fs -> tried fs ty f = admits f ty.
Proof.
  intros Hin. unfold tried. destruct (typed fs ty) eqn:E; [reflexivity|].
  destruct f as [ts|]; cbn; [|reflexivity].
  destruct (tmem ty ts) eqn:E'; [|reflexivity].
  exfalso. assert (typed fs ty = true); [|congruence].
  apply existsb_exists. exists (Some ts). now split.
Qed.

Theorem type_filter_sound e m : forall v s s' r,
  eval e m v s = (s', Ok (Some r)) -> admits (type_filter m) (vtype v) = true.
Proof.
  induction m using matcher_ind'; intros v0 s0 s' r0 HH; cbn [type_filter admits]; try reflexivity;
    cbn [eval] in HH.
  - (* AllOf *)
    rewrite inter_all. cbn. apply forallb_forall. intros f Hf. apply in_map_iff in Hf as (m & <- & Hm).
    rewrite Forall_forall in H. apply accumulating_inv in HH as (HA & _).
    destruct (HA (eval e m v0)) as (r' & s1 & s2 & Hs); [apply in_map_iff; eauto|].
    now apply H in Hs.
  - (* AnyOf *)
    apply first_of_inv in HH as (a & Ha & (s1 & s2 & Hs)).
    apply in_flat_map in Ha as (m & Hm & Ha).
    destruct (tried _ _ _); [|destruct Ha]. destruct Ha as [<-|[]].
    rewrite Forall_forall in H. apply H in Hs; [|assumption].
    apply union_some with (type_filter m); [now apply in_map | assumption].
  - apply mbind_Ok in HH as (s1 & [r1|] & H1 & HH); [eauto | apply ret_Ok in HH as [_ HH]; discriminate HH].
  - apply mbind_Ok in HH as (s1 & [r1|] & H1 & HH); [eauto | apply ret_Ok in HH as [_ HH]; discriminate HH].
  - apply mbind_Ok in HH as (s1 & [r1|] & H1 & HH); [eauto | apply ret_Ok in HH as [_ HH]; discriminate HH].
  - destruct (text_eqb_spec (vtype v0) t) as [->|N]; [cbn; now rewrite text_eqb_refl|].
    apply ret_Ok in HH as [_ HH]. discriminate HH.
  - destruct (text_eqb_spec (vtype v0) ty) as [->|N]; [cbn; now rewrite text_eqb_refl|].
    apply ret_Ok in HH as [_ HH]. discriminate HH.
  - destruct (text_eqb_spec (vtype v0) (TX "Constant")) as [->|N]; [reflexivity|].
    cbn [negb] in HH. apply ret_Ok in HH as [_ HH]. discriminate HH.
  - destruct (dget _ _) as [n|]; [|apply ret_Ok in HH as [_ HH]; discriminate HH].
    destruct (text_eqb n b); [eauto | apply ret_Ok in HH as [_ HH]; discriminate HH].
  - apply mbind_Ok in HH as (s1 & [r1|] & H1 & HH); [eauto | apply ret_Ok in HH as [_ HH]; discriminate HH].
  - apply mbind_Ok in HH as (s1 & [r1|] & H1 & HH); [eauto | apply ret_Ok in HH as [_ HH]; discriminate HH].
Qed.
