(** Declared bind variables; the names a match binds; [Once]; [AnyOf]. *)
From Verif Require Import Py PyFacts Ast Template FromDiff Matcher MatchSpec MergeSpec MergeProofs MatcherProofs.

Lemma descend_eq e sub x :
  descend e sub x =
  (run o <- sub x;
   match o with
   | Some r => ret (Some r)
   | None => run o' <- first_of (map (descend e sub) (vchildren x)); rewrap e x o'
   end).
Proof.
  destruct x as [i fs|i l|i c]; cbn [descend vchildren]; try reflexivity.
  now rewrite map_map.
Qed.
Lemma descend_inv e sub : forall v s s' r,
  descend e sub v s = (s', Ok (Some r)) ->
  exists w r0, succeeds (sub w) r0 /\ bindings_of r = bindings_of r0.
Proof.
  assert (Hch : forall (l : list value) s s' r v,
    Forall (fun w => forall s s' r, descend e sub w s = (s', Ok (Some r)) ->
       exists w r0, succeeds (sub w) r0 /\ bindings_of r = bindings_of r0) l ->
    (run o' <- first_of (map (descend e sub) l); rewrap e v o') s = (s', Ok (Some r)) ->
    exists w r0, succeeds (sub w) r0 /\ bindings_of r = bindings_of r0).
  { intros l s s' r v HF H. apply mbind_Ok in H as (s1 & o & H1 & H).
    apply rewrap_bindings in H as (r0 & -> & E & _).
    apply first_of_inv in H1 as (a & Ha & (s2 & s3 & Hs)). apply in_map_iff in Ha as (w & <- & Hw).
    rewrite Forall_forall in HF. apply HF in Hs as (w' & r1 & Hs & E'); [|assumption].
    exists w', r1. split; [assumption | congruence]. }
  induction v as [i fs IH|i l IH|i c] using value_ind'; intros s s' r H; rewrite descend_eq in H;
    apply mbind_Ok in H as (s1 & [r0|] & H1 & H);
    try (apply ret_Ok in H as [-> [= ->]]; eexists; eexists; split; [exists s, s1; exact H1 | reflexivity]);
    cbn [vchildren] in H; eapply Hch in H; eauto.
  apply Forall_map. assumption.
Qed.

Lemma re_bindings_keys r t regs : dkeys (re_bindings r t regs) = dkeys (cr_groups r).
Proof. unfold dkeys, re_bindings. rewrite map_map. reflexivity. Qed.

Ltac none H := apply ret_Ok in H as [_ H]; discriminate H.

Theorem bind_variables_cover e m : forall v s s' r k,
  rewrite_free m = true -> eval e m v s = (s', Ok (Some r)) ->
  In k (dkeys (bindings_of r)) -> In k (bind_variables m).
Proof.
  induction m using matcher_ind'; intros v0 s0 s' r0 k0 HF HH Hk;
    cbn [rewrite_free] in HF; cbn [bind_variables]; cbn [eval] in HH.
  - apply anything_inv in HH as [_ ->]. destruct Hk.
  - apply lift_Ok in HH as [_ HH]. discriminate HH.
  - rewrite Forall_forall in H. rewrite forallb_forall in HF.
    apply accumulating_inv in HH as (_ & HK & _).
    apply HK in Hk as (a & r' & Ha & (s1 & s2 & Hs) & Hk).
    apply in_map_iff in Ha as (m & <- & Hm). apply in_flat_map. exists m. split; [assumption|].
    eapply H; eauto.
  - rewrite Forall_forall in H. rewrite forallb_forall in HF.
    apply first_of_inv in HH as (a & Ha & (s1 & s2 & Hs)). apply in_flat_map in Ha as (m & Hm & Ha).
    destruct (tried _ _ _); [|destruct Ha]. destruct Ha as [<-|[]].
    apply in_flat_map. exists m. split; [assumption|]. eapply H; eauto.
  - apply unless_inv in HH as [-> _]. destruct Hk.
  - destruct (_ || _).
    + apply accumulating_inv in HH as (_ & HK & _). apply HK in Hk as (a & ? & [] & _).
    + apply accumulating_inv in HH as (_ & HK & _).
      apply HK in Hk as (a & r' & [<-|[]] & (s1 & s2 & Hs) & Hk).
      apply mbind_Ok in Hs as (s3 & o & H1 & Hs). cbv beta in Hs. injection Hs as _ ->. eauto.
  - apply mbind_Ok in HH as (s1 & [r1|] & H1 & HH); [|none HH].
    apply mbind_Ok in HH as (s2 & rb & H2 & HH). apply lift_Ok in H2 as [-> H2].
    apply bind_Ok in H2 as (ob & H2 & H2'). apply not_none_Ok in H2' as ->.
    apply mbind_Ok in HH as (s3 & rm & H3 & HH). apply lift_Ok in H3 as [-> H3].
    apply mbind_Ok in HH as (s4 & rt & H4 & HH). apply lift_Ok in H4 as [-> H4].
    apply mbind_Ok in HH as (s5 & mb & H5 & HH). apply lift_Ok in H5 as [-> H5].
    destruct mb as [b|]; [|none HH]. apply ret_Ok in HH as [-> [= <-]]. cbn in Hk.
    eapply merge_bindings_keys in Hk; [|exact H5]. apply r_bindings_of in H2.
    destruct Hk as [Hk|[<-|[]]]; [|now left]. right. subst rb. eauto.
  - apply mbind_Ok in HH as (s1 & [r1|] & H1 & HH); [|none HH].
    apply mbind_Ok in HH as (s2 & rb & H2 & HH). apply lift_Ok in H2 as [-> H2].
    apply bind_Ok in H2 as (ob & H2 & H2'). apply not_none_Ok in H2' as ->.
    apply mbind_Ok in HH as (s3 & rm & H3 & HH). apply lift_Ok in H3 as [-> H3].
    apply mbind_Ok in HH as (s4 & rt & H4 & HH). apply lift_Ok in H4 as [-> H4].
    apply ret_Ok in HH as [-> [= <-]]. cbn in Hk.
    unfold dkeys in Hk. rewrite map_map in Hk. cbn in Hk. apply r_bindings_of in H2. subst rb. eauto.
  - apply ret_Ok in HH as [_ [= <-]]. destruct Hk.
  - apply mbind_Ok in HH as (s1 & [r1|] & H1 & HH); [|none HH].
    apply mbind_Ok in HH as (s2 & rt & H2 & HH). apply lift_Ok in H2 as [-> H2].
    apply mbind_Ok in HH as (s3 & rb & H3 & HH). apply lift_Ok in H3 as [-> H3].
    apply mbind_Ok in HH as (s4 & rm & H4 & HH). apply lift_Ok in H4 as [-> H4].
    apply mbind_Ok in HH as (s5 & t & H5 & HH). apply lift_Ok in H5 as [-> H5].
    apply ret_Ok in HH as [-> [= <-]]. destruct rb as [d|]; [|destruct Hk]. cbn in Hk.
    apply r_bindings_of in H3. subst d. eauto.
  - eauto.
  - destruct (py_eq _ _); [|none HH]. apply anything_inv in HH as [_ ->]. destruct Hk.
  - destruct (text_eqb _ _); [|none HH]. apply anything_inv in HH as [_ ->]. destruct Hk.
  - apply mbind_Ok in HH as (s1 & [r1|] & H1 & HH); [|none HH].
    apply mbind_Ok in HH as (s2 & rm & H2 & HH). apply lift_Ok in H2 as [-> H2].
    destruct (m_span rm) as [[a b]|]; [|none HH]. destruct (cr_match r _ a b) as [regs|]; [|none HH].
    apply mbind_Ok in HH as (s3 & rb & H3 & HH). apply lift_Ok in H3 as [-> H3].
    apply bind_Ok in H3 as (ob & H3 & H3'). apply not_none_Ok in H3' as ->.
    apply mbind_Ok in HH as (s4 & rt & H4 & HH). apply lift_Ok in H4 as [-> H4].
    apply mbind_Ok in HH as (s5 & mb & H5 & HH). apply lift_Ok in H5 as [-> H5].
    destruct mb as [d|]; [|none HH]. apply ret_Ok in HH as [-> [= <-]]. cbn in Hk.
    eapply merge_bindings_keys in Hk; [|exact H5]. rewrite re_bindings_keys in Hk.
    apply in_app_iff. destruct Hk as [Hk|Hk]; [now left|]. right.
    apply r_bindings_of in H3. subst rb. eauto.
  - destruct (cr_search _ _) as [regs|]; [|none HH]. apply ret_Ok in HH as [_ [= <-]].
    cbn [bindings_of] in Hk. now rewrite re_bindings_keys in Hk.
  - apply has_item_inv in HH as (x & r1 & _ & (s1 & s2 & Hs) & E & _). rewrite E in Hk. eauto.
  - rewrite Forall_forall in H. rewrite forallb_forall in HF.
    apply items_are_inv in HH as [HK _]. apply HK in Hk as (sub & x & r' & Hs & (s1 & s2 & Hr) & Hk).
    apply in_map_iff in Hs as (m & <- & Hm). apply in_flat_map. exists m. split; [assumption|]. eapply H; eauto.
  - destruct (seq_items e v0) as [l|]; [|none HH].
    apply mbind_Ok in HH as (s1 & o & H1 & HH). apply rewrap_bindings in HH as (r1 & -> & E & _).
    rewrite E in Hk. apply first_of_inv in H1 as (a & Ha & (s2 & s3 & Hs)).
    apply in_map_iff in Ha as (x & <- & _). eauto.
  - destruct v0 as [i fs|i l'|i c]; try none HH. destruct (n_line i) as [n|]; [|none HH].
    destruct (zmem n l); [|none HH]. apply anything_inv in HH as [_ ->]. destruct Hk.
  - apply lift_Ok in HH as [_ HH]. discriminate HH.
  - rewrite Forall_forall in H. rewrite forallb_forall in HF.
    eapply glob_inv in Hk as (sub & x & r' & Hs & (s1 & s2 & Hr) & Hk); [|exact HH].
    apply in_map_iff in Hs as (m & [= _ <-] & Hm). apply in_flat_map. exists m. split; [assumption|]. eapply H; eauto.
  - rewrite Forall_forall in H. rewrite forallb_forall in HF.
    destruct (text_eqb _ _); [|none HH]. apply accumulating_inv in HH as (_ & HK & _).
    apply HK in Hk as (a & r' & Ha & (s1 & s2 & Hs) & Hk).
    apply in_map_iff in Ha as (m & <- & Hm). apply in_flat_map. exists m. split; [assumption|].
    eapply H; eauto.
  - destruct (negb _); [none HH|]. destruct (negb _); [none HH|].
    apply mbind_Ok in HH as (s1 & o & H1 & HH). apply rewrap_bindings in HH as (r1 & -> & E & _).
    rewrite E in Hk. eauto.
  - destruct (parent e v0) as [p|]; [|none HH].
    apply mbind_Ok in HH as (s1 & o & H1 & HH). apply rewrap_bindings in HH as (r1 & -> & E & _).
    rewrite E in Hk. eauto.
  - apply climb_inv in HH as (w & r1 & (s1 & s2 & Hs) & E). rewrite E in Hk.
    destruct (admits _ _); [eauto | none Hs].
  - apply mbind_Ok in HH as (s1 & o & H1 & HH). apply rewrap_bindings in HH as (r1 & -> & E & _).
    rewrite E in Hk. apply first_of_inv in H1 as (a & Ha & (s2 & s3 & Hs)).
    apply in_map_iff in Ha as (x & <- & _). eauto.
  - apply descend_inv in HH as (w & r1 & (s1 & s2 & Hs) & E). rewrite E in Hk.
    destruct (admits _ _); [eauto | none Hs].
  - apply andb_true_iff in HF as [HFa HFb].
    apply mbind_Ok in HH as (s1 & [r1|] & H1 & HH); [|none HH].
    apply climb_first_inv in H1 as (w & (s2 & s3 & H1)).
    apply mbind_Ok in HH as (s4 & rm & H2 & HH). apply lift_Ok in H2 as [-> H2].
    apply mbind_Ok in HH as (s5 & anc & H3 & HH). apply lift_Ok in H3 as [-> H3].
    apply mbind_Ok in HH as (s6 & [r2|] & H4 & HH); [|none HH].
    apply mbind_Ok in HH as (s7 & b1 & H5 & HH). apply lift_Ok in H5 as [-> H5].
    apply bind_Ok in H5 as (ob & H5 & H5'). apply not_none_Ok in H5' as ->.
    apply mbind_Ok in HH as (s8 & b2 & H6 & HH). apply lift_Ok in H6 as [-> H6].
    apply bind_Ok in H6 as (ob & H6 & H6'). apply not_none_Ok in H6' as ->.
    apply mbind_Ok in HH as (s9 & mb & H7 & HH). apply lift_Ok in H7 as [-> H7].
    apply ret_Ok in HH as [-> [= <-]]. destruct mb as [d|]; [|destruct Hk]. cbn in Hk.
    eapply merge_bindings_keys in Hk; [|exact H7]. apply in_app_iff.
    apply r_bindings_of in H5, H6. subst b1 b2. destruct Hk as [Hk|Hk]; [left | right]; eauto.
  - destruct (get_prev_sibling _ _) as [x|]; [|none HH]. destruct (py_truthy x); [eauto | none HH].
  - destruct (get_next_sibling _ _) as [x|]; [|none HH]. destruct (py_truthy x); [eauto | none HH].
  - destruct (dget _ _) as [n|]; [|none HH]. destruct (text_eqb n b); [eauto | none HH].
  - apply mbind_Ok in HH as (s1 & [r1|] & H1 & HH); [|none HH].
    apply mbind_Ok in HH as (s2 & c & H2 & HH). destruct c; [|none HH].
    apply ret_Ok in HH as [-> [= <-]]. eauto.
  - apply mbind_Ok in HH as (s1 & [r1|] & H1 & HH); [|none HH].
    apply mbind_Ok in HH as (s2 & c & H2 & HH). destruct c; [none HH|].
    apply ret_Ok in HH as [-> [= <-]]. eauto.
  - discriminate HF.
Qed.

(** *** [AnyOf] *)

Lemma eval_anyof e ms v :
  eval e (MAnyOf ms) v =
  first_of (map (fun m => eval e m v) (filter (fun m => admits (type_filter m) (vtype v)) ms)).
Proof.
  cbn [eval]. f_equal.
  assert (H : forall l, (forall m, In m l -> In m ms) ->
    flat_map (fun m' => if tried (map type_filter ms) (vtype v) (type_filter m') then [eval e m' v] else []) l
    = map (fun m => eval e m v) (filter (fun m => admits (type_filter m) (vtype v)) l)).
  { induction l as [|m l IH]; intros Hl; [reflexivity|]. cbn [flat_map filter].
    rewrite (tried_admits _ _ (type_filter m)) by (apply in_map; apply Hl; now left).
    rewrite IH by (intros; apply Hl; now right).
    now destruct (admits _ _). }
  apply H. tauto.
Qed.

Lemma first_of_app a b s :
  first_of (a ++ b) s =
  (run o <- first_of a; match o with Some r => ret (Some r) | None => first_of b end) s.
Proof.
  revert s. induction a as [|x a IH]; intros s; [reflexivity|].
  cbn [app first_of]. unfold mbind at 1 2 3. destruct (x s) as [s1 [[r|]|]]; try reflexivity.
  apply IH.
Qed.

Lemma admits_false f ty : admits f ty = false -> exists ts, f = Some ts /\ ~ In ty ts.
Proof.
  destruct f as [ts|]; cbn; [|discriminate]. intros H. exists ts. split; [reflexivity|].
  intros Hin. apply tmem_In in Hin. congruence.
Qed.

Theorem anyof_first_match e ms v s s' o :
  eval e (MAnyOf ms) v s = (s', o) -> first_match e v ms s s' o.
Proof.
  rewrite eval_anyof. revert s. induction ms as [|m ms IH]; cbn [filter]; intros s H.
  - cbn in H. injection H as <- <-. constructor.
  - destruct (admits (type_filter m) (vtype v)) eqn:E.
    + cbn [map first_of] in H. unfold mbind in H. destruct (eval e m v s) as [s1 [[r|]|x]] eqn:E1.
      * injection H as <- <-. now constructor.
      * eapply FM_fails; eauto.
      * injection H as <- <-. now constructor.
    + apply admits_false in E as (ts & E1 & E2). eapply FM_excluded; eauto.
Qed.

(** With alternatives that do not raise or use [Once]: the first that matches. *)
Theorem anyof_naive e ms os v :
  Forall2 (pure_on e v) ms os ->
  pure_on e v (MAnyOf ms) (hd None (filter is_some os)).
Proof.
  intros H s. rewrite eval_anyof. induction H as [|m o ms os Ho _ IH]; [reflexivity|].
  cbn [filter map]. destruct (admits (type_filter m) (vtype v)) eqn:E.
  - cbn [map first_of]. unfold mbind. rewrite Ho. destruct o as [r|]; [reflexivity|]. apply IH.
  - destruct o as [r|]; [|apply IH].
    exfalso. specialize (Ho []). apply type_filter_sound in Ho. congruence.
Qed.

(** *** [Once] *)

(** Keys only become recorded, once each, and not if an earlier match has. *)
Definition grows (e : env) (s s' : list Z) : Prop :=
  exists new, s' = new ++ s /\ (NoDup s -> NoDup s') /\ (forall k, In k new -> ~ In k (e_done e)).
Lemma grows_refl e s : grows e s s.
Proof. exists []. split; [reflexivity|]. split; [tauto|]. intros ? []. Qed.
Lemma grows_trans e a b c : grows e a b -> grows e b c -> grows e a c.
Proof.
  intros (n1 & -> & H1 & H1') (n2 & -> & H2 & H2'). exists (n2 ++ n1). split; [now rewrite app_assoc|].
  split; [tauto|]. intros k Hk. apply in_app_iff in Hk as [Hk|Hk]; auto.
Qed.
Definition tame {A} (e : env) (a : M A) : Prop := forall s, grows e s (fst (a s)).
Lemma tame_ret {A} e (a : A) : tame e (ret a).
Proof. intros s. apply grows_refl. Qed.
Lemma tame_lift {A} e (a : res A) : tame e (lift a).
Proof. intros s. apply grows_refl. Qed.
Lemma tame_bind {A B} e (a : M A) (f : A -> M B) :
  tame e a -> (forall x, tame e (f x)) -> tame e (mbind a f).
Proof.
  intros Ha Hf s. unfold mbind. specialize (Ha s). destruct (a s) as [s1 [x|x]]; cbn in *; [|assumption].
  eapply grows_trans; [exact Ha | apply Hf].
Qed.
Lemma tame_rewrap e e' v o : tame e (rewrap e' v o).
Proof. destruct o; cbn [rewrap]; [apply tame_bind; [apply tame_lift | intros; apply tame_ret] | apply tame_ret]. Qed.
Lemma tame_first e acts : Forall (tame e) acts -> tame e (first_of acts).
Proof.
  induction 1 as [|a acts Ha _ IH]; [apply tame_ret|]. cbn [first_of].
  apply tame_bind; [assumption|]. intros [r|]; [apply tame_ret | assumption].
Qed.
Lemma tame_accumulate e acts : Forall (tame e) acts -> forall b t, tame e (accumulate acts b t).
Proof.
  induction 1 as [|a acts Ha _ IH]; intros b t; [apply tame_ret|]. cbn [accumulate].
  apply tame_bind; [assumption|]. intros [r|]; [|apply tame_ret].
  repeat (apply tame_bind; [apply tame_lift | intros ?]).
  match goal with |- tame _ (match ?x with _ => _ end) => destruct x end; [|apply tame_ret].
  repeat (apply tame_bind; [apply tame_lift | intros ?]). apply IH.
Qed.
Lemma tame_accumulating e e' v acts : Forall (tame e) acts -> tame e (accumulating e' v acts).
Proof.
  intros H. unfold accumulating. apply tame_bind; [now apply tame_accumulate|].
  intros [[? ?]|]; apply tame_ret.
Qed.
Lemma tame_has_item e i sub v : (forall x, tame e (sub x)) -> tame e (has_item e i sub v).
Proof.
  intros H. unfold has_item. destruct (subscript e v i); [|apply tame_ret].
  apply tame_bind; [apply H | intros; apply tame_rewrap].
Qed.
Lemma tame_items_are e subs v : Forall (fun sub => forall x, tame e (sub x)) subs -> tame e (items_are e subs v).
Proof.
  intros H. unfold items_are. apply tame_accumulating. constructor.
  - unfold unless. apply tame_bind; [apply tame_has_item; intros; apply tame_ret|].
    intros [r|]; apply tame_ret.
  - generalize 0. induction H as [|sub subs Hs _ IH]; intros i; cbn [numbered_items]; constructor.
    + now apply tame_has_item.
    + apply IH.
Qed.
Lemma tame_glob_search e blk v starts :
  Forall (fun sub => forall x, tame e (sub x)) blk -> tame e (glob_search e blk v starts).
Proof.
  intros H. induction starts as [|a starts IH]; cbn [glob_search]; [apply tame_ret|].
  apply tame_bind; [now apply tame_items_are|]. intros [r|]; [apply tame_ret | apply IH].
Qed.
Lemma tame_glob_loop e v len blocks :
  (forall blk, In (Some blk) blocks -> Forall (fun sub => forall x, tame e (sub x)) blk) ->
  forall q pos b, tame e (glob_loop e v len blocks q pos b).
Proof.
  induction blocks as [|[blk|] blocks IH]; intros H q pos b; cbn [glob_loop].
  - destruct (_ && _); apply tame_ret.
  - match goal with |- tame _ (let '(_, _) := ?p in _) => destruct p as [pos0 send] end.
    apply tame_bind; [apply tame_glob_search; apply H; now left|].
    intros [[r p']|]; [|apply tame_ret].
    repeat (apply tame_bind; [apply tame_lift | intros ?]).
    match goal with |- tame _ (match ?x with _ => _ end) => destruct x end; [|apply tame_ret].
    apply IH. intros; apply H. now right.
  - apply IH. intros; apply H. now right.
Qed.
Lemma tame_climb e sub n : (forall x, tame e (sub x)) -> forall v, tame e (climb n e sub v).
Proof.
  intros H. induction n as [|n IH]; intros v; cbn [climb]; [apply tame_lift|].
  apply tame_bind; [apply H|]. intros [r|]; [apply tame_ret|].
  destruct (parent e v); [|apply tame_ret].
  apply tame_bind; [apply IH | intros; apply tame_rewrap].
Qed.
Lemma tame_climb_first e sub n : (forall x, tame e (sub x)) -> forall v, tame e (climb_first n e sub v).
Proof.
  intros H. induction n as [|n IH]; intros v; cbn [climb_first]; [apply tame_lift|].
  destruct (parent e v); [|apply tame_ret].
  apply tame_bind; [apply H|]. intros [r|]; [apply tame_ret | apply IH].
Qed.
Lemma tame_descend e sub : (forall x, tame e (sub x)) -> forall v, tame e (descend e sub v).
Proof.
  intros H. induction v as [i fs IH|i l IH|i c] using value_ind'; rewrite descend_eq;
    (apply tame_bind; [apply H|]); (intros [r|]; [apply tame_ret|]);
    (apply tame_bind; [apply tame_first; apply Forall_map | intros; apply tame_rewrap]);
    cbn [vchildren]; [now apply Forall_map | assumption | constructor].
Qed.

Theorem eval_tame e m : forall v, tame e (eval e m v).
Proof.
  induction m using matcher_ind'; intros v0; cbn [eval]; unfold anything;
    try (apply tame_ret); try (apply tame_lift).
  - apply tame_accumulating, Forall_map. apply Forall_impl with (2 := H). cbn. auto.
  - apply tame_first, Forall_flat_map. apply Forall_impl with (2 := H). cbn. intros m Hm.
    destruct (tried _ _ _); constructor; auto.
  - apply tame_bind; [apply IHm|]. intros [r|]; apply tame_ret.
  - intros s. destruct (zmem k (e_done e) || zmem k s) eqn:E.
    + apply tame_accumulating. constructor.
    + apply orb_false_iff in E as [E1 E2].
      assert (Hn : ~ In k (e_done e)).
      { intros Hin. unfold zmem in E1. assert (existsb (Z.eqb k) (e_done e) = true); [|congruence].
        apply existsb_exists. exists k. split; [assumption | apply Z.eqb_refl]. }
      apply tame_accumulating. constructor; [|constructor]. apply tame_bind; [apply IHm|].
      intros [r|] s1; cbn; [|apply grows_refl].
      destruct (zmem k s1) eqn:E3; [apply grows_refl|]. exists [k]. split; [reflexivity|]. split.
      * intros Hd. constructor; [|assumption]. intros Hin.
        assert (existsb (Z.eqb k) s1 = true); [|unfold zmem in E3; congruence].
        apply existsb_exists. exists k. split; [assumption | apply Z.eqb_refl].
      * intros k' [<-|[]]. assumption.
  - apply tame_bind; [apply IHm|]. intros [r|]; [|apply tame_ret].
    repeat (apply tame_bind; [apply tame_lift | intros ?]). apply tame_ret.
  - apply tame_bind; [apply IHm|]. intros [r|]; [|apply tame_ret].
    repeat (apply tame_bind; [apply tame_lift | intros ?]). apply tame_ret.
  - apply tame_bind; [apply IHm|]. intros [r|]; [|apply tame_ret].
    repeat (apply tame_bind; [apply tame_lift | intros ?]). apply tame_ret.
  - apply IHm.
  - destruct (py_eq _ _); apply tame_ret.
  - destruct (text_eqb _ _); apply tame_ret.
  - apply tame_bind; [apply IHm|]. intros [r0|]; [|apply tame_ret].
    apply tame_bind; [apply tame_lift | intros rm]. destruct (m_span rm) as [[a b]|]; [|apply tame_ret].
    destruct (cr_match r _ a b); [|apply tame_ret].
    repeat (apply tame_bind; [apply tame_lift | intros ?]). apply tame_ret.
  - apply tame_has_item. apply IHm.
  - apply tame_items_are, Forall_map. assumption.
  - destruct (seq_items e v0); [|apply tame_ret].
    apply tame_bind; [apply tame_first, Forall_map, Forall_forall; auto | intros; apply tame_rewrap].
  - destruct v0 as [i fs| |]; try apply tame_ret. destruct (n_line i); [|apply tame_ret].
    destruct (zmem _ _); apply tame_ret.
  - unfold glob. destruct (seq_items e v0); [|apply tame_ret]. apply tame_glob_loop.
    intros blk Hb. apply Forall_forall. intros sub Hs x.
    eapply blockify_In in Hb as [(c & [= <-] & [])|Hb]; [|exact Hs].
    apply in_map_iff in Hb as (m & [= _ <-] & Hm). rewrite Forall_forall in H. now apply H.
  - destruct (text_eqb _ _); [|apply tame_ret].
    apply tame_accumulating, Forall_map. apply Forall_impl with (2 := H). cbn. auto.
  - destruct (negb _); [apply tame_ret|]. destruct (negb _); [apply tame_ret|].
    apply tame_bind; [apply IHm | intros; apply tame_rewrap].
  - destruct (parent e v0); [|apply tame_ret]. apply tame_bind; [apply IHm | intros; apply tame_rewrap].
  - apply tame_climb. intros x. destruct (admits _ _); [apply IHm | apply tame_ret].
  - apply tame_bind; [apply tame_first, Forall_map, Forall_forall; auto | intros; apply tame_rewrap].
  - apply tame_descend. intros x. destruct (admits _ _); [apply IHm | apply tame_ret].
  - apply tame_bind; [apply tame_climb_first; apply IHm1|]. intros [r|]; [|apply tame_ret].
    apply tame_bind; [apply tame_lift | intros ?]. apply tame_bind; [apply tame_lift | intros ?].
    apply tame_bind; [apply IHm2|]. intros [r2|]; [|apply tame_ret].
    repeat (apply tame_bind; [apply tame_lift | intros ?]). apply tame_ret.
  - destruct (get_prev_sibling _ _) as [x|]; [|apply tame_ret]. destruct (py_truthy x); [apply IHm | apply tame_ret].
  - destruct (get_next_sibling _ _) as [x|]; [|apply tame_ret]. destruct (py_truthy x); [apply IHm | apply tame_ret].
  - destruct (dget _ _) as [n|]; [|apply tame_ret]. destruct (text_eqb n b); [apply IHm | apply tame_ret].
  - apply tame_bind; [apply IHm|]. intros [r|]; [|apply tame_ret].
    apply tame_bind; [apply tame_lift | intros [|]; apply tame_ret].
  - apply tame_bind; [apply IHm|]. intros [r|]; [|apply tame_ret].
    apply tame_bind; [apply tame_lift | intros [|]; apply tame_ret].
  - apply tame_bind; [apply tame_lift|]. intros [r|]; [|apply tame_ret].
    apply tame_bind; [apply tame_lift | intros; apply tame_ret].
Qed.
