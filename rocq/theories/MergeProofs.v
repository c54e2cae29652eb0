(** Merging bindings and replacements. *)
From Verif Require Import Py PyFacts Ast Template Matcher MergeSpec.

(** *** [ast_equivalent] always answers *)

Fixpoint fields_size (l : list (text * value)) : nat :=
  match l with [] => O | kv :: r => (vsize (snd kv) + fields_size r)%nat end.
Fixpoint items_size (l : list value) : nat :=
  match l with [] => O | x :: r => (vsize x + items_size r)%nat end.
Lemma vsize_node i fs : vsize (VNode i fs) = S (fields_size fs).
Proof. reflexivity. Qed.
Lemma vsize_list i l : vsize (VList i l) = S (items_size l).
Proof. reflexivity. Qed.
Lemma vsize_pos v : (0 < vsize v)%nat.
Proof. destruct v; cbn; lia. Qed.

Fixpoint stack_size (l : list (value * value)) : nat :=
  match l with [] => O | p :: r => (vsize (fst p) + stack_size r)%nat end.
Lemma stack_size_app a b : stack_size (a ++ b) = (stack_size a + stack_size b)%nat.
Proof. induction a as [|x a IH]; cbn; [reflexivity | rewrite IH; lia]. Qed.
Lemma stack_size_fields (w : value) fs :
  stack_size (map (fun kv => (snd kv, vfield w (fst kv))) fs) = fields_size fs.
Proof. induction fs as [|x fs IH]; cbn; [reflexivity | now rewrite IH]. Qed.

Lemma equiv_loop_total fuel stack :
  (stack_size stack <= fuel)%nat -> exists b, equiv_loop fuel stack = Ok b.
Proof.
  revert stack. induction fuel as [|n IH]; intros stack H.
  - destruct stack as [|[l r] rest]; [now exists true|].
    cbn in H. pose proof (vsize_pos l). lia.
  - destruct stack as [|[l r] rest]; [now exists true|].
    cbn [equiv_loop]. cbn [stack_size fst] in H. pose proof (vsize_pos l) as Hp.
    destruct l as [i fs|i l|i c].
    + destruct r as [j gs|j m|j c].
      * destruct (negb _); [eauto|]. apply IH. rewrite stack_size_app, stack_size_fields.
        rewrite vsize_node in H. lia.
      * destruct (py_eq _ _); [apply IH; lia | eauto].
      * destruct (py_eq _ _); [apply IH; lia | eauto].
    + destruct (py_eq _ _); [apply IH; lia | eauto].
    + destruct (py_eq _ _); [apply IH; lia | eauto].
Qed.
Lemma ast_equivalent_total a b : exists r, ast_equivalent a b = Ok r.
Proof.
  unfold ast_equivalent. destruct (_ =? _); [eauto|].
  apply equiv_loop_total. cbn. lia.
Qed.

(** *** Strategies *)
Lemma conflict_eqb_eq a b : conflict_eqb a b = true <-> a = b.
Proof. destruct a, b; cbn; split; congruence. Qed.
Lemma merge_eqb_eq a b : merge_eqb a b = true <-> a = b.
Proof. destruct a, b; cbn; split; congruence. Qed.

Lemma equivalent_matches_spec a b :
  (equivalent_matches a b = Ok true /\ equivalent a b)
  \/ (equivalent_matches a b = Ok false /\ ~ equivalent a b).
Proof.
  unfold equivalent_matches, equivalent.
  destruct (m_matched (b_value a)) as [x|];
    [destruct (m_matched (b_value b)) as [y|]|].
  - destruct (ast_equivalent_total x y) as [[|] E].
    + left. rewrite E. split; [reflexivity|]. eauto.
    + right. rewrite E. split; [reflexivity|]. intros (x' & y' & [= ->] & [= ->] & E'). congruence.
  - right. split; [reflexivity|]. intros (x' & y' & _ & [=] & _).
  - right. split; [reflexivity|]. intros (x' & y' & [=] & _).
Qed.

(** What [resolve] says about an agreeing pair. *)
Lemma resolve_spec a b :
  b_conflict a = b_conflict b -> b_merge a = b_merge b ->
  (resolve (b_conflict a) a b = Ok true /\ accepted a b /\ ~ erroneous a b)
  \/ (resolve (b_conflict a) a b = Ok false /\ ~ accepted a b /\ ~ erroneous a b)
  \/ (resolve (b_conflict a) a b = Err MatchError /\ erroneous a b).
Proof.
  intros Hc Hm. unfold accepted, erroneous, accepted, identical.
  destruct (b_conflict a) eqn:Ec; cbn [resolve].
  - left. tauto.
  - right. left. split; [reflexivity|]. split; [tauto|].
    intros [H|[H|[_ [H|[H|H]]]]]; try tauto; discriminate H.
  - right. right. split; [reflexivity|]. right. right. tauto.
  - destruct (bound_eqb a b).
    + left. split; [reflexivity|]. split; [reflexivity|].
      intros [H|[H|[_ [H|[H|H]]]]]; try tauto; discriminate H.
    + right. left. split; [reflexivity|]. split; [discriminate|].
      intros [H|[H|[_ [H|[H|H]]]]]; try tauto; discriminate H.
  - destruct (bound_eqb a b).
    + left. split; [reflexivity|]. split; [reflexivity|].
      intros [H|[H|[H _]]]; tauto.
    + right. right. split; [reflexivity|]. right. right. split; [discriminate|tauto].
  - destruct (equivalent_matches_spec a b) as [[E H]|[E H]]; rewrite E.
    + left. split; [reflexivity|]. split; [assumption|].
      intros [H1|[H1|[_ [H1|[H1|H1]]]]]; try tauto; discriminate H1.
    + right. left. split; [reflexivity|]. split; [assumption|].
      intros [H1|[H1|[_ [H1|[H1|H1]]]]]; try tauto; discriminate H1.
  - destruct (equivalent_matches_spec a b) as [[E H]|[E H]]; rewrite E; cbn [bind].
    + left. split; [reflexivity|]. split; [assumption|]. tauto.
    + right. right. split; [reflexivity|]. tauto.
Qed.

(** *** The loop over the shared names *)
Lemma merge_shared_spec lhs rhs keys : forall merged skip,
  (forall k, In k keys -> exists a b, both lhs rhs k a b) ->
  match merge_shared keys lhs rhs merged skip with
  | Err x => x = MatchError /\ exists k a b, both lhs rhs k a b /\ erroneous a b
  | Ok None =>
      (forall k a b, In k keys -> both lhs rhs k a b -> ~ erroneous a b) /\
      (skip = true \/ exists k a b, both lhs rhs k a b /\ ~ accepted a b)
  | Ok (Some d) =>
      skip = false /\
      (forall k a b, In k keys -> both lhs rhs k a b -> ~ erroneous a b /\ accepted a b) /\
      exists ext, d = merged ++ ext /\ dkeys ext = keys /\
        (forall k b, In (k, b) ext -> Some b = merged_value (dget lhs k) (dget rhs k))
  end.
Proof.
  induction keys as [|k keys IH]; intros merged skip Hk.
  - cbn. destruct skip.
    + split; [intros ? ? ? []|]. now left.
    + split; [reflexivity|]. split; [intros ? ? ? []|]. exists []. rewrite app_nil_r.
      split; [reflexivity|]. split; [reflexivity|]. intros ? ? [].
  - destruct (Hk k (or_introl eq_refl)) as (a & b & Hab).
    cbn [merge_shared]. pose proof Hab as [Ha Hb]. rewrite Ha, Hb.
    destruct (conflict_eqb (b_conflict a) (b_conflict b)) eqn:Ec; cbn [negb].
    2:{ split; [reflexivity|]. exists k, a, b. split; [assumption|]. left. intros E.
        apply conflict_eqb_eq in E. congruence. }
    apply conflict_eqb_eq in Ec.
    destruct (merge_eqb (b_merge a) (b_merge b)) eqn:Em; cbn [negb].
    2:{ split; [reflexivity|]. exists k, a, b. split; [assumption|]. right. left. intros E.
        apply merge_eqb_eq in E. congruence. }
    apply merge_eqb_eq in Em.
    destruct (resolve_spec a b Ec Em) as [(E & H1 & H2)|[(E & H1 & H2)|(E & H1)]]; rewrite E; cbn [bind].
    + specialize (IH (merged ++ [(k, keep (b_merge a) a b)]) skip (fun x Hx => Hk x (or_intror Hx))).
      assert (Hhd : forall a' b', both lhs rhs k a' b' -> a' = a /\ b' = b).
      { intros a' b' [X Y]. rewrite Ha in X. rewrite Hb in Y. split; congruence. }
      destruct (merge_shared keys lhs rhs _ skip) as [[d|]|x].
      * destruct IH as (-> & IHa & ext & Hd & Hkeys & Hv). split; [reflexivity|]. split.
        -- intros k' a' b' [->|Hin] Hb'; [|now apply IHa with k'].
           destruct (Hhd _ _ Hb') as [-> ->]. tauto.
        -- exists ((k, keep (b_merge a) a b) :: ext). rewrite Hd, <- app_assoc.
           split; [reflexivity|]. split; [unfold dkeys in *; cbn; now rewrite Hkeys|].
           intros k' b' [[= <- <-]|Hin]; [|now apply Hv].
           rewrite Ha, Hb. reflexivity.
      * destruct IH as (IHa & IHb). split; [|assumption].
        intros k' a' b' [->|Hin] Hb'; [|now apply IHa with k'].
        destruct (Hhd _ _ Hb') as [-> ->]. tauto.
      * assumption.
    + specialize (IH merged true (fun x Hx => Hk x (or_intror Hx))).
      destruct (merge_shared keys lhs rhs _ true) as [[d|]|x].
      * destruct IH as (? & _). discriminate.
      * destruct IH as (IHa & _). split.
        -- intros k' a' b' [->|Hin] Hb'; [|now apply IHa with k'].
           destruct Hb' as [X Y]. rewrite Ha in X. rewrite Hb in Y. congruence.
        -- right. eauto.
      * assumption.
    + split; [reflexivity|]. eauto.
Qed.

Lemma dget_app {V} (a b : dict V) k :
  dget (a ++ b) k = match dget a k with Some v => Some v | None => dget b k end.
Proof.
  induction a as [|[k' v] a IH]; cbn; [reflexivity|]. destruct (text_eqb k' k); [reflexivity|apply IH].
Qed.
Lemma dget_filter_keys {V} (d : dict V) (p : label -> bool) k :
  dget (filter (fun kv => p (fst kv)) d) k = if p k then dget d k else None.
Proof.
  induction d as [|[k' v] d IH]; cbn; [now destruct (p k)|].
  destruct (p k') eqn:E; cbn.
  - destruct (text_eqb_spec k' k) as [->|N]; [now rewrite E | apply IH].
  - rewrite IH. destruct (text_eqb_spec k' k) as [->|N]; [now rewrite E | reflexivity].
Qed.
Lemma dkeys_filter {V} (d : dict V) (p : label -> bool) :
  dkeys (filter (fun kv => p (fst kv)) d) = filter p (dkeys d).
Proof.
  unfold dkeys. induction d as [|[k' v] d IH]; cbn; [reflexivity|].
  destruct (p k'); cbn; now rewrite IH.
Qed.
Lemma NoDup_app_intro {A} (a b : list A) :
  NoDup a -> NoDup b -> (forall x, In x a -> In x b -> False) -> NoDup (a ++ b).
Proof.
  induction a as [|x a IH]; intros Ha Hb Hd; [assumption|].
  inversion Ha; subst. cbn. constructor.
  - rewrite in_app_iff. intros [H|H]; [contradiction | eapply Hd; [now left | eassumption]].
  - apply IH; [assumption..|]. intros y Hy Hy'. eapply Hd; [right|]; eassumption.
Qed.

Lemma shared_keys_spec lhs rhs k :
  In k (shared_keys lhs rhs) <-> exists a b, both lhs rhs k a b.
Proof.
  unfold shared_keys, both. rewrite filter_In, dmem_keys. split.
  - intros [H1 H2]. apply keys_dget in H1 as [a Ha]. apply keys_dget in H2 as [b Hb]. eauto.
  - intros (a & b & Ha & Hb). apply dget_Some_keys in Ha, Hb. tauto.
Qed.

Theorem merge_bindings_in_spec order lhs rhs :
  dict_ok lhs -> dict_ok rhs -> Permutation order (shared_keys lhs rhs) ->
  merge_outcome lhs rhs (merge_bindings_in order lhs rhs).
Proof.
  intros Hl Hr Hp. unfold merge_bindings_in.
  assert (Hin : forall k, In k order <-> exists a b, both lhs rhs k a b).
  { intros k. rewrite <- shared_keys_spec. split; apply Permutation_in; [|symmetry]; assumption. }
  pose proof (merge_shared_spec lhs rhs order [] false (fun k Hk => proj1 (Hin k) Hk)) as H.
  destruct (merge_shared order lhs rhs [] false) as [[d|]|x]; cbn [bind].
  - destruct H as (_ & Hok & ext & -> & Hkeys & Hv). cbn [app].
    assert (Hext : forall k, dget ext k = match dget lhs k, dget rhs k with
                                          | Some _, Some _ => merged_value (dget lhs k) (dget rhs k)
                                          | _, _ => None end).
    { intros k. destruct (dget ext k) as [b|] eqn:E.
      - apply dget_In in E as E'. rewrite (Hv _ _ E').
        apply dget_Some_keys in E. rewrite Hkeys in E. apply Hin in E as (a' & b' & -> & ->). reflexivity.
      - apply dget_None in E. rewrite Hkeys, Hin in E.
        destruct (dget lhs k) as [a'|] eqn:Ea; [|reflexivity].
        destruct (dget rhs k) as [b'|] eqn:Eb; [|reflexivity].
        exfalso. apply E. exists a', b'. now split. }
    split; [|split].
    + unfold dict_ok, dkeys. rewrite !map_app. fold (dkeys ext).
      rewrite Hkeys.
      change (map fst (filter (fun kv : label * bound => negb (dmem rhs (fst kv))) lhs))
        with (dkeys (filter (fun kv : label * bound => negb (dmem rhs (fst kv))) lhs)).
      change (map fst (filter (fun kv : label * bound => negb (dmem lhs (fst kv))) rhs))
        with (dkeys (filter (fun kv : label * bound => negb (dmem lhs (fst kv))) rhs)).
      rewrite (dkeys_filter lhs (fun k => negb (dmem rhs k))).
      rewrite (dkeys_filter rhs (fun k => negb (dmem lhs k))).
      apply NoDup_app_intro; [|apply NoDup_app_intro|].
      * eapply Permutation_NoDup; [symmetry; exact Hp|]. now apply NoDup_filter.
      * now apply NoDup_filter.
      * now apply NoDup_filter.
      * intros k. rewrite !filter_In, !negb_true_iff. intros [H1 _] [_ H2].
        apply dmem_keys in H1. congruence.
      * intros k Hk. rewrite in_app_iff, !filter_In, !negb_true_iff.
        apply Hin in Hk as (a & b & Ha & Hb). unfold dmem. rewrite Ha, Hb. intuition discriminate.
    + intros k a b Hab. apply Hok with k; [|assumption]. apply Hin. eauto.
    + intros k. rewrite !dget_app, Hext.
      rewrite (dget_filter_keys lhs (fun k => negb (dmem rhs k))).
      rewrite (dget_filter_keys rhs (fun k => negb (dmem lhs k))).
      unfold dmem. destruct (dget lhs k) as [a|], (dget rhs k) as [b|]; reflexivity.
  - destruct H as (H1 & [?|H2]); [discriminate|]. split; [|assumption].
    intros k a b Hab. apply H1 with k; [|assumption]. apply Hin. eauto.
  - assumption.
Qed.

Theorem merge_bindings_spec lhs rhs :
  dict_ok lhs -> dict_ok rhs -> merge_outcome lhs rhs (merge_bindings lhs rhs).
Proof. intros. now apply merge_bindings_in_spec. Qed.

Theorem merge_outcome_unique lhs rhs x y :
  merge_outcome lhs rhs x -> merge_outcome lhs rhs y -> same_outcome x y.
Proof.
  unfold merge_outcome, same_outcome.
  destruct x as [[d|]|e], y as [[d'|]|e'].
  - intros (_ & _ & H) (_ & _ & H') k. congruence.
  - intros (_ & H & _) (_ & k & a & b & Hab & N). now apply H in Hab as [_ ?].
  - intros (_ & H & _) (_ & k & a & b & Hab & N). now apply H in Hab as [? _].
  - intros (_ & k & a & b & Hab & N) (_ & H & _). now apply H in Hab as [_ ?].
  - trivial.
  - intros (H & _) (_ & k & a & b & Hab & N). now apply H in Hab.
  - intros (_ & k & a & b & Hab & N) (_ & H & _). now apply H in Hab as [? _].
  - intros (_ & k & a & b & Hab & N) (H & _). now apply H in Hab.
  - intros [-> _] [-> _]. reflexivity.
Qed.

Theorem merge_order_independent order order' lhs rhs :
  dict_ok lhs -> dict_ok rhs ->
  Permutation order (shared_keys lhs rhs) -> Permutation order' (shared_keys lhs rhs) ->
  same_outcome (merge_bindings_in order lhs rhs) (merge_bindings_in order' lhs rhs).
Proof.
  intros. eapply merge_outcome_unique; apply merge_bindings_in_spec; assumption.
Qed.

(** The order of the dictionaries themselves does not matter either. *)
Theorem merge_dict_order_independent lhs rhs lhs' rhs' :
  dict_ok lhs -> dict_ok rhs -> Permutation lhs lhs' -> Permutation rhs rhs' ->
  same_outcome (merge_bindings lhs rhs) (merge_bindings lhs' rhs').
Proof.
  intros Hl Hr Pl Pr.
  assert (Hget : forall d d' : dict bound, dict_ok d -> Permutation d d' -> forall k, dget d k = dget d' k).
  { intros d d' Hd P k. destruct (dget d k) as [v|] eqn:E.
    - symmetry. apply In_dget.
      + unfold dict_ok, dkeys in *. eapply Permutation_NoDup; [|exact Hd]. now apply Permutation_map.
      + eapply Permutation_in; [exact P|]. now apply dget_In.
    - symmetry. apply dget_None. apply dget_None in E. intros H. apply E. unfold dkeys in *.
      eapply Permutation_in; [|exact H]. symmetry. now apply Permutation_map. }
  assert (Hok : forall d d' : dict bound, dict_ok d -> Permutation d d' -> dict_ok d').
  { intros d d' Hd P. unfold dict_ok, dkeys in *. eapply Permutation_NoDup; [|exact Hd]. now apply Permutation_map. }
  apply merge_outcome_unique with lhs rhs; [now apply merge_bindings_spec|].
  pose proof (merge_bindings_spec lhs' rhs' (Hok _ _ Hl Pl) (Hok _ _ Hr Pr)) as H.
  unfold merge_outcome, both in *.
  destruct (merge_bindings lhs' rhs') as [[d|]|x].
  - destruct H as (H1 & H2 & H3). split; [assumption|]. split.
    + intros k a b. rewrite (Hget lhs lhs'), (Hget rhs rhs') by assumption. apply H2.
    + intros k. rewrite (Hget lhs lhs'), (Hget rhs rhs') by assumption. apply H3.
  - destruct H as (H1 & k & a & b & H2 & H3). split.
    + intros k' a' b'. rewrite (Hget lhs lhs'), (Hget rhs rhs') by assumption. apply H1.
    + exists k, a, b. rewrite (Hget lhs lhs'), (Hget rhs rhs') by assumption. tauto.
  - destruct H as (H1 & k & a & b & H2 & H3). split; [assumption|].
    exists k, a, b. rewrite (Hget lhs lhs'), (Hget rhs rhs') by assumption. tauto.
Qed.

(** *** Replacements *)
Theorem merge_replacements_spec lhs rhs :
  dict_ok lhs -> dict_ok rhs ->
  match merge_replacements lhs rhs with
  | Err x => x = MatchError /\ exists k, In k (dkeys lhs) /\ In k (dkeys rhs)
  | Ok d =>
      (forall k, ~ (In k (dkeys lhs) /\ In k (dkeys rhs))) /\ dict_ok d /\
      (forall k t, dget d k = Some t <-> dget lhs k = Some t \/ dget rhs k = Some t)
  end.
Proof.
  intros Hl Hr. unfold merge_replacements.
  destruct (existsb (dmem rhs) (dkeys lhs)) eqn:E.
  - apply existsb_exists in E as (k & H1 & H2). apply dmem_keys in H2. split; [reflexivity|]. eauto.
  - assert (Hd : forall k, ~ (In k (dkeys lhs) /\ In k (dkeys rhs))).
    { intros k [H1 H2]. apply dmem_keys in H2.
      assert (existsb (dmem rhs) (dkeys lhs) = true) by (apply existsb_exists; eauto). congruence. }
    split; [assumption|]. split.
    + unfold dict_ok, dkeys in *. rewrite map_app. apply NoDup_app_intro; [assumption..|].
      intros k H1 H2. eapply Hd; split; eassumption.
    + intros k t. rewrite dget_app. destruct (dget lhs k) as [x|] eqn:El.
      * split; [tauto|]. intros [H|H]; [assumption|]. exfalso.
        apply dget_Some_keys in El, H. eapply Hd; split; eassumption.
      * split; [tauto|]. intros [H|H]; [discriminate | assumption].
Qed.
