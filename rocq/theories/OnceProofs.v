From Verif Require Import Py PyFacts Ast Template FromDiff Matcher MatchSpec MergeSpec MergeProofs
  MatcherProofs BindProofs FindSpec FindProofs.

Lemma Forall2_len {A B} (R : A -> B -> Prop) l1 l2 : Forall2 R l1 l2 -> length l1 = length l2.
Proof. induction 1; cbn; congruence. Qed.

Section Exhaust.
Variable e : env.
Variable k : Z.
Definition spent (s : list Z) : Prop := In k (e_done e) \/ In k s.
(** The same effect, once the key has been run. *)
Definition same {A} (a b : M A) : Prop := forall s, spent s -> a s = b s.

Lemma spent_grows s s' : grows e s s' -> spent s -> spent s'.
Proof. intros (new & -> & _) [H|H]; [now left | right; apply in_app_iff; now right]. Qed.
Lemma same_refl {A} (a : M A) : same a a.
Proof. intros s _. reflexivity. Qed.
Lemma same_bind {A B} (a b : M A) (f g : A -> M B) :
  tame e a -> same a b -> (forall x, same (f x) (g x)) -> same (mbind a f) (mbind b g).
Proof.
  intros T H Hf s Hs. unfold mbind. rewrite <- H by assumption. specialize (T s).
  destruct (a s) as [s1 [x|x]]; [|reflexivity]. apply Hf. eapply spent_grows; eassumption.
Qed.
Lemma same_first l1 l2 : Forall (tame e) l1 -> Forall2 same l1 l2 -> same (first_of l1) (first_of l2).
Proof.
  intros T H. induction H as [|a b l1 l2 H _ IH]; [apply same_refl|]. inversion T; subst. cbn [first_of].
  apply same_bind; [assumption..|]. intros [r|]; [apply same_refl | now apply IH].
Qed.
Lemma same_accumulate l1 l2 : Forall (tame e) l1 -> Forall2 same l1 l2 ->
  forall b t, same (accumulate l1 b t) (accumulate l2 b t).
Proof.
  intros T H. induction H as [|x y l1 l2 H _ IH]; intros b t; [apply same_refl|].
  inversion T; subst. cbn [accumulate]. apply same_bind; [assumption..|].
  intros [r|]; [|apply same_refl].
  repeat (apply same_bind; [apply tame_lift | apply same_refl | intros ?]).
  match goal with |- same (match ?z with _ => _ end) _ => destruct z end; [|apply same_refl].
  repeat (apply same_bind; [apply tame_lift | apply same_refl | intros ?]). now apply IH.
Qed.
Lemma same_accumulating v l1 l2 : Forall (tame e) l1 -> Forall2 same l1 l2 ->
  same (accumulating e v l1) (accumulating e v l2).
Proof.
  intros T H. unfold accumulating. apply same_bind; [now apply tame_accumulate | now apply same_accumulate|].
  intros ?. apply same_refl.
Qed.
Definition same1 (f g : value -> outcome) : Prop := forall x, same (f x) (g x).
Definition tame1 (f : value -> outcome) : Prop := forall x, tame e (f x).
Lemma same_has_item i f g v : tame1 f -> same1 f g -> same (has_item e i f v) (has_item e i g v).
Proof.
  intros T H. unfold has_item. destruct (subscript e v i); [|apply same_refl].
  apply same_bind; [apply T | apply H | intros; apply same_refl].
Qed.
Lemma same_items_are l1 l2 v : Forall tame1 l1 -> Forall2 same1 l1 l2 ->
  same (items_are e l1 v) (items_are e l2 v).
Proof.
  intros T H. unfold items_are.
  assert (tlen l1 = tlen l2) as -> by (unfold tlen; now rewrite (Forall2_len _ _ _ H)).
  apply same_accumulating.
  - constructor.
    + unfold unless. apply tame_bind; [apply tame_has_item; intros; apply tame_ret|].
      intros [r|]; apply tame_ret.
    + generalize 0. clear H. induction T as [|f l Hf _ IH]; intros i; cbn [numbered_items]; constructor; [|apply IH].
      now apply tame_has_item.
  - constructor; [apply same_refl|]. generalize 0. revert T.
    induction H as [|f g l1 l2 Hf _ IH]; intros T i; cbn [numbered_items]; constructor.
    + inversion T; subst. now apply same_has_item.
    + inversion T; subst. now apply IH.
Qed.
Lemma same_glob_search l1 l2 v starts : Forall tame1 l1 -> Forall2 same1 l1 l2 ->
  same (glob_search e l1 v starts) (glob_search e l2 v starts).
Proof.
  intros T H. assert (EL : tlen l1 = tlen l2) by (unfold tlen; now rewrite (Forall2_len _ _ _ H)).
  induction starts as [|a starts IH]; cbn [glob_search]; [apply same_refl|]. rewrite <- EL.
  apply same_bind; [now apply tame_items_are | now apply same_items_are|].
  intros [r|]; [apply same_refl | apply IH].
Qed.
Definition tameb (b : block) : Prop := match b with Some l => Forall tame1 l | None => True end.
Definition sameb (b b' : block) : Prop :=
  match b, b' with Some l, Some l' => Forall2 same1 l l' | None, None => True | _, _ => False end.
Lemma same_glob_loop v len bs bs' : Forall tameb bs -> Forall2 sameb bs bs' ->
  forall q pos b, same (glob_loop e v len bs q pos b) (glob_loop e v len bs' q pos b).
Proof.
  intros T H. induction H as [|x y bs bs' H H' IH]; intros q pos b; [apply same_refl|].
  inversion T; subst. destruct x as [l|], y as [l'|]; try (exfalso; exact H); cbn [glob_loop].
  - assert (EL : tlen l = tlen l') by (cbn in H; unfold tlen; now rewrite (Forall2_len _ _ _ H)).
    rewrite <- EL.
    assert (ER : (if q then match bs with [] => (len - tlen l, len - tlen l + 1) | _ => (pos, len) end
                  else (pos, pos + 1))
               = (if q then match bs' with [] => (len - tlen l, len - tlen l + 1) | _ => (pos, len) end
                  else (pos, pos + 1))).
    { destruct q; [|reflexivity]. destruct H'; reflexivity. }
    rewrite <- ER. match goal with |- same (let '(_, _) := ?p in _) _ => destruct p as [pos0 send] end.
    apply same_bind; [now apply tame_glob_search | now apply same_glob_search|].
    intros [[r p']|]; [|apply same_refl].
    repeat (apply same_bind; [apply tame_lift | apply same_refl | intros ?]).
    match goal with |- same (match ?z with _ => _ end) _ => destruct z end; [|apply same_refl].
    now apply IH.
  - now apply IH.
Qed.
Lemma same_blockify ms ms' : Forall (fun m => tame1 (snd m)) ms ->
  Forall2 (fun m m' : bool * (value -> outcome) => fst m = fst m' /\ same1 (snd m) (snd m')) ms ms' ->
  forall c c', tameb c -> sameb c c' ->
  Forall tameb (blockify ms c) /\ Forall2 sameb (blockify ms c) (blockify ms' c').
Proof.
  intros T H. induction H as [|[x f] [y g] ms ms' [H1 H2] H' IH]; intros c c' Tc Hc; cbn [blockify].
  - split; constructor; (assumption || constructor).
  - inversion T; subst. cbn in H1, H2, H3. subst y. destruct x.
    + destruct (IH H4 None None I I) as [I1 I2].
      destruct c as [[|? ?]|], c' as [[|? ?]|]; try (now destruct Hc); try (now inversion Hc);
        try (split; assumption); split; constructor; assumption.
    + destruct c as [l|], c' as [l'|]; try (now destruct Hc).
      * apply IH; [assumption| |]; cbn in *.
        -- apply Forall_app. split; [assumption|]. now constructor.
        -- apply Forall2_app; [assumption|]. now constructor.
      * destruct (IH H4 (Some [f]) (Some [g])) as [I1 I2]; [cbn; now constructor..|].
        split; constructor; assumption.
Qed.
Lemma same_climb f g n : tame1 f -> same1 f g -> same1 (climb n e f) (climb n e g).
Proof.
  intros T H. induction n as [|n IH]; intros v; cbn [climb]; [apply same_refl|].
  apply same_bind; [apply T | apply H|]. intros [r|]; [apply same_refl|].
  destruct (parent e v); [|apply same_refl].
  apply same_bind; [now apply tame_climb | apply IH | intros; apply same_refl].
Qed.
Lemma same_climb_first f g n : tame1 f -> same1 f g -> same1 (climb_first n e f) (climb_first n e g).
Proof.
  intros T H. induction n as [|n IH]; intros v; cbn [climb_first]; [apply same_refl|].
  destruct (parent e v); [|apply same_refl].
  apply same_bind; [apply T | apply H|]. intros [r|]; [apply same_refl | apply IH].
Qed.
Lemma Forall2_map_same {A B C} (R : B -> C -> Prop) (f : A -> B) (g : A -> C) l :
  Forall (fun x => R (f x) (g x)) l -> Forall2 R (map f l) (map g l).
Proof. induction 1; cbn; constructor; assumption. Qed.
Lemma same_descend f g : tame1 f -> same1 f g -> same1 (descend e f) (descend e g).
Proof.
  intros T H v. induction v using value_ind'; rewrite !descend_eq;
    (apply same_bind; [apply T | apply H | intros [r|]; [apply same_refl|]]);
    (apply same_bind; [| |intros; apply same_refl]); cbn [vchildren].
  - apply tame_first. apply Forall_forall. intros a Ha. apply in_map_iff in Ha as (x & <- & _). now apply tame_descend.
  - apply same_first.
    + apply Forall_forall. intros a Ha. apply in_map_iff in Ha as (x & <- & _). now apply tame_descend.
    + rewrite !map_map. now apply Forall2_map_same.
  - apply tame_first. apply Forall_forall. intros a Ha. apply in_map_iff in Ha as (x & <- & _). now apply tame_descend.
  - apply same_first.
    + apply Forall_forall. intros a Ha. apply in_map_iff in Ha as (x & <- & _). now apply tame_descend.
    + now apply Forall2_map_same.
  - apply tame_ret.
  - apply same_refl.
Qed.

Lemma exhaust_filter m : type_filter (exhaust k m) = type_filter m.
Proof.
  induction m using matcher_ind'; cbn [exhaust type_filter]; try reflexivity; try assumption.
  - rewrite map_map. f_equal. apply map_ext_in. rewrite Forall_forall in H. assumption.
  - rewrite map_map. f_equal. apply map_ext_in. rewrite Forall_forall in H. assumption.
  - match goal with |- context [if ?c then _ else _] => destruct c end; reflexivity.
Qed.
Lemma exhaust_star m : is_star (exhaust k m) = is_star m.
Proof. destruct m; try reflexivity. cbn. now destruct (_ =? _). Qed.

Ltac sb := apply same_bind; [apply tame_lift | apply same_refl | intros ?].
Theorem exhaust_same m : forall v, same (eval e m v) (eval e (exhaust k m) v).
Proof.
  induction m using matcher_ind'; intros v0; cbn [exhaust]; try apply same_refl; cbn [eval].
  - apply same_accumulating.
    + apply Forall_forall. intros a Ha. apply in_map_iff in Ha as (x & <- & _). apply eval_tame.
    + rewrite map_map. apply Forall2_map_same. eapply Forall_impl; [|exact H]. cbn. intros m Hm. apply Hm.
  - replace (map type_filter (map (exhaust k) ms)) with (map type_filter ms)
      by (rewrite map_map; apply map_ext; intros; symmetry; apply exhaust_filter).
    generalize (map type_filter ms) as fs. intros fs.
    apply same_first.
    + apply Forall_forall. intros a Ha. apply in_flat_map in Ha as (x & _ & Ha).
      destruct (tried _ _ _); [|destruct Ha]. destruct Ha as [<-|[]]. apply eval_tame.
    + induction H as [|m ms Hm _ IH]; cbn [map flat_map]; [constructor|].
      rewrite exhaust_filter. destruct (tried _ _ _); [|apply IH]. cbn [app]. constructor; [apply Hm | apply IH].
  - unfold unless. apply same_bind; [apply eval_tame | apply IHm|]. intros; apply same_refl.
  - destruct (Z.eqb_spec k0 k) as [->|N].
    + intros s Hs. cbn [eval].
      assert (zmem k (e_done e) || zmem k s = true) as ->; [|reflexivity].
      apply orb_true_iff. unfold zmem. destruct Hs as [Hs|Hs]; [left|right]; apply existsb_exists;
        exists k; (split; [assumption | apply Z.eqb_refl]).
    + cbn [eval]. intros s Hs. destruct (zmem k0 (e_done e) || zmem k0 s) eqn:E; [reflexivity|].
      apply orb_false_iff in E as [E1 _].
      assert (Hn : ~ In k0 (e_done e)).
      { intros Hin. unfold zmem in E1. assert (existsb (Z.eqb k0) (e_done e) = true); [|congruence].
        apply existsb_exists. exists k0. split; [assumption | apply Z.eqb_refl]. }
      revert s Hs. match goal with |- forall s, spent s -> ?f s = ?g s => change (same f g) end.
      apply same_accumulating.
      * constructor; [|constructor]. apply tame_bind; [apply eval_tame|].
        intros [r|] s1; cbn; [|apply grows_refl].
        destruct (zmem k0 s1) eqn:E3; [apply grows_refl|]. exists [k0]. split; [reflexivity|]. split.
        -- intros Hd. constructor; [|assumption]. intros Hin.
           assert (existsb (Z.eqb k0) s1 = true); [|unfold zmem in E3; congruence].
           apply existsb_exists. exists k0. split; [assumption | apply Z.eqb_refl].
        -- intros k' [<-|[]]. assumption.
      * constructor; [|constructor]. apply same_bind; [apply eval_tame | apply IHm | intros; apply same_refl].
  - apply same_bind; [apply eval_tame | apply IHm|]. intros; apply same_refl.
  - apply same_bind; [apply eval_tame | apply IHm|]. intros; apply same_refl.
  - apply same_bind; [apply eval_tame | apply IHm|]. intros; apply same_refl.
  - apply IHm.
  - apply same_bind; [apply eval_tame | apply IHm|]. intros; apply same_refl.
  - apply same_has_item; [intros x; apply eval_tame | exact IHm].
  - rewrite map_map. apply same_items_are.
    + apply Forall_forall. intros a Ha. apply in_map_iff in Ha as (x & <- & _). intros y. apply eval_tame.
    + apply Forall2_map_same. eapply Forall_impl; [|exact H]. cbn. intros m Hm. exact Hm.
  - destruct (seq_items e v0) as [l|]; [|apply same_refl].
    apply same_bind; [| |intros; apply same_refl].
    + apply tame_first. apply Forall_forall. intros a Ha. apply in_map_iff in Ha as (x & <- & _). apply eval_tame.
    + apply same_first.
      * apply Forall_forall. intros a Ha. apply in_map_iff in Ha as (x & <- & _). apply eval_tame.
      * apply Forall2_map_same. apply Forall_forall. intros x _. apply IHm.
  - unfold glob. destruct (seq_items e v0) as [l|]; [|apply same_refl].
    rewrite map_map.
    destruct (same_blockify (map (fun m' => (is_star m', eval e m')) ms)
                (map (fun x => (is_star (exhaust k x), eval e (exhaust k x))) ms)) with (c := Some (@nil (value -> outcome))) (c' := Some (@nil (value -> outcome))) as [B1 B2].
    + apply Forall_forall. intros a Ha. apply in_map_iff in Ha as (x & <- & _). intros y. apply eval_tame.
    + apply Forall2_map_same. eapply Forall_impl; [|exact H]. cbn. intros m Hm. rewrite exhaust_star. now split.
    + constructor.
    + constructor.
    + now apply same_glob_loop.
  - destruct (text_eqb (vtype v0) ty); [|apply same_refl].
    rewrite map_map. cbn [fst snd]. apply same_accumulating.
    + apply Forall_forall. intros a Ha. apply in_map_iff in Ha as (x & <- & _). apply eval_tame.
    + apply Forall2_map_same. eapply Forall_impl; [|exact H]. cbn. intros m Hm. apply Hm.
  - destruct (negb _); [apply same_refl|]. destruct (negb _); [apply same_refl|].
    apply same_bind; [apply eval_tame | apply IHm|]. intros; apply same_refl.
  - destruct (parent e v0); [|apply same_refl].
    apply same_bind; [apply eval_tame | apply IHm|]. intros; apply same_refl.
  - rewrite exhaust_filter. apply same_climb.
    + intros x. destruct (admits _ _); [apply eval_tame | apply tame_ret].
    + intros x. destruct (admits _ _); [apply IHm | apply same_refl].
  - apply same_bind; [| |intros; apply same_refl].
    + apply tame_first. apply Forall_forall. intros a Ha. apply in_map_iff in Ha as (x & <- & _). apply eval_tame.
    + apply same_first.
      * apply Forall_forall. intros a Ha. apply in_map_iff in Ha as (x & <- & _). apply eval_tame.
      * apply Forall2_map_same. apply Forall_forall. intros x _. apply IHm.
  - rewrite exhaust_filter. apply same_descend.
    + intros x. destruct (admits _ _); [apply eval_tame | apply tame_ret].
    + intros x. destruct (admits _ _); [apply IHm | apply same_refl].
  - apply same_bind; [apply tame_climb_first; intros; apply eval_tame | apply same_climb_first; [intros x; apply eval_tame | exact IHm1]|].
    intros [r|]; [|apply same_refl]. sb. sb.
    apply same_bind; [apply eval_tame | apply IHm2|]. intros; apply same_refl.
  - destruct (get_prev_sibling _ _) as [x|]; [|apply same_refl]. destruct (py_truthy x); [apply IHm | apply same_refl].
  - destruct (get_next_sibling _ _) as [x|]; [|apply same_refl]. destruct (py_truthy x); [apply IHm | apply same_refl].
  - destruct (dget _ _) as [n|]; [|apply same_refl]. destruct (text_eqb n b); [apply IHm | apply same_refl].
  - apply same_bind; [apply eval_tame | apply IHm|]. intros; apply same_refl.
  - apply same_bind; [apply eval_tame | apply IHm|]. intros; apply same_refl.
Qed.
End Exhaust.

Lemma zmem_In x l : zmem x l = true <-> In x l.
Proof.
  unfold zmem. rewrite existsb_exists. split.
  - intros (y & H & E). apply Z.eqb_eq in E. now subst.
  - intros H. exists x. split; [assumption | apply Z.eqb_refl].
Qed.

Lemma merge_bindings_nil d : merge_bindings [] d = Ok (Some d).
Proof.
  unfold merge_bindings, merge_bindings_in. cbn.
  assert (H : forall l : dict bound, filter (fun _ => true) l = l)
    by (induction l as [|kv l IH]; [reflexivity|]; cbn; now rewrite IH).
  exact (f_equal (fun x => Ok (Some x)) (H d)).
Qed.

(** A [Once] whose key has not been run: its submatcher decides, and provides
    the bindings and replacements; the key is then recorded iff it matched. *)
Theorem once_runs e key m v s s' o :
  ~ In key (e_done e) -> ~ In key s ->
  eval e (MOnce key m) v s = (s', Ok o) ->
  exists s1 o1, eval e m v s = (s1, Ok o1) /\
    match o1 with
    | None => o = None /\ s' = s1
    | Some r1 => exists rm b t, r1 = RInfo rm (Some b) t
                 /\ o = Some (RInfo (create_match (e_parsed e) v) (Some b) t)
                 /\ (In key s' /\ forall k, In k s' <-> k = key \/ In k s1)
    end.
Proof.
  intros H1 H2. cbn [eval].
  destruct (zmem key (e_done e) || zmem key s) eqn:E.
  { apply orb_true_iff in E as [E|E]; apply zmem_In in E; contradiction. }
  intros H. unfold accumulating in H. apply mbind_Ok in H as (s2 & o2 & H & H3).
  cbn [accumulate] in H. apply mbind_Ok in H as (s3 & o3 & H & H4).
  apply mbind_Ok in H as (s4 & o4 & H & H5). injection H5 as <- <-.
  exists s4, o4. split; [assumption|]. destruct o4 as [r|].
  - apply mbind_Ok in H4 as (s5 & ob & H4 & H6). apply lift_Ok in H4 as [-> H4].
    apply mbind_Ok in H6 as (s6 & rb & H6 & H7). apply lift_Ok in H6 as [-> H6]. apply not_none_Ok in H6 as ->.
    apply mbind_Ok in H7 as (s7 & mb & H7 & H8). apply lift_Ok in H7 as [-> H7].
    rewrite merge_bindings_nil in H7. injection H7 as <-.
    apply mbind_Ok in H8 as (s8 & rt & H8 & H9). apply lift_Ok in H8 as [-> H8].
    apply mbind_Ok in H9 as (s9 & t' & H9 & H10). apply lift_Ok in H9 as [-> H9].
    cbn in H9. injection H9 as <-. apply ret_Ok in H10 as [-> <-].
    apply ret_Ok in H3 as [-> <-]. destruct r as [rm b t|]; [|discriminate H4]. cbn in H4, H8.
    injection H4 as ->. injection H8 as ->. exists rm, rb, rt. split; [reflexivity|]. split; [reflexivity|].
    destruct (zmem key s4) eqn:E4.
    + apply zmem_In in E4. split; [assumption|]. intros k. split; [now right|]. intros [->|?]; assumption.
    + split; [now left|]. intros k. cbn. intuition congruence.
  - apply ret_Ok in H4 as [-> <-]. apply ret_Ok in H3 as [-> <-]. now split.
Qed.

Lemma done_after_In hs : forall done k,
  In k (done_after done hs) <-> In k done \/ exists h, In h hs /\ In k (h_ran h).
Proof.
  induction hs as [|h hs IH]; intros done k; cbn [done_after fold_left].
  - split; [now left|]. intros [?|(h & [] & _)]. assumption.
  - fold (done_after (h_ran h ++ done) hs). rewrite IH, in_app_iff. split.
    + intros [[H|H]|(h' & H1 & H2)]; [right; exists h; split; [now left | assumption] | now left |].
      right. exists h'. split; [now right | assumption].
    + intros [H|(h' & [<-|H1] & H2)]; [tauto | tauto |]. right. eauto.
Qed.

(** After a reported match ran a [Once], later attempts do not run it: they are
    what they would be with the [Once] matching trivially. *)
Theorem once_spent e m hs hs1 h hs2 h' k :
  found e m hs -> hs = hs1 ++ h :: hs2 -> In h' hs1 -> In k (h_ran h') ->
  ~ In k (h_ran h) /\
  attempt (with_done e (done_after [] hs1)) (exhaust k m) (h_value h) = (h_ran h, Ok (Some (h_result h))).
Proof.
  intros F E Hh' Hk. destruct (fd_match _ _ _ F _ _ _ E) as [_ Ha].
  assert (HD : In k (e_done (with_done e (done_after [] hs1)))).
  { cbn. apply done_after_In. right. eauto. }
  split.
  - unfold attempt in Ha. destruct (admits _ _); [|discriminate Ha].
    pose proof (eval_tame (with_done e (done_after [] hs1)) m (h_value h) []) as (new & E2 & _ & Hn).
    rewrite Ha in E2. cbn [fst] in E2. rewrite app_nil_r in E2. subst new. intros Hin. now apply (Hn k).
  - unfold attempt in *. rewrite exhaust_filter. destruct (admits _ _); [|assumption].
    rewrite <- Ha. symmetry. apply (exhaust_same (with_done e (done_after [] hs1)) k m (h_value h) []). now left.
Qed.
(** The same for places that did not match. *)
Theorem once_spent_attempt e m k hs1 v :
  (exists h', In h' hs1 /\ In k (h_ran h')) ->
  attempt (with_done e (done_after [] hs1)) m v = attempt (with_done e (done_after [] hs1)) (exhaust k m) v.
Proof.
  intros Hk. unfold attempt. rewrite exhaust_filter. destruct (admits _ _); [|reflexivity].
  apply (exhaust_same (with_done e (done_after [] hs1)) k m v []). left. cbn. apply done_after_In. now right.
Qed.
