(** Matchers of several parts, and of sequences. *)
From Verif Require Import Py PyFacts Ast Template FromDiff Matcher MatchSpec MergeProofs MatcherProofs BindProofs
  OnceProofs FindSpec NavSpec NavProofs CollSpec.

Lemma accumulate_iff acts : forall b t s s' b' t',
  accumulate acts b t s = (s', Ok (Some (b', t'))) <-> in_turn_reps acts b t s s' b' t'.
Proof.
  induction acts as [|a acts IH]; intros b t s s' b' t'; cbn [accumulate]; split; intros H.
  - apply ret_Ok in H as [-> [= -> ->]]. constructor.
  - inversion H; subst. reflexivity.
  - apply mbind_Ok in H as (s1 & [r|] & H1 & H). 2:{ apply ret_Ok in H as [_ H]. discriminate H. }
    apply mbind_Ok in H as (s2 & ob & H2 & H). apply lift_Ok in H2 as [-> H2].
    apply mbind_Ok in H as (s3 & rb & H3 & H). apply lift_Ok in H3 as [-> H3]. apply not_none_Ok in H3 as ->.
    apply mbind_Ok in H as (s4 & mb & H4 & H). apply lift_Ok in H4 as [-> H4].
    destruct mb as [b1|]. 2:{ apply ret_Ok in H as [_ H]. discriminate H. }
    apply mbind_Ok in H as (s5 & rt & H5 & H). apply lift_Ok in H5 as [-> H5].
    apply mbind_Ok in H as (s6 & t1 & H6 & H). apply lift_Ok in H6 as [-> H6].
    apply IH in H. destruct r as [rm ob rt'|]; [|discriminate H2]. cbn in H2, H5. injection H2 as ->. injection H5 as ->.
    econstructor; eassumption.
  - inversion H as [|? ? ? ? ? s1 rm rb rt b1 t1 ? ? ? E1 E2 E3 E4]; subst.
    unfold mbind at 1. rewrite E1. cbn [r_bindings]. unfold mbind, lift at 1. cbn [not_none].
    unfold lift at 1. unfold lift at 1. rewrite E2. cbn [r_reps]. unfold lift at 1. unfold lift at 1. rewrite E3. now apply IH.
Qed.
Theorem accumulating_iff e v acts s s' r :
  accumulating e v acts s = (s', Ok (Some r)) <->
  exists b t, r = RInfo (create_match (e_parsed e) v) (Some b) t /\ in_turn_reps acts [] [] s s' b t.
Proof.
  unfold accumulating. split.
  - intros H. apply mbind_Ok in H as (s1 & [[b t]|] & H1 & H). 2:{ apply ret_Ok in H as [_ H]. discriminate H. }
    apply ret_Ok in H as [-> [= <-]]. apply accumulate_iff in H1. now exists b, t.
  - intros (b & t & -> & H). apply accumulate_iff in H. unfold mbind. now rewrite H.
Qed.

(** *** Items *)
Lemma subscript_nat e v l k : seq_items e v = Some l -> subscript e v (Z.of_nat k) = nth_error l k.
Proof.
  intros H. unfold subscript. rewrite H.
  replace (Z.of_nat k <? 0) with false by (symmetry; apply Z.ltb_ge; lia).
  replace (Z.of_nat k <? 0) with false by (symmetry; apply Z.ltb_ge; lia). now rewrite Nat2Z.id.
Qed.
Lemma subscript_item e v i x :
  subscript e v i = Some x <-> exists l, seq_items e v = Some l /\ item_at l i x.
Proof.
  unfold subscript, item_at. destruct (seq_items e v) as [l|].
  - destruct (Z.ltb_spec i 0) as [Hi|Hi].
    + destruct (Z.ltb_spec (i + tlen l) 0) as [Hj|Hj]; split.
      * discriminate.
      * intros (l' & [= <-] & [[? _]|[_ [? _]]]); lia.
      * intros H. exists l. split; [reflexivity|]. now right.
      * intros (l' & [= <-] & [[? _]|[_ [_ H]]]); [lia | assumption].
    + destruct (Z.ltb_spec i 0) as [?|_]; [lia|]. split.
      * intros H. exists l. split; [reflexivity|]. now left.
      * intros (l' & [= <-] & [[_ H]|[? _]]); [assumption | lia].
  - split; [discriminate|]. intros (l & H & _). discriminate H.
Qed.

Theorem has_item_hits e i m v s s' o :
  eval e (MHasItem i m) v s = (s', o) ->
  (exists l x s1 o1, seq_items e v = Some l /\ item_at l i x /\ eval e m x s = (s1, o1) /\ s' = s1
     /\ o = by_way_of e v (match o1 with Ok (Some r) => Ok (Some (x, r)) | Ok None => Ok None | Err exn => Err exn end))
  \/ ((forall l x, seq_items e v = Some l -> ~ item_at l i x) /\ s' = s /\ o = Ok None).
Proof.
  intros H. cbn [eval] in H. unfold has_item in H. destruct (subscript e v i) as [x|] eqn:E.
  - left. apply subscript_item in E as (l & El & Ei). exists l, x. unfold mbind in H.
    destruct (eval e m x s) as [s1 o1]. exists s1, o1. split; [assumption|]. split; [assumption|]. split; [reflexivity|].
    destruct o1 as [[[rm ob t|]|]|exn]; cbn in H; injection H as <- <-; now split.
  - right. cbn in H. injection H as <- <-. split; [|now split]. intros l x Hl Hx.
    assert (subscript e v i = Some x) by (apply subscript_item; now exists l). congruence.
Qed.
Theorem contains_hits e m v s s' o :
  eval e (MContains m) v s = (s', o) ->
  match seq_items e v with
  | Some l => exists o1, first_hit (eval e m) l s s' o1 /\ o = by_way_of e v o1
  | None => s' = s /\ o = Ok None
  end.
Proof.
  intros H. cbn [eval] in H. destruct (seq_items e v) as [l|].
  - destruct (first_of_hits e (eval e m) (eval e m) v (fun y => [y]) l) with (s := s) (s' := s') (o := o)
      as (o1 & H1 & H2); [|exact H|].
    + intros y s0 s0' o0 _ Hd. destruct o0 as [[r|]|exn].
      * exists (Ok (Some (y, r))). split; [now apply FH_hit|]. split; [discriminate|]. split; [discriminate|]. destruct r; reflexivity.
      * exists (Ok None). split; [eapply FH_fails; [eassumption | constructor]|]. repeat split; congruence.
      * exists (Err exn). split; [now apply FH_raises|]. split; [reflexivity | discriminate].
    + exists o1. split; [|assumption]. replace l with (flat_map (fun y : value => [y]) l); [assumption|].
      clear. induction l as [|y l IH]; [reflexivity|]. cbn. now rewrite IH.
  - cbn in H. injection H as <- <-. now split.
Qed.

Definition zip_eval (subs : list (value -> outcome)) (l : list value) : list outcome :=
  map (fun fx => fst fx (snd fx)) (combine subs l).

Lemma numbered_iff e v l : seq_items e v = Some l -> forall subs k b s s' b' t',
  (in_turn_reps (numbered_items e (Z.of_nat k) subs v) b [] s s' b' t' <->
   t' = [] /\ (length subs <= length (skipn k l))%nat /\ in_turn (zip_eval subs (skipn k l)) b s s' b').
Proof.
  intros Hl. induction subs as [|f subs IH]; intros k b s s' b' t'; cbn [numbered_items].
  - split; [intros H; inversion H; subst; cbn; split; [reflexivity|]; split; [lia | constructor] |
            intros (-> & _ & H); cbn in H; inversion H; subst; constructor].
  - replace (Z.of_nat k + 1) with (Z.of_nat (S k)) by lia.
    assert (Hhi : has_item e (Z.of_nat k) f v =
                  match nth_error l k with None => ret None | Some x => mbind (f x) (rewrap e v) end)
      by (unfold has_item; now rewrite (subscript_nat e v l k Hl)).
    destruct (nth_error l k) as [x|] eqn:Ex.
    + assert (Esk : skipn k l = x :: skipn (S k) l).
      { clear - Ex. revert l Ex. induction k as [|k IHk]; intros [|y l] Ex; try discriminate Ex; cbn in *.
        - now injection Ex as ->.
        - now apply IHk. }
      rewrite Esk. unfold zip_eval. cbn [combine map fst snd length]. fold (zip_eval subs (skipn (S k) l)).
      split.
      * intros H. inversion H as [|? ? ? ? ? s1 rm rb rt b1 t1 ? ? ? E1 E2 E3 E4]; subst.
        rewrite Hhi in E1. apply mbind_Ok in E1 as (s2 & o & E1 & E5).
        destruct o as [[rm0 [b0|] t0|]|]; cbn in E5; try discriminate E5.
        injection E5 as <- <- <- <-.
        cbn in E3. injection E3 as <-. apply (IH (S k)) in E4 as (-> & Hlen & E4).
        split; [reflexivity|]. split; [lia|]. econstructor; eassumption.
      * intros (-> & Hlen & H). inversion H as [|? ? ? ? s1 rm rb t b1 ? ? E1 E2 E4]; subst.
        econstructor; [|eassumption|reflexivity|].
        -- rewrite Hhi. unfold mbind. rewrite E1. reflexivity.
        -- apply (IH (S k)). split; [reflexivity|]. split; [lia | assumption].
    + assert (Esk : skipn k l = []) by (apply skipn_all2; now apply nth_error_None). rewrite Esk. split.
      * intros H. inversion H as [|? ? ? ? ? s1 rm rb rt b1 t1 ? ? ? E1 E2 E3 E4]; subst.
        rewrite Hhi in E1. discriminate E1.
      * intros (_ & Hlen & _). cbn in Hlen. lia.
Qed.
Lemma numbered_nonseq e v subs : seq_items e v = None -> forall i b s s' b' t',
  in_turn_reps (numbered_items e i subs v) b [] s s' b' t' -> subs = [].
Proof.
  intros Hl i b s s' b' t' H. destruct subs as [|f subs]; [reflexivity|]. exfalso. cbn [numbered_items] in H.
  inversion H as [|? ? ? ? ? s1 rm rb rt b1 t1 ? ? ? E1 E2 E3 E4]; subst.
  unfold has_item, subscript in E1. rewrite Hl in E1. discriminate E1.
Qed.
Theorem items_are_iff e subs v s s' r :
  items_are e subs v s = (s', Ok (Some r)) <->
  exists b, r = RInfo (create_match (e_parsed e) v) (Some b) [] /\
    match seq_items e v with
    | Some l => length l = length subs /\ in_turn (zip_eval subs l) [] s s' b
    | None => subs = [] /\ b = [] /\ s' = s
    end.
Proof.
  unfold items_are. rewrite accumulating_iff. destruct (seq_items e v) as [l|] eqn:El.
  - assert (Hu : unless e (has_item e (tlen subs) (anything e) v) v =
                 match nth_error l (length subs) with Some _ => unless e (ret (Some (info e v (Some [])))) v | None => unless e (ret None) v end).
    { unfold has_item. replace (tlen subs) with (Z.of_nat (length subs)) by reflexivity.
      rewrite (subscript_nat e v l _ El). destruct (nth_error l (length subs)); reflexivity. }
    split.
    + intros (b & t & -> & H). inversion H as [|? ? ? ? ? s1 rm rb rt b1 t1 ? ? ? E1 E2 E3 E4]; subst.
      rewrite Hu in E1. destruct (nth_error l (length subs)) eqn:En; cbn in E1; [discriminate E1|].
      injection E1 as <- <- <- <-. cbn in E3. injection E3 as <-. rewrite merge_bindings_nil in E2. injection E2 as <-.
      apply (numbered_iff e v l El subs 0) in E4 as (-> & Hlen & H4). exists b. split; [reflexivity|]. cbn [skipn] in *.
      apply nth_error_None in En. split; [lia | assumption].
    + intros (b & -> & Hlen & H). exists b, []. split; [reflexivity|].
      econstructor; [rewrite Hu | | |].
      * replace (nth_error l (length subs)) with (@None value) by (symmetry; apply nth_error_None; lia). reflexivity.
      * apply merge_bindings_nil.
      * reflexivity.
      * apply (numbered_iff e v l El subs 0). cbn [skipn]. split; [reflexivity|]. split; [lia | assumption].
  - assert (Hu : forall s, unless e (has_item e (tlen subs) (anything e) v) v s = (s, Ok (Some (info e v (Some []))))).
    { intros s0. unfold has_item, subscript. rewrite El. reflexivity. }
    split.
    + intros (b & t & -> & H). inversion H as [|? ? ? ? ? s1 rm rb rt b1 t1 ? ? ? E1 E2 E3 E4]; subst.
      rewrite Hu in E1. injection E1 as <- <- <- <-. cbn in E3. injection E3 as <-. rewrite merge_bindings_nil in E2. injection E2 as <-.
      pose proof (numbered_nonseq _ _ _ El _ _ _ _ _ _ E4) as ->. cbn in E4. inversion E4; subst.
      exists []. now repeat split.
    + intros (b & -> & -> & -> & ->). exists [], []. split; [reflexivity|].
      econstructor; [apply Hu | apply merge_bindings_nil | reflexivity | constructor].
Qed.
Lemma zip_eval_one e ms l : zip_eval (map (fun m => eval e m) ms) l = one_by_one e ms l.
Proof.
  unfold zip_eval, one_by_one. revert l. induction ms as [|m ms IH]; intros [|x l]; [reflexivity..|]. cbn. f_equal. apply IH.
Qed.
Theorem items_are_matches e ms v s s' r :
  eval e (MItemsAre ms) v s = (s', Ok (Some r)) <->
  exists b, r = RInfo (create_match (e_parsed e) v) (Some b) [] /\
    match seq_items e v with
    | Some l => length l = length ms /\ in_turn (one_by_one e ms l) [] s s' b
    | None => ms = [] /\ b = [] /\ s' = s
    end.
Proof.
  cbn [eval]. rewrite items_are_iff. split; intros (b & -> & H); exists b; (split; [reflexivity|]);
    destruct (seq_items e v) as [l|]; rewrite ?zip_eval_one, ?map_length in *; try assumption;
    destruct H as (H & H'); (split; [|assumption]); [now apply map_eq_nil in H | now rewrite H].
Qed.
Theorem items_are_too_long e ms v l s :
  seq_items e v = Some l -> (length ms < length l)%nat -> eval e (MItemsAre ms) v s = (s, Ok None).
Proof.
  intros El H. cbn [eval]. unfold items_are, accumulating. cbn [accumulate]. unfold has_item.
  unfold tlen. rewrite map_length, (subscript_nat e v l _ El).
  destruct (nth_error l (length ms)) eqn:E; [reflexivity|]. apply nth_error_None in E. lia.
Qed.
