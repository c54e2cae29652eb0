(** C85: every match and binding is a piece of the file.  Proofs. *)
From Verif Require Import Py PyFacts Subst Ast Template FromDiff Matcher MatchSpec MatcherProofs MergeProofs OwnProofs BindProofs FindSpec FindProofs NavSpec NavProofs PatternSpec EquivProofs PiecesSpec.

Lemma merged_from lhs rhs d k b : merge_bindings lhs rhs = Ok (Some d) -> In (k, b) d -> exists b', (In (k, b') lhs \/ In (k, b') rhs) /\ b_value b = b_value b'.
Proof.
  unfold merge_bindings, merge_bindings_in. intros H Hin. apply bind_Ok in H as (r & Hr & H). destruct r as [merged|]; [|discriminate H]. injection H as <-.
  rewrite !in_app_iff in Hin. destruct Hin as [Hin|[Hin|Hin]].
  2,3: apply filter_In in Hin as [Hin _]; exists b; auto.
  assert (G : forall keys acc skip out, merge_shared keys lhs rhs acc skip = Ok (Some out) ->
    (forall k b, In (k, b) acc -> In (k, b) lhs \/ In (k, b) rhs) -> forall k b, In (k, b) out -> In (k, b) lhs \/ In (k, b) rhs).
  { clear. induction keys as [|x keys IH]; intros acc skip out H K; cbn [merge_shared] in H.
    - destruct skip; [discriminate H|]. injection H as <-. exact K.
    - destruct (dget lhs x) as [a|] eqn:Ea; [|discriminate H]. destruct (dget rhs x) as [b|] eqn:Eb; [|discriminate H].
      destruct (negb _); [discriminate H|]. destruct (negb _); [discriminate H|]. apply bind_Ok in H as (ok & _ & H). destruct ok.
      + apply (IH _ _ _ H). intros k c Hc. apply in_app_iff in Hc as [Hc|[[= <- <-]|[]]]; [auto|]. apply dget_In in Ea, Eb. unfold keep. destruct (b_merge a); auto.
      + apply (IH _ _ _ H). exact K. }
  exists b. split; [|reflexivity]. apply (G _ _ _ _ Hr); [intros ? ? []|exact Hin].
Qed.

(** *** Where things come from *)
Lemma crumb_get_In m k b : crumb_get m k = Some b -> In (k, Some b) m.
Proof. induction m as [|[k' b'] m IH]; intros H; [discriminate H|]. cbn in H. destruct (Z.eqb_spec k' k) as [->|N]; [subst b'; now left|right; auto]. Qed.
Lemma breadcrumb_inside tree v p c : get_breadcrumb tree v = Some (p, c) -> inside tree p.
Proof.
  unfold get_breadcrumb. intros H. apply crumb_get_In in H. apply (proj1 (breadcrumb_In _ _)) in H as [H|(q & par & i & x & c' & H1 & _ & _ & _ & E)]; [discriminate H|].
  injection E as _ -> _. now exists q.
Qed.
Lemma parent_in tree v p : get_parent tree v = Some p -> inside tree p.
Proof. unfold get_parent. destruct (get_breadcrumb tree v) as [[p' c]|] eqn:E; [|discriminate]. intros [= ->]. now apply breadcrumb_inside in E. Qed.
Lemma list_item_child p k x : list_item p k = Some x -> In x (vchildren p).
Proof. unfold list_item. destruct p; try discriminate. cbn [vchildren]. destruct (k <? 0); [discriminate|]. intros H. now apply nth_error_In in H. Qed.
Lemma prev_in tree v x : get_prev_sibling tree v = Some x -> inside tree x.
Proof.
  unfold get_prev_sibling. destruct (get_breadcrumb tree v) as [[p [f|k]]|] eqn:E; try discriminate. destruct (k =? 0); [discriminate|]. intros H. apply list_item_child in H.
  apply breadcrumb_inside in E. exact (inside_child _ _ _ E H).
Qed.
Lemma next_in tree v x : get_next_sibling tree v = Some x -> inside tree x.
Proof.
  unfold get_next_sibling. destruct (get_breadcrumb tree v) as [[p [f|k]]|] eqn:E; try discriminate. destruct (_ =? _); [discriminate|]. intros H. apply list_item_child in H.
  apply breadcrumb_inside in E. exact (inside_child _ _ _ E H).
Qed.

Section Pieces.
  Variable e : env.
  Notation t := (pf_text (e_parsed e)).
  Hypothesis HT : positioned (e_parsed e) (e_tree e).
  (** Values whose nodes are those of the tree. *)
  Definition good (v : value) : Prop := forall w, inside v w -> is_node w = true -> inside (e_tree e) w.
  Definition lexical (m : pymatch) : Prop := forall v tx f l a b, m = PLex v tx f l a b -> m = create_match (e_parsed e) v.
  Definition fine (m : pymatch) : Prop := (piece t m /\ lexical m) /\ forall w, m_matched m = Some w -> good w.
  Definition fine_result (r : result) : Prop :=
    (forall m, r_match r = Ok m -> fine m) /\ (forall d, r_bindings r = Ok (Some d) -> forall k b, In (k, b) d -> fine (b_value b)).

  Lemma good_tree : good (e_tree e).
  Proof. intros w Hw _. exact Hw. Qed.
  Lemma good_span v sp : good v -> m_span (create_match (e_parsed e) v) = Some sp -> in_text t sp.
  Proof.
    intros H Hs. refine (HT v sp _ Hs). apply (H v); [now exists []|]. destruct v as [| |? []]; try discriminate Hs. reflexivity.
  Qed.
  Lemma good_child v x : good v -> In x (vchildren v) -> good x.
  Proof.
    intros H Hx w (q & Hq). apply H. apply In_nth_error in Hx as (k & Hk). exists (k :: q). cbn [at_path]. now rewrite Hk.
  Qed.
  Lemma good_inside v x : good v -> inside v x -> good x.
  Proof. intros H (p & Hp) w (q & Hq). apply H. exists (p ++ q). now rewrite at_path_app, Hp. Qed.
  Lemma good_const i c : good (VConst i c).
  Proof.
    intros w (q & Hq). destruct q as [|k q]; cbn in Hq; [|destruct k; discriminate Hq]. injection Hq as <-. discriminate.
  Qed.
  Lemma good_list i l : (forall x, In x l -> good x) -> good (VList i l).
  Proof.
    intros H w (q & Hq). destruct q as [|k q]; cbn [at_path] in Hq; [injection Hq as <-; discriminate|]. cbn [vchildren] in Hq.
    destruct (nth_error l k) as [x|] eqn:E; [|discriminate Hq]. apply nth_error_In in E. apply (H x E). now exists q.
  Qed.
  Lemma good_field v f : good v -> good (vfield v f).
  Proof.
    intros H. destruct v as [i fs|i l|i c]; cbn [vfield]; try apply good_const. destruct (dget fs f) as [x|] eqn:E; [|apply good_const].
    apply (good_child (VNode i fs)); [exact H|]. cbn [vchildren]. apply dget_In in E. exact (in_map snd _ _ E).
  Qed.
  Lemma good_items v l x : good v -> seq_items e v = Some l -> In x l -> good x.
  Proof.
    intros H E Hx. destruct v as [i fs|i l'|i c]; cbn [seq_items] in E; [discriminate E| |].
    - injection E as <-. now apply (good_child (VList i l')).
    - destruct c; try discriminate E; injection E as <-; apply in_map_iff in Hx as (y & <- & _); apply good_const.
  Qed.
  Lemma good_slice v a b : good v -> good (vslice v a b).
  Proof.
    intros H. destruct v as [i fs|i l|i c]; cbn [vslice]; [exact H| |destruct c; try exact H; apply good_const].
    apply good_list. intros x Hx. apply (good_child (VList i l)); [exact H|]. cbn [vchildren]. unfold slice in Hx. cbv zeta in Hx. revert Hx. generalize (Z.to_nat (norm_idx (tlen l) b - norm_idx (tlen l) a)), (Z.to_nat (norm_idx (tlen l) a)). intros n k Hx.
    rewrite <- (firstn_skipn k l), in_app_iff. right. rewrite <- (firstn_skipn n (skipn k l)), in_app_iff. now left.
  Qed.
  Lemma fine_create v : good v -> fine (create_match (e_parsed e) v).
  Proof.
    intros H. split; [split|].
    - intros sp Hsp. right. split; [exact (good_span _ _ H Hsp)|]. unfold create_match in *. destruct (lexical_tokens v) as [[f l]|]; [|destruct v as [| |? []]; discriminate Hsp].
      cbn in *. now injection Hsp as <-.
    - intros v' tx f l a b E. unfold create_match in E. destruct (lexical_tokens v) as [[f' l']|] eqn:E0; [injection E as <- <- <- <- <- <-; reflexivity|]. destruct v as [| |? []]; discriminate E.
    - intros w Hw. unfold create_match in Hw. destruct (lexical_tokens v) as [[f l]|]; [injection Hw as <-; exact H|]. destruct v as [| |? []]; cbn in Hw; try discriminate Hw; injection Hw as <-; exact H.
  Qed.
  Lemma fine_info v b : good v -> (forall d, b = Some d -> forall k x, In (k, x) d -> fine (b_value x)) -> fine_result (info e v b).
  Proof. intros H K. split; cbn; [intros m [= <-]; now apply fine_create|intros d [= ->]; now apply K]. Qed.
  Lemma fine_anything v : good v -> fine_result (info e v (Some [])).
  Proof. intros H. apply fine_info; [exact H|]. intros d [= <-] k x []. Qed.
  Lemma fine_merge lhs rhs d : (forall k b, In (k, b) lhs -> fine (b_value b)) -> (forall k b, In (k, b) rhs -> fine (b_value b)) ->
    merge_bindings lhs rhs = Ok (Some d) -> forall k b, In (k, b) d -> fine (b_value b).
  Proof. intros Hl Hr H k b Hin. destruct (merged_from _ _ _ _ _ H Hin) as (b' & [K|K] & ->); eauto. Qed.
  Lemma fine_regs r regs : groups_ok t r regs -> forall k b, In (k, b) (re_bindings r t regs) -> fine (b_value b).
  Proof.
    intros H k b Hin. unfold re_bindings in Hin. apply in_map_iff in Hin as ([l n] & [= _ <-] & Hg). cbn [bound_value b_value]. split; [split; [|discriminate]|discriminate].
    intros sp [= <-]. cbn [snd]. destruct (H l n Hg) as [K|K]; [now left|right]. split; [exact K|reflexivity].
  Qed.

  Lemma fine_accumulate acts : (forall a r, In a acts -> succeeds a r -> fine_result r) ->
    forall b ts s s' b' ts', (forall k x, In (k, x) b -> fine (b_value x)) -> accumulate acts b ts s = (s', Ok (Some (b', ts'))) -> forall k x, In (k, x) b' -> fine (b_value x).
  Proof.
    induction acts as [|a acts IH]; cbn [accumulate]; intros HA b ts s s' b' ts' Hb H.
    - apply ret_Ok in H as [_ [= -> ->]]. exact Hb.
    - apply mbind_Ok in H as (s1 & [r|] & H1 & H); [|none H].
      apply mbind_Ok in H as (s2 & ob & H2 & H). apply lift_Ok in H2 as [-> H2].
      apply mbind_Ok in H as (s3 & rb & H3 & H). apply lift_Ok in H3 as [-> H3]. apply not_none_Ok in H3 as ->.
      apply mbind_Ok in H as (s4 & mb & H4 & H). apply lift_Ok in H4 as [-> H4].
      destruct mb as [b1|]; [|none H].
      apply mbind_Ok in H as (s5 & rt & H5 & H). apply lift_Ok in H5 as [-> H5].
      apply mbind_Ok in H as (s6 & t1 & H6 & H). apply lift_Ok in H6 as [-> H6].
      assert (Hr : fine_result r) by (apply (HA a r); [now left | now exists s, s1]).
      refine (IH _ _ _ _ _ _ _ _ H).
      + intros a' r' Ha. apply HA. now right.
      + eapply fine_merge; [exact Hb| |eassumption]. now apply (proj2 Hr).
  Qed.
  Lemma fine_accumulating v acts s s' r : good v -> (forall a r, In a acts -> succeeds a r -> fine_result r) ->
    accumulating e v acts s = (s', Ok (Some r)) -> fine_result r.
  Proof.
    unfold accumulating. intros Hv HA H. apply mbind_Ok in H as (s1 & [[b t0]|] & H1 & H); [|none H].
    apply ret_Ok in H as [-> [= <-]]. split; cbn [r_match r_bindings].
    - intros m [= <-]. now apply fine_create.
    - intros d [= <-]. eapply fine_accumulate; [exact HA| |exact H1]. intros k x [].
  Qed.
  Lemma fine_rewrap v o s s' r : good v -> rewrap e v o s = (s', Ok (Some r)) -> (forall r0, o = Some r0 -> fine_result r0) -> fine_result r.
  Proof.
    intros Hv H Ho. apply rewrap_inv in H as (_ & r0 & b & -> & Hb & ->). apply fine_info; [exact Hv|]. intros d ->. now apply (proj2 (Ho _ eq_refl)).
  Qed.
  Lemma fine_has_item i sub v s s' r : good v -> (forall x r, good x -> succeeds (sub x) r -> fine_result r) -> has_item e i sub v s = (s', Ok (Some r)) -> fine_result r.
  Proof.
    intros Hv Hs H. unfold has_item in H. destruct (subscript e v i) as [x|] eqn:E; [|none H]. apply mbind_Ok in H as (s1 & o & H1 & H).
    eapply fine_rewrap; [exact Hv|eassumption|]. intros r0 ->. eapply Hs; [|exists s, s1; exact H1].
    unfold subscript in E. destruct (seq_items e v) as [l|] eqn:El; [|discriminate E]. apply (good_items v l); [exact Hv|exact El|].
    match type of E with (if ?c then _ else _) = _ => destruct c; [discriminate E|] end. now apply nth_error_In in E.
  Qed.
  Lemma fine_items_are subs v s s' r : good v -> (forall sub x r, In sub subs -> good x -> succeeds (sub x) r -> fine_result r) -> items_are e subs v s = (s', Ok (Some r)) -> fine_result r.
  Proof.
    intros Hv Hs H. unfold items_are in H. eapply fine_accumulating in H; [eassumption|exact Hv|]. intros a r1 Ha (s1 & s2 & Hr).
    destruct Ha as [<-|Ha]; [apply unless_inv in Hr as [-> _]; now apply fine_anything|].
    apply numbered_items_In in Ha as (j & sub & Hsub & ->). eapply fine_has_item; [exact Hv| |exact Hr]. intros x r2. now apply Hs.
  Qed.
  Lemma fine_glob_loop v len : good v -> forall blocks is_search pos b s s' r,
    (forall blk sub x r, In (Some blk) blocks -> In sub blk -> good x -> succeeds (sub x) r -> fine_result r) -> (forall k x, In (k, x) b -> fine (b_value x)) ->
    glob_loop e v len blocks is_search pos b s = (s', Ok (Some r)) -> fine_result r.
  Proof.
    intros Hv. induction blocks as [|[blk|] blocks IH]; cbn [glob_loop]; intros is_search pos b s s' r HS Hb H.
    - destruct (_ && _); apply ret_Ok in H as [_ H]; [discriminate H|]. injection H as <-. apply fine_info; [exact Hv|]. now intros d [= <-].
    - match type of H with (let '(_, _) := ?p in _) _ = _ => destruct p as [pos0 send] end.
      apply mbind_Ok in H as (s1 & [[r0 p']|] & H1 & H); [|none H].
      apply glob_search_inv in H1 as (a & _ & _ & (s3 & s4 & H1)).
      apply fine_items_are in H1; [|now apply good_slice|intros sub x r1 Hsub; apply (HS blk sub x r1); [now left | assumption]].
      apply mbind_Ok in H as (s5 & ob & H2 & H). apply lift_Ok in H2 as [-> H2].
      apply mbind_Ok in H as (s6 & rb & H3 & H). apply lift_Ok in H3 as [-> H3]. apply not_none_Ok in H3 as ->.
      apply mbind_Ok in H as (s7 & mb & H4 & H). apply lift_Ok in H4 as [-> H4].
      destruct mb as [b1|]; [|none H]. apply IH in H; [assumption| |].
      + intros blk' sub x r1 Hin. apply HS. now right.
      + eapply fine_merge; [exact Hb| |eassumption]. now apply (proj2 H1).
    - apply IH in H; [assumption| |assumption]. intros blk' sub x r1 Hin. apply HS. now right.
  Qed.
  Lemma fine_climb n sub : (forall x r, good x -> succeeds (sub x) r -> fine_result r) -> forall v s s' r, good v -> climb n e sub v s = (s', Ok (Some r)) -> fine_result r.
  Proof.
    intros HS. induction n; cbn [climb]; intros v s s' r Hv H; [apply lift_Ok in H as [_ H]; discriminate H|].
    apply mbind_Ok in H as (s1 & [r0|] & H1 & H).
    - apply ret_Ok in H as [-> [= ->]]. apply (HS v); [exact Hv|]. now exists s, s1.
    - destruct (parent e v) as [p|] eqn:Ep; [|none H]. apply parent_in in Ep.
      apply mbind_Ok in H as (s2 & o' & H2 & H). eapply fine_rewrap; [exact Hv|eassumption|]. intros r0 ->. apply IHn in H2; [exact H2|]. exact (good_inside _ _ good_tree Ep).
  Qed.
  Lemma climb_first_from n sub : forall v s s' r, climb_first n e sub v s = (s', Ok (Some r)) -> exists w, inside (e_tree e) w /\ succeeds (sub w) r.
  Proof.
    induction n as [|n IH]; cbn [climb_first]; intros v s s' r H.
    - apply lift_Ok in H as [_ H]. discriminate H.
    - destruct (parent e v) as [p|] eqn:Ep; [|none H]. apply mbind_Ok in H as (s1 & [r0|] & H1 & H).
      + apply ret_Ok in H as [-> [= ->]]. exists p. split; [now apply parent_in in Ep|]. now exists s, s1.
      + now apply IH in H.
  Qed.
  Lemma fine_descend sub : (forall x r, good x -> succeeds (sub x) r -> fine_result r) -> forall v s s' r, good v -> descend e sub v s = (s', Ok (Some r)) -> fine_result r.
  Proof.
    intros HS.
    assert (Hch : forall (l : list value) s s' r v, good v -> (forall x, In x l -> good x) ->
      Forall (fun w => forall s s' r, good w -> descend e sub w s = (s', Ok (Some r)) -> fine_result r) l ->
      (run o' <- first_of (map (descend e sub) l); rewrap e v o') s = (s', Ok (Some r)) -> fine_result r).
    { intros l s s' r v Hv Hl HF H. apply mbind_Ok in H as (s1 & o & H1 & H).
      eapply fine_rewrap; [exact Hv|eassumption|]. intros r0 ->.
      apply first_of_inv in H1 as (a & Ha & (s2 & s3 & Hs)). apply in_map_iff in Ha as (w & <- & Hw).
      rewrite Forall_forall in HF. apply HF in Hs; auto. }
    induction v as [i fs IH|i l IH|i c] using value_ind'; intros s s' r Hv H; rewrite descend_eq in H;
      apply mbind_Ok in H as (s1 & [r0|] & H1 & H);
      try (apply ret_Ok in H as [-> [= ->]]; eapply HS; [exact Hv|exists s, s1; exact H1]); eapply (Hch _ _ _ _ _ Hv (fun x => good_child _ x Hv)); try exact H; cbn [vchildren].
    - apply Forall_map. assumption.
    - assumption.
    - constructor.
  Qed.
  Lemma all_In ms m : fold_right (fun m' P => engines_ok t m' /\ P) True ms -> In m ms -> engines_ok t m.
  Proof. induction ms as [|m0 ms IH]; cbn; [intros _ []|]. intros [H1 H2] [<-|H]; auto. Qed.
  Lemma all_fields_In (fs : list (text * matcher)) fm : fold_right (fun (fm : text * matcher) P => engines_ok t (snd fm) /\ P) True fs -> In fm fs -> engines_ok t (snd fm).
  Proof. induction fs as [|m0 ms IH]; cbn; [intros _ []|]. intros [H1 H2] [<-|H]; auto. Qed.

  Theorem results_are_pieces m : forall v s s' r, engines_ok t m -> good v -> eval e m v s = (s', Ok (Some r)) -> fine_result r.
  Proof.
    induction m using matcher_ind'; intros v0 s0 s' r0 HF Hv HH; cbn [engines_ok] in HF; cbn [eval] in HH.
    - apply anything_inv in HH as [_ ->]. now apply fine_anything.
    - apply lift_Ok in HH as [_ HH]. discriminate HH.
    - rewrite Forall_forall in H.
      eapply fine_accumulating; [exact Hv| |eassumption]. intros a r1 Ha (s1 & s2 & Hs).
      apply in_map_iff in Ha as (m & <- & Hm). eapply H; eauto. eapply all_In; eassumption.
    - rewrite Forall_forall in H.
      apply first_of_inv in HH as (a & Ha & (s1 & s2 & Hs)). apply in_flat_map in Ha as (m & Hm & Ha).
      destruct (tried _ _ _); [|destruct Ha]. destruct Ha as [<-|[]]. eapply H; eauto. eapply all_In; eassumption.
    - apply unless_inv in HH as [-> _]. now apply fine_anything.
    - destruct (_ || _); (eapply fine_accumulating; [exact Hv| |eassumption]).
      + intros a r1 [].
      + intros a r1 [<-|[]] (s1 & s2 & Hs). apply mbind_Ok in Hs as (s3 & o & H1 & Hs). cbv beta in Hs. injection Hs as _ ->. eauto.
    - apply mbind_Ok in HH as (s1 & [r1|] & H1 & HH); [|none HH].
      apply mbind_Ok in HH as (s2 & rb & H2 & HH). apply lift_Ok in H2 as [-> H2].
      apply bind_Ok in H2 as (ob & H2 & H2'). apply not_none_Ok in H2' as ->.
      apply mbind_Ok in HH as (s3 & rm & H3 & HH). apply lift_Ok in H3 as [-> H3].
      apply mbind_Ok in HH as (s4 & rt & H4 & HH). apply lift_Ok in H4 as [-> H4].
      apply mbind_Ok in HH as (s5 & mb & H5 & HH). apply lift_Ok in H5 as [-> H5].
      destruct mb as [b|]; [|none HH]. apply ret_Ok in HH as [-> [= <-]].
      assert (Hr : fine_result r1) by eauto. split; cbn [r_match r_bindings]; intros ? [= <-].
      + now apply (proj1 Hr).
      + eapply fine_merge; [apply (proj2 Hr), H2| |eassumption]. intros k x [[= <- <-]|[]]. cbn. now apply (proj1 Hr).
    - apply mbind_Ok in HH as (s1 & [r1|] & H1 & HH); [|none HH].
      apply mbind_Ok in HH as (s2 & rb & H2 & HH). apply lift_Ok in H2 as [-> H2].
      apply bind_Ok in H2 as (ob & H2 & H2'). apply not_none_Ok in H2' as ->.
      apply mbind_Ok in HH as (s3 & rm & H3 & HH). apply lift_Ok in H3 as [-> H3].
      apply mbind_Ok in HH as (s4 & rt & H4 & HH). apply lift_Ok in H4 as [-> H4].
      apply ret_Ok in HH as [-> [= <-]].
      assert (Hr : fine_result r1) by eauto. split; cbn [r_match r_bindings]; intros ? [= <-].
      + now apply (proj1 Hr).
      + intros k x Hin. apply in_map_iff in Hin as ([k' x'] & [= <- <-] & Hin). cbn. now apply (proj2 Hr _ H2 k').
    - apply ret_Ok in HH as [_ [= <-]]. split; cbn; intros ? [= <-]; [|intros k x []]. split; [split; [intros sp [=]|discriminate]|intros w [=]].
    - apply mbind_Ok in HH as (s1 & [r1|] & H1 & HH); [|none HH].
      apply mbind_Ok in HH as (s2 & rt & H2 & HH). apply lift_Ok in H2 as [-> H2].
      apply mbind_Ok in HH as (s3 & rb & H3 & HH). apply lift_Ok in H3 as [-> H3].
      apply mbind_Ok in HH as (s4 & rm & H4 & HH). apply lift_Ok in H4 as [-> H4].
      apply mbind_Ok in HH as (s5 & t' & H5 & HH). apply lift_Ok in H5 as [-> H5].
      apply ret_Ok in HH as [-> [= <-]].
      assert (Hr : fine_result r1) by eauto. split; cbn [r_match r_bindings].
      + intros ? [= <-]. now apply (proj1 Hr).
      + intros b [= ->]. now apply (proj2 Hr).
    - eauto.
    - destruct (py_eq _ _); [|none HH]. apply anything_inv in HH as [_ ->]. now apply fine_anything.
    - destruct (text_eqb _ _); [|none HH]. apply anything_inv in HH as [_ ->]. now apply fine_anything.
    - destruct HF as [[HF1 _] HF2]. apply mbind_Ok in HH as (s1 & [r1|] & H1 & HH); [|none HH].
      apply mbind_Ok in HH as (s2 & rm & H2 & HH). apply lift_Ok in H2 as [-> H2].
      destruct (m_span rm) as [[a b]|]; [|none HH]. destruct (cr_match r _ a b) as [regs|] eqn:Er; [|none HH].
      apply mbind_Ok in HH as (s3 & rb & H3 & HH). apply lift_Ok in H3 as [-> H3].
      apply bind_Ok in H3 as (ob & H3 & H3'). apply not_none_Ok in H3' as ->.
      apply mbind_Ok in HH as (s4 & rt & H4 & HH). apply lift_Ok in H4 as [-> H4].
      apply mbind_Ok in HH as (s5 & mb & H5 & HH). apply lift_Ok in H5 as [-> H5].
      destruct mb as [d|]; [|none HH]. apply ret_Ok in HH as [-> [= <-]].
      assert (Hr : fine_result r1) by eauto. split; cbn [r_match r_bindings]; intros ? [= <-].
      + now apply (proj1 Hr).
      + eapply fine_merge; [|apply (proj2 Hr), H3|eassumption]. apply fine_regs. eauto.
    - destruct HF as [_ HF]. destruct (cr_search _ _) as [regs|] eqn:Er; [|none HH]. apply ret_Ok in HH as [_ [= <-]]. split; cbn [r_match r_bindings]; intros ? [= <-].
      + split; [split; [intros sp [=]|discriminate]|intros w [=]].
      + apply fine_regs. eauto.
    - eapply fine_has_item; [exact Hv| |eassumption]. intros x r1 Hx (s1 & s2 & Hs). eauto.
    - rewrite Forall_forall in H. eapply fine_items_are; [exact Hv| |eassumption]. intros sub x r1 Hsub Hx (s1 & s2 & Hs).
      apply in_map_iff in Hsub as (m & <- & Hm). eapply H; eauto. eapply all_In; eassumption.
    - destruct (seq_items e v0) as [l|] eqn:El; [|none HH].
      apply mbind_Ok in HH as (s1 & o & H1 & HH). eapply fine_rewrap; [exact Hv|eassumption|]. intros r1 ->.
      apply first_of_inv in H1 as (a & Ha & (s2 & s3 & Hs)). apply in_map_iff in Ha as (x & <- & Hx). exact (IHm _ _ _ _ HF (good_items _ _ _ Hv El Hx) Hs).
    - destruct v0 as [i fs|i l'|i c]; try none HH. destruct (n_line i) as [n|]; [|none HH].
      destruct (zmem n l); [|none HH]. apply anything_inv in HH as [_ ->]. now apply fine_anything.
    - apply lift_Ok in HH as [_ HH]. discriminate HH.
    - rewrite Forall_forall in H. unfold glob in HH. destruct (seq_items e v0) as [l|].
      + eapply fine_glob_loop; [exact Hv| | |eassumption]; [|intros k x []].
        intros blk sub x r1 Hb Hs Hx (s1 & s2 & Hr).
        eapply blockify_In in Hb as [(c & [= <-] & [])|Hb]; [|exact Hs].
        apply in_map_iff in Hb as (m & [= _ <-] & Hm). eapply H; eauto. eapply all_In; eassumption.
      + apply ret_Ok in HH as [_ [= <-]]. split; discriminate.
    - rewrite Forall_forall in H.
      destruct (text_eqb _ _); [|none HH]. eapply fine_accumulating; [exact Hv| |eassumption].
      intros a r1 Ha (s1 & s2 & Hs). apply in_map_iff in Ha as (m & <- & Hm). refine (H _ Hm _ _ _ _ _ _ Hs); [eapply all_fields_In; eassumption|now apply good_field].
    - destruct (negb _); [none HH|]. destruct (negb _); [none HH|].
      apply mbind_Ok in HH as (s1 & o & H1 & HH). eapply fine_rewrap; [exact Hv|eassumption|]. intros r1 ->. exact (IHm _ _ _ _ HF (good_field _ _ Hv) H1).
    - destruct (parent e v0) as [p|] eqn:Ep; [|none HH]. apply parent_in in Ep.
      apply mbind_Ok in HH as (s1 & o & H1 & HH). eapply fine_rewrap; [exact Hv|eassumption|]. intros r1 ->. exact (IHm _ _ _ _ HF (good_inside _ _ good_tree Ep) H1).
    - eapply fine_climb; [|exact Hv|eassumption]. intros x r1 Hx (s1 & s2 & Hs).
      destruct (admits _ _); [eauto | none Hs].
    - apply mbind_Ok in HH as (s1 & o & H1 & HH). eapply fine_rewrap; [exact Hv|eassumption|]. intros r1 ->.
      apply first_of_inv in H1 as (a & Ha & (s2 & s3 & Hs)). apply in_map_iff in Ha as (x & <- & Hx). exact (IHm _ _ _ _ HF (good_child _ _ Hv Hx) Hs).
    - eapply fine_descend; [|exact Hv|eassumption]. intros x r1 Hx (s1 & s2 & Hs).
      destruct (admits _ _); [eauto | none Hs].
    - destruct HF as [HF1 HF2]. apply mbind_Ok in HH as (s1 & [r1|] & H1 & HH); [|none HH].
      apply mbind_Ok in HH as (s2 & rm & H2 & HH). apply lift_Ok in H2 as [-> H2].
      apply mbind_Ok in HH as (s3 & anc & H3 & HH). apply lift_Ok in H3 as [-> H3].
      apply mbind_Ok in HH as (s4 & [r2|] & H4 & HH); [|none HH].
      apply mbind_Ok in HH as (s5 & b1 & H5 & HH). apply lift_Ok in H5 as [-> H5].
      apply bind_Ok in H5 as (ob & H5 & H5'). apply not_none_Ok in H5' as ->.
      apply mbind_Ok in HH as (s6 & b2 & H6 & HH). apply lift_Ok in H6 as [-> H6].
      apply bind_Ok in H6 as (ob & H6 & H6'). apply not_none_Ok in H6' as ->.
      apply mbind_Ok in HH as (s7 & mb & H7 & HH). apply lift_Ok in H7 as [-> H7].
      apply ret_Ok in HH as [-> [= <-]]. apply fine_info; [exact Hv|]. intros d ->.
      apply climb_first_from in H1 as (w & Hw & (s8 & s9 & Hs)).
      assert (Hr : fine_result r1) by exact (IHm1 _ _ _ _ HF1 (good_inside _ _ good_tree Hw) Hs).
      apply not_none_Ok in H3. assert (Ga : good anc) by exact (proj2 (proj1 Hr _ H2) _ H3).
      assert (Hr2 : fine_result r2) by eauto.
      eapply fine_merge; [| |exact H7]; [now apply (proj2 Hr)|now apply (proj2 Hr2)].
    - destruct (get_prev_sibling _ _) as [x|] eqn:Ex; [|none HH]. apply prev_in in Ex. destruct (py_truthy x); [|none HH]. exact (IHm _ _ _ _ HF (good_inside _ _ good_tree Ex) HH).
    - destruct (get_next_sibling _ _) as [x|] eqn:Ex; [|none HH]. apply next_in in Ex. destruct (py_truthy x); [|none HH]. exact (IHm _ _ _ _ HF (good_inside _ _ good_tree Ex) HH).
    - destruct (dget _ _) as [n|]; [|none HH]. destruct (text_eqb _ _); [|none HH]. eauto.
    - apply mbind_Ok in HH as (s1 & [r1|] & H1 & HH); [|none HH].
      apply mbind_Ok in HH as (s2 & c & H2 & HH). apply lift_Ok in H2 as [-> H2].
      destruct c; [|none HH]. apply ret_Ok in HH as [-> [= <-]]. eauto.
    - apply mbind_Ok in HH as (s1 & [r1|] & H1 & HH); [|none HH].
      apply mbind_Ok in HH as (s2 & c & H2 & HH). apply lift_Ok in H2 as [-> H2].
      destruct c; [none HH|]. apply ret_Ok in HH as [-> [= <-]]. eauto.
    - destruct HF.
  Qed.
End Pieces.

(** *** Matchers without groups *)
Fixpoint groupless (m : matcher) : bool :=
  match m with
  | MMatchesRegex r m' => match cr_groups r with [] => true | _ => false end && groupless m'
  | MFileMatchesRegex r => match cr_groups r with [] => true | _ => false end
  | MRewriteFile _ _ => false
  | MAllOf ms | MAnyOf ms | MItemsAre ms | MGlob ms => forallb groupless ms
  | MUnless m' | MOnce _ m' | MBind _ m' _ _ | MRebind m' _ _ | MWithReplacements m' _ | MDebug m'
  | MHasItem _ m' | MContains m' | MConst _ m' | MHasParent m' | MIsOrHasAncestor m' | MHasChild m'
  | MIsOrHasDescendant m' | MHasPrevSibling m' | MHasNextSibling m' | MWithTopLevelImport m' _ _
  | MHasComments m' | MNoComments m' => groupless m'
  | MNode _ fs => forallb (fun fm => groupless (snd fm)) fs
  | MHasFirstAncestor a b => groupless a && groupless b
  | _ => true
  end.
Lemma no_groups_ok t r : match cr_groups r with [] => true | _ => false end = true -> engine_ok t r.
Proof. intros H. destruct (cr_groups r) eqn:E; [|discriminate H]. split; intros; intros l n Hin; rewrite E in Hin; destruct Hin. Qed.
Lemma groupless_ok t m : groupless m = true -> engines_ok t m.
Proof.
  induction m using matcher_ind'; cbn [groupless engines_ok]; intros HG; try exact I; try (now auto); try discriminate HG.
  all: try (apply andb_prop in HG as [G1 G2]; split; auto using no_groups_ok; fail).
  all: try (apply no_groups_ok; exact HG).
  all: match goal with H : Forall _ ?l |- _ => revert HG; induction H as [|x l Hx F IH]; cbn [forallb fold_right]; intros HG; [exact I|]; apply andb_prop in HG as [G1 G2]; split; auto end.
Qed.
