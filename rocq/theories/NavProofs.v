(** The navigator agrees with the tree. *)
From Verif Require Import Py PyFacts Ast Template FromDiff Matcher MatchSpec MergeSpec MergeProofs
  MatcherProofs BindProofs FindSpec FindProofs NavSpec.

Definition crumb_entry (c : value * (value * crumb)) : Z * breadcrumb := (vid (fst c), Some (snd c)).

Lemma item_crumbs_In p l : forall k x par c,
  In (x, (par, c)) (item_crumbs p k l) <->
  exists i, nth_error l i = Some x /\ par = p /\ c = ITEM (k + Z.of_nat i).
Proof.
  induction l as [|y l IH]; intros k x par c; cbn [item_crumbs In].
  - split; [intros [] | intros ([|i] & H & _); discriminate H].
  - rewrite IH. split.
    + intros [[= <- <- <-]|(i & H & -> & ->)].
      * exists O. split; [reflexivity|]. split; [reflexivity|]. f_equal. lia.
      * exists (S i). split; [assumption|]. split; [reflexivity|]. f_equal. lia.
    + intros ([|i] & H & -> & ->).
      * left. cbn in H. injection H as ->. do 3 f_equal. lia.
      * right. exists i. split; [assumption|]. split; [reflexivity|]. f_equal. lia.
Qed.

(** What is recorded for a child. *)
Definition crumb_at (par : value) (i : nat) : option crumb :=
  match par with
  | VNode _ fs => option_map (fun kv => ATTR (fst kv)) (nth_error fs i)
  | VList _ _ => Some (ITEM (Z.of_nat i))
  | VConst _ _ => None
  end.
Lemma crumbs_of_In v x par c :
  In (x, (par, c)) (crumbs_of v) <->
  par = v /\ exists i, nth_error (vchildren v) i = Some x /\ crumb_at v i = Some c
                       /\ (is_none x = false \/ is_list v = true).
Proof.
  destruct v as [n fs|n l|n k]; cbn [crumbs_of vchildren crumb_at is_list].
  - rewrite in_map_iff. split.
    + intros ([f y] & E & H). cbn [fst snd] in E. injection E as E1 E2 E3. subst. apply filter_In in H as [H1 H2].
      split; [reflexivity|]. apply In_nth_error in H1 as [i Hi]. exists i. rewrite nth_error_map, Hi. cbn.
      split; [reflexivity|]. split; [reflexivity|]. left. cbn in H2. now destruct (is_none x).
    + intros (-> & i & H1 & H2 & [H3|H3]); [|discriminate H3]. rewrite nth_error_map in H1.
      destruct (nth_error fs i) as [[f y]|] eqn:E; [|discriminate H1]. cbn in H1, H2.
      injection H1 as ->. injection H2 as <-. exists (f, x). split; [reflexivity|].
      apply filter_In. split; [eapply nth_error_In; eassumption|]. cbn. now rewrite H3.
  - rewrite item_crumbs_In. split.
    + intros (i & H & -> & ->). split; [reflexivity|]. exists i. split; [assumption|]. split; [|now right].
      reflexivity.
    + intros (-> & i & H1 & [= <-] & _). exists i. split; [assumption|]. split; reflexivity.
  - split; [intros []|]. intros (_ & i & H & _). destruct i; discriminate H.
Qed.

Lemma crumbs_sizes v : (sizes (map fst (crumbs_of v)) <= sizes (vchildren v))%nat.
Proof.
  destruct v as [n fs|n l|n k]; cbn [crumbs_of vchildren]; [| |cbn; lia].
  - rewrite map_map. cbn [fst]. induction fs as [|[f y] fs IH]; [cbn; lia|].
    unfold sizes in *. cbn [filter snd]. destruct (is_none y); cbn [negb map snd fold_right]; lia.
  - assert (H : forall p k, map fst (item_crumbs p k l) = l)
      by (clear; induction l as [|y l IHl]; intros p k; cbn; [reflexivity | now rewrite IHl]).
    rewrite H. lia.
Qed.

Lemma crumb_loop_In : forall fuel nodes acc kb,
  (sizes nodes <= fuel)%nat ->
  (In kb (crumb_loop fuel nodes acc) <->
   In kb acc \/ exists n q v c, In n nodes /\ at_path n q = Some v /\ In c (crumbs_of v) /\ kb = crumb_entry c).
Proof.
  induction fuel as [|fuel IH]; intros nodes acc kb Hf; cbn [crumb_loop].
  - destruct nodes as [|v nodes]; [|exfalso; cbn in Hf; pose proof (vsize_pos v); lia].
    split; [tauto|]. intros [?|(n & _ & _ & _ & [] & _)]. assumption.
  - destruct nodes as [|v rest].
    + split; [tauto|]. intros [?|(n & _ & _ & _ & [] & _)]. assumption.
    + cbn [sizes fold_right] in Hf. fold (sizes rest) in Hf. rewrite IH.
      * rewrite in_app_iff. split.
        -- intros [[H|H]|(n & q & w & c & Hn & Hq & Hc & ->)].
           ++ apply in_rev in H. apply in_map_iff in H as (c & <- & Hc). right.
              exists v, [], v, c. split; [now left|]. now repeat split.
           ++ now left.
           ++ right. apply in_app_iff in Hn as [Hn|Hn].
              ** apply in_rev in Hn. apply in_map_iff in Hn as ([y [par k]] & E & Hy). cbn in E. subst y.
                 apply crumbs_of_In in Hy as (-> & i & Hi & _). exists v, (i :: q), w, c.
                 split; [now left|]. cbn. rewrite Hi. now repeat split.
              ** exists n, q, w, c. split; [now right|]. now repeat split.
        -- intros [H|(n & q & w & c & Hn & Hq & Hc & ->)]; [now left; right|].
           destruct Hn as [<-|Hn]; [|right; exists n, q, w, c; rewrite in_app_iff; now repeat split; auto].
           destruct q as [|i q].
           ++ cbn in Hq. injection Hq as ->. left; left. apply in_rev. rewrite rev_involutive.
              apply in_map_iff. exists c. now split.
           ++ cbn in Hq. destruct (nth_error (vchildren v) i) as [x|] eqn:Ei; [|discriminate Hq].
              right. exists x, q, w, c. split; [|now repeat split]. apply in_app_iff. left.
              apply in_rev. rewrite rev_involutive. apply in_map_iff.
              assert (Hx : is_none x = false).
              { destruct x as [? ?|? ?|? []]; try reflexivity. destruct q as [|j q]; cbn in Hq.
                - injection Hq as <-. destruct Hc.
                - destruct j; discriminate Hq. }
              assert (Hk : exists k, crumb_at v i = Some k).
              { destruct v as [? fs|? l|? ?]; cbn [crumb_at]; [|eauto|destruct i; discriminate Ei].
                cbn [vchildren] in Ei. rewrite nth_error_map in Ei.
                destruct (nth_error fs i); [cbn; eauto | discriminate Ei]. }
              destruct Hk as [k Hk]. exists (x, (v, k)). split; [reflexivity|].
              apply crumbs_of_In. split; [reflexivity|]. exists i. repeat split; auto.
      * rewrite sizes_app. rewrite vsize_children in Hf.
        assert (H : (sizes (rev (map fst (crumbs_of v))) <= sizes (vchildren v))%nat); [|cbn [sizes fold_right] in Hf; fold (sizes rest) in Hf; lia].
        assert (Hrev : forall l, sizes (rev l) = sizes l).
        { induction l as [|y l IHl]; [reflexivity|]. cbn [rev]. rewrite sizes_app, IHl. cbn [sizes fold_right]. fold (sizes l). lia. }
        rewrite Hrev. apply crumbs_sizes.
Qed.

Lemma crumb_get_unique m k b : In (k, b) m -> (forall b', In (k, b') m -> b' = b) -> crumb_get m k = b.
Proof.
  induction m as [|[k' b'] m IH]; intros Hin Hu; [destruct Hin|]. cbn.
  destruct (Z.eqb_spec k' k) as [->|N]; [apply Hu; now left|].
  apply IH; [destruct Hin as [[= -> ->]|Hin]; [congruence | assumption]|]. intros; apply Hu; now right.
Qed.
Lemma crumb_get_absent m k : (forall b, ~ In (k, b) m) -> crumb_get m k = None.
Proof.
  induction m as [|[k' b'] m IH]; intros H; [reflexivity|]. cbn.
  destruct (Z.eqb_spec k' k) as [->|N]; [exfalso; apply (H b'); now left|].
  apply IH. intros b Hb. apply (H b). now right.
Qed.

Lemma breadcrumb_In tree kb :
  In kb (parent_breadcrumb tree) <->
  kb = (vid tree, None) \/
  exists p par i x c, at_path tree p = Some par /\ nth_error (vchildren par) i = Some x
     /\ crumb_at par i = Some c /\ (is_none x = false \/ is_list par = true) /\ kb = (vid x, Some (par, c)).
Proof.
  unfold parent_breadcrumb. rewrite crumb_loop_In by (cbn; lia). cbn [In]. split.
  - intros [[<-|[]]|(n & q & v & [x [par c]] & [<-|[]] & Hq & Hc & ->)]; [now left|].
    right. apply crumbs_of_In in Hc as (-> & i & H1 & H2 & H3). exists q, v, i, x, c. now repeat split.
  - intros [->|(p & par & i & x & c & H1 & H2 & H3 & H4 & ->)]; [now left; left|].
    right. exists tree, p, par, (x, (par, c)). split; [now left|]. split; [assumption|]. split; [|reflexivity].
    apply crumbs_of_In. split; [reflexivity|]. exists i. now repeat split.
Qed.

Theorem nav_breadcrumb tree p i par x c :
  at_path tree p = Some par -> nth_error (vchildren par) i = Some x -> crumb_at par i = Some c ->
  is_none x = false \/ is_list par = true -> only_at tree (p ++ [i]) x ->
  get_breadcrumb tree x = Some (par, c).
Proof.
  intros Hp Hx Hc Hn [_ Hu]. unfold get_breadcrumb. apply crumb_get_unique.
  - apply breadcrumb_In. right. exists p, par, i, x, c. now repeat split.
  - intros b Hb. apply breadcrumb_In in Hb as [E|(p' & par' & i' & x' & c' & H1 & H2 & H3 & H4 & E)].
    + injection E as E ->. exfalso. assert (E' : [] = p ++ [i]) by (apply (Hu [] tree); [reflexivity | now symmetry]).
      symmetry in E'. apply app_eq_nil in E' as [_ E']. discriminate E'.
    + injection E as E ->.
      assert (EQ : p' ++ [i'] = p ++ [i]).
      { apply (Hu _ x'); [|now symmetry]. rewrite at_path_app, H1. cbn. now rewrite H2. }
      apply app_inj_tail in EQ as [-> ->]. rewrite Hp in H1. injection H1 as <-. congruence.
Qed.

Lemma crumb_at_some par i x : nth_error (vchildren par) i = Some x -> exists c, crumb_at par i = Some c.
Proof.
  destruct par as [n fs|n l|n c]; cbn [crumb_at vchildren]; intros H; [|eauto|destruct i; discriminate H].
  rewrite nth_error_map in H. destruct (nth_error fs i); [cbn; eauto | discriminate H].
Qed.

Theorem nav_parent tree p i par x :
  at_path tree p = Some par -> nth_error (vchildren par) i = Some x ->
  is_none x = false \/ is_list par = true -> only_at tree (p ++ [i]) x ->
  get_parent tree x = Some par.
Proof.
  intros Hp Hx Hn Hu. destruct (crumb_at_some _ _ _ Hx) as [c Hc]. unfold get_parent.
  now rewrite (nav_breadcrumb _ _ _ _ _ _ Hp Hx Hc Hn Hu).
Qed.
Theorem nav_siblings_list tree p i id l x :
  at_path tree p = Some (VList id l) -> nth_error l i = Some x -> only_at tree (p ++ [i]) x ->
  get_prev_sibling tree x = (match i with O => None | S j => nth_error l j end)
  /\ get_next_sibling tree x = nth_error l (S i).
Proof.
  intros Hp Hx Hu. unfold get_prev_sibling, get_next_sibling.
  rewrite (nav_breadcrumb _ _ _ _ _ (ITEM (Z.of_nat i)) Hp Hx eq_refl (or_intror eq_refl) Hu). split.
  - destruct i as [|j]; [reflexivity|].
    replace (Z.of_nat (S j) =? 0) with false by (symmetry; apply Z.eqb_neq; lia).
    cbn [list_item]. replace (Z.of_nat (S j) - 1 <? 0) with false by (symmetry; apply Z.ltb_ge; lia).
    f_equal. lia.
  - cbn [list_len list_item]. destruct (Z.eqb_spec (Z.of_nat i + 1) (tlen l)) as [E|E].
    + symmetry. apply nth_error_None. unfold tlen in E. lia.
    + replace (Z.of_nat i + 1 <? 0) with false by (symmetry; apply Z.ltb_ge; lia). f_equal. lia.
Qed.
Theorem nav_siblings_field tree p i n fs x :
  at_path tree p = Some (VNode n fs) -> nth_error (map snd fs) i = Some x -> is_none x = false ->
  only_at tree (p ++ [i]) x ->
  get_prev_sibling tree x = None /\ get_next_sibling tree x = None.
Proof.
  intros Hp Hx Hn Hu. destruct (crumb_at_some (VNode n fs) _ _ Hx) as [c Hc].
  unfold get_prev_sibling, get_next_sibling.
  rewrite (nav_breadcrumb _ _ _ (VNode n fs) _ c Hp Hx Hc (or_introl Hn) Hu).
  cbn in Hc. destruct (nth_error fs i); [|discriminate Hc]. injection Hc as <-. now split.
Qed.
Theorem nav_root tree : only_at tree [] tree ->
  get_parent tree tree = None /\ get_prev_sibling tree tree = None /\ get_next_sibling tree tree = None.
Proof.
  intros [_ Hu]. unfold get_parent, get_prev_sibling, get_next_sibling.
  replace (get_breadcrumb tree tree) with (@None (value * crumb)); [now repeat split|].
  symmetry. unfold get_breadcrumb. apply crumb_get_unique; [apply breadcrumb_In; now left|].
  intros b Hb. apply breadcrumb_In in Hb as [E|(p' & par' & i' & x' & c' & H1 & H2 & H3 & H4 & E)].
  - now injection E as ->.
  - injection E as E ->. exfalso.
    assert (EQ : p' ++ [i'] = []).
    { apply (Hu _ x'); [|now symmetry]. rewrite at_path_app, H1. cbn. now rewrite H2. }
    apply app_eq_nil in EQ as [_ EQ]. discriminate EQ.
Qed.
Theorem nav_absent tree x : (forall q y, at_path tree q = Some y -> vid y <> vid x) ->
  get_parent tree x = None /\ get_prev_sibling tree x = None /\ get_next_sibling tree x = None.
Proof.
  intros Hu. unfold get_parent, get_prev_sibling, get_next_sibling.
  replace (get_breadcrumb tree x) with (@None (value * crumb)); [now repeat split|].
  symmetry. unfold get_breadcrumb. apply crumb_get_absent.
  intros b Hb. apply breadcrumb_In in Hb as [E|(p' & par' & i' & x' & c' & H1 & H2 & H3 & H4 & E)].
  - injection E as E ->. apply (Hu [] tree); [reflexivity | now symmetry].
  - injection E as E ->. apply (Hu (p' ++ [i']) x'); [|now symmetry].
    rewrite at_path_app, H1. cbn. now rewrite H2.
Qed.

(** *** Climbing *)
Lemma above_snoc tree p i par : at_path tree p = Some par -> above tree (p ++ [i]) = above tree p ++ [par].
Proof.
  revert tree. induction p as [|j p IH]; intros tree H; cbn in *.
  - injection H as ->. now destruct (nth_error (vchildren par) i).
  - destruct (nth_error (vchildren tree) j) as [x|]; [|discriminate H]. now rewrite (IH x).
Qed.
Lemma ancestors_snoc tree p i par : at_path tree p = Some par -> ancestors tree (p ++ [i]) = par :: ancestors tree p.
Proof. intros H. unfold ancestors. rewrite (above_snoc _ _ _ _ H), rev_app_distr. reflexivity. Qed.

Lemma inner_kind v i x : nth_error (vchildren v) i = Some x -> is_node v || is_list v = true.
Proof. destruct v; [reflexivity..|]. destruct i; discriminate. Qed.

(** A climbable place: in the tree, not the value None of a field. *)
Definition climbable (tree : value) (p : path) (x : value) : Prop :=
  only_at tree p x /\ forall q i par, p = q ++ [i] -> at_path tree q = Some par ->
                                       is_none x = false \/ is_list par = true.
Lemma climbable_parent tree q i par x :
  unshared tree -> climbable tree (q ++ [i]) x -> at_path tree q = Some par ->
  climbable tree q par /\ get_parent tree x = Some par.
Proof.
  intros U [H1 H2] Hp.
  assert (Hx : nth_error (vchildren par) i = Some x).
  { destruct H1 as [H1 _]. rewrite at_path_app, Hp in H1. cbn in H1.
    destruct (nth_error (vchildren par) i); congruence. }
  pose proof (inner_kind _ _ _ Hx) as Hk. split.
  - split; [now apply U|]. intros ? ? ? ? ?. left. destruct par as [? ?|? ?|? ?]; try reflexivity. discriminate Hk.
  - eapply nav_parent; try eassumption. eapply H2; [reflexivity | eassumption].
Qed.
Lemma climbable_root tree x : climbable tree [] x -> get_parent tree x = None.
Proof. intros [H _]. assert (x = tree) as -> by (destruct H as [H _]; cbn in H; congruence). now apply nav_root. Qed.

Lemma vsize_path tree : forall p x, at_path tree p = Some x -> (length p < vsize tree)%nat.
Proof.
  intros p. revert tree. induction p as [|i p IH]; intros tree x H; [apply vsize_pos|].
  cbn in H. destruct (nth_error (vchildren tree) i) as [y|] eqn:E; [|discriminate H].
  apply IH in H. rewrite vsize_children.
  assert (Hy : (vsize y <= sizes (vchildren tree))%nat).
  { clear - E. revert i E. generalize (vchildren tree) as l.
    induction l as [|z l IHl]; intros [|i] E; cbn in E; try discriminate E.
    - injection E as ->. cbn [sizes fold_right]. lia.
    - apply IHl in E. cbn [sizes fold_right]. fold (sizes l). lia. }
  cbn [length]. lia.
Qed.

Lemma climbable_cases tree p x : unshared tree -> climbable tree p x ->
  (p = [] /\ get_parent tree x = None /\ ancestors tree p = [])
  \/ exists q i par, p = q ++ [i] /\ climbable tree q par /\ get_parent tree x = Some par
                     /\ ancestors tree p = par :: ancestors tree q.
Proof.
  intros U C. destruct p as [|i0 p0] using rev_ind.
  - left. split; [reflexivity|]. split; [|reflexivity]. now apply climbable_root.
  - clear IHp0. right. destruct (at_path tree p0) as [par|] eqn:Hp.
    + exists p0, i0, par. destruct (climbable_parent _ _ _ _ _ U C Hp) as [H1 H2].
      split; [reflexivity|]. split; [assumption|]. split; [assumption|]. now apply ancestors_snoc.
    + exfalso. destruct C as [[C _] _]. rewrite at_path_app, Hp in C. discriminate C.
Qed.

Lemma attempted_eq e m x :
  (if admits (type_filter m) (vtype x) then eval e m x else ret None) = attempted e m x.
Proof. unfold attempted, admits. now destruct (type_filter m). Qed.

(** What climbing from [v] gives, seen from another object [w]. *)
Lemma seen_from e try v others s s' o w :
  self_or e try v others s s' o ->
  exists o1, first_hit try (v :: others) s s' o1
    /\ match o with
       | Ok o0 => rewrap e w o0 s' = (s', by_way_of e w o1)
       | Err x => by_way_of e w o1 = Err x
       end.
Proof.
  intros [(r & H & ->)|[(x & H & ->)|(s1 & o1 & H & Hf & ->)]].
  - exists (Ok (Some (v, r))). split; [now apply FH_hit|]. destruct r; reflexivity.
  - exists (Err x). split; [now apply FH_raises|]. reflexivity.
  - exists o1. split; [eapply FH_fails; eassumption|]. destruct o1 as [[[y [rm b t|]]|]|x]; reflexivity.
Qed.

Theorem climb_hits e m : unshared (e_tree e) -> forall n p x s s' o,
  climbable (e_tree e) p x -> (length p < n)%nat ->
  climb n e (fun x => if admits (type_filter m) (vtype x) then eval e m x else ret None) x s = (s', o) ->
  self_or e (attempted e m) x (ancestors (e_tree e) p) s s' o.
Proof.
  intros U. induction n as [|n IH]; intros p x s s' o C Hn H; [lia|].
  cbn [climb] in H. unfold mbind at 1 in H. rewrite attempted_eq in H.
  destruct (attempted e m x s) as [s1 [[r|]|exn]] eqn:E.
  - cbn in H. injection H as <- <-. left. now exists r.
  - right; right. unfold parent in H.
    destruct (climbable_cases _ _ _ U C) as [(-> & Hp & Ha)|(q & i & par & -> & Cq & Hp & Ha)]; rewrite Hp in H; rewrite Ha.
    + cbn in H. injection H as <- <-. exists s1, (Ok None). split; [assumption|]. split; [constructor | reflexivity].
    + unfold mbind at 1 in H.
      destruct (climb n e (fun x => if admits (type_filter m) (vtype x) then eval e m x else ret None) par s1) as [s2 o2] eqn:Ec.
      pose proof (IH q par s1 s2 o2 Cq ltac:(rewrite app_length in Hn; cbn in Hn; lia) Ec) as Hs.
      destruct (seen_from _ _ _ _ _ _ _ x Hs) as (o1 & Hf & Ho). destruct o2 as [o2|exn].
      * rewrite Ho in H. injection H as <- <-. exists s1, o1. now repeat split.
      * injection H as <- <-. exists s1, o1. rewrite Ho. now repeat split.
  - injection H as <- <-. right; left. now exists exn.
Qed.

Theorem is_or_has_ancestor_hits e m p x s s' o :
  unshared (e_tree e) -> climbable (e_tree e) p x ->
  eval e (MIsOrHasAncestor m) x s = (s', o) ->
  self_or e (attempted e m) x (ancestors (e_tree e) p) s s' o.
Proof.
  intros U C H. cbn [eval] in H. eapply climb_hits; try eassumption.
  unfold climb_fuel. destruct C as [[C _] _]. apply vsize_path in C. lia.
Qed.
Theorem has_ancestor_hits e m p x s s' o :
  unshared (e_tree e) -> climbable (e_tree e) p x ->
  eval e (MHasAncestor m) x s = (s', o) ->
  exists o1, first_hit (attempted e m) (ancestors (e_tree e) p) s s' o1 /\ o = by_way_of e x o1.
Proof.
  intros U C H. unfold MHasAncestor in H. remember (MIsOrHasAncestor m) as im. cbn [eval] in H. unfold parent in H.
  destruct (climbable_cases _ _ _ U C) as [(-> & Hp & Ha)|(q & i & par & -> & Cq & Hp & Ha)]; rewrite Hp in H; rewrite Ha.
  - cbn in H. injection H as <- <-. exists (Ok None). split; [constructor | reflexivity].
  - unfold mbind in H. destruct (eval e im par s) as [s1 o1] eqn:E. subst im.
    pose proof (is_or_has_ancestor_hits _ _ _ _ _ _ _ U Cq E) as Hs.
    destruct (seen_from _ _ _ _ _ _ _ x Hs) as (o2 & Hf & Ho). exists o2. destruct o1 as [o1|exn].
    + rewrite Ho in H. injection H as <- <-. now split.
    + injection H as <- <-. now split.
Qed.
Theorem has_parent_hits e m p x s s' o :
  unshared (e_tree e) -> climbable (e_tree e) p x ->
  eval e (MHasParent m) x s = (s', o) ->
  exists o1, first_hit (eval e m) (firstn 1 (ancestors (e_tree e) p)) s s' o1 /\ o = by_way_of e x o1.
Proof.
  intros U C H. cbn [eval] in H. unfold parent in H.
  destruct (climbable_cases _ _ _ U C) as [(-> & Hp & Ha)|(q & i & par & -> & Cq & Hp & Ha)]; rewrite Hp in H; rewrite Ha.
  - cbn in H. injection H as <- <-. exists (Ok None). split; [constructor | reflexivity].
  - cbn [firstn]. unfold mbind in H. destruct (eval e m par s) as [s1 [[r|]|exn]] eqn:E.
    + exists (Ok (Some (par, r))).
      destruct r; cbn in H; injection H as <- <-; (split; [now apply FH_hit | reflexivity]).
    + cbn in H. injection H as <- <-. exists (Ok None). split; [|reflexivity]. eapply FH_fails; [eassumption | constructor].
    + injection H as <- <-. exists (Err exn). split; [now apply FH_raises | reflexivity].
Qed.

(** *** Descending *)
Lemma first_hit_app try a : forall b s s1 s' o, first_hit try a s s1 (Ok None) -> first_hit try b s1 s' o ->
  first_hit try (a ++ b) s s' o.
Proof.
  induction a as [|x a IH]; intros b s s1 s' o Ha Hb; inversion Ha; subst; [assumption|].
  cbn [app]. eapply FH_fails; [eassumption|]. eapply IH; eassumption.
Qed.
Lemma first_hit_app_stop try a : forall b s s' o, first_hit try a s s' o -> o <> Ok None ->
  first_hit try (a ++ b) s s' o.
Proof.
  induction a as [|x a IH]; intros b s s' o Ha Hn; inversion Ha; subst; try congruence; cbn [app].
  - eapply FH_fails; [eassumption|]. now apply IH.
  - now apply FH_hit.
  - now apply FH_raises.
Qed.
Lemma first_of_hits e (f : value -> outcome) try w (g : value -> list value) l :
  (forall y s s' o, In y l -> f y s = (s', o) ->
     exists o1, first_hit try (g y) s s' o1 /\
       match o with
       | Ok o0 => (o0 = None -> o1 = Ok None) /\ (o0 <> None -> o1 <> Ok None) /\ rewrap e w o0 s' = (s', by_way_of e w o1)
       | Err x => by_way_of e w o1 = Err x /\ o1 <> Ok None
       end) ->
  forall s s' o, mbind (first_of (map f l)) (rewrap e w) s = (s', o) ->
  exists o1, first_hit try (flat_map g l) s s' o1 /\ o = by_way_of e w o1.
Proof.
  induction l as [|y l IH]; intros Hy s s' o H.
  - cbn in H. injection H as <- <-. exists (Ok None). split; [constructor | reflexivity].
  - cbn [map first_of flat_map] in *. unfold mbind in H. fold (@mbind (option result) (option result)) in H.
    destruct (f y s) as [s1 o1] eqn:E. destruct (Hy y s s1 o1 (or_introl eq_refl) E) as (oy & Hf & Ho).
    destruct o1 as [[r|]|exn].
    + destruct Ho as (_ & Hne & Hr). cbn [ret] in H. unfold ret in H. rewrite Hr in H. injection H as <- <-.
      exists oy. split; [|reflexivity]. apply first_hit_app_stop; [assumption|]. apply Hne. discriminate.
    + destruct Ho as (Hnn & _ & _). rewrite (Hnn eq_refl) in Hf.
      destruct (IH (fun y' s0 s0' o0 Hin => Hy y' s0 s0' o0 (or_intror Hin)) s1 s' o) as (o2 & H2 & ->);
        [exact H|]. exists o2. split; [|reflexivity]. eapply first_hit_app; eassumption.
    + injection H as <- <-. destruct Ho as [Ho Hne]. exists oy. split; [|now symmetry]. now apply first_hit_app_stop.
Qed.

Lemma seen_from' e try v others s s' o w :
  self_or e try v others s s' o ->
  exists o1, first_hit try (v :: others) s s' o1
    /\ match o with
       | Ok o0 => (o0 = None -> o1 = Ok None) /\ (o0 <> None -> o1 <> Ok None) /\ rewrap e w o0 s' = (s', by_way_of e w o1)
       | Err x => by_way_of e w o1 = Err x /\ o1 <> Ok None
       end.
Proof.
  intros [(r & H & ->)|[(x & H & ->)|(s1 & o1 & H & Hf & ->)]].
  - exists (Ok (Some (v, r))). split; [now apply FH_hit|]. split; [discriminate|]. split; [discriminate|]. destruct r; reflexivity.
  - exists (Err x). split; [now apply FH_raises|]. split; [reflexivity | discriminate].
  - exists o1. split; [eapply FH_fails; eassumption|].
    destruct o1 as [[[y [rm b t|]]|]|x]; cbn; repeat split; try discriminate; try congruence.
Qed.

Lemma preorder_eq v : preorder v = v :: descendants v.
Proof.
  destruct v as [n fs|n l|n c]; cbn [preorder]; unfold descendants; cbn [vchildren]; [|reflexivity..].
  f_equal. induction fs as [|kv fs IH]; [reflexivity|]. cbn. now rewrite IH.
Qed.

Theorem descend_hits e m : forall x s s' o,
  descend e (fun x => if admits (type_filter m) (vtype x) then eval e m x else ret None) x s = (s', o) ->
  self_or e (attempted e m) x (descendants x) s s' o.
Proof.
  set (sub := fun x => if admits (type_filter m) (vtype x) then eval e m x else ret None).
  assert (Step : forall x, Forall (fun y => forall s s' o, descend e sub y s = (s', o) ->
                    self_or e (attempted e m) y (descendants y) s s' o) (vchildren x) ->
            forall s s' o, descend e sub x s = (s', o) -> self_or e (attempted e m) x (descendants x) s s' o).
  { intros x Hx s s' o H. rewrite descend_eq in H. unfold mbind at 1 in H. unfold sub at 1 in H.
    rewrite attempted_eq in H. destruct (attempted e m x s) as [s1 [[r|]|exn]] eqn:E.
    - cbn in H. injection H as <- <-. left. now exists r.
    - right; right. exists s1. unfold descendants.
      destruct (first_of_hits e (descend e sub) (attempted e m) x preorder (vchildren x)) with (s := s1) (s' := s') (o := o)
        as (o1 & H1 & H2); [|exact H|].
      + intros y s0 s0' o0 Hy Hd. rewrite Forall_forall in Hx. rewrite preorder_eq. apply seen_from'. now apply Hx.
      + exists o1. now repeat split.
    - injection H as <- <-. right; left. now exists exn. }
  induction x as [n fs IH|n l IH|n c] using value_ind'; apply Step; cbn [vchildren].
  - apply Forall_forall. intros y Hy. apply in_map_iff in Hy as (kv & <- & Hk). rewrite Forall_forall in IH. now apply IH.
  - assumption.
  - constructor.
Qed.
Theorem is_or_has_descendant_hits e m x s s' o :
  eval e (MIsOrHasDescendant m) x s = (s', o) ->
  self_or e (attempted e m) x (descendants x) s s' o.
Proof. intros H. cbn [eval] in H. now apply descend_hits. Qed.
Theorem has_descendant_hits e m x s s' o :
  eval e (MHasDescendant m) x s = (s', o) ->
  exists o1, first_hit (attempted e m) (descendants x) s s' o1 /\ o = by_way_of e x o1.
Proof.
  intros H. unfold MHasDescendant in H. remember (MIsOrHasDescendant m) as im. cbn [eval] in H.
  eapply first_of_hits; [|exact H]. intros y s0 s0' o0 _ Hd. rewrite preorder_eq. apply seen_from'. subst im.
  now apply is_or_has_descendant_hits.
Qed.
Theorem has_child_hits e m x s s' o :
  eval e (MHasChild m) x s = (s', o) ->
  exists o1, first_hit (eval e m) (vchildren x) s s' o1 /\ o = by_way_of e x o1.
Proof.
  intros H. cbn [eval] in H.
  destruct (first_of_hits e (eval e m) (eval e m) x (fun y => [y]) (vchildren x)) with (s := s) (s' := s') (o := o)
    as (o1 & H1 & H2); [|exact H|].
  - intros y s0 s0' o0 _ Hd. destruct o0 as [[r|]|exn].
    + exists (Ok (Some (y, r))). split; [now apply FH_hit|]. split; [discriminate|]. split; [discriminate|]. destruct r; reflexivity.
    + exists (Ok None). split; [eapply FH_fails; [eassumption | constructor]|]. repeat split; congruence.
    + exists (Err exn). split; [now apply FH_raises|]. split; [reflexivity | discriminate].
  - exists o1. split; [|assumption]. clear - H1. replace (vchildren x) with (flat_map (fun y => [y]) (vchildren x)); [assumption|].
    generalize (vchildren x) as l. induction l as [|y l IH]; [reflexivity|]. cbn. now rewrite IH.
Qed.

Lemma climb_first_hits e (sub : value -> outcome) : unshared (e_tree e) -> forall n p x s s' o,
  climbable (e_tree e) p x -> (length p < n)%nat -> climb_first n e sub x s = (s', o) ->
  exists o1, first_hit sub (ancestors (e_tree e) p) s s' o1
    /\ o = match o1 with Ok (Some (_, r)) => Ok (Some r) | Ok None => Ok None | Err exn => Err exn end.
Proof.
  intros U. induction n as [|n IH]; intros p x s s' o C Hn H; [lia|]. cbn [climb_first] in H. unfold parent in H.
  destruct (climbable_cases _ _ _ U C) as [(-> & Hp & Ha)|(q & i & par & -> & Cq & Hp & Ha)]; rewrite Hp in H; rewrite Ha.
  - cbn in H. injection H as <- <-. exists (Ok None). split; [constructor | reflexivity].
  - unfold mbind in H. destruct (sub par s) as [s1 [[r|]|exn]] eqn:E.
    + cbn in H. injection H as <- <-. exists (Ok (Some (par, r))). split; [now apply FH_hit | reflexivity].
    + destruct (IH q par s1 s' o Cq ltac:(rewrite app_length in Hn; cbn in Hn; lia) H) as (o1 & H1 & H2).
      exists o1. split; [eapply FH_fails; eassumption | assumption].
    + injection H as <- <-. exists (Err exn). split; [now apply FH_raises | reflexivity].
Qed.

Theorem has_first_ancestor_hits e a b p x s s' o :
  unshared (e_tree e) -> climbable (e_tree e) p x ->
  eval e (MHasFirstAncestor a b) x s = (s', o) ->
  exists s1 o1, first_hit (eval e a) (ancestors (e_tree e) p) s s1 o1 /\
    match o1 with
    | Err exn => s' = s1 /\ o = Err exn
    | Ok None => s' = s1 /\ o = Ok None
    | Ok (Some (_, RFalse)) => s' = s1 /\ o = Err AttributeError
    | Ok (Some (_, RInfo ma ba _)) =>
        match m_matched ma with
        | None => s' = s1 /\ o = Err AttributeError
        | Some anc =>
            exists o2, eval e b anc s1 = (s', o2) /\
            match o2 with
            | Err exn => o = Err exn
            | Ok None => o = Ok None
            | Ok (Some (RInfo _ (Some bb) _)) =>
                match ba with
                | Some ba => match merge_bindings ba bb with
                             | Ok mb => o = Ok (Some (RInfo (create_match (e_parsed e) x) mb []))
                             | Err exn => o = Err exn
                             end
                | None => o = Err AttributeError
                end
            | Ok (Some _) => o = Err AttributeError
            end
        end
    end.
Proof.
  intros U C H. cbn [eval] in H. unfold mbind at 1 in H.
  destruct (climb_first (climb_fuel e) e (eval e a) x s) as [s1 o1] eqn:E.
  destruct (climb_first_hits e (eval e a) U (climb_fuel e) p x s s1 o1 C) with (2 := E) as (o2 & Hf & ->).
  { unfold climb_fuel. destruct C as [[C _] _]. apply vsize_path in C. lia. }
  exists s1, o2. split; [assumption|]. destruct o2 as [[[y [ma ba ta|]]|]|exn].
  - cbn [r_match] in H. unfold mbind at 1, lift at 1 in H. unfold mbind at 1, lift at 1 in H.
    destruct (m_matched ma) as [anc|] eqn:Em; cbn [not_none] in H; [|injection H as <- <-; now split].
    unfold mbind at 1 in H. destruct (eval e b anc s1) as [s2 o3] eqn:Eb. exists o3.
    destruct o3 as [[[mb [bb|] tb|]|]|exn]; unfold mbind, lift in H; destruct ba as [ba|];
      cbn [r_bindings bind not_none info ret] in H; try (injection H as <- <-; now split).
    destruct (merge_bindings ba bb) as [mg|exn]; injection H as <- <-; now split.
  - cbn in H. injection H as <- <-. now split.
  - cbn in H. injection H as <- <-. now split.
  - injection H as <- <-. now split.
Qed.

(** *** Simple nodes *)
Lemma simple_loop_spec tree : unshared tree -> forall n l p x last b rest,
  climbable tree p x -> x :: ancestors tree p = l ++ b :: rest ->
  Forall (fun y => has_field y (TX "body") = false) l -> has_field b (TX "body") = true ->
  (length l < n)%nat ->
  simple_loop n tree last x = Ok (match outermost l with Some y => Some y | None => last end).
Proof.
  intros U. induction n as [|n IH]; intros l p x last b rest C E Hl Hb Hn; [lia|]. cbn [simple_loop].
  destruct l as [|y l]; cbn [app] in E; injection E as E1 E2.
  - subst b. rewrite Hb. reflexivity.
  - subst y. inversion Hl as [|? ? H1 H2]; subst. rewrite H1.
    destruct (climbable_cases _ _ _ U C) as [(-> & Hp & Ha)|(q & i & par & -> & Cq & Hp & Ha)].
    + rewrite Ha in E2. destruct l; discriminate E2.
    + rewrite Hp. rewrite Ha in E2. rewrite (IH l q par _ b rest Cq E2 H2 Hb); [|cbn in Hn; lia].
      f_equal. unfold outermost. cbn [rev].
      assert (F : forall k z, find (fun x => negb (is_list x)) (k ++ [z]) =
                    match find (fun x => negb (is_list x)) k with Some w => Some w | None => if is_list z then None else Some z end).
      { induction k as [|w k IHk]; intros z; cbn; [now destruct (is_list z)|]. destruct (negb (is_list w)); [reflexivity | apply IHk]. }
      rewrite F. destruct (find _ (rev l)); [reflexivity|]. now destruct (is_list x).
Qed.
Theorem simple_node tree p x l b rest : unshared tree -> climbable tree p x ->
  x :: ancestors tree p = l ++ b :: rest ->
  Forall (fun y => has_field y (TX "body") = false) l -> has_field b (TX "body") = true ->
  get_simple_node tree x = Ok (outermost l).
Proof.
  intros U C E Hl Hb. unfold get_simple_node. rewrite (simple_loop_spec tree U _ l p x None b rest C E Hl Hb).
  - now destruct (outermost l).
  - assert (L : length (x :: ancestors tree p) = length (l ++ b :: rest)) by now rewrite E.
    rewrite app_length in L. cbn [length] in L. unfold ancestors in L. rewrite rev_length in L.
    destruct C as [[C _] _].
    assert (length (above tree p) = length p).
    { clear - C. revert tree x C. induction p as [|i p IH]; intros tree x C; [reflexivity|]. cbn in *.
      destruct (nth_error (vchildren tree) i) as [y|]; [|discriminate C]. f_equal. eapply IH; eassumption. }
    apply vsize_path in C. lia.
Qed.

(** *** Without side effects *)
Lemma first_hit_pure try l s : (forall x, In x l -> exists o, try x s = (s, Ok o)) ->
  forall s' o, first_hit try l s s' o ->
  s' = s /\
  match o with
  | Ok None => forall x, In x l -> try x s = (s, Ok None)
  | Ok (Some (x, r)) => exists l1 l2, l = l1 ++ x :: l2 /\ try x s = (s, Ok (Some r)) /\
                          forall y, In y l1 -> try y s = (s, Ok None)
  | Err _ => False
  end.
Proof.
  induction l as [|y l IH]; intros Hp s' o H; inversion H; subst.
  - split; [reflexivity|]. intros x [].
  - destruct (Hp y (or_introl eq_refl)) as [o' Ho'].
    match goal with E : try y s = _ |- _ => rewrite Ho' in E; injection E as E1 E2; subst end.
    destruct (IH (fun x Hx => Hp x (or_intror Hx)) _ _ ltac:(eassumption)) as [-> Hm]. split; [reflexivity|].
    destruct o as [[[x r]|]|]; [| |assumption].
    + destruct Hm as (l1 & l2 & -> & Hx & Hl). exists (y :: l1), l2. split; [reflexivity|]. split; [assumption|].
      intros z [->|Hz]; [assumption | now apply Hl].
    + intros x [->|Hx]; [assumption | now apply Hm].
  - destruct (Hp y (or_introl eq_refl)) as [o' Ho'].
    match goal with E : try y s = _ |- _ => rewrite Ho' in E; injection E as E1 E2; subst end.
    split; [reflexivity|]. exists [], l. split; [reflexivity|]. split; [assumption|]. intros z [].
  - destruct (Hp y (or_introl eq_refl)) as [o' Ho'].
    match goal with E : try y s = _ |- _ => rewrite Ho' in E; injection E as E1 E2; subst end. discriminate.
Qed.

(** A sufficient, checkable condition for [unshared]: all places, with their objects. *)
Fixpoint places (fuel : nat) (v : value) : list (path * value) :=
  match fuel with
  | O => []
  | S n => ([], v) :: flat_map (fun ix => map (fun px => (fst ix :: fst px, snd px)) (places n (snd ix)))
                               (combine (seq 0 (length (vchildren v))) (vchildren v))
  end.
Lemma places_all : forall n v p x, (vsize v <= n)%nat -> at_path v p = Some x -> In (p, x) (places n v).
Proof.
  induction n as [|n IH]; intros v p x Hn H; [pose proof (vsize_pos v); lia|].
  destruct p as [|i p]; cbn in H |- *; [injection H as ->; now left|]. right.
  destruct (nth_error (vchildren v) i) as [y|] eqn:E; [|discriminate H].
  apply in_flat_map. exists (i, y). split.
  - assert (G : forall l k j (z : value), nth_error l j = Some z -> In ((k + j)%nat, z) (combine (seq k (length l)) l)).
    { induction l as [|w l IHl]; intros k j z Hz; destruct j; try discriminate Hz; cbn in *.
      - injection Hz as ->. left. f_equal. lia.
      - right. replace (k + S j)%nat with (S k + j)%nat by lia. now apply IHl. }
    apply (G _ O i). assumption.
  - apply in_map_iff. exists (p, x). split; [reflexivity|]. apply IH; [|assumption].
    assert (Hy : (vsize y <= sizes (vchildren v))%nat).
    { clear IH Hn H. revert i E. generalize (vchildren v) as l.
      induction l as [|z l IHl]; intros [|i] E; cbn in E; try discriminate E.
      - injection E as ->. cbn [sizes fold_right]. lia.
      - specialize (IHl _ E). cbn [sizes fold_right]. fold (sizes l). lia. }
    rewrite vsize_children in Hn. cbn [snd]. lia.
Qed.
Definition all_unshared (l : list (path * value)) : bool :=
  forallb (fun a => negb (is_node (snd a) || is_list (snd a)) ||
     forallb (fun b => negb (vid (snd b) =? vid (snd a)) || text_eqb (map Z.of_nat (fst b)) (map Z.of_nat (fst a))) l) l.
Lemma unshared_ok tree : all_unshared (places (vsize tree) tree) = true -> unshared tree.
Proof.
  intros H p x Hp Hk. split; [assumption|]. intros q y Hq Hid.
  unfold all_unshared in H. rewrite forallb_forall in H.
  specialize (H (p, x) (places_all _ _ _ _ (le_n _) Hp)). cbn [fst snd] in H. rewrite Hk in H. cbn in H.
  rewrite forallb_forall in H. specialize (H (q, y) (places_all _ _ _ _ (le_n _) Hq)). cbn [fst snd] in H.
  rewrite Hid, Z.eqb_refl in H. cbn in H. apply text_eqb_eq in H.
  revert H. clear. revert p. induction q as [|a q IH]; intros [|b p] H; try discriminate H; [reflexivity|].
  cbn in H. injection H as E H. apply Nat2Z.inj in E. f_equal; auto.
Qed.

Lemma ancestors_above : forall tree p x y, at_path tree p = Some x ->
  (In y (ancestors tree p) <-> exists q r, r <> [] /\ p = q ++ r /\ at_path tree q = Some y).
Proof.
  intros tree p x y. unfold ancestors. rewrite <- in_rev. revert tree x.
  induction p as [|i p IH]; intros tree x H; cbn [above].
  - split; [intros []|]. intros (q & r & Hr & E & _). symmetry in E. apply app_eq_nil in E as [_ E]. contradiction.
  - cbn in H. destruct (nth_error (vchildren tree) i) as [z|] eqn:Ez; [|discriminate H]. cbn [In].
    rewrite (IH z x H). split.
    + intros [<-|(q & r & Hr & -> & Hq)].
      * exists [], (i :: p). split; [discriminate|]. now split.
      * exists (i :: q), r. split; [assumption|]. split; [reflexivity|]. cbn. now rewrite Ez.
    + intros (q & r & Hr & E & Hq). destruct q as [|j q]; cbn in E, Hq.
      * left. congruence.
      * right. injection E as <- ->. rewrite Ez in Hq. exists q, r. now repeat split.
Qed.
Lemma preorder_below : forall x y, In y (preorder x) <-> exists q, at_path x q = Some y.
Proof.
  assert (Step : forall x, Forall (fun c => forall y, In y (preorder c) <-> exists q, at_path c q = Some y) (vchildren x) ->
           forall y, In y (preorder x) <-> exists q, at_path x q = Some y).
  { intros x Hx y. rewrite preorder_eq. cbn [In]. unfold descendants. rewrite in_flat_map.
    rewrite Forall_forall in Hx. split.
    - intros [<-|(c & Hc & Hy)]; [now exists []|]. apply Hx in Hy as [q Hq]; [|assumption].
      apply In_nth_error in Hc as [i Hi]. exists (i :: q). cbn. now rewrite Hi.
    - intros [[|i q] Hq]; cbn in Hq; [left; congruence|]. right.
      destruct (nth_error (vchildren x) i) as [c|] eqn:E; [|discriminate Hq]. exists c.
      apply nth_error_In in E. split; [assumption|]. apply Hx; [assumption|]. now exists q. }
  induction x as [n fs IH|n l IH|n c] using value_ind'; apply Step; cbn [vchildren].
  - apply Forall_forall. intros y Hy. apply in_map_iff in Hy as (kv & <- & Hk). rewrite Forall_forall in IH. now apply IH.
  - assumption.
  - constructor.
Qed.
Lemma descendants_below : forall x y, In y (descendants x) <-> exists q, q <> [] /\ at_path x q = Some y.
Proof.
  intros x y. unfold descendants. rewrite in_flat_map. split.
  - intros (c & Hc & Hy). apply preorder_below in Hy as [q Hq]. apply In_nth_error in Hc as [i Hi].
    exists (i :: q). split; [discriminate|]. cbn. now rewrite Hi.
  - intros ([|i q] & Hne & Hq); [contradiction|]. cbn in Hq.
    destruct (nth_error (vchildren x) i) as [c|] eqn:E; [|discriminate Hq]. exists c.
    apply nth_error_In in E. split; [assumption|]. apply preorder_below. now exists q.
Qed.
Lemma has_siblings e m p i id l x s :
  at_path (e_tree e) p = Some (VList id l) -> nth_error l i = Some x -> only_at (e_tree e) (p ++ [i]) x ->
  eval e (MHasPrevSibling m) x s =
    (match i with
     | O => (s, Ok None)
     | S j => match nth_error l j with
              | Some y => if py_truthy y then eval e m y s else (s, Ok None)
              | None => (s, Ok None)
              end
     end)
  /\ eval e (MHasNextSibling m) x s =
    (match nth_error l (S i) with
     | Some y => if py_truthy y then eval e m y s else (s, Ok None)
     | None => (s, Ok None)
     end).
Proof.
  intros Hp Hx Hu. destruct (nav_siblings_list _ _ _ _ _ _ Hp Hx Hu) as [H1 H2]. cbn [eval]. rewrite H1, H2. split.
  - destruct i as [|j]; [reflexivity|]. destruct (nth_error l j) as [y|]; [|reflexivity]. now destruct (py_truthy y).
  - destruct (nth_error l (S i)) as [y|]; [|reflexivity]. now destruct (py_truthy y).
Qed.
