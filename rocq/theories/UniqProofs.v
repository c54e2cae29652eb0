(** [_uniqueify_distinct_ast] removes sharing. *)
From Verif Require Import Py PyFacts Ast Template FromDiff Matcher MatchSpec MergeProofs OnceProofs FindSpec FindProofs
  NavSpec NavProofs Uniq UniqSpec.

(** *** Places *)
Fixpoint pplaces (v : value) : list (path * value) :=
  ([], v) ::
  match v with
  | VNode _ fs =>
      (fix go (k : nat) (l : list (text * value)) : list (path * value) :=
         match l with
         | [] => []
         | kv :: r => map (fun px => (k :: fst px, snd px)) (pplaces (snd kv)) ++ go (S k) r
         end) O fs
  | VList _ l =>
      (fix go (k : nat) (l : list value) : list (path * value) :=
         match l with
         | [] => []
         | x :: r => map (fun px => (k :: fst px, snd px)) (pplaces x) ++ go (S k) r
         end) O l
  | VConst _ _ => []
  end.
Fixpoint kplaces (k : nat) (l : list value) : list (path * value) :=
  match l with
  | [] => []
  | x :: r => map (fun px => (k :: fst px, snd px)) (pplaces x) ++ kplaces (S k) r
  end.
Lemma pplaces_eq v : pplaces v = ([], v) :: kplaces O (vchildren v).
Proof.
  destruct v as [n fs|n l|n c]; cbn [pplaces vchildren]; [|reflexivity..]. f_equal. generalize O as k.
  induction fs as [|kv fs IH]; intros k; [reflexivity|]. cbn [map kplaces]. now rewrite IH.
Qed.
Lemma value_children (P : value -> Prop) : (forall v, Forall P (vchildren v) -> P v) -> forall v, P v.
Proof.
  intros H. induction v as [n fs IH|n l IH|n c] using value_ind'; apply H; cbn [vchildren]; [|assumption|constructor].
  apply Forall_forall. intros y Hy. apply in_map_iff in Hy as (kv & <- & Hk). rewrite Forall_forall in IH. now apply IH.
Qed.

Lemma kplaces_In k l p x : In (p, x) (kplaces k l) <->
  exists i q c, p = (k + i)%nat :: q /\ nth_error l i = Some c /\ In (q, x) (pplaces c).
Proof.
  revert k. induction l as [|c l IH]; intros k; cbn [kplaces].
  - split; [intros [] | intros ([|i] & q & c & _ & H & _); discriminate H].
  - rewrite in_app_iff, IH, in_map_iff. split.
    + intros [([q y] & E & H)|(i & q & d & -> & H1 & H2)].
      * cbn in E. injection E as <- <-. exists O, q, c. split; [f_equal; lia|]. now split.
      * exists (S i), q, d. split; [f_equal; lia|]. now split.
    + intros ([|i] & q & d & -> & H1 & H2).
      * cbn in H1. injection H1 as ->. left. exists (q, x). split; [cbn; do 2 f_equal; lia | assumption].
      * right. exists i, q, d. split; [f_equal; lia|]. now split.
Qed.
Lemma pplaces_In : forall v p x, In (p, x) (pplaces v) <-> at_path v p = Some x.
Proof.
  refine (value_children (fun v => forall p x, In (p, x) (pplaces v) <-> at_path v p = Some x) _).
  intros v Hv p x. rewrite pplaces_eq. cbn [In]. rewrite kplaces_In. rewrite Forall_forall in Hv. split.
  - intros [E|(i & q & c & -> & H1 & H2)]; [injection E as <- <-; reflexivity|].
    cbn. rewrite H1. apply Hv; [eapply nth_error_In; eassumption | assumption].
  - destruct p as [|i p]; cbn; intros H; [injection H as ->; now left|]. right.
    destruct (nth_error (vchildren v) i) as [c|] eqn:E; [|discriminate H]. exists i, p, c.
    split; [reflexivity|]. split; [assumption|]. apply Hv; [eapply nth_error_In; eassumption | assumption].
Qed.
Lemma pplaces_NoDup : forall v, NoDup (pplaces v).
Proof.
  refine (value_children (fun v => NoDup (pplaces v)) _). intros v Hv. rewrite pplaces_eq. constructor.
  - intros H. apply kplaces_In in H as (i & q & c & E & _). discriminate E.
  - generalize O as k. induction (vchildren v) as [|c l IH]; intros k; [constructor|]. cbn [kplaces].
    inversion Hv as [|? ? H1 H2]; subst. apply NoDup_app_intro; [|now apply IH|].
    + apply FinFun.Injective_map_NoDup; [|assumption]. intros [a b] [a' b'] E. cbn in E. congruence.
    + intros [p x] Ha Hb. apply in_map_iff in Ha as ([q y] & E & _). cbn in E. injection E as <- <-.
      apply kplaces_In in Hb as (i & r & d & E & _). injection E as E _. lia.
Qed.
Lemma kplaces_snd l : Forall (fun v => map snd (pplaces v) = preorder v) l ->
  forall k, map snd (kplaces k l) = flat_map preorder l.
Proof.
  induction 1 as [|v l Hv _ IH]; intros k; [reflexivity|]. cbn [kplaces flat_map].
  rewrite map_app, map_map. cbn [snd]. rewrite IH, <- Hv. reflexivity.
Qed.
Lemma pplaces_snd : forall v, map snd (pplaces v) = preorder v.
Proof.
  refine (value_children (fun v => map snd (pplaces v) = preorder v) _). intros v Hv.
  rewrite pplaces_eq, preorder_eq. cbn [map snd]. f_equal. now apply kplaces_snd.
Qed.

(** *** Identities of one kind of object *)
Definition idl (P : value -> bool) (v : value) : list Z := map vid (filter P (preorder v)).
Definition idls (P : value -> bool) (l : list value) : list Z := flat_map (idl P) l.
Lemma filter_flat_map {A B} (P : B -> bool) (f : A -> list B) l :
  filter P (flat_map f l) = flat_map (fun x => filter P (f x)) l.
Proof. induction l as [|x l IH]; [reflexivity|]. cbn. now rewrite filter_app, IH. Qed.
Lemma map_flat_map {A B C} (g : B -> C) (f : A -> list B) l :
  map g (flat_map f l) = flat_map (fun x => map g (f x)) l.
Proof. induction l as [|x l IH]; [reflexivity|]. cbn. now rewrite map_app, IH. Qed.
Lemma idl_eq P v : idl P v = (if P v then [vid v] else []) ++ idls P (vchildren v).
Proof.
  unfold idl, idls. rewrite preorder_eq. unfold descendants. cbn [filter].
  rewrite filter_flat_map. destruct (P v); cbn [map app]; now rewrite map_flat_map.
Qed.
Lemma idls_cons P v l : idls P (v :: l) = idl P v ++ idls P l.
Proof. reflexivity. Qed.
Lemma idl_In P v a : In a (idl P v) <-> exists p x, at_path v p = Some x /\ P x = true /\ vid x = a.
Proof.
  unfold idl. rewrite in_map_iff. split.
  - intros (x & <- & H). apply filter_In in H as [H1 H2]. apply preorder_below in H1 as [q Hq]. now exists q, x.
  - intros (p & x & H1 & H2 & <-). exists x. split; [reflexivity|]. apply filter_In. split; [|assumption].
    apply preorder_below. now exists p.
Qed.
Lemma NoDup_map_inj {A B} (f : A -> B) l : NoDup l ->
  (NoDup (map f l) <-> forall a b, In a l -> In b l -> f a = f b -> a = b).
Proof.
  induction 1 as [|x l Hx Hl IH]; cbn [map].
  - split; [intros _ a b [] | intros _; constructor].
  - rewrite NoDup_cons_iff, IH. split.
    + intros [H1 H2] a b [->|Ha] [->|Hb] E; [reflexivity| | |now apply H2].
      * exfalso. apply H1. rewrite E. now apply in_map.
      * exfalso. apply H1. rewrite <- E. now apply in_map.
    + intros H. split; [|intros a b Ha Hb; apply H; now right].
      intros Hin. apply in_map_iff in Hin as (y & E & Hy).
      assert (y = x) by (apply H; [now right | now left | assumption]). now subst.
Qed.
Lemma filter_map_snd {A} (P : value -> bool) (l : list (A * value)) :
  filter P (map snd l) = map snd (filter (fun a => P (snd a)) l).
Proof. induction l as [|[a x] l IH]; [reflexivity|]. cbn. destruct (P x); cbn; now rewrite IH. Qed.
Lemma idl_NoDup P v : NoDup (idl P v) <->
  forall p q x y, at_path v p = Some x -> at_path v q = Some y -> P x = true -> P y = true -> vid x = vid y -> p = q.
Proof.
  unfold idl. rewrite <- pplaces_snd, filter_map_snd, map_map.
  rewrite (NoDup_map_inj (fun a : path * value => vid (snd a))) by (apply NoDup_filter, pplaces_NoDup). split.
  - intros H p q x y Hp Hq Px Py E.
    assert (EQ : (p, x) = (q, y)).
    { apply H; [apply filter_In; split; [now apply pplaces_In | assumption].. | assumption]. }
    congruence.
  - intros H [p x] [q y] Ha Hb E. apply filter_In in Ha as [Ha Px]. apply filter_In in Hb as [Hb Py].
    cbn [snd] in *. apply pplaces_In in Ha. apply pplaces_In in Hb.
    assert (p = q) as -> by (eapply H; eassumption). rewrite Ha in Hb. congruence.
Qed.

Definition fixedb (v : value) : bool := (is_node v && negb (childless v)) || is_list v.

(** *** The transformer over a list of children *)
Fixpoint uniq_all (l : list value) (st : ustate) : list value * ustate :=
  match l with
  | [] => ([], st)
  | x :: r => let '(x', st1) := uniq x st in let '(r', st2) := uniq_all r st1 in (x' :: r', st2)
  end.
Lemma uniq_node i fs st : uniq (VNode i fs) st =
  let '(l', (seen, next)) := uniq_all (map snd fs) st in
  if zmem (n_id i) seen then (VNode (with_id i next) (combine (map fst fs) l'), (seen, next + 1))
  else (VNode i (combine (map fst fs) l'), (n_id i :: seen, next)).
Proof.
  cbn [uniq].
  assert (H : forall fs st,
    (fix go (l : list (text * value)) (st : ustate) : list (text * value) * ustate :=
           match l with
           | [] => ([], st)
           | (f, x) :: r =>
               let '(x', st1) := uniq x st in
               let '(r', st2) := go r st1 in
               ((f, x') :: r', st2)
           end) fs st = (combine (map fst fs) (fst (uniq_all (map snd fs) st)), snd (uniq_all (map snd fs) st))).
  { clear. induction fs as [|[f x] fs IH]; intros st; [reflexivity|]. cbn [map fst snd uniq_all].
    destruct (uniq x st) as [x' st1]. rewrite IH. destruct (uniq_all (map snd fs) st1) as [r' st2]. reflexivity. }
  rewrite H. destruct (uniq_all (map snd fs) st) as [l' [seen next]]. reflexivity.
Qed.
Lemma uniq_list id l st : (forall y, In y l -> is_list y = false) -> uniq (VList id l) st =
  let '(l', st') := uniq_all l st in (VList id l', st').
Proof.
  intros Hl. cbn [uniq].
  assert (H : forall l st, (forall y, In y l -> is_list y = false) ->
    (fix go (l : list value) (st : ustate) : list value * ustate :=
           match l with
           | [] => ([], st)
           | x :: r =>
               let '(x', st1) := if is_list x then (x, st) else uniq x st in
               let '(r', st2) := go r st1 in
               (x' :: r', st2)
           end) l st = uniq_all l st).
  { clear. induction l as [|x l IH]; intros st Hl; [reflexivity|]. cbn [uniq_all].
    rewrite (Hl x (or_introl eq_refl)). destruct (uniq x st) as [x' st1].
    rewrite IH; [reflexivity|]. intros y Hy. apply Hl. now right. }
  now rewrite H.
Qed.

(** What holds of the transformer on trees with the identities [F] (fixed), [L]
    (childless nodes). *)
Definition flat (v : value) : Prop :=
  forall p id l y, at_path v p = Some (VList id l) -> In y l -> is_list y = false.
Lemma flat_children v : flat v -> forall c, In c (vchildren v) -> flat c.
Proof.
  intros H c Hc p id l y Hp Hy. apply In_nth_error in Hc as [i Hi]. apply (H (i :: p) id l y); [|assumption].
  cbn. now rewrite Hi.
Qed.
Record pre (F L seen : list Z) (next : Z) : Prop := {
  pre_nodup : NoDup F;
  pre_seen : forall x, In x F -> ~ In x seen;
  pre_leaf : forall x, In x F -> ~ In x L;
  pre_lt : forall x, In x F \/ In x L \/ In x seen -> x < next
}.
Record post (F L L' seen seen' : list Z) (next next' : Z) : Prop := {
  po_nodup : NoDup L';
  po_from : forall x, In x L' -> (In x L /\ ~ In x seen) \/ next <= x < next';
  po_seen : forall x, In x seen -> In x seen';
  po_leaf : forall x, In x L -> In x seen';
  po_only : forall x, In x seen' -> In x seen \/ In x L \/ In x F;
  po_next : next <= next'
}.
Definition good (v : value) : Prop :=
  flat v -> forall seen next, pre (idl fixedb v) (idl childless v) seen next ->
  forall v' seen' next', uniq v (seen, next) = (v', (seen', next')) ->
  idl fixedb v' = idl fixedb v /\ idl is_const v' = idl is_const v
  /\ post (idl fixedb v) (idl childless v) (idl childless v') seen seen' next next'
  /\ anon v' = anon v /\ is_list v' = is_list v.
Definition goods (l : list value) : Prop :=
  (forall c, In c l -> flat c) -> forall seen next, pre (idls fixedb l) (idls childless l) seen next ->
  forall l' seen' next', uniq_all l (seen, next) = (l', (seen', next')) ->
  idls fixedb l' = idls fixedb l /\ idls is_const l' = idls is_const l
  /\ post (idls fixedb l) (idls childless l) (idls childless l') seen seen' next next'
  /\ map anon l' = map anon l /\ map is_list l' = map is_list l.

Lemma goods_cons l : Forall good l -> goods l.
Proof.
  induction 1 as [|v l Hv _ IH]; intros Hflat seen next P l' seen' next' H.
  - cbn in H. injection H as <- <- <-. split; [reflexivity|]. split; [reflexivity|]. split; [|now split].
    constructor; cbn; try tauto; [constructor | lia].
  - cbn [uniq_all] in H. destruct (uniq v (seen, next)) as [v1 [seen1 next1]] eqn:E1.
    destruct (uniq_all l (seen1, next1)) as [l1 [seen2 next2]] eqn:E2. injection H as <- <- <-.
    rewrite !idls_cons. rewrite !idls_cons in P.
    destruct P as [P1 P2 P3 P4].
    assert (HF : NoDup (idl fixedb v) /\ NoDup (idls fixedb l) /\ forall x, In x (idl fixedb v) -> ~ In x (idls fixedb l)).
    { clear - P1. induction (idl fixedb v) as [|a k IHk]; cbn in *.
      - split; [constructor|]. split; [assumption|]. intros x [].
      - inversion P1 as [|? ? Ha Hk]; subst. destruct (IHk Hk) as (H1 & H2 & H3). rewrite in_app_iff in Ha.
        split; [constructor; tauto|]. split; [assumption|]. intros x [->|Hx]; [tauto | now apply H3]. }
    destruct HF as (F1 & F2 & F3).
    destruct (Hv (Hflat v (or_introl eq_refl)) seen next) with (2 := E1) as (A1 & A2 & A3 & A4 & A5).
    { constructor; [assumption| | |]; intros x Hx.
      - apply P2. apply in_app_iff. now left.
      - intros Hl. apply (P3 x); apply in_app_iff; now left.
      - apply P4. rewrite !in_app_iff. tauto. }
    destruct A3 as [Q1 Q2 Q3 Q4 Q5 Q6].
    destruct (IH (fun c Hc => Hflat c (or_intror Hc)) seen1 next1) with (2 := E2) as (B1 & B2 & B3 & B4 & B5).
    { constructor; [assumption| | |]; intros x Hx.
      - intros Hs. apply Q5 in Hs as [Hs|[Hs|Hs]].
        + apply (P2 x); [apply in_app_iff; now right | assumption].
        + apply (P3 x); apply in_app_iff; [now right | now left].
        + apply (F3 x Hs Hx).
      - intros Hl. apply (P3 x); apply in_app_iff; now right.
      - assert (x < next); [|lia]. apply P4. rewrite !in_app_iff. destruct Hx as [Hx|[Hx|Hx]]; [tauto..|].
        apply Q5 in Hx. tauto. }
    destruct B3 as [R1 R2 R3 R4 R5 R6].
    split; [now rewrite A1, B1|]. split; [now rewrite A2, B2|].
    split; [|split; cbn [map]; now rewrite ?A4, ?A5, ?B4, ?B5].
    constructor.
    + apply NoDup_app_intro; [assumption..|]. intros x Ha Hb.
      apply Q2 in Ha. apply R2 in Hb. destruct Ha as [[Ha1 Ha2]|Ha], Hb as [[Hb1 Hb2]|Hb].
      * apply Hb2. now apply Q4.
      * assert (x < next) by (apply P4; rewrite !in_app_iff; tauto). lia.
      * assert (x < next) by (apply P4; rewrite !in_app_iff; tauto). lia.
      * lia.
    + intros x Hx. apply in_app_iff in Hx as [Hx|Hx].
      * apply Q2 in Hx as [[Hx1 Hx2]|Hx]; [left; rewrite in_app_iff; tauto | right; lia].
      * apply R2 in Hx as [[Hx1 Hx2]|Hx]; [|right; lia]. left. rewrite in_app_iff. split; [tauto|].
        intros Hs. apply Hx2. now apply Q3.
    + intros x Hx. apply R3. now apply Q3.
    + intros x Hx. apply in_app_iff in Hx as [Hx|Hx]; [apply R3; now apply Q4 | now apply R4].
    + intros x Hx. rewrite !in_app_iff. apply R5 in Hx as [Hx|[Hx|Hx]]; [|tauto..]. apply Q5 in Hx. tauto.
    + lia.
Qed.

Lemma combine_snd {A B} (a : list A) (b : list B) : length a = length b -> map snd (combine a b) = b.
Proof. revert b. induction a as [|x a IH]; intros [|y b] H; try discriminate H; [reflexivity|]. cbn. f_equal. apply IH. now injection H. Qed.
Lemma uniq_all_length l : forall st, length (fst (uniq_all l st)) = length l.
Proof.
  induction l as [|x l IH]; intros st; [reflexivity|]. cbn [uniq_all]. destruct (uniq x st) as [x' st1].
  specialize (IH st1). destruct (uniq_all l st1) as [r st2]. cbn in *. now rewrite IH.
Qed.

Lemma good_all : forall v, good v.
Proof.
  refine (value_children good _). intros v Hv. apply goods_cons in Hv.
  intros Hflat seen next P v' seen' next' H. specialize (Hv (flat_children v Hflat)).
  destruct v as [i fs|id l|id c].
  - rewrite uniq_node in H. cbn [vchildren] in Hv. set (cs := map snd fs) in *.
    destruct (uniq_all cs (seen, next)) as [l' [seen1 next1]] eqn:E.
    pose proof (uniq_all_length cs (seen, next)) as Hlen. rewrite E in Hlen. cbn [fst] in Hlen.
    rewrite !idl_eq in P. cbn [vchildren] in P. fold cs in P.
    destruct fs as [|kv fs].
    + (* childless *)
      cbn [childless fixedb is_node is_list negb andb orb] in *.
      cbn in E. injection E as <- <- <-. cbn [combine map] in *. cbn in P. destruct P as [P1 P2 P3 P4].
      destruct (zmem (n_id i) seen) eqn:Ez; injection H as <- <- <-; (split; [reflexivity|]); (split; [reflexivity|]);
        (split; [|split; reflexivity]); cbn.
      * apply zmem_In in Ez. constructor; cbn.
        -- constructor; [easy | constructor].
        -- intros x [<-|[]]. right. lia.
        -- tauto.
        -- intros x [<-|[]]. assumption.
        -- tauto.
        -- lia.
      * assert (Hn : ~ In (n_id i) seen) by (intros Hin; apply zmem_In in Hin; congruence). constructor; cbn.
        -- constructor; [easy | constructor].
        -- intros x [<-|[]]. left. tauto.
        -- tauto.
        -- tauto.
        -- tauto.
        -- lia.
    + (* with fields *)
      assert (Hf : fixedb (VNode i (kv :: fs)) = true) by reflexivity.
      assert (Hc : childless (VNode i (kv :: fs)) = false) by reflexivity.
      rewrite Hf, Hc in P. cbn [app vid] in P. destruct P as [P1 P2 P3 P4].
      inversion P1 as [|? ? P1a P1b]; subst.
      destruct (Hv seen next) with (2 := E) as (A1 & A2 & A3 & A4 & A5).
      { constructor; [assumption| | |]; intros x Hx.
        - apply P2. now right.
        - apply P3. now right.
        - apply P4. cbn. tauto. }
      destruct A3 as [Q1 Q2 Q3 Q4 Q5 Q6].
      replace (zmem (n_id i) seen1) with false in H.
      2:{ symmetry. destruct (zmem (n_id i) seen1) eqn:Ez; [|reflexivity]. exfalso. apply zmem_In in Ez.
          apply Q5 in Ez as [Ez|[Ez|Ez]]; [eapply P2; [now left | eassumption] | eapply P3; [now left | eassumption] | contradiction]. }
      assert (Ev : map snd (combine (map fst (kv :: fs)) l') = l').
      { apply combine_snd. rewrite map_length. unfold cs in Hlen. rewrite map_length in Hlen. now rewrite Hlen. }
      assert (Hl' : exists y r, l' = y :: r).
      { destruct l' as [|y r]; [discriminate Hlen|]. now exists y, r. }
      destruct Hl' as (y & r & El).
      assert (Enode : exists g gr, combine (map fst (kv :: fs)) l' = g :: gr) by (subst l'; cbn; eauto).
      destruct Enode as (g & gr & Eg).
      remember (combine (map fst (kv :: fs)) l') as gs eqn:Egs in *. clear y r El.
      injection H as <- <- <-. rewrite !idl_eq. cbn [vchildren]. fold cs. rewrite Ev.
      rewrite Eg. cbn [fixedb childless is_const is_node is_list negb andb orb vid app]. rewrite <- Eg.
      split; [now rewrite A1|]. split; [assumption|]. split.
      * constructor; [assumption|assumption| | |  |lia].
        -- intros x Hx. right. now apply Q3.
        -- intros x Hx. right. now apply Q4.
        -- intros x [<-|Hx]; [right; right; now left|]. apply Q5 in Hx. cbn. tauto.
      * split; [|reflexivity]. rewrite Eg. cbn [anon]. rewrite <- Eg. f_equal. rewrite Egs.
        transitivity (combine (map fst (kv :: fs)) (map anon l')).
        -- clear. generalize (map fst (kv :: fs)) as ks. revert l'. 
           induction l' as [|z l' IH]; intros [|k ks]; [reflexivity..|]. cbn. f_equal. apply IH.
        -- rewrite A4. unfold cs. clear. generalize (kv :: fs) as gs.
           induction gs as [|[k x] gs IH]; [reflexivity|]. cbn. f_equal. apply IH.
  - assert (Hit : forall y, In y l -> is_list y = false) by (intros y; apply (Hflat [] id l y eq_refl)).
    rewrite uniq_list in H by assumption. cbn [vchildren] in Hv.
    destruct (uniq_all l (seen, next)) as [l' [seen1 next1]] eqn:E. injection H as <- <- <-.
    rewrite !idl_eq in *. cbn [vchildren fixedb childless is_const is_node is_list negb andb orb vid app] in *.
    destruct P as [P1 P2 P3 P4]. inversion P1 as [|? ? P1a P1b]; subst.
    destruct (Hv seen next) with (2 := E) as (A1 & A2 & A3 & A4 & A5).
    { constructor; [assumption| | |]; intros x Hx.
      - apply P2. now right.
      - apply P3. now right.
      - apply P4. cbn. tauto. }
    destruct A3 as [Q1 Q2 Q3 Q4 Q5 Q6].
    split; [now rewrite A1|]. split; [assumption|]. split; [|split; [cbn; now rewrite A4 | reflexivity]].
    constructor; try assumption. intros x Hx. apply Q5 in Hx. cbn. tauto.
  - cbn in H. injection H as <- <- <-. split; [reflexivity|]. split; [reflexivity|]. split; [|now split].
    constructor; cbn; try tauto; [constructor | lia].
Qed.

Lemma kind_cases v : is_node v || is_list v = true -> fixedb v = true \/ childless v = true.
Proof. destruct v as [i [|? ?]|id l|id c]; intros H; [right; reflexivity|left; reflexivity|left; reflexivity|discriminate H]. Qed.

Theorem uniqueify_unshared tree next :
  parser_tree tree -> (forall p x, at_path tree p = Some x -> vid x < next) ->
  unshared (uniqueify tree next) /\ anon (uniqueify tree next) = anon tree.
Proof.
  intros [Hsh Hfl] Hlt. unfold uniqueify. destruct (uniq tree ([], next)) as [t' [seen' next']] eqn:E. cbn [fst].
  assert (Hpre : pre (idl fixedb tree) (idl childless tree) [] next).
  { constructor.
    - apply idl_NoDup. intros p q x y Hp Hq Px Py Eid.
      destruct (list_eq_dec Nat.eq_dec p q) as [->|N]; [reflexivity|]. exfalso.
      destruct (Hsh p q x y Hp Hq Eid N) as [[C _]|[C _]]; clear - C Px;
        destruct x as [i [|? ?]|id l|id c]; cbn in *; discriminate.
    - intros x _ [].
    - intros a Ha Hb. apply idl_In in Ha as (p & x & Hp & Px & Ex). apply idl_In in Hb as (q & y & Hq & Py & Ey).
      destruct (list_eq_dec Nat.eq_dec p q) as [->|N].
      + rewrite Hp in Hq. injection Hq as <-. clear - Px Py. destruct x as [i [|? ?]|id l|id c]; cbn in *; discriminate.
      + destruct (Hsh p q x y Hp Hq) as [[C _]|[C _]]; [congruence|assumption| |]; clear - C Px;
          destruct x as [i [|? ?]|id l|id c]; cbn in *; discriminate.
    - intros a [Ha|[Ha|[]]]; apply idl_In in Ha as (p & x & Hp & _ & <-); eapply Hlt; eassumption. }
  destruct (good_all tree Hfl [] next Hpre _ _ _ E) as (A1 & A2 & A3 & A4 & _). split; [|assumption].
  destruct A3 as [Q1 Q2 _ _ _ _]. destruct Hpre as [P1 _ P3 P4].
  assert (OldFC : forall a, In a (idl fixedb tree) -> In a (idl is_const tree) -> False).
  { intros a Ha Hb. apply idl_In in Ha as (p & x & Hp & Px & Ex). apply idl_In in Hb as (q & y & Hq & Py & Ey).
    destruct (list_eq_dec Nat.eq_dec p q) as [->|N].
    - rewrite Hp in Hq. injection Hq as <-. clear - Px Py. destruct x as [i [|? ?]|id l|id c]; cbn in *; discriminate.
    - destruct (Hsh p q x y Hp Hq) as [[C _]|[C _]]; [congruence|assumption| |]; clear - C Px;
        destruct x as [i [|? ?]|id l|id c]; cbn in *; discriminate. }
  assert (OldLC : forall a, In a (idl childless tree) -> In a (idl is_const tree) -> False).
  { intros a Ha Hb. apply idl_In in Ha as (p & x & Hp & Px & Ex). apply idl_In in Hb as (q & y & Hq & Py & Ey).
    destruct (list_eq_dec Nat.eq_dec p q) as [->|N].
    - rewrite Hp in Hq. injection Hq as <-. clear - Px Py. destruct x as [i [|? ?]|id l|id c]; cbn in *; discriminate.
    - destruct (Hsh p q x y Hp Hq) as [[_ C]|[C _]]; [congruence|assumption| |].
      + clear - C Py. destruct y as [i [|? ?]|id l|id c]; cbn in *; discriminate.
      + clear - C Px. destruct x as [i [|? ?]|id l|id c]; cbn in *; discriminate. }
  assert (Cst : forall a, In a (idl is_const tree) -> a < next).
  { intros a Ha. apply idl_In in Ha as (p & x & Hp & _ & <-). eapply Hlt; eassumption. }
  intros p x Hp Hk. split; [assumption|]. intros q y Hq Eid.
  assert (Hin : forall P r z, at_path t' r = Some z -> P z = true -> In (vid z) (idl P t')).
  { intros P r z Hr HP. apply idl_In. now exists r, z. }
  destruct (kind_cases x Hk) as [Fx|Lx].
  - pose proof (Hin _ _ _ Hp Fx) as Ix. destruct (is_node y || is_list y) eqn:Ky.
    + destruct (kind_cases y Ky) as [Fy|Ly].
      * rewrite A1 in Ix. assert (N : NoDup (idl fixedb t')) by now rewrite A1.
        rewrite idl_NoDup in N. eapply N; eassumption.
      * exfalso. pose proof (Hin _ _ _ Hq Ly) as Iy. rewrite Eid in Iy. rewrite A1 in Ix.
        apply Q2 in Iy as [[Iy _]|Iy]; [eapply P3; eassumption|].
        assert (vid x < next) by (apply P4; now left). lia.
    + exfalso. assert (Cy : is_const y = true) by (unfold is_const; now rewrite Ky).
      pose proof (Hin _ _ _ Hq Cy) as Iy. rewrite Eid, A2 in Iy. rewrite A1 in Ix. eapply OldFC; eassumption.
  - pose proof (Hin _ _ _ Hp Lx) as Ix. destruct (is_node y || is_list y) eqn:Ky.
    + destruct (kind_cases y Ky) as [Fy|Ly].
      * exfalso. pose proof (Hin _ _ _ Hq Fy) as Iy. rewrite Eid, A1 in Iy.
        apply Q2 in Ix as [[Ix _]|Ix]; [eapply P3; eassumption|].
        assert (vid x < next) by (apply P4; now left). lia.
      * rewrite idl_NoDup in Q1. eapply Q1; eassumption.
    + exfalso. assert (Cy : is_const y = true) by (unfold is_const; now rewrite Ky).
      pose proof (Hin _ _ _ Hq Cy) as Iy. rewrite Eid, A2 in Iy.
      apply Q2 in Ix as [[Ix _]|Ix]; [eapply OldLC; eassumption|]. apply Cst in Iy. lia.
Qed.
