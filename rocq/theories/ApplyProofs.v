(** Proofs about Fmt.apply_substitutions (C01-C04). *)
From Verif Require Import Py PyFacts Regex Subst Fmt ApplySpec.
From Coq Require Import ZifyBool.

(** *** Stable sorting *)
Section Stable.
  Context {A : Type} (le : A -> A -> bool).
  Hypothesis le_total : forall x y, le x y = true \/ le y x = true.
  Hypothesis le_trans : forall x y z, le x y = true -> le y z = true -> le x z = true.

  Lemma filter_insert_class x a l :
    filter (fun y => le x y && le y x) (sort_insert le a l)
    = filter (fun y => le x y && le y x) (a :: l).
  Proof.
    induction l as [|b l IH]; [reflexivity|].
    cbn [sort_insert]. destruct (le a b) eqn:E; [reflexivity|].
    cbn [filter] in *. rewrite IH.
    destruct (le x b && le b x) eqn:Eb; destruct (le x a && le a x) eqn:Ea; try reflexivity.
    exfalso. apply andb_true_iff in Eb, Ea. destruct Eb, Ea.
    assert (le a b = true) by (eapply le_trans; eauto). congruence.
  Qed.

  Lemma py_sorted_stable l : StableSorted le l (py_sorted le l).
  Proof.
    split; [apply py_sorted_perm|]. split; [now apply py_sorted_sorted|].
    intro x. induction l as [|a l IH]; [reflexivity|].
    cbn [py_sorted]. rewrite filter_insert_class. cbn [filter].
    rewrite IH. reflexivity.
  Qed.

  Lemma StableSorted_unique l l1 l2 :
    StableSorted le l l1 -> StableSorted le l l2 -> l1 = l2.
  Proof.
    intros (P1 & S1 & F1) (P2 & S2 & F2).
    assert (P : Permutation l1 l2) by (rewrite <- P1; exact P2).
    assert (F : forall x, filter (fun y => le x y && le y x) l1
                          = filter (fun y => le x y && le y x) l2).
    { intro x. now rewrite F1, F2. }
    clear F1 F2 P1 P2 l. revert l2 P S2 F.
    assert (le_refl : forall x, le x x = true) by (intro x; destruct (le_total x x); auto).
    induction l1 as [|x l1 IH]; intros l2 P S2 F.
    - apply Permutation_nil in P. now subst.
    - destruct l2 as [|y l2]; [apply Permutation_sym, Permutation_nil in P; discriminate|].
      inversion S1 as [|? ? S1' F1]; subst. inversion S2 as [|? ? S2' F2]; subst.
      assert (Hxy : le x y = true).
      { assert (Hin : In y (x :: l1)) by (eapply Permutation_in; [symmetry; exact P|now left]).
        destruct Hin as [->|Hin]; [apply le_refl|].
        rewrite Forall_forall in F1. auto. }
      assert (Hyx : le y x = true).
      { assert (Hin : In x (y :: l2)) by (eapply Permutation_in; [exact P|now left]).
        destruct Hin as [->|Hin]; [apply le_refl|].
        rewrite Forall_forall in F2. auto. }
      assert (Heq : x = y).
      { specialize (F x). cbn [filter] in F. rewrite le_refl, Hxy, Hyx in F. cbn in F.
        now injection F. }
      subst y. f_equal. apply IH.
      + assumption.
      + eapply Permutation_cons_inv; eauto.
      + assumption.
      + intro z. specialize (F z). cbn [filter] in F.
        destruct (le z x && le x z); [now injection F|assumption].
  Qed.
End Stable.

(** *** The concatenation loop *)
Fixpoint body (data : text) (p : Z) (l : list replacement) : text :=
  match l with
  | [] => []
  | (t, a, b) :: rest => slice data p a ++ t ++ body data b rest
  end.
Fixpoint last_end (p : Z) (l : list replacement) : Z :=
  match l with
  | [] => p
  | (_, _, b) :: rest => last_end b rest
  end.
Fixpoint in_orderb (p : Z) (l : list replacement) : bool :=
  match l with
  | [] => true
  | (_, a, b) :: rest => (p <=? a) && (a <=? b) && in_orderb b rest
  end.

Lemma in_orderb_ok p l : in_orderb p l = true <-> in_order p l.
Proof.
  revert p; induction l as [|[[t a] b] l IH]; intro p; cbn; [tauto|].
  rewrite !andb_true_iff, IH, !Z.leb_le. tauto.
Qed.

Lemma concat_loop_some data l joined f p :
  concat_loop data l joined (Some f) (Some p)
  = if in_orderb p l then Ok (joined ++ body data p l, f, last_end p l) else Err ValueError.
Proof.
  revert joined p; induction l as [|[[t a] b] l IH]; intros joined p; cbn.
  - now rewrite app_nil_r.
  - destruct (Z.gtb_spec a b) as [H|H].
    { replace (a <=? b) with false by lia. now rewrite andb_false_r. }
    replace (a <=? b) with true by lia.
    destruct (Z.gtb_spec p a) as [H2|H2].
    { now replace (p <=? a) with false by lia. }
    replace (p <=? a) with true by lia. cbn.
    rewrite IH. destruct (in_orderb b l); [|reflexivity].
    now rewrite !app_assoc.
Qed.

Lemma concatenate_nil data : concatenate_replacements data [] = Ok ([], 0, 0).
Proof. reflexivity. Qed.

Lemma concatenate_cons data t a b l :
  concatenate_replacements data ((t, a, b) :: l)
  = if in_orderb a ((t, a, b) :: l) then Ok (t ++ body data b l, a, last_end b l)
    else Err ValueError.
Proof.
  unfold concatenate_replacements. cbn. rewrite Z.leb_refl. cbn.
  destruct (Z.gtb_spec a b) as [H|H].
  { now replace (a <=? b) with false by lia. }
  replace (a <=? b) with true by lia. cbn. now rewrite concat_loop_some.
Qed.

Lemma in_order_last p l : in_order p l -> p <= last_end p l.
Proof.
  revert p; induction l as [|[[t a] b] l IH]; intro p; cbn; [lia|].
  intros (H1 & H2 & H3). apply IH in H3. lia.
Qed.

Lemma Edited_body data p l :
  0 <= p -> in_order p l -> Edited data p l (body data p l ++ slice_from data (last_end p l)).
Proof.
  revert p; induction l as [|[[t a] b] l IH]; intro p; cbn; intros Hp H.
  - now constructor.
  - destruct H as (H1 & H2 & H3). rewrite <- !app_assoc. constructor; try lia.
    apply IH; [lia|assumption].
Qed.

Lemma Edited_in_order data p l out : Edited data p l out -> in_order p l.
Proof. induction 1; cbn; auto. Qed.
Lemma Edited_fun data p l o1 o2 : Edited data p l o1 -> Edited data p l o2 -> o1 = o2.
Proof.
  intro H. revert o2. induction H as [p Hp|p t a b es out Hp Hpa Hab H IH]; intros o2 H2;
    inversion H2; subst.
  - reflexivity.
  - f_equal. f_equal. auto.
Qed.

(** Result of concatenating a non-empty list as one replacement. *)
Definition squash (data : text) (l : list replacement) : replacement :=
  match l with
  | [] => ([], 0, 0)
  | (t, a, b) :: rest => (t ++ body data b rest, a, last_end b rest)
  end.
Definition gstart (l : list replacement) : Z :=
  match l with [] => 0 | (_, a, _) :: _ => a end.
Definition gordb (l : list replacement) : bool := in_orderb (gstart l) l.

Lemma concatenate_squash data l :
  concatenate_replacements data l = if gordb l then Ok (squash data l) else Err ValueError.
Proof.
  destruct l as [|[[t a] b] l]; [reflexivity|]. apply concatenate_cons.
Qed.

Lemma in_orderb_app p l1 l2 :
  in_orderb p (l1 ++ l2) = in_orderb p l1 && in_orderb (last_end p l1) l2.
Proof.
  revert p; induction l1 as [|[[t a] b] l IH]; intro p; cbn; [reflexivity|].
  rewrite IH. now rewrite !andb_assoc.
Qed.
Lemma last_end_app p l1 l2 : last_end p (l1 ++ l2) = last_end (last_end p l1) l2.
Proof. revert p; induction l1 as [|[[t a] b] l IH]; intro p; cbn; auto. Qed.
Lemma body_app data p l1 l2 :
  body data p (l1 ++ l2) = body data p l1 ++ body data (last_end p l1) l2.
Proof.
  revert p; induction l1 as [|[[t a] b] l IH]; intro p; cbn; [reflexivity|].
  rewrite IH. now rewrite !app_assoc.
Qed.

Lemma squash_group data l : l <> [] -> gordb l = true ->
  exists t a b, squash data l = (t, a, b) /\ a = gstart l /\ a <= b
    /\ (forall p, in_orderb p l = (p <=? a)) /\ (forall p, last_end p l = b)
    /\ (forall p, body data p l = slice data p a ++ t).
Proof.
  destruct l as [|[[t a] b] l]; [congruence|]. intros _. unfold gordb. cbn.
  rewrite Z.leb_refl. cbn. intro H. apply andb_true_iff in H. destruct H as [H1 H2].
  eexists _, _, _. split; [reflexivity|]. split; [reflexivity|].
  apply in_orderb_ok in H2. pose proof (in_order_last _ _ H2).
  split; [lia|]. split; [|split; [reflexivity|]].
  - intro p. apply in_orderb_ok in H2. rewrite H2, H1. now rewrite !andb_true_r.
  - intro p. reflexivity.
Qed.

(** Squashing groups then concatenating is concatenating the flat list. *)
Lemma concat_groups data gs p :
  Forall (fun g => g <> [] /\ gordb g = true) gs ->
  in_orderb p (map (squash data) gs) = in_orderb p (concat gs)
  /\ body data p (map (squash data) gs) = body data p (concat gs)
  /\ last_end p (map (squash data) gs) = last_end p (concat gs).
Proof.
  intro H. revert p. induction H as [|g gs [Hne Hg] H IH]; intro p; [auto|].
  destruct (squash_group data g Hne Hg) as (t & a & b & E & Ha & Hab & Ho & Hl & Hb).
  cbn [map concat]. rewrite E. cbn [in_orderb body last_end].
  rewrite in_orderb_app, body_app, last_end_app, Ho, Hl, Hb.
  destruct (IH b) as (I1 & I2 & I3). rewrite I1, I2, I3.
  replace (a <=? b) with true by lia. rewrite andb_true_r.
  now rewrite !app_assoc.
Qed.

(** *** One substitution *)
Lemma flat_map_perm {A B} (f : A -> list B) l l' :
  Permutation l l' -> Permutation (flat_map f l) (flat_map f l').
Proof. intro H. apply Permutation_flat_map. exact H. Qed.

Lemma concat_perm {A} (l l' : list (list A)) :
  Permutation l l' -> Permutation (concat l) (concat l').
Proof.
  intro H. rewrite <- (map_id l), <- (map_id l'), <- !flat_map_concat_map.
  now apply flat_map_perm.
Qed.

Definition ekv (r : dict text) (kv : label * span) : list edit :=
  match dget r (fst kv) with
  | Some t => [(t, fst (snd kv), snd (snd kv))]
  | None => []
  end.

Lemma edits_of_ekv s r : replacements s = Some r -> edits_of s = flat_map (ekv r) (matched_spans s).
Proof.
  intro E. unfold edits_of. rewrite E. apply flat_map_ext. intros [l [a b]]. reflexivity.
Qed.

Lemma edit_span_leb_total x y : edit_span_leb x y = true \/ edit_span_leb y x = true.
Proof. destruct x as [[? ?] ?], y as [[? ?] ?]. apply span_leb_total. Qed.
Lemma edit_span_leb_trans x y z :
  edit_span_leb x y = true -> edit_span_leb y z = true -> edit_span_leb x z = true.
Proof. destruct x as [[? ?] ?], y as [[? ?] ?], z as [[? ?] ?]. apply span_leb_trans. Qed.

(** Sorting the spans then selecting is selecting then sorting. *)
Lemma sort_then_select r d :
  StableSorted edit_span_leb (flat_map (ekv r) d)
    (flat_map (ekv r) (py_sorted (fun x y : label * span => span_leb (snd x) (snd y)) d)).
Proof.
  set (le := fun x y : label * span => span_leb (snd x) (snd y)).
  assert (T : forall x y, le x y = true \/ le y x = true) by (intros; apply span_leb_total).
  assert (Tr : forall x y z, le x y = true -> le y z = true -> le x z = true)
    by (intros x y z; apply span_leb_trans).
  assert (Hf : forall x l, filter (fun y => edit_span_leb x y && edit_span_leb y x) (flat_map (ekv r) l)
      = flat_map (ekv r) (filter (fun kv => span_leb (snd (fst x), snd x) (snd kv)
                                    && span_leb (snd kv) (snd (fst x), snd x)) l)).
  { intros x l. induction l as [|kv l IH]; [reflexivity|].
    cbn [flat_map]. rewrite filter_app, IH. cbn [filter].
    destruct x as [[t0 a0] b0]. cbn [fst snd].
    unfold ekv at 1. destruct (dget r (fst kv)) as [t|] eqn:E.
    - cbn [filter edit_span_leb]. destruct kv as [k [a b]]. cbn [fst snd] in *.
      destruct (span_leb (a0, b0) (a, b) && span_leb (a, b) (a0, b0)); cbn [flat_map];
        unfold ekv at 2; cbn [fst snd]; rewrite ?E; reflexivity.
    - destruct (span_leb (a0, b0) (snd kv) && span_leb (snd kv) (a0, b0)); cbn [flat_map];
        unfold ekv at 2; rewrite ?E; reflexivity. }
  split; [|split].
  - apply flat_map_perm, py_sorted_perm.
  - pose proof (py_sorted_sorted le T Tr d) as S.
    induction S as [|x l S IH F]; cbn; [constructor|].
    unfold ekv at 1. destruct (dget r (fst x)) as [t|]; [|exact IH].
    cbn. constructor; [exact IH|].
    rewrite Forall_forall in *. intros e He. apply in_flat_map in He.
    destruct He as (kv & Hkv & He). unfold ekv in He.
    destruct (dget r (fst kv)); [|contradiction]. destruct He as [<-|[]].
    specialize (F _ Hkv). unfold le in F. cbn.
    destruct (snd x), (snd kv). exact F.
  - intro x. rewrite !Hf.
    destruct (py_sorted_stable le T Tr d) as (_ & _ & F).
    destruct x as [[t0 a0] b0]. cbn [fst snd].
    specialize (F ([], (a0, b0))). unfold le in F. cbn [snd] in F. fold le in F.
    now rewrite F.
Qed.

(** The sorted edits of a validated substitution. *)
Definition sorted_edits (s : substitution) : list edit := py_sorted edit_span_leb (edits_of s).

Lemma validate_subset s r :
  validate s = Ok tt -> replacements s = Some r ->
  forallb (fun k => dmem (matched_spans s) k) (dkeys r) = true.
Proof.
  unfold validate. intros H E. rewrite E in H.
  destruct (match category s with Some c => _ | None => false end); [discriminate|].
  destruct (negb (dmem (matched_spans s) (primary_label s))); [discriminate|].
  destruct (forallb _ (dkeys r)); [reflexivity|discriminate].
Qed.

Lemma rewrite_to_replacements_ok s :
  validate s = Ok tt ->
  rewrite_to_replacements (matched_spans s) (replacements s) = Ok (sorted_edits s).
Proof.
  intro H. unfold rewrite_to_replacements, sorted_edits.
  destruct (replacements s) as [r|] eqn:E.
  - rewrite (validate_subset s r H E). f_equal.
    apply (StableSorted_unique edit_span_leb edit_span_leb_total (edits_of s)).
    + rewrite (edits_of_ekv s r E). apply sort_then_select.
    + apply py_sorted_stable; [apply edit_span_leb_total|apply edit_span_leb_trans].
  - unfold edits_of. rewrite E. replace (flat_map _ _) with (@nil edit); [reflexivity|].
    induction (matched_spans s) as [|[l [a b]] d IH]; [reflexivity|]. exact IH.
Qed.

Definition group (s : substitution) : list edit :=
  match sorted_edits s with [] => [([], 0, 0)] | es => es end.

Lemma is_group_iff s g : is_group s g <-> g = group s.
Proof.
  pose proof (py_sorted_stable edit_span_leb edit_span_leb_total edit_span_leb_trans (edits_of s)) as S.
  unfold is_group, group, sorted_edits. split.
  - intros (es & Hes & ->).
    rewrite (StableSorted_unique edit_span_leb edit_span_leb_total _ _ _ Hes S).
    destruct (py_sorted edit_span_leb (edits_of s)); reflexivity.
  - intros ->. eexists. split; [exact S|].
    destruct (py_sorted edit_span_leb (edits_of s)); reflexivity.
Qed.

Lemma sub_to_replacement data s :
  validate s = Ok tt ->
  substitution_to_replacement data s
  = if gordb (group s) then Ok (squash data (group s)) else Err ValueError.
Proof.
  intro H. unfold substitution_to_replacement. rewrite rewrite_to_replacements_ok by assumption.
  cbn [bind]. rewrite concatenate_squash. unfold group.
  destruct (sorted_edits s); reflexivity.
Qed.

Lemma group_nonempty s : group s <> [].
Proof. unfold group. destruct (sorted_edits s); discriminate. Qed.

(** *** All substitutions *)
Lemma mapM_groups data subs :
  Forall (fun s => validate s = Ok tt) subs ->
  mapM (substitution_to_replacement data) subs
  = if forallb (fun s => gordb (group s)) subs
    then Ok (map (fun s => squash data (group s)) subs) else Err ValueError.
Proof.
  induction 1 as [|s subs H Hs IH]; [reflexivity|].
  cbn [mapM forallb map]. rewrite sub_to_replacement by assumption.
  destruct (gordb (group s)); [|reflexivity]. cbn [bind andb]. rewrite IH.
  destruct (forallb _ subs); reflexivity.
Qed.

Definition gleb (x y : list edit) : bool := gstart x <=? gstart y.
Definition order_of (subs : list substitution) : list edit :=
  concat (py_sorted gleb (map group subs)).

Lemma sort_insert_map {A B} (le : A -> A -> bool) (le' : B -> B -> bool) (f : A -> B) x l :
  (forall x y, le' (f x) (f y) = le x y) ->
  sort_insert le' (f x) (map f l) = map f (sort_insert le x l).
Proof.
  intro H. induction l as [|y l IH]; cbn; [reflexivity|].
  rewrite H. destruct (le x y); [reflexivity|]. cbn. now rewrite IH.
Qed.
Lemma py_sorted_map {A B} (le : A -> A -> bool) (le' : B -> B -> bool) (f : A -> B) l :
  (forall x y, le' (f x) (f y) = le x y) ->
  py_sorted le' (map f l) = map f (py_sorted le l).
Proof.
  intro H. induction l as [|x l IH]; cbn; [reflexivity|].
  rewrite IH. now apply sort_insert_map.
Qed.

Lemma py_sorted_map_in {A B} (le : A -> A -> bool) (le' : B -> B -> bool) (f : A -> B) (P : A -> Prop) l :
  (forall x y, P x -> P y -> le' (f x) (f y) = le x y) -> Forall P l ->
  py_sorted le' (map f l) = map f (py_sorted le l).
Proof.
  intros H HP. induction HP as [|x l Hx HP IH]; cbn; [reflexivity|]. rewrite IH.
  assert (HP' : Forall P (py_sorted le l))
    by (eapply Permutation_Forall; [apply py_sorted_perm|assumption]).
  clear IH HP. induction HP' as [|y m Hy HP' IHm]; cbn; [reflexivity|].
  rewrite H by assumption. destruct (le x y); [reflexivity|]. cbn. now rewrite IHm.
Qed.

Lemma squash_start data g : rep_start (squash data g) = gstart g.
Proof. destruct g as [|[[t a] b] g]; reflexivity. Qed.

Lemma Forall_sorted_groups subs :
  forallb (fun s => gordb (group s)) subs = true ->
  Forall (fun g => g <> [] /\ gordb g = true) (py_sorted gleb (map group subs)).
Proof.
  intro H. apply (Permutation_Forall (py_sorted_perm gleb (map group subs))).
  apply Forall_forall. intros g Hg. apply in_map_iff in Hg. destruct Hg as (s & <- & Hs).
  split; [apply group_nonempty|]. rewrite forallb_forall in H. auto.
Qed.

Lemma in_orderb_groups p gs g :
  in_orderb p (concat gs) = true -> In g gs -> g <> [] -> gordb g = true.
Proof.
  revert p; induction gs as [|g' gs IH]; intros p H Hin Hne; [contradiction|].
  cbn [concat] in H. rewrite in_orderb_app in H. apply andb_true_iff in H. destruct H as [H1 H2].
  destruct Hin as [->|Hin].
  - destruct g as [|[[t a] b] g]; [congruence|]. unfold gordb. cbn in *.
    rewrite Z.leb_refl. cbn. lia.
  - eapply IH; eauto.
Qed.

Lemma gleb_total x y : gleb x y = true \/ gleb y x = true.
Proof. unfold gleb. lia. Qed.
Lemma gleb_trans x y z : gleb x y = true -> gleb y z = true -> gleb x z = true.
Proof. unfold gleb. lia. Qed.

Lemma edits_nonneg s e :
  nonneg_spans s -> In e (edits_of s) -> 0 <= snd (fst e).
Proof.
  unfold nonneg_spans, edits_of. intros H He. apply in_flat_map in He.
  destruct He as ((l & a & b) & Hin & He). rewrite Forall_forall in H. specialize (H _ Hin).
  destruct (replacements s) as [r|]; [|contradiction].
  destruct (dget r l); [|contradiction]. destruct He as [<-|[]]. exact H.
Qed.

(** Only the spans that are replaced matter. *)
Definition nonneg_edits (s : substitution) : Prop := forall e, In e (edits_of s) -> 0 <= snd (fst e).
Lemma nonneg_weaken subs : Forall nonneg_spans subs -> Forall nonneg_edits subs.
Proof. intros H. eapply Forall_impl; [|exact H]. intros s Hs e. now apply edits_nonneg. Qed.
Lemma group_nonneg_edits s e : nonneg_edits s -> In e (group s) -> 0 <= snd (fst e).
Proof.
  intros H He. unfold group in He. destruct (sorted_edits s) as [|e0 es] eqn:E.
  - destruct He as [<-|[]]. cbn. lia.
  - apply H.
    eapply Permutation_in; [symmetry; apply (py_sorted_perm edit_span_leb)|].
    fold (sorted_edits s). now rewrite E.
Qed.
Lemma group_nonneg s e : nonneg_spans s -> In e (group s) -> 0 <= snd (fst e).
Proof. intros H. apply group_nonneg_edits. intros x. now apply edits_nonneg. Qed.

Lemma order_nonneg subs : Forall nonneg_edits subs -> Forall (fun e : edit => 0 <= snd (fst e)) (order_of subs).
Proof.
  intro H. apply Forall_forall. intros e He. unfold order_of in He.
  apply in_concat in He. destruct He as (g & Hg & He).
  eapply Permutation_in in Hg; [|symmetry; apply py_sorted_perm].
  apply in_map_iff in Hg. destruct Hg as (s & <- & Hs).
  rewrite Forall_forall in H. eapply group_nonneg_edits; eauto.
Qed.

Lemma in_orderb_start0 l :
  Forall (fun e : edit => 0 <= snd (fst e)) l -> in_orderb 0 l = gordb l.
Proof.
  destruct l as [|[[t a] b] l]; [reflexivity|]. intro H. inversion H as [|? ? Ha ?]; subst.
  unfold gordb. cbn in *. rewrite Z.leb_refl. now replace (0 <=? a) with true by lia.
Qed.

Lemma apply_eq_edits data subs :
  Forall (fun s => validate s = Ok tt) subs -> Forall nonneg_edits subs ->
  apply_substitutions data subs
  = if in_orderb 0 (order_of subs)
    then Ok (body data 0 (order_of subs) ++ slice_from data (last_end 0 (order_of subs)))
    else Err ValueError.
Proof.
  intros Hv Hn. unfold apply_substitutions. rewrite mapM_groups by assumption.
  pose proof (order_nonneg subs Hn) as Hnn.
  destruct (forallb (fun s => gordb (group s)) subs) eqn:Eg.
  - cbn [bind].
    replace (map (fun s => squash data (group s)) subs) with (map (squash data) (map group subs))
      by (now rewrite map_map).
    rewrite (py_sorted_map gleb) by (intros; now rewrite !squash_start).
    pose proof (Forall_sorted_groups subs Eg) as HF.
    unfold order_of in *. set (gs := py_sorted gleb (map group subs)) in *.
    rewrite concatenate_squash.
    assert (Hg : gordb (map (squash data) gs) = in_orderb 0 (concat gs)).
    { rewrite in_orderb_start0 by assumption. unfold gordb.
      replace (gstart (map (squash data) gs)) with (gstart (concat gs)).
      - apply concat_groups. assumption.
      - inversion HF as [|g gs' [Hne _] _]; [reflexivity|].
        destruct g as [|[[t a] b] g]; [congruence|reflexivity]. }
    rewrite Hg. destruct (in_orderb 0 (concat gs)) eqn:Eo; [|reflexivity].
    cbn [bind].
    destruct (concat_groups data gs 0 HF) as (_ & HB & HL). rewrite <- HB, <- HL.
    destruct (map (squash data) gs) as [|[[t a] b] gs'].
    + cbn. unfold slice_to. now rewrite slice_empty.
    + cbn [squash body last_end]. unfold slice_to. now rewrite !app_assoc.
  - cbn [bind]. destruct (in_orderb 0 (order_of subs)) eqn:Eo; [|reflexivity].
    exfalso. assert (forallb (fun s => gordb (group s)) subs = true); [|congruence].
    apply forallb_forall. intros s Hs. unfold order_of in Eo.
    eapply in_orderb_groups; [exact Eo| |apply group_nonempty].
    eapply Permutation_in; [apply py_sorted_perm|]. apply in_map_iff. eauto.
Qed.
Lemma apply_eq data subs :
  Forall (fun s => validate s = Ok tt) subs -> Forall nonneg_spans subs ->
  apply_substitutions data subs
  = if in_orderb 0 (order_of subs)
    then Ok (body data 0 (order_of subs) ++ slice_from data (last_end 0 (order_of subs)))
    else Err ValueError.
Proof. intros Hv Hn. apply apply_eq_edits; [exact Hv|now apply nonneg_weaken]. Qed.

Lemma Forall2_groups subs gs : Forall2 is_group subs gs <-> gs = map group subs.
Proof.
  revert gs; induction subs as [|s subs IH]; intro gs; cbn; split; intro H.
  - now inversion H.
  - subst. constructor.
  - inversion H as [|? g ? gs' Hg Hgs]; subst. apply is_group_iff in Hg. apply IH in Hgs. congruence.
  - subst. constructor; [now apply is_group_iff|]. now apply IH.
Qed.

Lemma is_edit_order_iff subs order : is_edit_order subs order <-> order = order_of subs.
Proof.
  assert (HS : forall l, StableSorted group_leb l (py_sorted gleb l)).
  { intro l. apply (py_sorted_stable gleb gleb_total gleb_trans). }
  unfold is_edit_order, order_of. split.
  - intros (gs & gs' & HF & Hst & ->). apply Forall2_groups in HF. subst gs.
    f_equal. apply (StableSorted_unique gleb gleb_total (map group subs)); [exact Hst|apply HS].
  - intros ->. exists (map group subs), (py_sorted gleb (map group subs)).
    split; [now apply Forall2_groups|]. split; [apply HS|reflexivity].
Qed.

Lemma wf_validate subs : Forall wf_sub subs -> Forall (fun s => validate s = Ok tt) subs.
Proof. apply Forall_impl. intros s H. apply H. Qed.

(** C02 (and the exact form of C01). *)
Lemma apply_exact_edits data subs order :
  Forall wf_sub subs -> Forall nonneg_edits subs -> is_edit_order subs order ->
  (in_order 0 order -> exists out, apply_substitutions data subs = Ok out /\ Edited data 0 order out)
  /\ (~ in_order 0 order -> apply_substitutions data subs = Err ValueError).
Proof.
  intros Hw Hn Ho. apply is_edit_order_iff in Ho. subst order.
  rewrite (apply_eq_edits data subs (wf_validate _ Hw) Hn).
  rewrite <- !in_orderb_ok. split; intro H.
  - rewrite H. eexists. split; [reflexivity|]. apply Edited_body; [lia|]. now apply in_orderb_ok.
  - destruct (in_orderb 0 (order_of subs)); [congruence|reflexivity].
Qed.

Lemma apply_exact data subs order :
  Forall wf_sub subs -> Forall nonneg_spans subs -> is_edit_order subs order ->
  (in_order 0 order -> exists out, apply_substitutions data subs = Ok out /\ Edited data 0 order out)
  /\ (~ in_order 0 order -> apply_substitutions data subs = Err ValueError).
Proof. intros Hw Hn. apply apply_exact_edits; [exact Hw|now apply nonneg_weaken]. Qed.

(** Dropping an empty edit at offset 0. *)
Lemma Edited_drop0 data p x y out :
  Edited data p (x ++ ([], 0, 0) :: y) out -> Edited data p (x ++ y) out.
Proof.
  revert p out; induction x as [|[[t a] b] x IH]; intros p out; cbn.
  - intro H. inversion H as [|? ? ? ? ? out' Hp Hpa Hab H']; subst. assert (p = 0) by lia. subst p.
    rewrite slice_empty. exact H'.
  - intro H. inversion H as [|? ? ? ? ? out' Hp Hpa Hab H']; subst. constructor; auto.
Qed.

Lemma edits_group s : edits_of s = [] -> group s = [([], 0, 0)].
Proof. intro E. unfold group, sorted_edits. now rewrite E. Qed.
Lemma group_edits s : edits_of s <> [] -> Permutation (edits_of s) (group s).
Proof.
  intro H. unfold group. pose proof (py_sorted_perm edit_span_leb (edits_of s)) as P.
  fold (sorted_edits s) in P. destruct (sorted_edits s) as [|e es] eqn:E; [|exact P].
  apply Permutation_sym, Permutation_nil in P. congruence.
Qed.

Lemma order_perm_pseudo subs :
  exists k, Permutation (order_of subs) (repeat ([], 0, 0) k ++ flat_map edits_of subs).
Proof.
  assert (H : exists k, Permutation (concat (map group subs)) (repeat ([], 0, 0) k ++ flat_map edits_of subs)).
  { induction subs as [|s subs (k & IH)]; [exists 0%nat; reflexivity|].
    cbn [map concat flat_map]. destruct (edits_of s) as [|e es] eqn:E.
    - exists (S k). rewrite (edits_group s E). cbn. now constructor.
    - exists k. rewrite IH. rewrite <- (group_edits s) by congruence. rewrite E.
      rewrite !app_assoc. apply Permutation_app_tail. apply Permutation_app_comm. }
  destruct H as (k & H). exists k. rewrite <- H. unfold order_of.
  apply concat_perm. symmetry. apply py_sorted_perm.
Qed.

Lemma drop_pseudo data k : forall es real out,
  Permutation es (repeat ([], 0, 0) k ++ real) -> Edited data 0 es out ->
  exists es', Permutation es' real /\ Edited data 0 es' out.
Proof.
  induction k as [|k IH]; intros es real out P H.
  - exists es. auto.
  - cbn in P. assert (Hin : In ([], 0, 0) es) by (eapply Permutation_in; [symmetry; exact P|now left]).
    apply in_split in Hin. destruct Hin as (x & y & ->).
    apply Edited_drop0 in H. apply (IH (x ++ y)); [|exact H].
    apply Permutation_cons_inv with (a := ([], 0, 0)). rewrite <- P. apply Permutation_middle.
Qed.

(** C01 *)
Lemma apply_edits_of data subs out :
  Forall wf_sub subs -> Forall nonneg_edits subs ->
  apply_substitutions data subs = Ok out ->
  exists es, Permutation es (flat_map edits_of subs) /\ Edited data 0 es out.
Proof.
  intros Hw Hn H.
  destruct (order_perm_pseudo subs) as (k & P).
  pose proof (apply_exact_edits data subs (order_of subs) Hw Hn (proj2 (is_edit_order_iff _ _) eq_refl)) as [H1 H2].
  destruct (in_orderb 0 (order_of subs)) eqn:E.
  - apply in_orderb_ok in E. destruct (H1 E) as (out' & Ho & He).
    assert (out' = out) by congruence. subst out'. eapply drop_pseudo; eauto.
  - rewrite H2 in H; [discriminate|]. rewrite <- in_orderb_ok. congruence.
Qed.

Lemma apply_edits data subs out :
  Forall wf_sub subs -> Forall nonneg_spans subs ->
  apply_substitutions data subs = Ok out ->
  exists es, Permutation es (flat_map edits_of subs) /\ Edited data 0 es out.
Proof. intros Hw Hn. apply apply_edits_of; [exact Hw|now apply nonneg_weaken]. Qed.

Lemma edits_of_wants s e : wf_sub s -> (In e (edits_of s) <-> exists l, wants s l e).
Proof.
  intros (Hd & Hr & Hv). unfold edits_of, wants. rewrite in_flat_map. split.
  - intros ((l & a & b) & Hin & He). destruct (replacements s) as [r|] eqn:E; [|contradiction].
    destruct (dget r l) as [t|] eqn:El; [|contradiction]. destruct He as [<-|[]].
    exists l, r, a, b, t. repeat split; auto. now apply dget_In.
  - intros (l & r & a & b & t & E & Hin & Ht & ->). exists (l, (a, b)). split; [assumption|].
    rewrite E. rewrite (In_dget r l t); [now left| |assumption]. now apply Hr.
Qed.

(** *** C02 corollaries *)
Lemma in_order_pairs p l : in_order p l ->
  Forall (fun e => p <= edit_start e /\ edit_wf e) l /\ ForallOrdPairs edit_ends_before l.
Proof.
  revert p; induction l as [|[[t a] b] l IH]; intro p; cbn; intro H; [repeat constructor|].
  destruct H as (H1 & H2 & H3). destruct (IH b H3) as (F & P). split.
  - constructor; [cbn; lia|]. eapply Forall_impl; [|exact F]. intros [[? ?] ?]; cbn. lia.
  - constructor; [|exact P]. eapply Forall_impl; [|exact F]. intros [[? ?] ?]; cbn. lia.
Qed.

Lemma ForallOrdPairs_perm {A} (R : A -> A -> Prop) l l' :
  (forall x y, R x y -> R y x) -> Permutation l l' -> ForallOrdPairs R l -> ForallOrdPairs R l'.
Proof.
  intros Hsym P. induction P as [|x l l' P IH|x y l|l1 l2 l3 P1 IH1 P2 IH2]; intro H.
  - constructor.
  - inversion H as [|? ? F Hl]; subst. constructor; [|auto].
    eapply Permutation_Forall; eauto.
  - inversion H as [|? ? F Hl]; subst. inversion Hl as [|? ? F2 Hl2]; subst.
    inversion F as [|? ? Rxy F3]; subst. constructor; [constructor; auto|]. constructor; auto.
  - auto.
Qed.

Lemma ForallOrdPairs_impl {A} (R S : A -> A -> Prop) l :
  (forall x y, R x y -> S x y) -> ForallOrdPairs R l -> ForallOrdPairs S l.
Proof.
  intros H F. induction F as [|x l Hx F IH]; constructor; [|assumption].
  eapply Forall_impl; [|exact Hx]. auto.
Qed.

Lemma ForallOrdPairs_app_r {A} (R : A -> A -> Prop) l1 l2 :
  ForallOrdPairs R (l1 ++ l2) -> ForallOrdPairs R l2.
Proof.
  induction l1 as [|x l IH]; cbn; [auto|]. intro H. inversion H; subst; auto.
Qed.

Lemma no_common_char_sym x y : no_common_char x y -> no_common_char y x.
Proof.
  destruct x as [[? ?] ?], y as [[? ?] ?]. cbn. intros H i [H1 H2]. apply (H i). auto.
Qed.

Lemma ends_before_no_common x y : edit_ends_before x y -> no_common_char x y.
Proof. destruct x as [[? ?] ?], y as [[? ?] ?]. cbn. intros H i. lia. Qed.

Lemma apply_ok_disjoint data subs out :
  Forall wf_sub subs -> Forall nonneg_spans subs ->
  apply_substitutions data subs = Ok out ->
  Forall edit_wf (flat_map edits_of subs)
  /\ ForallOrdPairs no_common_char (flat_map edits_of subs).
Proof.
  intros Hw Hn H. destruct (apply_edits data subs out Hw Hn H) as (es & P & E).
  apply Edited_in_order in E. apply in_order_pairs in E. destruct E as (F & Q). split.
  - eapply Permutation_Forall; [exact P|]. eapply Forall_impl; [|exact F]. cbn. tauto.
  - eapply ForallOrdPairs_perm; [apply no_common_char_sym|exact P|].
    eapply ForallOrdPairs_impl; [|exact Q]. apply ends_before_no_common.
Qed.

(** Separate substitutions never fail. *)
Lemma sorted_pairs_in_order p l :
  (forall e, In e l -> p <= edit_start e) -> Forall edit_wf l ->
  ForallOrdPairs (fun x y => edit_ends_before x y \/ edit_ends_before y x) l ->
  StronglySorted (fun x y => edit_span_leb x y = true) l -> in_order p l.
Proof.
  revert p; induction l as [|[[t a] b] l IH]; intros p Hp Hw Hd Hs; cbn; [exact I|].
  inversion Hw as [|? ? Hab Hw']; subst. inversion Hd as [|? ? Hd1 Hd']; subst.
  inversion Hs as [|? ? Hs' Hs1]; subst.
  split; [apply (Hp (t, a, b)); now left|]. split; [exact Hab|].
  apply IH; auto. intros [[t' c] d] Hin. rewrite Forall_forall in Hd1, Hs1, Hw'.
  specialize (Hd1 _ Hin). specialize (Hs1 _ Hin). specialize (Hw' _ Hin).
  cbn in *. unfold span_leb in Hs1. cbn in Hs1. lia.
Qed.

Lemma concat_in_order p gs :
  (forall g, In g gs -> g <> [] /\ gordb g = true /\ p <= gstart g) ->
  ForallOrdPairs (fun g h => forall x y, In x g -> In y h -> edit_ends_before x y) gs ->
  in_order p (concat gs).
Proof.
  revert p; induction gs as [|g gs IH]; intros p Hg Hp; cbn; [exact I|].
  inversion Hp as [|? ? Hf Hp']; subst.
  destruct (Hg g (or_introl eq_refl)) as (Hne & Ho & Hpg).
  apply in_orderb_ok. rewrite in_orderb_app.
  destruct (squash_group [] g Hne Ho) as (t & a & b & _ & Ha & Hab & Hob & Hlb & _).
  rewrite Hob, Hlb. subst a. replace (p <=? gstart g) with true by lia. cbn.
  apply in_orderb_ok. apply IH; [|assumption].
  intros h Hh. destruct (Hg h (or_intror Hh)) as (Hneh & Hoh & _). repeat split; auto.
  rewrite Forall_forall in Hf. specialize (Hf h Hh).
  destruct h as [|[[t' c] d] h]; [congruence|]. cbn.
  assert (Hlast : exists x, In x g /\ edit_end x = b).
  { rewrite <- (Hlb 0). clear - Hne. generalize 0. induction g as [|[[u v] w] g IHg]; [congruence|].
    intro z. cbn. destruct g as [|e g].
    - exists (u, v, w). cbn. auto.
    - destruct (IHg ltac:(discriminate) w) as (x & Hx & Ex). exists x. split; [now right|exact Ex]. }
  destruct Hlast as ([[t1 a1] b1] & Hx & Eb). cbn in Eb. subst b1.
  apply (Hf _ (t', c, d) Hx). now left.
Qed.

Lemma StronglySorted_pairs {A} (R : A -> A -> Prop) l : StronglySorted R l -> ForallOrdPairs R l.
Proof. induction 1; constructor; auto. Qed.

Lemma ForallOrdPairs_and {A} (R S : A -> A -> Prop) l :
  ForallOrdPairs R l -> ForallOrdPairs S l -> ForallOrdPairs (fun x y => R x y /\ S x y) l.
Proof.
  intro H. induction H as [|x l Hx H IH]; intro HS; constructor.
  - inversion HS; subst. rewrite Forall_forall in *. auto.
  - inversion HS; subst. auto.
Qed.

Lemma apply_separate_ok data subs :
  Forall wf_sub subs -> Forall nonneg_spans subs ->
  (forall s, In s subs -> edits_of s <> [] /\ Forall edit_wf (edits_of s)
     /\ ForallOrdPairs (fun x y => edit_ends_before x y \/ edit_ends_before y x) (edits_of s)) ->
  ForallOrdPairs (fun s t => left_of s t \/ left_of t s) subs ->
  exists out, apply_substitutions data subs = Ok out.
Proof.
  intros Hw Hn Hs Hp.
  rewrite (apply_eq data subs (wf_validate _ Hw) Hn).
  assert (Hg : forall s, In s subs -> group s <> [] /\ gordb (group s) = true /\ 0 <= gstart (group s)).
  { intros s Hin. split; [apply group_nonempty|].
    destruct (Hs s Hin) as (Hne & Hwf & Hd).
    pose proof (group_edits s Hne) as P.
    assert (Hnn : 0 <= gstart (group s)).
    { rewrite Forall_forall in Hn. specialize (Hn s Hin).
      pose proof (group_nonneg s) as G. pose proof (group_nonempty s) as N.
      destruct (group s) as [|[[t a] b] g] eqn:E; [congruence|]. cbn.
      apply (G (t, a, b)); [assumption|now left]. }
    split; [|exact Hnn].
    unfold gordb. apply in_orderb_ok.
    assert (HS : StronglySorted (fun x y => edit_span_leb x y = true) (group s)).
    { unfold group. destruct (sorted_edits s) as [|e es] eqn:E.
      - repeat constructor.
      - rewrite <- E. apply py_sorted_sorted; [apply edit_span_leb_total|apply edit_span_leb_trans]. }
    apply sorted_pairs_in_order; [| | |exact HS].
    - intros e He. destruct (group s) as [|[[t a] b] g] eqn:E; [contradiction|].
      cbn. destruct He as [<-|He]; [cbn; lia|].
      inversion HS as [|? ? _ HF]; subst. rewrite Forall_forall in HF. specialize (HF e He).
      destruct e as [[t' c] d]. cbn in *. unfold span_leb in HF. cbn in HF. lia.
    - eapply Permutation_Forall; eauto.
    - eapply ForallOrdPairs_perm; [|exact P|exact Hd]. tauto. }
  assert (Ho : in_order 0 (order_of subs)).
  { unfold order_of. apply concat_in_order.
    - intros g Hin. eapply Permutation_in in Hin; [|symmetry; apply py_sorted_perm].
      apply in_map_iff in Hin. destruct Hin as (s & <- & Hin). auto.
    - set (R := fun g h : list edit =>
        (forall x y, In x g -> In y h -> edit_ends_before x y /\ edit_starts_before x y)
        \/ (forall x y, In x h -> In y g -> edit_ends_before x y /\ edit_starts_before x y)).
      assert (HR : ForallOrdPairs R (py_sorted gleb (map group subs))).
      { eapply ForallOrdPairs_perm; [|apply py_sorted_perm|].
        - unfold R. tauto.
        - clear Hg Hw Hn. induction subs as [|s subs IH]; [constructor|].
          inversion Hp as [|? ? Hf Hp']; subst. cbn. constructor.
          + apply Forall_forall. intros g Hin. apply in_map_iff in Hin. destruct Hin as (t & <- & Hin).
            rewrite Forall_forall in Hf. specialize (Hf t Hin).
            assert (Ps : Permutation (edits_of s) (group s))
              by (apply group_edits; apply Hs; now left).
            assert (Pt : Permutation (edits_of t) (group t))
              by (apply group_edits; apply Hs; now right).
            unfold R. destruct Hf as [Hf|Hf]; [left|right]; intros x y Hx Hy; apply Hf;
              (eapply Permutation_in; [symmetry; eassumption|assumption]).
          + apply IH; [|assumption]. intros t Ht. apply Hs. now right. }
      pose proof (StronglySorted_pairs _ _ (py_sorted_sorted gleb gleb_total gleb_trans (map group subs))) as HS.
      pose proof (ForallOrdPairs_and _ _ _ HR HS) as HRS.
      assert (Hne : Forall (fun g => g <> []) (py_sorted gleb (map group subs))).
      { eapply Permutation_Forall; [apply py_sorted_perm|]. apply Forall_forall.
        intros g Hin. apply in_map_iff in Hin. destruct Hin as (s & <- & Hin). apply group_nonempty. }
      clear - HRS Hne. induction HRS as [|g gs Hf HRS IH]; [constructor|].
      inversion Hne as [|? ? Hg Hgs]; subst. constructor; [|auto].
      rewrite Forall_forall in *. intros h Hh. destruct (Hf h Hh) as ([H|H] & Hle).
      + intros x y Hx Hy. now apply H.
      + exfalso. specialize (Hgs h Hh). unfold gleb in Hle.
        destruct g as [|[[t a] b] g]; [congruence|]. destruct h as [|[[t' c] d] h]; [congruence|].
        destruct (H (t', c, d) (t, a, b)) as [_ H2]; [now left|now left|]. cbn in *. lia. }
  apply in_orderb_ok in Ho. rewrite Ho. eauto.
Qed.

(** *** C03 *)
Section MinKey.
  Context {A : Type} (key : A -> Z).
  Let le (x y : A) := key x <=? key y.
  Lemma sorted_min_first k l :
    Forall (fun x => k <= key x) l ->
    py_sorted le l = filter (fun x => key x =? k) l ++ py_sorted le (filter (fun x => negb (key x =? k)) l).
  Proof.
    induction l as [|x l IH]; intro H; [reflexivity|].
    inversion H as [|? ? Hx Hl]; subst. cbn [py_sorted filter]. rewrite IH by assumption.
    destruct (Z.eqb_spec (key x) k) as [E|E]; cbn [negb].
    - assert (G : forall m, Forall (fun y => k <= key y) m -> sort_insert le x m = x :: m).
      { intros [|y m] Hm; [reflexivity|]. inversion Hm; subst. cbn. unfold le.
        now replace (key x <=? key y) with true by lia. }
      cbn [app]. apply G. rewrite <- IH by assumption.
      eapply Permutation_Forall; [apply py_sorted_perm|assumption].
    - cbn [py_sorted].
      assert (G : forall m n, Forall (fun y => key y = k) m ->
        sort_insert le x (m ++ n) = m ++ sort_insert le x n).
      { induction m as [|y m IHm]; intros n Hm; [reflexivity|]. inversion Hm; subst. cbn. unfold le at 1.
        replace (key x <=? key y) with false by lia. f_equal. now apply IHm. }
      apply G. apply Forall_forall. intros y Hy. apply filter_In in Hy. lia.
  Qed.
End MinKey.

Lemma sorted_insert_zero (xs ys : list (list edit)) g :
  gstart g = 0 -> Forall (fun h => 0 <= gstart h) xs -> Forall (fun h => 0 <= gstart h) ys ->
  exists rest,
    py_sorted gleb (xs ++ g :: ys) = filter (fun h => gstart h =? 0) xs ++ g :: rest
    /\ py_sorted gleb (xs ++ ys) = filter (fun h => gstart h =? 0) xs ++ rest.
Proof.
  intros Hg Hx Hy.
  exists (filter (fun h => gstart h =? 0) ys
          ++ py_sorted gleb (filter (fun h => negb (gstart h =? 0)) (xs ++ ys))).
  split.
  - change gleb with (fun x y => gstart x <=? gstart y).
    rewrite (sorted_min_first gstart 0).
    + rewrite !filter_app. cbn [filter]. rewrite Hg. cbn. now rewrite <- app_assoc.
    + apply Forall_app. split; [assumption|]. constructor; [lia|assumption].
  - change gleb with (fun x y => gstart x <=? gstart y).
    rewrite (sorted_min_first gstart 0).
    + rewrite !filter_app. now rewrite <- app_assoc.
    + apply Forall_app. auto.
Qed.

Lemma groups_nonneg subs : Forall nonneg_spans subs -> Forall (fun g => 0 <= gstart g) (map group subs).
Proof.
  intro H. apply Forall_forall. intros g Hg. apply in_map_iff in Hg. destruct Hg as (s & <- & Hs).
  rewrite Forall_forall in H. specialize (H s Hs).
  pose proof (group_nonneg s) as G. pose proof (group_nonempty s) as N.
  destruct (group s) as [|[[t a] b] g]; [congruence|]. apply (G (t, a, b)); [assumption|now left].
Qed.

Lemma last_end_zero l : (forall e, In e l -> edit_end e = 0) -> last_end 0 l = 0.
Proof.
  assert (G : forall p, p = 0 -> (forall e, In e l -> edit_end e = 0) -> last_end p l = 0).
  { induction l as [|[[t a] b] l IH]; intros p Hp H; cbn; [assumption|].
    apply IH; [apply (H (t, a, b)); now left|]. intros e He. apply H. now right. }
  auto.
Qed.

Lemma last_end_ge p l e : in_order p l -> In e l -> edit_end e <= last_end p l.
Proof.
  revert p; induction l as [|[[t a] b] l IH]; intros p H Hin; [contradiction|].
  cbn in *. destruct H as (H1 & H2 & H3). destruct Hin as [<-|Hin].
  - cbn. now apply in_order_last.
  - eauto.
Qed.

Lemma group_has_zero s : nonneg_spans s -> edits_of s <> [] ->
  (gstart (group s) = 0 <-> exists e, In e (edits_of s) /\ edit_start e = 0).
Proof.
  intros Hn Hne. pose proof (group_edits s Hne) as P. pose proof (group_nonempty s) as N.
  assert (HS : StronglySorted (fun x y => edit_span_leb x y = true) (group s)).
  { unfold group. destruct (sorted_edits s) as [|e es] eqn:E.
    - repeat constructor.
    - rewrite <- E. apply py_sorted_sorted; [apply edit_span_leb_total|apply edit_span_leb_trans]. }
  destruct (group s) as [|[[t a] b] g] eqn:E; [congruence|]. cbn. split.
  - intros ->. exists (t, 0, b). split; [|reflexivity].
    eapply Permutation_in; [symmetry; exact P|now left].
  - intros (e & He & Hz). eapply Permutation_in in He; [|exact P]. destruct He as [<-|He]; [exact Hz|].
    inversion HS as [|? ? _ HF]; subst. rewrite Forall_forall in HF. specialize (HF e He).
    assert (0 <= a). { apply (edits_nonneg s (t, a, b)); [assumption|].
      eapply Permutation_in; [symmetry; exact P|now left]. }
    destruct e as [[t' c] d]. cbn in *. unfold span_leb in HF. cbn in HF. lia.
Qed.

Lemma match_only_apply data xs m ys :
  Forall wf_sub (xs ++ m :: ys) -> Forall nonneg_spans (xs ++ m :: ys) -> edits_of m = [] ->
  ((forall s, In s xs -> ~ reaches_from_zero s) ->
     apply_substitutions data (xs ++ m :: ys) = apply_substitutions data (xs ++ ys))
  /\ ((exists s, In s xs /\ reaches_from_zero s) ->
     apply_substitutions data (xs ++ m :: ys) = Err ValueError).
Proof.
  intros Hw Hn Hm.
  assert (Hw' : Forall wf_sub (xs ++ ys)).
  { rewrite Forall_app in *. destruct Hw as [? Hw]. inversion Hw; auto. }
  assert (Hn' : Forall nonneg_spans (xs ++ ys)).
  { rewrite Forall_app in *. destruct Hn as [? Hn]. inversion Hn; auto. }
  rewrite (apply_eq data _ (wf_validate _ Hw) Hn), (apply_eq data _ (wf_validate _ Hw') Hn').
  unfold order_of. rewrite !map_app. cbn [map]. rewrite (edits_group m Hm).
  apply groups_nonneg in Hn'. rewrite map_app, Forall_app in Hn'. destruct Hn' as [Hnx Hny].
  destruct (sorted_insert_zero (map group xs) (map group ys) [([], 0, 0)]) as (rest & E1 & E2);
    [reflexivity|assumption|assumption|].
  rewrite E1, E2, !concat_app. cbn [concat].
  set (Z0 := concat (filter (fun h => gstart h =? 0) (map group xs))).
  assert (Hxs : Forall nonneg_spans xs) by (rewrite Forall_app in Hn; tauto).
  rewrite !in_orderb_app. split.
  - intro Hno.
    assert (HZ : last_end 0 Z0 = 0).
    { apply last_end_zero. intros e He. unfold Z0 in He. apply in_concat in He.
      destruct He as (g & Hg & He). apply filter_In in Hg. destruct Hg as (Hg & Hg0).
      apply in_map_iff in Hg. destruct Hg as (s & <- & Hs).
      destruct (edits_of s) as [|e0 es] eqn:Ee.
      - rewrite (edits_group s Ee) in He. destruct He as [<-|[]]. reflexivity.
      - assert (Hne : edits_of s <> []) by congruence.
        destruct (Z.eq_dec (edit_end e) 0) as [|Hnz]; [assumption|]. exfalso.
        apply (Hno s Hs). split.
        + apply group_has_zero; [|assumption|lia]. rewrite Forall_forall in Hxs. auto.
        + exists e. split; [|assumption].
          eapply Permutation_in; [symmetry; apply group_edits; assumption|assumption]. }
    cbn [app in_orderb]. rewrite HZ. cbn.
    rewrite !body_app, !last_end_app, HZ. cbn [body last_end]. now rewrite slice_empty.
  - intros (s & Hs & (Hz & (e & He & Hend))).
    cbn [app in_orderb].
    destruct (in_orderb 0 Z0) eqn:EZ; [|reflexivity]. cbn [andb].
    assert (Hne : edits_of s <> []) by (intro X; rewrite X in He; contradiction).
    assert (Hns : nonneg_spans s) by (rewrite Forall_forall in Hxs; auto).
    assert (HinZ : In e Z0).
    { unfold Z0. apply in_concat. exists (group s). split.
      - apply filter_In. split; [apply in_map; assumption|].
        apply Z.eqb_eq. now apply group_has_zero.
      - eapply Permutation_in; [apply group_edits; assumption|assumption]. }
    apply in_orderb_ok in EZ. pose proof (last_end_ge 0 Z0 e EZ HinZ) as Hge.
    pose proof (in_order_pairs 0 Z0 EZ) as [HF _]. rewrite Forall_forall in HF.
    specialize (HF e HinZ). destruct e as [[t a] b]. cbn in *.
    replace (last_end 0 Z0 <=? 0) with false by lia. reflexivity.
Qed.

(** *** C04 *)
Definition shift_edit (k : Z) (e : edit) : edit := let '(t, a, b) := e in (t, a - k, b - k).

Lemma relative_spans_spec a b d :
  relative_spans a b d
  = if forallb (fun kv : label * span => (a <=? fst (snd kv)) && (snd (snd kv) <=? b)) d
    then Some (map (fun kv : label * span => let '(l, (x, y)) := kv in (l, (x - a, y - a))) d)
    else None.
Proof.
  induction d as [|[l [x y]] d IH]; cbn; [reflexivity|].
  destruct ((a <=? x) && (y <=? b)); [|reflexivity]. cbn. rewrite IH.
  destruct (forallb _ d); reflexivity.
Qed.

Lemma dget_map {V W} (f : V -> W) (d : dict V) k :
  dget (map (fun kv => (fst kv, f (snd kv))) d) k = option_map f (dget d k).
Proof.
  induction d as [|[k' v] d IH]; cbn; [reflexivity|]. destruct (text_eqb k' k); [reflexivity|apply IH].
Qed.

Definition shift_spans (a : Z) (d : dict span) : dict span :=
  map (fun kv : label * span => let '(l, (x, y)) := kv in (l, (x - a, y - a))) d.

Lemma shift_spans_dmem a d k : dmem (shift_spans a d) k = dmem d k.
Proof.
  unfold dmem, shift_spans.
  replace (map _ d) with (map (fun kv : label * span => (fst kv, (fst (snd kv) - a, snd (snd kv) - a))) d)
    by (apply map_ext; intros [l [x y]]; reflexivity).
  rewrite (dget_map (fun sp : span => (fst sp - a, snd sp - a))).
  destruct (dget d k); reflexivity.
Qed.

Lemma validate_shift a s : validate (with_spans s (shift_spans a (matched_spans s))) = validate s.
Proof.
  unfold validate. cbn. rewrite shift_spans_dmem.
  destruct (match category s with Some c => _ | None => false end); [reflexivity|].
  destruct (negb _); [reflexivity|]. destruct (replacements s) as [r|]; [|reflexivity].
  replace (forallb (fun k => dmem (shift_spans a (matched_spans s)) k) (dkeys r))
    with (forallb (fun k => dmem (matched_spans s) k) (dkeys r)); [reflexivity|].
  induction (dkeys r) as [|k l IH]; [reflexivity|]. cbn. now rewrite shift_spans_dmem, IH.
Qed.

Lemma relative_eq s a b :
  validate s = Ok tt ->
  relative_to_span s a b
  = Ok (if forallb (fun kv : label * span => (a <=? fst (snd kv)) && (snd (snd kv) <=? b)) (matched_spans s)
        then Some (with_spans s (shift_spans a (matched_spans s))) else None).
Proof.
  intro Hv. unfold relative_to_span. rewrite relative_spans_spec.
  destruct (forallb _ (matched_spans s)); [|reflexivity].
  fold (shift_spans a (matched_spans s)). unfold make_sub. rewrite validate_shift, Hv. reflexivity.
Qed.

Lemma inside_forallb a b s :
  forallb (fun kv : label * span => (a <=? fst (snd kv)) && (snd (snd kv) <=? b)) (matched_spans s) = true
  <-> inside a b s.
Proof.
  rewrite forallb_forall. unfold inside. split.
  - intros H l sp Hin. specialize (H _ Hin). cbn in H. lia.
  - intros H [l sp] Hin. specialize (H l sp Hin). cbn. lia.
Qed.

Lemma relative_none s a b : validate s = Ok tt ->
  (relative_to_span s a b = Ok None <-> ~ inside a b s).
Proof.
  intro Hv. rewrite relative_eq by assumption. rewrite <- inside_forallb.
  destruct (forallb _ (matched_spans s)); split; intro H; congruence.
Qed.

Lemma relative_some s a b r : validate s = Ok tt ->
  (relative_to_span s a b = Ok (Some r) <-> inside a b s /\ is_shifted a s r).
Proof.
  intro Hv. rewrite relative_eq by assumption. rewrite <- inside_forallb.
  destruct (forallb _ (matched_spans s)); split; intro H.
  - injection H as <-. split; [reflexivity|]. unfold is_shifted. cbn. repeat split.
  - destruct H as (_ & H1 & H2 & H3 & H4 & H5 & H6 & H7 & H8).
    destruct r. cbn in *. subst. reflexivity.
  - discriminate.
  - destruct H; discriminate.
Qed.

Lemma shifted_eq a s r : is_shifted a s r -> r = with_spans s (shift_spans a (matched_spans s)).
Proof.
  intros (H1 & H2 & H3 & H4 & H5 & H6 & H7 & H8). destruct r. cbn in *. subst. reflexivity.
Qed.

Lemma shifted_validate a s r : is_shifted a s r -> validate r = validate s.
Proof. intro H. apply shifted_eq in H. subst. apply validate_shift. Qed.

Lemma shifted_edits a s r : is_shifted a s r -> edits_of r = map (shift_edit a) (edits_of s).
Proof.
  intro H. apply shifted_eq in H. subst. unfold edits_of. cbn.
  induction (matched_spans s) as [|[l [x y]] d IH]; [reflexivity|].
  cbn [shift_spans map flat_map]. fold (shift_spans a d). rewrite IH, map_app. f_equal.
  destruct (replacements s) as [rr|]; [|reflexivity]. destruct (dget rr l); reflexivity.
Qed.

Lemma shifted_group a s r : is_shifted a s r -> edits_of s <> [] ->
  group r = map (shift_edit a) (group s).
Proof.
  intros H Hne. unfold group, sorted_edits. rewrite (shifted_edits a s r H).
  rewrite (py_sorted_map edit_span_leb edit_span_leb).
  - pose proof (py_sorted_perm edit_span_leb (edits_of s)) as P.
    destruct (py_sorted edit_span_leb (edits_of s)); [|reflexivity].
    apply Permutation_sym, Permutation_nil in P. congruence.
  - intros [[t1 x1] y1] [[t2 x2] y2]. cbn. unfold span_leb. cbn. lia.
Qed.

Lemma in_orderb_shift k p l : in_orderb (p - k) (map (shift_edit k) l) = in_orderb p l.
Proof.
  revert p; induction l as [|[[t a] b] l IH]; intro p; cbn; [reflexivity|].
  rewrite IH. f_equal. lia.
Qed.
Lemma last_end_shift k p l : last_end (p - k) (map (shift_edit k) l) = last_end p l - k.
Proof. revert p; induction l as [|[[t a] b] l IH]; intro p; cbn; [reflexivity|]. apply IH. Qed.
Lemma body_shift data a b p l :
  0 <= a -> a <= p -> in_order p l -> last_end p l <= b ->
  body (slice data a b) (p - a) (map (shift_edit a) l) = body data p l.
Proof.
  revert p; induction l as [|[[t x] y] l IH]; intros p Ha Hp Ho Hl; cbn; [reflexivity|].
  cbn in Ho, Hl. destruct Ho as (H1 & H2 & H3). pose proof (in_order_last _ _ H3).
  rewrite slice_slice by lia. rewrite IH by (auto; lia).
  f_equal. f_equal; lia.
Qed.

Lemma in_orderb_weaken p q l :
  Forall (fun e => q <= edit_start e) l -> p <= q -> in_orderb p l = in_orderb q l.
Proof.
  intros H Hpq. destruct l as [|[[t a] b] l]; [reflexivity|]. cbn.
  inversion H; subst. cbn in *. f_equal. f_equal. lia.
Qed.
Lemma last_end_in p l : last_end p l = p \/ exists e, In e l /\ edit_end e = last_end p l.
Proof.
  revert p; induction l as [|[[t a] b] l IH]; intro p; [left; reflexivity|].
  right. cbn. destruct (IH b) as [->|(e & He & E)].
  - exists (t, a, b). cbn. auto.
  - exists e. auto.
Qed.
Lemma body_skip data p q l :
  0 <= p -> p <= q -> Forall (fun e => q <= edit_start e) l ->
  body data p l ++ slice_from data (last_end p l)
  = slice data p q ++ body data q l ++ slice_from data (last_end q l).
Proof.
  intros Hp Hpq H. destruct l as [|[[t a] b] l]; cbn.
  - unfold slice_from. destruct (Z.le_gt_cases q (tlen data)).
    + rewrite slice_app by lia. reflexivity.
    + rewrite (slice_past data q) by (pose proof (tlen_nonneg data); lia).
      rewrite app_nil_r. symmetry. apply slice_clamp; lia.
  - inversion H; subst. cbn in *. rewrite <- (slice_app data p q a) by lia.
    now rewrite <- !app_assoc.
Qed.

Lemma edits_dec s : {edits_of s <> []} + {~ edits_of s <> []}.
Proof. destruct (edits_of s); [right; congruence|left; discriminate]. Qed.

(** All substitutions have edits inside [a, b]. *)
Lemma apply_relative_gen data subs rels a b :
  0 <= a -> a <= b -> b <= tlen data ->
  Forall (fun s => validate s = Ok tt) subs ->
  Forall2 (fun s r => is_shifted a s r) subs rels ->
  Forall (fun s => inside a b s) subs ->
  Forall nonneg_spans subs ->
  (exists s, subs = [s]) \/ (forall s, In s subs -> edits_of s <> []) ->
  apply_substitutions data subs
  = do mid <- apply_substitutions (slice data a b) rels;
    Ok (slice_to data a ++ mid ++ slice_from data b).
Proof.
  intros Ha Hab Hb Hv Hr Hi Hn Hcase.
  assert (Hvr : Forall (fun s => validate s = Ok tt) rels).
  { clear - Hv Hr. induction Hr as [|s r subs rels Hsr Hr IH]; constructor.
    - rewrite (shifted_validate a s r Hsr). now inversion Hv.
    - apply IH. now inversion Hv. }
  assert (Hnr : Forall nonneg_spans rels).
  { clear - Hi Hr. induction Hr as [|s r subs rels Hsr Hr IH]; constructor.
    - inversion Hi as [|? ? Hs _]; subst. apply shifted_eq in Hsr. subst r.
      unfold nonneg_spans. cbn. unfold shift_spans. rewrite Forall_map.
      apply Forall_forall. intros [l [x y]] Hin. cbn. specialize (Hs l (x, y) Hin). cbn in Hs. lia.
    - apply IH. now inversion Hi. }
  rewrite (apply_eq data subs Hv Hn), (apply_eq _ rels Hvr Hnr).
  assert (Hwhole : slice_to data a ++ slice data a b ++ slice_from data b = data).
  { unfold slice_to, slice_from. rewrite app_assoc, slice_app, slice_app by lia. apply slice_full. }
  destruct (Forall_Exists_dec _ edits_dec subs) as [Hall|Hex].
  - assert (Ho : order_of rels = map (shift_edit a) (order_of subs)).
    { unfold order_of. replace (map group rels) with (map (map (shift_edit a)) (map group subs)).
      - rewrite (py_sorted_map_in gleb gleb (map (shift_edit a)) (fun g => g <> [])).
        + now rewrite concat_map.
        + intros [|[[tx ax] bx] x] [|[[ty ay] by'] y] Hx Hy; try congruence.
          unfold gleb, gstart. cbn. lia.
        + apply Forall_map, Forall_forall. intros. apply group_nonempty.
      - clear - Hr Hall. induction Hr as [|s r subs rels Hsr Hr IH]; [reflexivity|].
        inversion Hall; subst. cbn. rewrite IH by assumption. f_equal.
        now rewrite (shifted_group a s r) by assumption. }
    rewrite Ho. clear Ho.
    assert (HE : Forall (fun e => a <= edit_start e /\ edit_end e <= b) (order_of subs)).
    { apply Forall_forall. intros e He. unfold order_of in He. apply in_concat in He.
      destruct He as (g & Hg & He). eapply Permutation_in in Hg; [|symmetry; apply py_sorted_perm].
      apply in_map_iff in Hg. destruct Hg as (s & <- & Hs).
      rewrite Forall_forall in Hall, Hi. specialize (Hi s Hs).
      eapply Permutation_in in He; [|symmetry; apply group_edits; auto].
      unfold edits_of in He. apply in_flat_map in He. destruct He as ((l & x & y) & Hin & He).
      specialize (Hi l (x, y) Hin). destruct (replacements s) as [r|]; [|contradiction].
      destruct (dget r l); [|contradiction]. destruct He as [<-|[]]. exact Hi. }
    set (E := order_of subs) in *.
    assert (HE1 : Forall (fun e => a <= edit_start e) E)
      by (eapply Forall_impl; [|exact HE]; cbn; tauto).
    replace (in_orderb 0 (map (shift_edit a) E)) with (in_orderb 0 E).
    2: { rewrite (in_orderb_weaken 0 a) by assumption.
         rewrite <- (in_orderb_shift a). now rewrite Z.sub_diag. }
    destruct (in_orderb 0 E) eqn:EO; [|reflexivity]. cbn [bind]. f_equal.
    rewrite (in_orderb_weaken 0 a) in EO by assumption. apply in_orderb_ok in EO.
    rewrite (body_skip data 0 a) by (auto; lia).
    assert (HL : a <= last_end a E <= b).
    { split; [now apply in_order_last|]. destruct (last_end_in a E) as [->|(e & He & <-)]; [lia|].
      rewrite Forall_forall in HE. apply HE. assumption. }
    rewrite <- (Z.sub_diag a). rewrite last_end_shift, body_shift by (auto; lia).
    unfold slice_to. rewrite Z.sub_diag. f_equal. rewrite <- app_assoc. f_equal.
    unfold slice_from. rewrite slice_len by lia. rewrite slice_slice by lia.
    replace (a + (last_end a E - a)) with (last_end a E) by lia.
    replace (a + (b - a)) with b by lia.
    rewrite slice_app by lia. reflexivity.
  - destruct Hcase as [(s & ->)|Hcase].
    + inversion Hex as [? ? He|? ? He]; subst; [|inversion He].
      inversion Hr as [|? r ? ? Hsr Hr']; subst. inversion Hr'; subst.
      assert (Es : edits_of s = []) by (destruct (edits_of s); [reflexivity|exfalso; apply He; discriminate]).
      assert (Er : edits_of r = []) by (rewrite (shifted_edits a s r Hsr), Es; reflexivity).
      unfold order_of. cbn [map py_sorted sort_insert concat]. rewrite (edits_group s Es), (edits_group r Er).
      cbn. rewrite !slice_empty. cbn. unfold slice_from at 1 2. rewrite !slice_full.
      now rewrite Hwhole.
    + exfalso. apply Exists_exists in Hex. destruct Hex as (s & Hs & He). apply He. auto.
Qed.
