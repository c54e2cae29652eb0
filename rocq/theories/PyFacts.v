(** Lemmas about the Python prelude. *)
From Verif Require Import Py.
From Coq Require Import ZifyBool.

Lemma tlen_nonneg {A} (s : list A) : 0 <= tlen s.
Proof. unfold tlen; lia. Qed.
Lemma tlen_app {A} (a b : list A) : tlen (a ++ b) = tlen a + tlen b.
Proof. unfold tlen; rewrite app_length; lia. Qed.
Lemma tlen_cons {A} (a : A) b : tlen (a :: b) = 1 + tlen b.
Proof. unfold tlen; cbn [length]; lia. Qed.
Lemma tlen_nil {A} : tlen (@nil A) = 0.
Proof. reflexivity. Qed.

(** *** Equality of strings *)
Lemma text_eqb_eq a b : text_eqb a b = true <-> a = b.
Proof.
  revert b; induction a as [|x a IH]; intros [|y b]; cbn; split; intro H;
    try reflexivity; try discriminate.
  - apply andb_true_iff in H. destruct H as [H1 H2].
    apply Z.eqb_eq in H1. apply IH in H2. congruence.
  - injection H as -> ->. rewrite Z.eqb_refl. cbn. apply IH. reflexivity.
Qed.
Lemma text_eqb_refl a : text_eqb a a = true.
Proof. apply text_eqb_eq; reflexivity. Qed.
Lemma text_eqb_neq a b : text_eqb a b = false <-> a <> b.
Proof.
  destruct (text_eqb a b) eqn:E; split; intro H.
  - discriminate.
  - apply text_eqb_eq in E. contradiction.
  - intro Hab. apply text_eqb_eq in Hab. congruence.
  - reflexivity.
Qed.
Lemma text_eqb_spec a b : reflect (a = b) (text_eqb a b).
Proof. apply iff_reflect. symmetry. apply text_eqb_eq. Qed.
Lemma text_eq_dec (a b : text) : {a = b} + {a <> b}.
Proof. destruct (text_eqb_spec a b); auto. Qed.
Lemma text_eqb_sym a b : text_eqb a b = text_eqb b a.
Proof. destruct (text_eqb_spec a b), (text_eqb_spec b a); congruence. Qed.

Lemma text_leb_refl a : text_leb a a = true.
Proof. induction a as [|x a IH]; cbn; [reflexivity|]. now rewrite Z.eqb_refl. Qed.
Lemma text_leb_antisym a b : text_leb a b = true -> text_leb b a = true -> a = b.
Proof.
  revert b; induction a as [|x a IH]; intros [|y b]; cbn; intros H1 H2; try congruence.
  destruct (Z.eqb_spec x y) as [->|Hne].
  - rewrite Z.eqb_refl in H2. f_equal. now apply IH.
  - destruct (Z.eqb_spec y x); lia.
Qed.
Lemma text_leb_total a b : text_leb a b = true \/ text_leb b a = true.
Proof.
  revert b; induction a as [|x a IH]; intros [|y b]; cbn; auto.
  destruct (Z.eqb_spec x y) as [->|Hne].
  - rewrite Z.eqb_refl. apply IH.
  - destruct (Z.eqb_spec y x); [lia|]. lia.
Qed.
Lemma text_leb_trans a b c : text_leb a b = true -> text_leb b c = true -> text_leb a c = true.
Proof.
  revert b c; induction a as [|x a IH]; intros [|y b] [|z c]; cbn; intros H1 H2; try congruence.
  destruct (Z.eqb_spec x y) as [->|Hne]; destruct (Z.eqb_spec y z) as [->|Hne2].
  - rewrite ?Z.eqb_refl. eapply IH; eauto.
  - destruct (Z.eqb_spec y z); [lia|]. exact H2.
  - destruct (Z.eqb_spec x z); [lia|]. exact H1.
  - destruct (Z.eqb_spec x z); lia.
Qed.

Lemma tmem_In x l : tmem x l = true <-> In x l.
Proof.
  induction l as [|y l IH]; cbn; [split; [discriminate|contradiction]|].
  rewrite orb_true_iff, IH, text_eqb_eq. tauto.
Qed.

(** *** Slices *)
Lemma skipn_skipn {A} (l : list A) x y : skipn x (skipn y l) = skipn (x + y) l.
Proof.
  revert l. induction y as [|y IH]; intro l; cbn.
  - now rewrite Nat.add_0_r.
  - rewrite Nat.add_succ_r. destruct l as [|a l]; cbn; [apply skipn_nil|apply IH].
Qed.

Definition nslice {A} (s : list A) (a b : nat) : list A := firstn (b - a) (skipn a s).

Lemma firstn_min {A} (l : list A) n : firstn (Nat.min n (length l)) l = firstn n l.
Proof.
  destruct (Nat.le_gt_cases n (length l)).
  - now rewrite Nat.min_l.
  - rewrite Nat.min_r by lia. rewrite firstn_all. now rewrite firstn_all2 by lia.
Qed.

Lemma slice_nslice {A} (s : list A) a b :
  0 <= a -> 0 <= b -> slice s a b = nslice s (Z.to_nat a) (Z.to_nat b).
Proof.
  intros Ha Hb. unfold slice, nslice, norm_idx, tlen.
  destruct (Z.ltb_spec a 0); [lia|]. destruct (Z.ltb_spec b 0); [lia|].
  destruct (Z.le_gt_cases a (Z.of_nat (length s))) as [H1|H1].
  - rewrite (Z.min_l a) by lia.
    destruct (Z.le_gt_cases b (Z.of_nat (length s))) as [H2|H2].
    + rewrite (Z.min_l b) by lia. f_equal. lia.
    + rewrite (Z.min_r b) by lia.
      rewrite !firstn_all2; rewrite ?skipn_length; try lia. reflexivity.
  - rewrite (Z.min_r a) by lia.
    rewrite !skipn_all2 by lia. now rewrite !firstn_nil.
Qed.

Lemma nslice_app {A} (s : list A) a b c :
  (a <= b)%nat -> (b <= c)%nat -> nslice s a b ++ nslice s b c = nslice s a c.
Proof.
  intros H1 H2. unfold nslice.
  replace (c - a)%nat with ((b - a) + (c - b))%nat by lia.
  replace (skipn b s) with (skipn (b - a) (skipn a s))
    by (rewrite skipn_skipn; f_equal; lia).
  generalize (skipn a s). generalize (b - a)%nat. generalize (c - b)%nat.
  intros m n l. revert m l. induction n as [|n IH]; intros m l; cbn; [reflexivity|].
  destruct l as [|x l]; cbn; [now rewrite firstn_nil|]. f_equal. apply IH.
Qed.

Lemma slice_app {A} (s : list A) a b c :
  0 <= a -> a <= b -> b <= c -> slice s a b ++ slice s b c = slice s a c.
Proof. intros. rewrite !slice_nslice by lia. apply nslice_app; lia. Qed.

Lemma slice_len {A} (s : list A) a b :
  0 <= a -> a <= b -> b <= tlen s -> tlen (slice s a b) = b - a.
Proof.
  intros. rewrite slice_nslice by lia. unfold nslice, tlen in *.
  rewrite firstn_length, skipn_length. lia.
Qed.

Lemma slice_full {A} (s : list A) : slice s 0 (tlen s) = s.
Proof.
  rewrite slice_nslice by (unfold tlen; lia). unfold nslice, tlen.
  cbn [Z.to_nat skipn]. rewrite firstn_all2; [reflexivity|]. lia.
Qed.

Lemma slice_empty {A} (s : list A) a : slice s a a = [].
Proof. unfold slice. rewrite Z.sub_diag. reflexivity. Qed.

Lemma slice_inv {A} (s : list A) a b : 0 <= b -> b <= a -> slice s a b = [].
Proof.
  intros. rewrite slice_nslice by lia. unfold nslice.
  now replace (Z.to_nat b - Z.to_nat a)%nat with 0%nat by lia.
Qed.

Lemma nslice_nslice {A} (s : list A) a b i j :
  (j <= b - a)%nat -> nslice (nslice s a b) i j = nslice s (a + i) (a + j).
Proof.
  intros H. unfold nslice. rewrite skipn_firstn_comm, firstn_firstn, skipn_skipn.
  f_equal; [lia|]. f_equal. lia.
Qed.

Lemma slice_slice {A} (s : list A) a b i j :
  0 <= a -> 0 <= i -> 0 <= j -> j <= b - a ->
  slice (slice s a b) i j = slice s (a + i) (a + j).
Proof.
  intros. rewrite !slice_nslice by lia. rewrite nslice_nslice by lia.
  f_equal; lia.
Qed.

Lemma slice_clamp {A} (s : list A) a b :
  0 <= a -> tlen s <= b -> slice s a b = slice s a (tlen s).
Proof.
  intros. rewrite !slice_nslice by (pose proof (tlen_nonneg s); lia). unfold nslice, tlen in *.
  rewrite !firstn_all2; rewrite ?skipn_length; try lia. reflexivity.
Qed.

Lemma slice_past {A} (s : list A) a b : 0 <= b -> tlen s <= a -> slice s a b = [].
Proof.
  intros. rewrite slice_nslice by (pose proof (tlen_nonneg s); lia). unfold nslice, tlen in *.
  rewrite skipn_all2 by lia. apply firstn_nil.
Qed.

Lemma slice_app_l {A} (s t : list A) a b :
  0 <= a -> a <= b -> b <= tlen s -> slice (s ++ t) a b = slice s a b.
Proof.
  intros. rewrite !slice_nslice by lia. unfold nslice, tlen in *.
  rewrite skipn_app, firstn_app, skipn_length.
  replace (Z.to_nat b - Z.to_nat a - (length s - Z.to_nat a))%nat with 0%nat by lia.
  now rewrite firstn_O, app_nil_r.
Qed.

Lemma slice_app_r {A} (s t : list A) a b :
  tlen s <= a -> a <= b -> slice (s ++ t) a b = slice t (a - tlen s) (b - tlen s).
Proof.
  intros. rewrite !slice_nslice by (pose proof (tlen_nonneg s); lia). unfold nslice, tlen in *.
  rewrite skipn_app. rewrite (skipn_all2 s) by lia. cbn.
  f_equal; [lia|]. f_equal. lia.
Qed.

Lemma slice_to_full {A} (s : list A) j : tlen s <= j -> slice_to s j = s.
Proof.
  intros. unfold slice_to. rewrite slice_clamp by lia. apply slice_full.
Qed.

(** *** Dictionaries *)
Section Dict.
  Context {V : Type}.
  Implicit Type d : dict V.

  Lemma dget_In d k v : dget d k = Some v -> In (k, v) d.
  Proof.
    induction d as [|[k' v'] d IH]; cbn; [discriminate|].
    destruct (text_eqb_spec k' k) as [->|Hne]; intro H; [injection H as ->; auto|auto].
  Qed.
  Lemma In_dget d k v : dict_ok d -> In (k, v) d -> dget d k = Some v.
  Proof.
    unfold dict_ok, dkeys. induction d as [|[k' v'] d IH]; cbn; [contradiction|].
    intros Hnd [H|H].
    - injection H as -> ->. now rewrite text_eqb_refl.
    - inversion Hnd as [|x y Hni Hnd' Heq]; subst. destruct (text_eqb_spec k' k) as [->|Hne].
      + exfalso. apply Hni. apply in_map_iff. exists (k, v). auto.
      + auto.
  Qed.
  Lemma dget_None d k : dget d k = None <-> ~ In k (dkeys d).
  Proof.
    unfold dkeys. induction d as [|[k' v'] d IH]; cbn; [tauto|].
    destruct (text_eqb_spec k' k) as [->|Hne]; [split; [discriminate|tauto]|].
    rewrite IH. tauto.
  Qed.
  Lemma dget_Some_keys d k v : dget d k = Some v -> In k (dkeys d).
  Proof. intro H. apply dget_In in H. apply in_map_iff. exists (k, v). auto. Qed.
  Lemma keys_dget d k : In k (dkeys d) -> exists v, dget d k = Some v.
  Proof.
    intro H. destruct (dget d k) as [v|] eqn:E; [eauto|]. apply dget_None in E. contradiction.
  Qed.
  Lemma dmem_keys d k : dmem d k = true <-> In k (dkeys d).
  Proof.
    unfold dmem. destruct (dget d k) as [v|] eqn:E.
    - split; [|reflexivity]. intros _. eapply dget_Some_keys; eauto.
    - split; [discriminate|]. apply dget_None in E. contradiction.
  Qed.
  Lemma dget_dset d k v k' :
    dget (dset d k v) k' = if text_eqb k k' then Some v else dget d k'.
  Proof.
    induction d as [|[k0 v0] d IH]; cbn.
    - reflexivity.
    - destruct (text_eqb_spec k0 k) as [->|Hne]; cbn.
      + destruct (text_eqb_spec k k'); reflexivity.
      + destruct (text_eqb_spec k0 k') as [->|Hne2].
        * destruct (text_eqb_spec k k'); [congruence|reflexivity].
        * apply IH.
  Qed.
  Lemma dkeys_dset d k v :
    dkeys (dset d k v) = if tmem k (dkeys d) then dkeys d else dkeys d ++ [k].
  Proof.
    unfold dkeys. induction d as [|[k0 v0] d IH]; cbn; [reflexivity|].
    destruct (text_eqb_spec k0 k) as [->|Hne]; cbn; [reflexivity|].
    rewrite IH. destruct (tmem k (map fst d)); reflexivity.
  Qed.
  Lemma NoDup_snoc {A} (l : list A) x : NoDup l -> ~ In x l -> NoDup (l ++ [x]).
  Proof.
    intros H Hx. apply Permutation_NoDup with (x :: l).
    - change (x :: l) with ([x] ++ l). apply Permutation_app_comm.
    - now constructor.
  Qed.
  Lemma dict_ok_dset d k v : dict_ok d -> dict_ok (dset d k v).
  Proof.
    unfold dict_ok. intro H. rewrite dkeys_dset. destruct (tmem k (dkeys d)) eqn:E; [assumption|].
    apply NoDup_snoc; [assumption|]. rewrite <- tmem_In. congruence.
  Qed.
  Lemma dict_ok_nil : dict_ok (@nil (label * V)).
  Proof. constructor. Qed.
  Lemma dget_ddel d k k' : dict_ok d ->
    dget (ddel d k) k' = if text_eqb k k' then None else dget d k'.
  Proof.
    unfold dict_ok, dkeys.
    induction d as [|[k0 v0] d IH]; cbn; intro Hnd.
    - now destruct (text_eqb k k').
    - inversion Hnd as [|x y Hni Hnd' Heq]; subst. destruct (text_eqb_spec k0 k) as [->|Hne].
      + destruct (text_eqb_spec k k') as [->|Hne2]; [|reflexivity].
        now apply dget_None.
      + cbn. destruct (text_eqb_spec k0 k') as [->|Hne2].
        * destruct (text_eqb_spec k k'); congruence.
        * auto.
  Qed.
  Lemma ddel_keys_incl d k x : In x (dkeys (ddel d k)) -> In x (dkeys d).
  Proof.
    unfold dkeys. induction d as [|[k0 v0] d IH]; cbn; [tauto|].
    destruct (text_eqb k0 k); cbn; tauto.
  Qed.
  Lemma dict_ok_ddel d k : dict_ok d -> dict_ok (ddel d k).
  Proof.
    unfold dict_ok. induction d as [|[k0 v0] d IH]; cbn; intro Hnd; [constructor|].
    inversion Hnd as [|x y Hni Hnd' Heq]; subst.
    destruct (text_eqb k0 k); [assumption|]. cbn. constructor; [|auto].
    intro H. apply ddel_keys_incl in H. contradiction.
  Qed.
End Dict.

(** *** Stable sorting *)
Section SortFacts.
  Context {A : Type} (le : A -> A -> bool).

  Lemma sort_insert_perm x l : Permutation (x :: l) (sort_insert le x l).
  Proof.
    induction l as [|y l IH]; cbn; [reflexivity|].
    destruct (le x y); [reflexivity|].
    rewrite perm_swap. now constructor.
  Qed.
  Lemma py_sorted_perm l : Permutation l (py_sorted le l).
  Proof.
    induction l as [|x l IH]; cbn; [reflexivity|].
    rewrite <- sort_insert_perm. now constructor.
  Qed.

  Hypothesis le_total : forall x y, le x y = true \/ le y x = true.
  Hypothesis le_trans : forall x y z, le x y = true -> le y z = true -> le x z = true.

  Lemma sort_insert_sorted x l :
    StronglySorted (fun a b => le a b = true) l ->
    StronglySorted (fun a b => le a b = true) (sort_insert le x l).
  Proof.
    induction l as [|y l IH]; cbn; intro H; [repeat constructor|].
    inversion H as [|a b Hs Hf Heq]; subst.
    destruct (le x y) eqn:E.
    - constructor; [assumption|]. constructor; [assumption|].
      eapply Forall_impl; [|exact Hf]. intros z Hz. eapply le_trans; eauto.
    - constructor; [auto|]. apply (Permutation_Forall (sort_insert_perm x l)).
      constructor; [|assumption]. destruct (le_total x y); congruence.
  Qed.
  Lemma py_sorted_sorted l : StronglySorted (fun a b => le a b = true) (py_sorted le l).
  Proof.
    induction l as [|x l IH]; cbn; [constructor|]. now apply sort_insert_sorted.
  Qed.
  Lemma py_sorted_id l :
    StronglySorted (fun a b => le a b = true) l -> py_sorted le l = l.
  Proof.
    induction l as [|x l IH]; cbn; [reflexivity|]. intro H.
    inversion H as [|a b Hs Hf Heq]; subst. rewrite IH by assumption.
    destruct l as [|y l']; [reflexivity|]. cbn.
    inversion Hf as [|? ? Hxy ?]; subst. now rewrite Hxy.
  Qed.
End SortFacts.

Lemma span_leb_total a b : span_leb a b = true \/ span_leb b a = true.
Proof. unfold span_leb. lia. Qed.
Lemma span_leb_trans a b c : span_leb a b = true -> span_leb b c = true -> span_leb a c = true.
Proof. unfold span_leb. lia. Qed.
Lemma span_leb_refl a : span_leb a a = true.
Proof. unfold span_leb. lia. Qed.

(** *** [mapM] *)
Lemma mapM_Ok {A B} (f : A -> res B) l out :
  mapM f l = Ok out <-> Forall2 (fun x y => f x = Ok y) l out.
Proof.
  revert out; induction l as [|x l IH]; intros out; cbn.
  - split; intro H; [injection H as <-; constructor|inversion H; reflexivity].
  - destruct (f x) as [y|e] eqn:E; cbn.
    + destruct (mapM f l) as [ys|e] eqn:E2; cbn.
      * split; intro H.
        -- injection H as <-. constructor; [assumption|]. now apply IH.
        -- inversion H as [|? y' ? ys' Hy Hys]; subst.
           apply IH in Hys. congruence.
      * split; intro H; [discriminate|].
        inversion H as [|? y' ? ys' Hy Hys]; subst. apply IH in Hys. congruence.
    + split; intro H; [discriminate|]. inversion H; subst. congruence.
Qed.

Lemma mapM_app {A B} (f : A -> res B) l1 l2 :
  mapM f (l1 ++ l2) = (do a <- mapM f l1; do b <- mapM f l2; Ok (a ++ b)).
Proof.
  induction l1 as [|x l IH]; cbn.
  - destruct (mapM f l2); reflexivity.
  - destruct (f x); cbn; [|reflexivity]. rewrite IH.
    destruct (mapM f l); cbn; [|reflexivity]. destruct (mapM f l2); reflexivity.
Qed.
