(** Proofs about as_diff (C08). *)
From Verif Require Import Py PyFacts Regex Subst Fmt SubstSpec SubstProofs SweepProofs ApplySpec ApplyProofs.
From Coq Require Import ZifyBool.

(** The edits shown by a diff. *)
Definition diffs (ps : list piece) : list edit :=
  flat_map (fun p => match p with DiffSpan (a, b) _ t => [(t, a, b)] | LabeledSpan _ _ => [] end) ps.

(** *** max_label *)
Lemma fold_better d l x :
  let m := fold_left (better d) l x in
  In m (x :: l) /\ (forall y, In y (x :: l) -> label_end d y <= label_end d m).
Proof.
  revert x; induction l as [|z l IH]; intro x; cbn.
  - split; [auto|]. intros y [<-|[]]. lia.
  - destruct (IH (better d x z)) as [H1 H2]. split.
    + destruct H1 as [H1|H1]; [|auto]. rewrite <- H1. unfold better.
      destruct (_ <? _); [auto|]. destruct (_ && _); auto.
    + assert (Hb : label_end d x <= label_end d (better d x z) /\ label_end d z <= label_end d (better d x z)).
      { unfold better. destruct (Z.ltb_spec (label_end d x) (label_end d z)); [lia|].
        destruct (Z.eqb_spec (label_end d x) (label_end d z)); cbn; [destruct (negb _)|]; lia. }
      assert (Hm := H2 _ (or_introl eq_refl)).
      intros y [<-|[<-|Hy]]; [lia|lia|]. apply H2. now right.
Qed.
Lemma max_label_Some d l m : max_label d l = Some m ->
  In m l /\ forall y, In y l -> label_end d y <= label_end d m.
Proof.
  destruct l as [|x l]; cbn; [discriminate|]. intro H. injection H as <-. apply (fold_better d l x).
Qed.
Lemma max_label_None d l : max_label d l = None -> l = [].
Proof. destruct l; cbn; [reflexivity|discriminate]. Qed.

Lemma label_end_ok s l a b : dict_ok (matched_spans s) -> spans_of s l a b -> label_end (matched_spans s) l = b.
Proof. intros Hd H. unfold label_end. now rewrite (In_dget _ _ _ Hd H). Qed.

Section Loop.
  Variable s : substitution.
  Variable r : dict text.
  Variables lo hi : Z.
  Hypothesis Hd : dict_ok (matched_spans s).
  Hypothesis Hrd : dict_ok r.
  Hypothesis Hr : forall l a b t, replaced s l a b t <-> spans_of s l a b /\ In (l, t) r.
  Hypothesis Hw : well_oriented s.
  Hypothesis Hh : is_hull s lo hi.
  Hypothesis Hap : replaced_apart s.
  Hypothesis Hnd : no_dangling_start s.

  Definition covers_none (p b : Z) : Prop :=
    forall l c e t, replaced s l c e t -> c <= p -> b <= e -> False.

  (** Candidates of a piece. *)
  Lemma cand_none p b ls : labels_exact s (LabeledSpan (p, b) ls) ->
    max_label (matched_spans s) (filter (dmem r) ls) = None -> covers_none p b.
  Proof.
    intros [_ H] E l c e t Hl Hc He. apply max_label_None in E.
    apply Hr in Hl. destruct Hl as [H1 H2].
    assert (In l (filter (dmem r) ls)).
    { apply filter_In. split; [apply H; eauto|]. apply dmem_keys. apply in_map_iff. exists (l, t). auto. }
    rewrite E in *. contradiction.
  Qed.
  Lemma cand_some p b ls m : labels_exact s (LabeledSpan (p, b) ls) ->
    max_label (matched_spans s) (filter (dmem r) ls) = Some m ->
    exists c e t, replaced s m c e t /\ c <= p /\ b <= e
      /\ dget (matched_spans s) m = Some (c, e) /\ dget r m = Some t
      /\ (forall l c' e' t', replaced s l c' e' t' -> c' <= p -> b <= e' -> e' <= e).
  Proof.
    intros [_ H] E. apply max_label_Some in E. destruct E as [E1 E2].
    apply filter_In in E1. destruct E1 as [E1 E3]. apply H in E1. destruct E1 as (c & e & H1 & H2 & H3).
    unfold dmem in E3. destruct (dget r m) as [t|] eqn:Et; [|discriminate].
    exists c, e, t. split; [apply Hr; split; [assumption|now apply dget_In]|].
    split; [assumption|]. split; [assumption|]. split; [now apply In_dget|]. split; [reflexivity|].
    intros l c' e' t' Hl Hc He. apply Hr in Hl. destruct Hl as [Hl1 Hl2].
    rewrite <- (label_end_ok s l c' e' Hd Hl1), <- (label_end_ok s m c e Hd H1). apply E2.
    apply filter_In. split; [apply H; eauto|]. apply dmem_keys. apply in_map_iff. exists (l, t'). auto.
  Qed.

  Lemma rep_start_end l a b t : replaced s l a b t -> is_start s a /\ is_end s b /\ a <= b /\ lo <= a /\ b <= hi.
  Proof.
    intro H. apply Hr in H. destruct H as [H _]. destruct Hh as (_ & _ & Hh').
    specialize (Hh' _ _ _ H). pose proof (Hw _ _ _ H).
    split; [exists l, b; exact H|]. split; [exists l, a; exact H|]. lia.
  Qed.
  Lemma rep_uniq l a b t b' t' l' : replaced s l a b t -> replaced s l' a b' t' -> l' = l /\ b' = b /\ t' = t.
  Proof.
    intros H H'. destruct (text_eq_dec l' l) as [->|Hne].
    - apply Hr in H, H'. destruct H as [H1 H2], H' as [H1' H2'].
      assert (E : (a, b') = (a, b)) by (eapply dict_uniq; [exact Hd|exact H1'|exact H1]).
      assert (t' = t) by (eapply dict_uniq; eauto). injection E as ->. auto.
    - exfalso. pose proof (Hap _ _ _ _ _ _ _ _ H' H Hne) as [H1 H2].
      apply rep_start_end in H, H'. lia.
  Qed.

  Lemma as_diff_loop_good ps : forall ae p, good_from s ae p ps hi ->
    (forall L, L <= p ->
       (forall m c e t, replaced s m c e t -> c < p -> e <= p) ->
       (ae = true -> forall m e t, replaced s m p e t -> p < e -> False) ->
       let out := as_diff_loop (matched_spans s) r L ps in
       tiles p out hi /\ StronglySorted (fun x y => edit_start x < edit_start y) (diffs out)
       /\ (forall l a b t, In (DiffSpan (a, b) l t) out
             <-> replaced s l a b t /\ (p < a \/ p = a /\ ae = false)))
    /\ (forall L, p < L -> L <= hi -> is_end s L ->
       (forall m c e t, replaced s m c e t -> c < L -> e <= L) ->
       let out := as_diff_loop (matched_spans s) r L ps in
       tiles L out hi /\ StronglySorted (fun x y => edit_start x < edit_start y) (diffs out)
       /\ (forall l a b t, In (DiffSpan (a, b) l t) out <-> replaced s l a b t /\ L <= a)).
  Proof.
    induction ps as [|[[a b] ls|] ps IH]; intros ae p; cbn [good_from]; [| |contradiction].
    - intros [-> Hae]. split.
      + intros L HL F1 F2. cbn. split; [reflexivity|]. split; [constructor|].
        intros l a b t. split; [contradiction|]. intros [H Ha].
        pose proof (rep_start_end _ _ _ _ H) as (H1 & H2 & H3 & H4 & H5).
        destruct Ha as [Ha|[Ha Hf]]; [lia|]. assert (b = hi) by lia. subst. apply Hae; auto.
      + intros L HL1 HL2. lia.
    - intros (-> & Hpb & Hex & Hin & Hae1 & Hae2 & G). destruct (IH _ _ G) as [IHf IHs]. clear IH. split.
      + intros L HL F1 F2. cbn [as_diff_loop]. replace (p <? L) with false by lia.
        destruct (max_label (matched_spans s) (filter (dmem r) ls)) as [m|] eqn:Em.
        * destruct (cand_some _ _ _ _ Hex Em) as (c & e & t & Hm & Hc & He & Gm & Gt & Hmax).
          pose proof (rep_start_end _ _ _ _ Hm) as (M1 & M2 & M3 & M4 & M5).
          assert (c = p).
          { destruct (Z_lt_le_dec c p) as [Hcp|]; [|lia]. exfalso.
            pose proof (F1 _ _ _ _ Hm Hcp). assert (b = p) by lia. subst b. assert (e = p) by lia. subst e.
            assert (Hf : ae = false) by (destruct ae; [specialize (Hae1 eq_refl); lia|reflexivity]).
            destruct (proj1 (Hae2 Hf) eq_refl) as [Hst _].
            destruct (Hnd _ _ _ _ Hm Hcp Hst) as (m' & d' & u & Hm' & Hlt).
            assert (d' <= p) by (eapply Hmax; [exact Hm'|lia|lia]). lia. }
          subst c.
          assert (Hf : ae = false).
          { destruct ae; [|reflexivity]. exfalso. specialize (Hae1 eq_refl).
            apply (F2 eq_refl _ _ _ Hm). lia. }
          clear F2. rewrite Gm, Gt. cbn [snd]. cbv zeta.
          assert (Key : let out := as_diff_loop (matched_spans s) r e ps in
            tiles e out hi /\ StronglySorted (fun x y => edit_start x < edit_start y) (diffs out)
            /\ (forall l a b t, In (DiffSpan (a, b) l t) out <-> replaced s l a b t /\ p < a)).
          { assert (Hrest : forall m c' e' t', replaced s m c' e' t' -> c' < e -> e' <= e).
            { intros m' c' e' t' Hm' Hc'. destruct (text_eq_dec m' m) as [->|Hne].
              - apply Hr in Hm, Hm'. destruct Hm as [Hm _], Hm' as [Hm' _].
                assert (E : (c', e') = (p, e)) by (eapply dict_uniq; [exact Hd|exact Hm'|exact Hm]). injection E. lia.
              - pose proof (Hap _ _ _ _ _ _ _ _ Hm' Hm Hne) as [H1 H2]. lia. }
            assert (Hgt : p < e -> forall l a' b' t', replaced s l a' b' t' -> (e <= a' <-> p < a')).
            { intros Hpe l a' b' t' Hl. split; [lia|]. intro Ha.
              assert (l <> m). { intros ->. destruct (Z.eq_dec a' p); [lia|]. apply Hr in Hl, Hm.
                destruct Hl as [Hl _], Hm as [Hm _]. assert (E : (a', b') = (p, e)) by (eapply dict_uniq; [exact Hd|exact Hl|exact Hm]). injection E. lia. }
              pose proof (Hap _ _ _ _ _ _ _ _ Hl Hm H) as [H1 H2].
              pose proof (rep_start_end _ _ _ _ Hl). lia. }
            destruct (Z.eq_dec e p) as [->|Hep].
            - assert (b = p) by lia. subst b. rewrite Z.eqb_refl in *.
              destruct (IHf p ltac:(lia) F1) as (T & S & I).
              { intros _ m' e' t' Hm' Hlt. destruct (rep_uniq _ _ _ _ _ _ _ Hm Hm') as (_ & -> & _). lia. }
              split; [exact T|]. split; [exact S|]. intros l a' b' t'. rewrite I. split; [|tauto].
              intros [H1 [H2|[_ H2]]]; [auto|discriminate].
            - destruct (Z_lt_le_dec b e) as [Hbe|Hbe].
              + destruct (IHs e Hbe ltac:(lia) M2 Hrest) as (T & S & I).
                split; [exact T|]. split; [exact S|]. intros l a' b' t'. rewrite I.
                split; intros [H1 H2]; (split; [assumption|]); apply (Hgt ltac:(lia) _ _ _ _ H1) in H2; assumption.
              + assert (b = e) by lia. subst b. replace (p =? e) with false in * by lia.
                destruct (IHf e ltac:(lia) Hrest ltac:(discriminate)) as (T & S & I).
                split; [exact T|]. split; [exact S|]. intros l a' b' t'. rewrite I.
                split; intros [H1 H2]; (split; [assumption|]); pose proof (Hgt ltac:(lia) _ _ _ _ H1); lia. }
          cbv zeta in Key. destruct Key as (T & S & I). split; [|split].
          -- cbn. repeat split; [lia|assumption].
          -- cbn [diffs flat_map]. constructor; [exact S|]. apply Forall_forall. intros [[t' a'] b'] Hin'.
             unfold diffs in Hin'. apply in_flat_map in Hin'. destruct Hin' as ([?|[x y] l' t''] & Hp1 & Hp2); [destruct Hp2|].
             destruct Hp2 as [E|[]]. injection E as -> -> ->. apply I in Hp1. cbn. tauto.
          -- intros l a' b' t'. cbn [In]. rewrite I. split.
             ++ intros [E|[H1 H2]]; [injection E as -> -> -> ->; auto|auto].
             ++ intros [H1 [H2|[-> _]]]; [auto|]. left.
                destruct (rep_uniq _ _ _ _ _ _ _ Hm H1) as (-> & -> & ->). reflexivity.
        * pose proof (cand_none _ _ _ Hex Em) as Hcn.
          destruct (IHf L ltac:(lia)) as (T & S & I).
          { intros m c e t Hm Hc. destruct (Z_lt_le_dec c p) as [H|H]; [specialize (F1 _ _ _ _ Hm H); lia|].
            destruct (Z.eq_dec c p) as [->|Hne].
            - destruct (Z_le_gt_dec b e); [exfalso; eapply Hcn; eauto; lia|lia].
            - exfalso. apply rep_start_end in Hm. apply (proj1 (Hin c ltac:(cbn; lia))). tauto. }
          { intros Hb m e t Hm Hlt. apply Z.eqb_eq in Hb. subst b. eapply Hcn; eauto; lia. }
          cbv zeta. split; [|split].
          -- cbn. repeat split; [lia|exact T].
          -- exact S.
          -- intros l a' b' t'. cbn [In]. rewrite I. split.
             ++ intros [E|[H1 H2]]; [discriminate|]. split; [assumption|]. lia.
             ++ intros [H1 H2]. right. split; [assumption|].
                pose proof (rep_start_end _ _ _ _ H1) as (R1 & R2 & R3 & _).
                destruct (Z.eq_dec p b) as [->|Hpb'].
                ** left. destruct H2 as [H2|[-> H2]]; [assumption|]. exfalso. eapply Hcn; eauto; lia.
                ** destruct (Z_lt_le_dec a' b) as [Hab|Hab]; [|lia]. exfalso.
                   destruct (Z.eq_dec a' p) as [->|Hap'].
                   --- destruct (Z_le_gt_dec b b') as [Hbb|Hbb]; [eapply Hcn; eauto; lia|].
                       destruct (Z.eq_dec b' p) as [->|].
                       +++ destruct H2 as [H2|[_ H2]]; [lia|]. apply Hpb'. apply Hae2; auto.
                       +++ apply (proj2 (Hin b' ltac:(cbn; lia))). assumption.
                   --- apply (proj1 (Hin a' ltac:(cbn; lia))). assumption.
      + intros L HL1 HL2 HL3 F. cbn [as_diff_loop]. replace (p <? L) with true by lia.
        assert (Hb : b <= L). { destruct (Z_le_gt_dec b L); [assumption|]. exfalso. apply (proj2 (Hin L ltac:(cbn; lia))). assumption. }
        destruct (Z.eq_dec b L) as [->|Hne].
        * replace (p =? L) with false in * by lia.
          destruct (IHf L ltac:(lia) F ltac:(discriminate)) as (T & S & I). cbv zeta.
          split; [exact T|]. split; [exact S|]. intros l a' b' t'. rewrite I.
          split; intros [H1 H2]; (split; [assumption|]); lia.
        * apply IHs; auto. lia.
  Qed.
End Loop.

Lemma replaced_wants s t a b : (exists l, replaced s l a b t) <-> exists l, wants s l (t, a, b).
Proof.
  unfold replaced, spans_of, wants. split.
  - intros (l & H & r & E & Hr). exists l, r, a, b, t. auto.
  - intros (l & r & a' & b' & t' & E & H1 & H2 & E2). injection E2 as -> -> ->. exists l. eauto.
Qed.

Lemma diffs_In ps t a b : In (t, a, b) (diffs ps) <-> exists l, In (DiffSpan (a, b) l t) ps.
Proof.
  unfold diffs. rewrite in_flat_map. split.
  - intros ([?|[x y] l t'] & H1 & H2); [destruct H2|]. destruct H2 as [E|[]]. injection E as -> -> ->. eauto.
  - intros (l & H). eexists. split; [exact H|]. now left.
Qed.

Lemma strict_NoDup l : StronglySorted (fun x y : edit => edit_start x < edit_start y) l -> NoDup l.
Proof.
  induction 1 as [|x l H IH Hx]; constructor; [|assumption]. rewrite Forall_forall in Hx.
  intro Hin. apply Hx in Hin. lia.
Qed.

Lemma edits_NoDup_aux s r d : replacements s = Some r -> well_oriented s -> replaced_apart s ->
  dict_ok d -> incl d (matched_spans s) -> NoDup (flat_map (ekv r) d).
Proof.
  intros Er Hw Hap. induction d as [|[l [a b]] d IH]; intros Hk Hsub; [constructor|].
  inversion Hk as [|? ? Hn Hk']; subst. cbn [flat_map].
  assert (IH' : NoDup (flat_map (ekv r) d)) by (apply IH; [assumption|]; intros kv H; apply Hsub; now right).
  unfold ekv at 1. cbn. destruct (dget r l) as [t|] eqn:Et; cbn; [|exact IH'].
  constructor; [|exact IH']. intro Hin. apply in_flat_map in Hin. destruct Hin as ([m [c e]] & H1 & H2).
  unfold ekv in H2. cbn in H2.
  destruct (dget r m) as [u|] eqn:Eu; [|destruct H2]. destruct H2 as [E|[]]. injection E as -> -> ->.
  assert (Hne : l <> m). { intros ->. apply Hn. apply in_map_iff. exists (m, (a, b)). auto. }
  assert (R1 : replaced s l a b t).
  { split; [apply Hsub; now left|]. exists r. split; [assumption|now apply dget_In]. }
  assert (R2 : replaced s m a b t).
  { split; [apply Hsub; now right|]. exists r. split; [assumption|now apply dget_In]. }
  pose proof (Hap _ _ _ _ _ _ _ _ R1 R2 Hne) as [H3 H4].
  pose proof (Hw l a b (proj1 R1)). lia.
Qed.

Lemma edits_NoDup s : wf_sub s -> well_oriented s -> replaced_apart s -> NoDup (edits_of s).
Proof.
  intros (Hd & Hrd & _) Hw Hap. destruct (replacements s) as [r|] eqn:Er.
  - rewrite (edits_of_ekv s r Er). eapply edits_NoDup_aux; eauto. apply incl_refl.
  - unfold edits_of. rewrite Er. clear. induction (matched_spans s) as [|[l [a b]] d IH]; cbn; [constructor|exact IH].
Qed.

(** Strictly sorted lists with the same elements are equal. *)
Lemma strict_sorted_unique l l' :
  StronglySorted (fun x y : edit => edit_start x < edit_start y) l ->
  StronglySorted (fun x y : edit => edit_start x < edit_start y) l' ->
  Permutation l l' -> l = l'.
Proof.
  intro H. revert l'. induction H as [|x l H IH Hx]; intros l' H' P.
  - now apply Permutation_nil in P.
  - destruct l' as [|y l']; [apply Permutation_sym, Permutation_nil in P; discriminate|].
    inversion H' as [|? ? H1 Hy]; subst. rewrite Forall_forall in *.
    assert (x = y).
    { assert (Hxy : In x (y :: l')) by (eapply Permutation_in; [exact P|now left]).
      assert (Hyx : In y (x :: l)) by (eapply Permutation_in; [symmetry; exact P|now left]).
      destruct Hxy as [->|Hxy]; [reflexivity|]. destruct Hyx as [->|Hyx]; [reflexivity|].
      apply Hy in Hxy. apply Hx in Hyx. lia. }
    subst y. f_equal. apply IH; [assumption|]. eapply Permutation_cons_inv; eauto.
Qed.

Lemma in_order_strict p l : in_order p l -> NoDup (map edit_start l) ->
  StronglySorted (fun x y : edit => edit_start x < edit_start y) l
  /\ Forall (fun x => p <= edit_start x) l.
Proof.
  revert p; induction l as [|[[t a] b] l IH]; intros p; cbn; intros H Hn; [repeat constructor|].
  destruct H as (H1 & H2 & H3). inversion Hn as [|? ? Hni Hn']; subst.
  destruct (IH b H3 Hn') as [S F]. split.
  - constructor; [assumption|]. rewrite Forall_forall in *. intros y Hy. specialize (F y Hy). cbn.
    assert (edit_start y <> a). { intro E. apply Hni. rewrite <- E. now apply in_map. } lia.
  - constructor; [assumption|]. eapply Forall_impl; [|exact F]. cbn. intros; lia.
Qed.

Lemma sorted_starts l : StronglySorted (fun x y : edit => edit_start x < edit_start y) l -> NoDup (map edit_start l).
Proof.
  induction 1 as [|x l H IH Hx]; cbn; constructor; [|assumption]. intro Hin. apply in_map_iff in Hin.
  destruct Hin as (y & E & Hy). rewrite Forall_forall in Hx. apply Hx in Hy. lia.
Qed.

Lemma tiles_in_order p q ps hi : q <= p -> tiles p ps hi -> in_order q (diffs ps).
Proof.
  revert p q; induction ps as [|[[a b] ls|[a b] l t] ps IH]; intros p q Hq; cbn; [auto| |].
  - intros (-> & H1 & H2). eapply IH; [|exact H2]. lia.
  - intros (-> & H1 & H2). repeat split; [lia|lia|]. eapply IH; [|exact H2]. lia.
Qed.

Lemma tiles_le p ps hi : tiles p ps hi -> p <= hi.
Proof.
  revert p; induction ps as [|x ps IH]; intros p; cbn; [lia|]. intros (H1 & H2 & H3). apply IH in H3. lia.
Qed.

(** Reading a tiling with the old and with the new texts. *)
Lemma tiles_before data p ps hi : 0 <= p -> tiles p ps hi ->
  concat (map (piece_before data) ps) = slice data p hi.
Proof.
  revert p; induction ps as [|x ps IH]; intros p Hp; cbn.
  - intros ->. symmetry. apply slice_empty.
  - intros (H1 & H2 & H3). pose proof (tiles_le _ _ _ H3). rewrite (IH (snd (piece_span x))) by (lia || assumption).
    unfold piece_before. rewrite H1. apply slice_app; lia.
Qed.
Lemma tiles_after data p q ps hi : 0 <= q -> q <= p -> tiles p ps hi ->
  Edited data q (diffs ps) (slice data q p ++ concat (map (piece_after data) ps) ++ slice_from data hi).
Proof.
  revert p q; induction ps as [|[[a b] ls|[a b] l t] ps IH]; intros p q Hq Hp; cbn.
  - intros ->. replace (slice data q hi ++ slice_from data hi) with (slice_from data q).
    + constructor. lia.
    + unfold slice_from. destruct (Z_le_gt_dec hi (tlen data)).
      * symmetry. apply slice_app; lia.
      * rewrite (slice_inv _ hi (tlen data)) by (pose proof (tlen_nonneg data); lia). rewrite app_nil_r.
        symmetry. apply slice_clamp; lia.
  - intros (-> & H1 & H2). rewrite <- app_assoc, app_assoc.
    rewrite slice_app by lia. apply IH; auto. lia.
  - intros (-> & H1 & H2). rewrite <- app_assoc. constructor; try lia.
    specialize (IH b b ltac:(lia) ltac:(lia) H2). rewrite slice_empty in IH. exact IH.
Qed.

Definition edit_dec (x y : edit) : {x = y} + {x <> y}.
Proof. repeat decide equality. Defined.

Lemma as_diff_spec s data : wf_sub s -> nonneg_spans s -> well_oriented s ->
  replaced_apart s -> no_dangling_start s ->
  exists ps lo hi, as_diff s = Ok ps /\ is_hull s lo hi /\ tiles lo ps hi
    /\ (forall l a b t, In (DiffSpan (a, b) l t) ps <-> replaced s l a b t)
    /\ concat (map (piece_before data) ps) = slice data lo hi
    /\ apply_substitutions data [s]
       = Ok (slice_to data lo ++ concat (map (piece_after data) ps) ++ slice_from data hi).
Proof.
  intros Hwf Hnn Hw Hap Hdg. pose proof Hwf as (Hd & Hrd & Hv).
  set (r := match replacements s with Some r => r | None => [] end).
  assert (Hr : forall l a b t, replaced s l a b t <-> spans_of s l a b /\ In (l, t) r).
  { intros l a b t. unfold replaced, r. split.
    - intros (H & r' & E & Hin). rewrite E. auto.
    - intros (H & Hin). split; [assumption|]. destruct (replacements s) as [r'|]; [eauto|contradiction]. }
  assert (Hrd' : dict_ok r).
  { unfold r. destruct (replacements s) as [r'|]; [now apply Hrd|constructor]. }
  assert (Hne : matched_spans s <> []).
  { intro E. unfold validate in Hv. rewrite E in Hv. 
    match type of Hv with context [if ?c then _ else _] => destruct c end; discriminate. }
  destruct (labeled_spans_good s Hd Hw Hne) as (ps & lo & hi & E & Hh & G).
  assert (Hlo : 0 <= lo).
  { destruct Hh as ((l & b & H) & _). unfold nonneg_spans in Hnn. rewrite Forall_forall in Hnn.
    apply Hnn in H. exact H. }
  destruct (as_diff_loop_good s r lo hi Hd Hrd' Hr Hw Hh Hap Hdg ps false lo G) as [Hfree _].
  destruct (Hfree 0 Hlo) as (T & S & I).
  { intros m c e t Hm Hc. apply Hr in Hm. destruct Hm as [Hm _]. destruct Hh as (_ & _ & Hh).
    apply Hh in Hm. lia. }
  { discriminate. }
  set (out := as_diff_loop (matched_spans s) r 0 ps) in *.
  assert (I' : forall l a b t, In (DiffSpan (a, b) l t) out <-> replaced s l a b t).
  { intros l a b t. rewrite I. split; [tauto|]. intro H. split; [assumption|].
    apply Hr in H. destruct H as [H _]. destruct Hh as (_ & _ & Hh). apply Hh in H. lia. }
  exists out, lo, hi. split; [unfold as_diff; rewrite E; reflexivity|].
  split; [assumption|]. split; [assumption|]. split; [assumption|].
  split; [now apply tiles_before|].
  assert (P : Permutation (diffs out) (edits_of s)).
  { apply NoDup_Permutation; [now apply strict_NoDup|now apply edits_NoDup|].
    intros [[t a] b]. rewrite diffs_In, (edits_of_wants s _ Hwf), <- replaced_wants.
    split; intros (l & H); exists l; now apply I'. }
  pose proof (tiles_after data lo 0 out hi ltac:(lia) Hlo T) as HE.
  assert (Hok : exists o, apply_substitutions data [s] = Ok o).
  { destruct (list_eq_dec edit_dec (edits_of s) []) as [En|En].
    - destruct (apply_exact data [s] (order_of [s])) as [H _].
      + constructor; auto.
      + constructor; auto.
      + now apply is_edit_order_iff.
      + destruct H as (o & H & _); [|eauto].
        unfold order_of. cbn. rewrite edits_group by assumption. cbn. lia.
    - apply apply_separate_ok; try (constructor; auto; fail).
      + intros x [<-|[]]. split; [assumption|]. split.
        * eapply Permutation_Forall; [exact P|]. apply Forall_forall. intros [[t a] b] Hx.
          apply diffs_In in Hx. destruct Hx as (l & Hx). apply I', Hr in Hx. cbn. apply (Hw l). tauto.
        * apply (ForallOrdPairs_perm _ (diffs out)); [intros; tauto|exact P|].
          pose proof (tiles_in_order lo 0 out hi Hlo T) as Ho. apply in_order_pairs in Ho.
          eapply ForallOrdPairs_impl; [|apply Ho]. intros x y. cbv beta. tauto.
      + repeat constructor. }
  destruct Hok as (o & Ho). rewrite Ho. f_equal.
  destruct (apply_edits data [s] o) as (es & Pe & He); auto.
  cbn in Pe. rewrite app_nil_r in Pe.
  assert (Ees : es = diffs out).
  { assert (Pq : Permutation es (diffs out)) by (rewrite Pe; now symmetry).
    apply strict_sorted_unique; [|assumption|assumption].
    apply (in_order_strict 0); [eapply Edited_in_order; eauto|].
    eapply Permutation_NoDup; [apply Permutation_map; symmetry; exact Pq|]. now apply sorted_starts. }
  subst es. eapply Edited_fun; [exact He|exact HE].
Qed.
