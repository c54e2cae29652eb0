(** Proofs about labeled_spans (C07). *)
From Verif Require Import Py PyFacts Regex Subst SubstSpec SubstProofs.
From Coq Require Import ZifyBool.

(** *** sorted_keys *)
Lemma insert_uniq_In x y l : In x (insert_uniq y l) <-> x = y \/ In x l.
Proof.
  induction l as [|z l IH]; cbn; [intuition|].
  destruct (Z.ltb_spec y z); cbn; [intuition|].
  destruct (Z.eqb_spec y z); cbn; [subst; intuition|]. rewrite IH. intuition.
Qed.
Lemma insert_uniq_sorted y l : StronglySorted Z.lt l -> StronglySorted Z.lt (insert_uniq y l).
Proof.
  induction 1 as [|z l Hs IH Hz]; cbn; [repeat constructor|].
  destruct (Z.ltb_spec y z).
  - constructor; [constructor; auto|]. constructor; [assumption|].
    eapply Forall_impl; [|exact Hz]. intros; lia.
  - destruct (Z.eqb_spec y z); [constructor; auto|]. constructor; [assumption|].
    rewrite Forall_forall in *. intros w Hw. apply insert_uniq_In in Hw. destruct Hw as [->|Hw]; [lia|auto].
Qed.
Lemma sorted_keys_In x l : In x (sorted_keys l) <-> In x l.
Proof. induction l as [|y l IH]; cbn; [tauto|]. rewrite insert_uniq_In, IH. intuition. Qed.
Lemma sorted_keys_sorted l : StronglySorted Z.lt (sorted_keys l).
Proof. induction l; cbn; [constructor|]. now apply insert_uniq_sorted. Qed.

(** *** label sets *)
Lemma labels_at_In pos p d l : In l (labels_at pos p d) <-> exists sp, In (l, sp) d /\ pos sp = p.
Proof.
  unfold labels_at. rewrite in_map_iff. split.
  - intros ([k sp] & <- & H). apply filter_In in H. destruct H as [H1 H2]. cbn in *.
    exists sp. split; [assumption|lia].
  - intros (sp & H & E). exists (l, sp). split; [reflexivity|]. apply filter_In. cbn. split; [assumption|lia].
Qed.
Lemma labels_at_NoDup pos p d : dict_ok d -> NoDup (labels_at pos p d).
Proof.
  unfold dict_ok, dkeys, labels_at. induction d as [|kv d IH]; cbn; intro H; [constructor|].
  inversion H as [|? ? Hn H']; subst. destruct (pos (snd kv) =? p); cbn; [|auto].
  constructor; [|auto]. intro Hin. apply Hn. apply in_map_iff in Hin. destruct Hin as (x & E & Hx).
  apply filter_In in Hx. apply in_map_iff. exists x. tauto.
Qed.
Lemma set_add_In l cur add : In l (set_add cur add) <-> In l cur \/ In l add.
Proof.
  unfold set_add. rewrite in_app_iff, filter_In. split; [tauto|].
  intros [H|H]; [auto|]. destruct (tmem l cur) eqn:E; [left; now apply tmem_In|right; auto].
Qed.
Lemma NoDup_app_intro {A} (a b : list A) : NoDup a -> NoDup b -> (forall x, In x a -> ~ In x b) -> NoDup (a ++ b).
Proof.
  induction a as [|x a IH]; cbn; intros Ha Hb H; [assumption|].
  inversion Ha; subst. constructor; [|apply IH; auto]. rewrite in_app_iff. intros [?|?]; [auto|].
  apply (H x); auto.
Qed.
Lemma set_add_NoDup cur add : NoDup cur -> NoDup add -> NoDup (set_add cur add).
Proof.
  intros H1 H2. unfold set_add. apply NoDup_app_intro; [assumption|now apply NoDup_filter|].
  intros x Hx Hf. apply filter_In in Hf. destruct Hf as [_ Hf]. apply tmem_In in Hx. rewrite Hx in Hf. discriminate.
Qed.
Lemma set_remove_In l cur rm : In l (set_remove cur rm) <-> In l cur /\ ~ In l rm.
Proof.
  unfold set_remove. rewrite filter_In. split; intros [H1 H2]; (split; [assumption|]).
  - intro H. apply tmem_In in H. rewrite H in H2. discriminate.
  - destruct (tmem l rm) eqn:E; [|reflexivity]. apply tmem_In in E. contradiction.
Qed.

Lemma dict_uniq {V} (d : dict V) k v w : dict_ok d -> In (k, v) d -> In (k, w) d -> v = w.
Proof. intros Hd H1 H2. apply In_dget in H1, H2; auto. congruence. Qed.

(** *** The sweep *)
(** Everything there is to say about a list of pieces starting at [p]; [ae]
    says whether the preceding piece was empty. *)
Fixpoint good_from (s : substitution) (ae : bool) (p : Z) (ps : list piece) (hi : Z) : Prop :=
  match ps with
  | [] => p = hi /\ (ae = false -> ~ (is_start s p /\ is_end s p))
  | LabeledSpan (a, b) ls :: rest =>
      a = p /\ p <= b /\ labels_exact s (LabeledSpan (a, b) ls)
      /\ no_boundary_inside s (LabeledSpan (a, b) ls)
      /\ (ae = true -> p < b)
      /\ (ae = false -> (p = b <-> is_start s p /\ is_end s p))
      /\ good_from s (p =? b) b rest hi
  | DiffSpan _ _ _ :: _ => False
  end.

Record sweep_inv (s : substitution) (ae : bool) (rs : Z) (starts ends : list Z) (cur : list label) : Prop := {
  si_ss : StronglySorted Z.lt starts;
  si_es : StronglySorted Z.lt ends;
  si_sgt : forall c, In c starts -> rs < c;
  si_ege : forall e, In e ends -> rs <= e;
  si_start : forall c, is_start s c -> In c starts \/ c <= rs;
  si_starts : forall c, In c starts -> is_start s c;
  si_end : forall e, is_end s e -> In e ends \/ (e <= rs /\ forall x, In x ends -> e < x);
  si_ends : forall e, In e ends -> is_end s e;
  si_nodup : NoDup cur;
  si_cur : forall l, In l cur <-> exists c e, spans_of s l c e /\ ~ In c starts /\ In e ends;
  si_ae1 : ae = true -> forall e, In e ends -> rs < e;
  si_ae2 : ae = false -> (is_start s rs /\ is_end s rs <-> In rs ends)
}.

Lemma sorted_head x l : StronglySorted Z.lt (x :: l) -> forall y, In y l -> x < y.
Proof. inversion 1; subst. now apply Forall_forall. Qed.

Lemma sweep_good s fuel : dict_ok (matched_spans s) -> well_oriented s ->
  forall ae rs starts ends cur,
  sweep_inv s ae rs starts ends cur ->
  (is_end s rs \/ ends <> []) ->
  (length starts + length ends <= fuel)%nat ->
  exists ps hi, sweep fuel (matched_spans s) starts ends cur (Some rs) = Ok ps
    /\ good_from s ae rs ps hi /\ is_end s hi /\ rs <= hi
    /\ (forall e, is_end s e -> e <= hi).
Proof.
  intros Hd Hw. induction fuel as [|fuel IH]; intros ae rs starts ends cur I Hne Hf.
  - destruct starts, ends; cbn in Hf; try lia. exists [], rs. cbn.
    split; [reflexivity|]. split; [split; [reflexivity|]|].
    + intros Ha Hb. apply (si_ae2 _ _ _ _ _ _ I Ha) in Hb. contradiction.
    + split; [destruct Hne; [assumption|congruence]|]. split; [lia|].
      intros e He. destruct (si_end _ _ _ _ _ _ I e He) as [[]|[H _]]. assumption.
  - cbn [sweep].
    assert (Hstart : forall st starts' (e_ok : forall e, In e ends -> st <= e), starts = st :: starts' ->
      exists ps hi,
        (do rest <- sweep fuel (matched_spans s) starts' ends
                      (set_add cur (labels_at fst st (matched_spans s))) (Some st);
         Ok (LabeledSpan (rs, st) cur :: rest)) = Ok ps
        /\ good_from s ae rs ps hi /\ is_end s hi /\ rs <= hi /\ (forall e, is_end s e -> e <= hi)).
    { intros st starts' e_ok ->.
      assert (Hrs : rs < st) by (apply (si_sgt _ _ _ _ _ _ I); now left).
      pose proof (sorted_head _ _ (si_ss _ _ _ _ _ _ I)) as Hhd.
      assert (Hpop : forall e, is_end s e -> st <= e -> In e ends).
      { intros e He Hle. destruct (si_end _ _ _ _ _ _ I e He) as [?|[? ?]]; [assumption|lia]. }
      destruct (IH false st starts' ends (set_add cur (labels_at fst st (matched_spans s)))) as (ps & hi & E & G & He & Hle & Hall).
      - constructor.
        + pose proof (si_ss _ _ _ _ _ _ I) as H. inversion H; assumption.
        + apply (si_es _ _ _ _ _ _ I).
        + exact Hhd.
        + exact e_ok.
        + intros c Hc. destruct (si_start _ _ _ _ _ _ I c Hc) as [[->|H]|H]; [right; lia|auto|right; lia].
        + intros c Hc. apply (si_starts _ _ _ _ _ _ I). now right.
        + intros e He. destruct (si_end _ _ _ _ _ _ I e He) as [H|[H1 H2]]; [auto|right; split; [lia|auto]].
        + apply (si_ends _ _ _ _ _ _ I).
        + apply set_add_NoDup; [apply (si_nodup _ _ _ _ _ _ I)|now apply labels_at_NoDup].
        + intro l. rewrite set_add_In, (si_cur _ _ _ _ _ _ I), labels_at_In. split.
          * intros [(c & e & H1 & H2 & H3)|([c e] & H1 & H2)].
            -- exists c, e. split; [assumption|]. split; [intro; apply H2; now right|assumption].
            -- cbn in H2. subst c. exists st, e. split; [exact H1|]. split.
               ++ intro H. apply Hhd in H. lia.
               ++ apply Hpop; [exists l, st; exact H1|apply (Hw l); exact H1].
          * intros (c & e & H1 & H2 & H3). destruct (Z.eq_dec c st) as [->|Hc].
            -- right. exists (st, e). split; [exact H1|reflexivity].
            -- left. exists c, e. split; [assumption|]. split; [intros [?|?]; [congruence|contradiction]|assumption].
        + discriminate.
        + intros _. split.
          * intros [_ He]. apply Hpop; [assumption|lia].
          * intro H. split; [apply (si_starts _ _ _ _ _ _ I); now left|now apply (si_ends _ _ _ _ _ _ I)].
      - right. assert (Hs : is_start s st) by (apply (si_starts _ _ _ _ _ _ I); now left).
        destruct Hs as (l & b & Hs). intro E.
        assert (In b ends) by (apply Hpop; [exists l, st; exact Hs|exact (Hw l st b Hs)]).
        rewrite E in *. contradiction.
      - cbn in Hf. lia.
      - exists (LabeledSpan (rs, st) cur :: ps), hi. rewrite E. split; [reflexivity|].
        assert (Hnb : In rs ends -> False) by (intro H; apply e_ok in H; lia).
        split; [|split; [assumption|split; [lia|assumption]]].
        cbn [good_from]. replace (rs =? st) with false by lia.
        split; [reflexivity|]. split; [lia|]. split; [|split; [|split; [lia|split; [|assumption]]]].
        + split; [apply (si_nodup _ _ _ _ _ _ I)|]. intro l. rewrite (si_cur _ _ _ _ _ _ I). split.
          * intros (c & e & H1 & H2 & H3). exists c, e. split; [assumption|].
            destruct (si_start _ _ _ _ _ _ I c) as [H|H]; [exists l, e; exact H1|contradiction|].
            split; [lia|]. now apply e_ok.
          * intros (c & e & H1 & H2 & H3). exists c, e. split; [assumption|]. split.
            -- intro H. apply (si_sgt _ _ _ _ _ _ I) in H. lia.
            -- apply Hpop; [exists l, c; exact H1|lia].
        + intros x Hx. cbn in Hx. split; intro H.
          * destruct (si_start _ _ _ _ _ _ I x H) as [[->|H1]|H1]; [lia|apply Hhd in H1; lia|lia].
          * destruct (si_end _ _ _ _ _ _ I x H) as [H1|[H1 _]]; [apply e_ok in H1; lia|lia].
        + intro Ha. split; [lia|]. intro Hb. apply (si_ae2 _ _ _ _ _ _ I Ha) in Hb. contradiction. }
    assert (Hend : forall en ends' (s_ok : forall c, In c starts -> en < c), ends = en :: ends' ->
      exists ps hi,
        (do rest <- sweep fuel (matched_spans s) starts ends'
                      (set_remove cur (labels_at snd en (matched_spans s))) (Some en);
         Ok (LabeledSpan (rs, en) cur :: rest)) = Ok ps
        /\ good_from s ae rs ps hi /\ is_end s hi /\ rs <= hi /\ (forall e, is_end s e -> e <= hi)).
    { intros en ends' s_ok ->.
      assert (Hrs : rs <= en) by (apply (si_ege _ _ _ _ _ _ I); now left).
      pose proof (sorted_head _ _ (si_es _ _ _ _ _ _ I)) as Hhd.
      assert (Hen : is_end s en) by (apply (si_ends _ _ _ _ _ _ I); now left).
      destruct (IH (rs =? en) en starts ends' (set_remove cur (labels_at snd en (matched_spans s)))) as (ps & hi & E & G & He & Hle & Hall).
      - constructor.
        + apply (si_ss _ _ _ _ _ _ I).
        + pose proof (si_es _ _ _ _ _ _ I) as H. inversion H; assumption.
        + exact s_ok.
        + intros e He. apply Hhd in He. lia.
        + intros c Hc. destruct (si_start _ _ _ _ _ _ I c Hc) as [H|H]; [auto|right; lia].
        + apply (si_starts _ _ _ _ _ _ I).
        + intros e He. destruct (si_end _ _ _ _ _ _ I e He) as [[->|H]|[H1 H2]].
          * right. split; [lia|exact Hhd].
          * auto.
          * right. split; [lia|]. intros x Hx. apply H2. now right.
        + intros e He. apply (si_ends _ _ _ _ _ _ I). now right.
        + apply NoDup_filter, (si_nodup _ _ _ _ _ _ I).
        + intro l. rewrite set_remove_In, (si_cur _ _ _ _ _ _ I), labels_at_In. split.
          * intros ((c & e & H1 & H2 & [<-|H3]) & Hn).
            -- exfalso. apply Hn. exists (c, en). auto.
            -- exists c, e. auto.
          * intros (c & e & H1 & H2 & H3). split.
            -- exists c, e. split; [assumption|]. split; [assumption|now right].
            -- intros (sp & H4 & H5). assert (sp = (c, e)) by (eapply dict_uniq; eauto). subst sp.
               cbn in H5. subst e. apply Hhd in H3. lia.
        + intros _. exact Hhd.
        + intro Ha. split.
          * intros [Hs _]. destruct (si_start _ _ _ _ _ _ I en Hs) as [H|H]; [apply s_ok in H; lia|lia].
          * intro H. apply Hhd in H. lia.
      - auto.
      - cbn in Hf. lia.
      - exists (LabeledSpan (rs, en) cur :: ps), hi. rewrite E. split; [reflexivity|].
        split; [|split; [assumption|split; [lia|assumption]]].
        cbn [good_from]. split; [reflexivity|]. split; [lia|].
        split; [|split; [|split; [|split; [|assumption]]]].
        + split; [apply (si_nodup _ _ _ _ _ _ I)|]. intro l. rewrite (si_cur _ _ _ _ _ _ I). split.
          * intros (c & e & H1 & H2 & H3). exists c, e. split; [assumption|].
            destruct (si_start _ _ _ _ _ _ I c) as [H|H]; [exists l, e; exact H1|contradiction|].
            split; [lia|]. destruct H3 as [->|H3]; [lia|]. apply Hhd in H3. lia.
          * intros (c & e & H1 & H2 & H3). exists c, e. split; [assumption|]. split.
            -- intro H. apply (si_sgt _ _ _ _ _ _ I) in H. lia.
            -- destruct (si_end _ _ _ _ _ _ I e) as [H|[H4 H5]]; [exists l, c; exact H1|assumption|].
               specialize (H5 en (or_introl eq_refl)). lia.
        + intros x Hx. cbn in Hx. split; intro H.
          * destruct (si_start _ _ _ _ _ _ I x H) as [H1|H1]; [apply s_ok in H1; lia|lia].
          * destruct (si_end _ _ _ _ _ _ I x H) as [[->|H1]|[H1 _]]; [lia|apply Hhd in H1; lia|lia].
        + intro Ha. apply (si_ae1 _ _ _ _ _ _ I Ha). now left.
        + intro Ha. rewrite (si_ae2 _ _ _ _ _ _ I Ha). cbn. split; [intro; left; lia|].
          intros [H|H]; [lia|]. apply Hhd in H. lia. }
    destruct starts as [|st starts'], ends as [|en ends'].
    + exists [], rs. cbn. split; [reflexivity|]. split; [split; [reflexivity|]|].
      * intros Ha Hb. apply (si_ae2 _ _ _ _ _ _ I Ha) in Hb. contradiction.
      * split; [destruct Hne; [assumption|congruence]|]. split; [lia|].
        intros e He. destruct (si_end _ _ _ _ _ _ I e He) as [[]|[H _]]. assumption.
    + apply Hend; [intros ? []|reflexivity].
    + exfalso. assert (Hs : is_start s st) by (apply (si_starts _ _ _ _ _ _ I); now left).
      destruct Hs as (l & b & Hs). assert (Hb : is_end s b) by (exists l, st; exact Hs).
      pose proof (Hw l st b Hs). assert (rs < st) by (apply (si_sgt _ _ _ _ _ _ I); now left).
      destruct (si_end _ _ _ _ _ _ I b Hb) as [[]|[? _]]. lia.
    + destruct (Z.leb_spec st en).
      * apply Hstart; [|reflexivity]. intros e [<-|He]; [assumption|].
        apply (sorted_head _ _ (si_es _ _ _ _ _ _ I)) in He. lia.
      * apply Hend; [|reflexivity]. intros c [<-|Hc]; [assumption|].
        apply (sorted_head _ _ (si_ss _ _ _ _ _ _ I)) in Hc. lia.
Qed.

Lemma starts_In s p : In p (map (fun kv : label * span => fst (snd kv)) (matched_spans s)) <-> is_start s p.
Proof.
  rewrite in_map_iff. unfold is_start, spans_of. split.
  - intros ([l [a b]] & <- & H). exists l, b. exact H.
  - intros (l & b & H). exists (l, (p, b)). auto.
Qed.
Lemma ends_In s p : In p (map (fun kv : label * span => snd (snd kv)) (matched_spans s)) <-> is_end s p.
Proof.
  rewrite in_map_iff. unfold is_end, spans_of. split.
  - intros ([l [a b]] & <- & H). exists l, a. exact H.
  - intros (l & a & H). exists (l, (a, p)). auto.
Qed.

Lemma labeled_spans_good s : dict_ok (matched_spans s) -> well_oriented s -> matched_spans s <> [] ->
  exists ps lo hi, labeled_spans s = Ok ps /\ is_hull s lo hi /\ good_from s false lo ps hi.
Proof.
  intros Hd Hw Hne. unfold labeled_spans. cbv zeta.
  match goal with |- context [sweep _ _ ?x ?y [] None] => set (starts := x); set (ends := y) end.
  assert (Hs : forall p, In p starts <-> is_start s p) by (intro; unfold starts; rewrite sorted_keys_In; apply starts_In).
  assert (He : forall p, In p ends <-> is_end s p) by (intro; unfold ends; rewrite sorted_keys_In; apply ends_In).
  assert (Ss : StronglySorted Z.lt starts) by apply sorted_keys_sorted.
  assert (Se : StronglySorted Z.lt ends) by apply sorted_keys_sorted.
  destruct (matched_spans s) as [|[l0 [a0 b0]] d0] eqn:Ed; [congruence|]. rewrite <- Ed in *.
  assert (H0 : spans_of s l0 a0 b0) by (unfold spans_of; rewrite Ed; now left).
  assert (Ha0 : In a0 starts) by (apply Hs; exists l0, b0; exact H0).
  assert (Hb0 : In b0 ends) by (apply He; exists l0, a0; exact H0).
  clearbody starts ends.
  destruct starts as [|st starts']; [contradiction|]. destruct ends as [|en ends']; [contradiction|].
  pose proof (sorted_head _ _ Ss) as Hhd.
  assert (Hmin : forall c, is_start s c -> st <= c).
  { intros c Hc. apply Hs in Hc. destruct Hc as [->|Hc]; [lia|]. apply Hhd in Hc. lia. }
  assert (Hmine : forall e, is_end s e -> st <= e).
  { intros e (l & a & H). pose proof (Hw _ _ _ H). assert (st <= a) by (apply Hmin; exists l, e; exact H). lia. }
  cbn [length Nat.add sweep].
  replace (st <=? en) with true by (symmetry; apply Z.leb_le, Hmine, He; now left).
  destruct (sweep_good s (length starts' + length (en :: ends')) Hd Hw false st starts' (en :: ends')
              (set_add [] (labels_at fst st (matched_spans s)))) as (ps & hi & E & G & Hh & Hle & Hall).
  - constructor.
    + inversion Ss; assumption.
    + assumption.
    + exact Hhd.
    + intros e Hx. apply Hmine. now apply He.
    + intros c Hc. apply Hs in Hc. destruct Hc as [->|Hc]; [right; lia|auto].
    + intros c Hc. apply Hs. now right.
    + intros e Hx. left. now apply He.
    + intros e Hx. now apply He.
    + apply set_add_NoDup; [constructor|now apply labels_at_NoDup].
    + intro l. rewrite set_add_In, labels_at_In. split.
      * intros [[]|([c e] & H1 & H2)]. cbn in H2. subst c. exists st, e. split; [exact H1|].
        split; [intro H; apply Hhd in H; lia|]. apply He. exists l, st. exact H1.
      * intros (c & e & H1 & H2 & _). right. exists (c, e). split; [exact H1|]. cbn.
        assert (Hc : In c (st :: starts')) by (apply Hs; exists l, e; exact H1).
        destruct Hc as [->|Hc]; [reflexivity|contradiction].
    + discriminate.
    + intros _. rewrite He. split; [tauto|]. intro H. split; [apply Hs; now left|assumption].
  - right. discriminate.
  - reflexivity.
  - exists ps, st, hi. cbn [length Nat.add] in E. rewrite E. cbn [bind]. split; [reflexivity|]. split; [|assumption].
    split; [apply Hs; now left|]. split; [assumption|]. intros l a b H. split.
    + apply Hmin. exists l, b. exact H.
    + apply Hall. exists l, a. exact H.
Qed.

Lemma good_tiles s ae p ps hi : good_from s ae p ps hi -> tiles p ps hi.
Proof.
  revert ae p; induction ps as [|[[a b] ls|] ps IH]; intros ae p; cbn; [tauto| |contradiction].
  intros (-> & H1 & _ & _ & _ & _ & G). repeat split; auto. eapply IH; eauto.
Qed.
Lemma good_exact s ae p ps hi : good_from s ae p ps hi -> Forall (labels_exact s) ps.
Proof.
  revert ae p; induction ps as [|[[a b] ls|] ps IH]; intros ae p; cbn [good_from]; [constructor| |contradiction].
  intros (-> & H1 & H2 & _ & _ & _ & G). constructor; [assumption|]. eapply IH; eauto.
Qed.
Lemma good_inside s ae p ps hi : good_from s ae p ps hi -> Forall (no_boundary_inside s) ps.
Proof.
  revert ae p; induction ps as [|[[a b] ls|] ps IH]; intros ae p; cbn [good_from]; [constructor| |contradiction].
  intros (-> & H1 & H2 & H3 & _ & _ & G). constructor; [assumption|]. eapply IH; eauto.
Qed.
Lemma good_le s ae p ps hi : good_from s ae p ps hi -> p <= hi.
Proof.
  revert ae p; induction ps as [|[[a b] ls|] ps IH]; intros ae p; cbn [good_from]; [lia| |contradiction].
  intros (-> & H1 & _ & _ & _ & _ & G). apply IH in G. lia.
Qed.
(** A boundary is a piece boundary; an end that is also a start has its own
    empty piece, exactly once. *)
Lemma good_empty s ae p ps hi q : good_from s ae p ps hi -> is_start s q -> is_end s q ->
  p <= q <= hi -> (p = q -> ae = false) ->
  exists ls ps1 ps2, ps = ps1 ++ LabeledSpan (q, q) ls :: ps2.
Proof.
  revert ae p; induction ps as [|[[a b] ls|] ps IH]; intros ae p; cbn [good_from]; [| |contradiction].
  - intros (-> & H) Hs He Hq Ha. assert (hi = q) by lia. subst. exfalso. apply H; auto.
  - intros (-> & H1 & H2 & H3 & H4 & H5 & G) Hs He Hq Ha.
    destruct (Z.eq_dec p q) as [->|Hne].
    + apply H5 in Ha; auto. destruct Ha as [_ Ha]. rewrite <- (Ha (conj Hs He)).
      exists ls, [], ps. reflexivity.
    + assert (b <= q). { destruct (Z_lt_le_dec q b); [|assumption]. exfalso. apply (proj1 (H3 q ltac:(cbn; lia))); assumption. }
      destruct (IH _ _ G Hs He) as (ls' & p1 & p2 & ->); [lia|lia|].
      exists ls', (LabeledSpan (p, b) ls :: p1), p2. reflexivity.
Qed.
Lemma good_empty_only s ae p ps hi a ls : good_from s ae p ps hi -> In (LabeledSpan (a, a) ls) ps ->
  is_start s a /\ is_end s a.
Proof.
  revert ae p; induction ps as [|[[x y] ls'|] ps IH]; intros ae p; cbn [good_from]; [contradiction| |contradiction].
  intros (-> & H1 & H2 & H3 & H4 & H5 & G) [E|Hin]; [|eapply IH; eauto].
  injection E as -> -> ->. destruct ae; [specialize (H4 eq_refl); lia|]. now apply H5.
Qed.

Lemma labeled_spans_spec s : dict_ok (matched_spans s) -> well_oriented s -> matched_spans s <> [] ->
  exists ps lo hi, labeled_spans s = Ok ps /\ is_hull s lo hi /\ tiles lo ps hi
    /\ Forall (labels_exact s) ps /\ Forall (no_boundary_inside s) ps
    /\ (forall p, (exists ls, In (LabeledSpan (p, p) ls) ps) <-> is_start s p /\ is_end s p).
Proof.
  intros Hd Hw Hne. destruct (labeled_spans_good s Hd Hw Hne) as (ps & lo & hi & E & Hh & G).
  exists ps, lo, hi. split; [assumption|]. split; [assumption|].
  split; [eapply good_tiles; eauto|]. split; [eapply good_exact; eauto|]. split; [eapply good_inside; eauto|].
  intro p. split.
  - intros (ls & Hin). eapply good_empty_only; eauto.
  - intros [H1 H2]. destruct Hh as (_ & _ & Hh).
    destruct (good_empty s false lo ps hi p G H1 H2) as (ls & p1 & p2 & ->); auto.
    + destruct H1 as (l & b & H1). destruct H2 as (m & a & H2). apply Hh in H1, H2. lia.
    + exists ls. apply in_app_iff. right. now left.
Qed.

Lemma labeled_spans_empty s : matched_spans s = [] -> labeled_spans s = Ok [].
Proof. unfold labeled_spans. intros ->. reflexivity. Qed.

Lemma sweep_err fuel d starts ends cur rs e :
  (length starts + length ends <= fuel)%nat ->
  sweep fuel d starts ends cur rs = Err e -> e = AssertionError.
Proof.
  revert starts ends cur rs. induction fuel as [|fuel IH]; intros [|st starts] [|en ends] cur rs Hf; cbn in *; try discriminate; try lia.
  - destruct (sweep fuel d [] ends _ _) eqn:E; cbn; [discriminate|]. intro H. injection H as <-.
    eapply IH; [|exact E]. cbn. lia.
  - congruence.
  - destruct (st <=? en);
    match goal with |- bind ?x _ = _ -> _ => destruct x eqn:E end; cbn; try discriminate; intro H; injection H as <-;
      (eapply IH; [|exact E]); cbn in *; lia.
Qed.
Lemma labeled_spans_err s e : dict_ok (matched_spans s) -> labeled_spans s = Err e ->
  e = AssertionError /\ ~ well_oriented s.
Proof.
  intros Hd H. split.
  - unfold labeled_spans in H. eapply sweep_err; [|exact H]. lia.
  - intro Hw. destruct (matched_spans s) eqn:Ed.
    + rewrite labeled_spans_empty in H by assumption. discriminate.
    + destruct (labeled_spans_good s) as (ps & lo & hi & E & _); try assumption; try congruence.
Qed.
