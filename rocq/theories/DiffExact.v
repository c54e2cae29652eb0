(** Proofs for C08: when exactly the preview shows the text. *)
From Verif Require Import Py PyFacts Regex Subst Fmt SubstSpec SubstProofs SweepProofs ApplySpec ApplyProofs DiffProofs PropsSubst.

Definition width (p : piece) : Z := snd (piece_span p) - fst (piece_span p).
Definition total (ps : list piece) : Z := fold_right (fun p n => width p + n) 0 ps.
Lemma total_app xs ys : total (xs ++ ys) = total xs + total ys.
Proof. induction xs as [|x xs IH]; [reflexivity|]. cbn [app total fold_right]. fold (total (xs ++ ys)) (total xs). lia. Qed.

Section Exact.
  Variable s : substitution.
  Variable r : dict text.
  Hypothesis Hd : dict_ok (matched_spans s).
  Hypothesis Hr : forall l a b t, replaced s l a b t <-> spans_of s l a b /\ In (l, t) r.
  Hypothesis Hw : well_oriented s.
  Notation loop := (as_diff_loop (matched_spans s) r).

  Lemma loop_step x y ls L : labels_exact s (LabeledSpan (x, y) ls) ->
    (x < L /\ forall rest, loop L (LabeledSpan (x, y) ls :: rest) = loop L rest)
    \/ (L <= x /\ forall rest, loop L (LabeledSpan (x, y) ls :: rest) = LabeledSpan (x, y) ls :: loop L rest)
    \/ (L <= x /\ exists m c e t, replaced s m c e t /\ c <= x /\ y <= e /\ forall rest, loop L (LabeledSpan (x, y) ls :: rest) = DiffSpan (c, e) m t :: loop e rest).
  Proof.
    intros H. cbn [as_diff_loop]. destruct (Z.ltb_spec x L) as [|G]; [now left|right].
    destruct (max_label _ _) as [m|] eqn:E; [right|now left]. destruct (cand_some s r Hd Hr x y ls m H E) as (c & e & t & R & C1 & C2 & E1 & E2 & _).
    split; [exact G|]. exists m, c, e, t. rewrite E1, E2. auto.
  Qed.
  Lemma rep_oriented l a b t : replaced s l a b t -> a <= b /\ is_end s b.
  Proof. intros R. apply Hr in R as [R _]. split; [exact (Hw _ _ _ R)|now exists l, a]. Qed.

  Lemma loop_covers ps : forall p q L, Forall (labels_exact s) ps -> Forall (no_boundary_inside s) ps -> tiles p ps q -> L <= p \/ is_end s L ->
    q - Z.max p L <= total (loop L ps) /\ 0 <= total (loop L ps).
  Proof.
    induction ps as [|x ps IH]; intros p q L HL HB HT G.
    - cbn in *. lia.
    - inversion HL as [|? ? HL1 HL2]; subst. inversion HB as [|? ? HB1 HB2]; subst. destruct x as [[x y] ls|]; [|destruct HL1]. cbn [tiles piece_span fst snd] in HT. destruct HT as (-> & Hxy & HT).
      destruct (loop_step p y ls L HL1) as [[K E]|[[K E]|(K & m & c & e & t & R & C1 & C2 & E)]]; rewrite E.
      + destruct G as [G|G]; [lia|]. assert (y <= L).
        { destruct (Z_lt_le_dec L y) as [Y|Y]; [|exact Y]. exfalso. apply (HB1 L); [cbn; lia|exact G]. }
        destruct (IH y q L HL2 HB2 HT (or_intror G)). lia.
      + cbn [total fold_right]. fold (total (loop L ps)). unfold width. cbn [piece_span fst snd]. destruct (IH y q L HL2 HB2 HT (or_introl (Z.le_trans _ _ _ K Hxy))). lia.
      + cbn [total fold_right]. fold (total (loop e ps)). unfold width. cbn [piece_span fst snd]. destruct (rep_oriented _ _ _ _ R) as [O1 O2].
        destruct (IH y q e HL2 HB2 HT (or_intror O2)). lia.
  Qed.
  Lemma loop_app pre post : forall L, Forall (labels_exact s) pre -> exists L', loop L (pre ++ post) = loop L pre ++ loop L' post
    /\ (L' = L \/ exists m c e t x y ls, replaced s m c e t /\ L' = e /\ In (LabeledSpan (x, y) ls) pre /\ c <= x /\ y <= e).
  Proof.
    induction pre as [|p pre IH]; intros L HL; [exists L; split; [reflexivity|now left]|]. inversion HL as [|? ? HL1 HL2]; subst. destruct p as [[x y] ls|]; [|destruct HL1]. cbn [app].
    destruct (loop_step x y ls L HL1) as [[K E]|[[K E]|(K & m & c & e & t & R & C1 & C2 & E)]]; rewrite 2!E.
    - destruct (IH L HL2) as (L' & E1 & D). exists L'. split; [exact E1|]. destruct D as [->|(m & c & e & t & x' & y' & ls' & D1 & D2 & D3 & D4)]; [now left|right].
      exists m, c, e, t, x', y', ls'. split; [exact D1|]. split; [exact D2|]. split; [now right|exact D4].
    - destruct (IH L HL2) as (L' & E1 & D). exists L'. split; [cbn [app]; now rewrite E1|]. destruct D as [->|(m & c & e & t & x' & y' & ls' & D1 & D2 & D3 & D4)]; [now left|right].
      exists m, c, e, t, x', y', ls'. split; [exact D1|]. split; [exact D2|]. split; [now right|exact D4].
    - destruct (IH e HL2) as (L' & E1 & D). exists L'. split; [cbn [app]; now rewrite E1|]. right. destruct D as [->|(m0 & c0 & e0 & t0 & x' & y' & ls' & D1 & D2 & D3 & D4)].
      + exists m, c, e, t, x, y, ls. split; [exact R|]. split; [reflexivity|]. split; [now left|now split].
      + exists m0, c0, e0, t0, x', y', ls'. split; [exact D1|]. split; [exact D2|]. split; [now right|exact D4].
  Qed.

  Lemma loop_pieces ps : forall L, Forall (labels_exact s) ps -> forall o, In o (loop L ps) ->
    In o ps \/ exists m c e t, replaced s m c e t /\ o = DiffSpan (c, e) m t.
  Proof.
    induction ps as [|p ps IH]; intros L HL o Ho; [destruct Ho|]. inversion HL as [|? ? HL1 HL2]; subst. destruct p as [[x y] ls|]; [|destruct HL1].
    destruct (loop_step x y ls L HL1) as [[K E]|[[K E]|(K & m & c & e & t & R & C1 & C2 & E)]]; rewrite E in Ho.
    - destruct (IH L HL2 o Ho) as [D|D]; [left; now right|now right].
    - destruct Ho as [<-|Ho]; [left; now left|]. destruct (IH L HL2 o Ho) as [D|D]; [left; now right|now right].
    - destruct Ho as [<-|Ho]; [right; now exists m, c, e, t|]. destruct (IH e HL2 o Ho) as [D|D]; [left; now right|now right].
  Qed.

  Lemma tiles_split pre : forall p post q, tiles p (pre ++ post) q -> exists y, tiles p pre y /\ tiles y post q.
  Proof.
    induction pre as [|x pre IH]; intros p post q H; [exists p; now split|]. cbn [app tiles] in H. destruct H as (H1 & H2 & H3). destruct (IH _ _ _ H3) as (y & Y1 & Y2). exists y. split; [cbn [tiles]; auto|exact Y2].
  Qed.
  Lemma tiles_within ps : forall p q, tiles p ps q -> p <= q /\ forall o, In o ps -> p <= fst (piece_span o) /\ fst (piece_span o) <= snd (piece_span o) /\ snd (piece_span o) <= q.
  Proof.
    induction ps as [|x ps IH]; intros p q H; cbn [tiles] in H; [subst; split; [lia|intros o []]|]. destruct H as (H1 & H2 & H3). destruct (IH _ _ H3) as [I1 I2]. split; [lia|]. intros o [<-|Ho]; [lia|]. specialize (I2 o Ho). lia.
  Qed.

  Hypothesis Hap : replaced_apart s.
  Variables lo hi : Z.
  Hypothesis Hlo : 0 <= lo.
  Variable ps : list piece.
  Hypothesis HL : Forall (labels_exact s) ps.
  Hypothesis HB : Forall (no_boundary_inside s) ps.
  Hypothesis HT : tiles lo ps hi.

  (** A dangling start makes the preview too long. *)
  Lemma too_long l a b t : replaced s l a b t -> a < b -> (exists ls, In (LabeledSpan (b, b) ls) ps) ->
    (forall m d u, replaced s m b d u -> d <= b) -> hi - lo < total (loop 0 ps).
  Proof.
    intros R Hab (ls & Hin) Hno. apply in_split in Hin as (pre & post & ->).
    apply Forall_app in HL as [HL1 HL2]. apply Forall_app in HB as [HB1 HB2]. inversion HL2 as [|? ? HL3 HL4]; subst. inversion HB2 as [|? ? HB3 HB4]; subst.
    destruct (tiles_split _ _ _ _ HT) as (y & T1 & T2). cbn [tiles piece_span fst snd] in T2. destruct T2 as (<- & _ & T2).
    assert (Only : forall m c e u, replaced s m c e u -> c <= b -> b <= e -> m = l /\ c = a /\ e = b).
    { intros m c e u Rm C1 C2. destruct (text_eq_dec m l) as [->|Ne].
      - apply Hr in R as [R _]. apply Hr in Rm as [Rm _]. assert (E : (c, e) = (a, b)) by (eapply dict_uniq; [exact Hd|exact Rm|exact R]). injection E as -> ->. auto.
      - exfalso. destruct (Hap _ _ _ _ _ _ _ _ R Rm (not_eq_sym Ne)) as [A1 A2]. destruct A1 as [A1|A1]; [|lia]. assert (c = b) as -> by lia. specialize (Hno _ _ _ Rm). lia. }
    destruct (loop_app pre (LabeledSpan (b, b) ls :: post) 0 HL1) as (L' & E & D). rewrite E, total_app.
    destruct (loop_covers pre lo b 0 HL1 HB1 T1 (or_introl Hlo)) as [Q1 _].
    assert (HL' : L' <= b).
    { pose proof (proj1 (tiles_within pre lo b T1)). destruct D as [->|(m & c & e & u & x & y & ls' & D1 & -> & D3 & D4 & D5)]; [lia|].
      pose proof (proj2 (tiles_within pre lo b T1) _ D3) as W. cbn [piece_span fst snd] in W. destruct (Z_le_gt_dec e b) as [G|G]; [exact G|]. destruct (Only m c e u D1 ltac:(lia) ltac:(lia)) as (_ & _ & ->). lia. }
    destruct (loop_step b b ls L' HL3) as [[K _]|[[K F]|(K & m & c & e & u & R' & C1 & C2 & F)]]; [lia| |].
    - exfalso. specialize (F []). cbn [as_diff_loop] in F. destruct (b <? L') eqn:Bl; [discriminate|]. destruct (max_label _ _) as [m|] eqn:Em.
      + destruct (cand_some s r Hd Hr b b ls m HL3 Em) as (c & e & u & _ & _ & _ & E1 & E2 & _). rewrite E1, E2 in F. discriminate.
      + apply (cand_none s r Hr b b ls HL3 Em l a b t R); lia.
    - destruct (Only m c e u R' C1 C2) as (-> & -> & ->). rewrite F. cbn [total fold_right]. fold (total (loop b post)). unfold width. cbn [piece_span fst snd].
      destruct (loop_covers post b hi b HL4 HB4 T2 (or_introl (Z.le_refl b))) as [Q2 _]. lia.
  Qed.
End Exact.

Lemma total_len data lo hi ps : 0 <= lo -> hi <= tlen data -> (forall o, In o ps -> lo <= fst (piece_span o) /\ fst (piece_span o) <= snd (piece_span o) /\ snd (piece_span o) <= hi) ->
  tlen (concat (map (piece_before data) ps)) = total ps.
Proof.
  intros H1 H2. induction ps as [|p ps IH]; intros H; [reflexivity|]. cbn [map concat total fold_right]. fold (total ps).
  assert (X : forall u v : text, tlen (u ++ v) = tlen u + tlen v) by (intros u v; unfold tlen; rewrite app_length; lia). rewrite X, IH; [|intros o Ho; apply H; now right].
  destruct (H p (or_introl eq_refl)) as (P1 & P2 & P3). unfold piece_before, width. rewrite slice_len by lia. lia.
Qed.

Lemma as_diff_exact s data lo hi ps : wf_sub s -> nonneg_spans s -> well_oriented s -> replaced_apart s -> is_hull s lo hi -> hi <= tlen data -> as_diff s = Ok ps ->
  (concat (map (piece_before data) ps) = slice data lo hi <-> no_dangling_start s).
Proof.
  intros Hwf Hnn Hw Hap Hh Hlen E. split.
  2:{ intros Hdg. destruct (as_diff_spec s data Hwf Hnn Hw Hap Hdg) as (ps' & lo' & hi' & E' & Hh' & _ & _ & B & _). rewrite E in E'. injection E' as <-.
      assert (lo' = lo /\ hi' = hi) as [-> ->]; [|exact B].
      destruct Hh as ((l1 & b1 & S1) & (l2 & a2 & S2) & S3), Hh' as ((l1' & b1' & S1') & (l2' & a2' & S2') & S3').
      pose proof (S3 _ _ _ S1'). pose proof (S3 _ _ _ S2'). pose proof (S3' _ _ _ S1). pose proof (S3' _ _ _ S2). lia. }
  intros B. pose proof Hwf as (Hd & Hrd & Hv).
  set (r := match replacements s with Some r => r | None => [] end).
  assert (Hr : forall l a b t, replaced s l a b t <-> spans_of s l a b /\ In (l, t) r).
  { intros l a b t. unfold replaced, r. split.
    - intros (H & r' & E' & Hin). rewrite E'. auto.
    - intros (H & Hin). split; [assumption|]. destruct (replacements s) as [r'|]; [eauto|contradiction]. }
  assert (Hne : matched_spans s <> []) by (intros X; destruct Hh as ((l & b & S) & _); unfold spans_of in S; now rewrite X in S).
  destruct (C07_labeled_spans_partition s Hd Hw Hne) as (qs & lo' & hi' & E' & Hh' & HT & HL & HB & HZ).
  assert (lo' = lo /\ hi' = hi) as [-> ->].
  { destruct Hh as ((l1 & b1 & S1) & (l2 & a2 & S2) & S3), Hh' as ((l1' & b1' & S1') & (l2' & a2' & S2') & S3').
    pose proof (S3 _ _ _ S1'). pose proof (S3 _ _ _ S2'). pose proof (S3' _ _ _ S1). pose proof (S3' _ _ _ S2). lia. }
  unfold as_diff in E. rewrite E' in E. cbn [bind] in E. injection E as <-. fold r in B.
  assert (Hlo : 0 <= lo).
  { destruct Hh as ((l & b & H) & _). unfold nonneg_spans in Hnn. rewrite Forall_forall in Hnn. apply Hnn in H. exact H. }
  intros l a b t R Hab Hst.
  destruct (existsb (fun '(m, (c, d)) => (c =? b) && (b <? d) && dmem r m) (matched_spans s)) eqn:X.
  - apply existsb_exists in X as ([m [c d] ] & X1 & X2). apply andb_prop in X2 as [X2 X3]. apply andb_prop in X2 as [X2 X4].
    assert (c = b) as -> by lia. unfold dmem in X3. destruct (dget r m) as [u|] eqn:Eu; [|discriminate]. exists m, d, u. split; [|lia]. apply Hr. split; [exact X1|now apply dget_In].
  - exfalso. assert (Hno : forall m d u, replaced s m b d u -> d <= b).
    { intros m d u Rm. destruct (Z_le_gt_dec d b) as [G|G]; [exact G|]. exfalso. apply Hr in Rm as [R1 R2].
      assert (Y : existsb (fun '(m, (c, d)) => (c =? b) && (b <? d) && dmem r m) (matched_spans s) = true); [|congruence].
      apply existsb_exists. exists (m, (b, d)). split; [exact R1|]. cbv beta iota. rewrite Z.eqb_refl. replace (b <? d) with true by lia. cbn [andb].
      apply dmem_keys. apply in_map_iff. now exists (m, u). }
    assert (Hz : exists ls, In (LabeledSpan (b, b) ls) qs).
    { apply HZ. split; [exact Hst|]. apply Hr in R as [R _]. now exists l, a. }
    pose proof (too_long s r Hd Hr Hw Hap lo hi Hlo qs HL HB HT l a b t R Hab Hz Hno) as TL.
    assert (W : forall o, In o (as_diff_loop (matched_spans s) r 0 qs) -> lo <= fst (piece_span o) /\ fst (piece_span o) <= snd (piece_span o) /\ snd (piece_span o) <= hi).
    { intros o Ho. destruct (loop_pieces s r Hd Hr qs 0 HL o Ho) as [Ho'|(m & c & e & u & Rm & ->)]; [exact (proj2 (tiles_within qs lo hi HT) o Ho')|].
      cbn [piece_span fst snd]. apply Hr in Rm as [Rm _]. destruct Hh as (_ & _ & S3). pose proof (S3 _ _ _ Rm). pose proof (Hw _ _ _ Rm). lia. }
    apply (f_equal (@tlen char)) in B. rewrite (total_len data lo hi _ Hlo Hlen W) in B. pose proof (proj1 (tiles_within qs lo hi HT)). rewrite slice_len in B by lia. lia.
Qed.
