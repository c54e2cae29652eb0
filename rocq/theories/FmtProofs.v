(** Proofs for C09, C10. *)
From Verif Require Import Py PyFacts Subst Fmt SubstSpec FmtSpec.
From Coq Require Import ZifyBool.

(** *** Searching for a character *)
Lemma index_from_spec c s k :
  match index_from c s k with
  | Some p => exists u v, s = u ++ c :: v /\ ~ In c u /\ p = k + tlen u
  | None => ~ In c s
  end.
Proof.
  revert k; induction s as [|x s IH]; intro k; cbn; [tauto|].
  destruct (Z.eqb_spec x c) as [->|Hne].
  - exists [], s. cbn. repeat split; [tauto|lia].
  - specialize (IH (k + 1)). destruct (index_from c s (k + 1)) as [p|].
    + destruct IH as (u & v & -> & Hn & ->). exists (x :: u), v. repeat split.
      * cbn. intros [?|?]; [congruence|contradiction].
      * rewrite tlen_cons. lia.
    + intros [?|?]; [congruence|contradiction].
Qed.
Lemma rindex_from_spec c s k :
  match rindex_from c s k with
  | Some p => exists u v, s = u ++ c :: v /\ ~ In c v /\ p = k + tlen u
  | None => ~ In c s
  end.
Proof.
  revert k; induction s as [|x s IH]; intro k; cbn; [tauto|].
  specialize (IH (k + 1)). destruct (rindex_from c s (k + 1)) as [p|].
  - destruct IH as (u & v & -> & Hn & ->). exists (x :: u), v. repeat split; [assumption|].
    rewrite tlen_cons. lia.
  - destruct (Z.eqb_spec x c) as [->|Hne].
    + exists [], s. cbn. repeat split; [assumption|lia].
    + intros [?|?]; [congruence|contradiction].
Qed.

Lemma char_at_slice s a b k : 0 <= a -> a <= b -> b <= tlen s -> 0 <= k -> k < b - a ->
  char_at s (a + k) = char_at (slice s a b) k.
Proof.
  intros. unfold char_at. replace (a + k <? 0) with false by lia. replace (k <? 0) with false by lia.
  rewrite slice_nslice by lia. unfold nslice.
  rewrite <- (firstn_skipn (Z.to_nat a) s) at 1.
  rewrite nth_error_app2 by (rewrite firstn_length; unfold tlen in *; lia).
  rewrite firstn_length_le by (unfold tlen in *; lia).
  replace (Z.to_nat (a + k) - Z.to_nat a)%nat with (Z.to_nat k) by lia.
  assert (Hk : (Z.to_nat k < Z.to_nat b - Z.to_nat a)%nat) by lia.
  revert Hk. generalize (Z.to_nat b - Z.to_nat a)%nat, (skipn (Z.to_nat a) s). generalize (Z.to_nat k). clear.
  induction n as [|n IH]; intros m l Hk; destruct m as [|m]; try lia; destruct l; cbn; auto.
  apply IH. lia.
Qed.
Lemma char_at_app_mid u c v : char_at (u ++ c :: v) (tlen u) = Some c.
Proof.
  unfold char_at. pose proof (tlen_nonneg u). replace (tlen u <? 0) with false by lia.
  unfold tlen. rewrite Nat2Z.id. rewrite nth_error_app2 by lia. now rewrite Nat.sub_diag.
Qed.
Lemma char_at_In s p c : char_at s p = Some c -> In c s.
Proof. unfold char_at. destruct (p <? 0); [discriminate|]. apply nth_error_In. Qed.
Lemma char_at_l u v p : p < tlen u -> char_at (u ++ v) p = char_at u p.
Proof.
  unfold char_at, tlen. intro. destruct (Z.ltb_spec p 0); [reflexivity|]. apply nth_error_app1. lia.
Qed.
Lemma char_at_r u v p : tlen u <= p -> char_at (u ++ v) p = char_at v (p - tlen u).
Proof.
  unfold char_at. intro. pose proof (tlen_nonneg u).
  replace (p <? 0) with false by lia. replace (p - tlen u <? 0) with false by lia.
  unfold tlen in *. rewrite nth_error_app2 by lia. f_equal. lia.
Qed.
Lemma char_at_range s p c : char_at s p = Some c -> 0 <= p < tlen s.
Proof.
  unfold char_at, tlen. destruct (Z.ltb_spec p 0); [discriminate|]. intro H'.
  assert (nth_error s (Z.to_nat p) <> None) by congruence. apply nth_error_Some in H0. lia.
Qed.

Lemma norm_idx_id n i : 0 <= i <= n -> norm_idx n i = i.
Proof. intro. unfold norm_idx. destruct (Z.ltb_spec i 0); lia. Qed.
Lemma find_char_spec c s i j : 0 <= i -> i <= j -> j <= tlen s ->
  match find_char c s i j with
  | Some p => i <= p < j /\ char_at s p = Some c /\ forall q, i <= q < p -> char_at s q <> Some c
  | None => forall q, i <= q < j -> char_at s q <> Some c
  end.
Proof.
  intros. unfold find_char. rewrite norm_idx_id by lia.
  assert (Hl : tlen (slice s i j) = j - i) by (apply slice_len; lia).
  assert (Hc : forall q, i <= q < j -> char_at s q = char_at (slice s i j) (q - i)).
  { intros q Hq. replace q with (i + (q - i)) at 1 by lia. apply char_at_slice; lia. }
  pose proof (index_from_spec c (slice s i j) i) as H'. destruct (index_from c (slice s i j) i) as [p|].
  - destruct H' as (u & v & E & Hn & ->). rewrite E in *. pose proof (tlen_nonneg u) as Hu. pose proof (tlen_nonneg v) as Hv.
    rewrite tlen_app, tlen_cons in Hl. split; [lia|]. split.
    + rewrite Hc by lia. replace (i + tlen u - i) with (tlen u) by lia. apply char_at_app_mid.
    + intros q Hq. rewrite Hc by lia. rewrite char_at_l by lia. intro E'. apply char_at_In in E'. contradiction.
  - intros q Hq. rewrite Hc by lia. intro E'. apply char_at_In in E'. contradiction.
Qed.
Lemma rfind_char_spec c s i j : 0 <= i -> i <= j -> j <= tlen s ->
  match rfind_char c s i j with
  | Some p => i <= p < j /\ char_at s p = Some c /\ forall q, p < q < j -> char_at s q <> Some c
  | None => forall q, i <= q < j -> char_at s q <> Some c
  end.
Proof.
  intros. unfold rfind_char. rewrite norm_idx_id by lia.
  assert (Hl : tlen (slice s i j) = j - i) by (apply slice_len; lia).
  assert (Hc : forall q, i <= q < j -> char_at s q = char_at (slice s i j) (q - i)).
  { intros q Hq. replace q with (i + (q - i)) at 1 by lia. apply char_at_slice; lia. }
  pose proof (rindex_from_spec c (slice s i j) i) as H'. destruct (rindex_from c (slice s i j) i) as [p|].
  - destruct H' as (u & v & E & Hn & ->). rewrite E in *. pose proof (tlen_nonneg u) as Hu. pose proof (tlen_nonneg v) as Hv.
    rewrite tlen_app, tlen_cons in Hl. split; [lia|]. split.
    + rewrite Hc by lia. replace (i + tlen u - i) with (tlen u) by lia. apply char_at_app_mid.
    + intros q Hq. rewrite Hc by lia. rewrite char_at_r by lia.
      replace (q - i - tlen u) with (1 + (q - i - tlen u - 1)) by lia.
      change (c :: v) with ([c] ++ v). rewrite char_at_r by (unfold tlen in *; cbn [length]; lia). intro E'. apply char_at_In in E'. contradiction.
  - intros q Hq. rewrite Hc by lia. intro E'. apply char_at_In in E'. contradiction.
Qed.

(** *** C09 *)
Lemma line_expanded_left_spec s a : 0 <= a -> a <= tlen s ->
  let x := line_expanded_left s a in
  0 <= x <= a /\ at_line_start s x /\ (forall x', x' <= a -> at_line_start s x' -> x' <= x).
Proof.
  intros H1 H2. unfold line_expanded_left. cbv zeta. pose proof (rfind_char_spec NL s 0 a ltac:(lia) H1 H2) as H.
  destruct (rfind_char NL s 0 a) as [p|].
  - destruct H as (Hp & Hc & Hn). replace (Z.min a (p + 1)) with (p + 1) by lia.
    split; [lia|]. split; [right; now replace (p + 1 - 1) with p by lia|].
    intros x' Hx [->|H']; [lia|]. destruct (Z_le_gt_dec x' (p + 1)); [assumption|].
    exfalso. apply (Hn (x' - 1)); [lia|assumption].
  - split; [lia|]. split; [now left|]. intros x' Hx [->|H']; [lia|].
    pose proof (char_at_range _ _ _ H'). exfalso. apply (H (x' - 1)); [lia|assumption].
Qed.
Lemma line_expanded_right_spec s b : 0 <= b -> b <= tlen s ->
  let y := line_expanded_right s b in
  b <= y <= tlen s /\ at_line_end s y /\ (forall y', b <= y' -> at_line_end s y' -> y <= y').
Proof.
  intros H1 H2. unfold line_expanded_right. cbv zeta. pose proof (find_char_spec NL s b (tlen s) H1 H2 ltac:(lia)) as H.
  destruct (find_char NL s b (tlen s)) as [p|].
  - destruct H as (Hp & Hc & Hn). split; [lia|]. split; [now right|].
    intros y' Hy [->|H']; [lia|]. destruct (Z_le_gt_dec p y'); [assumption|]. exfalso. apply (Hn y'); [lia|assumption].
  - split; [lia|]. split; [now left|]. intros y' Hy [->|H']; [lia|].
    pose proof (char_at_range _ _ _ H'). exfalso. apply (H y'); [lia|assumption].
Qed.

(** The offset a slice bound stands for. *)
Definition resolve (s : text) (default : Z) (o : option Z) : Z :=
  match o with None => default | Some x => if x <? 0 then tlen s + x else x end.
Lemma line_expanded_span_spec s oa ob :
  let a := resolve s 0 oa in
  let b := Z.max a (resolve s (tlen s) ob) in
  0 <= a -> b <= tlen s ->
  exists x y, line_expanded_span s oa ob = (x, y)
    /\ x <= a /\ b <= y /\ 0 <= x /\ y <= tlen s
    /\ at_line_start s x /\ at_line_end s y
    /\ (forall x' y', x' <= a -> b <= y' -> at_line_start s x' -> at_line_end s y' -> x' <= x /\ y <= y').
Proof.
  cbv zeta. intros Ha Hb. pose proof (tlen_nonneg s) as Hs.
  set (a := resolve s 0 oa) in *. set (b := Z.max a (resolve s (tlen s) ob)) in *.
  destruct (line_expanded_left_spec s a Ha ltac:(lia)) as (L1 & L2 & L3).
  destruct (line_expanded_right_spec s b ltac:(lia) Hb) as (R1 & R2 & R3).
  exists (line_expanded_left s a), (line_expanded_right s b). split.
  - unfold line_expanded_span. cbv zeta.
    assert (Ea : (if match oa with Some x => x | None => 0 end <? 0 then tlen s + match oa with Some x => x | None => 0 end
                  else match oa with Some x => x | None => 0 end) = a).
    { unfold a, resolve. destruct oa as [x|]; cbn; reflexivity. }
    assert (Eb : (if match ob with Some x => x | None => tlen s end <? 0 then tlen s + match ob with Some x => x | None => tlen s end
                  else match ob with Some x => x | None => tlen s end) = resolve s (tlen s) ob).
    { unfold resolve. destruct ob as [x|]; [reflexivity|]. now replace (tlen s <? 0) with false by lia. }
    rewrite Ea, Eb. f_equal. f_equal. unfold b. destruct (Z.ltb_spec (resolve s (tlen s) ob) a); lia.
  - repeat split; try lia; auto; apply L3 || apply R3; auto.
Qed.

(** *** C10 *)
Lemma no_newline_slice s a b : 0 <= a -> a <= b -> b <= tlen s ->
  (forall q, a <= q < b -> char_at s q <> Some NL) -> no_newline (slice s a b).
Proof.
  intros H1 H2 H3 H Hin. apply In_nth_error in Hin. destruct Hin as (k & Hk).
  assert (Hl : (k < length (slice s a b))%nat) by (apply nth_error_Some; congruence).
  pose proof (slice_len s a b H1 H2 H3) as Hs. unfold tlen in Hs.
  apply (H (a + Z.of_nat k)); [lia|]. rewrite (char_at_slice s a b) by lia.
  unfold char_at. replace (Z.of_nat k <? 0) with false by lia. now rewrite Nat2Z.id.
Qed.

Lemma partition_span_spec contents a b : 0 <= a -> a <= b -> b <= tlen contents ->
  let '(first, mid, last) := partition_span contents (a, b) in
  match last with
  | None => first = (a, b) /\ mid = None /\ no_newline (slice contents a b)
  | Some (z, b') =>
      exists n, first = (a, n + 1) /\ a <= n /\ n + 1 <= z /\ z <= b /\ b' = b
        /\ char_at contents n = Some NL
        /\ no_newline (slice contents a n)
        /\ no_newline (slice contents z b)
        /\ match mid with
           | None => z = n + 1
           | Some m => m = (n + 1, z) /\ n + 1 < z /\ char_at contents (z - 1) = Some NL
           end
  end.
Proof.
  intros H1 H2 H3. unfold partition_span. cbn [fst snd].
  pose proof (find_char_spec NL contents a b H1 H2 H3) as F.
  destruct (find_char NL contents a b) as [n|].
  2: { repeat split. now apply no_newline_slice. }
  destruct F as (Hn & Hc & Hno). cbn [split_labeled_span_after fst snd].
  pose proof (rfind_char_spec NL contents (n + 1) b ltac:(lia) ltac:(lia) H3) as R.
  destruct (rfind_char NL contents (n + 1) b) as [m|]; cbn [split_labeled_span_after fst snd].
  - destruct R as (Hm & Hmc & Hmn). exists n.
    repeat split; try lia; auto.
    + apply no_newline_slice; try lia. assumption.
    + apply no_newline_slice; try lia. intros q Hq. apply Hmn. lia.
    + now replace (m + 1 - 1) with m by lia.
  - exists n. repeat split; try lia; auto.
    + apply no_newline_slice; try lia. assumption.
    + apply no_newline_slice; try lia. assumption.
Qed.

Lemma slice_snoc s n : 0 <= n -> char_at s n = Some NL -> forall a, 0 <= a <= n ->
  slice s a (n + 1) = slice s a n ++ [NL].
Proof.
  intros Hn Hc a Ha. pose proof (char_at_range _ _ _ Hc) as Hr.
  rewrite <- (slice_app s a n (n + 1)) by lia. f_equal.
  pose proof (slice_len s n (n + 1) ltac:(lia) ltac:(lia) ltac:(lia)) as Hl.
  replace n with (n + 0) in Hc by lia. rewrite (char_at_slice s n (n + 1)) in Hc by lia.
  destruct (slice s n (n + 1)) as [|x [|y l]]; unfold tlen in Hl; cbn in Hl; try lia.
  unfold char_at in Hc. cbn in Hc. congruence.
Qed.

(** Unchanged pieces of the block contain no newline. *)
Definition plain (data : text) (l : list piece) : Prop :=
  forall p, In p l -> is_diff_piece p = false -> no_newline (piece_before data p).
Definition block_end (data : text) (blk : bool * list piece) : Prop :=
  exists u a b ls, snd blk = u ++ [LabeledSpan (a, b) ls] /\ 0 <= a < b
    /\ char_at data (b - 1) = Some NL
    /\ (fst blk = true -> plain data u /\ no_newline (slice data a (b - 1))).
Definition flag_ok (blk : bool * list piece) : Prop := fst blk = existsb is_diff_piece (snd blk).

Lemma existsb_snoc {A} (f : A -> bool) l x : existsb f (l ++ [x]) = existsb f l || f x.
Proof. rewrite existsb_app. cbn. now rewrite orb_false_r. Qed.

Lemma diff_blocks_loop_spec contents diffs : forall cur fl,
  Forall (in_text contents) diffs -> fl = existsb is_diff_piece cur -> plain contents cur ->
  let bs := diff_blocks_loop contents diffs cur fl in
  let out := concat (map snd bs) in
  read_before contents out = read_before contents cur ++ read_before contents diffs
  /\ read_after contents out = read_after contents cur ++ read_after contents diffs
  /\ filter is_diff_piece out = filter is_diff_piece cur ++ filter is_diff_piece diffs
  /\ (forall q, In q out -> In q cur \/ exists p, In p diffs /\ part_of q p)
  /\ Forall flag_ok bs
  /\ exists bs' lst, bs = bs' ++ [lst] /\ Forall (block_end contents) bs' /\ plain contents (snd lst).
Proof.
  unfold read_before, read_after.
  induction diffs as [|d diffs IH]; intros cur fl Hin Hfl Hpl.
  - cbn. rewrite !app_nil_r. do 3 (split; [reflexivity|]). split; [auto|]. split.
    + constructor; [exact Hfl|constructor].
    + exists [], (fl, cur). split; [reflexivity|]. split; [constructor|exact Hpl].
  - inversion Hin as [|? ? Hd Hin']; subst. destruct d as [[a b] ls|sp l after].
    + cbn [diff_blocks_loop]. destruct Hd as (H1 & H2 & H3).
      pose proof (partition_span_spec contents a b H1 H2 H3) as P.
      destruct (partition_span contents (a, b)) as [[first mid] last]. destruct last as [[z b']|].
      * destruct P as (n & -> & Hn1 & Hn2 & Hn3 & -> & Hc & N1 & N2 & Hmid).
        pose proof (char_at_range _ _ _ Hc) as Hr.
        assert (Hpl' : plain contents [LabeledSpan (z, b) ls]).
        { intros p [<-|[]] _. exact N2. }
        destruct (IH [LabeledSpan (z, b) ls] false Hin' eq_refl Hpl') as (B & A & F & Q & FL & bs' & lst & E & BE & PL).
        clear IH. cbn [map concat snd app] in *.
        assert (Hb1 : block_end contents (existsb is_diff_piece cur, cur ++ [LabeledSpan (a, n + 1) ls])).
        { exists cur, a, (n + 1), ls. cbn. split; [reflexivity|]. split; [lia|].
          replace (n + 1 - 1) with n by lia. auto. }
        assert (Hf1 : flag_ok (existsb is_diff_piece cur, cur ++ [LabeledSpan (a, n + 1) ls])).
        { unfold flag_ok. cbn. rewrite existsb_snoc. cbn. now rewrite orb_false_r. }
        assert (Hsl : slice contents a b = slice contents a (n + 1) ++ slice contents (n + 1) z ++ slice contents z b).
        { rewrite !slice_app by lia. reflexivity. }
        assert (Hmr : forall (f : piece -> text), (forall x y, f (LabeledSpan (x, y) ls) = slice contents x y) ->
           concat (map f (concat (map snd (match mid with Some m => [(false, [LabeledSpan m ls])] | None => [] end))))
           = slice contents (n + 1) z).
        { intros f Hf. destruct mid as [m|]; cbn.
          - destruct Hmid as (-> & _). rewrite Hf. now rewrite app_nil_r.
          - subst z. symmetry. apply slice_empty. }
        cbv zeta. split; [|split; [|split; [|split; [|split]]]].
        -- rewrite !map_app, !concat_app. rewrite !map_app, !concat_app, B.
           rewrite Hmr by reflexivity. cbn. unfold piece_before. cbn. rewrite !app_nil_r, Hsl, <- !app_assoc. reflexivity.
        -- rewrite !map_app, !concat_app. rewrite !map_app, !concat_app, A.
           rewrite Hmr by reflexivity. cbn. rewrite !app_nil_r, Hsl, <- !app_assoc. reflexivity.
        -- rewrite map_app, concat_app, !filter_app, F. cbn. rewrite app_nil_r.
           destruct mid; reflexivity.
        -- intros q Hq. rewrite map_app, concat_app, !in_app_iff in Hq.
           destruct Hq as [[Hq|[<-|[]]]|[Hq|Hq]].
           ++ now left.
           ++ right. exists (LabeledSpan (a, b) ls). split; [now left|]. cbn. repeat split; lia.
           ++ right. exists (LabeledSpan (a, b) ls). split; [now left|]. destruct mid as [m|]; [|destruct Hq].
              destruct Hq as [<-|[]]. destruct Hmid as (-> & Hm & _). cbn. repeat split; lia.
           ++ apply Q in Hq. destruct Hq as [[<-|[]]|(p & Hp & Hq)]; right.
              ** exists (LabeledSpan (a, b) ls). split; [now left|]. cbn. repeat split; lia.
              ** exists p. split; [now right|assumption].
        -- constructor; [exact Hf1|]. apply Forall_app. split; [|exact FL].
           destruct mid; repeat constructor.
        -- exists ((existsb is_diff_piece cur, cur ++ [LabeledSpan (a, n + 1) ls])
                   :: match mid with Some m => [(false, [LabeledSpan m ls])] | None => [] end ++ bs'), lst.
           rewrite E. split; [cbn; now rewrite app_assoc|]. split; [|exact PL].
           constructor; [exact Hb1|]. apply Forall_app. split; [|exact BE].
           destruct mid as [m|]; constructor; [|constructor].
           destruct Hmid as (-> & Hm1 & Hm2). exists [], (n + 1), z, ls. cbn. repeat split; auto; try lia; discriminate.
      * destruct P as (-> & -> & N).
        destruct (IH (cur ++ [LabeledSpan (a, b) ls]) (existsb is_diff_piece cur) Hin') as (B & A & F & Q & FL & R).
        { rewrite existsb_snoc. cbn. now rewrite orb_false_r. }
        { intros p Hp Hd. apply in_app_iff in Hp. destruct Hp as [Hp|[<-|[]]]; [auto|exact N]. }
        cbv zeta. split; [|split; [|split; [|split; [|split; [exact FL|exact R]]]]].
        -- rewrite B, map_app, concat_app, <- app_assoc. cbn. now rewrite app_nil_r.
        -- rewrite A, map_app, concat_app, <- app_assoc. cbn. now rewrite app_nil_r.
        -- rewrite F, filter_app, <- app_assoc. reflexivity.
        -- intros q Hq. apply Q in Hq. rewrite in_app_iff in Hq. destruct Hq as [[Hq|[<-|[]]]|(p & Hp & Hq)].
           ++ now left.
           ++ right. exists (LabeledSpan (a, b) ls). split; [now left|]. cbn. repeat split; lia.
           ++ right. exists p. split; [now right|assumption].
    + cbn [diff_blocks_loop].
      destruct (IH (cur ++ [DiffSpan sp l after]) true Hin') as (B & A & F & Q & FL & R).
      { rewrite existsb_snoc. cbn. now rewrite orb_true_r. }
      { intros p Hp Hd'. apply in_app_iff in Hp. destruct Hp as [Hp|[<-|[]]]; [auto|discriminate]. }
      cbv zeta. split; [|split; [|split; [|split; [|split; [exact FL|exact R]]]]].
      * rewrite B, map_app, concat_app, <- app_assoc. cbn. now rewrite app_nil_r.
      * rewrite A, map_app, concat_app, <- app_assoc. cbn. now rewrite app_nil_r.
      * rewrite F, filter_app, <- app_assoc. reflexivity.
      * intros q Hq. apply Q in Hq. rewrite in_app_iff in Hq. destruct Hq as [[Hq|[<-|[]]]|(p & Hp & Hq)].
        -- now left.
        -- right. exists (DiffSpan sp l after). split; [now left|]. reflexivity.
        -- right. exists p. split; [now right|assumption].
Qed.

Lemma sub_diff_blocks_spec contents diffs :
  Forall (in_text contents) diffs ->
  let bs := sub_diff_blocks contents diffs in
  let out := concat (map snd bs) in
  read_before contents out = read_before contents diffs
  /\ read_after contents out = read_after contents diffs
  /\ filter is_diff_piece out = filter is_diff_piece diffs
  /\ (forall q, In q out -> exists p, In p diffs /\ part_of q p)
  /\ Forall flag_ok bs
  /\ exists bs' lst, bs = bs' ++ [lst] /\ Forall (block_end contents) bs' /\ plain contents (snd lst).
Proof.
  intro H. destruct (diff_blocks_loop_spec contents diffs [] false H eq_refl) as (B & A & F & Q & R).
  { intros p []. }
  cbv zeta. unfold sub_diff_blocks. split; [exact B|]. split; [exact A|]. split; [exact F|].
  split; [|exact R]. intros q Hq. apply Q in Hq. destruct Hq as [[]|Hq]. exact Hq.
Qed.
