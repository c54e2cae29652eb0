(** Glob. *)
From Verif Require Import Py PyFacts Ast Template FromDiff Matcher MatchSpec MergeProofs MatcherProofs BindProofs
  OnceProofs CollSpec CollProofs.

Local Notation sub := (value -> outcome).
Definition sfit (f : sub) (x : value) : Prop := exists s s' r, f x s = (s', Ok (Some r)).

(** *** Facts about splitting *)
Lemma split_star {A} (fits : A -> value -> Prop) p l pre : split fits (None :: p) l -> split fits (None :: p) (pre ++ l).
Proof. intros H. induction pre as [|x pre IH]; [assumption|]. cbn. now apply SP_skip. Qed.
Lemma split_any {A} (fits : A -> value -> Prop) l : split fits [None] l.
Proof. induction l as [|x l IH]; [constructor; constructor | now apply SP_skip]. Qed.
Lemma split_star_inv {A} (fits : A -> value -> Prop) p l : split fits (None :: p) l ->
  exists pre suf, l = pre ++ suf /\ split fits p suf.
Proof.
  intros H. remember (None :: p) as q eqn:Eq. induction H; try discriminate Eq.
  - injection Eq as ->. now exists [], l.
  - destruct (IHsplit Eq) as (pre & suf & -> & H'). now exists (x :: pre), suf.
Qed.
Lemma split_block {A} (fits : A -> value -> Prop) blk p l :
  split fits (map Some blk ++ p) l <-> exists a b, l = a ++ b /\ Forall2 fits blk a /\ split fits p b.
Proof.
  revert l. induction blk as [|f blk IH]; intros l; cbn [map app].
  - split; [intros H; exists [], l; now repeat split; try constructor | intros (a & b & -> & H & H2)].
    inversion H; subst. assumption.
  - split.
    + intros H. inversion H as [|? ? x l' Hf Hs| |]; subst. apply IH in Hs as (a & b & -> & H1 & H2).
      exists (x :: a), b. split; [reflexivity|]. split; [now constructor | assumption].
    + intros (a & b & -> & H1 & H2). inversion H1; subst. cbn. constructor; [assumption|]. apply IH. eauto.
Qed.

(** Matching what is left of [l] from position [n]; [l] itself matters for the end. *)
Definition overlap_at {A} (fits : A -> value -> Prop) (l : list value) (n : nat) (p : list (option A)) : Prop :=
  exists front last pre suf,
    p = front ++ None :: map Some last /\ last <> [] /\ l = pre ++ suf
    /\ split fits (front ++ [None]) (skipn n l) /\ Forall2 fits last suf.
Definition loose {A} (fits : A -> value -> Prop) (l : list value) (n : nat) (p : list (option A)) : Prop :=
  split fits p (skipn n l) \/ overlap_at fits l n p.

Lemma skipn_more {A} (l : list A) n m : (n <= m)%nat -> exists pre, skipn n l = pre ++ skipn m l.
Proof.
  intros H. exists (firstn (m - n) (skipn n l)).
  replace (skipn m l) with (skipn (m - n) (skipn n l)) by (rewrite skipn_skipn; f_equal; lia).
  now rewrite firstn_skipn.
Qed.
Lemma loose_star {A} (fits : A -> value -> Prop) l n p : loose fits l n p -> loose fits l n (None :: p).
Proof.
  intros [H|(front & last & pre & suf & -> & Hl & -> & Hs & Hf)].
  - left. now apply SP_stop.
  - right. exists (None :: front), last, pre, suf. split; [reflexivity|]. split; [assumption|]. split; [reflexivity|].
    split; [now apply SP_stop | assumption].
Qed.
Lemma loose_earlier {A} (fits : A -> value -> Prop) l n m p : (n <= m)%nat ->
  loose fits l m (None :: p) -> loose fits l n (None :: p).
Proof.
  intros Hn [H|(front & last & pre & suf & E & Hl & -> & Hs & Hf)].
  - left. destruct (skipn_more l n m Hn) as [k ->]. now apply split_star.
  - right. exists front, last, pre, suf. split; [assumption|]. split; [assumption|]. split; [reflexivity|].
    split; [|assumption]. destruct (skipn_more (pre ++ suf) n m Hn) as [k ->].
    destruct front as [|[g|] front]; cbn in *; [now apply split_star | discriminate E | now apply split_star].
Qed.
Lemma loose_block {A} (fits : A -> value -> Prop) l n blk p :
  (n + length blk <= length l)%nat -> Forall2 fits blk (firstn (length blk) (skipn n l)) ->
  loose fits l (n + length blk) p -> loose fits l n (map Some blk ++ p).
Proof.
  intros Hn Hb H.
  assert (E : skipn n l = firstn (length blk) (skipn n l) ++ skipn (n + length blk) l).
  { replace (skipn (n + length blk) l) with (skipn (length blk) (skipn n l)) by (rewrite skipn_skipn; f_equal; lia).
    now rewrite firstn_skipn. }
  destruct H as [H|(front & last & pre & suf & -> & Hl & El & Hs & Hf)].
  - left. rewrite E. apply split_block. eauto.
  - right. exists (map Some blk ++ front), last, pre, suf. split; [now rewrite app_assoc|]. split; [assumption|].
    split; [assumption|]. split; [|assumption]. rewrite E, <- app_assoc. apply split_block. eauto.
Qed.
Lemma loose_block_inv {A} (fits : A -> value -> Prop) l n blk p : (n <= length l)%nat ->
  loose fits l n (map Some blk ++ p) ->
  (n + length blk <= length l)%nat /\ Forall2 fits blk (firstn (length blk) (skipn n l))
  /\ loose fits l (n + length blk) p.
Proof.
  intros Hn H.
  assert (G : forall q, split fits (map Some blk ++ q) (skipn n l) ->
     (n + length blk <= length l)%nat /\ Forall2 fits blk (firstn (length blk) (skipn n l))
     /\ split fits q (skipn (n + length blk) l)).
  { intros q Hq. apply split_block in Hq as (a & b & E & H1 & H2). pose proof (Forall2_len _ _ _ H1) as Hlen.
    assert (Hle : length (skipn n l) = length (a ++ b)) by now rewrite E. rewrite skipn_length, app_length in Hle.
    split; [lia|]. rewrite E, Hlen. split.
    - rewrite firstn_app, Nat.sub_diag, firstn_all. cbn. now rewrite app_nil_r.
    - replace (skipn (n + length a) l) with (skipn (length a) (skipn n l)) by (rewrite skipn_skipn; f_equal; lia).
      rewrite E, skipn_app, Nat.sub_diag, skipn_all. assumption. }
  destruct H as [H|(front & last & pre & suf & E & Hl & El & Hs & Hf)].
  - destruct (G p H) as (H1 & H2 & H3). split; [assumption|]. split; [assumption|]. now left.
  - assert (D : exists front', front = map Some blk ++ front' /\ p = front' ++ None :: map Some last).
    { clear - E. revert front E. induction blk as [|f blk IH]; intros front E; cbn in *; [now exists front|].
      destruct front as [|g front]; cbn in E; [discriminate E|]. injection E as <- E.
      destruct (IH front E) as (f' & -> & ->). now exists f'. }
    destruct D as (front' & -> & ->). rewrite <- app_assoc in Hs. destruct (G _ Hs) as (H1 & H2 & H3).
    split; [assumption|]. split; [assumption|]. right. exists front', last, pre, suf. now repeat split.
Qed.

(** *** Slices of the candidate *)
Lemma norm_map {A B} (f : A -> B) (l : list A) a b : slice (map f l) a b = map f (slice l a b).
Proof. unfold slice, tlen. rewrite map_length, <- firstn_map, <- skipn_map. reflexivity. Qed.
Lemma seq_vslice e v l a b : seq_items e v = Some l -> seq_items e (vslice v a b) = Some (slice l a b).
Proof.
  destruct v as [i fs|id k|id c]; cbn; [discriminate| |].
  - now intros [= ->].
  - destruct c; cbn; try discriminate; intros [= <-]; now rewrite norm_map.
Qed.
Lemma slice_len_le {A} (l : list A) a b : (length (slice l a b) <= length l)%nat.
Proof. unfold slice. rewrite firstn_length, skipn_length. lia. Qed.
Lemma slice_block {A} (l : list A) n k : slice l (Z.of_nat n) (Z.of_nat n + Z.of_nat k) = firstn k (skipn n l).
Proof. rewrite slice_nslice by lia. unfold nslice. f_equal; [|f_equal]; lia. Qed.

Lemma in_turn_fits subs : forall l b s s' b', length l = length subs ->
  in_turn (zip_eval subs l) b s s' b' -> Forall2 sfit subs l.
Proof.
  induction subs as [|f subs IH]; intros [|x l] b s s' b' Hl H; try discriminate Hl; [constructor|].
  unfold zip_eval in H. cbn [combine map fst snd] in H. fold (zip_eval subs l) in H.
  inversion H as [|? ? ? ? s1 rm rb t b1 ? ? E1 E2 E4]; subst. constructor.
  - unfold sfit. eauto.
  - eapply IH; [now injection Hl | eassumption].
Qed.
Lemma found_at e v l blk a s s' r : seq_items e v = Some l -> blk <> [] \/ 0 <= a <= tlen l ->
  items_are e blk (vslice v a (a + tlen blk)) s = (s', Ok (Some r)) -> (a < 0 -> a + tlen blk = tlen l) ->
  exists n, a = Z.of_nat n /\ (n + length blk <= length l)%nat /\ Forall2 sfit blk (firstn (length blk) (skipn n l)).
Proof.
  intros El Hne H Hneg. apply items_are_iff in H as (b & -> & H). rewrite (seq_vslice e v l _ _ El) in H.
  destruct H as [Hlen H]. apply in_turn_fits in H; [|assumption].
  destruct (Z.ltb_spec a 0) as [Ha|Ha].
  - exfalso. pose proof (slice_len_le l a (a + tlen blk)). unfold tlen in *. lia.
  - exists (Z.to_nat a). assert (Ea : a = Z.of_nat (Z.to_nat a)) by lia. split; [assumption|].
    unfold tlen in H, Hlen. rewrite Ea in H, Hlen. rewrite slice_block in H, Hlen.
    rewrite firstn_length, skipn_length in Hlen. split; [|assumption].
    destruct Hne as [Hne|Hne]; [|unfold tlen in Hne; lia]. destruct blk; [contradiction|]. cbn [length] in *. lia.
Qed.
Lemma zrange_In a n x : In x (zrange a n) <-> a <= x < a + Z.of_nat n.
Proof.
  revert a. induction n as [|n IH]; intros a; cbn [zrange In]; [lia|]. rewrite IH. lia.
Qed.

Definition flatten (bs : list block) : list (option sub) :=
  flat_map (fun b => match b with None => [None] | Some blk => map Some blk end) bs.

Lemma glob_loop_sound e v l : seq_items e v = Some l -> forall bs se n b s s' r,
  (n <= length l)%nat ->
  glob_loop e v (tlen l) bs se (Z.of_nat n) b s = (s', Ok (Some r)) ->
  loose sfit l n ((if se then [None] else []) ++ flatten bs).
Proof.
  intros El. induction bs as [|[blk|] bs IH]; intros se n b s s' r Hn H; cbn [glob_loop] in H.
  - destruct (negb (Z.of_nat n =? tlen l) && negb se) eqn:E; apply ret_Ok in H as [_ H]; [discriminate H|].
    left. destruct se; cbn; [apply split_any|]. rewrite andb_true_r in E. apply negb_false_iff, Z.eqb_eq in E.
    unfold tlen in E. rewrite skipn_all2 by lia. constructor.
  - (* a block *)
    assert (K : exists pos send, (if se then match bs with [] => (tlen l - tlen blk, tlen l - tlen blk + 1) | _ => (Z.of_nat n, tlen l) end
                                  else (Z.of_nat n, Z.of_nat n + 1)) = (pos, send)) by (destruct se; [destruct bs|]; eauto).
    destruct K as (pos & send & K). rewrite K in H.
    apply mbind_Ok in H as (s1 & [[r0 p']|] & H1 & H). 2:{ apply ret_Ok in H as [_ H]. discriminate H. }
    apply glob_search_inv in H1 as (a & Ha & -> & (s3 & s4 & H1)). apply zrange_In in Ha.
    apply mbind_Ok in H as (s5 & ob & H2 & H). apply lift_Ok in H2 as [-> H2].
    apply mbind_Ok in H as (s6 & rb & H3 & H). apply lift_Ok in H3 as [-> H3]. apply not_none_Ok in H3 as ->.
    apply mbind_Ok in H as (s7 & mb & H4 & H). apply lift_Ok in H4 as [-> H4].
    destruct mb as [b1|]. 2:{ apply ret_Ok in H as [_ H]. discriminate H. }
    assert (F : exists k, a = Z.of_nat k /\ (k + length blk <= length l)%nat /\ Forall2 sfit blk (firstn (length blk) (skipn k l))
                /\ (if se then match bs with [] => (k + length blk = length l)%nat | _ => (n <= k)%nat end else k = n)).
    { assert (Hd : blk <> [] \/ blk = []) by (destruct blk; [now right | left; discriminate]).
      destruct se; [destruct bs|]; injection K as <- <-; unfold tlen in *.
      - assert (a = Z.of_nat (length l) - Z.of_nat (length blk)) by lia.
        destruct (found_at e v l blk a s3 s4 r0 El) as (k & -> & Hk & Hf); [|exact H1|unfold tlen; lia|].
        + destruct Hd as [Hd| ->]; [now left | right; unfold tlen; cbn in *; lia].
        + exists k. repeat split; try assumption. lia.
      - destruct (found_at e v l blk a s3 s4 r0 El) as (k & -> & Hk & Hf); [right; unfold tlen; lia|exact H1|lia|].
        exists k. repeat split; try assumption. lia.
      - destruct (found_at e v l blk a s3 s4 r0 El) as (k & -> & Hk & Hf); [right; unfold tlen; lia|exact H1|lia|].
        exists k. repeat split; try assumption. lia. }
    destruct F as (k & -> & Hk & Hf & Hpos).
    replace (Z.of_nat k + tlen blk) with (Z.of_nat (k + length blk)) in H by (unfold tlen; lia).
    apply IH in H; [|assumption]. cbn [app] in H. cbn [flatten flat_map]. fold (flatten bs).
    destruct se; cbn [app].
    + destruct bs as [|b2 bs].
      * cbn [flatten flat_map]. rewrite app_nil_r.
        destruct blk as [|f blk]; [left; apply split_any|]. right.
        exists [], (f :: blk), (firstn k l), (skipn k l). split; [reflexivity|]. split; [discriminate|].
        split; [symmetry; apply firstn_skipn|]. split; [apply split_any|].
        rewrite firstn_all2 in Hf by (rewrite skipn_length; lia). assumption.
      * apply (loose_earlier _ _ n k); [assumption|]. apply loose_star. now apply loose_block.
    + subst k. now apply loose_block.
  - apply IH in H; [|assumption]. cbn [app] in H. cbn [flatten flat_map app]. fold (flatten bs).
    destruct se; cbn [app]; [now apply loose_star | assumption].
Qed.

(** *** Blocks *)
Definition patt (ms : list (bool * sub)) : list (option sub) := map (fun bm : bool * sub => if fst bm then None else Some (snd bm)) ms.
Lemma blockify_flatten ms : forall cur,
  flatten (blockify ms cur) = match cur with None => [None] | Some blk => map Some blk end ++ patt ms.
Proof.
  induction ms as [|[[|] f] ms IH]; intros cur; cbn [blockify patt map fst snd].
  - destruct cur; cbn; now rewrite ?app_nil_r.
  - fold (patt ms). destruct cur as [[|g cur]|]; cbn [flatten flat_map]; fold (flatten (blockify ms None)); rewrite IH; reflexivity.
  - fold (patt ms). destruct cur as [cur|]; cbn [flatten flat_map].
    + rewrite IH, map_app, <- app_assoc. reflexivity.
    + fold (flatten (blockify ms (Some [f]))). rewrite IH. reflexivity.
Qed.
(** Blocks are not empty and stars are between them. *)
Fixpoint alternating (bs : list block) : Prop :=
  match bs with
  | [] => True
  | None :: rest => alternating rest
  | Some blk :: rest => blk <> [] /\ match rest with Some _ :: _ => False | _ => True end /\ alternating rest
  end.
Lemma blockify_alternating ms : forall cur, cur <> Some [] -> alternating (blockify ms cur).
Proof.
  assert (Hd : forall ms, exists rest, blockify ms None = None :: rest).
  { induction ms0 as [|[[|] f] ms0 IH]; cbn [blockify]; eauto. }
  induction ms as [|[[|] f] ms IH]; intros cur Hc; cbn [blockify].
  - destruct cur as [[|g cur]|]; [contradiction| |exact I]. cbn. split; [discriminate|]. now split.
  - destruct cur as [[|g cur]|]; [contradiction| |].
    + cbn [alternating]. split; [discriminate|]. split; [|now apply IH]. destruct (Hd ms) as [rest ->]. exact I.
    + cbn [alternating]. now apply IH.
  - destruct cur as [[|g cur]|]; [contradiction| |].
    + apply IH. discriminate.
    + cbn [alternating]. apply IH. discriminate.
Qed.
Lemma blockify_start ms : blockify ms (Some []) = [Some []] \/ alternating (blockify ms (Some [])).
Proof.
  destruct ms as [|[[|] f] ms]; cbn [blockify].
  - now left.
  - right. now apply blockify_alternating.
  - right. now apply blockify_alternating.
Qed.

(** *** Completeness *)
Definition plain (f : sub) (x : value) : Prop :=
  (forall s, f x s = (s, Ok None)) \/ exists rm t, forall s, f x s = (s, Ok (Some (RInfo rm (Some []) t))).
Lemma plain_in_turn subs : forall l, length l = length subs ->
  (forall f x, In f subs -> In x l -> plain f x) -> Forall2 sfit subs l ->
  forall s, in_turn (zip_eval subs l) [] s s [].
Proof.
  induction subs as [|f subs IH]; intros [|x l] Hl Hp H s; try discriminate Hl; [constructor|].
  inversion H as [|? ? ? ? Hx Hr]; subst. unfold zip_eval. cbn [combine map fst snd]. fold (zip_eval subs l).
  destruct (Hp f x (or_introl eq_refl) (or_introl eq_refl)) as [Hn|(rm & t & Ht)].
  - exfalso. destruct Hx as (s0 & s1 & r & Hx). rewrite Hn in Hx. discriminate Hx.
  - econstructor; [apply Ht | reflexivity|]. apply IH; [now injection Hl| |assumption].
    intros g y Hg Hy. apply Hp; now right.
Qed.
Lemma firstn_In {A} (l : list A) n x : In x (firstn n l) -> In x l.
Proof. intros H. rewrite <- (firstn_skipn n l). apply in_app_iff. now left. Qed.
Lemma skipn_In {A} (l : list A) n x : In x (skipn n l) -> In x l.
Proof. intros H. rewrite <- (firstn_skipn n l). apply in_app_iff. now right. Qed.

(** A plain block at a place: decided, without effect. *)
Lemma plain_accumulate acts : (forall a, In a acts -> (forall s, a s = (s, Ok None)) \/ exists rm, forall s, a s = (s, Ok (Some (RInfo rm (Some []) [])))) ->
  forall s, exists o, accumulate acts [] [] s = (s, Ok o).
Proof.
  induction acts as [|a acts IH]; intros Hp s; [eexists; reflexivity|]. cbn [accumulate].
  destruct (Hp a (or_introl eq_refl)) as [H|[rm H]]; unfold mbind at 1; rewrite H; [eexists; reflexivity|].
  destruct (IH (fun x Hx => Hp x (or_intror Hx)) s) as [o Ho]. exists o. exact Ho.
Qed.
Lemma plain_block e blk w k : seq_items e w = Some k -> (forall f x, In f blk -> In x k -> plain f x) ->
  forall s, exists o, items_are e blk w s = (s, Ok o).
Proof.
  intros Ek Hp s. unfold items_are, accumulating.
  destruct (plain_accumulate (unless e (has_item e (tlen blk) (anything e) w) w :: numbered_items e 0 blk w)) with (s := s) as [o Ho].
  - intros a [<-|Ha].
    + unfold has_item. destruct (subscript e w (tlen blk)); [left; reflexivity | right; eexists; reflexivity].
    + assert (G : forall i a, In a (numbered_items e i blk w) -> exists f j, In f blk /\ a = has_item e j f w).
      { clear. induction blk as [|f blk IH]; intros i a Ha; cbn in Ha; [destruct Ha|].
        destruct Ha as [<-|Ha]; [exists f, i; split; [now left | reflexivity]|].
        apply IH in Ha as (g & j & Hg & ->). exists g, j. split; [now right | reflexivity]. }
      apply G in Ha as (f & j & Hf & ->). unfold has_item. destruct (subscript e w j) as [x|] eqn:Ex; [|left; reflexivity].
      apply subscript_item in Ex as (k' & Ek' & Hx). rewrite Ek in Ek'. injection Ek' as <-.
      assert (Hin : In x k) by (destruct Hx as [[_ Hx]|[_ [_ Hx]]]; eapply nth_error_In; eassumption).
      destruct (Hp f x Hf Hin) as [H|(rm & t & H)].
      * left. intros s0. unfold mbind. now rewrite H.
      * right. exists (create_match (e_parsed e) w). intros s0. unfold mbind. now rewrite H.
  - unfold mbind at 1. rewrite Ho. eexists. reflexivity.
Qed.
Lemma search_at e v l blk : seq_items e v = Some l -> (forall f x, In f blk -> In x l -> plain f x) ->
  forall m n k s, (n <= k < n + m)%nat -> (k + length blk <= length l)%nat ->
  Forall2 sfit blk (firstn (length blk) (skipn k l)) ->
  exists k0 rm, (n <= k0 <= k)%nat /\ (k0 + length blk <= length l)%nat /\
    glob_search e blk v (zrange (Z.of_nat n) m) s = (s, Ok (Some (RInfo rm (Some []) [], Z.of_nat (k0 + length blk)))).
Proof.
  intros El Hp. induction m as [|m IH]; intros n k s Hk Hlen Hf; [lia|]. cbn [zrange glob_search].
  set (w := vslice v (Z.of_nat n) (Z.of_nat n + tlen blk)).
  assert (Ew : seq_items e w = Some (firstn (length blk) (skipn n l))).
  { unfold w. rewrite (seq_vslice e v l _ _ El). f_equal. apply slice_block. }
  assert (Hpw : forall f x, In f blk -> In x (firstn (length blk) (skipn n l)) -> plain f x).
  { intros f x Hfb Hx. apply Hp; [assumption|]. eapply skipn_In, firstn_In, Hx. }
  destruct (plain_block e blk w _ Ew Hpw s) as [[r|] Ho].
  - pose proof Ho as Ho'. apply items_are_iff in Ho' as (b & -> & H). rewrite Ew in H. destruct H as [H1 H2].
    assert (b = []) as ->.
    { assert (Hs : Forall2 sfit blk (firstn (length blk) (skipn n l))) by (eapply in_turn_fits; eassumption).
      pose proof (plain_in_turn blk _ H1 Hpw Hs s) as H3.
      assert (D : forall acts b s s1 b1 s2 b2, in_turn acts b s s1 b1 -> in_turn acts b s s2 b2 -> b1 = b2).
      { clear. induction acts as [|a acts IHa]; intros b s s1 b1 s2 b2 X Y; inversion X; inversion Y; subst; [congruence|].
        match goal with A : a s = _, B : a s = _ |- _ => rewrite A in B; injection B as <- <- <- <- end.
        match goal with A : merge_bindings b _ = _, B : merge_bindings b _ = _ |- _ => rewrite A in B; injection B as <- end.
        eapply IHa; eassumption. }
      eapply D; eassumption. }
    exists n. eexists. split; [lia|]. rewrite firstn_length, skipn_length in H1. split; [lia|].
    unfold mbind. rewrite Ho. unfold ret. do 4 f_equal. unfold tlen. lia.
  - destruct (Nat.eq_dec n k) as [->|Hne].
    + exfalso.
      assert (Hl : length (firstn (length blk) (skipn k l)) = length blk) by (rewrite firstn_length, skipn_length; lia).
      assert (Hy : items_are e blk w s = (s, Ok (Some (RInfo (create_match (e_parsed e) w) (Some []) [])))).
      { apply items_are_iff. exists []. split; [reflexivity|]. rewrite Ew. split; [assumption|]. now apply plain_in_turn. }
      rewrite Ho in Hy. discriminate Hy.
    + destruct (IH (S n) k s) as (k0 & rm & H1 & H2 & H3); [lia|assumption|assumption|].
      exists k0, rm. split; [lia|]. split; [assumption|]. unfold mbind. rewrite Ho.
      replace (Z.of_nat n + 1) with (Z.of_nat (S n)) by lia. assumption.
Qed.

Lemma last_star {A} (f1 f2 : list (option A)) (l1 l2 : list A) :
  f1 ++ None :: map Some l1 = f2 ++ None :: map Some l2 -> f1 = f2 /\ l1 = l2.
Proof.
  revert f2. induction f1 as [|x f1 IH]; intros [|y f2] E; cbn in E.
  - injection E as E. split; [reflexivity|]. clear - E. revert l2 E.
    induction l1 as [|a l1 IH]; intros [|b l2] E; try discriminate E; [reflexivity|]. injection E as -> E. f_equal. auto.
  - exfalso. injection E as _ E. assert (H : In None (map Some l1)) by (rewrite E; apply in_app_iff; right; now left).
    apply in_map_iff in H as (? & H & _). discriminate H.
  - exfalso. injection E as _ E. assert (H : In None (map Some l2)) by (rewrite <- E; apply in_app_iff; right; now left).
    apply in_map_iff in H as (? & H & _). discriminate H.
  - injection E as -> E. apply IH in E as [-> ->]. now split.
Qed.

Lemma glob_loop_complete e v l : seq_items e v = Some l -> forall bs se n s,
  alternating bs -> (se = false -> True) ->
  (forall blk f x, In (Some blk) bs -> In f blk -> In x l -> plain f x) ->
  (n <= length l)%nat ->
  loose sfit l n ((if se then [None] else []) ++ flatten bs) ->
  glob_loop e v (tlen l) bs se (Z.of_nat n) [] s = (s, Ok (Some (info e v (Some [])))).
Proof.
  intros El. induction bs as [|[blk|] bs IH]; intros se n s Halt _ Hp Hn H; cbn [glob_loop].
  - destruct se; [now rewrite andb_false_r|]. cbn [app flatten flat_map] in H.
    destruct H as [H|(front & last & pre & suf & E & _)]; [|destruct front; discriminate E].
    assert (E : skipn n l = []) by (inversion H; reflexivity).
    assert (length (skipn n l) = O) by now rewrite E. rewrite skipn_length in *.
    replace (Z.of_nat n =? tlen l) with true by (symmetry; apply Z.eqb_eq; unfold tlen; lia). reflexivity.
  - destruct Halt as (Hne & Hrest & Halt). cbn [flatten flat_map] in H. fold (flatten bs) in H.
    assert (Hpb : forall f x, In f blk -> In x l -> plain f x) by (intros f x; apply Hp; now left).
    assert (Hpr : forall blk0 f x, In (Some blk0) bs -> In f blk0 -> In x l -> plain f x)
      by (intros blk0 f x Hb; apply Hp; now right).
    assert (Hbl : (0 < length blk)%nat) by (destruct blk; [contradiction | cbn; lia]).
    assert (Step : forall m k, (n <= k < n + m)%nat -> (k + length blk <= length l)%nat ->
              Forall2 sfit blk (firstn (length blk) (skipn k l)) ->
              (forall k0, (n <= k0 <= k)%nat -> loose sfit l (k0 + length blk) (flatten bs)) ->
              (run o <- glob_search e blk v (zrange (Z.of_nat n) m);
               match o with
               | None => ret None
               | Some (r, pos') =>
                   run ob <- lift (r_bindings r);
                   run rb <- lift (not_none ob);
                   run mb <- lift (merge_bindings [] rb);
                   match mb with
                   | None => ret None
                   | Some b' => glob_loop e v (tlen l) bs false pos' b'
                   end
               end) s = (s, Ok (Some (info e v (Some []))))).
    { intros m k Hk Hlen Hf Hl.
      destruct (search_at e v l blk El Hpb m n k s Hk Hlen Hf) as (k0 & rm & H1 & H2 & H3).
      unfold mbind at 1. rewrite H3. cbn [r_bindings]. unfold mbind, lift. cbn [not_none]. rewrite merge_bindings_nil.
      apply (IH false); [assumption|easy|assumption|lia|]. cbn [app]. now apply Hl. }
    destruct se; cbn [app] in H.
    + destruct bs as [|b2 bs].
      * (* the last block *)
        cbn [flatten flat_map] in H. rewrite app_nil_r in H.
        assert (Hf : exists k, (k + length blk = length l)%nat /\ Forall2 sfit blk (skipn k l)).
        { destruct H as [H|(front & last & pre & suf & E & Hl & -> & _ & Hf)].
          - apply split_star_inv in H as (pre & suf & E & H). rewrite <- (app_nil_r (map Some blk)) in H.
            apply split_block in H as (a & b & -> & H1 & H2). inversion H2; subst. rewrite app_nil_r in E.
            pose proof (Forall2_len _ _ _ H1) as Hlen. exists (n + length pre)%nat.
            assert (length (skipn n l) = length (pre ++ a)) by now rewrite E. rewrite skipn_length, app_length in *.
            split; [lia|]. rewrite Nat.add_comm, <- skipn_skipn, E, skipn_app, Nat.sub_diag, skipn_all. assumption.
          - apply (last_star [] front) in E as [<- <-]. exists (length pre). rewrite app_length.
            split; [now rewrite (Forall2_len _ _ _ Hf)|]. rewrite skipn_app, Nat.sub_diag, skipn_all. assumption. }
        destruct Hf as (k & Hk & Hf).
        replace (tlen l - tlen blk) with (Z.of_nat k) by (unfold tlen; lia).
        replace (Z.to_nat (Z.of_nat k + 1 - Z.of_nat k)) with 1%nat by lia.
        destruct (search_at e v l blk El Hpb 1 k k s) as (k0 & rm & H1 & H2 & H3); [lia|lia| |].
        { rewrite firstn_all2 by (rewrite skipn_length; lia). assumption. }
        unfold mbind at 1. rewrite H3. cbn [r_bindings]. unfold mbind, lift. cbn [not_none]. rewrite merge_bindings_nil.
        cbn [glob_loop]. replace (Z.of_nat (k0 + length blk) =? tlen l) with true by (symmetry; apply Z.eqb_eq; unfold tlen; lia).
        reflexivity.
      * destruct b2 as [b2|]; [contradiction|]. cbn [flatten flat_map app] in *. fold (flatten bs) in *.
        assert (Hf : exists k, (n <= k)%nat /\ (k + length blk <= length l)%nat
                     /\ Forall2 sfit blk (firstn (length blk) (skipn k l)) /\ loose sfit l (k + length blk) (None :: flatten bs)).
        { assert (G : exists k, (n <= k <= length l)%nat /\ loose sfit l k (map Some blk ++ None :: flatten bs)).
          { destruct H as [H|(front & last & pre & suf & E & Hl & -> & Hs & Hf)].
            - apply split_star_inv in H as (p & q & E & H). exists (n + length p)%nat.
              assert (length (skipn n l) = length (p ++ q)) by now rewrite E. rewrite skipn_length, app_length in *.
              split; [lia|]. left. rewrite Nat.add_comm, <- skipn_skipn, E, skipn_app, Nat.sub_diag, skipn_all. assumption.
            - destruct front as [|g front]; cbn in E; injection E as <- E || injection E as E.
              { exfalso. assert (Hi : In None (map (@Some sub) last)) by (rewrite <- E; apply in_app_iff; right; now left).
                apply in_map_iff in Hi as (? & Hi & _). discriminate Hi. }
              cbn in Hs. apply split_star_inv in Hs as (p & q & Es & Hs). exists (n + length p)%nat.
              assert (length (skipn n (pre ++ suf)) = length (p ++ q)) by now rewrite Es. rewrite skipn_length, !app_length in *.
              split; [lia|]. right. exists front, last, pre, suf. split; [assumption|]. split; [assumption|]. split; [reflexivity|].
              split; [|assumption]. rewrite (Nat.add_comm n), <- skipn_skipn, Es, skipn_app, Nat.sub_diag, skipn_all. assumption. }
          destruct G as (k & Hk & Hg). apply loose_block_inv in Hg as (G1 & G2 & G3); [|lia].
          exists k. repeat split; try assumption. lia. }
        destruct Hf as (k & Hk1 & Hk2 & Hf & Hloose). apply (Step _ k); [|assumption|assumption|].
        -- unfold tlen. lia.
        -- intros k0 Hk0. apply (loose_earlier _ _ _ (k + length blk)); [lia | assumption].
    + apply loose_block_inv in H as (H1 & H2 & H3); [|assumption].
      replace (Z.to_nat (Z.of_nat n + 1 - Z.of_nat n)) with 1%nat by lia.
      apply (Step 1%nat n); [lia|assumption|assumption|]. intros k0 Hk0. replace k0 with n by lia. assumption.
  - cbn [alternating] in Halt. apply (IH true); [assumption|easy| |assumption|].
    + intros blk f x Hb. apply Hp. now right.
    + cbn [flatten flat_map app] in H. fold (flatten bs) in H. cbn [app]. destruct se; cbn [app] in H; [|assumption].
      destruct H as [H|(front & last & pre & suf & E & Hl & -> & Hs & Hf)].
      * left. apply split_star_inv in H as (p & q & E & H). rewrite E. now apply split_star.
      * destruct front as [|g front]; cbn in E; injection E as <- E || injection E as E.
        { exfalso. assert (Hi : In None (map (@Some sub) last)) by (rewrite <- E; now left).
          apply in_map_iff in Hi as (? & Hi & _). discriminate Hi. }
        right. exists front, last, pre, suf. split; [assumption|]. split; [assumption|]. split; [reflexivity|]. split; [|assumption].
        cbn in Hs. apply split_star_inv in Hs as (p & q & Es & Hs). rewrite Es.
        destruct front as [|[g|] front]; cbn in *; [now apply split_star | discriminate E | now apply split_star].
Qed.

(** *** From matchers to their outcomes *)
Lemma split_map {A B} (f : A -> B) (fa : A -> value -> Prop) (fb : B -> value -> Prop) :
  (forall a x, fb (f a) x <-> fa a x) -> forall p l, split fb (map (option_map f) p) l <-> split fa p l.
Proof.
  intros Hf p l. split; intros H.
  - remember (map (option_map f) p) as q eqn:Eq. revert p Eq.
    induction H as [|b q x l Hb Hs IH|q l Hs IH|q x l Hs IH]; intros p Eq.
    + destruct p; [constructor | discriminate Eq].
    + destruct p as [|[a|] p]; try discriminate Eq. injection Eq as -> ->. constructor; [now apply Hf | now apply IH].
    + destruct p as [|[a|] p]; try discriminate Eq. injection Eq as ->. apply SP_stop. now apply IH.
    + destruct p as [|[a|] p]; try discriminate Eq. apply SP_skip. now apply IH.
  - induction H; cbn; [constructor | constructor; [now apply Hf | assumption] | now apply SP_stop | now apply SP_skip].
Qed.
Lemma Forall2_map_l {A B} (f : A -> B) (fa : A -> value -> Prop) (fb : B -> value -> Prop) :
  (forall a x, fb (f a) x <-> fa a x) -> forall k l, Forall2 fb (map f k) l <-> Forall2 fa k l.
Proof.
  intros Hf k. induction k as [|a k IH]; intros l; cbn; split; intros H; inversion H; subst; constructor;
    try (now apply Hf); now apply IH.
Qed.
Lemma overlapping_map {A B} (f : A -> B) (fa : A -> value -> Prop) (fb : B -> value -> Prop) :
  (forall a x, fb (f a) x <-> fa a x) -> forall p l, overlapping fb (map (option_map f) p) l <-> overlapping fa p l.
Proof.
  intros Hf p l. split.
  - intros (front & last & pre & suf & E & Hl & -> & Hs & Hx).
    apply map_eq_app in E as (p1 & p2 & -> & <- & E).
    destruct p2 as [|[a|] p2]; try discriminate E. cbn in E. injection E as E.
    assert (D : exists k, p2 = map Some k /\ last = map f k).
    { clear - E. revert last E. induction p2 as [|[a|] p2 IH]; intros [|b last] E; try discriminate E.
      - now exists [].
      - cbn in E. injection E as <- E. apply IH in E as (k & -> & ->). now exists (a :: k). }
    destruct D as (k & -> & ->). exists p1, k, pre, suf. split; [reflexivity|].
    split; [intros ->; now apply Hl|]. split; [reflexivity|]. split.
    + rewrite <- (split_map f fa fb Hf), map_app. exact Hs.
    + now apply (Forall2_map_l f fa fb Hf).
  - intros (front & last & pre & suf & -> & Hl & -> & Hs & Hx).
    exists (map (option_map f) front), (map f last), pre, suf. split; [|split; [|split; [reflexivity|split]]].
    + rewrite map_app. cbn. do 2 f_equal. rewrite !map_map. reflexivity.
    + intros E. apply map_eq_nil in E. contradiction.
    + rewrite <- (split_map f fa fb Hf), map_app in Hs. exact Hs.
    + now apply (Forall2_map_l f fa fb Hf).
Qed.

Lemma patt_pattern e ms : patt (map (fun m => (is_star m, eval e m)) ms) = map (option_map (eval e)) (glob_pattern ms).
Proof.
  unfold patt, glob_pattern. rewrite !map_map. apply map_ext. intros m. cbn. now destruct (is_star m).
Qed.
Lemma loose_top {A} (fits : A -> value -> Prop) l p : loose fits l 0 p <-> split fits p l \/ overlapping fits p l.
Proof. reflexivity. Qed.

Theorem glob_sound e ms v l s s' r : seq_items e v = Some l ->
  eval e (MGlob ms) v s = (s', Ok (Some r)) ->
  split (may_fit e) (glob_pattern ms) l \/ overlapping (may_fit e) (glob_pattern ms) l.
Proof.
  intros El H. cbn [eval] in H. unfold glob in H. rewrite El in H.
  apply (glob_loop_sound e v l El _ false 0) in H; [|lia]. cbn [app] in H. rewrite blockify_flatten in H. cbn [map app] in H.
  rewrite patt_pattern in H. apply loose_top in H.
  destruct H as [H|H]; [left | right].
  - now apply (split_map (eval e) (may_fit e) sfit (fun a x => iff_refl _)) in H.
  - now apply (overlapping_map (eval e) (may_fit e) sfit (fun a x => iff_refl _)) in H.
Qed.

Theorem glob_complete e ms v l s : seq_items e v = Some l ->
  (forall m x, In m ms -> is_star m = false -> In x l -> plain_on e m x) ->
  split (may_fit e) (glob_pattern ms) l \/ overlapping (may_fit e) (glob_pattern ms) l ->
  eval e (MGlob ms) v s = (s, Ok (Some (RInfo (create_match (e_parsed e) v) (Some []) []))).
Proof.
  intros El Hp H. cbn [eval]. unfold glob. rewrite El.
  set (subs := map (fun m => (is_star m, eval e m)) ms).
  assert (HL : loose sfit l 0 (flatten (blockify subs (Some [])))).
  { rewrite blockify_flatten. cbn [map app]. unfold subs. rewrite patt_pattern. apply loose_top.
    destruct H as [H|H]; [left | right].
    - now apply (split_map (eval e) (may_fit e) sfit (fun a x => iff_refl _)).
    - now apply (overlapping_map (eval e) (may_fit e) sfit (fun a x => iff_refl _)). }
  assert (Hpl : forall blk f x, In (Some blk) (blockify subs (Some [])) -> In f blk -> In x l -> plain f x).
  { intros blk f x Hb Hf Hx. 
    assert (Hin : In (Some f) (flatten (blockify subs (Some [])))).
    { apply in_flat_map. exists (Some blk). split; [assumption|]. now apply in_map. }
    rewrite blockify_flatten in Hin. cbn [map app] in Hin. unfold subs in Hin. rewrite patt_pattern in Hin.
    apply in_map_iff in Hin as ([m|] & E & Hm); [|discriminate E]. cbn in E. injection E as <-.
    apply in_map_iff in Hm as (m' & E & Hm). destruct (is_star m') eqn:Es; [discriminate E|]. injection E as ->.
    destruct (Hp m x Hm Es Hx) as [H0|(rm & t & H0)]; [left; exact H0 | right; exists rm, t; exact H0]. }
  destruct (blockify_start subs) as [Hb|Ha].
  - rewrite Hb in HL |- *. cbn [flatten flat_map map app] in HL.
    destruct HL as [HL|(front & last & pre & suf & E & _)]; [|destruct front; discriminate E].
    cbn in HL. inversion HL; subst.
    change (tlen (@nil value)) with 0. cbn [glob_loop].
    replace (Z.to_nat (0 + 1 - 0)) with 1%nat by reflexivity.
    destruct (search_at e v [] [] El (fun f x Hf => match Hf with end) 1 0 0 s) as (k0 & rm & H1 & H2 & H3);
      [lia | cbn; lia | constructor|].
    cbn [Z.of_nat] in H3. unfold mbind at 1. rewrite H3. cbn [r_bindings]. unfold mbind, lift. cbn [not_none]. rewrite merge_bindings_nil.
    cbn in H2. replace k0 with O by lia. reflexivity.
  - apply (glob_loop_complete e v l El _ false 0 s Ha (fun _ => I) Hpl); [lia | exact HL].
Qed.

(** When nothing can overlap. *)
Lemma split_stars_len {A} (fits : A -> value -> Prop) k l : split fits (map Some k ++ [None]) l -> (length k <= length l)%nat.
Proof. intros H. apply split_block in H as (a & b & -> & H & _). rewrite (Forall2_len _ _ _ H), app_length. lia. Qed.
Theorem one_star_exact {A} (fits : A -> value -> Prop) (a b : list A) l :
  (length a + length b <= length l)%nat ->
  overlapping fits (map Some a ++ None :: map Some b) l -> split fits (map Some a ++ None :: map Some b) l.
Proof.
  intros Hlen (front & last & pre & suf & E & Hne & -> & Hs & Hf). apply last_star in E as [<- <-].
  apply split_block in Hs as (x & y & E & Hx & _). apply split_block.
  pose proof (Forall2_len _ _ _ Hx) as Lx. pose proof (Forall2_len _ _ _ Hf) as Lf. rewrite app_length in Hlen.
  exists x, (skipn (length x) pre ++ suf).
  assert (Ex : x = firstn (length x) pre).
  { assert (G : firstn (length x) (x ++ y) = firstn (length x) (pre ++ suf)) by now rewrite E.
    rewrite firstn_app, firstn_all, Nat.sub_diag in G. cbn in G. rewrite app_nil_r in G. rewrite firstn_app in G.
    replace (length x - length pre)%nat with O in G by lia. cbn in G. now rewrite app_nil_r in G. }
  split; [rewrite app_assoc; f_equal; rewrite Ex at 1; symmetry; apply firstn_skipn|]. split; [assumption|].
  apply split_star. apply SP_stop. rewrite <- (app_nil_r (map Some b)). apply split_block.
  exists suf, []. split; [now rewrite app_nil_r|]. split; [assumption | constructor].
Qed.
Theorem no_end_exact {A} (fits : A -> value -> Prop) p l :
  (~ In None p \/ exists q, p = q ++ [None]) -> ~ overlapping fits p l.
Proof.
  intros H (front & last & pre & suf & -> & Hne & _). destruct H as [H|[q H]].
  - apply H. apply in_app_iff. right. now left.
  - destruct last as [|a last _] using rev_ind; [contradiction|].
    rewrite map_app in H. cbn [map] in H. rewrite app_comm_cons, app_assoc in H. apply app_inj_tail in H as [_ H]. discriminate H.
Qed.
