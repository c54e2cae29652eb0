(** Glob, exactly, for submatchers that may bind. *)
From Verif Require Import Py PyFacts Ast Template FromDiff Matcher MatchSpec MergeProofs MatcherProofs BindProofs
  OnceProofs CollSpec CollProofs GlobProofs GlobSpec.

Definition steady (a : outcome) : Prop := exists o, forall s, a s = (s, o).

Lemma merge_nil_r b : merge_bindings b [] = Ok (Some b).
Proof.
  unfold merge_bindings, merge_bindings_in, shared_keys.
  assert (filter (dmem (@nil (label * bound))) (dkeys b) = []) as -> by (induction (dkeys b); auto).
  cbn. assert (H : filter (fun _ : label * bound => true) b = b) by (induction b as [|x b IH]; cbn; [reflexivity|now rewrite IH]).
  rewrite H, app_nil_r. reflexivity.
Qed.

Lemma in_turn_steady acts : (forall a, In a acts -> steady a) ->
  forall b s s' b', in_turn acts b s s' b' -> s' = s /\ forall t, in_turn acts b t t b'.
Proof.
  induction acts as [|a acts IH]; intros Hs b s s' b' H; inversion H; subst.
  - split; [reflexivity|]. intros t. constructor.
  - destruct (Hs a (or_introl eq_refl)) as [o Ho].
    match goal with X : a s = _ |- _ => rewrite Ho in X; injection X as <- -> end.
    match goal with X : in_turn acts _ _ _ _ |- _ => apply IH in X as [-> X]; [|intros y Hy; apply Hs; now right] end.
    split; [reflexivity|]. intros t0. econstructor; [apply Ho | eassumption | auto].
Qed.
Lemma accumulate_steady acts : (forall a, In a acts -> steady a) -> forall b t s, fst (accumulate acts b t s) = s.
Proof.
  induction acts as [|a acts IH]; intros Hs b t s; [reflexivity|]. cbn [accumulate].
  destruct (Hs a (or_introl eq_refl)) as [o Ho]. unfold mbind at 1. rewrite Ho.
  destruct o as [[r|]|]; try reflexivity. unfold lift, mbind.
  destruct (r_bindings r) as [ob|]; [|reflexivity]. destruct (not_none ob) as [rb|]; [|reflexivity].
  destruct (merge_bindings b rb) as [[b1|]|]; try reflexivity.
  destruct (r_reps r) as [rt|]; [|reflexivity]. destruct (merge_replacements t rt) as [t1|]; [|reflexivity].
  apply IH. intros y Hy. apply Hs. now right.
Qed.
Lemma steady_block e blk w k : seq_items e w = Some k -> (forall f x, In f blk -> In x k -> steady (f x)) ->
  forall s, fst (items_are e blk w s) = s.
Proof.
  intros Ek Hp s. unfold items_are, accumulating.
  pose proof (accumulate_steady (unless e (has_item e (tlen blk) (anything e) w) w :: numbered_items e 0 blk w)) as G.
  assert (H : forall a, In a (unless e (has_item e (tlen blk) (anything e) w) w :: numbered_items e 0 blk w) -> steady a).
  { intros a [<-|Ha].
    + unfold has_item. destruct (subscript e w (tlen blk)); eexists; reflexivity.
    + assert (G' : forall i a, In a (numbered_items e i blk w) -> exists f j, In f blk /\ a = has_item e j f w).
      { clear. induction blk as [|f blk IH]; intros i a Ha; cbn in Ha; [destruct Ha|].
        destruct Ha as [<-|Ha]; [exists f, i; split; [now left | reflexivity]|].
        apply IH in Ha as (g & j & Hg & ->). exists g, j. split; [now right | reflexivity]. }
      apply G' in Ha as (f & j & Hf & ->). unfold has_item. destruct (subscript e w j) as [x|] eqn:Ex; [|eexists; reflexivity].
      apply subscript_item in Ex as (k' & Ek' & Hx). rewrite Ek in Ek'. injection Ek' as <-.
      assert (Hin : In x k) by (destruct Hx as [[_ Hx]|[_ [_ Hx]]]; eapply nth_error_In; eassumption).
      destruct (Hp f x Hf Hin) as [o Ho]. unfold steady, mbind.
      destruct o as [o|exn]; [|exists (Err exn); intros s0; now rewrite Ho].
      exists (snd (rewrap e w o [])). intros s0. rewrite Ho. unfold rewrap. destruct o as [[]|]; try reflexivity.
      all: unfold mbind, lift; cbn; try reflexivity. }
  specialize (G H [] [] s). unfold mbind.
  destruct (accumulate (unless e (has_item e (tlen blk) (anything e) w) w :: numbered_items e 0 blk w) [] [] s) as [s1 [o|]]; exact G.
Qed.

Section Candidate.
Variables (e : env) (v : value) (l : list value).
Hypothesis El : seq_items e v = Some l.
Definition steady_part (p : list matcher) : Prop := forall m x, In m p -> In x l -> steady_on e m x.

Lemma window p a : seq_items e (vslice v (Z.of_nat a) (Z.of_nat a + tlen (map (eval e) p))) = Some (firstn (length p) (skipn a l)).
Proof. rewrite (seq_vslice e v l _ _ El). f_equal. unfold tlen. rewrite map_length. apply slice_block. Qed.
Lemma steady_zip p k : (forall m x, In m p -> In x k -> steady_on e m x) ->
  forall a, In a (one_by_one e p k) -> steady a.
Proof.
  intros H a Ha. unfold one_by_one in Ha. apply in_map_iff in Ha as ([m x] & <- & Hi). cbn.
  apply H; [eapply in_combine_l | eapply in_combine_r]; eassumption.
Qed.
Lemma attempted p a s s' o : steady_part p ->
  items_are e (map (eval e) p) (vslice v (Z.of_nat a) (Z.of_nat a + tlen (map (eval e) p))) s = (s', Ok o) ->
  s' = s /\ match o with
            | Some r => exists rm b, r = RInfo rm (Some b) [] /\ fits_at e p l a b
            | None => forall b, ~ fits_at e p l a b
            end.
Proof.
  intros Hp H.
  assert (Hw : forall m x, In m p -> In x (firstn (length p) (skipn a l)) -> steady_on e m x).
  { intros m x Hm Hx. apply Hp; [assumption|]. eapply skipn_In, firstn_In, Hx. }
  pose proof (steady_block e (map (eval e) p) _ _ (window p a)) as Hst.
  assert (Hst' : forall f x, In f (map (eval e) p) -> In x (firstn (length p) (skipn a l)) -> steady (f x)).
  { intros f x Hf Hx. apply in_map_iff in Hf as (m & <- & Hm). now apply Hw. }
  specialize (Hst Hst' s). rewrite H in Hst. cbn in Hst. subst s'. split; [reflexivity|]. destruct o as [r|].
  - apply items_are_iff in H as (b & -> & H). rewrite window in H. destruct H as [H1 H2].
    rewrite zip_eval_one in H2. rewrite map_length in H1.
    eexists _, b. split; [reflexivity|]. split; [assumption|].
    apply in_turn_steady in H2; [apply H2 | now apply steady_zip].
  - intros b [H1 H2].
    assert (Hy : items_are e (map (eval e) p) (vslice v (Z.of_nat a) (Z.of_nat a + tlen (map (eval e) p))) s
                 = (s, Ok (Some (RInfo (create_match (e_parsed e) (vslice v (Z.of_nat a) (Z.of_nat a + tlen (map (eval e) p)))) (Some b) [])))).
    { apply items_are_iff. exists b. split; [reflexivity|]. rewrite window, map_length, zip_eval_one. split; [assumption | apply H2]. }
    rewrite H in Hy. discriminate Hy.
Qed.
Lemma searched p : steady_part p -> forall m n s s' o,
  glob_search e (map (eval e) p) v (zrange (Z.of_nat n) m) s = (s', Ok o) ->
  s' = s /\ match o with
            | Some (r, pos) => exists a rm b, (n <= a < n + m)%nat /\ r = RInfo rm (Some b) [] /\ pos = Z.of_nat (a + length p)
                /\ fits_at e p l a b /\ forall a' b', (n <= a' < a)%nat -> ~ fits_at e p l a' b'
            | None => forall a b, (n <= a < n + m)%nat -> ~ fits_at e p l a b
            end.
Proof.
  intros Hp. induction m as [|m IH]; intros n s s' o H; cbn [zrange glob_search] in H.
  - injection H as <- <-. split; [reflexivity|]. intros a b Ha. lia.
  - unfold mbind in H.
    destruct (items_are e (map (eval e) p) (vslice v (Z.of_nat n) (Z.of_nat n + tlen (map (eval e) p))) s) as [s1 [o1|]] eqn:E; [|discriminate H].
    apply attempted in E as [-> E]; [|assumption]. destruct o1 as [r|].
    + injection H as <- <-. split; [reflexivity|]. destruct E as (rm & b & -> & Hf).
      exists n, rm, b. split; [lia|]. split; [reflexivity|]. split; [unfold tlen; rewrite map_length; lia|].
      split; [assumption|]. intros a' b' Ha. lia.
    + replace (Z.of_nat n + 1) with (Z.of_nat (S n)) in H by lia. apply IH in H as [-> H]. split; [reflexivity|].
      destruct o as [[r pos]|].
      * destruct H as (a & rm & b & Ha & Er & Ep & Hf & Hn). exists a, rm, b. split; [lia|].
        split; [assumption|]. split; [assumption|]. split; [assumption|].
        intros a' b' Ha'. destruct (Nat.eq_dec a' n) as [->|]; [apply E | apply Hn; lia].
      * intros a b Ha. destruct (Nat.eq_dec a n) as [->|]; [apply E | apply H; lia].
Qed.
Lemma fits_room p a b : fits_at e p l a b -> p <> [] -> (a + length p <= length l)%nat.
Proof.
  intros [H _] Hne. rewrite firstn_length, skipn_length in H. destruct p; [contradiction|]. cbn [length] in *. lia.
Qed.
Lemma fits_none a b : fits_at e [] l a b <-> b = [].
Proof.
  unfold fits_at, fits_items, one_by_one. cbn. split.
  - intros [_ H]. specialize (H []). now inversion H.
  - intros ->. split; [reflexivity|]. intros s. constructor.
Qed.
Lemma fits_det p a b b' : fits_at e p l a b -> fits_at e p l a b' -> b = b'.
Proof.
  assert (D : forall acts b s s1 b1 s2 b2, in_turn acts b s s1 b1 -> in_turn acts b s s2 b2 -> b1 = b2).
  { clear. induction acts as [|a acts IHa]; intros b s s1 b1 s2 b2 X Y; inversion X; inversion Y; subst; [congruence|].
    match goal with A : a s = _, B : a s = _ |- _ => rewrite A in B; injection B as <- <- <- <- end.
    match goal with A : merge_bindings b _ = _, B : merge_bindings b _ = _ |- _ => rewrite A in B; injection B as <- end.
    eapply IHa; eassumption. }
  intros [_ H] [_ H']. eapply D; [apply (H []) | apply (H' [])].
Qed.
Lemma first_place_det p from a b a' b' : first_place e p l from a b -> first_place e p l from a' b' -> a = a' /\ b = b'.
Proof.
  intros (H1 & H2 & H3) (H1' & H2' & H3').
  assert (a = a') as <-.
  { destruct (Nat.lt_trichotomy a a') as [H|[H|H]]; [|assumption|]; exfalso; [eapply (H3' a b) | eapply (H3 a' b')]; first [assumption | lia]. }
  split; [reflexivity|]. eapply fits_det; eassumption.
Qed.

(** The blocks of a pattern, from its parts. *)
Fixpoint starred (ps : list (list matcher)) : list block :=
  match ps with
  | [] => []
  | [] :: ps => None :: starred ps
  | p :: ps => None :: Some (map (eval e) p) :: starred ps
  end.
Lemma starred_cons p ps : starred (p :: ps) = None :: match p with [] => starred ps | _ => Some (map (eval e) p) :: starred ps end.
Proof. destruct p; reflexivity. Qed.
Lemma blocks_parts ms :
  let subs := map (fun m => (is_star m, eval e m)) ms in
  let (p, ps) := parts ms in
  blockify subs None = starred (p :: ps)
  /\ forall c, blockify subs (Some (map (eval e) c)) =
       match c ++ p, ps with [], _ :: _ => starred ps | q, _ => Some (map (eval e) q) :: starred ps end.
Proof.
  induction ms as [|m ms IH]; cbn zeta in *.
  - cbn. split; [reflexivity|]. intros c. rewrite app_nil_r. now destruct c.
  - cbn [map parts blockify]. destruct (parts ms) as [p ps]. destruct IH as [IH1 IH2]. destruct (is_star m).
    + rewrite IH1. split; [rewrite (starred_cons [] (p :: ps)); reflexivity|]. intros c. rewrite app_nil_r.
      destruct c as [|x c]; reflexivity.
    + split.
      * specialize (IH2 [m]). cbn [map app] in IH2. rewrite IH2. rewrite starred_cons. now destruct ps.
      * intros c. replace (map (eval e) c ++ [eval e m]) with (map (eval e) (c ++ [m])) by apply map_app.
        rewrite IH2, <- app_assoc. cbn [app]. destruct (c ++ m :: p) eqn:E; [now destruct c|]. reflexivity.
Qed.

Definition steady_parts (ps : list (list matcher)) : Prop := forall p, In p ps -> steady_part p.

Lemma loop_starred ps : ps <> [] -> steady_parts ps -> forall is_search from b s s' o, (from <= length l)%nat ->
  glob_loop e v (tlen l) (starred ps) is_search (Z.of_nat from) b s = (s', Ok o) ->
  s' = s /\ ((exists b', stars_placed e l from b ps b' /\ o = Some (info e v (Some b')))
             \/ (o = None /\ forall b', ~ stars_placed e l from b ps b')).
Proof.
  induction ps as [|p ps IH]; intros Hne Hst is_search from b s s' o Hfrom H; [contradiction|]. clear Hne.
  assert (Hst' : steady_parts ps) by (intros q Hq; apply Hst; now right).
  assert (Hp : steady_part p) by (apply Hst; now left).
  rewrite starred_cons in H. cbn [glob_loop] in H. destruct ps as [|q ps].
  - destruct p as [|m p].
    + cbn in H. rewrite Bool.andb_false_r in H. injection H as <- <-. split; [reflexivity|]. left. exists b.
      split; [|reflexivity]. apply (ST_last e l from b [] l [] [] b); [now rewrite app_nil_r| |apply merge_nil_r].
      split; [reflexivity|]. intros s0. constructor.
    + set (p' := m :: p) in *. cbn [starred] in H. cbn [glob_loop] in H. unfold tlen in H. rewrite map_length in H.
      replace (Z.to_nat (Z.of_nat (length l) - Z.of_nat (length p') + 1 - (Z.of_nat (length l) - Z.of_nat (length p')))) with 1%nat in H by lia.
      destruct (Nat.le_gt_cases (length p') (length l)) as [Hlen|Hlen].
      * replace (Z.of_nat (length l) - Z.of_nat (length p')) with (Z.of_nat (length l - length p')) in H by lia.
        unfold mbind at 1 in H.
        destruct (glob_search e (map (eval e) p') v (zrange (Z.of_nat (length l - length p')) 1) s) as [s1 [o1|]] eqn:E; [|discriminate H].
        apply searched in E as [-> E]; [|assumption].
        assert (Hend : forall pre suf b1, l = pre ++ suf -> fits_items e p' suf b1 -> fits_at e p' l (length l - length p') b1).
        { intros pre suf b1 Hl Hf. unfold fits_at. destruct Hf as [Hf1 Hf2].
          replace (length l - length p')%nat with (length pre) by (rewrite Hl, app_length; lia).
          rewrite Hl, skipn_app, skipn_all, Nat.sub_diag. cbn [app skipn]. rewrite <- Hf1, firstn_all. now split. }
        destruct o1 as [[r pos]|].
        -- destruct E as (a & rm & b1 & Ha & -> & -> & Hf & _). assert (a = (length l - length p')%nat) as -> by lia.
           unfold mbind, lift in H. cbn [r_bindings not_none] in H. destruct (merge_bindings b b1) as [[b2|]|] eqn:Em; [| |discriminate H].
           ++ rewrite (proj2 (Z.eqb_eq _ _)) in H by lia. cbn in H. injection H as <- <-. split; [reflexivity|]. left.
              exists b2. split; [|reflexivity].
              apply (ST_last e l from b p' (firstn (length l - length p') l) (skipn (length l - length p') l) b1 b2); [symmetry; apply firstn_skipn| |assumption].
              unfold fits_at in Hf. rewrite firstn_all2 in Hf; [exact Hf|]. rewrite skipn_length. lia.
           ++ injection H as <- <-. split; [reflexivity|]. right. split; [reflexivity|]. intros b' X.
              inversion X; subst. match goal with A : l = _ ++ _, B : fits_items _ _ _ _ |- _ => pose proof (Hend _ _ _ A B) as C end.
              pose proof (fits_det _ _ _ _ Hf C) as ->. congruence.
        -- injection H as <- <-. split; [reflexivity|]. right. split; [reflexivity|]. intros b' X.
           inversion X; subst. match goal with A : l = _ ++ _, B : fits_items _ _ _ _ |- _ => pose proof (Hend _ _ _ A B) as C end.
           eapply E; [|exact C]. lia.
      * (* too long *)
        assert (Hno : forall b', ~ stars_placed e l from b [p'] b').
        { intros b' X. inversion X; subst.
          match goal with A : fits_items _ _ _ _ |- _ => destruct A as [A _] end.
          match goal with A : l = _ ++ _ |- _ => apply (f_equal (@length value)) in A; rewrite app_length in A end. lia. }
        cbn [zrange glob_search] in H. unfold mbind in H at 1 2.
        set (w := vslice v (Z.of_nat (length l) - Z.of_nat (length p')) (Z.of_nat (length l) - Z.of_nat (length p') + tlen (map (eval e) p'))) in *.
        assert (Ew : seq_items e w = Some (slice l (Z.of_nat (length l) - Z.of_nat (length p')) (Z.of_nat (length l) - Z.of_nat (length p') + tlen (map (eval e) p'))))
          by apply (seq_vslice e v l _ _ El).
        assert (Hw : forall f x, In f (map (eval e) p') -> In x (slice l (Z.of_nat (length l) - Z.of_nat (length p')) (Z.of_nat (length l) - Z.of_nat (length p') + tlen (map (eval e) p'))) -> steady (f x)).
        { intros f x Hf Hx. apply in_map_iff in Hf as (m' & <- & Hm). apply Hp; [assumption|].
          unfold slice in Hx. eapply skipn_In, firstn_In, Hx. }
        pose proof (steady_block e _ w _ Ew Hw s) as Hs1.
        destruct (items_are e (map (eval e) p') w s) as [s1 [[r|]|]] eqn:E; [| |discriminate H].
        -- exfalso. apply items_are_iff in E as (b1 & _ & E). rewrite Ew in E. destruct E as [E _].
           pose proof (slice_len_le l (Z.of_nat (length l) - Z.of_nat (length p')) (Z.of_nat (length l) - Z.of_nat (length p') + tlen (map (eval e) p'))).
           rewrite map_length in E. lia.
        -- cbn in Hs1. subst s1. cbn in H. injection H as <- <-. split; [reflexivity|]. right. now split.
  - destruct p as [|m p].
    + apply IH in H as [-> H]; [|discriminate|assumption|assumption]. split; [reflexivity|].
      destruct H as [(b' & Hb & ->)|[-> H]].
      * left. exists b'. split; [|reflexivity]. apply (ST_more e l from b [] q ps from [] b b').
        -- split; [lia|]. split; [now apply fits_none|]. intros a' b1 Ha. lia.
        -- apply merge_nil_r.
        -- cbn [length]. rewrite Nat.add_0_r. assumption.
      * right. split; [reflexivity|]. intros b' X. inversion X as [|? ? ? ? ? a b1 b2 ? X1 X2 X3]; subst.
        destruct X1 as (Y1 & Y2 & Y3). apply fits_none in Y2 as ->. rewrite merge_nil_r in X2. injection X2 as <-.
        assert (a = from) as ->.
        { destruct (Nat.eq_dec a from) as [|Hn]; [assumption|]. exfalso. apply (Y3 from []); [lia|]. now apply fits_none. }
        cbn [length] in X3. rewrite Nat.add_0_r in X3. eapply H; eassumption.
    + set (p' := m :: p) in *. cbn [glob_loop] in H.
      destruct (starred (q :: ps)) as [|blk bs] eqn:Eb; [rewrite starred_cons in Eb; discriminate Eb|]. rewrite <- Eb in *. clear blk bs Eb.
      unfold mbind at 1 in H.
      replace (Z.to_nat (tlen l - Z.of_nat from)) with (length l - from)%nat in H by (unfold tlen; lia).
      destruct (glob_search e (map (eval e) p') v (zrange (Z.of_nat from) (length l - from)) s) as [s1 [o1|]] eqn:E; [|discriminate H].
      apply searched in E as [-> E]; [|assumption]. destruct o1 as [[r pos]|].
      * destruct E as (a & rm & b1 & Ha & -> & -> & Hf & Hn). unfold mbind, lift in H. cbn [r_bindings not_none] in H.
        assert (Hfp : first_place e p' l from a b1) by (split; [lia | now split]).
        destruct (merge_bindings b b1) as [[b2|]|] eqn:Em; [| |discriminate H].
        -- apply IH in H as [-> H]; [|discriminate|assumption|apply (fits_room p' a b1); [assumption|discriminate]].
           split; [reflexivity|]. destruct H as [(b' & Hb & ->)|[-> H]].
           ++ left. exists b'. split; [|reflexivity]. eapply ST_more; eassumption.
           ++ right. split; [reflexivity|]. intros b' X. inversion X as [|? ? ? ? ? a' b1' b2' ? X1 X2 X3]; subst.
              destruct (first_place_det _ _ _ _ _ _ Hfp X1) as [<- <-]. rewrite Em in X2. injection X2 as <-.
              eapply H; eassumption.
        -- injection H as <- <-. split; [reflexivity|]. right. split; [reflexivity|].
           intros b' X. inversion X as [|? ? ? ? ? a' b1' b2' ? X1 X2 X3]; subst.
           destruct (first_place_det _ _ _ _ _ _ Hfp X1) as [<- <-]. congruence.
      * injection H as <- <-. split; [reflexivity|]. right. split; [reflexivity|].
        intros b' X. inversion X as [|? ? ? ? ? a' b1' b2' ? X1 X2 X3]; subst.
        destruct X1 as (Y1 & Y2 & Y3). pose proof (fits_room p' a' b1' Y2 ltac:(discriminate)) as Hr.
        eapply E; [|exact Y2]. change (length p') with (S (length p)) in Hr. lia.
Qed.
End Candidate.

Lemma parts_in ms p ps : parts ms = (p, ps) -> forall q m, In q (p :: ps) -> In m q -> In m ms /\ is_star m = false.
Proof.
  revert p ps. induction ms as [|x ms IH]; intros p ps E q m Hq Hm; cbn in E.
  - injection E as <- <-. destruct Hq as [<-|[]]. destruct Hm.
  - destruct (parts ms) as [p0 ps0] eqn:Ep. destruct (is_star x) eqn:Es; injection E as <- <-.
    + destruct Hq as [<-|Hq]; [destruct Hm|]. destruct (IH _ _ eq_refl q m Hq Hm). split; [now right | assumption].
    + destruct Hq as [<-|Hq].
      * destruct Hm as [<-|Hm]; [split; [now left | assumption]|].
        destruct (IH _ _ eq_refl p0 m (or_introl eq_refl) Hm). split; [now right | assumption].
      * destruct (IH _ _ eq_refl q m (or_intror Hq) Hm). split; [now right | assumption].
Qed.

Theorem glob_exact e ms v l s s' o : seq_items e v = Some l ->
  (forall m x, In m ms -> is_star m = false -> In x l -> steady_on e m x) ->
  eval e (MGlob ms) v s = (s', Ok o) ->
  s' = s /\ ((exists b, glob_placed e ms l b /\ o = Some (RInfo (create_match (e_parsed e) v) (Some b) []))
             \/ (o = None /\ forall b, ~ glob_placed e ms l b)).
Proof.
  intros El Hst H. cbn [eval] in H. unfold glob in H. rewrite El in H.
  pose proof (blocks_parts e ms) as Hb. cbn zeta in Hb. unfold glob_placed.
  destruct (parts ms) as [p ps] eqn:Ep. destruct Hb as [_ Hb]. specialize (Hb []). cbn [map app] in Hb. rewrite Hb in H. clear Hb.
  pose proof (parts_in ms p ps Ep) as Hin.
  assert (Hp : steady_part e l p) by (intros m x Hm Hx; destruct (Hin p m (or_introl eq_refl) Hm); now apply Hst).
  assert (Hps : steady_parts e l ps) by (intros q Hq m x Hm Hx; destruct (Hin q m (or_intror Hq) Hm); now apply Hst).
  destruct p as [|m p]; [destruct ps as [|q ps]|].
  - cbn [starred glob_loop] in H. cbn [map] in H. unfold mbind at 1 in H.
    change (Z.to_nat (0 + 1 - 0)) with 1%nat in H. change [] with (map (eval e) []) in H at 1.
    destruct (glob_search e (map (eval e) []) v (zrange 0 1) s) as [s1 [o1|]] eqn:E; [|discriminate H].
    change 0 with (Z.of_nat 0) in E. apply (searched e v l El) in E as [-> E]; [|assumption].
    destruct o1 as [[r pos]|].
    + destruct E as (a & rm & b & Ha & -> & -> & Hf & _). assert (a = 0%nat) as -> by lia.
      pose proof (proj1 (fits_none e l 0 b) Hf) as ->. cbn in H. destruct l as [|x l]; cbn in H; injection H as <- <-; (split; [reflexivity|]).
      * left. exists []. split; [|reflexivity]. exists []. split; [assumption | now split].
      * right. split; [reflexivity|]. intros b (b1 & _ & Hl & _). discriminate Hl.
    + exfalso. eapply (E 0%nat []); [lia|]. now apply fits_none.
  - cbn match in H. change 0 with (Z.of_nat 0) in H. apply (loop_starred e v l El) in H as [-> H]; [|discriminate|assumption|lia].
    split; [reflexivity|]. destruct H as [(b & Hb & ->)|[-> H]].
    + left. exists b. split; [|reflexivity]. exists []. split; [now apply fits_none | assumption].
    + right. split; [reflexivity|]. intros b (b1 & Hf & Hb). apply fits_none in Hf as ->. eapply H; eassumption.
  - set (p' := m :: p) in *.
    assert (E0 : match ps with [] => Some (map (eval e) p') :: starred e ps | _ :: _ => Some (map (eval e) p') :: starred e ps end = Some (map (eval e) p') :: starred e ps) by now destruct ps.
    change (match p' with [] => match ps with [] => Some (map (eval e) p') :: starred e ps | _ :: _ => starred e ps end | _ :: _ => Some (map (eval e) p') :: starred e ps end)
      with (Some (map (eval e) p') :: starred e ps) in H. clear E0.
    cbn [glob_loop] in H. unfold mbind at 1 in H. change (Z.to_nat (0 + 1 - 0)) with 1%nat in H.
    change (eval e m :: map (eval e) p) with (map (eval e) p') in H.
    destruct (glob_search e (map (eval e) p') v (zrange 0 1) s) as [s1 [o1|]] eqn:E; [|discriminate H].
    change 0 with (Z.of_nat 0) in E. apply (searched e v l El) in E as [-> E]; [|assumption].
    destruct o1 as [[r pos]|].
    + destruct E as (a & rm & b1 & Ha & -> & -> & Hf & _). assert (a = 0%nat) as -> by lia. cbn [Nat.add] in H.
      cbn [r_bindings not_none] in H. unfold mbind, lift in H. cbn [not_none] in H. rewrite merge_bindings_nil in H.
      pose proof (fits_room e l p' 0 b1 Hf ltac:(discriminate)) as Hr.
      destruct ps as [|q ps].
      * cbn [starred glob_loop] in H. unfold tlen in H. destruct (Nat.eq_dec (length p') (length l)) as [He|He].
        -- rewrite (proj2 (Z.eqb_eq _ _)) in H by lia. cbn in H. injection H as <- <-. split; [reflexivity|]. left. exists b1.
           split; [|reflexivity]. exists b1. split; [assumption|]. now split.
        -- rewrite (proj2 (Z.eqb_neq _ _)) in H by lia. cbn in H. injection H as <- <-. split; [reflexivity|]. right.
           split; [reflexivity|]. intros b (b2 & _ & Hl & _). now apply He.
      * apply (loop_starred e v l El) in H as [-> H]; [|discriminate|assumption|cbn in Hr |- *; lia].
        split; [reflexivity|]. destruct H as [(b & Hb & ->)|[-> H]].
        -- left. exists b. split; [|reflexivity]. exists b1. now split.
        -- right. split; [reflexivity|]. intros b (b2 & Hf' & Hb). pose proof (fits_det _ _ _ _ _ _ Hf Hf') as <-. eapply H; eassumption.
    + injection H as <- <-. split; [reflexivity|]. right. split; [reflexivity|].
      intros b (b1 & Hf & _). eapply (E 0%nat b1); [lia | assumption].
Qed.
