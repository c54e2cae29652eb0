(** Removing the matched statements: proofs. *)
From Verif Require Import Py PyFacts Subst Fmt ApplySpec SubstSpec ApplyProofs Ast Template FromDiff Matcher MatchSpec MergeSpec MergeProofs MatcherProofs BindProofs
  OwnSpec OwnProofs FindSpec FindProofs NavSpec NavProofs Search SearchSpec RewriteProofs Removal RemovalSpec RemovalProofs.
From Coq Require Import Sorted.

Lemma left_of_siblings q i j : left_of (q ++ [i]) (q ++ [j]) -> (i < j)%nat.
Proof.
  intros (c & i' & j' & p' & q' & H1 & H2 & Hlt). revert c H1 H2. induction q as [|k q IH]; intros [|x c] H1 H2; cbn in *.
  - injection H1 as -> _. injection H2 as -> _. assumption.
  - injection H1 as _ H1. destruct c; discriminate H1.
  - injection H1 as -> _. injection H2 as -> _. lia.
  - injection H1 as _ H1. injection H2 as _ H2. eapply IH; eassumption.
Qed.

Section Root.
  Context (e : env) (m : matcher) (t : template).
  Hypothesis Hun : unshared (e_tree e).
  Hypothesis Hroot : is_node (e_tree e) = true.
  Hypothesis Hown : own_head m = true.
  Hypothesis Hnt : no_templates m = true.
  Hypothesis Hrf : rewrite_free m = true.
  Hypothesis Hdo : dicts_ok m.
  Hypothesis Hvar : ~ In ROOT_LABEL (bind_variables m).
  Hypothesis Ht : t_template t = [].

  Let m' := MWithReplacements (MBind ROOT_LABEL m None None) [(ROOT_LABEL, t)].

  Definition h_dicts (h : hit) : dict pymatch * dict template :=
    (match h_result h with RInfo _ (Some b) _ => map (fun kv => (fst kv, b_value (snd kv))) b | _ => [] end, [(ROOT_LABEL, t)]).

  Lemma hit_dicts h d : attempt (with_done e d) m' (h_value h) = (h_ran h, Ok (Some (h_result h))) ->
    dicts_of (h_result h) (h_dicts h) /\ exists rm, r_match (h_result h) = Ok rm /\ dget (fst (h_dicts h)) ROOT_LABEL = Some rm
      /\ (rm = create_match (e_parsed e) (h_value h) \/ about_nothing rm).
  Proof.
    unfold attempt. destruct (admits _ _); [|discriminate]. unfold m'. cbn [eval]. intros HH.
    apply mbind_Ok in HH as (s1 & [r1|] & H1 & HH); [|none HH].
    apply mbind_Ok in HH as (s2 & rt & H2 & HH). apply lift_Ok in H2 as [-> H2].
    apply mbind_Ok in HH as (s3 & rb & H3 & HH). apply lift_Ok in H3 as [-> H3].
    apply mbind_Ok in HH as (s4 & rm & H4 & HH). apply lift_Ok in H4 as [-> H4].
    apply mbind_Ok in HH as (s5 & tt & H5 & HH). apply lift_Ok in H5 as [-> H5].
    apply ret_Ok in HH as [_ Er].
    apply mbind_Ok in H1 as (s6 & [r2|] & G1 & H1); [|none H1].
    apply mbind_Ok in H1 as (s7 & rb2 & G2 & H1). apply lift_Ok in G2 as [-> G2].
    apply bind_Ok in G2 as (ob & G2 & G2'). apply not_none_Ok in G2' as ->.
    apply mbind_Ok in H1 as (s8 & rm2 & G3 & H1). apply lift_Ok in G3 as [-> G3].
    apply mbind_Ok in H1 as (s9 & rt2 & G4 & H1). apply lift_Ok in G4 as [-> G4].
    apply mbind_Ok in H1 as (s10 & mb & G5 & H1). apply lift_Ok in G5 as [-> G5].
    destruct mb as [b|]; [|none H1]. apply ret_Ok in H1 as [_ Er1]. injection Er1 as Er1. subst r1. cbn in H2, H3, H4.
    injection H2 as <-. injection H3 as <-. injection H4 as <-.
    rewrite (no_replacements _ _ _ _ _ _ _ Hnt G1 G4) in H5. cbn in H5. injection H5 as <-.
    injection Er as Er. unfold h_dicts. rewrite <- Er. split.
    - exists b. now repeat split.
    - exists rm2. split; [reflexivity|]. cbn [fst]. rewrite dget_map.
      assert (Hb : dget b ROOT_LABEL = Some (bound_value rm2 None None)).
      { assert (Hk : dict_ok rb2) by (apply (proj1 (results_are_dicts _ _ _ _ _ _ Hdo G1)); assumption).
        pose proof (merge_bindings_spec rb2 [(ROOT_LABEL, bound_value rm2 None None)] Hk) as HM. rewrite G5 in HM.
        destruct HM as (_ & _ & HM); [repeat constructor; intros []|]. rewrite HM.
        destruct (dget rb2 ROOT_LABEL) as [x|] eqn:E; [|reflexivity]. exfalso. apply Hvar.
        eapply bind_variables_cover; [exact Hrf | exact G1|]. rewrite (r_bindings_of _ _ G2). eapply dget_Some_keys. exact E. }
      rewrite Hb. split; [reflexivity|].
      apply (own_match _ _ _ _ _ _ rm2 Hown G1) in G3. exact G3.
  Qed.

  Lemma h_steps hs : steps (map h_dicts hs) = map (fun h => (fst (h_dicts h), (ROOT_LABEL, t))) hs.
  Proof. unfold steps. induction hs as [|h hs IH]; [reflexivity|]. cbn [map flat_map]. rewrite IH. reflexivity. Qed.

  Lemma hit_removes hs h p : found e m' hs -> In h hs ->
    removes (e_tree e) (fst (h_dicts h), (ROOT_LABEL, t)) p <-> deletes h /\ p = h_path h.
  Proof.
    intros Hf Hin. apply in_split in Hin as (h1 & h2 & ->). destruct (fd_match _ _ _ Hf h1 h h2 eq_refl) as [Hp Ha].
    apply hit_dicts in Ha as (_ & rm & Hm & Hd & Hc). split.
    - intros (v & txt & f & l & a & b & G1 & _ & G3 & G4). cbn [fst snd] in G1. rewrite Hd in G1. injection G1 as ->.
      destruct Hc as [Hc|[Hc|[s Hc]]]; try discriminate Hc.
      unfold create_match in Hc. destruct (lexical_tokens _) as [[f0 l0]|]; [|destruct (h_value h) as [| |? []]; discriminate Hc].
      injection Hc as -> -> -> -> -> ->. split; [split; [assumption|]; eauto 6|].
      apply (proj2 (Hun _ _ Hp (stmt_node _ G3)) p (h_value h)); [assumption | reflexivity].
    - intros [(Hs & txt & f & l & a & b & Hr) ->]. exists (h_value h), txt, f, l, a, b.
      rewrite Hr in Hm. injection Hm as <-. cbn [fst snd]. now repeat split.
  Qed.

  Lemma StronglySorted_app_left {A} (R : A -> A -> Prop) a : forall b x y, StronglySorted R (a ++ y :: b) -> In x a -> R x y.
  Proof.
    induction a as [|z a IH]; intros b x y H Hin; [destruct Hin|]. cbn in H. inversion H as [|? ? HS HF]; subst.
    destruct Hin as [<-|Hin]; [rewrite Forall_forall in HF; apply HF; apply in_app_iff; right; now left | eapply IH; eassumption].
  Qed.

  Lemma hits_in_order hs : found e m' hs -> in_order (e_tree e) (steps (map h_dicts hs)).
  Proof.
    intros Hf before s after E q i j (s' & Hin & Hs') Hs. rewrite h_steps in E.
    apply map_eq_app in E as (hs1 & hs2 & -> & <- & E). destruct hs2 as [|h hs2]; [discriminate E|]. injection E as <- _.
    apply in_map_iff in Hin as (h' & <- & Hin).
    apply (hit_removes _ _ _ Hf) in Hs' as [_ Hp']; [|apply in_app_iff; now left].
    apply (hit_removes _ _ _ Hf) in Hs as [_ Hp]; [|apply in_app_iff; right; now left].
    pose proof (StronglySorted_app_left _ _ _ _ _ (fd_order _ _ _ Hf) Hin) as HL. cbn in HL.
    rewrite <- Hp', <- Hp in HL. now apply left_of_siblings in HL.
  Qed.
  Lemma hits_placed hs : found e m' hs -> placed (e_tree e) (steps (map h_dicts hs)).
  Proof.
    intros Hf s v txt f l a b Hin Hd _ _. rewrite h_steps in Hin. apply in_map_iff in Hin as (h & <- & Hin).
    apply in_split in Hin as (h1 & h2 & ->). destruct (fd_match _ _ _ Hf h1 h h2 eq_refl) as [Hp Ha].
    apply hit_dicts in Ha as (_ & rm & _ & Hd' & Hc). cbn [fst snd] in Hd. rewrite Hd in Hd'. injection Hd' as <-.
    destruct Hc as [Hc|[Hc|[s Hc]]]; try discriminate Hc. exists (h_path h). rewrite Hp.
    unfold create_match in Hc. destruct (lexical_tokens _) as [[f0 l0]|]; [|destruct (h_value h) as [| |? []]; discriminate Hc].
    now injection Hc as ->.
  Qed.
  Lemma gone_hits hs p : found e m' hs ->
    gone (e_tree e) (steps (map h_dicts hs)) p <-> exists h', In h' hs /\ deletes h' /\ h_path h' = p.
  Proof.
    intros Hf. unfold gone. rewrite h_steps. split.
    - intros (s & Hin & Hs). apply in_map_iff in Hin as (h & <- & Hin). apply (hit_removes _ _ _ Hf Hin) in Hs as [Hd ->]. eauto.
    - intros (h & Hin & Hd & <-). exists (fst (h_dicts h), (ROOT_LABEL, t)). split; [now apply in_map_iff; exists h|].
      now apply (hit_removes _ _ _ Hf Hin).
  Qed.

  Theorem delete_matches pass_template out outs :
    matcher_find_iter e m' = Ok out ->
    sanitize_all pass_template (e_tree e) (e_tokens e) (map snd out) (Removed [] []) = Ok outs ->
    exists hs, found e m' hs /\ out = map (fun h => (h_value h, h_result h)) hs
      /\ Forall2 (fun h mt => exists m t', dget (fst mt) ROOT_LABEL = Some m /\ snd mt = [(ROOT_LABEL, t')]
                    /\ (forall x, x <> ROOT_LABEL -> dget (fst mt) x = dget (fst (h_dicts h)) x)
                    /\ deletion pass_template (e_tree e) (e_tokens e) t hs h m t') hs outs.
  Proof.
    intros Hout Houts. apply find_iter_found in Hout as (hs & Hf & ->). exists hs. split; [assumption|]. split; [reflexivity|].
    rewrite map_map in Houts. cbn [snd] in Houts.
    assert (HF : Forall2 dicts_of (map (fun h => h_result h) hs) (map h_dicts hs)).
    { assert (G : forall h, In h hs -> dicts_of (h_result h) (h_dicts h)).
      { intros h Hin. apply in_split in Hin as (h1 & h2 & ->). destruct (fd_match _ _ _ Hf h1 h h2 eq_refl) as [Hp Ha].
        now apply hit_dicts in Ha as (Ha & _). }
      clear - G. induction hs as [|h hs IH]; cbn [map]; constructor; [apply G; now left | apply IH; intros h' Hin; apply G; now right]. }
    apply (sanitize_all_ok pass_template (e_tree e) (e_tokens e) Hun Hroot (steps (map h_dicts hs))) with (pairs := map h_dicts hs) (a := []) in Houts;
      [ | assumption | | reflexivity | apply remembers_nil | now apply hits_in_order | now apply hits_placed].
    2:{ intros mt Hin. apply in_map_iff in Hin as (h & <- & _). cbn. repeat constructor. intros []. }
    assert (Hh : forall h, In h hs -> exists rm, r_match (h_result h) = Ok rm /\ dget (fst (h_dicts h)) ROOT_LABEL = Some rm).
    { intros h Hin. apply in_split in Hin as (h1 & h2 & ->). destruct (fd_match _ _ _ Hf h1 h h2 eq_refl) as [Hp Ha].
      apply hit_dicts in Ha as (_ & rm & G1 & G2 & _). now exists rm. }
    assert (Hsub : forall h, In h hs -> In h hs) by auto. revert Houts Hsub.
    generalize hs at 2 3 6. clear HF. intros l. revert outs. induction l as [|h l IH]; intros outs Houts Hsub; cbn [map] in Houts;
      inversion Houts as [|? [ms' ts'] ? outs' Htidy Houts']; subst; constructor; [|apply IH; [assumption | intros h' Hin; apply Hsub; now right]].
    clear IH Houts Houts'. assert (Hin : In h hs) by (apply Hsub; now left).
    destruct (Hh h Hin) as (rm & Hrm & Hd). destruct Htidy as (K1 & K2 & K3 & K4). cbn [fst snd] in *.
    destruct (K4 ROOT_LABEL t) as [T1 T2]; [reflexivity|]. change (snd (h_dicts h)) with [(ROOT_LABEL, t)] in K2, K3.
    assert (E : exists t', ts' = [(ROOT_LABEL, t')]).
    { destruct ts' as [|[x t'] [|]]; try discriminate K2. injection K2 as ->. now exists t'. }
    destruct E as [t' ->]. cbn in K2. cbn [dget] in T1, T2.
    assert (E : exists m0, dget ms' ROOT_LABEL = Some m0).
    { apply keys_dget. rewrite K1. eapply dget_Some_keys. exact Hd. }
    destruct E as [m0 E]. exists m0, t'. split; [assumption|]. split; [reflexivity|]. split.
    { intros x Hx. apply K3. intros [G|[]]. now apply Hx. }
    assert (Et : dget [(ROOT_LABEL, t')] ROOT_LABEL = Some t') by reflexivity.
    split.
    - intros Hno. destruct T1 as [G1 G2].
      { intros p Hp. apply (hit_removes _ _ _ Hf Hin) in Hp as [Hp _]. contradiction. }
      rewrite E, Hd in G1. injection G1 as ->. split; [assumption|]. change (Some t' = Some t) in G2. now injection G2.
    - intros txt f la a b Hs Hr. destruct (T2 (h_path h)) as (q & i & stmts & mo & v & txt0 & f0 & la0 & a0 & b0 & f' & la' & a' & b' & pass & G1 & G2 & G3 & G4 & G5 & G6 & G7).
      { apply (hit_removes _ _ _ Hf Hin). split; [|reflexivity]. split; [assumption|]. eauto 6. }
      rewrite Hr in Hrm. injection Hrm as <-. rewrite Hd in G4. injection G4 as <- <- <- <- <- <-.
      exists q, i, stmts, mo, f', la', a', b', pass. split; [assumption|]. split; [assumption|]. split; [assumption|].
      rewrite E in G5. injection G5 as ->. split; [reflexivity|]. split; [change (Some t' = Some (if pass then pass_template else t)) in G6; now injection G6|].
      eapply removal_rem; [|exact G7]. intros j _. now apply gone_hits.
  Qed.
End Root.

(** *** Geometry *)
Lemma starts_in_order l i j v w f g : laid_out l -> (i <= j)%nat -> nth_error l i = Some v -> nth_error l j = Some w ->
  first_token v = Ok f -> first_token w = Ok g -> tk_start f <= tk_start g.
Proof.
  intros [H1 H2] Hle Hi Hj Hf Hg. destruct (Nat.eq_dec i j) as [->|].
  - rewrite Hi in Hj. injection Hj as ->. rewrite Hf in Hg. injection Hg as ->. lia.
  - destruct (H1 _ _ Hi) as (f' & t & Hf' & Ht & Hle'). rewrite Hf in Hf'. injection Hf' as <-.
    specialize (H2 i j v w t g ltac:(lia) Hi Hj Ht Hg). lia.
Qed.
Lemma ends_in_order l i j v w f g : laid_out l -> (i <= j)%nat -> nth_error l i = Some v -> nth_error l j = Some w ->
  last_token v = Ok f -> last_token w = Ok g -> tk_end f <= tk_end g.
Proof.
  intros [H1 H2] Hle Hi Hj Hf Hg. destruct (Nat.eq_dec i j) as [->|].
  - rewrite Hi in Hj. injection Hj as ->. rewrite Hf in Hg. injection Hg as ->. lia.
  - destruct (H1 _ _ Hj) as (f' & t & Hf' & Ht & Hle'). rewrite Hg in Ht. injection Ht as <-.
    specialize (H2 i j v w f f' ltac:(lia) Hi Hj Hf Hf'). lia.
Qed.

Theorem removals_apart tokens l mo (rem : nat -> Prop) i j vi vj si fi sj fj spi spj pi pj :
  (i < j)%nat -> laid_out l -> rem i ->
  nth_error l i = Some vi -> extent vi (si, fi) -> removal tokens l mo rem i si fi spi pi ->
  nth_error l j = Some vj -> extent vj (sj, fj) -> removal tokens l mo rem j sj fj spj pj ->
  snd spi <= fst spj.
Proof.
  intros Hlt Hl Hri Hi (f & t & Hf & Ht & [= -> ->]) Ri Hj (f' & t' & Hf' & Ht' & [= -> ->]) Rj.
  assert (Hjl : (j < length l)%nat) by (apply nth_error_Some; now rewrite Hj).
  destruct (rv_inner _ _ _ _ _ _ _ _ _ Ri ltac:(lia)) as (next & ft & Hn & Hft & ->). cbn [snd].
  assert (Hs : fst spj = tk_start f' \/ (S j = length l)).
  { destruct (Nat.lt_ge_cases (S j) (length l)) as [HS|HS]; [left | right; lia].
    destruct (rv_inner _ _ _ _ _ _ _ _ _ Rj HS) as (n2 & ft2 & _ & _ & ->). reflexivity. }
  assert (Hstart : tk_start ft <= tk_start f') by (eapply (starts_in_order l (S i) j); try eassumption; lia).
  destruct Hs as [->|HS]; [assumption|].
  destruct j as [|k]; [lia|]. destruct (rv_start _ _ _ _ _ _ _ _ _ Rj k HS eq_refl) as [G1 G2].
  destruct (Nat.eq_dec k i) as [->|Hk]; [now rewrite G1|].
  apply Z.nlt_ge. intros Hbad.
  assert (Hnr : ~ rem k) by (intros G; rewrite (G1 G) in Hbad; lia).
  destruct (G2 Hnr) as (prev & lt & Hp & Hlt' & E). rewrite E in Hbad.
  destruct Hl as [L1 L2]. destruct (L1 _ _ Hp) as (fp & tp & Hfp & Htp & Hle). rewrite Hlt' in Htp. injection Htp as <-.
  assert (tk_start ft <= tk_start fp) by (eapply (starts_in_order l (S i) k); try eassumption; [now split | lia]). lia.
Qed.

Theorem removal_keeps tokens l mo (rem : nat -> Prop) i k v w si fi spi pi spw :
  laid_out l -> i <> k ->
  nth_error l i = Some v -> extent v (si, fi) -> removal tokens l mo rem i si fi spi pi ->
  nth_error l k = Some w -> extent w spw -> ~ rem k ->
  apart spi spw.
Proof.
  intros Hl Hne Hi (f & t & Hf & Ht & [= -> ->]) Ri Hk (f' & t' & Hf' & Ht' & ->) Hnr. unfold apart. cbn [fst snd].
  assert (Hkl : (k < length l)%nat) by (apply nth_error_Some; now rewrite Hk).
  destruct (Nat.lt_ge_cases (S i) (length l)) as [HS|HS].
  - destruct (rv_inner _ _ _ _ _ _ _ _ _ Ri HS) as (next & ft & Hn & Hft & ->). cbn [fst snd].
    destruct (Nat.lt_ge_cases i k).
    + left. eapply (starts_in_order l (S i) k); try eassumption; lia.
    + right. destruct Hl as [_ L2]. eapply (L2 k i); try eassumption; lia.
  - assert (Hil : (i < length l)%nat) by (apply nth_error_Some; now rewrite Hi). right.
    destruct i as [|i]; [lia|]. destruct (rv_start _ _ _ _ _ _ _ _ _ Ri i ltac:(lia) eq_refl) as [G1 G2].
    apply Z.nlt_ge. intros Hbad.
    assert (Hnr' : ~ rem i).
    { intros G. rewrite (G1 G) in Hbad. destruct Hl as [_ L2]. specialize (L2 k (S i) w v t' f ltac:(lia) Hk Hi Ht' Hf). lia. }
    destruct (G2 Hnr') as (prev & lt & Hp & Hlt' & E). rewrite E in Hbad.
    assert (tk_end t' <= tk_end lt) by (eapply (ends_in_order l k i); try eassumption; lia). lia.
Qed.
