(** No place is missed by a search with fixers: proofs. *)
From Verif Require Import TemplateProofs Py PyFacts Subst ApplySpec Ast Template FromDiff Matcher MatchSpec MergeSpec MergeProofs MatcherProofs BindProofs OnceProofs FindSpec FindProofs
  FilterSpec NavSpec NavProofs CollSpec CollProofs PatTok PatSpec Pattern PatternSpec EquivProofs PatternProofs PatternApi
  PyTemplate PyTemplateSpec PyTemplateProofs Search SearchSpec Removal OwnSpec
  PropsTemplate ExprSubSpec ExprSubProofs PropsExprSub Fixer FixerSpec FixerProofs PyCode BuiltinFixers BuiltinSpec CodeProofs BuiltinProofs BuiltinApply BuiltinTables BuiltinMain
  CorrectnessFixers CorrectnessSpec CorrectnessProofs CorrectnessMain CorrectnessSearch ThoroughSpec ThoroughCode ThoroughProofs.
From Coq Require Import Permutation.

(** The fixer matches wherever [Q] holds. *)
Definition spots (e : env) (f : fixer) (Q : value -> Prop) : Prop :=
  forall m d c s, matcher_with_meta f = Ok m -> PatternSpec.inside (e_tree e) c -> Q c -> exists s' r, eval (with_done e d) m c s = (s', Ok (Some r)).

Lemma first_of_total acts s : (forall a s, In a acts -> exists s' o, a s = (s', @Ok (option result) o)) -> exists s' o, first_of acts s = (s', Ok o).
Proof.
  revert s. induction acts as [|a acts IH]; intros s H; cbn [first_of]; [eexists _, _; reflexivity|].
  destruct (H a s (or_introl eq_refl)) as (s1 & o & E). unfold mbind. rewrite E. destruct o as [r|]; [eexists _, _; reflexivity|].
  apply IH. intros. apply H. now right.
Qed.
Lemma first_of_hits acts s a : (forall a s, In a acts -> exists s' o, a s = (s', @Ok (option result) o)) -> In a acts -> (forall s, exists s' r, a s = (s', Ok (Some r))) ->
  exists s' r, first_of acts s = (s', Ok (Some r)).
Proof.
  revert s. induction acts as [|b acts IH]; intros s H Hin Ha; [destruct Hin|]. cbn [first_of].
  destruct (H b s (or_introl eq_refl)) as (s1 & o & E). unfold mbind. rewrite E. destruct o as [r|]; [eexists _, _; reflexivity|].
  destruct Hin as [->|Hin].
  - destruct (Ha s) as (s2 & r & E2). congruence.
  - apply IH; auto. intros. apply H. now right.
Qed.
Lemma made_from_complete skipped made hs subs h : made_from skipped made hs subs -> In h hs -> skipped h \/ exists sub, In sub subs /\ made h sub.
Proof.
  induction 1 as [|h0 hs subs Hs H IH|h0 hs sub subs Hm H IH]; intros Hin; [destruct Hin| |]; destruct Hin as [->|Hin].
  - now left.
  - auto.
  - right. exists sub. split; [now left|exact Hm].
  - destruct (IH Hin) as [K|(sub' & K1 & K2)]; [now left|]. right. exists sub'. split; [now right|exact K2].
Qed.
Lemma own_templates_same pass f ts : (forall l t, dget (fixer_templates f) l = Some t -> t_template t <> []) -> dict_ok (fixer_templates f) ->
  own_templates pass f ts -> ts = fixer_templates f.
Proof.
  unfold own_templates. generalize (fixer_templates f). intros d Hn Hd F.
  assert (K : forall l t, In (l, t) d -> t_template t <> []) by (intros l t Hin; apply (Hn l); now apply In_dget).
  clear Hn Hd. induction F as [|[x u] [y w] d1 d2 [E1 E2] F IH]; [reflexivity|]. cbn [fst snd] in *. subst y. f_equal.
  - f_equal. destruct E2 as [E2|[E2 _]]; [exact E2|]. exfalso. apply (K x u); [now left|exact E2].
  - apply IH. intros l t Hin. apply (K l). now right.
Qed.

Section Search.
  Variable parse_ast : text -> text -> res parsed_file.
  Variable context : parsed_file -> pyinfo -> env.
  Variable pass_template : template.

  Lemma thorough fs s parsed info e subs q c f Q :
    combining_fixer parse_ast context pass_template fs = Ok s -> Forall plain_fixer fs -> (forall g, In g fs -> decisive e g) ->
    pf_py parsed = Some info -> e = context parsed info -> e_parsed e = parsed ->
    (forall v a b, PatternSpec.inside (e_tree e) v -> m_span (create_match (e_parsed e) v) = Some (a, b) -> 0 <= a) ->
    s_find s parsed = Ok subs ->
    at_path (e_tree e) q = Some c -> In f fs -> spots e f Q -> Q c ->
    dealt_with e fs subs q.
  Proof.
    intros Hc HP HD P2 P3 P5 Hs0 Hs Hat Hf Hsp HQ.
    destruct (combined_finds _ _ _ _ _ _ _ Hc HP Hs) as (info' & ms & hs & Ei & Hms & Hfd & Hmade).
    rewrite P2 in Ei. injection Ei as <-. rewrite <- P3 in *.
    pose proof (mapM_Forall2 _ _ _ Hms) as HF.
    assert (From : forall m, In m ms -> exists g, In g fs /\ matcher_with_meta g = Ok m).
    { intros m Hin. clear - HF Hin. induction HF as [|g m' fs ms Hg HF IH]; [destruct Hin|]. destruct Hin as [->|Hin]; [exists g; split; [now left|exact Hg]|].
      destruct (IH Hin) as (g' & A & B). exists g'. split; [now right|exact B]. }
    assert (To : exists m, In m ms /\ matcher_with_meta f = Ok m).
    { clear - HF Hf. induction HF as [|g m' fs ms Hg HF IH]; [destruct Hf|]. destruct Hf as [->|Hf]; [exists m'; split; [now left|exact Hg]|].
      destruct (IH Hf) as (m & A & B). exists m. split; [now right|exact B]. }
    assert (Tot : forall d v a s, PatternSpec.inside (e_tree e) v -> In a (map (fun m => eval (with_done e d) m v) (filter (fun m => admits (type_filter m) (vtype v)) ms)) ->
      exists s' o, a s = (s', Ok o)).
    { intros d v a s0 Iv Hin. apply in_map_iff in Hin as (m & <- & Hin). apply filter_In in Hin as [Hin _]. destruct (From m Hin) as (g & Hg & Eg).
      destruct (HD g Hg) as [Hd _]. destruct (Hd m d v s0 Eg Iv) as (s' & o & E & _). eauto. }
    destruct (fd_complete _ _ _ Hfd q c Hat) as [(h & Hh & Hun)|[(hs1 & v & ran & _ & Hv & Ha)|(q' & _ & (hs1 & v & ran & _ & Hv & Ha) & _)]].
    - pose proof Hh as Hh'. apply in_split in Hh' as (h1 & h2 & Eh). destruct (fd_match _ _ _ Hfd h1 h h2 Eh) as [Hat' _].
      assert (Use : forall g mb ts, by_fixer pass_template e fs h g mb ts ->
        In g fs /\ matches_here e g (h_value h) mb /\ ts = fixer_templates g /\ dget mb (TX "__root") = Some (create_match (e_parsed e) (h_value h))).
      { intros g mb ts ((d & Hff) & (Dmb & b & Eb & Hmb) & Hts). destruct (first_fixer_matches _ _ _ _ _ _ _ Hff) as [Hg (s1 & m0 & Hm0 & He)].
        destruct (HD g Hg) as [Hd Hn]. rewrite Forall_forall in HP.
        assert (Hmb' : forall l, dget mb l = option_map b_value (dget b l)).
        { intros l. destruct (Hmb l) as [E|(v & txt & f1 & l1 & a1 & b1 & f2 & l2 & a2 & b2 & t & E1 & E2 & _)]; [exact E|]. exfalso. exact (Hn _ _ E1 E2). }
        split; [exact Hg|]. split; [|split].
        - exists m0, d, s1, (h_ran h), (h_result h), b. auto 6.
        - apply (own_templates_same pass_template); auto. apply fixer_templates_ok. auto.
        - destruct (Hd m0 d (h_value h) s1 Hm0 (ex_intro _ _ Hat')) as (s' & o & E & Rt). rewrite He in E. injection E as <- <-.
          rewrite Hmb'. apply (Rt (h_result h)); auto. }
      destruct (made_from_complete _ _ _ _ _ Hmade Hh) as [(g & mb & ts & l & Hby & Hfi)|(sub & Hin & g & mb & ts & Hby & Hde & Hca)]; destruct (Use g mb ts Hby) as (Hg & Hm & -> & Rt).
      + exists (h_path h), (h_value h), g, mb. do 4 (split; [assumption|]). right. exists l. rewrite P5. exact Hfi.
      + exists (h_path h), (h_value h), g, mb. do 4 (split; [assumption|]). left. exists sub. do 2 (split; [assumption|]).
        intros [a b] Sp. destruct Hde as (Hspans & _). apply Hspans. exists (create_match (e_parsed e) (h_value h)). split; [now apply dget_In|]. split; [exact Sp|].
        intros [= -> _]. specialize (Hs0 _ _ _ (ex_intro _ _ Hat') Sp). lia.
    - exfalso. rewrite Hat in Hv. injection Hv as <-. destruct To as (m & Hm & Em).
      set (d := done_after [] hs1) in *.
      assert (Hit : exists s' r, eval (with_done e d) (MAnyOf ms) c [] = (s', Ok (Some r))).
      { rewrite eval_anyof. apply (first_of_hits _ _ (eval (with_done e d) m c)).
        - intros a s0. apply Tot. now exists q.
        - apply in_map_iff. exists m. split; [reflexivity|]. apply filter_In. split; [exact Hm|].
          destruct (Hsp m d c [] Em (ex_intro _ _ Hat) HQ) as (s' & r & E). eapply type_filter_sound. exact E.
        - intros s0. apply (Hsp m d c s0 Em (ex_intro _ _ Hat) HQ). }
      destruct Hit as (s' & r & E). unfold attempt in Ha. rewrite (type_filter_sound _ _ _ _ _ _ E), E in Ha. discriminate Ha.
    - exfalso. unfold attempt in Ha. destruct (admits _ _); [|discriminate Ha]. rewrite eval_anyof in Ha.
      destruct (first_of_total (map (fun m => eval (with_done e (done_after [] hs1)) m v) (filter (fun m => admits (type_filter m) (vtype v)) ms)) []) as (s' & o & E).
      + intros a s0. apply Tot. now exists q'.
      + rewrite E in Ha. discriminate Ha.
  Qed.
End Search.
