From Verif Require Import Py PyFacts Subst Ast Search Codec Runner Cli CliSpec.

Definition step (o : opt) (d : dict text) : option (dict text) :=
  match o with
  | OMatch _ => None
  | OSub v => match set_sub v (SR None d) with Some sr => Some (sr_sub sr) | None => None end
  | ONamed v => match add_named v (SR None d) with Some sr => Some (sr_sub sr) | None => None end
  end.
Fixpoint steps (os : list opt) (d : dict text) : option (dict text) :=
  match os with
  | [] => Some d
  | o :: rest => match step o d with Some d' => steps rest d' | None => None end
  end.

Lemma update_last_snoc f l x : update_last f (l ++ [x]) = match f x with Some y => Some (l ++ [y]) | None => None end.
Proof.
  induction l as [|z l IH]; cbn; [now destruct (f x)|]. destruct (l ++ [x]) eqn:E; [now destruct l|].
  rewrite IH. now destruct (f x).
Qed.
Lemma last_match_snoc l x : last_match (l ++ [x]) = sr_match x.
Proof. unfold last_match. now rewrite rev_app_distr. Qed.

Lemma action_sub l m d o : ~ is_match_opt o ->
  action o (l ++ [SR m d]) = match step o d with Some d' => Some (l ++ [SR m d']) | None => None end.
Proof.
  intro Ho. destruct o as [v|v|v]; [destruct (Ho I)| |]; cbn [action step]; rewrite update_last_snoc.
  - unfold set_sub. cbn [sr_sub sr_match]. now destruct d.
  - unfold add_named. cbn [sr_sub sr_match]. destruct (dmem d ROOT_LABEL); [reflexivity|].
    destruct (partition_char EQUALS v) as [[n s] p]. destruct (negb s); [reflexivity|]. now destruct (dmem d n).
Qed.
Lemma actions_seg seg : Forall (fun o => ~ is_match_opt o) seg -> forall l m d rest,
  actions (seg ++ rest) (l ++ [SR m d])
  = match steps seg d with Some d' => actions rest (l ++ [SR m d']) | None => None end.
Proof.
  induction 1 as [|o seg Ho _ IH]; intros l m d rest; cbn [app actions steps]; [reflexivity|].
  rewrite action_sub by assumption. destruct (step o d); [apply IH|reflexivity].
Qed.

Lemma partition_some c v n p : partition_char c v = (n, true, p) <-> ~ In c n /\ v = n ++ [c] ++ p.
Proof.
  split.
  - revert n p. induction v as [|x v IH]; intros n p; cbn; [intro H; discriminate|].
    destruct (Z.eqb_spec x c) as [->|Hx].
    + intro H. injection H as <- <-. split; [tauto|reflexivity].
    + destruct (partition_char c v) as [[n' s'] p'] eqn:E. intro H. injection H as <- -> <-.
      destruct (IH _ _ eq_refl) as [H1 ->]. split; [intros [->|]; auto|reflexivity].
  - intros [H ->]. induction n as [|x n IH]; cbn; [now rewrite Z.eqb_refl|].
    destruct (Z.eqb_spec x c) as [->|]; [exfalso; apply H; now left|].
    cbn [app] in IH. rewrite IH; [reflexivity|]. intro. apply H. now right.
Qed.

Lemma dset_absent {V} (d : dict V) k v : dmem d k = false -> dset d k v = d ++ [(k, v)].
Proof.
  unfold dmem. induction d as [|[k' v'] d IH]; cbn; [reflexivity|].
  destruct (text_eqb k' k); [discriminate|]. intro H. rewrite IH; [reflexivity|assumption].
Qed.
Lemma dmem_false {V} (d : dict V) k : dmem d k = false <-> ~ In k (dkeys d).
Proof. rewrite <- dmem_keys. destruct (dmem d k); intuition congruence. Qed.

Definition named (np : text * text) : opt := ONamed (fst np ++ [EQUALS] ++ snd np).

Lemma step_named v d d' : step (ONamed v) d = Some d' <->
  exists n p, v = n ++ [EQUALS] ++ p /\ ~ In EQUALS n /\ ~ In ROOT_LABEL (dkeys d) /\ ~ In n (dkeys d)
              /\ d' = d ++ [(n, p)].
Proof.
  cbn [step]. unfold add_named. cbn [sr_sub sr_match].
  destruct (dmem d ROOT_LABEL) eqn:Er.
  { split; [discriminate|]. intros (n & p & _ & _ & H & _). apply dmem_false in H. congruence. }
  apply dmem_false in Er. destruct (partition_char EQUALS v) as [[n s] p] eqn:Ep.
  destruct s; cbn [negb].
  - apply partition_some in Ep. destruct Ep as [Hn Hv]. destruct (dmem d n) eqn:En.
    + split; [discriminate|]. intros (n' & p' & Hv' & Hn' & _ & Hd & _).
      assert (E : (n, true, p) = (n', true, p')).
      { rewrite <- (proj2 (partition_some EQUALS v n p)) by auto. apply partition_some. auto. }
      injection E as -> ->. apply dmem_false in Hd. congruence.
    + cbn [sr_sub]. rewrite (dset_absent _ _ _ En). apply dmem_false in En. split.
      * intros [= <-]. exists n, p. auto 6.
      * intros (n' & p' & Hv' & Hn' & _ & Hd & ->).
        assert (E : (n, true, p) = (n', true, p')).
        { rewrite <- (proj2 (partition_some EQUALS v n p)) by auto. apply partition_some. auto. }
        injection E as -> ->. reflexivity.
  - split; [discriminate|]. intros (n' & p' & Hv' & Hn' & _).
    assert (E : partition_char EQUALS v = (n', true, p')) by (apply partition_some; auto). congruence.
Qed.

Lemma keys_app {V} (a b : dict V) : dkeys (a ++ b) = dkeys a ++ dkeys b.
Proof. apply map_app. Qed.

(** From a non-empty dictionary. *)
Lemma steps_more seg : Forall (fun o => ~ is_match_opt o) seg -> forall d0 d, d0 <> [] -> NoDup (dkeys d0) ->
  (steps seg d0 = Some d <->
   exists nps, seg = map named nps /\ d = d0 ++ nps /\ NoDup (dkeys d)
     /\ (nps <> [] -> ~ In ROOT_LABEL (dkeys (removelast d))) /\ Forall (fun np : text * text => ~ In EQUALS (fst np)) nps).
Proof.
  induction 1 as [|o seg Ho _ IH]; intros d0 d Hne Hnd; cbn [steps].
  - split.
    + intros [= <-]. exists []. rewrite app_nil_r. repeat split; auto; congruence.
    + intros (nps & H & -> & _). destruct nps; [now rewrite app_nil_r|discriminate].
  - destruct o as [v|v|v]; [destruct (Ho I)| |].
    + assert (E : step (OSub v) d0 = None) by (destruct d0; [congruence|reflexivity]). rewrite E.
      split; [discriminate|]. intros ([|np nps] & H & _); discriminate.
    + destruct (step (ONamed v) d0) as [d1|] eqn:E.
      * apply step_named in E. destruct E as (n & p & -> & Hn & Hr & Hk & ->).
        assert (Hnd1 : NoDup (dkeys (d0 ++ [(n, p)]))).
        { rewrite keys_app. apply NoDup_snoc; assumption. }
        rewrite IH; [|now destruct d0|assumption]. split.
        -- intros (nps & -> & -> & H1 & H2 & H3). exists ((n, p) :: nps). split; [reflexivity|].
           rewrite <- app_assoc in *. cbn [app] in *. split; [reflexivity|]. split; [assumption|]. split; [|now constructor].
           intros _. destruct nps as [|np nps]; [|apply H2; discriminate].
           rewrite removelast_app by discriminate. cbn. rewrite app_nil_r. assumption.
        -- intros ([|[n' p'] nps] & H & -> & H1 & H2 & H3); [discriminate|]. cbn [map named] in H. cbn [fst snd] in H.
           injection H as H ->. inversion H3 as [|? ? H31 H32]; subst. cbn [fst] in H31.
           assert (Ee : (n, true, p) = (n', true, p')).
           { transitivity (partition_char EQUALS (n ++ EQUALS :: p)); [symmetry; apply partition_some; auto|].
             rewrite H. apply partition_some. auto. }
           injection Ee as <- <-. exists nps. split; [reflexivity|]. rewrite <- app_assoc. cbn [app].
           split; [reflexivity|]. split; [assumption|]. split; [|assumption]. intros _. apply H2. discriminate.
      * split; [discriminate|]. intros ([|[n p] nps] & H & -> & H1 & H2 & H3); [discriminate|]. exfalso.
        cbn [map named fst snd] in H. injection H as -> ->. inversion H3 as [|? ? H31 _]; subst.
        assert (Hs : step (ONamed (n ++ EQUALS :: p)) d0 = Some (d0 ++ [(n, p)])); [|congruence].
        apply step_named. exists n, p. split; [reflexivity|]. split; [exact H31|]. split; [|split; [|reflexivity]].
        -- intro Hin. apply H2; [discriminate|]. rewrite removelast_app by discriminate. rewrite keys_app.
           apply in_or_app. now left.
        -- rewrite keys_app in H1. cbn in H1. intro Hin. apply NoDup_remove_2 in H1. apply H1. apply in_or_app. now left.
Qed.

Lemma seg_sub_inv os d : seg_sub os d ->
  (exists v, os = [OSub v] /\ d = [(ROOT_LABEL, v)])
  \/ (os = map named d /\ NoDup (dkeys d) /\ ~ In ROOT_LABEL (dkeys (removelast d))
      /\ Forall (fun np : text * text => ~ In EQUALS (fst np)) d).
Proof.
  intros [|v|nps H1 H2 H3]; [right; cbn; repeat split; try constructor; tauto|left; eauto|right; auto].
Qed.

Lemma steps_spec seg d : Forall (fun o => ~ is_match_opt o) seg -> (steps seg [] = Some d <-> seg_sub seg d).
Proof.
  intro HF. inversion HF as [|o seg' Ho HF' Heq]; subst.
  - cbn. split; [intros [= <-]; constructor|]. intro H. remember (@nil opt) as os eqn:Eo. destruct H as [|v|nps H1 H2 H3]; [reflexivity|discriminate|].
    destruct nps; [reflexivity|discriminate].
  - cbn [steps]. destruct o as [v|v|v]; [destruct (Ho I)| |].
    + cbn [step set_sub sr_sub sr_match].
      rewrite (steps_more seg' HF' [(ROOT_LABEL, v)] d); [|discriminate|cbn; repeat constructor; tauto]. split.
      * intros (nps & -> & -> & _ & H & _). destruct nps as [|np nps]; [constructor|].
        exfalso. apply H; [discriminate|]. cbn. destruct (nps); now left.
      * intro H. apply seg_sub_inv in H. destruct H as [(v' & [= -> ->] & ->)|(H4 & _)].
        -- exists []. repeat split; auto; try congruence. cbn. repeat constructor. tauto.
        -- destruct d; discriminate.
    + destruct (step (ONamed v) []) as [d1|] eqn:E.
      * apply step_named in E. destruct E as (n & p & -> & Hn & _ & _ & ->). cbn [app].
        rewrite (steps_more seg' HF' [(n, p)] d); [|discriminate|cbn; repeat constructor; tauto]. split.
        -- intros (nps & -> & -> & H1 & H2 & H3). apply (Seg_named ((n, p) :: nps)); [exact H1| |now constructor].
           destruct nps; [cbn; tauto|]. apply H2. discriminate.
        -- intro H. apply seg_sub_inv in H. destruct H as [(v' & H4 & _)|(H4 & H1 & H2 & H3)]; [discriminate|].
           destruct d as [|[n' p'] nps]; [discriminate|].
           unfold named in H4. cbn [map fst snd] in H4. injection H4 as H4 ->. inversion H3 as [|? ? H31 H32]; subst. cbn [fst] in H31.
           assert (Ee : (n, true, p) = (n', true, p')).
           { transitivity (partition_char EQUALS (n ++ EQUALS :: p)); [symmetry; apply partition_some; auto|].
             rewrite H4. apply partition_some. auto. }
           injection Ee as <- <-. exists nps. repeat split; auto. 
      * split; [discriminate|]. intro H. exfalso. apply seg_sub_inv in H. destruct H as [(v' & H4 & _)|(H4 & H1 & H2 & H3)]; [discriminate|].
        destruct d as [|[n' p'] nps]; [discriminate|]. unfold named in H4. cbn [map fst snd] in H4. injection H4 as H4 _.
        inversion H3 as [|? ? H31 H32]; subst. cbn [fst] in H31.
        assert (Hs : step (ONamed (n' ++ EQUALS :: p')) [] = Some [(n', p')]); [|congruence].
        apply step_named. exists n', p'. repeat split; auto.
Qed.

Lemma actions_groups gs : Forall (fun g => Forall (fun o => ~ is_match_opt o) (snd g)) gs -> forall l m d srs,
  actions (flat_map (fun g : text * list opt => OMatch (fst g) :: snd g) gs) (l ++ [SR (Some m) d]) = Some srs <->
  exists srs', srs = l ++ SR (Some m) d :: srs'
    /\ Forall2 (fun g sr => sr_match sr = Some (fst g) /\ seg_sub (snd g) (sr_sub sr)) gs srs'.
Proof.
  induction 1 as [|[v seg] gs Hseg _ IH]; intros l m d srs; cbn [flat_map actions].
  - split; [intros [= <-]; exists []; auto|]. intros (srs' & -> & H). inversion H. reflexivity.
  - cbn [fst snd app actions action] in *. rewrite last_match_snoc. cbn [sr_match].
    rewrite (actions_seg seg Hseg (l ++ [SR (Some m) d]) (Some v) []).
    destruct (steps seg []) as [d'|] eqn:E.
    + apply steps_spec in E; [|assumption]. rewrite IH. split.
      * intros (srs' & -> & HF). exists (SR (Some v) d' :: srs'). rewrite <- app_assoc. split; [reflexivity|].
        constructor; [cbn; auto|assumption].
      * intros (srs' & -> & HF). inversion HF as [|? sr ? srs'' [H1 H2] HF2]; subst.
        exists srs''. rewrite <- app_assoc. split; [|assumption]. cbn [app]. do 3 f_equal.
        destruct sr as [m' d'']. cbn in *. subst m'. f_equal.
        apply steps_spec in E, H2; try assumption. congruence.
    + split; [discriminate|]. intros (srs' & -> & HF). inversion HF as [|? sr ? srs'' [H1 H2] HF2]; subst.
      apply steps_spec in H2; [|assumption]. cbn [snd] in H2. congruence.
Qed.

Lemma steps_app a b d : steps (a ++ b) d = match steps a d with Some d' => steps b d' | None => None end.
Proof. revert d. induction a as [|o a IH]; intro d; cbn; [reflexivity|]. destruct (step o d); auto. Qed.

Lemma actions_spec pre gs srs : no_matches pre gs ->
  (actions (cmdline pre gs) no_search_replace = Some srs <-> means pre gs srs).
Proof.
  intros [Hp Hg]. unfold cmdline, no_search_replace.
  rewrite (actions_seg pre Hp [] None []). cbn [app].
  destruct gs as [|[v seg] gs]; cbn [flat_map means actions].
  - destruct (steps pre []) as [d|] eqn:E.
    + apply steps_spec in E; [|assumption]. split; [intros [= <-]; eauto|].
      intros (d' & Hd & ->). apply steps_spec in E, Hd; try assumption. congruence.
    + split; [discriminate|]. intros (d' & Hd & _). apply steps_spec in Hd; [|assumption]. congruence.
  - inversion Hg as [|? ? Hseg Hg']; subst. cbn [fst snd] in *.
    assert (Hps : Forall (fun o => ~ is_match_opt o) (pre ++ seg)) by (apply Forall_app; auto).
    destruct (steps pre []) as [d|] eqn:E.
    + cbn [app actions action]. unfold last_match. cbn [rev app sr_match update_last sr_sub].
      rewrite (actions_seg seg Hseg [] (Some v) d). cbn [app].
      destruct (steps seg d) as [d'|] eqn:E2.
      * assert (Es : steps (pre ++ seg) [] = Some d') by (rewrite steps_app, E; exact E2).
        pose proof (actions_groups gs Hg' [] v d' srs) as HA. cbn [app] in HA. rewrite HA. split.
        -- intros (srs' & -> & HF). exists d', srs'. split; [now apply steps_spec|]. auto.
        -- intros (d'' & srs' & Hd & -> & HF). exists srs'. split; [|assumption].
           apply steps_spec in Hd; [|assumption]. congruence.
      * split; [discriminate|]. intros (d'' & srs' & Hd & _). apply steps_spec in Hd; [|assumption].
        rewrite steps_app, E in Hd. congruence.
    + split; [discriminate|]. intros (d'' & srs' & Hd & _). apply steps_spec in Hd; [|assumption].
      rewrite steps_app, E in Hd. discriminate.
Qed.

(** Every option list is a command line. *)
Lemma cmdline_exists os : exists pre gs, os = cmdline pre gs /\ no_matches pre gs.
Proof.
  unfold cmdline, no_matches. induction os as [|o os (pre & gs & -> & H1 & H2)]; [exists [], []; repeat split; constructor|].
  destruct o as [v|v|v].
  - exists [], ((v, pre) :: gs). split; [reflexivity|]. split; [constructor|]. now constructor.
  - exists (OSub v :: pre), gs. split; [reflexivity|]. split; [|assumption]. constructor; [intros []|assumption].
  - exists (ONamed v :: pre), gs. split; [reflexivity|]. split; [|assumption]. constructor; [intros []|assumption].
Qed.

(** *** Leftovers *)
Lemma split_leftovers_spec pre rest :
  Forall (fun a => a <> TX "--") pre -> rest = [] \/ (exists post, rest = TX "--" :: post) ->
  split_leftovers (pre ++ rest)
  = (filter (fun a => negb (startswith [DASH] a)) pre ++ tl rest, filter (startswith [DASH]) pre).
Proof.
  intros H Hr. induction H as [|a pre Ha _ IH]; cbn [app split_leftovers filter].
  - destruct Hr as [->|(post & ->)]; [reflexivity|]. cbn [split_leftovers]. rewrite text_eqb_refl. reflexivity.
  - destruct (text_eqb a (TX "--")) eqn:E; [apply text_eqb_eq in E; congruence|]. rewrite IH.
    destruct (startswith [DASH] a); reflexivity.
Qed.
Lemma filter_none {A} (f : A -> bool) l : Forall (fun x => f x = false) l -> filter f l = [].
Proof. induction 1 as [|x l Hx _ IH]; cbn; [reflexivity|]. now rewrite Hx. Qed.
Lemma filter_all {A} (f : A -> bool) l : Forall (fun x => f x = true) l -> filter f l = l.
Proof. induction 1 as [|x l Hx _ IH]; cbn; [reflexivity|]. rewrite Hx. congruence. Qed.

Lemma parse_leftovers_spec pre rest :
  Forall (fun a => a <> TX "--") pre -> rest = [] \/ (exists post, rest = TX "--" :: post) ->
  forall files, parse_leftovers (pre ++ rest) = Some files <->
    Forall (fun a => startswith [DASH] a = false) pre /\ files = pre ++ tl rest.
Proof.
  intros H Hr files. unfold parse_leftovers. rewrite (split_leftovers_spec pre rest H Hr).
  destruct (filter (startswith [DASH]) pre) as [|x l] eqn:E.
  - assert (HF : Forall (fun a => startswith [DASH] a = false) pre).
    { apply Forall_forall. intros a Ha. destruct (startswith [DASH] a) eqn:Ea; [|reflexivity].
      assert (Hin : In a (filter (startswith [DASH]) pre)) by (apply filter_In; auto). rewrite E in Hin. destruct Hin. }
    rewrite filter_all by (eapply Forall_impl; [|exact HF]; cbn; intros a ->; reflexivity).
    split; [intros [= <-]; auto|]. intros [_ ->]. reflexivity.
  - split; [discriminate|]. intros [HF _]. rewrite filter_none in E by assumption. discriminate.
Qed.
Lemma leftovers_split unknown : exists pre rest, unknown = pre ++ rest
  /\ Forall (fun a => a <> TX "--") pre /\ (rest = [] \/ exists post, rest = TX "--" :: post).
Proof.
  induction unknown as [|a l (pre & rest & -> & H1 & H2)]; [exists [], []; auto|].
  destruct (text_eq_dec a (TX "--")) as [->|Hne].
  - exists [], (TX "--" :: pre ++ rest). split; [reflexivity|]. split; [constructor|]. right. eauto.
  - exists (a :: pre), rest. split; [reflexivity|]. split; [now constructor|assumption].
Qed.

Lemma parse_options_spec pre gs pattern unknown srs args : no_matches pre gs ->
  (parse_options (cmdline pre gs) pattern unknown = Some (srs, args) <->
   exists srs0 left, means pre gs srs0 /\ parse_leftovers unknown = Some left /\
     match pattern with
     | None => srs = srs0 /\ args = left
     | Some p =>
         match gs with
         | [] => exists d, srs0 = [SR None d] /\ srs = [SR (Some p) d] /\ args = left
         | _ => srs = srs0 /\ args = p :: left
         end
     end).
Proof.
  intro Hn. unfold parse_options. pose proof (actions_spec pre gs) as HA.
  destruct (actions (cmdline pre gs) no_search_replace) as [srs0|] eqn:E.
  2:{ split; [discriminate|]. intros (srs0 & left & Hm & _). apply (HA srs0 Hn) in Hm. congruence. }
  assert (Hm : means pre gs srs0) by (apply HA; auto).
  assert (Hu : forall srs1, means pre gs srs1 -> srs1 = srs0) by (intros srs1 H1; apply (HA srs1 Hn) in H1; congruence).
  destruct (parse_leftovers unknown) as [left|] eqn:El.
  2:{ split; [discriminate|]. intros (s1 & left & _ & H & _). discriminate. }
  destruct pattern as [p|].
  - destruct gs as [|[v seg] gs].
    + destruct Hm as (d & Hd & ->). split.
      * intros [= <- <-]. exists [SR None d], left. split; [exists d; auto|]. split; [reflexivity|]. eauto.
      * intros (s1 & l1 & Hm1 & [= <-] & d' & -> & -> & ->). apply Hu in Hm1. injection Hm1 as ->. reflexivity.
    + destruct Hm as (d & srs' & Hd & -> & HF).
      cbv iota. split.
      * intros [= <- <-]. exists (SR (Some v) d :: srs'), left. split; [exists d, srs'; auto|]. auto.
      * intros (s1 & l1 & Hm1 & [= <-] & -> & ->). apply Hu in Hm1. congruence.
  - split.
    + intros [= <- <-]. exists srs0, left. auto.
    + intros (s1 & l1 & Hm1 & [= <-] & -> & ->). apply Hu in Hm1. congruence.
Qed.
