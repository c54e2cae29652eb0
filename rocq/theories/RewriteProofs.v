(** C32: from a match dictionary to a Substitution; C45: regex templates. *)
From Verif Require Import Py PyFacts Regex Subst Fmt ApplySpec SubstSpec SubstProofs Ast Template
  Search SearchSpec SearchProofs.

Lemma no_span_spec m : no_span (m_span m) = false <-> exists sp, m_span m = Some sp /\ sp <> (-1, -1).
Proof.
  unfold no_span. destruct (m_span m) as [[a b]|].
  - unfold span_eqb. cbn. split.
    + intro H. exists (a, b). split; [reflexivity|]. intro E. injection E as -> ->. discriminate.
    + intros (sp & E & Hne). injection E as <-. destruct ((a =? -1) && (b =? -1)) eqn:E; [|reflexivity].
      exfalso. apply Hne. f_equal; lia.
  - split; [discriminate|]. intros (sp & E & _). discriminate.
Qed.

Section RT.
  Variable parsed : parsed_file.
  Variable ms : dict pymatch.
  Hypothesis Hms : dict_ok ms.

  (** What filling in one template amounts to: [None] if the label is left out. *)
  Definition fill1 (l : label) (t : template) : option (res text) :=
    match dget ms l with
    | Some m => if no_span (m_span m) then None else Some (t_substitute t parsed m ms)
    | None => if is_int_label l then Some (Err AttributeError)
              else if startswith dunder l then Some (t_substitute t parsed PMatch ms) else None
    end.

  Lemma rewrite_templates_cons l t rest :
    rewrite_templates parsed ms ((l, t) :: rest)
    = match fill1 l t with
      | None => rewrite_templates parsed ms rest
      | Some r => do s <- r; do d <- rewrite_templates parsed ms rest; Ok ((l, s) :: d)
      end.
  Proof.
    cbn [rewrite_templates]. unfold fill1. destruct (dget ms l) as [m|].
    - destruct (no_span (m_span m)); reflexivity.
    - destruct (is_int_label l); [reflexivity|]. destruct (startswith dunder l); reflexivity.
  Qed.

  Lemma absent_iff l : dget ms l = None <-> forall m, ~ In (l, m) ms.
  Proof.
    split.
    - intros H m Hm. apply In_dget in Hm; [|exact Hms]. congruence.
    - intro H. destruct (dget ms l) as [m|] eqn:E; [|reflexivity]. apply dget_In in E. now apply H in E.
  Qed.

  Lemma int_label_not_dunder l : is_int_label l = true -> startswith (TX "__") l = false.
  Proof.
    destruct l as [|x l]; [discriminate|]. cbn. intro H. replace x with (-1) by lia. reflexivity.
  Qed.

  Definition bad_int (ts : dict template) : Prop :=
    exists l t, In (l, t) ts /\ is_int_label l = true /\ forall m, ~ In (l, m) ms.

  Lemma fill1_fills ts l t r : In (l, t) ts -> fill1 l t = Some r ->
    fills parsed ms ts l r \/ (bad_int ts /\ r = Err AttributeError).
  Proof.
    intros Hin H. unfold fill1 in H. destruct (dget ms l) as [m|] eqn:Ed.
    - destruct (no_span (m_span m)) eqn:En; [discriminate|]. injection H as <-. left.
      exists t. split; [exact Hin|]. left. exists m. split; [now apply dget_In|].
      split; [now apply no_span_spec|reflexivity].
    - pose proof (proj1 (absent_iff l) Ed) as Ha. destruct (is_int_label l) eqn:Ei.
      + injection H as <-. right. split; [exists l, t; auto|reflexivity].
      + destruct (startswith dunder l) eqn:Es; [|discriminate]. injection H as <-. left.
        exists t. split; [exact Hin|]. right. auto.
  Qed.
  Lemma fills_fill1 ts l r : dict_ok ts -> fills parsed ms ts l r ->
    exists t, dget ts l = Some t /\ fill1 l t = Some r.
  Proof.
    intros Hts (t & Hin & H). exists t. split; [now apply In_dget|]. unfold fill1.
    destruct H as [(m & Hm & Hsp & ->)|(Ha & Hs & ->)].
    - apply In_dget in Hm; [|exact Hms]. rewrite Hm. apply no_span_spec in Hsp. now rewrite Hsp.
    - apply absent_iff in Ha. rewrite Ha. destruct (is_int_label l) eqn:Ei.
      + apply int_label_not_dunder in Ei. congruence.
      + change dunder with (TX "__"). now rewrite Hs.
  Qed.

  Lemma rewrite_ok_get ts reps : dict_ok ts -> rewrite_templates parsed ms ts = Ok reps ->
    dict_ok reps /\ incl (dkeys reps) (dkeys ts)
    /\ (forall l t, In (l, t) ts -> fill1 l t = match dget reps l with Some x => Some (Ok x) | None => None end).
  Proof.
    revert reps; induction ts as [|[l t] ts IH]; intros reps Hts H.
    - injection H as <-. split; [constructor|]. split; [intros x []|]. intros l t [].
    - rewrite rewrite_templates_cons in H. unfold dict_ok in Hts. cbn [dkeys map fst] in Hts.
      inversion Hts as [|? ? Hni Hts']; subst.
      destruct (fill1 l t) as [r|] eqn:Ef.
      + destruct r as [s|]; cbn [bind] in H; [|discriminate].
        destruct (rewrite_templates parsed ms ts) as [d|] eqn:Er; cbn [bind] in H; [|discriminate].
        injection H as <-. destruct (IH d Hts' eq_refl) as (I1 & I2 & I3). split; [|split].
        * unfold dict_ok. cbn. constructor; [|exact I1]. intro Hc. apply I2 in Hc. contradiction.
        * intros x [<-|Hx]; cbn; [auto|]. right. now apply I2.
        * intros l' t' [E|Hin].
          -- injection E as <- <-. cbn [dget]. rewrite text_eqb_refl. exact Ef.
          -- cbn [dget]. destruct (text_eqb_spec l l') as [<-|Hne].
             ++ exfalso. apply Hni. unfold dkeys. apply in_map_iff. exists (l, t'). auto.
             ++ now apply I3.
      + destruct (IH reps Hts' H) as (I1 & I2 & I3). split; [exact I1|]. split.
        * intros x Hx. cbn. right. now apply I2.
        * intros l' t' [E|Hin]; [|now apply I3]. injection E as <- <-. rewrite Ef.
          destruct (dget reps l) as [x|] eqn:Ed; [|reflexivity].
          exfalso. apply Hni, I2. apply dget_In in Ed. unfold dkeys. apply in_map_iff. exists (l, x). auto.
  Qed.

  Lemma rewrite_ok ts reps : dict_ok ts -> rewrite_templates parsed ms ts = Ok reps ->
    dict_ok reps
    /\ (forall l t, dget reps l = Some t <-> fills parsed ms ts l (Ok t))
    /\ (forall l e, ~ fills parsed ms ts l (Err e)) /\ ~ bad_int ts.
  Proof.
    intros Hts H. destruct (rewrite_ok_get ts reps Hts H) as (I1 & I2 & I3).
    split; [exact I1|]. split; [|split].
    - intros l t. split.
      + intro Hd. assert (Hk : In l (dkeys ts)).
        { apply I2. apply dget_In in Hd. unfold dkeys. apply in_map_iff. exists (l, t). auto. }
        unfold dkeys in Hk. apply in_map_iff in Hk. destruct Hk as ([l' tm] & E & Hin). cbn in E. subst l'.
        specialize (I3 l tm Hin). rewrite Hd in I3.
        destruct (fill1_fills ts l tm _ Hin I3) as [Hf|[_ E]]; [exact Hf|discriminate].
      + intro Hf. apply fills_fill1 in Hf; [|exact Hts]. destruct Hf as (tm & Hg & Hf).
        rewrite (I3 l tm (dget_In _ _ _ Hg)) in Hf. destruct (dget reps l); congruence.
    - intros l e Hf. apply fills_fill1 in Hf; [|exact Hts]. destruct Hf as (tm & Hg & Hf).
      rewrite (I3 l tm (dget_In _ _ _ Hg)) in Hf. destruct (dget reps l); congruence.
    - intros (l & tm & Hin & Hi & Ha). specialize (I3 l tm Hin). unfold fill1 in I3.
      apply absent_iff in Ha. rewrite Ha, Hi in I3. destruct (dget reps l); congruence.
  Qed.

  Lemma fills_cons l0 t0 ts l r : fills parsed ms ts l r -> fills parsed ms ((l0, t0) :: ts) l r.
  Proof. intros (t & Hin & H). exists t. split; [now right|exact H]. Qed.

  Lemma rewrite_err ts e : rewrite_templates parsed ms ts = Err e ->
    (exists l, fills parsed ms ts l (Err e)) \/ (bad_int ts /\ e = AttributeError).
  Proof.
    induction ts as [|[l t] ts IH]; intro H; [discriminate|]. rewrite rewrite_templates_cons in H.
    assert (K : rewrite_templates parsed ms ts = Err e ->
      (exists l0, fills parsed ms ((l, t) :: ts) l0 (Err e)) \/ (bad_int ((l, t) :: ts) /\ e = AttributeError)).
    { intro Hr. destruct (IH Hr) as [(l0 & Hf)|[(l0 & t0 & Hin & Hi & Ha) ->]].
      - left. exists l0. now apply fills_cons.
      - right. split; [|reflexivity]. exists l0, t0. split; [now right|auto]. }
    destruct (fill1 l t) as [r|] eqn:Ef; [|auto].
    destruct r as [s|e']; cbn [bind] in H.
    - destruct (rewrite_templates parsed ms ts) as [d|e'] eqn:Er; cbn [bind] in H; [discriminate|].
      injection H as <-. auto.
    - injection H as <-. destruct (fill1_fills ((l, t) :: ts) l t _ (or_introl eq_refl) Ef) as [Hf|[Hb E]].
      + left. eauto.
      + right. split; [exact Hb|congruence].
  Qed.
End RT.

Lemma located_spec ms l sp : In (l, sp) (located ms) <-> located_at ms l sp.
Proof.
  unfold located, located_at. rewrite in_flat_map. split.
  - intros ([l' m] & Hin & H). cbn [fst snd] in H. destruct (m_span m) as [s|] eqn:Es; [|contradiction].
    destruct (span_eqb s (-1, -1)) eqn:E; [contradiction|]. destruct H as [H|[]]. injection H as <- <-.
    exists m. split; [exact Hin|]. split; [exact Es|]. intros ->. discriminate.
  - intros (m & Hin & Es & Hne). exists (l, m). split; [exact Hin|]. cbn [fst snd]. rewrite Es.
    destruct (span_eqb sp (-1, -1)) eqn:E; [|now left]. exfalso. apply Hne.
    unfold span_eqb in E. destruct sp as [a b]. cbn in E. f_equal; lia.
Qed.
Lemma located_ok ms : dict_ok ms -> dict_ok (located ms).
Proof.
  unfold dict_ok. induction ms as [|[l m] ms IH]; intro H; [constructor|].
  cbn in H. inversion H as [|? ? Hni Hnd]; subst. specialize (IH Hnd). cbn [located flat_map fst snd].
  assert (Hincl : forall x, In x (dkeys (located ms)) -> In x (dkeys ms)).
  { intros x Hx. unfold dkeys in *. apply in_map_iff in Hx. destruct Hx as ([l' sp] & <- & Hx).
    apply located_spec in Hx. destruct Hx as (m' & Hin & _). apply in_map_iff. exists (l', m'). auto. }
  destruct (m_span m) as [sp|]; [|exact IH]. destruct (span_eqb sp (-1, -1)); [exact IH|].
  cbn. constructor; [|exact IH]. intro Hc. apply Hni. now apply Hincl.
Qed.

Lemma dget_ddel_other {V} (d : dict V) k k' : dict_ok d -> k <> k' -> dget (ddel d k) k' = dget d k'.
Proof. intros H Hne. rewrite dget_ddel by exact H. now rewrite (proj2 (text_eqb_neq k k') Hne). Qed.

Lemma sub_of_match_spec parsed ms ts reps key s :
  dict_ok ms -> dict_ok ts -> rewrite_templates parsed ms ts = Ok reps ->
  sub_of_match ms reps key = Ok s ->
  describes parsed (fun _ => Ok key) ms ts s /\ validate s = Ok tt.
Proof.
  intros Hms Hts Hr H. destruct (rewrite_ok parsed ms Hms ts reps Hts Hr) as (Hd & Hf & _ & _).
  unfold sub_of_match in H. revert H.
  set (r1 := ddel reps MESSAGE_LABEL). set (r2 := ddel r1 URL_LABEL). set (r3 := ddel r2 CATEGORY_LABEL).
  set (r4 := ddel r3 SIGNIFICANT_LABEL).
  assert (D1 : dict_ok r1) by now apply dict_ok_ddel. assert (D2 : dict_ok r2) by now apply dict_ok_ddel.
  assert (D3 : dict_ok r3) by now apply dict_ok_ddel. assert (D4 : dict_ok r4) by now apply dict_ok_ddel.
  assert (G1 : dget r1 URL_LABEL = dget reps URL_LABEL) by (apply dget_ddel_other; [exact Hd|discriminate]).
  assert (G2 : dget r2 CATEGORY_LABEL = dget reps CATEGORY_LABEL).
  { unfold r2. rewrite dget_ddel_other by (assumption || discriminate). apply dget_ddel_other; [exact Hd|discriminate]. }
  assert (G3 : dget r3 SIGNIFICANT_LABEL = dget reps SIGNIFICANT_LABEL).
  { unfold r3. rewrite dget_ddel_other by (assumption || discriminate).
    unfold r2. rewrite dget_ddel_other by (assumption || discriminate).
    apply dget_ddel_other; [exact Hd|discriminate]. }
  assert (G4 : forall l t, In (l, t) r4 <-> dget reps l = Some t /\ ~ In l meta_labels).
  { intros l t. rewrite (conj (In_dget r4 l t D4) (dget_In r4 l t) : _ <-> _).
    unfold r4, r3, r2, r1. rewrite !dget_ddel by (repeat apply dict_ok_ddel; assumption).
    unfold meta_labels. cbn [In].
    destruct (text_eqb_spec SIGNIFICANT_LABEL l) as [<-|N1]; [split; [discriminate|tauto]|].
    destruct (text_eqb_spec CATEGORY_LABEL l) as [<-|N2]; [split; [discriminate|tauto]|].
    destruct (text_eqb_spec URL_LABEL l) as [<-|N3]; [split; [discriminate|tauto]|].
    destruct (text_eqb_spec MESSAGE_LABEL l) as [<-|N4]; [split; [discriminate|tauto]|].
    tauto. }
  unfold make_sub. destruct (validate _) as [[]|] eqn:EV; [|discriminate]. cbn [bind]. intro H.
  injection H as <-. split; [|exact EV].
  unfold describes. cbn [matched_spans primary_label replacements message url category significant key_span].
  split; [apply located_spec|]. split; [reflexivity|].
  split.
  { exists r4. split; [reflexivity|]. intros l t. rewrite G4, Hf. tauto. }
  split; [intro t; apply Hf|]. split; [intro t; rewrite G1; apply Hf|].
  split; [intro t; rewrite G2; apply Hf|]. split; [|reflexivity].
  rewrite G3. unfold truthy. split.
  - destruct (dget reps SIGNIFICANT_LABEL) as [[|c t]|] eqn:E; try discriminate. intros _.
    exists (c :: t). split; [discriminate|]. now apply Hf.
  - intros (t & Hne & Ht). apply Hf in Ht. change (TX "__significant") with SIGNIFICANT_LABEL in Ht. rewrite Ht.
    destruct t; [congruence|reflexivity].
Qed.

Lemma exn_eq_dec (a b : exn) : {a = b} + {a <> b}.
Proof. decide equality. apply Z.eq_dec. Qed.

Lemma rewriting_find_ok parsed key dicts out :
  Forall (fun mt : dict pymatch * dict template => dict_ok (fst mt) /\ dict_ok (snd mt)) dicts ->
  rewriting_find parsed key dicts = Ok out -> described parsed key dicts out.
Proof.
  intro HD. revert out. induction HD as [|[ms ts] dicts [Hms Hts] HD IH]; intros out H.
  - injection H as <-. constructor.
  - cbn [fst snd] in Hms, Hts. cbn [rewriting_find] in H.
    destruct (rewrite_templates parsed ms ts) as [reps|e] eqn:Er.
    + destruct (key ms) as [k|] eqn:Ek; cbn [bind] in H; [|discriminate].
      destruct (sub_of_match ms reps k) as [s|] eqn:Es; cbn [bind] in H; [|discriminate].
      destruct (rewriting_find parsed key dicts) as [r|] eqn:Ef; cbn [bind] in H; [|discriminate].
      injection H as <-. destruct (sub_of_match_spec parsed ms ts reps k s Hms Hts Er Es) as [HS HV].
      apply ds_keep; auto.
      * destruct (rewrite_ok parsed ms Hms ts reps Hts Er) as (_ & _ & Hn & _). exact Hn.
      * destruct HS as (A & B & C & D & E & F & G & K). repeat (split; [assumption|]). injection K as ->. exact Ek.
    + assert (e = RewriteError) as ->.
      { destruct e; congruence. }
      apply ds_skip; [|now apply IH]. apply rewrite_err in Er; [|exact Hms].
      destruct Er as [Hf|[_ E]]; [exact Hf|discriminate].
Qed.

(** An exception comes from one of the matches: its first failing template, its
    key span, or the constructor. *)
Lemma rewriting_find_err parsed key dicts e :
  Forall (fun mt : dict pymatch * dict template => dict_ok (fst mt) /\ dict_ok (snd mt)) dicts ->
  rewriting_find parsed key dicts = Err e ->
  exists ms ts, In (ms, ts) dicts
    /\ ((e <> RewriteError /\ exists l, fills parsed ms ts l (Err e))
        \/ (bad_int ms ts /\ e = AttributeError)
        \/ key ms = Err e
        \/ (e = ValueError /\ exists s, describes parsed key ms ts s /\ ~ good_sub s)).
Proof.
  induction 1 as [|[ms ts] dicts [Hms Hts] HD IH]; intro H; [discriminate|].
  cbn [fst snd] in Hms, Hts. cbn [rewriting_find] in H.
  assert (K : rewriting_find parsed key dicts = Err e -> exists ms0 ts0, In (ms0, ts0) ((ms, ts) :: dicts)
    /\ ((e <> RewriteError /\ exists l, fills parsed ms0 ts0 l (Err e))
        \/ (bad_int ms0 ts0 /\ e = AttributeError)
        \/ key ms0 = Err e
        \/ (e = ValueError /\ exists s, describes parsed key ms0 ts0 s /\ ~ good_sub s))).
  { intro Hr. destruct (IH Hr) as (ms0 & ts0 & Hin & HH). exists ms0, ts0. split; [now right|exact HH]. }
  destruct (rewrite_templates parsed ms ts) as [reps|e'] eqn:Er.
  - destruct (key ms) as [k|e'] eqn:Ek; cbn [bind] in H.
    2: { injection H as ->. exists ms, ts. split; [now left|]. tauto. }
    destruct (sub_of_match ms reps k) as [s|e'] eqn:Es; cbn [bind] in H.
    + destruct (rewriting_find parsed key dicts) as [r|e'] eqn:Ef; cbn [bind] in H; [discriminate|auto].
    + injection H as ->. exists ms, ts. split; [now left|]. right. right. right.
      unfold sub_of_match, make_sub in Es.
      match type of Es with (do _ <- validate ?s0; _) = _ => set (s := s0) in * end.
      destruct (validate_spec s) as [V1 V2].
      assert (Hb : ~ good_sub s) by (intro Hg; rewrite (V1 Hg) in Es; discriminate).
      rewrite (V2 Hb) in Es. cbn [bind] in Es. injection Es as <-. split; [reflexivity|].
      exists s. split; [|exact Hb]. subst s.
      (* the description does not depend on validity *)
      pose proof (rewrite_ok parsed ms Hms ts reps Hts Er) as (Hd & Hf & _ & _).
      set (r1 := ddel reps MESSAGE_LABEL). set (r2 := ddel r1 URL_LABEL). set (r3 := ddel r2 CATEGORY_LABEL).
      set (r4 := ddel r3 SIGNIFICANT_LABEL).
      assert (D1 : dict_ok r1) by now apply dict_ok_ddel. assert (D2 : dict_ok r2) by now apply dict_ok_ddel.
      assert (D3 : dict_ok r3) by now apply dict_ok_ddel. assert (D4 : dict_ok r4) by now apply dict_ok_ddel.
      unfold describes. cbn [matched_spans primary_label replacements message url category significant key_span].
      split; [apply located_spec|]. split; [reflexivity|].
      split.
      { exists r4. split; [reflexivity|]. intros l t. rewrite <- Hf.
        rewrite (conj (In_dget r4 l t D4) (dget_In r4 l t) : _ <-> _).
        unfold r4, r3, r2, r1. rewrite !dget_ddel by (repeat apply dict_ok_ddel; assumption).
        unfold meta_labels. cbn [In].
        destruct (text_eqb_spec SIGNIFICANT_LABEL l) as [<-|N1]; [split; [discriminate|tauto]|].
        destruct (text_eqb_spec CATEGORY_LABEL l) as [<-|N2]; [split; [discriminate|tauto]|].
        destruct (text_eqb_spec URL_LABEL l) as [<-|N3]; [split; [discriminate|tauto]|].
        destruct (text_eqb_spec MESSAGE_LABEL l) as [<-|N4]; [split; [discriminate|tauto]|].
        tauto. }
      split; [intro t; apply Hf|].
      split; [intro t; unfold r1; rewrite dget_ddel_other by (assumption || discriminate); apply Hf|].
      split; [intro t; unfold r2, r1; rewrite !dget_ddel_other by (repeat apply dict_ok_ddel; assumption || discriminate); apply Hf|].
      split; [|exact Ek].
      unfold r3, r2, r1. rewrite !dget_ddel_other by (repeat apply dict_ok_ddel; assumption || discriminate).
      unfold truthy. split.
      * destruct (dget reps SIGNIFICANT_LABEL) as [[|c t]|] eqn:E; try discriminate. intros _.
        exists (c :: t). split; [discriminate|]. now apply Hf.
      * intros (t & Hne & Ht). apply Hf in Ht. change (TX "__significant") with SIGNIFICANT_LABEL in Ht. rewrite Ht.
        destruct t; [congruence|reflexivity].
  - destruct (exn_eq_dec e' RewriteError) as [->|Hne].
    + auto.
    + assert (e' = e) as -> by (destruct e'; congruence).
      exists ms, ts. split; [now left|]. apply rewrite_err in Er; [|exact Hms].
      destruct Er as [Hf|Hb]; [left; auto|right; left; exact Hb].
Qed.
