(** Searching for a pattern and replacing it: proofs. *)
From Verif Require Import Py PyFacts Subst Fmt ApplySpec SubstSpec ApplyProofs Ast Template FromDiff Matcher MatchSpec MergeSpec MergeProofs MatcherProofs
  FindSpec FindProofs NavSpec NavProofs PatternSpec EquivProofs PatternProofs PatternApi Search SearchSpec SearchProofs RewriteProofs Removal RemovalSearch ReSubProofs ExprSubSpec.
From Coq Require Import Sorted.

Lemma validate_primary s : validate s = Ok tt -> In (primary_label s) (dkeys (matched_spans s)).
Proof.
  unfold validate. destruct (match category s with Some c => _ | None => false end); [discriminate|].
  destruct (dmem (matched_spans s) (primary_label s)) eqn:E; [|discriminate]. intros _. now apply dmem_keys in E.
Qed.

Section Fits.
  Variable holes : text -> option hole.
  Hypothesis Hplain : forall n x r, holes n = Some (Named x r) -> r = MAnything /\ x <> ROOT_LABEL.

  Lemma plain_restriction e n x r : holes n = Some (Named x r) -> restriction_ok e r.
  Proof.
    intros H. destruct (Hplain _ _ _ H) as [-> _]. intros c. right. exists (create_match (e_parsed e) c). split.
    - intros s. reflexivity.
    - intros a. unfold create_match. destruct (lexical_tokens c) as [[f l]|]; cbn; [congruence|].
      destruct c as [| |? []]; cbn; congruence.
  Qed.
  Lemma plain_named e c m rm : m = MAnything -> pure_on e c m (Some (RInfo rm (Some []) [])) -> rm = create_match (e_parsed e) c.
  Proof. intros -> H. specialize (H []). cbn in H. now injection H as <-. Qed.

  Lemma fits_env e e' : e_parsed e = e_parsed e' -> forall p c occ, fits e holes p c occ -> fits e' holes p c occ.
  Proof.
    intros He. induction p as [i fs IH|id l IH|id k] using value_ind'; intros c occ F;
      inversion F as [p n y m c0 rm0 Hn Hh Hp|p n c0 Hn Hh|? ? ? ? E|? ? ? ms ? FI|? ? j gs ? Hn Ht FF]; subst.
    all: try (eapply F_anonymous; eassumption).
    all: try (eapply F_named; [eassumption|eassumption|]; destruct (Hplain _ _ _ Hh) as [-> _];
              rewrite (plain_named _ _ _ _ eq_refl Hp); intros s; cbn; unfold anything, info; rewrite He; reflexivity).
    - apply F_node; [assumption|assumption|]. clear Hn Ht F.
      revert FF. generalize (n_type i). intros ty FF. revert IH.
      induction FF as [|? f u w fs' gs' os Hcx FF IHF|? f u w fs' gs' o os Hcx FU FF IHF]; intros IH.
      + constructor.
      + inversion IH; subst. apply FF_context; auto.
      + inversion IH; subst. apply FF_cons; auto.
    - apply F_list. clear F. revert IH. induction FI as [|u w l' m' o os FU FI IHF]; intros IH.
      + constructor.
      + inversion IH; subst. constructor; auto.
    - now apply F_const.
  Qed.

  (** What the occurrences are bound to. *)
  Lemma fits_bound e : forall p c occ, fits e holes p c occ ->
    forall x rm, In (x, rm) occ -> x <> ROOT_LABEL /\ exists v, inside c v /\ rm = create_match (e_parsed e) v.
  Proof.
    assert (Hin : forall c v w, In v (vchildren c) -> inside v w -> inside c w).
    { intros c v w Hv (q & Hq). apply In_nth_error in Hv as (k & Hk). exists (k :: q). cbn [at_path]. now rewrite Hk. }
    induction p as [i fs IH|id l IH|id k] using value_ind'; intros c occ F x rm Hx;
      inversion F as [p n y m c0 rm0 Hn Hh Hp|p n c0 Hn Hh|? ? ? ? E|? ? ? ms ? FI|? ? j gs ? Hn Ht FF]; subst.
    all: try (destruct Hx; fail).
    all: try (destruct Hx as [E|[]]; injection E as <- <-; destruct (Hplain _ _ _ Hh) as [-> Hr]; split; [exact Hr|];
              exists c; split; [apply inside_refl|]; eapply plain_named; [reflexivity|eassumption]).
    - assert (K : x <> ROOT_LABEL /\ exists kw v, In kw gs /\ inside (snd kw) v /\ rm = create_match (e_parsed e) v).
      { clear Hn Ht F. revert FF Hx. generalize (n_type i). intros ty FF. revert IH.
        induction FF as [|? f u w fs' gs' os Hcx FF IHF|? f u w fs' gs' o os Hcx FU FF IHF]; intros IH Hx.
        - destruct Hx.
        - inversion IH; subst. destruct IHF as (R & kw & v & A & B); auto. split; [exact R|]. exists kw, v. split; [now right|exact B].
        - inversion IH as [|? ? H1 H2]; subst. apply in_app_iff in Hx as [Hx|Hx].
          + destruct (H1 _ _ FU _ _ Hx) as (R & v & A & B). split; [exact R|]. exists (f, w), v. split; [now left|]. now split.
          + destruct IHF as (R & kw & v & A & B); auto. split; [exact R|]. exists kw, v. split; [now right|exact B]. }
      destruct K as (R & kw & v & A & B & C). split; [exact R|]. exists v. split; [|exact C].
      eapply Hin; [|exact B]. cbn. now apply in_map.
    - assert (K : x <> ROOT_LABEL /\ exists y v, In y ms /\ inside y v /\ rm = create_match (e_parsed e) v).
      { clear F. revert Hx IH. induction FI as [|u w l' m' o os FU FI IHF]; intros Hx IH.
        - destruct Hx.
        - inversion IH as [|? ? H1 H2]; subst. apply in_app_iff in Hx as [Hx|Hx].
          + destruct (H1 _ _ FU _ _ Hx) as (R & v & A & B). split; [exact R|]. exists w, v. split; [now left|]. now split.
          + destruct IHF as (R & kw & v & A & B); auto. split; [exact R|]. exists kw, v. split; [now right|exact B]. }
      destruct K as (R & y & v & A & B & C). split; [exact R|]. exists v. split; [|exact C]. eapply Hin; [|exact B]. exact A.
  Qed.
  Lemma no_root e p c occ : fits e holes p c occ -> last_occ ROOT_LABEL occ = None.
  Proof.
    intros F. destruct (last_occ ROOT_LABEL occ) as [m|] eqn:E; [|reflexivity]. apply last_occ_In in E.
    apply (fits_bound _ _ _ _ F) in E as [E _]. congruence.
  Qed.

  (** There is one way only in which something fits. *)
  Lemma fits_fun e : forall p c occ occ', fits e holes p c occ -> fits e holes p c occ' -> occ = occ'.
  Proof.
    induction p as [i fs IH|id l IH|id k] using value_ind'; intros c occ occ' F F';
      inversion F as [p n y m c0 rm0 Hn Hh Hp|p n c0 Hn Hh|? ? ? ? E|? ? ? ms ? FI|? ? j gs ? Hn Ht FF]; subst;
      inversion F' as [p n' y' m' c0 rm0' Hn' Hh' Hp'|p n' c0 Hn' Hh'|? ? ? ? E'|? ? ? ms' ? FI'|? ? j' gs' ? Hn' Ht' FF']; subst; try reflexivity.
    all: try (match goal with A : is_name ?q ?a, B : is_name ?q ?b |- _ => rewrite (is_name_one q a b A B) in * end).
    all: try congruence.
    all: try (rewrite Hh in Hh'; injection Hh' as <- <-; specialize (Hp []); specialize (Hp' []); rewrite Hp in Hp'; injection Hp' as <-; reflexivity).
    all: try (rewrite (Hn' _ Hn) in Hh; discriminate Hh).
    all: try (rewrite (Hn _ Hn') in Hh'; discriminate Hh').
    all: try (destruct Hn as (? & ? & ? & Hn & _); discriminate Hn).
    all: try (destruct Hn' as (? & ? & ? & Hn' & _); discriminate Hn').
    - clear Hn Ht F F' Hn' Ht'. revert IH FF' . generalize dependent occ'. revert FF. generalize (n_type i). intros ty FF.
      induction FF as [|? f u w fs' gs' os Hcx FF IHF|? f u w fs' gs' o os Hcx FU FF IHF]; intros occ' IH FF'; inversion FF'; subst; try reflexivity; try tauto;
        inversion IH; subst.
      + now apply IHF.
      + f_equal; [|now apply IHF]. eauto.
    - clear F F'. revert IH. generalize dependent occ'. induction FI as [|u w l' m' o os FU FI IHF]; intros occ' FI' IH; inversion FI'; subst; [reflexivity|].
      inversion IH; subst. f_equal; [eauto|now apply IHF].
  Qed.
End Fits.

Section Search.
  Variables (e : env) (holes : text -> option hole) (p : value) (m : matcher) (t : template) (G : grammar).
  Hypothesis HF : finds_pattern holes p m.
  Hypothesis HG : proper G.
  Hypothesis HP : parsed_tree G (e_tree e).
  Hypothesis Hp : conforms G p.
  Hypothesis Hn : is_node p = true.
  Hypothesis Hplain : forall n x r, holes n = Some (Named x r) -> r = MAnything /\ x <> ROOT_LABEL.

  Let m' := MWithReplacements (MBind ROOT_LABEL m None None) [(ROOT_LABEL, t)].
  Definition mapping (b : dict bound) : dict pymatch := map (fun kv => (fst kv, b_value (snd kv))) b.

  Lemma attempt_cases d c : inside (e_tree e) c ->
    (exists b occ, attempt (with_done e d) m' c
         = ([], Ok (Some (RInfo (create_match (e_parsed e) c) (Some b) [(ROOT_LABEL, t)])))
       /\ occurrence e holes p c occ /\ seen e c occ (mapping b))
    \/ (attempt (with_done e d) m' c = ([], Ok None) /\ forall occ, ~ occurrence e holes p c occ).
  Proof.
    intros Ic. set (e' := with_done e d).
    destruct (HF e' G (e_tree e) c [] HG HP Hp Hn Ic (fun n x r H => plain_restriction holes Hplain e' n x r H))
      as [(rm & occ & b & E & F & A & B & R)|[E N]].
    - left. specialize (R (fun n x r _ H => proj1 (Hplain n x r H))). subst rm. change (e_parsed e') with (e_parsed e) in *.
      assert (F' : fits e holes p c occ) by (eapply fits_env; [exact Hplain| |exact F]; reflexivity).
      destruct B as [Bd Bg].
      assert (M : exists b', merge_bindings b [(ROOT_LABEL, bound_value (create_match (e_parsed e) c) None None)] = Ok (Some b')
                  /\ dict_ok b' /\ forall k, dget b' k = merged_value (dget b k) (dget [(ROOT_LABEL, bound_value (create_match (e_parsed e) c) None None)] k)).
      { assert (K : forall k a b0, both b [(ROOT_LABEL, bound_value (create_match (e_parsed e) c) None None)] k a b0 -> False).
        { intros k a b0 [K1 K2]. rewrite Bg in K1. cbn [dget] in K2. destruct (text_eqb_spec ROOT_LABEL k) as [<-|]; [|discriminate K2].
          rewrite (no_root holes Hplain e p c occ F') in K1. discriminate K1. }
        pose proof (merge_bindings_spec b [(ROOT_LABEL, bound_value (create_match (e_parsed e) c) None None)] Bd) as HM.
        destruct (merge_bindings b _) as [[b'|]|x].
        - destruct HM as (M1 & _ & M2); [repeat constructor; intros []|]. exists b'. auto.
        - destruct HM as (_ & k & a & b0 & HB & _); [repeat constructor; intros []|]. destruct (K _ _ _ HB).
        - destruct HM as (_ & k & a & b0 & HB & _); [repeat constructor; intros []|]. destruct (K _ _ _ HB). }
      destruct M as (b' & M & Md & Mg). exists b', occ.
      assert (Ev : eval e' m' c [] = ([], Ok (Some (RInfo (create_match (e_parsed e) c) (Some b') [(ROOT_LABEL, t)])))).
      { unfold m'. cbn [eval]. unfold mbind. rewrite E. cbn [r_bindings r_match r_reps bind not_none lift ret].
        rewrite M. reflexivity. }
      split; [|split; [now split|]].
      + unfold attempt. rewrite (type_filter_sound _ _ _ _ _ _ Ev). exact Ev.
      + split; [|split].
        * unfold dict_ok, dkeys, mapping in *. rewrite map_map. exact Md.
        * unfold mapping. rewrite dget_map, Mg. change (TX "__root") with ROOT_LABEL. rewrite Bg.
          rewrite (no_root holes Hplain e p c occ F'). reflexivity.
        * intros x Hx. change (TX "__root") with ROOT_LABEL in Hx. unfold mapping. rewrite dget_map, Mg, Bg. cbn [dget]. rewrite (proj2 (text_eqb_neq ROOT_LABEL x)) by congruence.
          destruct (last_occ x occ); reflexivity.
    - right. assert (Ev : eval e' m' c [] = ([], Ok None)).
      { unfold m'. cbn [eval]. unfold mbind. rewrite E. reflexivity. }
      split; [unfold attempt; destruct (admits _ _); [exact Ev|reflexivity]|].
      intros occ [F A]. apply (N occ); [|exact A]. eapply fits_env; [exact Hplain| |exact F]. reflexivity.
  Qed.

  Definition place (h : hit) : path * value := (h_path h, h_value h).

  (** A hit carries what the template gets to see. *)
  Definition good_hit (h : hit) : Prop :=
    at_path (e_tree e) (h_path h) = Some (h_value h)
    /\ exists b occ, h_result h = RInfo (create_match (e_parsed e) (h_value h)) (Some b) [(ROOT_LABEL, t)]
       /\ occurrence e holes p (h_value h) occ /\ seen e (h_value h) occ (mapping b).

  Lemma hits_good hs : found e m' hs -> Forall good_hit hs.
  Proof.
    intros Hf. apply Forall_forall. intros h Hin. apply in_split in Hin as (h1 & h2 & ->).
    destruct (fd_match _ _ _ Hf h1 h h2 eq_refl) as [A B]. split; [exact A|].
    destruct (attempt_cases (done_after [] h1) (h_value h)) as [(b & occ & E & O & S)|[E _]]; [exists (h_path h); exact A| |].
    - rewrite E in B. injection B as _ <-. exists b, occ. auto.
    - rewrite E in B. discriminate B.
  Qed.

  Lemma hits_outermost hs : found e m' hs -> outermost_occurrences e holes p (map place hs).
  Proof.
    intros Hf. pose proof (hits_good hs Hf) as HG'. rewrite Forall_forall in HG'. constructor.
    - intros q c Hin. apply in_map_iff in Hin as (h & E & Hin). injection E as <- <-.
      destruct (HG' h Hin) as (A & b & occ & _ & O & _). split; [exact A|]. now exists occ.
    - pose proof (fd_order _ _ _ Hf) as HS. clear Hf HG'. induction HS as [|h hs HS IH HA]; [constructor|].
      cbn [map]. constructor; [exact IH|]. clear -HA. induction HA; cbn [map]; constructor; auto.
    - intros q c occ Hq O. destruct (fd_complete _ _ _ Hf q c Hq) as [(h & Hin & U)|[T|(q' & U & T & _)]].
      + exists (h_path h), (h_value h). split; [|exact U]. apply in_map_iff. now exists h.
      + exfalso. destruct T as (hs1 & v & ran & _ & A & B). rewrite Hq in A. injection A as <-.
        destruct (attempt_cases (done_after [] hs1) c) as [(b & occ' & E & _)|[_ N]]; [now exists q| |].
        * rewrite E in B. discriminate B.
        * exact (N occ O).
      + exfalso. destruct T as (hs1 & v & ran & _ & A & B).
        destruct (attempt_cases (done_after [] hs1) v) as [(b & occ' & E & _)|[E _]]; [now exists q'| |];
          rewrite E in B; discriminate B.
  Qed.

  (** *** The templates, and the dictionaries that they get *)
  Hypothesis Ht : t_template t <> [].

  Lemma sanitize_nothing pass tree tokens results : forall st,
    Forall (fun r => exists rm b, r = RInfo rm (Some b) [(ROOT_LABEL, t)] /\ dget (mapping b) ROOT_LABEL <> None) results ->
    exists outs, sanitize_all pass tree tokens results st = Ok outs
      /\ Forall2 (fun r (mt : dict pymatch * dict template) => snd mt = [(ROOT_LABEL, t)]
           /\ exists rm b v, r = RInfo rm (Some b) [(ROOT_LABEL, t)] /\ dget (mapping b) ROOT_LABEL = Some v
              /\ fst mt = dset (mapping b) ROOT_LABEL v) results outs.
  Proof.
    induction results as [|r results IH]; intros st H.
    - exists []. split; [reflexivity|constructor].
    - inversion H as [|? ? (rm & b & -> & Hr) H']; subst. destruct (dget (mapping b) ROOT_LABEL) as [v|] eqn:Ev; [|congruence].
      destruct (IH st H') as (outs & E & F). exists ((dset (mapping b) ROOT_LABEL v, [(ROOT_LABEL, t)]) :: outs). split.
      + cbn [sanitize_all r_bindings r_reps bind not_none]. change (map (fun kv : label * bound => (fst kv, b_value (snd kv))) b) with (mapping b).
        cbn [sanitize]. assert (Es : sanitize_one pass tree tokens (dget (mapping b) ROOT_LABEL) t st = Ok (dget (mapping b) ROOT_LABEL, t, st)).
        { unfold sanitize_one. assert (Er : removes_stmt (dget (mapping b) ROOT_LABEL) t = None).
          { unfold removes_stmt. destruct (dget (mapping b) ROOT_LABEL) as [[]|]; try reflexivity. destruct (t_template t); [congruence|reflexivity]. }
          rewrite Er. reflexivity. }
        rewrite Es. cbn [bind]. rewrite Ev. cbn [app]. rewrite E. reflexivity.
      + constructor; [|exact F]. split; [reflexivity|]. exists rm, b, v. auto.
  Qed.

  Definition good_dicts (h : hit) (mt : dict pymatch * dict template) : Prop :=
    snd mt = [(ROOT_LABEL, t)] /\ exists occ, occurrence e holes p (h_value h) occ /\ seen e (h_value h) occ (fst mt).

  Lemma dicts_good pass tokens hs st : found e m' hs ->
    exists outs, sanitize_all pass (e_tree e) tokens (map h_result hs) st = Ok outs /\ Forall2 good_dicts hs outs.
  Proof.
    intros Hf. pose proof (hits_good hs Hf) as HG'.
    destruct (sanitize_nothing pass (e_tree e) tokens (map h_result hs) st) as (outs & E & F).
    - apply Forall_forall. intros r Hin. apply in_map_iff in Hin as (h & <- & Hin). rewrite Forall_forall in HG'.
      destruct (HG' h Hin) as (_ & b & occ & Er & _ & S). exists (create_match (e_parsed e) (h_value h)), b. split; [exact Er|].
      destruct S as (_ & S & _). change (TX "__root") with ROOT_LABEL in S. rewrite S. discriminate.
    - exists outs. split; [exact E|]. clear E Hf. remember (map h_result hs) as rs eqn:Ers. revert hs Ers HG'.
      induction F as [|r mt rs outs (E1 & rm & b & v & E2 & E3 & E4) F IH]; intros hs Ers HG'; destruct hs as [|h hs]; try discriminate Ers; [constructor|].
      injection Ers as -> ->. inversion HG' as [|? ? Hh HG'']; subst. constructor; [|now apply IH].
      destruct Hh as (_ & b' & occ & Er & O & S). rewrite Er in E2. injection E2 as <- <-. split; [exact E1|]. exists occ. split; [exact O|].
      destruct S as (S1 & S2 & S3). change (TX "__root") with ROOT_LABEL in *. rewrite E4. split; [now apply dict_ok_dset|]. split.
      + change (TX "__root") with ROOT_LABEL. rewrite dget_dset. rewrite E3 in S2. injection S2 as ->. now destruct (text_eqb_spec ROOT_LABEL ROOT_LABEL).
      + intros x Hx. change (TX "__root") with ROOT_LABEL in Hx. rewrite dget_dset. rewrite (proj2 (text_eqb_neq ROOT_LABEL x)) by congruence. now apply S3.
  Qed.

  (** *** The substitutions *)
  Hypothesis Hpos : forall v a b, inside (e_tree e) v -> m_span (create_match (e_parsed e) v) = Some (a, b) -> 0 <= a.

  Lemma seen_positions c occ ms : inside (e_tree e) c -> occurrence e holes p c occ -> seen e c occ ms ->
    forall l x, In (l, x) ms -> forall a b, m_span x = Some (a, b) -> 0 <= a.
  Proof.
    intros (q & Hq) [F _] (S1 & S2 & S3) l x Hin a b Hs. apply In_dget in Hin; [|exact S1].
    destruct (text_eqb_spec (TX "__root") l) as [<-|N].
    - rewrite S2 in Hin. injection Hin as <-. eapply Hpos; [|exact Hs]. now exists q.
    - rewrite S3 in Hin by congruence. apply last_occ_In in Hin. apply (fits_bound holes Hplain _ _ _ _ F) in Hin as (_ & v & (r & Iv) & ->).
      eapply Hpos; [|exact Hs]. exists (q ++ r). rewrite at_path_app, Hq. exact Iv.
  Qed.

  Lemma one_template ms x : dget ms ROOT_LABEL = Some x ->
    rewrite_templates (e_parsed e) ms [(ROOT_LABEL, t)]
    = if no_span (m_span x) then Ok [] else do s <- t_substitute t (e_parsed e) x ms; Ok [(ROOT_LABEL, s)].
  Proof.
    intros E. cbn [rewrite_templates]. rewrite E. destruct (no_span _); [reflexivity|]. now destruct (t_substitute t (e_parsed e) x ms).
  Qed.

  (** One occurrence. *)
  Lemma one_sub c occ ms key s : inside (e_tree e) c -> occurrence e holes p c occ -> seen e c occ ms ->
    forall reps, rewrite_templates (e_parsed e) ms [(ROOT_LABEL, t)] = Ok reps -> sub_of_match ms reps key = Ok s ->
    exists a b new, m_span (create_match (e_parsed e) c) = Some (a, b) /\ fills_in e holes p t c (Ok new)
      /\ edits_of s = [(new, a, b)] /\ wf_sub s /\ nonneg_spans s /\ key_span s = key.
  Proof.
    intros Ic O S reps Er Es. pose proof S as (S1 & S2 & S3). change (TX "__root") with ROOT_LABEL in S2.
    rewrite (one_template _ _ S2) in Er. unfold sub_of_match, make_sub in Es.
    apply bind_Ok in Es as ([] & Ev & Es). injection Es as <-.
    destruct (no_span (m_span (create_match (e_parsed e) c))) eqn:En.
    - exfalso. injection Er as <-. apply validate_primary in Ev. cbn [matched_spans primary_label] in Ev.
      apply in_map_iff in Ev as ([l [a b]] & El & Hin). cbn in El. subst l. apply located_spec in Hin as (x & Hin & Hx & Hne).
      apply In_dget in Hin; [|exact S1]. assert (Some x = Some (create_match (e_parsed e) c)) as [= ->] by (rewrite <- Hin; exact S2).
      assert (no_span (m_span (create_match (e_parsed e) c)) = false) by (apply no_span_spec; now exists (a, b)). congruence.
    - apply bind_Ok in Er as (new & Enew & Er). injection Er as <-.
      apply no_span_spec in En as ([a b] & Esp & Hne). exists a, b, new.
      assert (Hl : In (ROOT_LABEL, (a, b)) (located ms)).
      { apply located_spec. exists (create_match (e_parsed e) c). split; [now apply dget_In|]. now split. }
      assert (Hok : dict_ok (located ms)) by now apply located_ok.
      split; [exact Esp|]. split; [exists occ, ms; now rewrite Enew|].
      split; [exact (one_replaced (located ms) ROOT_LABEL new a b Hok Hl)|].
      split; [|split; [|reflexivity]].
      + split; [exact Hok|]. split; [|exact Ev]. intros r E. cbn [replacements] in E. injection E as <-. repeat constructor. intros [].
      + unfold nonneg_spans. cbn [matched_spans]. apply Forall_forall. intros [l [x y]] Hin. cbn [fst snd].
        apply located_spec in Hin as (w & Hin & Hw & _). eapply seen_positions; eassumption.
  Qed.

  Lemma all_subs key hs outs subs : Forall (fun h => at_path (e_tree e) (h_path h) = Some (h_value h)) hs -> Forall2 good_dicts hs outs ->
    rewriting_find (e_parsed e) key outs = Ok subs ->
    replaced e holes p t (map place hs) (flat_map edits_of subs) /\ Forall wf_sub subs /\ Forall nonneg_spans subs
    /\ Forall (fun s => exists x, edits_of s = [x]) subs.
  Proof.
    intros Hat HD. revert Hat subs. induction HD as [|h [ms ts] hs outs (E & occ & O & S) HD IH]; intros Hat subs H.
    - injection H as <-. split; [constructor|]. repeat split; constructor.
    - cbn [fst snd] in *. subst ts. inversion Hat as [|? ? Hh Hat']; subst. assert (Ic : inside (e_tree e) (h_value h)) by (now exists (h_path h)).
      cbn [rewriting_find] in H. destruct (rewrite_templates (e_parsed e) ms [(ROOT_LABEL, t)]) as [reps|x] eqn:Er.
      + apply bind_Ok in H as (k & Ek & H). apply bind_Ok in H as (s & Es & H). apply bind_Ok in H as (r & Hr & H). injection H as <-.
        destruct (IH Hat' r Hr) as (R & W & N & X).
        destruct (one_sub _ _ _ _ _ Ic O S _ Er Es) as (a & b & new & Esp & Fi & Ee & W1 & N1 & _).
        cbn [flat_map map]. rewrite Ee. split; [|split; [|split]; constructor; eauto]. cbn [app]. apply RP_edit; assumption.
      + assert (Hx : x = RewriteError /\ rewriting_find (e_parsed e) key outs = Ok subs) by (destruct x; try discriminate H; split; [reflexivity|exact H]).
        destruct Hx as [-> H']. destruct (IH Hat' subs H') as (R & W & N & X). split; [|now repeat split]. cbn [map]. apply RP_gives_up; [|exact R].
        pose proof S as (S1 & S2 & S3). change (TX "__root") with ROOT_LABEL in S2. rewrite (one_template _ _ S2) in Er.
        destruct (no_span _); [discriminate Er|]. destruct (t_substitute t (e_parsed e) (create_match (e_parsed e) (h_value h)) ms) as [|x] eqn:Et; [discriminate Er|].
        injection Er as ->. exists occ, ms. now rewrite Et.
  Qed.

  (** *** Success *)
  Hypothesis Hlaid : laid_out (e_tree e) (e_parsed e).
  Hypothesis Hun : unshared (e_tree e).
  Hypothesis Hbody : has_field (e_tree e) (TX "body") = true.

  Lemma first_split {A} (P : A -> bool) l : existsb P l = true ->
    exists x y z, l = x ++ y :: z /\ Forall (fun a => P a = false) x /\ P y = true.
  Proof.
    induction l as [|a l IH]; [discriminate|]. cbn [existsb]. destruct (P a) eqn:E.
    - intros _. exists [], a, l. auto.
    - intros H. destruct (IH H) as (x & y & z & -> & F & Hy). exists (a :: x), y, z. auto.
  Qed.
  Lemma key_exists q c occ ms : at_path (e_tree e) q = Some c -> seen e c occ ms -> exists k, key_span_for_dict (e_tree e) ms = Ok k.
  Proof.
    intros Hq (_ & S2 & _). change (TX "__root") with ROOT_LABEL in S2.
    destruct (create_match (e_parsed e) c) as [| | | |v txt f l a b] eqn:Ec;
      try (exists None; unfold key_span_for_dict; rewrite S2; reflexivity).
    assert (v = c) as ->.
    { unfold create_match in Ec. destruct (lexical_tokens c) as [[? ?]|]; [congruence|destruct c as [| |? []]; congruence]. }
    assert (Hc : is_node c = true).
    { unfold create_match, lexical_tokens in Ec. destruct c as [| |? []]; try discriminate Ec. reflexivity. }
    assert (C : climbable (e_tree e) q c).
    { split; [apply Hun; [exact Hq|now rewrite Hc]|]. intros. left. destruct c; try discriminate Hc. reflexivity. }
    assert (HB : existsb (fun y => has_field y (TX "body")) (c :: ancestors (e_tree e) q) = true).
    { apply existsb_exists. exists (e_tree e). split; [|exact Hbody]. destruct q as [|i q].
      - left. now injection Hq.
      - right. apply (ancestors_above _ _ _ _ Hq). exists [], (i :: q). now split. }
    apply first_split in HB as (pre & y & rest & E & F & Hy).
    rewrite (key_span_ok (e_tree e) ms q c txt f l a b pre y rest Hun C S2 E F Hy).
    destruct (outermost pre) as [n|] eqn:En; [|eauto]. apply find_some in En as [Hin Hl]. rewrite <- in_rev in Hin.
    assert (HI : exists r s, q = r ++ s /\ at_path (e_tree e) r = Some n).
    { assert (G1 : In n (c :: ancestors (e_tree e) q)) by (rewrite E; apply in_app_iff; now left).
      destruct G1 as [<-|G1]; [exists q, []; now rewrite app_nil_r|].
      apply (ancestors_above _ _ _ _ Hq) in G1 as (r & s & _ & E1 & E2). eauto. }
    destruct HI as (r & s & -> & Hr). rewrite at_path_app, Hr in Hq.
    assert (Nn : is_node n = true).
    { destruct n as [i fs|id items|id k]; [reflexivity|discriminate Hl|]. exfalso. destruct s as [|j s]; cbn in Hq.
      - injection Hq as <-. discriminate Hc.
      - now destruct j. }
    destruct (lo_tokens _ _ Hlaid n c (ex_intro _ r Hr) (ex_intro _ s Hq) Nn) as (i & fs & f0 & l0 & -> & E1 & E2).
    { rewrite Ec. discriminate. }
    cbn [first_token last_token]. rewrite E1, E2. cbn [bind]. eauto.
  Qed.

  Lemma sub_exists c occ ms key : inside (e_tree e) c -> occurrence e holes p c occ -> seen e c occ ms ->
    m_span (create_match (e_parsed e) c) <> None ->
    forall new, t_substitute t (e_parsed e) (create_match (e_parsed e) c) ms = Ok new ->
    rewrite_templates (e_parsed e) ms [(ROOT_LABEL, t)] = Ok [(ROOT_LABEL, new)]
    /\ exists s, sub_of_match ms [(ROOT_LABEL, new)] key = Ok s.
  Proof.
    intros Ic O S Hs new Hnew. pose proof S as (S1 & S2 & S3). change (TX "__root") with ROOT_LABEL in S2.
    destruct (m_span (create_match (e_parsed e) c)) as [[a b]|] eqn:Esp; [|congruence].
    assert (Hne : (a, b) <> (-1, -1)) by (intros [= -> _]; pose proof (Hpos _ _ _ Ic Esp); lia).
    assert (En : no_span (m_span (create_match (e_parsed e) c)) = false) by (apply no_span_spec; exists (a, b); now split).
    split; [rewrite (one_template _ _ S2), En, Hnew; reflexivity|].
    assert (Hl : dmem (located ms) ROOT_LABEL = true).
    { apply dmem_keys. change ROOT_LABEL with (fst (ROOT_LABEL, (a, b))). apply (in_map fst). apply located_spec.
      exists (create_match (e_parsed e) c). split; [now apply dget_In|]. now split. }
    eexists. unfold sub_of_match, make_sub. change (ddel [(ROOT_LABEL, new)] MESSAGE_LABEL) with [(ROOT_LABEL, new)].
    change (ddel [(ROOT_LABEL, new)] URL_LABEL) with [(ROOT_LABEL, new)]. change (ddel [(ROOT_LABEL, new)] CATEGORY_LABEL) with [(ROOT_LABEL, new)].
    change (ddel [(ROOT_LABEL, new)] SIGNIFICANT_LABEL) with [(ROOT_LABEL, new)].
    change (dget [(ROOT_LABEL, new)] MESSAGE_LABEL) with (@None text). change (dget [(ROOT_LABEL, new)] URL_LABEL) with (@None text).
    change (dget [(ROOT_LABEL, new)] CATEGORY_LABEL) with (@None text).
    unfold validate. cbn [category matched_spans primary_label replacements]. rewrite Hl. cbn [negb dkeys map fst forallb]. rewrite Hl. reflexivity.
  Qed.

  Hypothesis Hspans : forall q c occ, at_path (e_tree e) q = Some c -> occurrence e holes p c occ -> m_span (create_match (e_parsed e) c) <> None.
  Hypothesis Htemplate : forall c r, inside (e_tree e) c -> fills_in e holes p t c r -> r = Err RewriteError \/ exists new, r = Ok new.

  Lemma all_subs_exist hs outs : Forall (fun h => at_path (e_tree e) (h_path h) = Some (h_value h)) hs -> Forall2 good_dicts hs outs ->
    exists subs, rewriting_find (e_parsed e) (key_span_for_dict (e_tree e)) outs = Ok subs.
  Proof.
    intros Hat HD. revert Hat. induction HD as [|h [ms ts] hs outs (E & occ & O & S) HD IH]; intros Hat; [now exists []|].
    cbn [fst snd] in *. subst ts. inversion Hat as [|? ? Hh Hat']; subst. destruct (IH Hat') as (subs & Es).
    assert (Ic : inside (e_tree e) (h_value h)) by (now exists (h_path h)). cbn [rewriting_find].
    destruct (Htemplate (h_value h) _ Ic (ex_intro _ occ (ex_intro _ ms (conj O (conj S eq_refl))))) as [Et|(new & Et)].
    - pose proof S as (S1 & S2 & S3). change (TX "__root") with ROOT_LABEL in S2. rewrite (one_template _ _ S2), Et.
      destruct (no_span _) eqn:En; [|cbn [bind]; now exists subs].
      exfalso. destruct (m_span (create_match (e_parsed e) (h_value h))) as [[a b]|] eqn:Esp; [|eapply Hspans; eassumption].
      pose proof (Hpos _ _ _ Ic Esp). unfold no_span, span_eqb in En. cbn in En. lia.
    - destruct (key_exists _ _ _ _ Hh S) as (k & Ek).
      destruct (sub_exists _ _ _ k Ic O S (Hspans _ _ _ Hh O) new Et) as (Er & s & Esub).
      rewrite Er, Ek. cbn [bind]. rewrite Esub. cbn [bind]. rewrite Es. cbn [bind]. eauto.
  Qed.

  Lemma edits_apart hits es : StronglySorted (fun h h' : path * value => FindSpec.left_of (fst h) (fst h')) hits ->
    Forall (fun h : path * value => at_path (e_tree e) (fst h) = Some (snd h)) hits -> replaced e holes p t hits es ->
    ForallOrdPairs (fun x y => edit_ends_before x y /\ edit_starts_before x y \/ edit_ends_before y x /\ edit_starts_before y x) es
    /\ Forall edit_wf es.
  Proof.
    intros HS Hat HR. revert HS Hat.
    assert (Hin : forall hits es, replaced e holes p t hits es -> forall x, In x es -> exists q c a b new, In (q, c) hits
       /\ x = (new, a, b) /\ m_span (create_match (e_parsed e) c) = Some (a, b)).
    { clear. induction 1 as [|q c hits es Hf HR IH|q c hits es a b new Hs Hf HR IH]; intros x Hx; [destruct Hx| |].
      - destruct (IH x Hx) as (q' & c' & a & b & new & H1 & H2). exists q', c', a, b, new. split; [now right|exact H2].
      - destruct Hx as [<-|Hx]; [exists q, c, a, b, new; split; [now left|auto]|].
        destruct (IH x Hx) as (q' & c' & a' & b' & new' & H1 & H2). exists q', c', a', b', new'. split; [now right|exact H2]. }
    induction HR as [|q c hits es Hf HR IH|q c hits es a b new Hs Hf HR IH]; intros HS Hat.
    - split; constructor.
    - inversion HS; inversion Hat; subst. auto.
    - inversion HS as [|? ? HS1 HS2]; inversion Hat as [|? ? Hat1 Hat2]; subst. destruct (IH HS1 Hat2) as [A B].
      cbn [fst snd] in Hat1. pose proof (lo_start _ _ Hlaid c a b (ex_intro _ q Hat1) Hs) as Hab.
      split; [|constructor; [cbn; lia|exact B]]. constructor; [|exact A].
      apply Forall_forall. intros y Hy. destruct (Hin _ _ HR y Hy) as (q' & c' & a' & b' & new' & H1 & -> & H2).
      rewrite Forall_forall in HS2, Hat2. specialize (HS2 _ H1). specialize (Hat2 _ H1). cbn [fst snd] in *.
      pose proof (lo_start _ _ Hlaid c' a' b' (ex_intro _ q' Hat2) H2) as Hab'.
      destruct (lo_apart _ _ Hlaid q q' c c' a b a' b' Hat1 Hat2 HS2 Hs H2); [left|right]; cbn; lia.
  Qed.
End Search.

Lemma subs_pairs subs : Forall (fun s => exists x, edits_of s = [x]) subs ->
  ForallOrdPairs (fun x y => edit_ends_before x y /\ edit_starts_before x y \/ edit_ends_before y x /\ edit_starts_before y x) (flat_map edits_of subs) ->
  ForallOrdPairs (fun s t => ApplySpec.left_of s t \/ ApplySpec.left_of t s) subs.
Proof.
  intros HF. induction HF as [|s subs (x & Ex) HF IH]; intros H; [constructor|]. cbn [flat_map] in H. rewrite Ex in H. cbn [app] in H.
  inversion H as [|? ? H1 H2]; subst. constructor; [|now apply IH]. rewrite Forall_forall in *. intros s' Hs'.
  destruct (HF s' Hs') as (y & Ey). assert (Hy : In y (flat_map edits_of subs)) by (apply in_flat_map; exists s'; rewrite Ey; split; [assumption|now left]).
  unfold ApplySpec.left_of. rewrite Ex, Ey. destruct (H1 y Hy) as [K|K]; [left|right]; intros a b [<-|[]] [<-|[]]; exact K.
Qed.

(** *** One pass *)
Lemma groups_concat l : concat (map snd (group_by_key l)) = l.
Proof.
  induction l as [|x l IH]; [reflexivity|]. cbn [group_by_key]. destruct (group_by_key l) as [|[k g] gs]; [cbn in IH; now subst l|].
  destruct (key_eqb _ _); cbn in *; now rewrite IH.
Qed.
Lemma one_pass parse_ast s data path n parsed subs : n <= 1 -> s_check s path = Ok tt -> s_parse s data path = Ok parsed ->
  s_find s parsed = Ok subs -> find_iter parse_ast s data path n = Ok subs.
Proof.
  intros Hn H1 H2 H3. unfold find_iter. rewrite H1, H2. cbn [bind]. rewrite H3. cbn [bind].
  assert (E : mapM (process_group parse_ast s parsed n) (group_by_key subs) = Ok (map snd (group_by_key subs))).
  { generalize (group_by_key subs). intros l. induction l as [|[k g] l IH]; [reflexivity|]. cbn [mapM].
    assert (Eg : process_group parse_ast s parsed n (k, g) = Ok g).
    { unfold process_group. cbn [fst snd]. destruct k as [[a b]|]; [|reflexivity]. unfold fixed_point.
      assert (L : n <=? 1 = true) by lia. now rewrite L. }
    rewrite Eg, IH. reflexivity. }
  rewrite E. cbn [bind]. now rewrite groups_concat.
Qed.
Lemma find_iter_inv parse_ast s data path n subs : n <= 1 -> find_iter parse_ast s data path n = Ok subs ->
  exists parsed, s_parse s data path = Ok parsed /\ s_find s parsed = Ok subs.
Proof.
  intros Hn H. pose proof H as H0. unfold find_iter in H. apply bind_Ok in H as ([] & H1 & H). apply bind_Ok in H as (parsed & H2 & H).
  apply bind_Ok in H as (subs' & H3 & _). exists parsed. split; [exact H2|].
  rewrite (one_pass parse_ast s data path n parsed subs' Hn H1 H2 H3) in H0. now injection H0 as <-.
Qed.
(** A search for a pattern never raises. *)
Lemma find_never_raises e m : (forall d c, inside (e_tree e) c -> exists r o, attempt (with_done e d) m c = (r, Ok o)) ->
  exists out, matcher_find_iter e m = Ok out.
Proof.
  intros H. destruct (matcher_find_iter e m) as [out|x] eqn:E; [eauto|]. exfalso.
  apply find_iter_raises in E as (_ & hs & q & w & ran & A & B).
  destruct (H (done_after [] hs) w (ex_intro _ q A)) as (r & o & E'). rewrite E' in B. discriminate B.
Qed.
