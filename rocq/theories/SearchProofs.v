(** Proofs about Search.v: C34, C35, C46. *)
From Verif Require Import Py PyFacts Regex Subst Fmt ApplySpec ApplyProofs SubstSpec SubstProofs Ast Template
  Search SearchSpec.

(** *** C34 *)
Section FP.
  Variable parse_ast : text -> text -> res parsed_file.
  Variable s : searcher.
  Variable path : text.
  Notation RUN := (run parse_ast s path).
  Notation STOPS := (stops parse_ast path).

  Lemma fp_loop_ok n txt new acc all t' :
    fp_loop parse_ast n s path txt new acc = Ok (all, t') ->
    exists batches pending, RUN txt new batches t' pending /\ all = acc ++ concat batches
      /\ (length batches <= n)%nat /\ STOPS n (length batches) t' pending.
  Proof.
    revert txt new acc; induction n as [|n IH]; intros txt new acc H; cbn [fp_loop] in H.
    - injection H as <- <-. exists [], new. rewrite app_nil_r. repeat split; try constructor; auto.
    - destruct (apply_substitutions txt new) as [t1|e] eqn:Ea; cbn [bind] in H; [|discriminate].
      destruct (parse_ast t1 path) as [p|e] eqn:Ep.
      + destruct (s_find s p) as [new'|e] eqn:Ef; cbn [bind] in H; [|discriminate].
        assert (St : step parse_ast s path txt new t1 new').
        { split; [exact Ea|]. exists p. auto. }
        destruct new' as [|x new'].
        * injection H as <- <-. exists [new], []. split; [|split; [|split]].
          -- eapply run_cons; [exact St|auto|constructor].
          -- cbn. now rewrite app_nil_r.
          -- cbn. lia.
          -- right. left. cbn. auto.
        * apply IH in H. destruct H as (bs & pend & HR & -> & HL & HS).
          exists (new :: bs), pend. split; [|split; [|split]].
          -- eapply run_cons; [exact St|discriminate|exact HR].
          -- cbn. now rewrite app_assoc.
          -- cbn. lia.
          -- destruct HS as [HS|[[HS HS']|HS]]; [left; cbn; congruence|right; left; cbn; split; [lia|exact HS']|].
             right. right. exact HS.
      + destruct e; try discriminate. injection H as <- <-. exists [], new. rewrite app_nil_r.
        split; [constructor|]. split; [reflexivity|]. split; [cbn; lia|].
        right. right. exists t1. auto.
  Qed.

  Lemma fp_loop_err n txt new acc e :
    fp_loop parse_ast n s path txt new acc = Err e ->
    exists batches t pending, RUN txt new batches t pending /\ (length batches < n)%nat
      /\ breaks parse_ast s path t pending e.
  Proof.
    revert txt new acc; induction n as [|n IH]; intros txt new acc H; cbn [fp_loop] in H; [discriminate|].
    destruct (apply_substitutions txt new) as [t1|e'] eqn:Ea; cbn [bind] in H.
    - destruct (parse_ast t1 path) as [p|e'] eqn:Ep.
      + destruct (s_find s p) as [new'|e'] eqn:Ef; cbn [bind] in H.
        * destruct new' as [|x new']; [discriminate|].
          apply IH in H. destruct H as (bs & t & pend & HR & HL & HB).
          exists (new :: bs), t, pend. split; [|split; [cbn; lia|exact HB]].
          eapply run_cons; [split; [exact Ea|exists p; split; [exact Ep|exact Ef]]|discriminate|exact HR].
        * injection H as ->. exists [], txt, new. split; [constructor|]. split; [cbn; lia|].
          right. exists t1. split; [exact Ea|]. right. exists p. auto.
      + assert (e' <> ParseError /\ e' = e) as [Hne ->].
        { destruct e'; try discriminate H; injection H as <-; split; congruence. }
        exists [], txt, new. split; [constructor|]. split; [cbn; lia|].
        right. exists t1. split; [exact Ea|]. left. auto.
    - injection H as ->. exists [], txt, new. split; [constructor|]. split; [cbn; lia|]. left. exact Ea.
  Qed.

  (** Conversely a run that breaks within the bound is what the loop reports. *)
  Lemma fp_loop_breaks n txt new acc batches t pending e :
    RUN txt new batches t pending -> (batches = [] \/ pending <> []) -> (length batches < n)%nat ->
    breaks parse_ast s path t pending e ->
    fp_loop parse_ast n s path txt new acc = Err e.
  Proof.
    intros HR. revert n acc. induction HR as [t subs|t subs t1 subs1 batches t' pending St Hnil HR IH];
      intros n acc Hp Hl HB; (destruct n as [|n]; [cbn in Hl; lia|]); cbn [fp_loop].
    - destruct HB as [->|(t' & -> & HB)]; cbn [bind]; [reflexivity|].
      destruct HB as [(Hne & ->)|(p & -> & Hf)].
      + destruct e; congruence.
      + now rewrite Hf.
    - destruct St as (-> & p & Ep & Ef). cbn [bind]. rewrite Ep, Ef. cbn [bind].
      destruct Hp as [Hp|Hp]; [discriminate|].
      destruct subs1 as [|x subs1].
      { specialize (Hnil eq_refl). subst batches. inversion HR; subst. congruence. }
      apply IH; [auto|cbn in Hl; lia|exact HB].
  Qed.

  Lemma run_nonempty t subs batches t' pending :
    RUN t subs batches t' pending -> subs <> [] -> Forall (fun b => b <> []) batches.
  Proof.
    induction 1 as [|t subs t1 subs1 batches t' pending St Hnil HR IH]; intro Hne; constructor; auto.
    destruct subs1; [|apply IH; discriminate]. rewrite Hnil by reflexivity. constructor.
  Qed.
End FP.

(** [relative_to_span] of all: all inside, or not. *)
Lemma all_some_rel a b subs :
  Forall (fun s => validate s = Ok tt) subs ->
  exists rel, mapM (fun x => relative_to_span x a b) subs = Ok rel
    /\ ((Forall (inside a b) subs /\ exists rs, all_some rel = Some rs /\ Forall2 (is_shifted a) subs rs)
        \/ ((exists x, In x subs /\ ~ inside a b x) /\ all_some rel = None)).
Proof.
  induction 1 as [|x subs Hx Hs (rel & E & IH)].
  - exists []. split; [reflexivity|]. left. split; [constructor|]. exists []. repeat constructor.
  - destruct (relative_to_span x a b) as [[r|]|e] eqn:Er.
    + exists (Some r :: rel). cbn [mapM]. rewrite Er, E. split; [reflexivity|].
      apply (relative_some x a b r Hx) in Er. destruct Er as [Hi Hsh].
      destruct IH as [(Hf & rs & Ers & H2)|((y & Hy & Hny) & En)].
      * left. split; [constructor; auto|]. exists (r :: rs). cbn. rewrite Ers. split; [reflexivity|].
        constructor; auto.
      * right. split; [exists y; cbn; auto|]. cbn. now rewrite En.
    + exists (None :: rel). cbn [mapM]. rewrite Er, E. split; [reflexivity|].
      apply (relative_none x a b Hx) in Er. right. split; [exists x; cbn; auto|reflexivity].
    + exfalso. rewrite (relative_eq x a b Hx) in Er. destruct (forallb _ _); discriminate.
Qed.

Lemma compile_eq subs a b contents :
  exists m, compile_substitutions subs a b contents = Ok m
   /\ matched_spans m = [(fixedpoint, (a, b))] /\ primary_label m = fixedpoint
   /\ replacements m = Some [(fixedpoint, contents)] /\ key_span m = None.
Proof.
  unfold compile_substitutions.
  set (sig := match filter significant subs with [] => false | _ => true end).
  match goal with |- context [let '(_, _) := ?p in _] => destruct p as [[h u] ms] end.
  eexists. split; [unfold make_sub, validate; cbn [category matched_spans primary_label replacements]|].
  - replace (re_match category_name_regex (merged_category sig)) with true
      by (unfold merged_category; destruct sig; vm_compute; reflexivity).
    cbn. reflexivity.
  - cbn. auto.
Qed.

Lemma Forall2_length' {A B} (R : A -> B -> Prop) l l' : Forall2 R l l' -> length l = length l'.
Proof. induction 1; cbn; congruence. Qed.

Lemma concat_one_or_more {A} (bs : list (list A)) b0 :
  Forall (fun b => b <> []) (b0 :: bs) -> bs <> [] -> (length b0 < length (concat (b0 :: bs)))%nat.
Proof.
  intros H Hne. destruct bs as [|b1 bs]; [congruence|]. cbn. rewrite !app_length.
  inversion H as [|? ? _ H']; subst. inversion H' as [|? ? Hb _]; subst. destruct b1; [congruence|]. cbn. lia.
Qed.

Lemma run_head parse_ast s path t subs batches t' pending b0 bs :
  run parse_ast s path t subs batches t' pending -> batches = b0 :: bs -> b0 = subs.
Proof. intros H E. inversion H; subst; congruence. Qed.

Lemma fixed_point_spec parse_ast s parsed initial a b max :
  initial <> [] -> Forall (fun x => validate x = Ok tt) initial ->
  1 < max -> Forall (inside a b) initial ->
  exists rels, Forall2 (is_shifted a) initial rels /\
  match fixed_point parse_ast s parsed initial a b max with
  | Ok out => exists batches t pending,
        run parse_ast s (pf_path parsed) (slice (pf_text parsed) a b) rels batches t pending
        /\ Zlen batches <= max
        /\ stops parse_ast (pf_path parsed) (Z.to_nat max) (length batches) t pending
        /\ fp_result initial batches a b t out
  | Err e => exists batches t pending,
        run parse_ast s (pf_path parsed) (slice (pf_text parsed) a b) rels batches t pending
        /\ Zlen batches < max /\ breaks parse_ast s (pf_path parsed) t pending e
  end.
Proof.
  intros Hne Hv Hm Hi. destruct (all_some_rel a b initial Hv) as (rel & E & [(_ & rs & Ers & H2)|((x & Hx & Hn) & _)]).
  2: { exfalso. rewrite Forall_forall in Hi. auto. }
  exists rs. split; [exact H2|]. unfold fixed_point. replace (max <=? 1) with false by lia.
  rewrite E. cbn [bind]. rewrite Ers.
  destruct (fp_loop _ _ _ _ _ _ _) as [[all t]|e] eqn:EL; cbn [bind].
  - apply fp_loop_ok in EL. destruct EL as (bs & pend & HR & -> & HL & HS). cbn [app].
    assert (Hrs : rs <> []) by (intros ->; inversion H2; subst; congruence).
    pose proof (run_nonempty _ _ _ _ _ _ _ _ HR Hrs) as HF.
    assert (Hlen : length rs = length initial) by (symmetry; eapply Forall2_length'; exact H2).
    destruct bs as [|b0 bs].
    + cbn [concat]. exists [], t, pend. split; [exact HR|]. split; [unfold Zlen; cbn; lia|]. split; [exact HS|reflexivity].
    + pose proof (run_head _ _ _ _ _ _ _ _ _ _ HR eq_refl) as ->.
      destruct (concat (rs :: bs)) as [|c0 c] eqn:EC.
      { exfalso. cbn in EC. apply app_eq_nil in EC. destruct EC. congruence. }
      rewrite <- EC. destruct bs as [|b1 bs].
      * cbn [concat]. rewrite app_nil_r, Hlen, Nat.eqb_refl.
        exists [rs], t, pend. split; [exact HR|]. split; [unfold Zlen; cbn in *; lia|]. split; [exact HS|reflexivity].
      * pose proof (concat_one_or_more (b1 :: bs) rs HF ltac:(discriminate)) as HC.
        replace (length (concat (rs :: b1 :: bs)) =? length initial)%nat with false
          by (symmetry; apply Nat.eqb_neq; lia).
        destruct (compile_eq (concat (rs :: b1 :: bs)) a b t) as (m & Em & _). rewrite Em. cbn [bind].
        exists (rs :: b1 :: bs), t, pend. split; [exact HR|]. split; [unfold Zlen; lia|]. split; [exact HS|].
        exists m. auto.
  - apply fp_loop_err in EL. destruct EL as (bs & t & pend & HR & HL & HB).
    exists bs, t, pend. split; [exact HR|]. split; [unfold Zlen; lia|exact HB].
Qed.

Lemma fixed_point_same parse_ast s parsed initial a b max :
  Forall (fun x => validate x = Ok tt) initial ->
  max <= 1 \/ (exists x, In x initial /\ ~ inside a b x) ->
  fixed_point parse_ast s parsed initial a b max = Ok initial.
Proof.
  intros Hv H. unfold fixed_point. destruct (Z.leb_spec max 1); [reflexivity|].
  destruct H as [H|H]; [lia|].
  destruct (all_some_rel a b initial Hv) as (rel & E & [(Hi & _)|(_ & En)]).
  - exfalso. destruct H as (x & Hx & Hn). rewrite Forall_forall in Hi. auto.
  - rewrite E. cbn [bind]. now rewrite En.
Qed.

(** The merged substitution performs the whole rewrite of the span. *)
Lemma apply_one_edit data m l a b t :
  matched_spans m = [(l, (a, b))] -> primary_label m = l -> replacements m = Some [(l, t)] ->
  category m = None \/ (exists c, category m = Some c /\ re_match category_name_regex c = true) ->
  0 <= a -> a <= b ->
  apply_substitutions data [m] = Ok (slice_to data a ++ t ++ slice_from data b).
Proof.
  intros Hm Hp Hr Hc Ha Hb.
  assert (Hv : validate m = Ok tt).
  { unfold validate. rewrite Hm, Hp, Hr.
    destruct Hc as [->|(c & -> & ->)]; cbn; unfold dmem; cbn; now rewrite text_eqb_refl. }
  assert (HE : edits_of m = [(t, a, b)]).
  { unfold edits_of. rewrite Hm, Hr. cbn. now rewrite text_eqb_refl. }
  rewrite apply_eq.
  - unfold order_of. cbn [map py_sorted sort_insert concat]. unfold group, sorted_edits. rewrite HE.
    cbn [py_sorted sort_insert]. rewrite app_nil_r. cbn [in_orderb].
    replace (0 <=? a) with true by lia. replace (a <=? b) with true by lia. cbn [andb body last_end].
    unfold slice_to. now rewrite app_nil_r, app_assoc.
  - repeat constructor. exact Hv.
  - repeat constructor. unfold nonneg_spans. rewrite Hm. repeat constructor. exact Ha.
Qed.

Lemma compile_apply data subs a b t m :
  compile_substitutions subs a b t = Ok m -> 0 <= a -> a <= b ->
  apply_substitutions data [m] = Ok (slice_to data a ++ t ++ slice_from data b).
Proof.
  intros H Ha Hb. destruct (compile_eq subs a b t) as (m' & E & Hm & Hp & Hr & _). rewrite E in H.
  injection H as ->.
  apply (apply_one_edit data m fixedpoint); auto. right.
  revert E. unfold compile_substitutions.
  match goal with |- context [let '(_, _) := ?p in _] => destruct p as [[h u] ms] end.
  unfold make_sub. destruct (validate _); [|discriminate]. cbn [bind]. intro E. injection E as <-.
  cbn [category]. eexists. split; [reflexivity|].
  unfold merged_category. destruct (filter significant subs); vm_compute; reflexivity.
Qed.

(** *** Grouping *)
Lemma key_eqb_spec x y : key_eqb x y = true <-> x = y.
Proof.
  unfold key_eqb, opt_eqb. destruct x as [[a b]|], y as [[c d]|]; split; intro H; try discriminate; try reflexivity.
  - unfold span_eqb in H. cbn in H. f_equal. f_equal; lia.
  - injection H as -> ->. unfold span_eqb. cbn. lia.
Qed.

Lemma group_by_key_spec l : grouped l (group_by_key l).
Proof.
  induction l as [|x l IH]; cbn [group_by_key]; [constructor|].
  inversion IH as [|k g rest gs Hne HF HG Hd].
  - apply (gr_cons (key_span x) [x] [] []); try constructor; try discriminate; auto.
  - destruct (key_eqb (key_span x) k) eqn:E.
    + apply key_eqb_spec in E. subst k. change (x :: g ++ rest) with ((x :: g) ++ rest).
      apply gr_cons; auto; discriminate.
    + assert (Hk : key_span x <> k) by (intro Ek; apply key_eqb_spec in Ek; congruence).
      change (x :: g ++ rest) with ([x] ++ (g ++ rest)).
      apply gr_cons; auto; [discriminate| |].
      * now apply gr_cons.
      * intros k' g' gs' Eq. injection Eq as <- <- <-. congruence.
Qed.

Lemma grouped_concat l gs : grouped l gs -> concat (map snd gs) = l.
Proof. induction 1 as [|k g rest gs Hne HF HG IH Hd]; cbn; [reflexivity|]. now rewrite IH. Qed.

Lemma find_iter_ok parse_ast s data path max out :
  find_iter parse_ast s data path max = Ok out <->
  exists parsed subs outs,
    s_check s path = Ok tt /\ s_parse s data path = Ok parsed /\ s_find s parsed = Ok subs
    /\ Forall2 (fun g o => process_group parse_ast s parsed max g = Ok o) (group_by_key subs) outs
    /\ out = concat outs.
Proof.
  unfold find_iter. split.
  - destruct (s_check s path) as [[]|]; cbn [bind]; [|discriminate].
    destruct (s_parse s data path) as [p|]; cbn [bind]; [|discriminate].
    destruct (s_find s p) as [subs|] eqn:Ef; cbn [bind]; [|discriminate].
    destruct (mapM _ _) as [outs|] eqn:Em; cbn [bind]; [|discriminate].
    intro H. injection H as <-. exists p, subs, outs. repeat split; auto. now apply mapM_Ok in Em.
  - intros (p & subs & outs & -> & -> & Hf & H2 & ->). cbn [bind]. rewrite Hf. cbn [bind].
    apply mapM_Ok in H2. now rewrite H2.
Qed.

Lemma grouped_incl l gs k g : grouped l gs -> In (k, g) gs -> incl g l.
Proof.
  intros H Hin x Hx. rewrite <- (grouped_concat _ _ H). apply in_concat. exists g. split; [|exact Hx].
  apply in_map_iff. exists (k, g). auto.
Qed.

Lemma find_iter_one parse_ast s data path max :
  max <= 1 ->
  find_iter parse_ast s data path max
  = (do _ <- s_check s path; do parsed <- s_parse s data path; s_find s parsed).
Proof.
  intro Hm. unfold find_iter.
  destruct (s_check s path) as [[]|]; cbn [bind]; [|reflexivity].
  destruct (s_parse s data path) as [p|]; cbn [bind]; [|reflexivity].
  destruct (s_find s p) as [subs|] eqn:Ef; cbn [bind]; [|reflexivity].
  assert (E : forall gs, mapM (process_group parse_ast s p max) gs = Ok (map snd gs)).
  { induction gs as [|[k g] gs IH]; cbn [mapM map]; [reflexivity|]. rewrite IH.
    unfold process_group. cbn [fst snd]. destruct k as [[a b]|]; cbn [bind]; [|reflexivity].
    unfold fixed_point. now replace (max <=? 1) with true by lia. }
  rewrite E. cbn [bind]. f_equal. apply grouped_concat, group_by_key_spec.
Qed.

(** *** C35 *)
Lemma all_same_spec {A} (eqb : A -> A -> bool) (l : list A) :
  (forall x y, eqb x y = true <-> x = y) ->
  (all_same eqb l = true <-> l <> [] /\ forall x y, In x l -> In y l -> x = y).
Proof.
  intro He. destruct l as [|x l]; cbn [all_same].
  - split; [discriminate|intros [H _]; congruence].
  - rewrite forallb_forall. split.
    + intro H. split; [discriminate|].
      assert (forall z, In z (x :: l) -> x = z) by (intros z [<-|Hz]; [reflexivity|now apply He, H]).
      intros y z Hy Hz. transitivity x; [symmetry|]; auto.
    + intros [_ H] z Hz. apply He, H; cbn; auto.
Qed.

Lemma counted_eq subs :
  match filter significant subs with [] => subs | _ => filter significant subs end = counted subs.
Proof.
  unfold counted. destruct (existsb significant subs) eqn:E.
  - apply existsb_exists in E. destruct E as (x & Hx & Hs).
    destruct (filter significant subs) eqn:Ef; [|reflexivity].
    assert (In x (filter significant subs)) by (apply filter_In; auto). rewrite Ef in H. contradiction.
  - destruct (filter significant subs) as [|x l] eqn:Ef; [reflexivity|].
    assert (H : In x (filter significant subs)) by (rewrite Ef; cbn; auto). apply filter_In in H.
    destruct H as [Hx Hs]. assert (existsb significant subs = true) by (apply existsb_exists; eauto). congruence.
Qed.
Lemma sig_eq subs :
  match filter significant subs with [] => false | _ => true end = existsb significant subs.
Proof.
  induction subs as [|x subs IH]; [reflexivity|]. cbn. destruct (significant x); [reflexivity|exact IH].
Qed.
Lemma counted_nonempty subs : subs <> [] -> counted subs <> [].
Proof.
  intros H. rewrite <- counted_eq. destruct (filter significant subs); [exact H|discriminate].
Qed.

Lemma compile_meta subs a b t m :
  subs <> [] -> compile_substitutions subs a b t = Ok m ->
  significant m = existsb significant subs
  /\ category m = Some (if existsb significant subs then TX "refex.merged.significant"
                        else TX "refex.merged.not-significant")
  /\ (all_equal (map url (counted subs)) ->
        (forall x, In x (counted subs) -> url m = url x)
        /\ (messages_of (counted subs) = [] -> message m = None)
        /\ (forall x, In x (messages_of (counted subs)) -> all_equal (messages_of (counted subs)) ->
              message m = Some x)
        /\ (~ all_equal (messages_of (counted subs)) ->
              message m = Some (findings (messages_of (counted subs)))))
  /\ (~ all_equal (map url (counted subs)) ->
        url m = Some (TX "https://refex.readthedocs.io/en/latest/guide/fixers/merged.html")
        /\ message m = Some (findings (map entry (counted subs)))).
Proof.
  intros Hne H. pose proof (counted_nonempty subs Hne) as Hc. unfold compile_substitutions in H.
  cbv zeta in H. rewrite counted_eq, sig_eq in H. set (C := counted subs) in *.
  assert (HM : flat_map (fun s0 => match message s0 with Some (c :: m0) => [c :: m0] | _ => [] end) C
               = messages_of C).
  { apply flat_map_ext. intro x. destruct (message x) as [[|? ?]|]; reflexivity. }
  rewrite HM in H. clear HM.
  assert (HW : map with_url C = map entry C).
  { apply map_ext. intro x. unfold with_url, entry, str_or_none. destruct (message x) as [[|? ?]|]; reflexivity. }
  rewrite HW in H. clear HW.
  assert (HU : all_same opt_text_eqb (map url C) = true <-> all_equal (map url C)).
  { rewrite (all_same_spec _ _ opt_text_eqb_eq). unfold all_equal. split; [tauto|]. intro HE. split; [|exact HE].
    destruct C; [congruence|discriminate]. }
  assert (HMs : all_same text_eqb (messages_of C) = true <-> messages_of C <> [] /\ all_equal (messages_of C)).
  { apply (all_same_spec _ _ text_eqb_eq). }
  revert H. destruct (all_same opt_text_eqb (map url C)) eqn:EU.
  - destruct (all_same text_eqb (messages_of C)) eqn:EM.
    + unfold make_sub. destruct (validate _); [|discriminate]. cbn [bind]. intro H. injection H as <-.
      cbn [significant category url message].
      split; [reflexivity|]. split; [unfold merged_category; destruct (existsb significant subs); reflexivity|].
      split; [|intro Hn; exfalso; apply Hn, HU; reflexivity].
      intro HE. destruct (proj1 HMs eq_refl) as [HM1 HM2].
      split; [|split; [|split]].
      * destruct C as [|c0 C']; [congruence|]. intros x Hx. apply HE; apply in_map_iff; [exists c0|exists x]; cbn; auto.
      * congruence.
      * intros x Hx _. destruct (messages_of C) as [|m0 ms] eqn:Em; [congruence|].
        cbn. f_equal. apply HM2; cbn; auto.
      * intro Hn. contradiction.
    + unfold make_sub. destruct (validate _); [|discriminate]. cbn [bind]. intro H. injection H as <-.
      cbn [significant category url message].
      split; [reflexivity|]. split; [unfold merged_category; destruct (existsb significant subs); reflexivity|].
      split; [|intro Hn; exfalso; apply Hn, HU; reflexivity].
      intro HE. split; [|split; [|split]].
      * destruct C as [|c0 C']; [congruence|]. intros x Hx. apply HE; apply in_map_iff; [exists c0|exists x]; cbn; auto.
      * intros ->. reflexivity.
      * intros x Hx HA. assert (false = true); [|discriminate]. apply HMs. split; [|exact HA].
        intro En. rewrite En in Hx. contradiction.
      * intro Hn. destruct (messages_of C) eqn:Em; [exfalso; apply Hn; intros ? ? []|reflexivity].
  - unfold make_sub. destruct (validate _); [|discriminate]. cbn [bind]. intro H. injection H as <-.
    cbn [significant category url message].
    split; [reflexivity|]. split; [unfold merged_category; destruct (existsb significant subs); reflexivity|].
    split; [intro HE; apply HU in HE; discriminate|].
    intros _. split; [reflexivity|]. destruct C; [congruence|reflexivity].
Qed.

(** Applying what [fixed_point] yields to the whole text puts the final text of
    the run in place of the span. *)
Lemma fixed_point_rewrites parse_ast s path data initial rels a b batches t pending out :
  0 <= a -> a <= b -> b <= tlen data ->
  Forall (fun x => validate x = Ok tt) initial -> Forall nonneg_spans initial ->
  Forall (inside a b) initial -> Forall2 (is_shifted a) initial rels ->
  (exists x, initial = [x]) \/ (forall x, In x initial -> edits_of x <> []) ->
  run parse_ast s path (slice data a b) rels batches t pending ->
  batches <> [] -> fp_result initial batches a b t out ->
  apply_substitutions data out = Ok (slice_to data a ++ t ++ slice_from data b).
Proof.
  intros Ha Hab Hb Hv Hn Hi Hsh Hcase HR Hne Hout.
  destruct batches as [|b0 [|b1 bs]]; [congruence| |].
  - cbn in Hout. subst out. rewrite (apply_relative_gen data initial rels a b) by auto.
    inversion HR as [|? ? t1 subs1 ? ? ? St Hnil HR']; subst. inversion HR'; subst.
    destruct St as [Ea _]. rewrite Ea. reflexivity.
  - cbn in Hout. destruct Hout as (m & Hm & ->). eapply compile_apply; eauto.
Qed.
