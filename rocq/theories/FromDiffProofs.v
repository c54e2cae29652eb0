From Verif Require Import Py PyFacts Subst Fmt Ast Template Search ApplySpec ApplyProofs FromDiff FromDiffSpec.
From Coq Require Import DecimalString DecimalNat Ascii.

Open Scope Z_scope.

Lemma splitlines_concat s : concat (splitlines_keep s) = s.
Proof.
  assert (H : forall n s, (List.length s <= n)%nat -> concat (splitlines_keep s) = s).
  { clear s. induction n as [|n IH]; intros [|x s] Hn; cbn [List.length] in Hn; try reflexivity; [lia|].
    cbn [splitlines_keep]. destruct (is_linebreak x).
    - destruct s as [|y s]; [reflexivity|]. cbn [List.length] in Hn. destruct ((x =? 13) && (y =? 10)).
      + cbn [concat app]. rewrite IH by lia. reflexivity.
      + cbn [concat app]. rewrite IH by (cbn; lia). reflexivity.
    - pose proof (IH s ltac:(lia)) as E. destruct (splitlines_keep s) as [|l ls]; cbn [concat app] in *; congruence. }
  now apply (H (List.length s)).
Qed.

Lemma ascii_z_inj a b : Z.of_nat (nat_of_ascii a) = Z.of_nat (nat_of_ascii b) -> a = b.
Proof.
  intro H. apply Nat2Z.inj in H. rewrite <- (ascii_nat_embedding a), <- (ascii_nat_embedding b). now rewrite H.
Qed.
Lemma s2t_inj a : forall b, s2t a = s2t b -> a = b.
Proof.
  induction a as [|c a IH]; intros [|d b]; cbn; try discriminate; [reflexivity|].
  intro H. injection H as H1 H2. rewrite (IH _ H2). f_equal.
  now apply ascii_z_inj.
Qed.
Lemma dec_inj i j : dec i = dec j -> i = j.
Proof.
  unfold dec. intro H. apply s2t_inj in H.
  pose proof (NilEmpty.usu (Nat.to_uint i)) as Hi. pose proof (NilEmpty.usu (Nat.to_uint j)) as Hj.
  rewrite H, Hj in Hi. injection Hi as Hi. rewrite <- (Unsigned.of_to i), <- (Unsigned.of_to j). now rewrite Hi.
Qed.
Lemma hunk_label_inj p i j : hunk_label p i = hunk_label p j -> i = j.
Proof. unfold hunk_label. intro H. apply app_inv_head in H. apply app_inv_head in H. now apply dec_inj. Qed.
Lemma hunk_label_dot p i : In 46 (hunk_label p i).
Proof. unfold hunk_label. apply in_or_app. right. now left. Qed.

Definition hedit (h : hunk) : edit := let '(s, e, l) := h in (concat l, s, e).

Lemma Edited_extend s a b es out : 0 <= a -> a <= b -> b <= tlen s ->
  Edited s b es out -> Edited s a es (slice s a b ++ out).
Proof.
  intros Ha Hab Hb H. inversion H as [p Hp|p t c d es' out' Hp Hpc Hcd H']; subst.
  - unfold slice_from. rewrite slice_app by lia. constructor. assumption.
  - rewrite app_assoc, slice_app by lia. constructor; try lia. assumption.
Qed.

Lemma shown_prefix d : slice_to (shown d) 2 = match d with Both _ => pre_same | Old _ => pre_del | New _ => pre_add | Hint _ => pre_hint end.
Proof. destruct d; cbn [shown]; unfold slice_to; rewrite slice_app_l by (cbn; lia); reflexivity. Qed.
Lemma shown_line d : slice_from (shown d) 2 = match d with Both l | Old l | New l | Hint l => l end.
Proof.
  assert (H : forall p l : text, tlen p = 2 -> slice_from (p ++ l) 2 = l).
  { intros p l Hp. unfold slice_from. pose proof (tlen_nonneg l).
    assert (Hl : tlen (p ++ l) = 2 + tlen l) by (unfold tlen in *; rewrite app_length; lia).
    rewrite Hl, slice_app_r by lia. rewrite Hp. replace (2 - 2) with 0 by lia. replace (2 + tlen l - 2) with (tlen l) by lia.
    apply slice_full. }
  destruct d; cbn [shown]; apply H; reflexivity.
Qed.

(** Hunks are separated by at least one character. *)
Fixpoint sep (p : Z) (hs : list hunk) : Prop :=
  match hs with
  | [] => True
  | (s, e, _) :: rest => p <= s /\ s <= e /\ sep (e + 1) rest
  end.
Lemma sep_le p q hs : q <= p -> sep p hs -> sep q hs.
Proof. destruct hs as [|[[s e] l] hs]; cbn; [auto|]. intuition lia. Qed.

(** The loop, without accumulator. *)
Lemma diff_loop_spec before ds : forall pre start fin rep acc,
  before = pre ++ concat (old_lines ds) -> tlen pre = fin -> 0 <= start -> start <= fin ->
  Forall (fun l => l <> []) (old_lines ds) ->
  exists hs, diff_loop (map shown ds ++ [TX "  "]) start fin rep acc = Ok (acc ++ hs, [])
    /\ sep start hs
    /\ Edited before start (map hedit hs)
         (concat rep ++ concat (new_lines ds)).
Proof.
  assert (Hend : forall start fin rep acc out, 0 <= start -> start <= fin -> fin <= tlen before ->
     Edited before fin (map hedit []) out ->
     exists hs, diff_loop [TX "  "] start fin rep acc = Ok (acc ++ hs, [])
       /\ sep start hs
       /\ Edited before start (map hedit hs) (concat rep ++ out)).
  { intros start fin rep acc out H0 H1 H2 HE.
    cbn [diff_loop]. change (slice_to (TX "  ") 2) with pre_same. rewrite text_eqb_refl.
    destruct ((match rep with [] => false | _ => true end) || negb (start =? fin)) eqn:E.
    - exists [(start, fin, rep)]. split; [reflexivity|]. split; [cbn; lia|]. cbn [map hedit].
      replace (concat rep ++ out) with (slice before start start ++ concat rep ++ out) by now rewrite slice_empty.
      constructor; try lia. exact HE.
    - apply orb_false_iff in E. destruct E as [E1 E2]. destruct rep; [|discriminate]. apply negb_false_iff, Z.eqb_eq in E2.
      subst fin. exists []. split; [now rewrite app_nil_r|]. split; [exact I|]. exact HE. }
  induction ds as [|d ds IH]; intros pre start fin rep acc Hb Hp H0 H1 HF; cbn [map app].
  - cbn [old_lines flat_map concat] in Hb. rewrite app_nil_r in Hb. subst pre.
    apply Hend; try lia. cbn [map new_lines flat_map concat].
    assert (E : slice_from before fin = []) by (unfold slice_from; rewrite Hp; apply slice_empty).
    rewrite <- E. constructor. pose proof (tlen_nonneg before). lia.
  - pose proof (shown_prefix d) as Ep. pose proof (shown_line d) as El.
    remember (shown d) as raw eqn:Eraw. clear Eraw. cbn [diff_loop]. rewrite Ep, El. destruct d as [l|l|l|l].
    + rewrite text_eqb_refl. cbn [old_lines flat_map app concat] in Hb. fold (old_lines ds) in Hb.
      assert (Hb' : before = (pre ++ l) ++ concat (old_lines ds)) by (rewrite <- app_assoc; exact Hb).
      assert (Hp' : tlen (pre ++ l) = fin + tlen l) by (unfold tlen in *; rewrite app_length; lia).
      cbn [old_lines flat_map app] in HF. inversion HF as [|? ? Hne HF2]; subst x l0. fold (old_lines ds) in HF2.
      assert (Hl1 : 1 <= tlen l) by (destruct l; [congruence|unfold tlen; cbn [List.length]; lia]).
      pose proof (tlen_nonneg l) as Hl. pose proof (tlen_nonneg (concat (old_lines ds))) as Hl2.
      assert (Hlen : tlen before = fin + tlen l + tlen (concat (old_lines ds)))
        by (rewrite Hb'; unfold tlen in *; rewrite app_length; lia).
      assert (Hs : slice before fin (fin + tlen l) = l).
      { rewrite Hb. rewrite slice_app_r by lia. rewrite Hp. replace (fin - fin) with 0 by lia.
        replace (fin + tlen l - fin) with (tlen l) by lia. rewrite slice_app_l by lia. apply slice_full. }
      cbn [new_lines flat_map app concat]. fold (new_lines ds).
      destruct ((match rep with [] => false | _ => true end) || negb (start =? fin)) eqn:E.
      * destruct (IH (pre ++ l) (fin + tlen l) (fin + tlen l) [] (acc ++ [(start, fin, rep)]) Hb' Hp' ltac:(lia) ltac:(lia) HF2)
          as (hs & E1 & Es & E2).
        cbn [concat app] in E2. rewrite E1. exists ((start, fin, rep) :: hs). split; [now rewrite <- app_assoc|].
        split; [cbn [sep]; split; [lia|split; [lia|]]; eapply sep_le; [|exact Es]; lia|].
        cbn [map hedit]. replace (concat rep ++ l ++ concat (new_lines ds))
          with (slice before start start ++ concat rep ++ l ++ concat (new_lines ds)) by now rewrite slice_empty.
        constructor; try lia. rewrite <- Hs. apply Edited_extend; try lia. exact E2.
      * apply orb_false_iff in E. destruct E as [Er E]. destruct rep; [|discriminate]. apply negb_false_iff, Z.eqb_eq in E.
        subst start. destruct (IH (pre ++ l) (fin + tlen l) (fin + tlen l) [] acc Hb' Hp' ltac:(lia) ltac:(lia) HF2)
          as (hs & E1 & Es & E2).
        cbn [concat app] in E2 |- *. rewrite E1. exists hs. split; [reflexivity|].
        split; [eapply sep_le; [|exact Es]; lia|].
        rewrite <- Hs. apply Edited_extend; try lia. exact E2.
    + change (text_eqb pre_del pre_same) with false. change (text_eqb pre_del pre_add) with false. rewrite text_eqb_refl.
      cbn [old_lines flat_map app concat] in Hb. fold (old_lines ds) in Hb.
      assert (Hb' : before = (pre ++ l) ++ concat (old_lines ds)) by (rewrite <- app_assoc; exact Hb).
      assert (Hp' : tlen (pre ++ l) = fin + tlen l) by (unfold tlen in *; rewrite app_length; lia).
      pose proof (tlen_nonneg l) as Hl.
      cbn [old_lines flat_map app] in HF. inversion HF as [|? ? Hne HF2]; subst x l0. fold (old_lines ds) in HF2.
      destruct (IH (pre ++ l) start (fin + tlen l) rep acc Hb' Hp' ltac:(lia) ltac:(lia) HF2) as (hs & E1 & E2).
      eauto.
    + change (text_eqb pre_add pre_same) with false. rewrite text_eqb_refl.
      destruct (IH pre start fin (rep ++ [l]) acc Hb Hp ltac:(lia) ltac:(lia) HF) as (hs & E1 & Es & E2).
      rewrite concat_app in E2. cbn [concat] in E2. rewrite app_nil_r, <- app_assoc in E2.
      cbn [new_lines flat_map app concat]. eauto.
    + change (text_eqb pre_hint pre_same) with false. change (text_eqb pre_hint pre_add) with false.
      change (text_eqb pre_hint pre_del) with false. rewrite text_eqb_refl.
      destruct (IH pre start fin rep acc Hb Hp ltac:(lia) ltac:(lia) HF) as (hs & E1 & E2).
      eauto.
Qed.

(** *** The substitution made of it *)
Lemma sep_sorted p hs : sep p hs ->
  StronglySorted (fun x y => edit_span_leb x y = true) (map hedit hs)
  /\ StronglySorted (fun x y : edit => snd x < snd (fst y)) (map hedit hs)
  /\ Forall (fun e : edit => p <= snd (fst e) /\ snd (fst e) <= snd e) (map hedit hs).
Proof.
  revert p. induction hs as [|[[s e] l] hs IH]; intro p; cbn [map]; [intros _; repeat split; constructor|].
  intros (H1 & H2 & H3). apply IH in H3. destruct H3 as (H3 & H4 & H5). split; [|split].
  - constructor; [assumption|]. eapply Forall_impl; [|exact H5]. intros [[t a] b] [Ha Hb]. cbn in *.
    unfold span_leb. cbn. lia.
  - constructor; [assumption|]. eapply Forall_impl; [|exact H5]. intros [[t a] b] [Ha Hb]. cbn in *. lia.
  - constructor; [cbn; lia|]. eapply Forall_impl; [|exact H5]. intros [[t a] b] [Ha Hb]. cbn in *. lia.
Qed.

Lemma filter_single {A} (P : A -> bool) l :
  (forall x, In x l -> P x = true -> forall y, In y l -> P y = true -> x = y) -> NoDup l ->
  (List.length (filter P l) <= 1)%nat.
Proof.
  intros H Hn. pose proof (NoDup_filter P Hn) as Hf.
  destruct (filter P l) as [|x [|y r]] eqn:E; cbn; try lia. exfalso.
  assert (Hx : In x (filter P l)) by (rewrite E; now left).
  assert (Hy : In y (filter P l)) by (rewrite E; right; now left).
  apply filter_In in Hx, Hy. assert (x = y) by (apply H; tauto). subst y.
  inversion Hf as [|? ? Hni _]; subst. apply Hni. now left.
Qed.
Lemma perm_filter {A} (P : A -> bool) l l' : Permutation l l' -> Permutation (filter P l) (filter P l').
Proof.
  induction 1; cbn; try destruct (P x); try destruct (P y); eauto using Permutation; constructor.
Qed.
Lemma perm_short {A} (l l' : list A) : Permutation l l' -> (List.length l <= 1)%nat -> l = l'.
Proof.
  intros H Hl. destruct l as [|x [|y l]]; cbn in Hl; try lia.
  - apply Permutation_nil in H. now subst.
  - apply Permutation_length_1_inv in H. now subst.
Qed.

Lemma apply_separate_hunks before after s hs :
  wf_sub s -> nonneg_spans s -> sep 0 hs -> Permutation (edits_of s) (map hedit hs) ->
  Edited before 0 (map hedit hs) after -> apply_substitutions before [s] = Ok after.
Proof.
  intros Hw Hn Hs HP HE. destruct (sep_sorted _ _ Hs) as (S1 & S2 & S3).
  assert (Hst : StableSorted edit_span_leb (edits_of s) (map hedit hs)).
  { split; [assumption|]. split; [assumption|]. intro x.
    apply perm_short; [apply perm_filter; now apply Permutation_sym|].
    set (P := fun y => _).
    clear -S2 S3. remember (map hedit hs) as es eqn:Ees. clear Ees.
    induction S2 as [|e es HS IH HF]; [cbn; lia|]. inversion S3 as [|? ? He HFe]; subst.
    cbn [filter]. destruct (P e) eqn:Ee; [|now apply IH].
    assert (filter P es = []) as ->; [|cbn; lia].
    rewrite Forall_forall in HF, HFe.
    destruct (filter P es) as [|y r] eqn:Ef; [reflexivity|]. exfalso.
    assert (Hy : In y (filter P es)) by (rewrite Ef; now left). apply filter_In in Hy. destruct Hy as [Hy Hy2].
    pose proof (HF _ Hy). pose proof (HFe _ Hy).
    destruct x as [[? x1] x2], e as [[? e1] e2], y as [[? y1] y2]. unfold P, edit_span_leb, span_leb in *. cbn in *. lia. }
  set (g := match map hedit hs with [] => [([], 0, 0)] | es => es end).
  assert (Ho : is_edit_order [s] g).
  { exists [g], [g]. split; [apply Forall2_cons; [exists (map hedit hs); split; [assumption|unfold g; now destruct (map hedit hs)]|apply Forall2_nil]|].
    split; [|cbn; now rewrite app_nil_r]. split; [reflexivity|]. split; [repeat constructor|]. reflexivity. }
  destruct (apply_exact before [s] g ltac:(repeat constructor; apply Hw || assumption) ltac:(repeat constructor; assumption) Ho) as [Hok _].
  assert (Hg : Edited before 0 g after).
  { unfold g. destruct (map hedit hs) as [|e es]; [|exact HE].
    replace after with (slice before 0 0 ++ [] ++ after) by (now rewrite slice_empty). constructor; try lia. assumption. }
  destruct (Hok (Edited_in_order _ _ _ _ Hg)) as (out & E & HE'). rewrite E. f_equal.
  eapply Edited_fun; eassumption.
Qed.

Fixpoint hunk_texts (prefix : text) (i : nat) (hs : list hunk) : dict text :=
  match hs with
  | [] => []
  | (_, _, l) :: rest => (hunk_label prefix i, concat l) :: hunk_texts prefix (S i) rest
  end.
Fixpoint hunk_spans (prefix : text) (i : nat) (hs : list hunk) : dict span :=
  match hs with
  | [] => []
  | (s, e, _) :: rest => (hunk_label prefix i, (s, e)) :: hunk_spans prefix (S i) rest
  end.
Lemma hunk_keys p b hs : forall i,
  dkeys (fst (hunk_dicts p b i hs)) = map (hunk_label p) (seq i (List.length hs))
  /\ dkeys (snd (hunk_dicts p b i hs)) = map (hunk_label p) (seq i (List.length hs))
  /\ dkeys (hunk_texts p i hs) = map (hunk_label p) (seq i (List.length hs))
  /\ dkeys (hunk_spans p i hs) = map (hunk_label p) (seq i (List.length hs)).
Proof.
  induction hs as [|[[s e] l] hs IH]; intro i; cbn [hunk_dicts hunk_texts hunk_spans]; [repeat split; reflexivity|].
  destruct (IH (S i)) as (H1 & H2 & H3 & H4). destruct (hunk_dicts p b (S i) hs) as [bs rs].
  unfold dkeys in *. cbn [fst snd map List.length seq] in *. rewrite H1, H2, H3, H4. auto.
Qed.
Lemma labels_nodup p i n : NoDup (map (hunk_label p) (seq i n)).
Proof.
  apply FinFun.Injective_map_NoDup; [|apply seq_NoDup]. intros x y. apply hunk_label_inj.
Qed.
Lemma label_not_plain p i (l : text) : ~ In 46 l -> hunk_label p i <> l.
Proof. intros H E. apply H. rewrite <- E. apply hunk_label_dot. Qed.
Lemma not_plain_key p i n (l : text) : ~ In 46 l -> ~ In l (map (hunk_label p) (seq i n)).
Proof. intros H Hin. apply in_map_iff in Hin. destruct Hin as (j & E & _). exact (label_not_plain p j l H E). Qed.

Lemma edits_of_perm s s' : Permutation (matched_spans s) (matched_spans s') -> replacements s = replacements s' ->
  Permutation (edits_of s) (edits_of s').
Proof. intros H E. unfold edits_of. rewrite E. now apply flat_map_perm. Qed.

Lemma ddel_absent {V} (d : dict V) k : ~ In k (dkeys d) -> ddel d k = d.
Proof.
  unfold dkeys. induction d as [|[k' v] d IH]; cbn; [reflexivity|]. intro H.
  destruct (text_eqb k' k) eqn:E; [apply text_eqb_eq in E; exfalso; apply H; now left|].
  rewrite IH; [reflexivity|]. intro. apply H. now right.
Qed.

Lemma hunk_in p b hs : forall i l m, In (l, m) (fst (hunk_dicts p b i hs)) ->
  exists s e a, In (s, e, a) hs /\ m = span_match b (s, e).
Proof.
  induction hs as [|[[s e] a] hs IH]; intros i l m; cbn [hunk_dicts]; [contradiction|].
  specialize (IH (S i) l m). destruct (hunk_dicts p b (S i) hs) as [bs rs]. cbn [fst] in *.
  intros [H|H]; [injection H as <- <-; exists s, e, a; split; [now left|reflexivity]|].
  destruct (IH H) as (s' & e' & a' & Hin & ->). exists s', e', a'. split; [now right|reflexivity].
Qed.

Lemma located_cons l m ms a b : m_span m = Some (a, b) -> 0 <= a -> located ((l, m) :: ms) = (l, (a, b)) :: located ms.
Proof.
  intros H Ha. unfold located. cbn [flat_map fst snd]. rewrite H. unfold span_eqb at 1. cbn [fst snd].
  destruct (Z.eqb_spec a (-1)); [lia|]. reflexivity.
Qed.
Lemma located_hunks p b hs : Forall (fun h : hunk => 0 <= fst (fst h)) hs -> forall i,
  located (fst (hunk_dicts p b i hs)) = hunk_spans p i hs.
Proof.
  induction 1 as [|[[s e] a] hs Hs _ IH]; intro i; cbn [hunk_dicts hunk_spans]; [reflexivity|].
  specialize (IH (S i)). destruct (hunk_dicts p b (S i) hs) as [bs rs]. cbn [fst] in *.
  rewrite (located_cons _ (span_match b (s, e)) _ s e eq_refl Hs). now rewrite IH.
Qed.

Lemma rewrite_hunks parsed ms p b hs : Forall (fun h : hunk => 0 <= fst (fst h)) hs -> forall i,
  (forall l m, In (l, m) (fst (hunk_dicts p b i hs)) -> dget ms l = Some m) ->
  rewrite_templates parsed ms (snd (hunk_dicts p b i hs)) = Ok (hunk_texts p i hs).
Proof.
  induction 1 as [|[[s e] a] hs Hs _ IH]; intros i H; cbn [hunk_dicts hunk_texts] in *; [reflexivity|].
  specialize (IH (S i)). destruct (hunk_dicts p b (S i) hs) as [bs rs]. cbn [fst snd] in *.
  cbn [rewrite_templates]. rewrite (H _ _ (or_introl eq_refl)). cbn [span_match m_span no_span].
  unfold span_eqb. cbn [fst snd]. destruct (Z.eqb_spec s (-1)); [lia|]. cbn [andb].
  cbn [literal_template t_substitute bind]. rewrite IH; [reflexivity|]. intros. apply H. now right.
Qed.

Lemma hunk_edits p hs : forall i (d : dict text),
  (forall j, (i <= j)%nat -> dget d (hunk_label p j) = dget (hunk_texts p i hs) (hunk_label p j)) ->
  flat_map (fun kv : label * span => let '(l, (a, b)) := kv in
     match dget d l with Some t => [(t, a, b)] | None => [] end) (hunk_spans p i hs) = map hedit hs.
Proof.
  induction hs as [|[[s e] a] hs IH]; intros i d H; cbn [hunk_spans flat_map map hedit]; [reflexivity|].
  rewrite (H i) by lia. cbn [hunk_texts dget]. rewrite text_eqb_refl. cbn [app]. f_equal.
  apply IH. intros j Hj. rewrite H by lia. cbn [hunk_texts dget].
  destruct (text_eqb (hunk_label p i) (hunk_label p j)) eqn:E; [|reflexivity].
  apply text_eqb_eq, hunk_label_inj in E. lia.
Qed.

Lemma old_nonempty s : Forall (fun l : text => l <> []) (splitlines_keep s).
Proof.
  assert (H : forall n s, (List.length s <= n)%nat -> Forall (fun l : text => l <> []) (splitlines_keep s)).
  { clear s. induction n as [|n IH]; intros [|x s] Hn; cbn [List.length] in Hn; try solve [constructor]; [lia|].
    cbn [splitlines_keep]. destruct (is_linebreak x).
    - destruct s as [|y s]; [constructor; [discriminate|constructor]|]. cbn [List.length] in Hn.
      destruct ((x =? 13) && (y =? 10)); constructor; try discriminate; apply IH; cbn; lia.
    - pose proof (IH s ltac:(lia)) as E. destruct (splitlines_keep s) as [|l ls]; constructor; try discriminate.
      + constructor. + now inversion E. }
  now apply (H (List.length s)).
Qed.

Lemma from_diff_spec differ p before after : is_differ differ ->
  exists bs ts, from_diff differ p before after = Ok (bs, ts)
    /\ forall parsed root a b ms key,
         m_span root = Some (a, b) -> 0 <= a -> Permutation ms ((ROOT_LABEL, root) :: bs) ->
         exists reps s, rewrite_templates parsed ms ts = Ok reps /\ sub_of_match ms reps key = Ok s
           /\ apply_substitutions before [s] = Ok after.
Proof.
  intro Hd. destruct (Hd (splitlines_keep before) (splitlines_keep after)) as (ds & E & Eo & En).
  destruct (diff_loop_spec before ds [] 0 0 [] []) as (hs & El & Hsep & HE); try reflexivity; try lia.
  { rewrite Eo. symmetry. apply splitlines_concat. }
  { rewrite Eo. apply old_nonempty. }
  rewrite En, splitlines_concat in HE. cbn [app concat] in HE, El.
  unfold from_diff. rewrite E, El. cbn [bind].
  assert (Hnn : Forall (fun h : hunk => 0 <= fst (fst h)) hs).
  { destruct (sep_sorted _ _ Hsep) as (_ & _ & HF). rewrite Forall_map in HF. eapply Forall_impl; [|exact HF].
    intros [[s e] l]. cbn. lia. }
  pose proof (hunk_keys p before hs 0) as (K1 & K2 & K3 & K4).
  pose proof (located_hunks p before hs Hnn 0) as HL.
  pose proof (fun parsed ms => rewrite_hunks parsed ms p before hs Hnn 0) as HR.
  destruct (hunk_dicts p before 0 hs) as [bs ts]. cbn [fst snd] in *.
  exists bs, ts. split; [reflexivity|]. intros parsed root a b ms key Hroot Ha HP.
  set (n := List.length hs) in *.
  assert (Hroot_ni : ~ In ROOT_LABEL (map (hunk_label p) (seq 0 n))) by (apply not_plain_key; cbn; intuition discriminate).
  assert (Hms : dict_ok ms).
  { unfold dict_ok, dkeys. eapply Permutation_NoDup; [apply Permutation_map, Permutation_sym, HP|].
    cbn [map fst]. unfold dkeys in K1. rewrite K1. constructor; [assumption|apply labels_nodup]. }
  assert (Hget : forall l m, In (l, m) bs -> dget ms l = Some m).
  { intros l m Hin. apply In_dget; [assumption|]. eapply Permutation_in; [apply Permutation_sym, HP|]. now right. }
  exists (hunk_texts p 0 hs). rewrite (HR parsed ms Hget). clear HR.
  set (reps := hunk_texts p 0 hs) in *.
  assert (Hloc : Permutation (located ms) ((ROOT_LABEL, (a, b)) :: hunk_spans p 0 hs)).
  { transitivity (located ((ROOT_LABEL, root) :: bs)); [unfold located; now apply flat_map_perm|].
    rewrite (located_cons _ _ _ _ _ Hroot Ha). now rewrite HL. }
  assert (Hlok : dict_ok (located ms)).
  { unfold dict_ok, dkeys. eapply Permutation_NoDup; [apply Permutation_map, Permutation_sym, Hloc|].
    cbn [map fst]. unfold dkeys in K4. rewrite K4. constructor; [assumption|apply labels_nodup]. }
  unfold sub_of_match.
  assert (Hdel : forall l : text, ~ In 46 l -> ddel reps l = reps /\ dget reps l = None).
  { intros l Hl. assert (~ In l (dkeys reps)) by (rewrite K3; now apply not_plain_key).
    split; [now apply ddel_absent|now apply dget_None]. }
  destruct (Hdel MESSAGE_LABEL) as [-> ->]; [cbn; intuition discriminate|].
  destruct (Hdel URL_LABEL) as [-> ->]; [cbn; intuition discriminate|].
  destruct (Hdel CATEGORY_LABEL) as [-> ->]; [cbn; intuition discriminate|].
  destruct (Hdel SIGNIFICANT_LABEL) as [-> ->]; [cbn; intuition discriminate|].
  match goal with |- context [make_sub ?x] => set (s := x) end.
  assert (Hv : validate s = Ok tt).
  { unfold validate, s. cbn [category matched_spans primary_label replacements].
    assert (Hk : forall k, In k (dkeys (located ms)) <-> k = ROOT_LABEL \/ In k (map (hunk_label p) (seq 0 n))).
    { intro k. unfold dkeys. split; intro H.
      - apply (Permutation_in _ (Permutation_map fst Hloc)) in H. cbn [map fst] in H. unfold dkeys in K4. rewrite K4 in H.
        destruct H as [H|H]; [left; congruence|now right].
      - apply (Permutation_in _ (Permutation_map fst (Permutation_sym Hloc))). cbn [map fst]. unfold dkeys in K4. rewrite K4.
        destruct H as [H|H]; [left; congruence|now right]. }
    replace (dmem (located ms) ROOT_LABEL) with true by (symmetry; apply dmem_keys, Hk; now left).
    cbn [negb]. replace (forallb _ (dkeys reps)) with true; [reflexivity|]. symmetry. apply forallb_forall.
    intros k Hin. apply dmem_keys, Hk. right. now rewrite <- K3. }
  exists s. split; [reflexivity|]. unfold make_sub. rewrite Hv. split; [reflexivity|].
  assert (Hrep_root : dget reps ROOT_LABEL = None) by (apply dget_None; rewrite K3; assumption).
  apply (apply_separate_hunks before after s hs).
  - split; [exact Hlok|]. split; [|exact Hv]. intros r Hr. injection Hr as <-. unfold dict_ok. rewrite K3. apply labels_nodup.
  - unfold nonneg_spans. cbn [matched_spans s]. eapply Permutation_Forall; [apply Permutation_sym, Hloc|].
    constructor; [exact Ha|]. clear -Hnn. generalize 0%nat. induction Hnn as [|[[s e] l] hs H _ IH]; intro i; cbn [hunk_spans]; constructor; auto.
  - exact Hsep.
  - transitivity (edits_of (Sub ((ROOT_LABEL, (a, b)) :: hunk_spans p 0 hs) ROOT_LABEL (Some reps) None None false None key)).
    + apply edits_of_perm; [exact Hloc|reflexivity].
    + unfold edits_of. cbn [matched_spans replacements flat_map]. rewrite Hrep_root. cbn [app].
      rewrite (hunk_edits p hs 0 reps) by reflexivity. reflexivity.
  - exact HE.
Qed.
