(** The source of a pattern after its metavariables are renamed. *)
From Verif Require Import Py PyFacts Ast Template FromDiff PatTok PatSpec PatTokProofs LexProofs.
From Coq Require Import Lia Permutation.

(** Every metavariable its own new text. *)
Fixpoint fill_each (news : list text) (l : list (ptok * bool)) : list ptok :=
  match l with
  | [] => []
  | (t, true) :: r => match news with
                      | n :: news' => with_string t n :: fill_each news' r
                      | [] => t :: fill_each [] r
                      end
  | (t, false) :: r => t :: fill_each news r
  end.
Lemma expand_each_keep news g t gl : pt_string t <> TX "$" ->
  expand_each news ((g, t) :: gl) = g ++ shown t ++ expand_each news gl.
Proof.
  intros H. cbn [expand_each]. destruct gl as [|[g2 v] gl]; [reflexivity|]. destruct news as [|n news]; [reflexivity|].
  now replace (text_eqb (pt_string t) (TX "$")) with false by (symmetry; now apply text_eqb_neq).
Qed.
Lemma merge_placed_each w p at_ ind gl : spelled w p at_ ind gl -> forall l, marked (map snd gl) l ->
  exists gs, length gs = length l /\
    forall news, length news = length (filter snd l) -> placed w p at_ ind (combine gs (fill_each news l))
      /\ upto_end (combine gs (fill_each news l)) = expand_each news gl.
Proof.
  intros H. remember (length gl) as n eqn:Hn. assert (Hle : (length gl <= n)%nat) by lia. clear Hn.
  revert w p at_ ind gl Hle H.
  induction n as [|n IH]; intros w p at_ ind gl Hle H l Hm; [destruct gl; [inversion H|cbn in Hle; lia]|].
  assert (Keep : forall g t gl' w' p' at' ind', gl = (g, t) :: gl' -> pt_string t <> TX "$" ->
     pt_type t <> T_ENDMARKER -> spelled w' p' at' ind' gl' ->
     (forall m, placed w' p' at' ind' m -> placed w p at_ ind ((g, t) :: m)) ->
     exists gs, length gs = length l /\ forall news, length news = length (filter snd l) -> placed w p at_ ind (combine gs (fill_each news l))
      /\ upto_end (combine gs (fill_each news l)) = expand_each news gl).
  { intros g t gl' w' p' at' ind' -> Hd He Hsp Hpl. cbn [map snd] in Hm. cbn [length] in Hle.
    inversion Hm as [|? ? l0 ? Hl0|]; subst; [|congruence].
    destruct (IH _ _ _ _ gl' ltac:(lia) Hsp _ Hl0) as (gs & Hlen & Hgs).
    exists (g :: gs). split; [cbn; lia|]. intros news Hnews. cbn [filter snd length] in Hnews. destruct (Hgs news Hnews) as [G1 G2].
    cbn [map combine fill_each snd fst]. split; [now apply Hpl|].
    cbn [upto_end]. apply Z.eqb_neq in He. rewrite He, G2. now rewrite expand_each_keep. }
  inversion H as [p0 a0 i0 t w0 Ht Hs0|p1 a0 i0 w0 g0 t gl' Hw Hbl Hs He Hcol Hsl Hsp|row col a0 i0 k t gl' Hnl Hspc Hs Hr Hsp
                 |p0 a0 i0 k t gl' Ht Hstr Hat Hsp|row i i0 w0 t gl' Ht Hs0 Hr Hc Hsp]; subst.
  - cbn [map snd] in Hm. inversion Hm as [|? ? l0 Hd Hl0|]; subst. inversion Hl0; subst.
    exists [[]]. split; [reflexivity|]. intros news Hnews. cbn [map combine fill_each snd fst]. split; [now constructor|].
    cbn [upto_end expand_each]. rewrite Ht. unfold shown. now rewrite Ht.
  - destruct (text_eqb (pt_string t) (TX "$")) eqn:Ed.
    + apply text_eqb_eq in Ed. cbn [map snd] in Hm.
      inversion Hm as [|? ? l0 Hd Hl0|d v r l0 Hd Hty Hv Hc Hl0]; subst; [congruence|].
      match goal with X : _ :: _ = map snd gl' |- _ => rename X into E1 end.
      destruct gl' as [|[g2 v'] gl'']; [discriminate E1|]. cbn [map snd] in E1. injection E1 as -> ->.
      rewrite Ed in He. cbn [s2t after] in He. change (_ =? NL) with false in He. cbn [after] in He.
      (* v *)
      rewrite He in Hsp.
      assert (Hv2 : is_word v' /\ g2 = [] /\ pt_start v' = (fst (pt_start t), snd (pt_start t) + 1)
                    /\ spelled 0 (pt_end v') Inside ind gl'').
      { inversion Hsp as [? ? ? ? ? ? Hs0'|? ? ? ? g3 ? ? Hw' Hbl' Hs' He' Hcol' Hsl' Hsp'|? ? ? ? k2 ? ? Hnl Hspc Hs' Hr Hsp'
                 |? ? ? k2 ? ? Ht Hstr Hat Hsp'|? ? ? ? ? ? Ht Hs0' Hr Hcc Hsp']; subst.
        - rewrite Hs0' in Hv. discriminate Hv.
        - destruct (dollar_gap _ _ _ _ _ Hbl' (Hsl Ed) Hs' Hc) as [-> Hs2]. repeat split; auto.
        - rewrite space_not_var in Hv by assumption. discriminate Hv.
        - rewrite Hstr, spaces_not_var in Hv. discriminate Hv. }
      destruct Hv2 as (Hw2 & -> & Hs2 & Hsp2). cbn [length] in Hle.
      destruct (IH _ _ _ _ gl'' ltac:(lia) Hsp2 _ Hl0) as (gs & Hlen & Hgs).
      exists (g0 :: gs). split; [cbn; lia|]. intros news Hnews. cbn [filter snd length] in Hnews.
      destruct news as [|nw news]; [discriminate Hnews|]. cbn [length] in Hnews. injection Hnews as Hnews. destruct (Hgs news Hnews) as [G1 G2].
      cbn [map combine fill_each snd fst]. split.
      * apply PL_word; auto; cbn [pt_start with_string takes_dollar with_start]; rewrite Hs2; cbn [fst snd];
          rewrite Z.add_simpl_r; [now rewrite <- surjective_pairing | exact Hcol].
      * cbn [upto_end]. cbn [pt_type with_string takes_dollar with_start].
        rewrite (type_neq _ _ T_ENDMARKER Hw2) by (cbn; tauto). rewrite G2. cbn [expand_each].
        rewrite Ed. change (text_eqb (TX "$") (TX "$")) with true. cbv iota. f_equal.
        rewrite word_shown by exact Hw2. reflexivity.
    + apply text_eqb_neq in Ed. eapply Keep; eauto.
      * intro E. apply Hw. rewrite E. cbn. tauto.
      * intros m Hmm. now constructor.
  - eapply Keep; eauto.
    + now apply space_not_dollar.
    + destruct Hnl as [-> | ->]; discriminate.
    + intros m Hmm. now constructor.
  - eapply Keep; eauto.
    + rewrite Hstr. destruct k; discriminate.
    + rewrite Ht. discriminate.
    + intros m Hmm. eapply PL_indent; eauto.
  - eapply Keep; eauto.
    + rewrite Hs0. discriminate.
    + rewrite Ht. discriminate.
    + intros m Hmm. now constructor.
Qed.


Lemma fill_each_nth f l : forall n i,
  nth_error (fill_each (map f (flagged n l)) l) i =
  option_map (fun tb : ptok * bool => if snd tb then with_string (fst tb) (f (n + i)%nat) else fst tb) (nth_error l i).
Proof.
  induction l as [|[t b] l IH]; intros n i; cbn [flagged fill_each map app]; [now destruct i|].
  destruct b; cbn [app map].
  - destruct i as [|i]; cbn [nth_error option_map snd fst]; [now rewrite Nat.add_0_r|]. rewrite IH. now rewrite Nat.add_succ_r.
  - destruct i as [|i]; cbn [nth_error option_map snd fst]; [reflexivity|]. rewrite IH. now rewrite Nat.add_succ_r.
Qed.
Lemma metavars_marked toks l : marked toks l -> metavars toks = map (fun tb => pt_string (fst tb)) (filter snd l).
Proof.
  induction 1 as [|t r l Hd Hl IH|d v r l Hd Ht Hv Hc Hl IH]; [reflexivity| |].
  - cbn [metavars filter snd map]. apply text_eqb_neq in Hd. destruct r as [|v r]; [inversion Hl; reflexivity|]. rewrite Hd. exact IH.
  - cbn [metavars filter snd map fst]. rewrite Hd. change (text_eqb (TX "$") (TX "$")) with true. cbv iota. f_equal. exact IH.
Qed.
Lemma flagged_filter l : forall n, length (flagged n l) = length (filter snd l).
Proof. induction l as [|[t [|]] l IH]; intros n; cbn; auto. Qed.
Lemma flagged_nth l : forall n k i, nth_error (flagged n l) k = Some i ->
  exists j t, i = (n + j)%nat /\ nth_error l j = Some (t, true) /\ nth_error (filter snd l) k = Some (t, true).
Proof.
  induction l as [|[t b] l IH]; intros n k i H; [destruct k; discriminate H|]. cbn [flagged filter snd app] in *. destruct b; cbn [app] in *.
  - destruct k as [|k]; cbn [nth_error] in *.
    + injection H as <-. exists 0%nat, t. split; [lia|auto].
    + apply IH in H as (j & u & -> & H1 & H2). exists (S j), u. split; [lia|auto].
  - apply IH in H as (j & u & -> & H1 & H2). exists (S j), u. split; [lia|auto].
Qed.
Lemma filter_flags added toks l : ends toks -> marked toks l ->
  filter snd (final_marks added l) = filter snd l.
Proof.
  intros (pre & e & -> & He & Hs) Hm.
  apply marked_end in Hm as (l' & -> & Hm); [|now rewrite Hs|rewrite Hs; discriminate].
  destruct added; [|reflexivity]. unfold final_marks. rewrite rev_app_distr. cbn [rev app].
  destruct (rev l') as [|b r] eqn:E; [reflexivity|].
  destruct (text_eqb_spec (pt_string (fst b)) [NL]) as [Eb|]; [|reflexivity].
  assert (l' = rev r ++ [b]) as -> by (rewrite <- (rev_involutive l'), E; reflexivity).
  rewrite !filter_app. cbn. destruct b as [t bb]. cbn [fst snd] in *. destruct bb; [|rewrite ?filter_app, ?rev_involutive; cbn; now rewrite ?app_nil_r].
  exfalso. assert (is_variable (pt_string t) = true) by (eapply marked_meta; [exact Hm|apply in_app_iff; right; now left]).
  rewrite Eb in H. discriminate H.
Qed.

Lemma untokenize_filled gl l news : spelled 0 (1, 0) Start [] gl -> marked (map snd gl) l ->
  length news = length (filter snd l) -> untokenize (fill_each news l) = Ok (expand_each news gl).
Proof.
  intros Hs Hm Hn. destruct (merge_placed_each _ _ _ _ _ Hs l Hm) as (gs & Hlen & Hgs). destruct (Hgs news Hn) as [G1 G2].
  assert (Hl : length (fill_each news l) = length l).
  { clear. revert news. induction l as [|[t [|]] l IH]; intros news; [reflexivity| |]; cbn; [destruct news|]; cbn; now rewrite IH. }
  unfold untokenize. rewrite <- G2.
  rewrite <- (combine_snd gs (fill_each news l)) at 1 by congruence.
  rewrite (untok_placed _ _ _ _ _ G1); [reflexivity|]. repeat split; cbn; lia.
Qed.

Theorem rename_source tokenize order pattern gl :
  let added := negb (endswith [NL] pattern) in
  tokenize (if added then pattern ++ [NL] else pattern) = Ok (map snd gl) ->
  spelled 0 (1, 0) Start [] gl -> (forall l, Permutation (order l) l) ->
  ((exists r, remap_macro_variables tokenize order pattern = Ok r) <-> exists l, marked (map snd gl) l)
  /\ forall src names anonymous, remap_macro_variables tokenize order pattern = Ok (src, names, anonymous) ->
     exists news, src = expand_each news (if added then without_newline gl else gl)
       /\ new_names (map snd gl) (metavars (map snd gl)) news names anonymous.
Proof.
  intros added Ht Hs Hp. pose proof (spelled_ends _ _ _ _ _ Hs) as He.
  pose proof (token_pattern_spec tokenize pattern (map snd gl) Ht He) as TP. cbv zeta in TP. fold added in TP.
  assert (Main : forall l, marked (map snd gl) l -> exists r f,
     let marks := final_marks added l in let news := map f (flagged 0 marks) in
     renames (map fst marks) (flagged 0 marks) f r
     /\ remap_macro_variables tokenize order pattern
        = Ok (expand_each news (if added then without_newline gl else gl), rn_names r, rn_anonymous r)).
  { intros l Hl. pose proof (proj2 (TP _ _) (ex_intro _ l (conj Hl (conj eq_refl eq_refl)))) as Et.
    destruct (remap_pattern tokenize order pattern (map snd gl) _ _ Ht He Hp Et) as (r & f & Er & R & _).
    exists r, f. cbv zeta. split; [exact R|]. unfold remap_macro_variables. rewrite Et. cbn [bind fst snd]. rewrite Er. cbn [bind].
    assert (D : spelled 0 (1, 0) Start [] (if added then without_newline gl else gl)
                /\ marked (map snd (if added then without_newline gl else gl)) (final_marks added l)).
    { destruct added; [destruct (drop_spelled gl l 0 (1, 0) Start [] Hs Hl) as (A & B & _); auto|]. cbn [final_marks]. tauto. }
    destruct D as [D1 D2].
    assert (Eq : rn_tokens r = fill_each (map f (flagged 0 (final_marks added l))) (final_marks added l)).
    { apply nth_error_ext. intros i. rewrite fill_each_nth. cbn [Nat.add].
      destruct (nth_error (final_marks added l) i) as [[t b]|] eqn:Ei; cbn [option_map snd fst].
      - destruct b.
        + apply (rs_meta _ _ _ _ R i t); [apply flagged_In; exists i; split; [reflexivity|now exists t]|].
          rewrite nth_error_map, Ei. reflexivity.
        + rewrite (rs_other _ _ _ _ R i).
          * rewrite nth_error_map, Ei. reflexivity.
          * intros H. apply flagged_In in H as (j & Ej & (u & Hu)). cbn in Ej. subst j. congruence.
      - apply nth_error_None. rewrite (rs_length _ _ _ _ R), map_length. now apply nth_error_None. }
    rewrite Eq. rewrite (untokenize_filled _ _ _ D1 D2); [reflexivity|].
    rewrite map_length. apply flagged_filter. }
  split; [split|].
  - intros ([[src names] anon] & H). unfold remap_macro_variables in H.
    destruct (token_pattern tokenize pattern) as [[ts is_]|] eqn:E; cbn [bind fst snd] in H; [|discriminate H].
    destruct (proj1 (TP ts is_) eq_refl) as (l & Hl & _). eauto.
  - intros [l Hl]. destruct (Main l Hl) as (r & f & _ & H). eauto.
  - intros src names anon H.
    assert (exists l, marked (map snd gl) l) as [l Hl].
    { unfold remap_macro_variables in H.
      destruct (token_pattern tokenize pattern) as [[ts is_]|] eqn:E; cbn [bind fst snd] in H; [|discriminate H].
      destruct (proj1 (TP ts is_) eq_refl) as (l & Hl & _). eauto. }
    destruct (Main l Hl) as (r & f & R & H'). cbv zeta in R, H'. rewrite H in H'. injection H' as -> -> ->.
    exists (map f (flagged 0 (final_marks added l))). split; [reflexivity|].
    rewrite (metavars_marked _ _ Hl), <- (filter_flags added _ _ He Hl).
    set (marks := final_marks added l) in *.
    assert (At : forall k i, nth_error (flagged 0 marks) k = Some i -> exists t, nth_error marks i = Some (t, true)
       /\ nth_error (map (fun tb => pt_string (fst tb)) (filter snd marks)) k = Some (pt_string t)
       /\ In i (flagged 0 marks) /\ string_at (map fst marks) i (pt_string t)).
    { intros k i Hk. pose proof (nth_error_In _ _ Hk) as Hin. apply flagged_nth in Hk as (j & t & -> & H1 & H2). cbn [Nat.add] in *.
      exists t. split; [exact H1|]. split; [rewrite nth_error_map, H2; reflexivity|]. split; [exact Hin|].
      exists t. rewrite nth_error_map, H1. auto. }
    split; [|split; [|split; [|split; [|split]]]].
    + assert (Len : length (map (fun tb : ptok * bool => pt_string (fst tb)) (filter snd marks)) = length (map f (flagged 0 marks)))
        by (now rewrite !map_length, flagged_filter).
      assert (Pt : forall k v n, nth_error (map (fun tb : ptok * bool => pt_string (fst tb)) (filter snd marks)) k = Some v ->
                nth_error (map f (flagged 0 marks)) k = Some n ->
                if text_eqb v (TX "_") then In n (rn_anonymous r) else dget (rn_names r) v = Some n).
      { intros k v n Hv Hn. rewrite nth_error_map in Hn. destruct (nth_error (flagged 0 marks) k) as [i|] eqn:Ek; [|discriminate Hn].
        injection Hn as <-. destruct (At k i Ek) as (t & Ht1 & Ht2 & Ht3 & Ht4).
        assert (v = pt_string t) as -> by congruence.
        destruct (text_eqb_spec (pt_string t) (TX "_")) as [Eu|Eu].
        - apply (rs_anonymous _ _ _ _ R). exists i. rewrite <- Eu. auto.
        - apply (rs_names _ _ _ _ R). split; [exact Eu|]. exists i. auto. }
      revert Len Pt. generalize (map (fun tb : ptok * bool => pt_string (fst tb)) (filter snd marks)), (map f (flagged 0 marks)).
      clear. intros a. induction a as [|x a IH]; intros [|y b] Len Pt; try discriminate Len; constructor.
      * now apply (Pt 0%nat).
      * apply IH; [cbn in Len; lia|]. intros k. now apply (Pt (S k)).
    + intros i j v w n Hi Hj Hni Hnj. rewrite nth_error_map in Hni, Hnj.
      destruct (nth_error (flagged 0 marks) i) as [a|] eqn:Ea; [|discriminate Hni].
      destruct (nth_error (flagged 0 marks) j) as [b|] eqn:Eb; [|discriminate Hnj].
      injection Hni as Hni. injection Hnj as Hnj.
      destruct (At i a Ea) as (t & Ht1 & Ht2 & Ht3 & Ht4). destruct (At j b Eb) as (u & Hu1 & Hu2 & Hu3 & Hu4).
      assert (v = pt_string t) as -> by congruence. assert (w = pt_string u) as -> by congruence.
      destruct (proj1 (rs_same _ _ _ _ R a b _ _ Ht3 Hu3 Ht4 Hu4)) as [->|E]; [congruence| |now right].
      left. pose proof (flagged_NoDup marks 0) as [N _]. apply (proj1 (NoDup_nth_error _) N i j).
      * apply nth_error_Some. congruence.
      * congruence.
    + intros n t Hn Hin. apply in_map_iff in Hn as (i & <- & Hi).
      (* every token of the source is a marked one or a [$] *)
      assert (Hcase : (exists j, nth_error marks j = Some (t, false)) \/ In (pt_string t) (map (fun tb : ptok * bool => pt_string (fst tb)) (filter snd marks))
                      \/ pt_string t = TX "$" \/ pt_string t = [NL]).
      { subst marks. rewrite (filter_flags added _ _ He Hl).
        assert (K : In (t, false) l \/ In (pt_string t) (map (fun tb : ptok * bool => pt_string (fst tb)) (filter snd l)) \/ pt_string t = TX "$").
        { clear - Hl Hin. induction Hl as [|t0 r l Hd Hl IH|d v r l Hd Ht Hv Hc Hl IH].
          - destruct Hin.
          - destruct Hin as [->|Hin]; [left; now left|]. destruct (IH Hin) as [K|[K|K]]; [left; now right|right; now left|auto].
          - destruct Hin as [->|[->|Hin]]; [auto|right; left; cbn; now left|].
            destruct (IH Hin) as [K|[K|K]]; [left; now right|right; left; cbn; now right|auto]. }
        destruct K as [K|[K|K]]; [|auto|auto].
        destruct added; [|left; now apply In_nth_error].
        unfold final_marks. destruct (rev l) as [|a [|b rr]] eqn:Erev; [left; now apply In_nth_error..|].
        destruct (text_eqb_spec (pt_string (fst b)) [NL]) as [Eb|Eb]; [|left; now apply In_nth_error].
        assert (l = rev rr ++ [b; a]) as ->.
        { rewrite <- (rev_involutive l), Erev. cbn. now rewrite <- app_assoc. }
        apply in_app_iff in K as [K|[->|[->|[]]]].
        - left. apply In_nth_error. apply in_app_iff. now left.
        - right. right. right. exact Eb.
        - left. apply In_nth_error. apply in_app_iff. right. now left. }
      assert (Hvar : exists t0, nth_error marks i = Some (t0, true) /\ is_variable (f i) = true).
      { apply flagged_In in Hi as Hi'. destruct Hi' as (j & Ej & (u & Hu)). cbn in Ej. subst j. exists u. split; [exact Hu|].
        apply (proj1 (A:=is_variable (f i) = true)) with (B:=exists x, f i = TX "gensym" ++ x).
        apply (rs_ident _ _ _ _ R i (pt_string u)); [exact Hi|exists u; rewrite nth_error_map, Hu; auto|].
        eapply marked_meta; [exact Hl|].
        assert (In (u, true) (filter snd marks)) by (apply filter_In; split; [eapply nth_error_In; eauto|reflexivity]).
        subst marks. rewrite (filter_flags added _ _ He Hl) in H0. apply filter_In in H0 as [H0 _]. exact H0. }
      destruct Hvar as (t0 & Ht0 & Hvar).
      destruct Hcase as [(j & Hj)|[K|[K|K]]].
      * left. intros E. apply (rs_fresh _ _ _ _ R i j Hi).
        -- intros Hjj. apply flagged_In in Hjj as (j' & Ej & (u & Hu)). cbn in Ej. subst j'. congruence.
        -- exists t. rewrite nth_error_map, Hj. auto.
      * now right.
      * left. intros E. rewrite <- E, K in Hvar. discriminate Hvar.
      * left. intros E. rewrite <- E, K in Hvar. discriminate Hvar.
    + intros x n Hn. apply (rs_names _ _ _ _ R) in Hn as (_ & i & Hi & Hs' & <-). apply In_nth_error in Hi as (k & Hk).
      exists k. destruct (At k i Hk) as (t & Ht1 & Ht2 & Ht3 & (u & Hu & Eu)). destruct Hs' as (w & Hw & Ew).
      split; [rewrite Ht2; f_equal; rewrite <- Ew, <- Eu; f_equal; pose proof (eq_trans (eq_sym Hu) Hw) as Q; now injection Q|]. rewrite nth_error_map, Hk. reflexivity.
    + intros n Hn. apply (rs_anonymous _ _ _ _ R) in Hn as (i & Hi & Hs' & <-). apply In_nth_error in Hi as (k & Hk).
      exists k. destruct (At k i Hk) as (t & Ht1 & Ht2 & Ht3 & (u & Hu & Eu)). destruct Hs' as (w & Hw & Ew).
      split; [rewrite Ht2; f_equal; rewrite <- Ew, <- Eu; f_equal; pose proof (eq_trans (eq_sym Hu) Hw) as Q; now injection Q|]. rewrite nth_error_map, Hk. reflexivity.
    + split; [|exact (rs_dict _ _ _ _ R)]. apply Forall_forall. intros n Hn. apply in_map_iff in Hn as (i & <- & Hi).
      apply flagged_In in Hi as Hi'. destruct Hi' as (j & Ej & (u & Hu)). cbn in Ej. subst j.
      apply (rs_ident _ _ _ _ R i (pt_string u)); [exact Hi|exists u; rewrite nth_error_map, Hu; auto|].
      eapply marked_meta; [exact Hl|].
      assert (H0 : In (u, true) (filter snd marks)) by (apply filter_In; split; [eapply nth_error_In; eauto|reflexivity]).
      subst marks. rewrite (filter_flags added _ _ He Hl) in H0. apply filter_In in H0 as [H0 _]. exact H0.
Qed.

Lemma expand_each_nil gl : expand_each [] gl = spelling gl.
Proof. induction gl as [|[g d] gl IH]; [reflexivity|]. cbn [expand_each spelling map concat fst snd]. rewrite IH. unfold spelling. cbn [map concat fst snd]. rewrite <- app_assoc. now destruct gl as [|[? ?] ?]. Qed.
