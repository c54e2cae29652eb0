(** Proofs about substitution.py (C05, C06, C07, C11, C12). *)
From Verif Require Import Py PyFacts Regex Subst SubstSpec.
From Coq Require Import ZifyBool.

(** *** Primary spans *)
Lemma primary_span_ok s a b : dict_ok (matched_spans s) ->
  (primary_span s = Ok (a, b) <-> has_primary s a b).
Proof.
  intro Hd. unfold primary_span, has_primary. split; intro H.
  - destruct (dget (matched_spans s) (primary_label s)) as [sp|] eqn:E; [|discriminate].
    injection H as ->. now apply dget_In.
  - now rewrite (In_dget _ _ _ Hd H).
Qed.

(** *** C05, C06 *)
Definition wfp (x : span * substitution) : Prop :=
  dict_ok (matched_spans (snd x)) /\ has_primary (snd x) (fst (fst x)) (snd (fst x))
  /\ fst (fst x) <= snd (fst x).
Definition collx (x y : span * substitution) : Prop :=   (* y begins inside x *)
  fst (fst x) <= fst (fst y) < snd (fst x).
Definition sizex (x : span * substitution) : Z := snd (fst x) - fst (fst x).
Definition sortedx := StronglySorted (fun x y : span * substitution => span_leb (fst x) (fst y) = true).

Lemma has_primary_fun s a b c d : dict_ok (matched_spans s) ->
  has_primary s a b -> has_primary s c d -> a = c /\ b = d.
Proof.
  unfold has_primary. intros Hd H1 H2. apply In_dget in H1, H2; auto. rewrite H1 in H2.
  injection H2 as -> ->. auto.
Qed.

(** Loop analysis on (span, substitution) pairs. *)
Fixpoint dloop (last : option (span * substitution)) (l : list (span * substitution))
  : list (span * substitution) :=
  match l with
  | [] => match last with Some x => [x] | None => [] end
  | x :: rest =>
      match last with
      | None => dloop (Some x) rest
      | Some y =>
          if fst (fst x) >=? snd (fst y) then y :: dloop (Some x) rest
          else if (snd (fst x) - fst (fst x) >? snd (fst y) - fst (fst y)) then dloop last rest
          else dloop (Some x) rest
      end
  end.
Lemma disjoint_loop_dloop last l : disjoint_loop last l = map snd (dloop last l).
Proof.
  revert last; induction l as [|[[a b] s] l IH]; intros [[[c d] t]|]; cbn; try reflexivity.
  - destruct (a >=? d); [cbn; now rewrite IH|]. destruct (b - a >? d - c); apply IH.
  - apply IH.
Qed.

Definition le_start (x y : span * substitution) : Prop := fst (fst x) <= fst (fst y).

Lemma dloop_spec y l :
  Forall (fun x => fst (fst x) <= snd (fst x)) (y :: l) ->
  Forall (le_start y) l -> sortedx l ->
  exists dropped,
    Permutation (y :: l) (dloop (Some y) l ++ dropped)
    /\ ForallOrdPairs (fun u v => snd (fst u) <= fst (fst v)) (dloop (Some y) l)
    /\ Forall (le_start y) (dloop (Some y) l)
    /\ (forall d, In d dropped -> exists rest t, Permutation (y :: l) (d :: rest) /\ In t rest
          /\ (collx d t \/ collx t d) /\ sizex t <= sizex d)
    /\ dloop (Some y) l <> [].
Proof.
  revert y. induction l as [|x l IH]; intros y Hw Hy Hs.
  - exists []. cbn.
    repeat split; try reflexivity; try (repeat constructor; unfold le_start, span in *; lia); try contradiction; discriminate.
  - inversion Hw as [|? ? Hwy Hw']; subst. inversion Hw' as [|? ? Hwx Hw'']; subst.
    inversion Hy as [|? ? Hyx Hy']; subst. inversion Hs as [|? ? Hs' Hx]; subst.
    assert (Hxl : Forall (le_start x) l).
    { eapply Forall_impl; [|exact Hx]. intros z Hz. unfold le_start, span_leb in *. lia. }
    cbn [dloop]. match goal with |- context [if ?c then _ else _] => destruct c eqn:Hge end.
    + destruct (IH x Hw' Hxl Hs') as (dr & P & D & L & C & N). exists dr.
      split; [cbn; apply perm_skip; exact P|]. split; [|split; [|split]].
      * constructor; [|exact D]. eapply Forall_impl; [|exact L]. intros z Hz. unfold le_start, span in *. lia.
      * constructor; [unfold le_start, span in *; lia|]. eapply Forall_impl; [|exact L]. intros z Hz. unfold le_start, span in *. lia.
      * intros d Hd. destruct (C d Hd) as (rest & t & Pd & Ht & Hc & Hsz).
        exists (y :: rest), t. split; [rewrite Pd; apply perm_swap|]. split; [now right|]. auto.
      * discriminate.
    + match goal with |- context [if ?c then _ else _] => destruct c eqn:Hgt end.
      * assert (Hwyl : Forall (fun x => fst (fst x) <= snd (fst x)) (y :: l)) by (constructor; auto).
        destruct (IH y Hwyl Hy' Hs') as (dr & P & D & L & C & N). exists (x :: dr).
        split.
        { transitivity (x :: y :: l); [apply perm_swap|]. rewrite P. apply Permutation_middle. }
        split; [exact D|]. split; [exact L|]. split; [|exact N].
        intros d [<-|Hd].
        -- exists (y :: l), y. split; [apply perm_swap|]. split; [now left|].
           unfold collx, sizex, le_start, span in *. split; [right; lia|lia].
        -- destruct (C d Hd) as (rest & t & Pd & Ht & Hc & Hsz).
           exists (x :: rest), t. split.
           { transitivity (x :: y :: l); [apply perm_swap|]. rewrite Pd. apply perm_swap. }
           split; [now right|]. auto.
      * destruct (IH x Hw' Hxl Hs') as (dr & P & D & L & C & N). exists (y :: dr).
        split.
        { rewrite P at 1. apply Permutation_middle. }
        split; [exact D|]. split.
        { eapply Forall_impl; [|exact L]. intros z Hz. unfold le_start, span in *. lia. }
        split; [|exact N].
        intros d [<-|Hd].
        -- exists (x :: l), x. split; [reflexivity|]. split; [now left|].
           unfold collx, sizex, le_start, span in *. split; [left; lia|lia].
        -- destruct (C d Hd) as (rest & t & Pd & Ht & Hc & Hsz).
           exists (y :: rest), t. split; [rewrite Pd; apply perm_swap|]. split; [now right|]. auto.
Qed.

Lemma mapM_primary subs :
  Forall wf_primary subs ->
  exists ps, mapM (fun s => do sp <- primary_span s; Ok (sp, s)) subs = Ok ps
             /\ map snd ps = subs /\ Forall wfp ps.
Proof.
  induction 1 as [|s subs (Hd & a & b & Hp & Hab) Hs (ps & E & M & W)].
  - exists []. repeat constructor.
  - exists (((a, b), s) :: ps). cbn [mapM].
    rewrite (proj2 (primary_span_ok s a b Hd) Hp). cbn [bind]. rewrite E. cbn [bind].
    split; [reflexivity|]. split; [cbn; now rewrite M|]. constructor; [|assumption].
    unfold wfp. cbn. auto.
Qed.

Lemma span_leb_key_sorted ps :
  sortedx (py_sorted (fun x y : span * substitution => span_leb (fst x) (fst y)) ps).
Proof.
  apply py_sorted_sorted.
  - intros. apply span_leb_total.
  - intros x y z. apply span_leb_trans.
Qed.

Lemma wfp_before x y : wfp x -> wfp y -> snd (fst x) <= fst (fst y) -> before (snd x) (snd y).
Proof.
  intros (D1 & P1 & _) (D2 & P2 & _) H a b c d Ha Hc.
  destruct (has_primary_fun _ _ _ _ _ D1 P1 Ha). destruct (has_primary_fun _ _ _ _ _ D2 P2 Hc). lia.
Qed.
Lemma wfp_not_larger x y : wfp x -> wfp y -> sizex x <= sizex y -> not_larger (snd x) (snd y).
Proof.
  intros (D1 & P1 & _) (D2 & P2 & _) H a b c d Ha Hc. unfold sizex in H.
  destruct (has_primary_fun _ _ _ _ _ D1 P1 Hc). destruct (has_primary_fun _ _ _ _ _ D2 P2 Ha). lia.
Qed.
Lemma wfp_collide x y : wfp x -> wfp y -> collx x y \/ collx y x -> collide (snd x) (snd y).
Proof.
  intros (D1 & P1 & _) (D2 & P2 & _) [H|H]; [right|left]; unfold begins_inside;
    do 4 eexists; (split; [eassumption|]); (split; [eassumption|]); exact H.
Qed.

Lemma fop_before (q : list (span * substitution)) :
  ForallOrdPairs (fun u v : span * substitution => snd (fst u) <= fst (fst v)) q -> Forall wfp q ->
  ForallOrdPairs before (map snd q).
Proof.
  induction q as [|x q IH]; intros D W; cbn; [constructor|].
  inversion D as [|? ? Dx D']; inversion W as [|? ? Wx W']; subst. constructor; [|auto]. apply Forall_map.
  rewrite Forall_forall in *. intros z Hz. apply wfp_before; auto.
Qed.

Lemma disjoint_spec subs :
  Forall wf_primary subs ->
  exists out dropped,
    disjoint_substitutions subs = Ok out
    /\ Permutation subs (out ++ dropped)
    /\ ForallOrdPairs before out
    /\ (forall d, In d dropped -> exists rest t, Permutation subs (d :: rest) /\ In t rest
          /\ collide d t /\ not_larger t d)
    /\ (subs <> [] -> out <> []).
Proof.
  intro H. destruct (mapM_primary subs H) as (ps & E & M & W).
  unfold disjoint_substitutions. rewrite E. cbn [bind].
  set (sps := py_sorted _ ps).
  assert (P0 : Permutation ps sps) by apply py_sorted_perm.
  assert (S0 : sortedx sps) by apply span_leb_key_sorted.
  assert (W0 : Forall wfp sps) by (eapply Permutation_Forall; eauto).
  rewrite disjoint_loop_dloop. destruct sps as [|y l] eqn:Es.
  - apply Permutation_sym, Permutation_nil in P0. subst ps. cbn in M. subst subs.
    exists [], []. cbn. repeat split; try constructor; try contradiction; congruence.
  - cbn [dloop]. inversion S0 as [|? ? S1 F1]; subst.
    assert (Hw : Forall (fun x : span * substitution => fst (fst x) <= snd (fst x)) (y :: l)).
    { eapply Forall_impl; [|exact W0]. intros x Hx. apply Hx. }
    assert (Hl : Forall (le_start y) l).
    { eapply Forall_impl; [|exact F1]. intros z Hz. unfold le_start, span_leb in *. lia. }
    destruct (dloop_spec y l Hw Hl S1) as (dr & P & D & L & C & N).
    exists (map snd (dloop (Some y) l)), (map snd dr).
    assert (PM : Permutation (map snd ps) (map snd (y :: l))) by now apply Permutation_map.
    assert (Wall : forall x, In x (dloop (Some y) l ++ dr) -> wfp x).
    { intros x Hx. rewrite Forall_forall in W0. apply W0.
      eapply Permutation_in; [symmetry; exact P|exact Hx]. }
    split; [reflexivity|]. split; [|split; [|split]].
    + rewrite <- map_app. rewrite PM. now apply Permutation_map.
    + assert (Wd : Forall wfp (dloop (Some y) l)).
      { apply Forall_forall. intros x Hx. apply Wall. apply in_app_iff. auto. }
      exact (fop_before _ D Wd).
    + intros d Hd. apply in_map_iff in Hd. destruct Hd as (x & <- & Hx).
      destruct (C x Hx) as (rest & t & Pd & Ht & Hc & Hsz).
      assert (Wx : wfp x) by (apply Wall, in_app_iff; auto).
      assert (Wt : wfp t).
      { rewrite Forall_forall in W0. apply W0. eapply Permutation_in; [symmetry; exact Pd|now right]. }
      exists (map snd rest), (snd t). split.
      { rewrite PM. change (snd x :: map snd rest) with (map snd (x :: rest)). now apply Permutation_map. }
      split; [now apply in_map|]. split; [now apply wfp_collide|now apply wfp_not_larger].
    + intros _ Hn. apply map_eq_nil in Hn. contradiction.
Qed.

Lemma dloop_id y l :
  ForallOrdPairs (fun u v : span * substitution => snd (fst u) <= fst (fst v)) (y :: l) ->
  dloop (Some y) l = y :: l.
Proof.
  revert y; induction l as [|x l IH]; intros y H; [reflexivity|].
  inversion H as [|? ? Hy H']; subst. inversion Hy as [|? ? Hyx ?]; subst.
  cbn [dloop]. replace (fst (fst x) >=? snd (fst y)) with true by lia. f_equal. now apply IH.
Qed.

Lemma disjoint_id subs :
  Forall wf_primary subs -> ForallOrdPairs before subs -> disjoint_substitutions subs = Ok subs.
Proof.
  intros H Hb. destruct (mapM_primary subs H) as (ps & E & M & W).
  unfold disjoint_substitutions. rewrite E. cbn [bind]. f_equal.
  assert (Hp : ForallOrdPairs (fun u v : span * substitution => snd (fst u) <= fst (fst v)) ps).
  { subst subs. clear - Hb W. induction ps as [|x ps IH]; [constructor|].
    inversion Hb as [|? ? Hx Hb']; subst. inversion W as [|? ? Wx W']; subst. constructor; [|auto].
    rewrite Forall_forall in *. intros z Hz.
    apply (Hx (snd z) (in_map snd ps z Hz)) with (a := fst (fst x)) (d := snd (fst z)).
    - apply Wx.
    - apply W'. assumption. }
  rewrite py_sorted_id.
  - rewrite disjoint_loop_dloop. rewrite <- M. f_equal.
    destruct ps as [|y l]; [reflexivity|]. now apply dloop_id.
  - clear - Hp W. induction Hp as [|x l Hx Hp IH]; [constructor|].
    inversion W as [|? ? Wx W']; subst. constructor; [auto|].
    rewrite Forall_forall in *. intros z Hz. specialize (Hx z Hz).
    destruct Wx as (_ & _ & Wx). destruct (W' z Hz) as (_ & _ & Wz). unfold span_leb. lia.
Qed.

(** *** C11 *)
Lemma split_nonempty c s : split_char c s <> [].
Proof. destruct s as [|x s]; cbn; [discriminate|]. destruct (x =? c); [discriminate|].
  destruct (split_char c s); discriminate. Qed.

Lemma prefixes_from_spec acc l p :
  In p (prefixes_from acc l) <-> exists l1 l2, l = l1 ++ l2 /\ l1 <> [] /\ p = acc ++ l1.
Proof.
  revert acc; induction l as [|w l IH]; intro acc; cbn.
  - split; [contradiction|]. intros (l1 & l2 & E & Hn & _). symmetry in E. apply app_eq_nil in E. tauto.
  - rewrite IH. split.
    + intros [<-|(l1 & l2 & -> & Hn & ->)].
      * exists [w], l. repeat split; discriminate.
      * exists (w :: l1), l2. repeat split; [discriminate|]. now rewrite <- app_assoc.
    + intros ([|x l1] & l2 & E & Hn & ->); [congruence|]. cbn in E. injection E as -> ->.
      destruct l1 as [|y l1]; [left; reflexivity|right].
      exists (y :: l1), l2. repeat split; [discriminate|]. now rewrite <- app_assoc.
Qed.

Lemma join_split c s : join [c] (split_char c s) = s.
Proof.
  induction s as [|x s IH]; [reflexivity|]. cbn [split_char].
  destruct (Z.eqb_spec x c) as [->|Hne].
  - destruct (split_char c s) as [|w ws] eqn:E; [now apply split_nonempty in E|].
    cbn. cbn in IH. rewrite IH. reflexivity.
  - destruct (split_char c s) as [|w ws] eqn:E; [now apply split_nonempty in E|].
    destruct ws as [|w2 ws]; cbn in *; now rewrite IH.
Qed.

Lemma join_app c l1 l2 : l1 <> [] -> l2 <> [] -> join [c] (l1 ++ l2) = join [c] l1 ++ [c] ++ join [c] l2.
Proof.
  intros H1 H2. induction l1 as [|w l1 IH]; [congruence|].
  destruct l1 as [|w2 l1].
  - cbn. destruct l2; [congruence|reflexivity].
  - specialize (IH ltac:(discriminate)). cbn [app] in *.
    change (join [c] (w :: w2 :: l1 ++ l2)) with (w ++ [c] ++ join [c] (w2 :: l1 ++ l2)).
    rewrite IH. change (join [c] (w :: w2 :: l1)) with (w ++ [c] ++ join [c] (w2 :: l1)).
    now rewrite <- !app_assoc.
Qed.

Lemma split_app_sep c a b : split_char c (a ++ c :: b) = split_char c a ++ split_char c b.
Proof.
  induction a as [|x a IH]; cbn.
  - now rewrite Z.eqb_refl.
  - destruct (x =? c); [now rewrite IH|]. rewrite IH.
    destruct (split_char c a) eqn:E; [now apply split_nonempty in E|]. reflexivity.
Qed.

Lemma all_categories_spec s c : In c (all_categories s) <-> in_category s c.
Proof.
  unfold all_categories, in_category. destruct c as [name|].
  - split.
    + intros [H|H]; [discriminate|]. destruct (category s) as [full|]; [|contradiction].
      apply in_map_iff in H. destruct H as (p & E & Hp). injection E as <-.
      apply prefixes_from_spec in Hp. destruct Hp as (l1 & l2 & E & Hn & ->). cbn [app].
      exists full. split; [reflexivity|]. rewrite <- (join_split dot full), E.
      destruct l2 as [|w l2].
      * left. now rewrite app_nil_r.
      * right. exists (join [dot] (w :: l2)). apply join_app; [assumption|discriminate].
    + intros (full & E & H). right. rewrite E. apply in_map_iff.
      destruct H as [->|(rest & ->)].
      * exists (split_char dot name). split; [now rewrite join_split|].
        apply prefixes_from_spec. exists (split_char dot name), []. rewrite app_nil_r.
        repeat split; [apply split_nonempty].
      * exists (split_char dot name). split; [now rewrite join_split|].
        apply prefixes_from_spec. exists (split_char dot name), (split_char dot rest).
        split; [apply split_app_sep|]. split; [apply split_nonempty|reflexivity].
  - split; [auto|]. intros _. now left.
Qed.

Lemma opt_text_eqb_eq a b : opt_eqb text_eqb a b = true <-> a = b.
Proof.
  destruct a as [a|], b as [b|]; cbn; split; intro H; try reflexivity; try discriminate.
  - apply text_eqb_eq in H. congruence.
  - injection H as ->. apply text_eqb_refl.
Qed.

Lemma rt_get_spec t c r : NoDup (map fst t) ->
  (In r (rt_get t c) <-> exists rs, In (c, rs) t /\ In r rs).
Proof.
  induction t as [|[k v] t IH]; cbn; intro Hnd.
  - split; [contradiction|]. intros (rs & [] & _).
  - inversion Hnd as [|? ? Hni Hnd']; subst.
    destruct (opt_eqb text_eqb k c) eqn:E.
    + apply opt_text_eqb_eq in E. subst k. split.
      * intro H. exists v. auto.
      * intros (rs & [H|H] & Hr); [injection H as ->; assumption|].
        exfalso. apply Hni. apply in_map_iff. exists (c, rs). auto.
    + rewrite IH by assumption. split.
      * intros (rs & H & Hr). exists rs. auto.
      * intros (rs & [H|H] & Hr); [|exists rs; auto].
        injection H as -> ->. assert (opt_eqb text_eqb c c = true) by (now apply opt_text_eqb_eq). congruence.
Qed.

Lemma sub_matches_ranges_spec s t :
  dict_ok (matched_spans s) -> validate s = Ok tt -> NoDup (map fst t) ->
  exists b, sub_matches_ranges s t = Ok b /\ (b = true <-> excluded s t).
Proof.
  intros Hd Hv Ht.
  assert (Hp : exists sp, primary_span s = Ok sp).
  { unfold validate in Hv. destruct (match category s with Some c => _ | None => false end); [discriminate|].
    destruct (negb (dmem (matched_spans s) (primary_label s))) eqn:E; [discriminate|].
    unfold primary_span, dmem in *. destruct (dget _ _); [eauto|discriminate]. }
  destruct Hp as ([a b] & Hp). unfold sub_matches_ranges. rewrite Hp. cbn [bind fst snd].
  eexists. split; [reflexivity|]. apply (primary_span_ok s a b Hd) in Hp.
  rewrite existsb_exists. unfold excluded. split.
  - intros (c & Hc & Hr). apply existsb_exists in Hr. destruct Hr as (r & Hr & Hx).
    apply rt_get_spec in Hr; [|assumption]. destruct Hr as (rs & H1 & H2).
    exists c, rs, r, a, b. rewrite all_categories_spec in Hc. repeat split; auto; cbn; lia.
  - intros (c & rs & r & a' & b' & Hc & H1 & H2 & Hp' & Hi). exists c.
    rewrite all_categories_spec. split; [assumption|]. apply existsb_exists. exists r.
    split; [apply rt_get_spec; eauto|].
    destruct (has_primary_fun _ _ _ _ _ Hd Hp Hp') as [-> ->]. destruct Hi as [Hi1 Hi2]. cbn in *. lia.
Qed.

Lemma suppress_spec subs t :
  Forall (fun s => dict_ok (matched_spans s) /\ validate s = Ok tt) subs -> NoDup (map fst t) ->
  exists keep, suppress_exclude_bytes subs t = Ok (filter keep subs)
    /\ forall s, In s subs -> (keep s = true <-> ~ excluded s t).
Proof.
  intros H Ht.
  exists (fun s => match sub_matches_ranges s t with Ok b => negb b | Err _ => false end). split.
  - induction H as [|s subs (Hd & Hv) Hs IH]; [reflexivity|]. cbn [suppress_exclude_bytes filter].
    destruct (sub_matches_ranges_spec s t Hd Hv Ht) as (b & E & _). rewrite E, IH. cbn.
    destruct b; reflexivity.
  - intros s Hs. rewrite Forall_forall in H. destruct (H s Hs) as [Hd Hv].
    destruct (sub_matches_ranges_spec s t Hd Hv Ht) as (b & E & Hb). rewrite E.
    destruct b; cbn; intuition congruence.
Qed.

(** *** C12 *)
Lemma matches_star_cls p s : matches (Star (Cls p)) s <-> Forall (fun c => p c = true) s.
Proof.
  rewrite matches_Star. split.
  - intros (l & -> & H). induction H as [|w l Hw H IH]; cbn; [constructor|].
    apply matches_Cls in Hw. destruct Hw as (c & -> & Hc). cbn. constructor; auto.
  - intro H. exists (map (fun c => [c]) s). split.
    + clear H. induction s as [|c s IH]; cbn; [reflexivity|]. congruence.
    + induction H; cbn; constructor; auto. now constructor.
Qed.

Lemma good_char_b c : negb ((c =? dot) || is_space c) = true <-> good_char c.
Proof. unfold good_char, dot. destruct (is_space c); cbn; split; intro H; try (split; [|reflexivity]); try lia; destruct H; try lia; discriminate. Qed.

Lemma matches_component s :
  matches (Seq re_cat_char (Star re_cat_char)) s <-> good_component s.
Proof.
  unfold re_cat_char, good_component. rewrite matches_Seq. split.
  - intros (x & y & -> & Hx & Hy). apply matches_Cls in Hx. destruct Hx as (c & -> & Hc).
    split; [discriminate|]. apply matches_star_cls in Hy. cbn. constructor.
    + now apply good_char_b.
    + eapply Forall_impl; [|exact Hy]. intro. apply good_char_b.
  - intros (Hn & H). destruct s as [|c s]; [congruence|]. inversion H; subst.
    exists [c], s. split; [reflexivity|]. split; [apply matches_Cls; exists c; split; [reflexivity|now apply good_char_b]|].
    apply matches_star_cls. eapply Forall_impl; [|eassumption]. intro. apply good_char_b.
Qed.

Lemma matches_tail s :
  matches (Star (Seq (Cls (fun c => c =? dot)) (Seq re_cat_char (Star re_cat_char)))) s
  <-> exists ws, s = concat (map (cons dot) ws) /\ Forall good_component ws.
Proof.
  rewrite matches_Star. split.
  - intros (l & -> & H). induction H as [|w l Hw H (ws & E & F)].
    + exists []. auto.
    + apply matches_Seq in Hw. destruct Hw as (x & y & -> & Hx & Hy).
      apply matches_Cls in Hx. destruct Hx as (c & -> & Hc). apply Z.eqb_eq in Hc. subst c.
      apply matches_component in Hy. exists (y :: ws). cbn. rewrite E. auto.
  - intros (ws & -> & H). exists (map (cons dot) ws). split; [reflexivity|].
    apply Forall_map. eapply Forall_impl; [|exact H]. intros w Hw. change (dot :: w) with ([dot] ++ w).
    constructor; [constructor; apply Z.eqb_refl|now apply matches_component].
Qed.

Lemma join_concat w ws : join [dot] (w :: ws) = w ++ concat (map (cons dot) ws).
Proof.
  revert w; induction ws as [|w2 ws IH]; intro w; [cbn; now rewrite app_nil_r|].
  change (join [dot] (w :: w2 :: ws)) with (w ++ [dot] ++ join [dot] (w2 :: ws)).
  rewrite IH. reflexivity.
Qed.

Lemma category_regex_ok c : re_match category_name_regex c = true <-> good_category c.
Proof.
  rewrite re_match_ok. unfold category_name_regex, good_category. change 46 with dot. split.
  - intro H. apply matches_Seq in H. destruct H as (x & y & -> & Hx & Hy).
    apply matches_Seq in Hy. destruct Hy as (y1 & y2 & -> & Hy1 & Hy2).
    apply matches_Cls in Hx. destruct Hx as (c & -> & Hc).
    apply matches_star_cls in Hy1. apply matches_tail in Hy2. destruct Hy2 as (ws & -> & Hws).
    exists (c :: y1), ws. rewrite join_concat. split; [reflexivity|]. split.
    + constructor; [|assumption]. split; [discriminate|]. constructor.
      * apply good_char_b. destruct (is_space c); lia.
      * eapply Forall_impl; [|exact Hy1]. intro. apply good_char_b.
    + cbn. unfold dash in Hc. intro E. injection E as ->. discriminate.
  - intros (w & ws & -> & H & Hd). inversion H as [|? ? (Hn & Hw) Hws]; subst.
    destruct w as [|c w]; [congruence|]. inversion Hw as [|? ? Hc Hw']; subst.
    rewrite join_concat. change ((c :: w) ++ ?z) with ([c] ++ (w ++ z)).
    constructor; [|constructor].
    + constructor. apply good_char_b in Hc. cbn in Hd. unfold dash.
      assert (c <> 45) by (intros ->; apply Hd; reflexivity). destruct (is_space c); lia.
    + apply matches_star_cls. eapply Forall_impl; [|exact Hw']. intro. apply good_char_b.
    + apply matches_tail. eauto.
Qed.

Lemma validate_spec s :
  (good_sub s -> validate s = Ok tt) /\ (~ good_sub s -> validate s = Err ValueError).
Proof.
  assert (Hiff : validate s = Ok tt <-> good_sub s).
  { unfold validate, good_sub. split.
    - intro H. split; [|split].
      + intros c E. rewrite E in H. apply category_regex_ok. destruct (re_match category_name_regex c); [reflexivity|discriminate].
      + destruct (match category s with Some c => _ | None => false end); [discriminate|].
        destruct (dmem (matched_spans s) (primary_label s)) eqn:E; [|discriminate]. now apply dmem_keys.
      + intros r E. rewrite E in H. destruct (match category s with Some c => _ | None => false end); [discriminate|].
        destruct (negb _); [discriminate|]. destruct (forallb _ _) eqn:F; [|discriminate].
        intros k Hk. rewrite forallb_forall in F. apply dmem_keys. auto.
    - intros (H1 & H2 & H3).
      replace (match category s with Some c => negb (re_match category_name_regex c) | None => false end) with false.
      2: { destruct (category s) as [c|]; [|reflexivity]. specialize (H1 c eq_refl).
           apply category_regex_ok in H1. now rewrite H1. }
      apply dmem_keys in H2. rewrite H2. cbn. destruct (replacements s) as [r|]; [|reflexivity].
      specialize (H3 r eq_refl). replace (forallb _ (dkeys r)) with true; [reflexivity|].
      symmetry. apply forallb_forall. intros k Hk. apply dmem_keys. auto. }
  split; [apply Hiff|]. intro Hn. destruct (validate s) as [[]|e] eqn:E.
  - exfalso. apply Hn. now apply Hiff.
  - unfold validate in E. f_equal.
    destruct (match category s with Some c => _ | None => false end); [congruence|].
    destruct (negb _); [congruence|]. destruct (replacements s) as [r|]; [|congruence].
    destruct (forallb _ _); congruence.
Qed.
