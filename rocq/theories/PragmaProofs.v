(** C13: which ranges pragmas disable; C42: combinators; C46. *)
From Verif Require Import Py PyFacts Regex Subst Fmt ApplySpec ApplyProofs SubstSpec SubstProofs Ast Template
  Search SearchSpec SearchProofs.

(** *** C13 *)
Lemma dedup_In x l : In x (dedup l) <-> In x l.
Proof.
  induction l as [|y l IH]; cbn; [tauto|]. destruct (tmem y l) eqn:E; cbn; rewrite IH; [|tauto].
  apply tmem_In in E. intuition congruence.
Qed.
Lemma annotated_In c prefix v :
  In c (annotated prefix v) <-> exists d, In d (split_char 44 v) /\ c = prefix ++ strip d.
Proof.
  unfold annotated, comma. rewrite dedup_In, in_map_iff.
  split; intros (d & H1 & H2); exists d; auto.
Qed.
Lemma pragma_prefix_spec tag prefix : pragma_prefix tag = Some prefix <-> tag_prefix tag prefix.
Proof.
  unfold pragma_prefix, tag_prefix.
  destruct (text_eqb_spec tag (TX "pylint")) as [->|H1].
  - split; [intro E; injection E as <-; auto|]. intros [[_ ->]|[E _]]; [reflexivity|discriminate].
  - destruct (text_eqb_spec tag (TX "refex")) as [->|H2].
    + split; [intro E; injection E as <-; auto|]. intros [[E _]|[_ ->]]; [discriminate|reflexivity].
    + split; [discriminate|]. intros [[E _]|[E _]]; contradiction.
Qed.

Lemma rt_append_get t k r c :
  In c (rt_get (rt_append t k r) (Some k)) <-> In c (rt_get t (Some k)) \/ c = r.
Proof.
  induction t as [|[k' v] t IH]; cbn [rt_append rt_get].
  - cbn. rewrite text_eqb_refl. cbn. intuition.
  - destruct (opt_text_eqb k' (Some k)) eqn:E.
    + cbn [rt_get]. unfold opt_text_eqb in E. rewrite E. rewrite in_app_iff. cbn. intuition.
    + cbn [rt_get]. unfold opt_text_eqb in E. rewrite E. exact IH.
Qed.
Lemma rt_append_get_other t k r k2 : k2 <> Some k ->
  rt_get (rt_append t k r) k2 = rt_get t k2.
Proof.
  intro Hne. induction t as [|[k' v] t IH]; cbn [rt_append rt_get].
  - destruct (opt_eqb text_eqb (Some k) k2) eqn:E; [|reflexivity].
    exfalso. apply Hne. symmetry. now apply opt_text_eqb_eq.
  - destruct (opt_text_eqb k' (Some k)) eqn:E; cbn [rt_get].
    + apply opt_text_eqb_eq in E. subst k'. destruct (opt_eqb text_eqb (Some k) k2) eqn:E; [|reflexivity].
      exfalso. apply Hne. symmetry. now apply opt_text_eqb_eq.
    + destruct (opt_eqb text_eqb k' k2); [reflexivity|exact IH].
Qed.
Lemma rt_append_keys t k r x :
  In x (map fst (rt_append t k r)) <-> x = Some k \/ In x (map fst t).
Proof.
  induction t as [|[k' v] t IH]; cbn [rt_append].
  - cbn. intuition.
  - destruct (opt_text_eqb k' (Some k)) eqn:E; cbn [map fst In].
    + apply opt_text_eqb_eq in E. subst. cbn [fst]. intuition.
    + rewrite IH. tauto.
Qed.
Lemma rt_append_nodup t k r : NoDup (map fst t) -> NoDup (map fst (rt_append t k r)).
Proof.
  induction t as [|[k' v] t IH]; cbn [rt_append]; intro H.
  - repeat constructor. tauto.
  - inversion H as [|? ? Hni Hnd]; subst. destruct (opt_text_eqb k' (Some k)) eqn:E; cbn [map fst].
    + now constructor.
    + constructor; [|auto]. rewrite rt_append_keys. intros [->|Hin]; [|contradiction].
      assert (opt_text_eqb (Some k) (Some k) = true) by now apply opt_text_eqb_eq. congruence.
Qed.

Lemma fold_append_get cs t r c x :
  In x (rt_get (fold_left (fun t c => rt_append t c r) cs t) (Some c))
  <-> In x (rt_get t (Some c)) \/ (In c cs /\ x = r).
Proof.
  revert t; induction cs as [|c0 cs IH]; intro t; cbn [fold_left In]; [tauto|].
  rewrite IH. destruct (text_eq_dec c0 c) as [->|Hne].
  - rewrite rt_append_get. tauto.
  - rewrite rt_append_get_other by congruence. intuition congruence.
Qed.
Lemma fold_append_keys cs t r x :
  In x (map fst (fold_left (fun t c => rt_append t c r) cs t))
  <-> In x (map fst t) \/ exists c, In c cs /\ x = Some c.
Proof.
  revert t; induction cs as [|c0 cs IH]; intro t; cbn [fold_left In].
  - split; [auto|]. intros [H|(c & [] & _)]. exact H.
  - rewrite IH, rt_append_keys. split.
    + intros [[->|H]|(c & H & ->)]; eauto.
    + intros [H|(c & [->|H] & ->)]; eauto.
Qed.
Lemma fold_append_nodup cs t r :
  NoDup (map fst t) -> NoDup (map fst (fold_left (fun t c => rt_append t c r) cs t)).
Proof. revert t; induction cs as [|c0 cs IH]; intro t; cbn; [auto|]. intro H. apply IH, rt_append_nodup, H. Qed.

Lemma names_iff key p c :
  names key p c <-> exists v prefix, dget (p_data p) key = Some v /\ pragma_prefix (p_tag p) = Some prefix
                     /\ In c (annotated prefix v).
Proof.
  unfold names. split.
  - intros (v & d & prefix & H1 & H2 & H3 & ->). exists v, prefix. rewrite pragma_prefix_spec, annotated_In. eauto.
  - intros (v & prefix & H1 & H2 & H3). apply pragma_prefix_spec in H2. apply annotated_In in H3.
    destruct H3 as (d & H3 & ->). exists v, d, prefix. auto.
Qed.

Lemma pragma_ranges_get ps key acc c x :
  In x (rt_get (pragma_ranges ps key acc) (Some c))
  <-> In x (rt_get acc (Some c)) \/ exists p, In p ps /\ names key p c /\ x = (p_start p, p_end p).
Proof.
  revert acc; induction ps as [|p ps IH]; intro acc; cbn [pragma_ranges].
  - split; [auto|]. intros [H|(p & [] & _)]. exact H.
  - destruct (dget (p_data p) key) as [v|] eqn:Ed; [destruct (pragma_prefix (p_tag p)) as [prefix|] eqn:Ep|].
    + rewrite IH, fold_append_get. split.
      * intros [[H|[H ->]]|(q & H & Hn & ->)]; [auto| |right; exists q; cbn; auto].
        right. exists p. rewrite names_iff. cbn. split; [auto|]. split; [|reflexivity]. eauto.
      * intros [H|(q & [<-|H] & Hn & ->)]; [auto| |right; exists q; auto].
        left. right. apply names_iff in Hn. destruct Hn as (v' & prefix' & E1 & E2 & H).
        split; [congruence|reflexivity].
    + rewrite IH. split; [intros [H|(q & H & Hn & ->)]; [auto|right; exists q; cbn; auto]|].
      intros [H|(q & [<-|H] & Hn & ->)]; [auto| |right; exists q; auto].
      apply names_iff in Hn. destruct Hn as (v' & prefix' & E1 & E2 & H). congruence.
    + rewrite IH. split; [intros [H|(q & H & Hn & ->)]; [auto|right; exists q; cbn; auto]|].
      intros [H|(q & [<-|H] & Hn & ->)]; [auto| |right; exists q; auto].
      apply names_iff in Hn. destruct Hn as (v' & prefix' & E1 & E2 & H). congruence.
Qed.
Lemma pragma_ranges_nodup ps key acc :
  NoDup (map fst acc) -> NoDup (map fst (pragma_ranges ps key acc)).
Proof.
  revert acc; induction ps as [|p ps IH]; intros acc H; cbn [pragma_ranges]; [exact H|].
  destruct (dget (p_data p) key) as [v|]; [destruct (pragma_prefix (p_tag p)) as [prefix|]|]; auto.
  apply IH, fold_append_nodup, H.
Qed.
Lemma pragma_ranges_keys ps key acc x :
  In x (map fst (pragma_ranges ps key acc)) -> In x (map fst acc) \/ x <> None.
Proof.
  revert acc; induction ps as [|p ps IH]; intros acc H; cbn [pragma_ranges] in H; [auto|].
  destruct (dget (p_data p) key) as [v|]; [destruct (pragma_prefix (p_tag p)) as [prefix|]|]; auto.
  apply IH in H. destruct H as [H|H]; [|auto]. apply fold_append_keys in H.
  destruct H as [H|(c & _ & ->)]; [auto|]. right. discriminate.
Qed.

Lemma cut_range_spec a b en :
  exists e, cut_range a b en = (a, e)
    /\ (e = b \/ exists r, In r en /\ e = fst r /\ a <= fst r < b)
    /\ (forall r, In r en -> a <= fst r < b -> e <= fst r).
Proof.
  revert b; induction en as [|[x y] en IH]; intro b; cbn [cut_range].
  - exists b. repeat split; auto. intros r [].
  - destruct ((a <=? x) && (x <? b)) eqn:E.
    + destruct (IH x) as (e & -> & H1 & H2). exists e. split; [reflexivity|]. split.
      * right. destruct H1 as [->|(r & Hr & -> & Hlt)].
        -- exists (x, y). cbn. split; [auto|]. split; [reflexivity|lia].
        -- exists r. cbn. split; [auto|]. split; [reflexivity|lia].
      * intros r [<-|Hr] Hin.
        -- cbn. destruct H1 as [->|(r' & Hr' & -> & Hlt)]; lia.
        -- destruct (Z.lt_ge_cases (fst r) x) as [Hlt|Hge].
           ++ apply H2; [exact Hr|lia].
           ++ destruct H1 as [->|(r' & Hr' & -> & Hlt)]; lia.
    + destruct (IH b) as (e & -> & H1 & H2). exists e. split; [reflexivity|]. split.
      * destruct H1 as [->|(r & Hr & -> & Hlt)]; [auto|]. right. exists r. cbn. auto.
      * intros r [<-|Hr] Hin; [cbn in Hin; lia|auto].
Qed.

Lemma map_snd_keys {A B C} (f : A * B -> C) (l : list (A * B)) :
  map fst (map (fun kv => (fst kv, f kv)) l) = map fst l.
Proof. rewrite map_map. reflexivity. Qed.

Lemma excluded_ranges_nodup ps : NoDup (map fst (pragma_excluded_ranges ps)).
Proof.
  unfold pragma_excluded_ranges. rewrite map_map. cbn [fst]. apply pragma_ranges_nodup. constructor.
Qed.

Lemma excluded_ranges_spec ps k r :
  (exists rs, In (k, rs) (pragma_excluded_ranges ps) /\ In r rs)
  <-> exists c, k = Some c /\ disabled_range ps c r.
Proof.
  unfold pragma_excluded_ranges.
  set (dis := pragma_ranges ps (TX "disable") []). set (en := pragma_ranges ps (TX "enable") []).
  assert (Hdn : NoDup (map fst dis)) by (apply pragma_ranges_nodup; constructor).
  assert (Hdis : forall c x, In x (rt_get dis (Some c)) <->
                   exists p, In p ps /\ disables p c /\ x = (p_start p, p_end p)).
  { intros c x. unfold dis. rewrite pragma_ranges_get. cbn [rt_get In]. unfold disables. tauto. }
  assert (Hen : forall c x, In x (rt_get en (Some c)) <->
                   exists p, In p ps /\ enables p c /\ x = (p_start p, p_end p)).
  { intros c x. unfold en. rewrite pragma_ranges_get. cbn [rt_get In]. unfold enables. tauto. }
  assert (Hcut : forall c a b e, cut_range a b (rt_get en (Some c)) = (a, e) <-> cut_end ps c a b e).
  { intros c a b e. destruct (cut_range_spec a b (rt_get en (Some c))) as (e' & -> & H1 & H2).
    assert (HC : cut_end ps c a b e').
    { split.
      - destruct H1 as [->|(x & Hx & -> & Hlt)]; [auto|]. right. apply Hen in Hx.
        destruct Hx as (q & Hq & Hqe & ->). exists q. auto.
      - intros q Hq Hqe Hlt. apply (H2 (p_start q, p_end q)); [apply Hen; eauto|exact Hlt]. }
    split; [intro E; injection E as <-; exact HC|]. intro HC'. f_equal.
    destruct HC as [A1 A2], HC' as [B1 B2].
    destruct A1 as [->|(q & Hq & Hqe & -> & Hlt)], B1 as [->|(q' & Hq' & Hqe' & -> & Hlt')]; try reflexivity.
    - specialize (A2 q' Hq' Hqe' Hlt'). lia.
    - specialize (B2 q Hq Hqe Hlt). lia.
    - specialize (A2 q' Hq' Hqe' Hlt'). specialize (B2 q Hq Hqe Hlt). lia. }
  split.
  - intros (rs & Hin & Hr). apply in_map_iff in Hin. destruct Hin as ([k0 rs0] & E & Hin0).
    cbn [fst snd] in E. injection E as <- <-. apply in_map_iff in Hr. destruct Hr as ((a & b) & <- & Hab).
    assert (Hk : k0 <> None).
    { destruct (pragma_ranges_keys ps (TX "disable") [] k0) as [H|H]; [|destruct H|exact H].
      apply in_map_iff. exists (k0, rs0). auto. }
    destruct k0 as [c|]; [|congruence]. exists c. split; [reflexivity|]. cbn [fst snd].
    assert (Hg : In (a, b) (rt_get dis (Some c))) by (apply rt_get_spec; eauto).
    apply Hdis in Hg. destruct Hg as (p & Hp & Hd & E). injection E as -> ->.
    destruct (cut_range_spec (p_start p) (p_end p) (rt_get en (Some c))) as (e & Ec & _).
    exists p, e. split; [exact Hp|]. split; [exact Hd|]. split; [now apply Hcut|exact Ec].
  - intros (c & -> & p & e & Hp & Hd & Hc & ->).
    assert (Hg : In (p_start p, p_end p) (rt_get dis (Some c))) by (apply Hdis; eauto).
    apply rt_get_spec in Hg; [|exact Hdn]. destruct Hg as (rs & H1 & H2).
    eexists. split.
    + apply in_map_iff. exists (Some c, rs). split; [reflexivity|exact H1].
    + cbn [fst snd]. apply in_map_iff. exists (p_start p, p_end p). split; [|exact H2]. cbn [fst snd].
      now apply Hcut.
Qed.

Lemma pragma_suppressed_spec s parsed subs :
  s_find s parsed = Ok subs ->
  Forall (fun x => dict_ok (matched_spans x) /\ validate x = Ok tt) subs ->
  exists keep, s_find (pragma_suppressed s) parsed = Ok (filter keep subs)
    /\ forall x, In x subs -> (keep x = true <-> ~ pragma_excluded (pf_pragmas parsed) x).
Proof.
  intros Hf Hv. cbn [s_find pragma_suppressed]. rewrite Hf. cbn [bind].
  destruct (suppress_spec subs _ Hv (excluded_ranges_nodup (pf_pragmas parsed))) as (keep & E & Hk).
  exists keep. split; [exact E|]. intros x Hx. rewrite (Hk x Hx).
  enough (Hiff : excluded x (pragma_excluded_ranges (pf_pragmas parsed))
                 <-> pragma_excluded (pf_pragmas parsed) x) by (rewrite Hiff; tauto).
  unfold excluded, pragma_excluded. split.
  - intros (c & rs & r & a & b & Hc & H1 & H2 & Hp & Hi).
    destruct (proj1 (excluded_ranges_spec (pf_pragmas parsed) c r)) as (c0 & -> & Hd); [eauto|].
    exists c0, r, a, b. auto.
  - intros (c & r & a & b & Hc & Hd & Hp & Hi).
    destruct (proj2 (excluded_ranges_spec (pf_pragmas parsed) (Some c) r)) as (rs & H1 & H2); [eauto|].
    exists (Some c), rs, r, a, b. auto.
Qed.

(** *** C42 *)
Lemma also_regexp_parse also also_not s data path :
  (Forall (fun r => r data = true) also /\ Forall (fun r => r data = false) also_not ->
     s_parse (also_regexp also also_not s) data path = s_parse s data path)
  /\ (~ (Forall (fun r => r data = true) also /\ Forall (fun r => r data = false) also_not) ->
     s_parse (also_regexp also also_not s) data path = Err SkipFileNoResultsError).
Proof.
  cbn [s_parse also_regexp].
  assert (H1 : forallb (fun r => r data) also = true <-> Forall (fun r : regex_test => r data = true) also)
    by (rewrite forallb_forall, Forall_forall; tauto).
  assert (H2 : existsb (fun r => r data) also_not = false <-> Forall (fun r : regex_test => r data = false) also_not).
  { rewrite Forall_forall. split.
    - intros H r Hr. destruct (r data) eqn:E; [|reflexivity].
      assert (existsb (fun r => r data) also_not = true) by (apply existsb_exists; eauto). congruence.
    - intro H. destruct (existsb _ also_not) eqn:E; [|reflexivity]. apply existsb_exists in E.
      destruct E as (r & Hr & E). rewrite (H r Hr) in E. discriminate. }
  rewrite <- H1, <- H2.
  destruct (forallb _ also), (existsb _ also_not); cbn; intuition congruence.
Qed.

Lemma also_find_iter parse_ast also also_not s data path n :
  (Forall (fun r => r data = true) also /\ Forall (fun r => r data = false) also_not ->
     find_iter parse_ast (also_regexp also also_not s) data path n = find_iter parse_ast s data path n)
  /\ (~ (Forall (fun r => r data = true) also /\ Forall (fun r => r data = false) also_not) ->
     s_check s path = Ok tt ->
     find_iter parse_ast (also_regexp also also_not s) data path n = Err SkipFileNoResultsError).
Proof.
  destruct (also_regexp_parse also also_not s data path) as [H1 H2]. split.
  - intro H. unfold find_iter. cbn [s_check also_regexp]. rewrite (H1 H).
    destruct (s_check s path); cbn [bind]; [|reflexivity].
    destruct (s_parse s data path) as [p|]; cbn [bind]; [|reflexivity].
    change (s_find (also_regexp also also_not s) p) with (s_find s p).
    destruct (s_find s p) as [subs|]; cbn [bind]; [|reflexivity].
    assert (E : forall gs, mapM (process_group parse_ast (also_regexp also also_not s) p n) gs
                = mapM (process_group parse_ast s p n) gs).
    { assert (EL : forall k txt new acc, fp_loop parse_ast k (also_regexp also also_not s) (pf_path p) txt new acc
              = fp_loop parse_ast k s (pf_path p) txt new acc).
      { induction k as [|k IH]; intros; cbn [fp_loop]; [reflexivity|].
        destruct (apply_substitutions txt new); cbn [bind]; [|reflexivity].
        destruct (parse_ast _ _) as [p'|]; [|reflexivity]. cbn [s_find also_regexp].
        destruct (s_find s p') as [[|? ?]|]; cbn [bind]; try reflexivity. apply IH. }
      assert (EF : forall g, process_group parse_ast (also_regexp also also_not s) p n g
              = process_group parse_ast s p n g).
      { intros [[[a0 b]|] g]; unfold process_group; cbn [fst snd]; [|reflexivity].
        unfold fixed_point. destruct (n <=? 1); [reflexivity|].
        destruct (mapM _ g) as [rel|]; cbn [bind]; [|reflexivity].
        destruct (all_some rel); [|reflexivity]. now rewrite EL. }
      induction gs as [|g gs IH]; cbn [mapM]; [reflexivity|]. now rewrite EF, IH. }
    now rewrite E.
  - intros H Hc. unfold find_iter. cbn [s_check also_regexp]. rewrite Hc. cbn [bind]. now rewrite (H2 H).
Qed.

Lemma combined_find ss parsed lists :
  Forall2 (fun s l => s_find s parsed = Ok l) ss lists ->
  Forall wf_primary (concat lists) ->
  exists out dropped,
    s_find (combined ss) parsed = Ok out
    /\ Permutation (concat lists) (out ++ dropped)
    /\ ForallOrdPairs before out
    /\ (forall d, In d dropped -> exists rest t, Permutation (concat lists) (d :: rest) /\ In t rest
          /\ collide d t /\ not_larger t d)
    /\ (concat lists <> [] -> out <> []).
Proof.
  intros H Hw. cbn [s_find combined]. apply mapM_Ok in H. rewrite H. cbn [bind]. apply (disjoint_spec _ Hw).
Qed.
Lemma mapM_Err {A B} (f : A -> res B) l e :
  mapM f l = Err e <-> exists pre x post, l = pre ++ x :: post
    /\ Forall (fun y => exists v, f y = Ok v) pre /\ f x = Err e.
Proof.
  induction l as [|y l IH]; cbn [mapM].
  - split; [discriminate|]. intros (pre & x & post & E & _). destruct pre; discriminate.
  - destruct (f y) as [v|e'] eqn:Ey; cbn [bind].
    + assert (HE : (do ys <- mapM f l; Ok (v :: ys)) = Err e <-> mapM f l = Err e)
        by (destruct (mapM f l); cbn; split; congruence).
      rewrite HE, IH. split.
      * intros (pre & x & post & -> & Hp & Hx). exists (y :: pre), x, post. repeat split; auto. constructor; eauto.
      * intros (pre & x & post & E & Hp & Hx). destruct pre as [|z pre]; cbn in E; injection E as -> ->.
        -- congruence.
        -- inversion Hp; subst. exists pre, x, post. auto.
    + split.
      * intro E. injection E as <-. exists [], y, l. auto.
      * intros (pre & x & post & E & Hp & Hx). destruct pre as [|z pre]; cbn in E; injection E as -> ->.
        -- congruence.
        -- inversion Hp as [|? ? (v & Hv) _]; subst. congruence.
Qed.

Lemma combined_check ss path :
  (s_check (combined ss) path = Ok tt <-> Forall (fun s => s_check s path = Ok tt) ss)
  /\ (forall e, s_check (combined ss) path = Err e <->
        exists pre s post, ss = pre ++ s :: post
          /\ Forall (fun s => s_check s path = Ok tt) pre /\ s_check s path = Err e).
Proof.
  cbn [s_check combined]. split.
  - split.
    + destruct (mapM _ ss) as [l|] eqn:E; [|discriminate]. intros _. apply mapM_Ok in E.
      induction E as [|s [] ss l Hs _ IH]; constructor; auto.
    + intro H. assert (E : mapM (fun s => s_check s path) ss = Ok (map (fun _ => tt) ss)).
      { apply mapM_Ok. induction H; cbn; constructor; auto. }
      now rewrite E.
  - intro e. assert (HE : (do _ <- mapM (fun s => s_check s path) ss; Ok tt) = Err e
                     <-> mapM (fun s => s_check s path) ss = Err e)
      by (destruct (mapM (fun s => s_check s path) ss); cbn; split; congruence).
    rewrite HE, mapM_Err. split; intros (pre & s & post & -> & Hp & Hs); exists pre, s, post; repeat split; auto.
    + eapply Forall_impl; [|exact Hp]. intros x ([] & Hx). exact Hx.
    + eapply Forall_impl; [|exact Hp]. intros x Hx. exists tt. exact Hx.
Qed.

Lemma approx_go l acc :
  ((fix go (l : list searcher) (acc : list text) : option text :=
        match l with
        | [] => Some (join (TX "|") (map (fun r => TX "(?:" ++ r ++ TX ")") (rev acc)))
        | s :: rest => match s_approx s with None => None | Some r => go rest (r :: acc) end
        end) l acc)
  = match all_some (map s_approx l) with
    | None => None
    | Some rs => Some (join (TX "|") (map (fun r => TX "(?:" ++ r ++ TX ")") (rev acc ++ rs)))
    end.
Proof.
  revert acc; induction l as [|s l IH]; intro acc.
  - cbn [map all_some]. now rewrite app_nil_r.
  - cbn [map all_some]. destruct (s_approx s) as [r|]; [|reflexivity]. rewrite IH.
    destruct (all_some (map s_approx l)); [|reflexivity]. cbn [rev]. now rewrite <- app_assoc.
Qed.
Lemma all_some_None {A} (l : list (option A)) : all_some l = None <-> In None l.
Proof.
  induction l as [|[x|] l IH]; cbn.
  - split; [discriminate|tauto].
  - destruct (all_some l); split.
    + discriminate.
    + intros [H|H]; [discriminate|]. apply IH in H. discriminate.
    + intros _. right. now apply IH.
    + reflexivity.
  - tauto.
Qed.
Lemma all_some_Some {A} (l : list (option A)) rs : all_some l = Some rs <-> l = map Some rs.
Proof.
  revert rs; induction l as [|[x|] l IH]; intro rs; cbn.
  - split; [intro E; injection E as <-; reflexivity|]. destruct rs; [reflexivity|discriminate].
  - destruct (all_some l) as [r|]; split.
    + intro E. injection E as <-. cbn. f_equal. now apply IH.
    + destruct rs as [|y rs]; [discriminate|]. cbn. intro E. injection E as <- E.
      apply IH in E. congruence.
    + discriminate.
    + destruct rs as [|y rs]; [discriminate|]. cbn. intro E. injection E as <- E. apply IH in E. discriminate.
  - split; [discriminate|]. destruct rs; discriminate.
Qed.
Lemma combined_approx ss :
  (s_approx (combined ss) = None <-> exists s, In s ss /\ s_approx s = None)
  /\ (forall rs, map s_approx ss = map Some rs ->
        s_approx (combined ss) = Some (join (TX "|") (map (fun r => TX "(?:" ++ r ++ TX ")") rs))).
Proof.
  assert (E : s_approx (combined ss)
    = match all_some (map s_approx ss) with
      | None => None
      | Some rs => Some (join (TX "|") (map (fun r => TX "(?:" ++ r ++ TX ")") rs))
      end).
  { unfold combined. cbn [s_approx]. rewrite approx_go. reflexivity. }
  rewrite E. split.
  - destruct (all_some (map s_approx ss)) eqn:Es.
    + split; [discriminate|]. intros (s & Hs & Hn).
      assert (In None (map s_approx ss)) by (rewrite <- Hn; now apply in_map).
      apply all_some_None in H. congruence.
    + apply all_some_None in Es. apply in_map_iff in Es. destruct Es as (s & Hs & Hn). split; eauto.
  - intros rs H. apply all_some_Some in H. now rewrite H.
Qed.

Lemma list_eqb_refl {A} (eqb : A -> A -> bool) l : (forall x, eqb x x = true) -> list_eqb eqb l l = true.
Proof. intro H. induction l; cbn; [reflexivity|]. now rewrite H, IHl. Qed.
Lemma parsed_eqb_refl p : parsed_eqb p p = true.
Proof.
  unfold parsed_eqb. rewrite !text_eqb_refl, Bool.eqb_reflx, list_eqb_refl; [reflexivity|].
  intro x. unfold pragma_eqb. rewrite text_eqb_refl, !Z.eqb_refl.
  assert (E : forall d, dict_eqb d d = true).
  { induction d as [|[k v] d IH]; cbn; [reflexivity|]. now rewrite !text_eqb_refl, IH. }
  now rewrite E.
Qed.
Lemma is_some_python p : is_some (pf_py p) = true <-> is_python p.
Proof. unfold is_python. destruct (pf_py p); cbn; split; congruence. Qed.

Lemma combined_parse_spec ss data path acc r :
  combined_parse ss data path acc = Ok r ->
  exists ps, Forall2 (fun s p => s_parse s data path = Ok p) ss ps
    /\ (acc = None -> ss <> [] -> exists p, r = Some p /\ In p ps /\ (is_python p <-> exists q, In q ps /\ is_python q))
    /\ (forall p0, acc = Some p0 -> exists p, r = Some p /\ In p (p0 :: ps)
          /\ (is_python p <-> exists q, In q (p0 :: ps) /\ is_python q)).
Proof.
  revert acc r; induction ss as [|s ss IH]; intros acc r H; cbn [combined_parse] in H.
  - injection H as <-. exists []. split; [constructor|]. split; [congruence|]. intros p0 ->.
    exists p0. split; [reflexivity|]. split; [cbn; auto|]. split; [exists p0; cbn; auto|].
    intros (q & [<-|[]] & Hq). exact Hq.
  - destruct (s_parse s data path) as [new|] eqn:Ep; cbn [bind] in H; [|discriminate].
    set (cur := match acc with Some p => p | None => new end) in *.
    assert (K : exists c, (c = cur \/ c = new) /\ combined_parse ss data path (Some c) = Ok r
                  /\ (is_python c <-> is_python cur \/ is_python new)).
    { pose proof (is_some_python cur) as P1. pose proof (is_some_python new) as P2.
      destruct (is_some (pf_py cur)), (is_some (pf_py new)).
      - destruct (parsed_eqb cur new); [|discriminate]. exists cur. tauto.
      - exists cur. tauto.
      - exists new. tauto.
      - destruct (parsed_eqb cur new); [|discriminate]. exists cur. intuition discriminate. }
    destruct K as (c & Hc & Hr & Hpy). apply IH in Hr. destruct Hr as (ps & H2 & _ & HS).
    destruct (HS c eq_refl) as (p & -> & Hin & Hp).
    exists (new :: ps). split; [constructor; auto|]. split.
    + intros -> _. exists p. split; [reflexivity|]. subst cur. split.
      * cbn in *. destruct Hc, Hin; subst; auto.
      * rewrite Hp. split.
        -- intros (q & [<-|Hq] & Hqp); [|exists q; cbn; auto].
           exists c. split; [destruct Hc as [->| ->]; cbn; auto|exact Hqp].
        -- intros (q & [<-|Hq] & Hqp); [|exists q; cbn; auto]. exists c. cbn. tauto.
    + intros p0 ->. exists p. split; [reflexivity|]. subst cur. split.
      * cbn in *. destruct Hc, Hin; subst; auto.
      * rewrite Hp. split.
        -- intros (q & [<-|Hq] & Hqp); [|exists q; cbn; auto].
           exists c. split; [destruct Hc as [->| ->]; cbn; auto|exact Hqp].
        -- intros (q & [<-|[<-|Hq]] & Hqp); [| |exists q; cbn; auto]; exists c; cbn; tauto.
Qed.

Lemma parsed_eqb_same p q : parsed_eqb p q = true -> pf_text q = pf_text p /\ pf_path q = pf_path p /\ pf_pragmas q = pf_pragmas p.
Proof.
  unfold parsed_eqb. intros H. apply andb_prop in H as [H _]. apply andb_prop in H as [H H3]. apply andb_prop in H as [H1 H2]. apply text_eqb_eq in H1, H2.
  split; [congruence|]. split; [congruence|]. revert H3. generalize (pf_pragmas p) (pf_pragmas q).
  assert (D : forall a b, dict_eqb a b = true -> b = a).
  { induction a as [|[k v] a IH]; intros [|[k' v'] b] H; try discriminate H; [reflexivity|]. cbn [dict_eqb] in H. apply andb_prop in H as [H H']. apply andb_prop in H as [Hk Hv].
    apply text_eqb_eq in Hk, Hv. apply IH in H'. congruence. }
  induction l as [|x l IH]; intros [|y l'] H; try discriminate H; [reflexivity|]. cbn [list_eqb] in H. apply andb_prop in H as [Hx H]. apply IH in H as ->. f_equal.
  unfold pragma_eqb in Hx. apply andb_prop in Hx as [Hx X4]. apply andb_prop in Hx as [Hx X3]. apply andb_prop in Hx as [X1 X2]. apply text_eqb_eq in X1. apply D in X2.
  destruct x, y; cbn in *. f_equal; [exact (eq_sym X1)|exact X2|lia|lia].
Qed.
Lemma combined_parse_agrees ss data path : forall acc r, combined_parse ss data path acc = Ok r ->
  (forall p s q, r = Some p -> In s ss -> s_parse s data path = Ok q -> (is_python q <-> is_python p) ->
     pf_text q = pf_text p /\ pf_path q = pf_path p /\ pf_pragmas q = pf_pragmas p)
  /\ (forall p a, r = Some p -> acc = Some a -> (is_python a -> is_python p) /\ ((is_python a <-> is_python p) ->
     pf_text a = pf_text p /\ pf_path a = pf_path p /\ pf_pragmas a = pf_pragmas p)).
Proof.
  induction ss as [|s ss IH]; intros acc r H; cbn [combined_parse] in H.
  - injection H as <-. split; [intros p s q _ []|]. intros p a -> [= ->]. auto.
  - destruct (s_parse s data path) as [new|] eqn:Ep; cbn [bind] in H; [|discriminate].
    set (cur := match acc with Some p => p | None => new end) in *.
    assert (K : exists c, combined_parse ss data path (Some c) = Ok r /\ (is_python cur -> is_python c) /\ (is_python new -> is_python c)
      /\ forall x, x = cur \/ x = new -> (is_python x <-> is_python c) -> pf_text x = pf_text c /\ pf_path x = pf_path c /\ pf_pragmas x = pf_pragmas c).
    { pose proof (is_some_python cur) as P1. pose proof (is_some_python new) as P2.
      destruct (is_some (pf_py cur)), (is_some (pf_py new)).
      - destruct (parsed_eqb cur new) eqn:E; [|discriminate]. exists cur. apply parsed_eqb_same in E. split; [exact H|]. split; [auto|]. split; [tauto|]. intros x [->| ->] _; auto.
      - exists cur. split; [exact H|]. split; [auto|]. split; [tauto|]. intros x [->| ->] X; [auto|]. exfalso. assert (is_python new) by tauto. intuition discriminate.
      - exists new. split; [exact H|]. split; [tauto|]. split; [auto|]. intros x [->| ->] X; [|auto]. exfalso. assert (is_python cur) by tauto. intuition discriminate.
      - destruct (parsed_eqb cur new) eqn:E; [|discriminate]. exists cur. apply parsed_eqb_same in E. split; [exact H|]. split; [auto|]. split; [intros X; apply P2 in X; discriminate|]. intros x [->| ->] _; auto. }
    destruct K as (c & Hc & C1 & C2 & C3). destruct (IH _ _ Hc) as [I1 I2]. split.
    + intros p s' q -> [<-|Hs] Hq X; [|now apply (I1 p s')]. rewrite Ep in Hq. injection Hq as <-. destruct (I2 p c eq_refl eq_refl) as [J1 J2].
      destruct (C3 new (or_intror eq_refl)) as (A1 & A2 & A3); [tauto|]. destruct J2 as (B1 & B2 & B3); [tauto|]. repeat split; congruence.
    + intros p a -> ->. destruct (I2 p c eq_refl eq_refl) as [J1 J2]. change cur with a in *. split; [auto|]. intros X.
      destruct (C3 a (or_introl eq_refl)) as (A1 & A2 & A3); [tauto|]. destruct J2 as (B1 & B2 & B3); [tauto|]. repeat split; congruence.
Qed.

Lemma combined_parse_ok ss data path ps acc :
  Forall2 (fun s p => s_parse s data path = Ok p) ss ps ->
  (forall p q, In p (match acc with Some a => [a] | None => [] end ++ ps) ->
               In q (match acc with Some a => [a] | None => [] end ++ ps) ->
     (is_python p <-> is_python q) -> p = q) ->
  exists r, combined_parse ss data path acc = Ok r.
Proof.
  intro H. revert acc. induction H as [|s p ss ps Hs H IH]; intros acc HE; cbn [combined_parse]; [eauto|].
  rewrite Hs. cbn [bind].
  set (cur := match acc with Some p0 => p0 | None => p end).
  assert (Hcur : In cur (match acc with Some a => [a] | None => [] end ++ p :: ps)).
  { subst cur. destruct acc; cbn; auto. }
  assert (Hnew : In p (match acc with Some a => [a] | None => [] end ++ p :: ps)).
  { apply in_or_app. cbn; auto. }
  assert (Hsub : forall c, c = cur \/ c = p -> exists r, combined_parse ss data path (Some c) = Ok r).
  { intros c Hc. apply IH. intros x y Hx Hy Hxy. apply HE; [| |exact Hxy].
    - cbn in Hx. destruct Hx as [<-|Hx]; [destruct Hc as [->| ->]; auto|apply in_or_app; cbn; auto].
    - cbn in Hy. destruct Hy as [<-|Hy]; [destruct Hc as [->| ->]; auto|apply in_or_app; cbn; auto]. }
  destruct (is_some (pf_py cur)) eqn:E1, (is_some (pf_py p)) eqn:E2.
  - rewrite (HE cur p); [|auto|auto|rewrite <- !is_some_python, E1, E2; tauto].
    rewrite parsed_eqb_refl. auto.
  - auto.
  - auto.
  - rewrite (HE cur p); [|auto|auto|rewrite <- !is_some_python, E1, E2; intuition discriminate].
    rewrite parsed_eqb_refl. auto.
Qed.

Lemma file_filter_check include s path :
  (s_check (file_regex_filtered include s) path = Ok tt <-> s_check s path = Ok tt /\ include path = true)
  /\ (s_check s path = Ok tt -> include path = false ->
        s_check (file_regex_filtered include s) path = Err SkipFileError)
  /\ (forall e, s_check s path = Err e -> s_check (file_regex_filtered include s) path = Err e).
Proof.
  cbn [s_check file_regex_filtered]. split; [|split].
  - destruct (s_check s path) as [[]|]; cbn [bind]; [|intuition discriminate].
    destruct (include path); intuition discriminate.
  - intros -> ->. reflexivity.
  - intros e ->. reflexivity.
Qed.

(** *** C46 *)
Lemma compile_wf subs a b t m : compile_substitutions subs a b t = Ok m -> 0 <= a ->
  wf_sub m /\ nonneg_spans m.
Proof.
  intros H Ha. destruct (compile_eq subs a b t) as (m' & E & Hm & Hp & Hr & _). rewrite E in H. injection H as ->.
  split; [split; [|split]|].
  - unfold dict_ok. rewrite Hm. repeat constructor. tauto.
  - intros r Er. rewrite Hr in Er. injection Er as <-. repeat constructor. tauto.
  - revert E. unfold compile_substitutions.
    match goal with |- context [let '(_, _) := ?p in _] => destruct p as [[h u] ms] end.
    unfold make_sub. destruct (validate _) as [[]|] eqn:E; [|discriminate]. cbn [bind]. intro H.
    injection H as <-. exact E.
  - unfold nonneg_spans. rewrite Hm. repeat constructor. exact Ha.
Qed.

Lemma fixed_point_wf parse_ast s parsed initial a b n out :
  initial <> [] -> Forall wf_sub initial -> Forall nonneg_spans initial -> 0 <= a ->
  fixed_point parse_ast s parsed initial a b n = Ok out ->
  Forall wf_sub out /\ Forall nonneg_spans out.
Proof.
  intros Hne Hw Hn Ha H.
  assert (Hv : Forall (fun x => validate x = Ok tt) initial) by now apply wf_validate.
  destruct (Z.le_gt_cases n 1) as [Hle|Hgt].
  { rewrite fixed_point_same in H by auto. injection H as <-. auto. }
  destruct (all_some_rel a b initial Hv) as (rel & E & [(Hi & _)|(Hx & _)]).
  2: { rewrite fixed_point_same in H by auto. injection H as <-. auto. }
  destruct (fixed_point_spec parse_ast s parsed initial a b n Hne Hv Hgt Hi) as (rels & _ & HS).
  rewrite H in HS. destruct HS as (bs & t & pend & _ & _ & _ & HR).
  destruct bs as [|b0 [|b1 bs]]; cbn [fp_result] in HR.
  - subst. auto.
  - subst. auto.
  - destruct HR as (m & Hm & ->). destruct (compile_wf _ _ _ _ _ Hm Ha). auto.
Qed.

Lemma find_iter_wf parse_ast s data path n out :
  well_behaved s -> find_iter parse_ast s data path n = Ok out ->
  Forall wf_sub out /\ Forall nonneg_spans out.
Proof.
  intros HW H. apply find_iter_ok in H. destruct H as (p & subs & outs & _ & _ & Hf & H2 & ->).
  destruct (HW p subs Hf) as (H1 & Hn & Hk). clear Hf. pose proof (group_by_key_spec subs) as HG.
  revert outs H2. induction HG as [|k g rest gs Hne HF HG IH Hd]; intros outs H2.
  - inversion H2; subst. cbn. auto.
  - inversion H2 as [|? o ? os Ho Hos]; subst. apply Forall_app in H1, Hn, Hk. destruct H1, Hn, Hk.
    destruct (IH ltac:(auto) ltac:(auto) ltac:(auto) os Hos) as [I1 I2].
    assert (HO : Forall wf_sub o /\ Forall nonneg_spans o).
    { unfold process_group in Ho. cbn [fst snd] in Ho. destruct k as [[a b]|].
      - eapply fixed_point_wf in Ho; eauto. destruct g as [|x g]; [congruence|].
        inversion HF as [|? ? Hkx _]; subst. rewrite Forall_forall in H4. eapply H4; [left; reflexivity|exact Hkx].
      - injection Ho as <-. auto. }
    cbn [concat]. rewrite !Forall_app. tauto.
Qed.

Lemma apply_nil data : apply_substitutions data [] = Ok data.
Proof.
  rewrite apply_eq by constructor. cbn. unfold slice_from. now rewrite slice_full.
Qed.

Lemma rewrite_string_spec parse_ast s source path n out :
  well_behaved s -> rewrite_string parse_ast s source path n = Ok out ->
  exists subs es, find_iter parse_ast s source path n = Ok subs
    /\ Permutation es (flat_map edits_of subs) /\ Edited source 0 es out.
Proof.
  intros HW H. unfold rewrite_string in H.
  destruct (find_iter parse_ast s source path n) as [subs|] eqn:E; cbn [bind] in H; [|discriminate].
  destruct (find_iter_wf _ _ _ _ _ _ HW E) as [H1 H2].
  destruct (apply_edits _ _ _ H1 H2 H) as (es & P & HE). exists subs, es. auto.
Qed.

Lemma rewrite_string_none parse_ast s source path n parsed :
  s_check s path = Ok tt -> s_parse s source path = Ok parsed -> s_find s parsed = Ok [] ->
  rewrite_string parse_ast s source path n = Ok source.
Proof.
  intros H1 H2 H3. unfold rewrite_string, find_iter. rewrite H1. cbn [bind]. rewrite H2. cbn [bind].
  rewrite H3. cbn. apply apply_nil.
Qed.
