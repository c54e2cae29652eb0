(** Where removed statements are: proofs. *)
From Verif Require Import Py PyFacts Ast Template FromDiff Matcher MatchSpec FindSpec FindProofs NavSpec NavProofs Removal RemovalSpec.

Lemma left_of_next q i r : left_of (q ++ [i]) r -> under (q ++ [S i]) r \/ left_of (q ++ [S i]) r.
Proof.
  revert r. induction q as [|k q IH]; intros r (c & x & y & p' & q' & E1 & E2 & Hlt); subst r.
  - destruct c as [|z c]; [|destruct c; discriminate E1]. injection E1 as -> E1. cbn [app].
    destruct (Nat.eq_dec y (S x)) as [->|Hy].
    + left. exists q'. reflexivity.
    + right. exists [], (S x), y, [], q'. cbn. repeat split; lia.
  - destruct c as [|z c]; cbn [app] in E1; injection E1 as -> E1.
    + right. exists [], x, y, (q ++ [S i]), q'. now repeat split.
    + destruct (IH (c ++ y :: q')) as [[s E]|(c2 & x2 & y2 & p2 & q2 & E & E' & Hlt2)].
      * exists c, x, y, p', q'. now repeat split.
      * left. exists s. cbn [app]. rewrite E. reflexivity.
      * right. exists (z :: c2), x2, y2, p2, q2. cbn [app]. rewrite E, E'. now repeat split.
Qed.
Lemma left_of_prev r q k : left_of r (q ++ [S k]) -> under (q ++ [k]) r \/ left_of r (q ++ [k]).
Proof.
  revert r. induction q as [|z q IH]; intros r (c & x & y & p' & q' & E1 & E2 & Hlt); subst r.
  - destruct c as [|w c]; [|destruct c; discriminate E2]. injection E2 as <- <-. cbn [app].
    destruct (Nat.eq_dec x k) as [->|Hy].
    + left. exists p'. reflexivity.
    + right. exists [], x, k, p', []. cbn. repeat split; lia.
  - destruct c as [|w c]; cbn [app] in E2; injection E2 as E2a E2.
    + right. exists [], x, z, p', (q ++ [k]). cbn. repeat split; lia.
    + subst w. destruct (IH (c ++ x :: p')) as [[s E]|(c2 & x2 & y2 & p2 & q2 & E & E' & Hlt2)].
      * exists c, x, y, p', q'. now repeat split.
      * left. exists s. cbn [app]. rewrite E. reflexivity.
      * right. exists (z :: c2), x2, y2, p2, q2. cbn [app]. rewrite E, E'. now repeat split.
Qed.
Lemma under_sibling p q j k : under p (q ++ [j]) -> p <> q ++ [j] -> under p (q ++ [k]).
Proof.
  intros [s E] Hne. destruct s as [|x s] using rev_ind; [rewrite app_nil_r in E; congruence|].
  rewrite app_assoc in E. apply app_inj_tail in E as [E _]. exists (s ++ [k]). rewrite E. now rewrite app_assoc.
Qed.

Section Layout.
  Context (tree : value) (tokens : list token).
  Hypothesis HS : source_order tree.

  Lemma suite_at q l mo i v : suite tree q l mo -> all_stmts l -> nth_error l i = Some v -> at_path tree (q ++ [i]) = Some v /\ is_stmt v = true.
  Proof.
    intros H Hst Hi. split; [|apply Hst; eapply nth_error_In; exact Hi].
    destruct H as (id & q' & k & par & H & _ & _). rewrite at_path_app, H. cbn. now rewrite Hi.
  Qed.
  Lemma extent_fun v sp sp' : extent v sp -> extent v sp' -> sp = sp'.
  Proof. intros (f & t & F & T & ->) (f' & t' & F' & T' & ->). rewrite F in F'. rewrite T in T'. injection F' as <-. injection T' as <-. reflexivity. Qed.
  Lemma extent_start v sp f : extent v sp -> first_token v = Ok f -> tk_start f = fst sp.
  Proof. intros (f' & t' & F' & T' & ->) F. rewrite F in F'. now injection F' as <-. Qed.
  Lemma extent_end v sp t : extent v sp -> last_token v = Ok t -> tk_end t = snd sp.
  Proof. intros (f' & t' & F' & T' & ->) T. rewrite T in T'. now injection T' as <-. Qed.

  (** A removed range ends with the statement, or where the next one starts. *)
  Lemma removal_end rem l mo i v si fi sp pass : nth_error l i = Some v -> extent v (si, fi) -> no_semicolon tokens v ->
    removal tokens l mo rem i si fi sp pass ->
    snd sp = fi \/ exists next spn, nth_error l (S i) = Some next /\ first_token next = Ok spn /\ snd sp = tk_start spn.
  Proof.
    intros Hi He Hns R. assert (Hil : (i < length l)%nat) by (apply nth_error_Some; now rewrite Hi).
    destruct (Nat.lt_ge_cases (S i) (length l)) as [H|H].
    - right. destruct (rv_inner _ _ _ _ _ _ _ _ _ R H) as (n & ft & H1 & H2 & ->). now exists n, ft.
    - left. assert (E : S i = length l) by lia. destruct i as [|i].
      + now rewrite (rv_only _ _ _ _ _ _ _ _ _ R (eq_sym E)).
      + destruct (rv_end _ _ _ _ _ _ _ _ _ R E ltac:(lia)) as (v' & own & semi & H1 & H2 & H3 & H4). rewrite Hi in H1. injection H1 as <-.
        specialize (Hns _ _ H2 H3). apply text_eqb_neq in Hns. now rewrite Hns in H4.
  Qed.
  (** It starts with the statement, or where the previous one, which stays, ends. *)
  Lemma removal_start (rem : nat -> Prop) l mo i v si fi sp pass : nth_error l i = Some v -> extent v (si, fi) ->
    removal tokens l mo rem i si fi sp pass -> forall x : Z,
    (x <= si) -> (forall k prev lt, i = S k -> ~ rem k -> nth_error l k = Some prev -> last_token prev = Ok lt -> x <= tk_end lt) -> x <= fst sp.
  Proof.
    intros Hi He R x H1 H2. assert (Hil : (i < length l)%nat) by (apply nth_error_Some; now rewrite Hi).
    destruct (Nat.lt_ge_cases (S i) (length l)) as [H|H].
    - destruct (rv_inner _ _ _ _ _ _ _ _ _ R H) as (n & ft & _ & _ & ->). exact H1.
    - assert (E : S i = length l) by lia. destruct i as [|k].
      + now rewrite (rv_only _ _ _ _ _ _ _ _ _ R (eq_sym E)).
      + destruct (rv_start _ _ _ _ _ _ _ _ _ R k E eq_refl) as [G1 G2]. apply Z.nlt_ge. intros Hbad.
        assert (Hn : ~ rem k) by (intros G; rewrite (G1 G) in Hbad; lia).
        destruct (G2 Hn) as (prev & lt & P1 & P2 & E'). specialize (H2 k prev lt eq_refl Hn P1 P2). lia.
  Qed.

  Theorem removals_disjoint (rem : path -> Prop) q i l mo v si fi sp pass q' j l' mo' v' sj fj sp' pass' :
    suite tree q l mo -> all_stmts l -> nth_error l i = Some v -> extent v (si, fi) -> suite tree q' l' mo' -> all_stmts l' -> nth_error l' j = Some v' -> extent v' (sj, fj) ->
    left_of (q ++ [i]) (q' ++ [j]) -> rem (q ++ [i]) -> no_semicolon tokens v ->
    removal tokens l mo (fun k => rem (q ++ [k])) i si fi sp pass ->
    removal tokens l' mo' (fun k => rem (q' ++ [k])) j sj fj sp' pass' ->
    snd sp <= fst sp'.
  Proof.
    intros S1 B1 N1 E1 S2 B2 N2 E2 Hleft Hrem Hns R1 R2.
    destruct (suite_at _ _ _ _ _ S1 B1 N1) as [A1 T1]. destruct (suite_at _ _ _ _ _ S2 B2 N2) as [A2 T2].
    eapply (removal_start _ _ _ _ _ _ _ _ _ N2 E2 R2); destruct (removal_end _ _ _ _ _ _ _ _ _ N1 E1 Hns R1) as [->|(w & ft & N3 & F3 & ->)].
    - exact (so_order _ HS _ _ _ _ _ _ A1 A2 T1 T2 Hleft E1 E2).
    - destruct (suite_at _ _ _ _ _ S1 B1 N3) as [A3 T3]. destruct (so_extent _ HS _ _ A3 T3) as (spw & E3 & L3).
      rewrite (extent_start _ _ _ E3 F3). destruct (left_of_next _ _ _ Hleft) as [G|G].
      + exact (proj1 (so_inside _ HS _ _ _ _ _ _ A3 A2 T3 T2 G E3 E2)).
      + pose proof (so_order _ HS _ _ _ _ _ _ A3 A2 T3 T2 G E3 E2) as Hle. cbn in Hle. lia.
    - intros k u lt -> Hnr N4 F4. destruct (suite_at _ _ _ _ _ S2 B2 N4) as [A4 T4]. destruct (so_extent _ HS _ _ A4 T4) as (spu & E4 & L4).
      rewrite (extent_end _ _ _ E4 F4). destruct (left_of_prev _ _ _ Hleft) as [G|G].
      + exact (proj2 (so_inside _ HS _ _ _ _ _ _ A4 A1 T4 T1 G E4 E1)).
      + pose proof (so_order _ HS _ _ _ _ _ _ A1 A4 T1 T4 G E1 E4) as Hle. cbn in Hle. lia.
    - intros k u lt -> Hnr N4 F4. destruct (suite_at _ _ _ _ _ S2 B2 N4) as [A4 T4]. destruct (so_extent _ HS _ _ A4 T4) as (spu & E4 & L4).
      rewrite (extent_end _ _ _ E4 F4).
      destruct (suite_at _ _ _ _ _ S1 B1 N3) as [A3 T3]. destruct (so_extent _ HS _ _ A3 T3) as (spw & E3 & L3).
      rewrite (extent_start _ _ _ E3 F3). destruct (left_of_next _ _ _ Hleft) as [G|G].
      + destruct (list_eq_dec Nat.eq_dec (q ++ [S i]) (q' ++ [S k])) as [Eq|Nq].
        * apply app_inj_tail in Eq as [<- [= <-]]. contradiction.
        * pose proof (so_inside _ HS _ _ _ _ _ _ A3 A4 T3 T4 (under_sibling _ _ _ _ G Nq) E3 E4) as [Hle _]. lia.
      + destruct (left_of_prev _ _ _ G) as [G'|G'].
        * pose proof (so_inside _ HS _ _ _ _ _ _ A4 A3 T4 T3 G' E4 E3) as [_ Hle]. lia.
        * pose proof (so_order _ HS _ _ _ _ _ _ A3 A4 T3 T4 G' E3 E4) as Hle. lia.
  Qed.

  Theorem removal_spares (rem : nat -> Prop) q i l mo v si fi sp pass r w spw :
    suite tree q l mo -> all_stmts l -> nth_error l i = Some v -> extent v (si, fi) -> no_semicolon tokens v ->
    removal tokens l mo rem i si fi sp pass ->
    at_path tree r = Some w -> is_stmt w = true -> extent w spw ->
    (left_of (q ++ [i]) r -> snd sp <= fst spw) /\ (left_of r (q ++ [i]) -> snd spw <= fst sp).
  Proof.
    intros S1 B1 N1 E1 Hns R1 A2 T2 E2. destruct (suite_at _ _ _ _ _ S1 B1 N1) as [A1 T1]. split; intros Hleft.
    - destruct (removal_end _ _ _ _ _ _ _ _ _ N1 E1 Hns R1) as [->|(n & ft & N3 & F3 & ->)].
      + exact (so_order _ HS _ _ _ _ _ _ A1 A2 T1 T2 Hleft E1 E2).
      + destruct (suite_at _ _ _ _ _ S1 B1 N3) as [A3 T3]. destruct (so_extent _ HS _ _ A3 T3) as (spn & E3 & L3).
        rewrite (extent_start _ _ _ E3 F3). destruct (left_of_next _ _ _ Hleft) as [G|G].
        * exact (proj1 (so_inside _ HS _ _ _ _ _ _ A3 A2 T3 T2 G E3 E2)).
        * pose proof (so_order _ HS _ _ _ _ _ _ A3 A2 T3 T2 G E3 E2). lia.
    - eapply (removal_start _ _ _ _ _ _ _ _ _ N1 E1 R1).
      + exact (so_order _ HS _ _ _ _ _ _ A2 A1 T2 T1 Hleft E2 E1).
      + intros k u lt -> _ N4 F4. destruct (suite_at _ _ _ _ _ S1 B1 N4) as [A4 T4]. destruct (so_extent _ HS _ _ A4 T4) as (spu & E4 & L4).
        rewrite (extent_end _ _ _ E4 F4). destruct (left_of_prev _ _ _ Hleft) as [G|G].
        * exact (proj2 (so_inside _ HS _ _ _ _ _ _ A4 A2 T4 T2 G E4 E2)).
        * pose proof (so_order _ HS _ _ _ _ _ _ A2 A4 T2 T4 G E2 E4). lia.
  Qed.
End Layout.
