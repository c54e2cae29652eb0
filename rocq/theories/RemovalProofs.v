(** Removing statements: proofs. *)
From Verif Require Import Py PyFacts Ast Template FromDiff Matcher MatchSpec MatcherProofs FindSpec FindProofs NavSpec NavProofs
  Removal RemovalSpec.

Lemma removal_rem tokens l module r1 r2 i a b sp pass :
  (forall j, (j <= i)%nat -> (r1 j <-> r2 j)) ->
  removal tokens l module r1 i a b sp pass -> removal tokens l module r2 i a b sp pass.
Proof.
  intros Hle [Hp Hi Hs He Ho]. split; [|assumption| |assumption|assumption].
  - rewrite Hp. split; intros (E1 & E2 & E3); (split; [assumption|]; split; [assumption|]); intros j Hj;
      apply Hle; [lia | now apply E3 | lia | now apply E3].
  - intros k E1 E2. specialize (Hs k E1 E2). rewrite <- (Hle k) by lia. assumption.
Qed.

Section Removals.
  Context (pass_template : template) (tree : value) (tokens : list token).
  Hypothesis Hun : unshared tree.
  Hypothesis Hroot : is_node tree = true.

  Lemma stmt_node v : is_stmt v = true -> is_node v || is_list v = true.
  Proof. destruct v; cbn; intros H; [reflexivity|discriminate H..]. Qed.
  Lemma stmt_not_none v : is_stmt v = true -> is_none v = false.
  Proof. destruct v; cbn; intros H; [reflexivity|discriminate H..]. Qed.
  Lemma removes_at s p : removes tree s p -> exists v, at_path tree p = Some v /\ is_stmt v = true /\ only_at tree p v.
  Proof.
    intros (v & txt & f & l & a & b & _ & _ & Hs & Hp). exists v. split; [assumption|]. split; [assumption|].
    apply Hun; [assumption | now apply stmt_node].
  Qed.
  Lemma removes_fun s p p' : removes tree s p -> removes tree s p' -> p = p'.
  Proof.
    intros (v & txt & f & l & a & b & H1 & _ & Hs & Hp) (v' & txt' & f' & l' & a' & b' & H1' & _ & Hs' & Hp').
    rewrite H1 in H1'. injection H1' as <- _ _ _ _ _.
    apply (proj2 (Hun _ _ Hp' (stmt_node _ Hs')) p v); [assumption | reflexivity].
  Qed.
  Lemma gone_at a p : gone tree a p -> exists v, at_path tree p = Some v /\ is_stmt v = true /\ only_at tree p v.
  Proof. intros (s & _ & Hs). eapply removes_at; eassumption. Qed.
  Lemma gone_snoc a s p : gone tree (a ++ [s]) p <-> gone tree a p \/ removes tree s p.
  Proof.
    unfold gone. split.
    - intros (s' & Hi & Hr). apply in_app_iff in Hi as [Hi|[<-|[]]]; [left; now exists s' | now right].
    - intros [(s' & Hi & Hr)|Hr]; [exists s' | exists s]; (split; [|assumption]); apply in_app_iff; [now left | right; now left].
  Qed.

  (** What is remembered of the steps [a]. *)
  Definition remembers (a : list step) (st : removed) : Prop :=
    (forall z, In z (rm_nodes st) <-> exists p v, gone tree a p /\ at_path tree p = Some v /\ vid v = z)
    /\ (forall z, In z (rm_prefix st) <-> exists q id l i x, at_path tree q = Some (VList id l) /\ (S i < length l)%nat
          /\ nth_error l i = Some x /\ vid x = z /\ forall j, (j <= i)%nat -> gone tree a (q ++ [j])).

  Lemma at_item q id l i x : at_path tree q = Some (VList id l) -> nth_error l i = Some x -> at_path tree (q ++ [i]) = Some x.
  Proof. intros Hq Hi. rewrite at_path_app, Hq. cbn. now rewrite Hi. Qed.

  Lemma remembers_node a st q id l i x : remembers a st -> at_path tree q = Some (VList id l) -> nth_error l i = Some x ->
    zmem (vid x) (rm_nodes st) = true <-> gone tree a (q ++ [i]).
  Proof.
    intros [Hn _] Hq Hi. pose proof (at_item _ _ _ _ _ Hq Hi) as Hx. unfold zmem. rewrite existsb_exists. split.
    - intros (z & Hz & E%Z.eqb_eq). subst z. apply Hn in Hz as (p & v & Hg & Hp & E).
      destruct (gone_at _ _ Hg) as (v' & Hp' & _ & Ho). rewrite Hp in Hp'. injection Hp' as <-.
      now rewrite (proj2 Ho _ _ Hx (eq_sym E)).
    - intros Hg. exists (vid x). split; [|apply Z.eqb_refl]. apply Hn. now exists (q ++ [i]), x.
  Qed.
  Lemma remembers_prefix a st q id l i x : remembers a st -> at_path tree q = Some (VList id l) -> nth_error l i = Some x ->
    (S i < length l)%nat ->
    zmem (vid x) (rm_prefix st) = true <-> forall j, (j <= i)%nat -> gone tree a (q ++ [j]).
  Proof.
    intros [_ Hn] Hq Hi HS. pose proof (at_item _ _ _ _ _ Hq Hi) as Hx. unfold zmem. rewrite existsb_exists. split.
    - intros (z & Hz & E%Z.eqb_eq). subst z. apply Hn in Hz as (q' & id' & l' & i' & x' & Hq' & HS' & Hi' & E & Hg).
      pose proof (at_item _ _ _ _ _ Hq' Hi') as Hx'.
      destruct (gone_at _ _ (Hg i' ltac:(lia))) as (v' & Hp' & _ & Ho). rewrite Hx' in Hp'. injection Hp' as <-.
      pose proof (proj2 Ho _ _ Hx (eq_sym E)) as EQ. now apply app_inj_tail in EQ as [<- <-].
    - intros Hg. exists (vid x). split; [|apply Z.eqb_refl]. apply Hn. now exists q, id, l, i, x.
  Qed.

  (** One step, as [tidied] says it of all. *)
  Definition tidy_step (rem : path -> Prop) (s : step) (m' : option pymatch) (t' : template) : Prop :=
    ((forall p, ~ removes tree s p) -> m' = dget (fst s) (fst (snd s)) /\ t' = snd (snd s))
    /\ forall p, removes tree s p ->
       exists q i l module v txt f la a b f' la' a' b' pass,
          p = q ++ [i] /\ suite tree q l module /\ nth_error l i = Some v
          /\ dget (fst s) (fst (snd s)) = Some (PLex v txt f la a b) /\ m' = Some (PLex v txt f' la' a' b')
          /\ t' = (if pass : bool then pass_template else snd (snd s))
          /\ removal tokens l module (fun j => rem (q ++ [j])) i (fst (lex_span f la a b)) (snd (lex_span f la a b))
               (lex_span f' la' a' b') pass.

  Lemma sanitize_one_ok a s rest st m' t' st' :
    remembers a st -> in_order tree (a ++ s :: rest) -> placed tree (a ++ s :: rest) ->
    sanitize_one pass_template tree tokens (dget (fst s) (fst (snd s))) (snd (snd s)) st = Ok (m', t', st') ->
    tidy_step (gone tree (a ++ s :: rest)) s m' t' /\ remembers (a ++ [s]) st'.
  Proof.
    intros Hrem Hord Hpl. unfold sanitize_one.
    destruct (removes_stmt _ _) as [[[[[[v txt] f] l] a0] b0]|] eqn:E.
    2: { intros [= <- <- <-].
         assert (Hno : forall p, ~ removes tree s p).
         { intros p (v & txt & f & l & a0 & b0 & H1 & H2 & H3 & H4). unfold removes_stmt in E. now rewrite H1, H2, H3 in E. }
         split; [split; [now split | intros p Hp; now apply Hno in Hp]|].
         assert (Hgs : forall p, gone tree (a ++ [s]) p <-> gone tree a p).
         { intros p. rewrite gone_snoc. split; [intros [?|Hr]; [assumption | now apply Hno in Hr] | now left]. }
         destruct Hrem as [R1 R2]. split; intros z.
         - rewrite R1. split; intros (p & v & H); exists p, v; now rewrite Hgs in *.
         - rewrite R2. split; intros (q & id & l & i & x & H1 & H2 & H3 & H4 & H5); exists q, id, l, i, x;
             (repeat split; try assumption); intros j Hj; now apply Hgs, H5. }
    assert (E' : dget (fst s) (fst (snd s)) = Some (PLex v txt f l a0 b0) /\ t_template (snd (snd s)) = [] /\ is_stmt v = true).
    { unfold removes_stmt in E. destruct (dget (fst s) (fst (snd s))) as [[]|]; try discriminate E.
      destruct (t_template _); [|discriminate E]. destruct (is_stmt _) eqn:Es; [|discriminate E].
      injection E as <- <- <- <- <- <-. now repeat split. }
    destruct E' as (Em & Et & Es). clear E.
    destruct (Hpl s v txt f l a0 b0) as [p Hp]; [apply in_app_iff; right; now left | assumption..|].
    assert (Hr : removes tree s p) by (exists v, txt, f, l, a0, b0; now repeat split).
    assert (Ho : only_at tree p v) by (apply Hun; [assumption | now apply stmt_node]).
    destruct (get_parent tree v) as [par|] eqn:Ep; [|discriminate].
    destruct p as [|i q _] using rev_ind.
    { cbn in Hp. injection Hp as <-. destruct (nav_root tree Ho) as [E0 _]. rewrite E0 in Ep. discriminate Ep. }
    rewrite at_path_app in Hp. destruct (at_path tree q) as [par'|] eqn:Hq; [|discriminate Hp].
    cbn in Hp. destruct (nth_error (vchildren par') i) as [x|] eqn:Hi; [|discriminate Hp]. injection Hp as ->.
    rewrite (nav_parent tree q i par' v Hq Hi (or_introl (stmt_not_none _ Es)) Ho) in Ep. injection Ep as ->.
    destruct par as [n fs|id items|]; [discriminate| |discriminate]. cbn [vchildren] in Hi.
    set (module := match get_parent tree (VList id items) with Some p => text_eqb (vtype p) (TX "Module") | None => false end).
    destruct (nav_siblings_list tree q i id items v Hq Hi Ho) as [Eprev Enext].
    rewrite Enext, Eprev.
    (* the suite *)
    assert (Hsuite : suite tree q items module).
    { destruct q as [|k q' _] using rev_ind; [cbn in Hq; injection Hq as E; rewrite E in Hroot; discriminate Hroot|].
      assert (Hq2 := Hq). rewrite at_path_app in Hq2. destruct (at_path tree q') as [par|] eqn:Hq'; [|discriminate Hq2].
      cbn in Hq2. destruct (nth_error (vchildren par) k) as [x|] eqn:Hk; [|discriminate Hq2]. injection Hq2 as ->.
      exists id, q', k, par. repeat split; try assumption.
      unfold module. rewrite (nav_parent tree q' k par (VList id items) Hq' Hk (or_introl eq_refl)); [reflexivity|].
      apply Hun; [assumption | reflexivity]. }
    (* what is gone when *)
    assert (Hin_a : forall j, gone tree (a ++ s :: rest) (q ++ [j]) -> (j < i)%nat -> gone tree a (q ++ [j])).
    { intros j (s' & Hin & Hs') Hj. apply in_app_iff in Hin as [Hin|[<-|Hin]].
      - now exists s'.
      - pose proof (removes_fun _ _ _ Hr Hs') as EQ. apply app_inj_tail in EQ as [_ ->]. lia.
      - apply in_split in Hin as (b1 & b2 & ->).
        assert (i < j)%nat; [|lia]. apply (Hord (a ++ s :: b1) s' b2) with (q := q); [now rewrite <- app_assoc | | assumption].
        exists s. split; [apply in_app_iff; right; now left | assumption]. }
    assert (Hin_all : forall p, gone tree a p -> gone tree (a ++ s :: rest) p).
    { intros p (s' & Hin & Hs'). exists s'. split; [apply in_app_iff; now left | assumption]. }
    assert (Hlater : forall j, gone tree a (q ++ [j]) -> (j < i)%nat).
    { intros j Hg. eapply Hord; [reflexivity | eassumption | assumption]. }
    (* the removed statements *)
    assert (Hnodes : forall z, In z (vid v :: rm_nodes st) <-> exists p v, gone tree (a ++ [s]) p /\ at_path tree p = Some v /\ vid v = z).
    { intros z. cbn [In]. rewrite (proj1 Hrem). split.
      - intros [<-|(p & w & Hg & Hw & E)].
        + exists (q ++ [i]), v. split; [apply gone_snoc; now right|]. split; [exact (proj1 Ho) | reflexivity].
        + exists p, w. split; [apply gone_snoc; now left | now split].
      - intros (p & w & [Hg|Hg]%gone_snoc & Hw & E); [right; now exists p, w|left].
        pose proof (removes_fun _ _ _ Hr Hg) as <-. rewrite (proj1 Ho) in Hw. now injection Hw as <-. }
    (* the prefix: a statement before the last one *)
    assert (Hold : forall z, (exists q id l i x, at_path tree q = Some (VList id l) /\ (S i < length l)%nat
          /\ nth_error l i = Some x /\ vid x = z /\ forall j, (j <= i)%nat -> gone tree a (q ++ [j])) ->
        exists q id l i x, at_path tree q = Some (VList id l) /\ (S i < length l)%nat
          /\ nth_error l i = Some x /\ vid x = z /\ forall j, (j <= i)%nat -> gone tree (a ++ [s]) (q ++ [j])).
    { intros z (q0 & id0 & l0 & i0 & x0 & G1 & G2 & G3 & G4 & G5). exists q0, id0, l0, i0, x0. repeat split; try assumption.
      intros j Hj. apply gone_snoc. left. now apply G5. }
    assert (Hnew : forall z q0 id0 l0 i0 x0, at_path tree q0 = Some (VList id0 l0) -> (S i0 < length l0)%nat ->
          nth_error l0 i0 = Some x0 -> vid x0 = z -> (forall j, (j <= i0)%nat -> gone tree (a ++ [s]) (q0 ++ [j])) ->
          (forall j, (j <= i0)%nat -> gone tree a (q0 ++ [j]))
          \/ (q0 = q /\ i0 = i /\ forall j, (j < i)%nat -> gone tree a (q ++ [j]))).
    { intros z q0 id0 l0 i0 x0 G1 G2 G3 G4 G5.
      destruct (list_eq_dec Nat.eq_dec q0 q) as [->|Hne].
      - destruct (Nat.lt_trichotomy i0 i) as [Hlt|[->|Hlt]].
        + left. intros j Hj. destruct (proj1 (gone_snoc _ _ _) (G5 j Hj)) as [H|H]; [assumption|].
          pose proof (removes_fun _ _ _ Hr H) as EQ. apply app_inj_tail in EQ as [_ ->]. lia.
        + right. split; [reflexivity|]. split; [reflexivity|]. intros j Hj.
          destruct (proj1 (gone_snoc _ _ _) (G5 j ltac:(lia))) as [H|H]; [assumption|].
          pose proof (removes_fun _ _ _ Hr H) as EQ. apply app_inj_tail in EQ as [_ ->]. lia.
        + exfalso. destruct (proj1 (gone_snoc _ _ _) (G5 i0 ltac:(lia))) as [H|H].
          * apply Hlater in H. lia.
          * pose proof (removes_fun _ _ _ Hr H) as EQ. apply app_inj_tail in EQ as [_ ->]. lia.
      - left. intros j Hj. destruct (proj1 (gone_snoc _ _ _) (G5 j Hj)) as [H|H]; [assumption|].
        pose proof (removes_fun _ _ _ Hr H) as EQ. apply app_inj_tail in EQ as [EQ _]. now rewrite EQ in Hne. }
    assert (Hself : gone tree (a ++ s :: rest) (q ++ [i])) by (exists s; split; [apply in_app_iff; right; now left | assumption]).
    assert (Hlen : (i < length items)%nat) by (apply nth_error_Some; now rewrite Hi).
    assert (Hbefore : forall j, (j < i)%nat -> (gone tree (a ++ s :: rest) (q ++ [j]) <-> gone tree a (q ++ [j])))
      by (intros j Hj; split; [intros H; now apply Hin_a | apply Hin_all]).
    assert (Hfin : forall m' t' f' la' a' b' (pass : bool),
      m' = Some (PLex v txt f' la' a' b') -> t' = (if pass then pass_template else snd (snd s)) ->
      removal tokens items module (fun j => gone tree (a ++ s :: rest) (q ++ [j])) i (fst (lex_span f l a0 b0))
        (snd (lex_span f l a0 b0)) (lex_span f' la' a' b') pass ->
      tidy_step (gone tree (a ++ s :: rest)) s m' t').
    { intros m0 t0 f' la' a' b' pass G1 G2 G3. split; [intros H; now apply H in Hr|]. intros p Hp.
      pose proof (removes_fun _ _ _ Hr Hp) as <-.
      exists q, i, items, module, v, txt, f, l, a0, b0, f', la', a', b', pass.
      split; [reflexivity|]. split; [assumption|]. split; [assumption|]. split; [assumption|]. split; [assumption|]. now split. }
    assert (Hlast : ~ (S i < length items)%nat -> remembers (a ++ [s]) (Removed (vid v :: rm_nodes st) (rm_prefix st))).
    { intros HS. split; [exact Hnodes|]. intros z. cbn [rm_prefix]. rewrite (proj2 Hrem). split; [apply Hold|].
      intros (q0 & id0 & l0 & i0 & x0 & G1 & G2 & G3 & G4 & G5).
      destruct (Hnew z q0 id0 l0 i0 x0 G1 G2 G3 G4 G5) as [G|(-> & -> & G)]; [now exists q0, id0, l0, i0, x0|].
      rewrite Hq in G1. injection G1 as _ <-. lia. }
    destruct (nth_error items (S i)) as [next|] eqn:En.
    - (* not the last one *)
      assert (HS : (S i < length items)%nat) by (apply nth_error_Some; now rewrite En).
      match goal with |- context [if ?c then Removed _ _ else _] => set (cond := c) end.
      assert (Hcond : cond = true <-> forall j, (j < i)%nat -> gone tree a (q ++ [j])).
      { subst cond. destruct i as [|k]; [split; [intros _ j Hj; lia | reflexivity]|].
        destruct (nth_error items k) as [prev|] eqn:Ek; [|apply nth_error_None in Ek; lia].
        change (rm_prefix (Removed (vid v :: rm_nodes st) (rm_prefix st))) with (rm_prefix st).
        rewrite (remembers_prefix _ _ _ _ _ _ _ Hrem Hq Ek) by lia.
        split; intros H j Hj; apply H; lia. }
      destruct (first_token next) as [ft|] eqn:Ef; [|discriminate].
      assert (G : remembers (a ++ [s]) (if cond then Removed (vid v :: rm_nodes st) (vid v :: rm_prefix st)
                                        else Removed (vid v :: rm_nodes st) (rm_prefix st))).
      { destruct cond eqn:Ec; (split; [exact Hnodes|]); intros z; cbn [rm_prefix].
        - cbn [In]. rewrite (proj2 Hrem). split.
          + intros [<-|H]; [|now apply Hold]. exists q, id, items, i, v. repeat split; try assumption.
            intros j Hj. apply gone_snoc. destruct (Nat.eq_dec j i) as [->|]; [now right|left].
            apply Hcond; [reflexivity | lia].
          + intros (q0 & id0 & l0 & i0 & x0 & G1 & G2 & G3 & G4 & G5).
            destruct (Hnew z q0 id0 l0 i0 x0 G1 G2 G3 G4 G5) as [G|(-> & -> & G)]; [right; now exists q0, id0, l0, i0, x0|].
            left. rewrite Hq in G1. injection G1 as _ <-. rewrite Hi in G3. now injection G3 as <-.
        - rewrite (proj2 Hrem). split; [apply Hold|].
          intros (q0 & id0 & l0 & i0 & x0 & G1 & G2 & G3 & G4 & G5).
          destruct (Hnew z q0 id0 l0 i0 x0 G1 G2 G3 G4 G5) as [G|(-> & -> & G)]; [now exists q0, id0, l0, i0, x0|].
          exfalso. apply Hcond in G. discriminate G. }
      intros H. assert (E : m' = Some (PLex v txt f ft a0 false) /\ t' = snd (snd s)
        /\ st' = if cond then Removed (vid v :: rm_nodes st) (vid v :: rm_prefix st)
                                        else Removed (vid v :: rm_nodes st) (rm_prefix st)).
      { destruct (match i with O => None | S j => nth_error items j end); now injection H as <- <- <-. }
      destruct E as (-> & -> & ->). split; [|exact G].
      eapply (Hfin _ _ f ft a0 false false); [reflexivity..|].
      split.
      + split; [discriminate|]. intros (_ & E & _). lia.
      + intros _. exists next, ft. repeat split; try assumption.
      + intros k E. lia.
      + intros E. lia.
      + intros E. lia.
    - (* the last one *)
      assert (HS : S i = length items) by (apply nth_error_None in En; lia).
      destruct i as [|k].
      + (* the only one *)
        intros [= <- <- <-]. split; [|apply Hlast; lia].
        eapply (Hfin _ _ f l a0 b0 (negb module)); [exact Em | now destruct module|].
        split.
        * split.
          -- intros E. split; [now destruct module|]. split; [assumption|]. intros j Hj. assert (j = 0%nat) as -> by lia. assumption.
          -- now intros (-> & _).
        * intros E. lia.
        * intros k _ E. discriminate E.
        * intros _ E. lia.
        * intros _. now destruct (lex_span f l a0 b0).
      + destruct (nth_error items k) as [prev|] eqn:Ek; [|apply nth_error_None in Ek; lia].
        destruct (last_token v) as [own|] eqn:Eo; [|discriminate]. cbn [bind].
        change (rm_prefix (Removed (vid v :: rm_nodes st) (rm_prefix st))) with (rm_prefix st).
        assert (Hpre := remembers_prefix _ _ _ _ _ _ _ Hrem Hq Ek ltac:(lia)).
        assert (Hnod := remembers_node _ _ _ _ _ _ _ Hrem Hq Ek).
        assert (Hgk : zmem (vid prev) (rm_prefix st) || zmem (vid prev) (rm_nodes (Removed (vid v :: rm_nodes st) (rm_prefix st))) = true
            <-> gone tree a (q ++ [k])).
        { cbn [rm_nodes]. rewrite orb_true_iff, Hpre. unfold zmem at 1. cbn [existsb]. fold (zmem (vid prev) (rm_nodes st)).
          rewrite orb_true_iff, Hnod, Z.eqb_eq. split.
          - intros [H|[E|H]]; [apply H; lia| |assumption]. exfalso.
            pose proof (proj2 Ho _ _ (at_item _ _ _ _ _ Hq Ek) E) as EQ. apply app_inj_tail in EQ as [_ EQ]. lia.
          - intros H. right. now right. }
        match goal with |- context [if ?c || ?d then Ok (f, a0) else _] => set (cond := c || d) in * end.
        destruct (if cond then Ok (f, a0) else do lt <- last_token prev; Ok (lt, false)) as [start|] eqn:Estart; [|discriminate].
        cbn [bind]. destruct (next_token tokens own) as [semi|] eqn:Esemi; [|discriminate]. cbn [bind].
        intros [= <- <- <-]. split; [|apply Hlast; lia].
        set (fin := if text_eqb (tk_string semi) (TX ";") then (semi, true) else (l, b0)).
        eapply (Hfin _ _ (fst start) (fst fin) (snd start) (snd fin) (zmem (vid prev) (rm_prefix st) && negb module));
          [reflexivity | now destruct (zmem (vid prev) (rm_prefix st)), module|].
        split.
        * rewrite andb_true_iff, Hpre. split.
          -- intros [H Hm]. split; [now destruct module|]. split; [assumption|]. intros j Hj.
             destruct (Nat.eq_dec j (S k)) as [->|]; [assumption|]. apply Hbefore; [lia|]. apply H. lia.
          -- intros (-> & _ & H). split; [|reflexivity]. intros j Hj. apply Hbefore; [lia|]. apply H. lia.
        * intros E. lia.
        * intros k0 _ [= <-]. rewrite (Hbefore k) by lia. destruct cond eqn:Ec.
          -- injection Estart as <-. split; [intros _|intros H; exfalso; apply H, Hgk; reflexivity].
             unfold lex_span. cbn. now destruct a0.
          -- destruct (last_token prev) as [lt|] eqn:El; [|discriminate Estart]. injection Estart as <-.
             split; [intros H; apply Hgk in H; discriminate H|]. intros _. exists prev, lt. now repeat split.
        * intros _ _. exists v, own, semi. repeat split; try assumption. subst fin. now destruct (text_eqb _ _).
        * intros E. lia.
  Qed.

  Lemma sanitize_loop ms all : forall todo a rest cur done st ms' ts' st',
    NoDup (dkeys todo) -> (forall x, In x (dkeys todo) -> dget cur x = dget ms x) -> (forall x, In x (dkeys todo) -> ~ In x (dkeys done)) ->
    all = a ++ map (pair ms) todo ++ rest -> remembers a st -> in_order tree all -> placed tree all ->
    sanitize pass_template tree tokens cur todo done st = Ok (ms', ts', st') ->
    remembers (a ++ map (pair ms) todo) st'
    /\ dkeys ms' = dkeys cur /\ (forall y, ~ In y (dkeys todo) -> dget ms' y = dget cur y)
    /\ exists todo', ts' = done ++ todo' /\ dkeys todo' = dkeys todo
       /\ forall x t, In (x, t) todo -> exists t', In (x, t') todo' /\ tidy_step (gone tree all) (ms, (x, t)) (dget ms' x) t'.
  Proof.
    induction todo as [|[x t] todo IH]; intros a rest cur done st ms' ts' st' Hnd Hcur Hdone Eall Hrem Hord Hpl.
    - cbn [sanitize]. intros [= <- <- <-]. cbn [map]. rewrite app_nil_r. split; [assumption|]. split; [reflexivity|].
      split; [reflexivity|]. exists []. rewrite app_nil_r. split; [reflexivity|]. split; [reflexivity|]. intros x t [].
    - cbn [sanitize]. cbn [dkeys map fst] in Hnd, Hcur, Hdone. apply NoDup_cons_iff in Hnd as [Hx Hnd].
      destruct (sanitize_one _ _ _ _ _ _) as [[[m1 t1] st1]|] eqn:E1; [|discriminate]. cbn [bind].
      rewrite (Hcur x (or_introl eq_refl)) in E1.
      assert (Eall' : all = a ++ (ms, (x, t)) :: (map (pair ms) todo ++ rest)) by assumption.
      destruct (sanitize_one_ok a (ms, (x, t)) (map (pair ms) todo ++ rest) st m1 t1 st1 Hrem) as [Hstep Hrem1];
        [exact (eq_ind _ (in_order tree) Hord _ Eall') | exact (eq_ind _ (placed tree) Hpl _ Eall') | exact E1|].
      apply (eq_ind_r (fun al => tidy_step (gone tree al) (ms, (x, t)) m1 t1)) with (2 := Eall') in Hstep.
      set (cur' := match m1 with Some m => dset cur x m | None => cur end).
      intros E. eapply (IH (a ++ [(ms, (x, t))]) rest cur') in E; [|assumption| | | | assumption..].
      + destruct E as (R1 & R2 & R3 & todo' & -> & R5 & R6). rewrite <- app_assoc in R1. split; [exact R1|].
        assert (Hm1 : dget cur x = None -> m1 = None).
        { intros E. rewrite (Hcur x (or_introl eq_refl)) in E. destruct Hstep as [Hs _].
          cbn [fst snd] in Hs. rewrite E in Hs. apply Hs.
          intros p (v & txt & f & l & b1 & b2 & G & _). cbn [fst snd] in G. rewrite E in G. discriminate G. }
        assert (Hk : dkeys cur' = dkeys cur).
        { unfold cur'. destruct m1 as [m|]; [|reflexivity]. destruct (dget cur x) as [m0|] eqn:Ex.
          - rewrite dkeys_dset. replace (tmem x (dkeys cur)) with true; [reflexivity|]. symmetry. apply tmem_In. eapply dget_Some_keys. exact Ex.
          - discriminate (Hm1 eq_refl). }
        split; [congruence|]. split.
        { intros y Hy. cbn [dkeys map fst] in Hy. rewrite (R3 y) by (intros G; apply Hy; now right).
          unfold cur'. destruct m1 as [m|]; [|reflexivity]. rewrite dget_dset.
          destruct (text_eqb_spec x y) as [->|_]; [exfalso; apply Hy; now left | reflexivity]. }
        exists ((x, t1) :: todo'). rewrite <- app_assoc. split; [reflexivity|]. split; [cbn [dkeys map fst]; now f_equal|].
        intros y u [[= <- <-]|Hin].
        * exists t1. split; [now left|]. rewrite (R3 x Hx). replace (dget cur' x) with m1; [assumption|].
          unfold cur'. destruct m1 as [m|].
          -- rewrite dget_dset. destruct (text_eqb_spec x x); [reflexivity|congruence].
          -- destruct (dget cur x) as [m|] eqn:Ex; [|reflexivity]. exfalso.
             rewrite (Hcur x (or_introl eq_refl)) in Ex. destruct Hstep as [H1 H2].
             unfold sanitize_one in E1. cbn [fst snd] in E1. rewrite Ex in E1.
             destruct (removes_stmt _ _) as [[[[[[? ?] ?] ?] ?] ?]|]; [|discriminate E1].
             destruct (get_parent tree v) as [[]|]; try discriminate E1.
             destruct (get_next_sibling _ _); [destruct (first_token _); discriminate E1|].
             destruct (get_prev_sibling _ _); [|discriminate E1]. 
             destruct (last_token v); [|discriminate E1]. cbn [bind] in E1.
             match type of E1 with (bind ?c _ = _) => destruct c; [|discriminate E1] end. cbn [bind] in E1.
             destruct (next_token _ _); discriminate E1.
        * destruct (R6 y u Hin) as (t' & G1 & G2). exists t'. split; [now right | assumption].
      + intros y Hy. unfold cur'. destruct m1 as [m|]; [|apply Hcur; now right]. rewrite dget_dset.
        destruct (text_eqb_spec x y) as [->|_]; [contradiction | apply Hcur; now right].
      + intros y Hy. unfold dkeys. rewrite map_app, in_app_iff. intros [G|[G|[]]].
        * now apply (Hdone y (or_intror Hy)).
        * cbn in G. now subst y.
      + rewrite Eall'. now rewrite <- app_assoc.
  Qed.

  Lemma in_dget_todo (ts : dict template) x t : NoDup (dkeys ts) -> dget ts x = Some t <-> In (x, t) ts.
  Proof. intros H. split; [apply dget_In | now apply In_dget]. Qed.

  Theorem sanitize_all_ok all : forall results pairs a st outs,
    Forall2 dicts_of results pairs -> (forall mt, In mt pairs -> NoDup (dkeys (snd mt))) ->
    all = a ++ steps pairs -> remembers a st -> in_order tree all -> placed tree all ->
    sanitize_all pass_template tree tokens results st = Ok outs ->
    Forall2 (fun mt out => tidied pass_template tree tokens (gone tree all) (fst mt) (snd mt) (fst out) (snd out)) pairs outs.
  Proof.
    induction results as [|r results IH]; intros pairs a st outs HF Hnd Eall Hrem Hord Hpl; inversion HF as [|r0 [ms ts] rs0 pairs' Hr HF' Er Ep]; subst.
    - intros [= <-]. constructor.
    - destruct Hr as (b & H1 & H2 & H3). cbn [fst snd] in H2, H3. cbn [sanitize_all]. rewrite H1. cbn [bind not_none]. rewrite H3. cbn [bind].
      rewrite <- H2. destruct (sanitize _ _ _ _ _ _ _) as [[[ms' ts'] st']|] eqn:E; [|discriminate]. cbn [bind].
      destruct (sanitize_all _ _ _ results st') as [outs'|] eqn:E'; [|discriminate]. intros [= <-].
      assert (Hts : NoDup (dkeys ts)) by (apply (Hnd (ms, ts)); now left).
      eapply (sanitize_loop ms (a ++ steps ((ms, ts) :: pairs'))) with (a := a) (rest := steps pairs') in E; try assumption.
      + destruct E as (R1 & R2 & R3 & ts2 & Ets & R5 & R6). cbn [app] in Ets. subst ts2. constructor.
        * split; [assumption|]. split; [assumption|]. split; [assumption|]. intros x t Hx. cbn [fst snd] in *.
          apply (in_dget_todo _ _ _ Hts) in Hx. destruct (R6 x t Hx) as (t' & G1 & G2 & G3).
          assert (Hx' : dget ts' x = Some t') by (apply in_dget_todo; [now rewrite R5 | assumption]).
          cbn [fst snd] in G2, G3. rewrite Hx'. split.
          -- intros Hno. destruct (G2 Hno) as [-> ->]. now split.
          -- intros p Hp. destruct (G3 p Hp) as (q & i & l & mo & v & txt & f & la & a0 & b0 & f' & la' & a' & b' & pass & K1 & K2 & K3 & K4 & K5 & K6 & K7).
             exists q, i, l, mo, v, txt, f, la, a0, b0, f', la', a', b', pass.
             split; [assumption|]. split; [assumption|]. split; [assumption|]. split; [assumption|]. split; [assumption|].
             split; [now rewrite K6 | assumption].
        * eapply (IH pairs' (a ++ map (pair ms) ts)); try eassumption.
          -- intros mt Hmt. apply Hnd. now right.
          -- unfold steps. cbn [flat_map fst snd]. now rewrite <- app_assoc.
      + intros x Hx. reflexivity.
      + intros x Hx [].
      + unfold steps. cbn [flat_map fst snd]. reflexivity.
  Qed.
  Lemma remembers_nil : remembers [] (Removed [] []).
  Proof.
    clear Hun Hroot. split; intros z; cbn; split; try easy.
    - intros (p & v & (s & [] & _) & _).
    - intros (q & id & l & i & x & _ & _ & _ & _ & H). destruct (H 0%nat ltac:(lia)) as (s & [] & _).
  Qed.
End Removals.
