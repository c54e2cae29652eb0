From Verif Require Import Py PyFacts Ast Template FromDiff FromDiffProofs PatTok PatSpec.
From Coq Require Import Permutation Lia.

(** *** Candidates *)

Lemma s2t_len s : s2t s = [] -> s = EmptyString.
Proof. destruct s; cbn; [reflexivity|discriminate]. Qed.

Lemma dec_nonempty k : dec k <> [].
Proof.
  unfold dec. intro H. apply s2t_len in H.
  pose proof (DecimalNat.Unsigned.of_to k) as E.
  remember (Nat.to_uint k) as u eqn:Eu.
  destruct u; cbn in H; try discriminate H.
  cbn in E. subst k. discriminate Eu.
Qed.

Lemma gensym_inj v i j : gensym i v = gensym j v -> i = j.
Proof.
  unfold gensym. intro H. apply app_inv_head in H. apply app_inv_tail in H.
  destruct i, j; auto.
  - symmetry in H. now apply dec_nonempty in H.
  - now apply dec_nonempty in H.
  - apply dec_inj in H. congruence.
Qed.

Lemma fresh_name_spec fuel i taken v :
  match fresh_name fuel i taken v with
  | Ok n => ~ In n taken /\ exists k, n = gensym k v
  | Err x => x = OutOfFuel /\ forall k, (i <= k < i + fuel)%nat -> In (gensym k v) taken
  end.
Proof.
  revert i. induction fuel as [|fuel IH]; intros i; cbn [fresh_name].
  - split; [reflexivity|]. intros; lia.
  - destruct (tmem (gensym i v) taken) eqn:E.
    + specialize (IH (S i)). destruct (fresh_name fuel (S i) taken v); [exact IH|].
      destruct IH as [-> IH]. split; [reflexivity|]. intros k Hk.
      apply tmem_In in E. destruct (Nat.eq_dec k i) as [->|]; [exact E|]. apply IH. lia.
    + split; [|eauto]. intro H. apply tmem_In in H. congruence.
Qed.

Lemma fresh_name_ok taken v : exists n, fresh_name (S (length taken)) 0 taken v = Ok n.
Proof.
  pose proof (fresh_name_spec (S (length taken)) 0 taken v) as H.
  destruct (fresh_name _ 0 taken v) as [n|x]; [eauto|]. destruct H as [_ H]. exfalso.
  assert (Hn : NoDup (map (fun k => gensym k v) (seq 0 (S (length taken))))).
  { apply FinFun.Injective_map_NoDup; [intros a b; apply gensym_inj | apply seq_NoDup]. }
  apply NoDup_incl_length with (l' := taken) in Hn.
  - rewrite map_length, seq_length in Hn. lia.
  - intros y Hy. apply in_map_iff in Hy as (k & <- & Hk). apply in_seq in Hk. apply H. lia.
Qed.

(** Identifiers *)
Lemma dec_chars k : forallb is_ident_char (dec k) = true.
Proof.
  unfold dec. generalize (Nat.to_uint k) as u. induction u; cbn in *; auto.
Qed.
Lemma gensym_variable k v : is_variable v = true -> is_variable (gensym k v) = true.
Proof.
  intros Hv. unfold gensym.
  assert (H : forall x, forallb is_ident_char x = true -> is_variable (TX "gensym" ++ x) = true).
  { intros x Hx. cbn [s2t app is_variable forallb]. rewrite Hx. reflexivity. }
  apply H. rewrite !forallb_app. apply andb_true_iff. split; [destruct k; [reflexivity | apply dec_chars]|].
  apply andb_true_iff. split; [reflexivity|].
  destruct v as [|c r]; [reflexivity|]. cbn [is_variable] in Hv. apply andb_true_iff in Hv as [Hc Hr].
  cbn [forallb]. unfold is_ident_char at 1. now rewrite Hc, Hr.
Qed.

(** *** Updating a token *)
Lemma set_nth_length l i t : length (set_nth l i t) = length l.
Proof. revert i; induction l; intros [|i]; cbn; auto. Qed.
Lemma set_nth_same l i t : (i < length l)%nat -> nth_error (set_nth l i t) i = Some t.
Proof. revert i; induction l; intros [|i] H; cbn in *; auto; try lia. apply IHl. lia. Qed.
Lemma set_nth_other l i j t : i <> j -> nth_error (set_nth l i t) j = nth_error l j.
Proof. revert i j; induction l; intros [|i] [|j] H; cbn; auto; try lia. Qed.

Lemma other_strings_In toks n metas s :
  In s (other_strings toks n metas) <->
  exists i t, nth_error toks i = Some t /\ pt_string t = s /\ ~ In (n + i)%nat metas.
Proof.
  revert n. induction toks as [|t r IH]; intros n; cbn [other_strings].
  - split; [intros [] | intros ([|i] & t & H & _); discriminate H].
  - rewrite in_app_iff, IH. unfold nat_mem. split.
    + intros [H | (i & u & H1 & H2 & H3)].
      * destruct (existsb (Nat.eqb n) metas) eqn:E; [destruct H|]. destruct H as [<-|[]].
        exists O, t. split; [reflexivity|]. split; [reflexivity|]. rewrite Nat.add_0_r. intro Hin.
        assert (existsb (Nat.eqb n) metas = true); [|congruence].
        apply existsb_exists. exists n. split; [exact Hin | apply Nat.eqb_refl].
      * exists (S i), u. split; [exact H1|]. split; [exact H2|]. now rewrite Nat.add_succ_r.
    + intros ([|i] & u & H1 & H2 & H3).
      * left. cbn in H1. injection H1 as <-. rewrite Nat.add_0_r in H3.
        destruct (existsb (Nat.eqb n) metas) eqn:E.
        -- apply existsb_exists in E as (x & Hx & Hn). apply Nat.eqb_eq in Hn as ->. tauto.
        -- left. exact H2.
      * right. exists i, u. split; [exact H1|]. split; [exact H2|]. now rewrite Nat.add_succ_r in H3.
Qed.

(** *** The loop *)
Record inv (toks : list ptok) (others : list text) (done : list nat) (f : nat -> text) (st : renaming) : Prop := {
  i_len : length (rn_tokens st) = length toks;
  i_meta : forall i t, In i done -> nth_error toks i = Some t ->
             nth_error (rn_tokens st) i = Some (with_string t (f i));
  i_other : forall i, ~ In i done -> nth_error (rn_tokens st) i = nth_error toks i;
  i_in : forall i, In i done -> (i < length toks)%nat;
  i_taken : forall x, In x (rn_taken st) <-> In x others \/ exists i, In i done /\ f i = x;
  i_fresh : forall i, In i done -> ~ In (f i) others;
  i_same : forall i j v w, In i done -> In j done -> string_at toks i v -> string_at toks j w ->
              (f i = f j <-> i = j \/ (v = w /\ v <> underscore));
  i_ident : forall i v, In i done -> string_at toks i v -> exists k, f i = gensym k v;
  i_names : forall v n, dget (rn_names st) v = Some n <->
              v <> underscore /\ exists i, In i done /\ string_at toks i v /\ f i = n;
  i_dict : dict_ok (rn_names st);
  i_anon : forall n, In n (rn_anonymous st) <->
              exists i, In i done /\ string_at toks i underscore /\ f i = n
}.

Lemma string_at_fun toks i v w : string_at toks i v -> string_at toks i w -> v = w.
Proof. intros (t & H & <-) (u & H' & <-). congruence. Qed.

Definition upd (f : nat -> text) (i : nat) (x : text) : nat -> text := fun j => if Nat.eqb j i then x else f j.
Lemma upd_same f i x : upd f i x i = x.
Proof. unfold upd. now rewrite Nat.eqb_refl. Qed.
Lemma upd_other f i x j : j <> i -> upd f i x j = f j.
Proof. unfold upd. intro H. apply Nat.eqb_neq in H. now rewrite H. Qed.

Lemma rename_one_inv toks others done f st i :
  inv toks others done f st -> (i < length toks)%nat -> ~ In i done ->
  exists st' x, rename_one st i = Ok st' /\ inv toks others (i :: done) (upd f i x) st'.
Proof.
  intros I Hi Hd. destruct I. unfold rename_one. rewrite (i_other0 i Hd).
  destruct (nth_error toks i) as [t|] eqn:Et; [|apply nth_error_None in Et; lia].
  assert (Sat : string_at toks i (pt_string t)) by (exists t; auto).
  assert (Hset : forall x, let tk := set_nth (rn_tokens st) i (with_string t x) in
     length tk = length toks
     /\ (forall j u, In j (i :: done) -> nth_error toks j = Some u ->
           nth_error tk j = Some (with_string u (upd f i x j)))
     /\ (forall j, ~ In j (i :: done) -> nth_error tk j = nth_error toks j)).
  { intros x tk. unfold tk. split; [now rewrite set_nth_length|]. split.
    - intros j u Hj Hu. destruct (Nat.eq_dec j i) as [->|Hne].
      + rewrite set_nth_same by lia. rewrite upd_same. congruence.
      + rewrite set_nth_other, upd_other by congruence. destruct Hj as [->|Hj]; [congruence|]. now apply i_meta0.
    - intros j Hj. rewrite set_nth_other by (intros ->; apply Hj; now left).
      apply i_other0. intro; apply Hj; now right. }
  assert (Hex : forall (P : nat -> text -> Prop) x n, (forall j, In j done -> j <> i) ->
     (exists j, In j (i :: done) /\ P j (upd f i x j)) <-> P i x \/ exists j, In j done /\ P j (f j) \/ (False /\ n = 0)).
  { intros P x n Hno. split.
    - intros (j & [<-|Hj] & H); [left; now rewrite upd_same in H|]. right. exists j. left.
      rewrite upd_other in H by auto. auto.
    - intros [H | (j & [[Hj H]|[[] _]])].
      + exists i. split; [now left|]. now rewrite upd_same.
      + exists j. split; [now right|]. rewrite upd_other by auto. auto. }
  clear Hex.
  assert (Hno : forall j, In j done -> j <> i) by (intros j Hj ->; contradiction).
  destruct (dget (rn_names st) (pt_string t)) as [name|] eqn:Eg.
  - (* seen before *)
    exists (Renaming (set_nth (rn_tokens st) i (with_string t name)) (rn_taken st) (rn_names st) (rn_anonymous st)), name.
    split; [reflexivity|]. destruct (Hset name) as (H1 & H2 & H3).
    apply i_names0 in Eg as (Hv & j0 & Hj0 & Sj0 & Fj0).
    constructor; cbn [rn_tokens rn_taken rn_names rn_anonymous]; auto.
    + intros j [<-|Hj]; auto.
    + intros x. rewrite i_taken0. split; (intros [H|(j & Hj & Hf)]; [now left|right]).
      * exists j. split; [now right|]. now rewrite upd_other by auto.
      * destruct Hj as [<-|Hj].
        -- rewrite upd_same in Hf. subst x. exists j0. auto.
        -- rewrite upd_other in Hf by auto. eauto.
    + intros j [<-|Hj]; [rewrite upd_same, <- Fj0; auto | rewrite upd_other by auto; auto].
    + intros a b v w Ha Hb Sa Sb.
      destruct Ha as [<-|Ha], Hb as [<-|Hb].
      * split; [now left | reflexivity].
      * rewrite upd_same, (upd_other _ _ _ b) by auto. rewrite <- Fj0.
        rewrite (i_same0 j0 b _ _ Hj0 Hb Sj0 Sb).
        pose proof (string_at_fun _ _ _ _ Sa Sat) as ->.
        split; intros [H|[H H']]; subst; auto.
        -- right. split; [exact (string_at_fun _ _ _ _ Sj0 Sb) | exact Hv].
        -- exfalso. eapply Hno; [eassumption | reflexivity].
      * rewrite upd_same, (upd_other _ _ _ a) by auto. rewrite <- Fj0.
        rewrite (i_same0 a j0 _ _ Ha Hj0 Sa Sj0).
        pose proof (string_at_fun _ _ _ _ Sb Sat) as ->.
        split; intros [H|[H H']]; subst; auto.
        -- right. pose proof (string_at_fun _ _ _ _ Sa Sj0) as ->. auto.
        -- exfalso. eapply Hno; [eassumption | reflexivity].
      * rewrite !upd_other by auto. apply i_same0; auto.
    + intros j v [<-|Hj] Sj.
      * rewrite upd_same, <- Fj0. pose proof (string_at_fun _ _ _ _ Sj Sat) as ->. eauto.
      * rewrite upd_other by auto. eauto.
    + intros v n. rewrite i_names0. split; (intros [Hv' (j & Hj & Sj & Fj)]; split; [exact Hv'|]).
      * exists j. split; [now right|]. split; [exact Sj|]. now rewrite upd_other by auto.
      * destruct Hj as [<-|Hj].
        -- rewrite upd_same in Fj. subst n. pose proof (string_at_fun _ _ _ _ Sj Sat) as ->. eauto.
        -- rewrite upd_other in Fj by auto. eauto.
    + intros n. rewrite i_anon0. split; (intros (j & Hj & Sj & Fj)).
      * exists j. split; [now right|]. split; [exact Sj|]. now rewrite upd_other by auto.
      * destruct Hj as [<-|Hj].
        -- pose proof (string_at_fun _ _ _ _ Sj Sat) as E. congruence.
        -- rewrite upd_other in Fj by auto. eauto.
  - (* new *)
    destruct (fresh_name_ok (rn_taken st) (pt_string t)) as [name En].
    pose proof (fresh_name_spec (S (length (rn_taken st))) 0 (rn_taken st) (pt_string t)) as Hf.
    rewrite En in Hf |- *. destruct Hf as [Hfr [k Hk]]. cbn [bind].
    eexists _, name. split; [reflexivity|]. destruct (Hset name) as (H1 & H2 & H3).
    assert (Hnew : forall j, In j done -> f j <> name).
    { intros j Hj <-. apply Hfr. rewrite i_taken0. right. eauto. }
    assert (Hnone : pt_string t <> underscore -> forall j, In j done -> ~ string_at toks j (pt_string t)).
    { intros Hu j Hj Sj. assert (E : dget (rn_names st) (pt_string t) = Some (f j)); [|congruence].
      apply i_names0. split; [exact Hu|]. eauto. }
    constructor; cbn [rn_tokens rn_taken rn_names rn_anonymous]; auto.
    + intros j [<-|Hj]; auto.
    + intros x. cbn [In]. rewrite i_taken0. split.
      * intros [<-|[H|(j & Hj & Hf)]].
        -- right. exists i. split; [now left | apply upd_same].
        -- now left.
        -- right. exists j. split; [now right|]. now rewrite upd_other by auto.
      * intros [H|(j & [<-|Hj] & Hf)].
        -- tauto.
        -- rewrite upd_same in Hf. now left.
        -- rewrite upd_other in Hf by auto. right; right. eauto.
    + intros j [<-|Hj]; [rewrite upd_same | rewrite upd_other by auto; auto].
      intro H. apply Hfr. rewrite i_taken0. now left.
    + intros a b v w Ha Hb Sa Sb.
      destruct Ha as [<-|Ha], Hb as [<-|Hb].
      * split; [now left | reflexivity].
      * rewrite upd_same, (upd_other _ _ _ b) by auto.
        pose proof (string_at_fun _ _ _ _ Sa Sat) as ->.
        split; [intro H; exfalso; eapply Hnew; eauto|].
        intros [->|[<- Hu]]; [exfalso; eapply Hno; eauto|]. exfalso. eapply Hnone; eauto.
      * rewrite upd_same, (upd_other _ _ _ a) by auto.
        pose proof (string_at_fun _ _ _ _ Sb Sat) as ->.
        split; [intro H; exfalso; eapply Hnew; eauto|].
        intros [->|[-> Hu]]; [exfalso; eapply Hno; eauto|]. exfalso. eapply Hnone; eauto.
      * rewrite !upd_other by auto. apply i_same0; auto.
    + intros j v [<-|Hj] Sj.
      * rewrite upd_same. pose proof (string_at_fun _ _ _ _ Sj Sat) as ->. eauto.
      * rewrite upd_other by auto. eauto.
    + intros v n. destruct (text_eqb (pt_string t) underscore) eqn:Eu.
      * apply text_eqb_eq in Eu. rewrite i_names0.
        split; (intros [Hv' (j & Hj & Sj & Fj)]; split; [exact Hv'|]).
        -- exists j. split; [now right|]. split; [exact Sj|]. now rewrite upd_other by auto.
        -- destruct Hj as [<-|Hj].
           ++ pose proof (string_at_fun _ _ _ _ Sj Sat). congruence.
           ++ rewrite upd_other in Fj by auto. eauto.
      * apply text_eqb_neq in Eu.
        destruct (text_eq_dec v (pt_string t)) as [->|Hne].
        -- rewrite dget_dset, text_eqb_refl. split.
           ++ intros [= <-]. split; [exact Eu|]. exists i. split; [now left|]. split; [exact Sat | apply upd_same].
           ++ intros [_ (j & [<-|Hj] & Sj & Fj)]; [rewrite upd_same in Fj; congruence|].
              exfalso. eapply Hnone; eauto.
        -- rewrite dget_dset. destruct (text_eqb_spec (pt_string t) v) as [E|_]; [congruence|]. rewrite i_names0.
           split; (intros [Hv' (j & Hj & Sj & Fj)]; split; [exact Hv'|]).
           ++ exists j. split; [now right|]. split; [exact Sj|]. now rewrite upd_other by auto.
           ++ destruct Hj as [<-|Hj].
              ** pose proof (string_at_fun _ _ _ _ Sj Sat). congruence.
              ** rewrite upd_other in Fj by auto. eauto.
    + match goal with |- dict_ok (if ?b then _ else _) => destruct b end; [auto | now apply dict_ok_dset].
    + intros n. destruct (text_eqb (pt_string t) underscore) eqn:Eu.
      * apply text_eqb_eq in Eu. cbn [In]. rewrite i_anon0. split.
        -- intros [<-|(j & Hj & Sj & Fj)].
           ++ exists i. split; [now left|]. rewrite <- Eu. split; [exact Sat | apply upd_same].
           ++ exists j. split; [now right|]. split; [exact Sj|]. now rewrite upd_other by auto.
        -- intros (j & [<-|Hj] & Sj & Fj).
           ++ rewrite upd_same in Fj. now left.
           ++ rewrite upd_other in Fj by auto. right. eauto.
      * apply text_eqb_neq in Eu. rewrite i_anon0. split; (intros (j & Hj & Sj & Fj)).
        -- exists j. split; [now right|]. split; [exact Sj|]. now rewrite upd_other by auto.
        -- destruct Hj as [<-|Hj].
           ++ pose proof (string_at_fun _ _ _ _ Sj Sat). congruence.
           ++ rewrite upd_other in Fj by auto. eauto.
Qed.

Lemma rename_loop_inv toks others order : forall done f st,
  inv toks others done f st -> (forall i, In i order -> (i < length toks)%nat) ->
  NoDup order -> (forall i, In i order -> ~ In i done) ->
  exists st' f', rename_loop st order = Ok st' /\ inv toks others (rev order ++ done) f' st'.
Proof.
  induction order as [|i r IH]; intros done f st I Hb Hn Hd; cbn [rename_loop].
  - eauto.
  - inversion Hn; subst.
    destruct (rename_one_inv _ _ _ _ _ i I (Hb _ (or_introl eq_refl)) (Hd _ (or_introl eq_refl))) as (st1 & x & -> & I1).
    cbn [bind]. destruct (IH _ _ _ I1) as (st' & f' & -> & I').
    + intros; apply Hb; now right.
    + assumption.
    + intros j Hj [->|H]; [contradiction|]. eapply Hd; [right; exact Hj|exact H].
    + exists st', f'. split; [reflexivity|]. cbn [rev]. now rewrite <- app_assoc.
Qed.

Theorem remap_spec order toks metas :
  Permutation (order metas) metas -> NoDup metas -> (forall i, In i metas -> (i < length toks)%nat) ->
  exists r f, remap_tokens order toks metas = Ok r /\ renames toks metas f r.
Proof.
  intros Hp Hn Hb. unfold remap_tokens.
  destruct (rename_loop_inv toks (other_strings toks 0 metas) (order metas) []
              (fun _ => []) (Renaming toks (other_strings toks 0 metas) [] [])) as (r & f & E & I).
  - constructor; cbn [rn_tokens rn_taken rn_names rn_anonymous]; auto.
    + intros i t [].
    + intros i [].
    + intros x. split; [now left|]. intros [H|(i & [] & _)]; exact H.
    + intros i j v w [].
    + intros i v [].
    + intros v n. split; [discriminate|]. intros [_ (i & [] & _)].
    + constructor.
    + intros n. split; [intros [] | intros (i & [] & _)].
  - intros i Hi. apply Hb. eapply Permutation_in; eauto.
  - eapply Permutation_NoDup; [apply Permutation_sym; exact Hp | exact Hn].
  - intros i _ [].
  - exists r, f. split; [exact E|]. rewrite app_nil_r in I.
    assert (Hin : forall i, In i (rev (order metas)) <-> In i metas).
    { intro i. rewrite <- in_rev. split; apply Permutation_in; [|apply Permutation_sym]; exact Hp. }
    destruct I. constructor; auto.
    + intros i t Hi. apply i_meta0. now apply Hin.
    + intros i Hi. apply i_other0. now rewrite Hin.
    + intros i j Hi Hj (t & Ht & Hs). apply (i_fresh0 i); [now apply Hin|].
      apply other_strings_In. exists j, t. auto.
    + intros i j v w Hi Hj. apply i_same0; now apply Hin.
    + intros i v Hi Sv Hv. destruct (i_ident0 i v) as [k ->]; [now apply Hin | exact Sv|]. split; [now apply gensym_variable|]. eexists. reflexivity.
    + intros v n. rewrite i_names0. split; (intros [Hv (i & Hi & H)]; split; [exact Hv|]; exists i; split; [now apply Hin|exact H]).
    + intros n. rewrite i_anon0. split; (intros (i & Hi & H); exists i; split; [now apply Hin|exact H]).
Qed.
