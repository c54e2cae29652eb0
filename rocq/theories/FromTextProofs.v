(** [Pragma.from_text]: parsed_file.py 57-117. *)
From Verif Require Import Py PyFacts Ast Pragmas PragmaSpec.

(** *** The backtracking matcher is sound and complete for the relation *)
Inductive xm : rx -> rstate -> rstate -> Prop :=
  | xm_cls (p : char -> bool) b c r d : p c = true -> xm (XCls p) (RS b (c :: r) d) (RS (c :: b) r d)
  | xm_seq a b s1 s2 s3 : xm a s1 s2 -> xm b s2 s3 -> xm (XSeq a b) s1 s3
  | xm_alt_l a b s s' : xm a s s' -> xm (XAlt a b) s s'
  | xm_alt_r a b s s' : xm b s s' -> xm (XAlt a b) s s'
  | xm_star0 a s : xm (XStar a) s s
  | xm_star1 a s1 s2 s3 :
      xm a s1 s2 -> (length (rs_rest s2) < length (rs_rest s1))%nat -> xm (XStar a) s2 s3 ->
      xm (XStar a) s1 s3
  | xm_group n a s s' :
      xm a s s' ->
      xm (XGroup n a) s
         (RS (rs_before s') (rs_rest s')
             (dset (rs_caps s') n (firstn (length (rs_rest s) - length (rs_rest s')) (rs_rest s))))
  | xm_begin r d : xm XBegin (RS [] r d) (RS [] r d)
  | xm_end b d : xm XEnd (RS b [] d) (RS b [] d)
  | xm_eps s : xm XEps s s.

Lemma bt_sound {R} r : forall (k : rstate -> option R) s x,
  bt r k s = Some x -> exists s', xm r s s' /\ k s' = Some x.
Proof.
  induction r as [p|a IHa b IHb|a IHa b IHb|a IHa|n a IHa| | |]; intros k s x H; cbn [bt] in H.
  - destruct s as [b [|c r] d]; cbn in H; [discriminate|]. destruct (p c) eqn:E; [|discriminate].
    eauto using xm.
  - apply IHa in H. destruct H as (s1 & H1 & H). apply IHb in H. destruct H as (s2 & H2 & H).
    eauto using xm.
  - destruct (bt a k s) as [y|] eqn:E.
    + injection H as ->. apply IHa in E. destruct E as (s1 & ? & ?). eauto using xm.
    + apply IHb in H. destruct H as (s1 & ? & ?). eauto using xm.
  - revert H. generalize (length (rs_rest s)). intro n. revert s. induction n as [|n IHn]; intros s H.
    + exists s. split; [constructor|exact H].
    + cbn [bt] in H. destruct (bt a _ s) as [y|] eqn:E; [|exists s; split; [constructor|exact H]].
      injection H as ->. apply IHa in E. destruct E as (s1 & H1 & H).
      destruct (Nat.ltb_spec (length (rs_rest s1)) (length (rs_rest s))); [|discriminate].
      apply IHn in H. destruct H as (s2 & H2 & H). eauto using xm.
  - apply IHa in H. destruct H as (s1 & H1 & H). eauto using xm.
  - destruct s as [[|] r d]; cbn in H; [|discriminate]. eauto using xm.
  - destruct s as [b [|] d]; cbn in H; [|discriminate]. eauto using xm.
  - eauto using xm.
Qed.

Lemma bt_complete {R} r : forall (k : rstate -> option R) s s',
  xm r s s' -> k s' <> None -> bt r k s <> None.
Proof.
  induction r as [p|a IHa b IHb|a IHa b IHb|a IHa|n a IHa| | |]; intros k s s' H Hk.
  - inversion H; subst. cbn. now rewrite H1.
  - inversion H; subst. cbn. eapply IHa; [eassumption|]. eapply IHb; eassumption.
  - inversion H; subst; cbn.
    + pose proof (IHa k _ _ H4 Hk). destruct (bt a k s); congruence.
    + destruct (bt a k s); [discriminate|]. eapply IHb; eassumption.
  - cbn [bt]. assert (Hn : (length (rs_rest s) <= length (rs_rest s))%nat) by lia.
    revert Hn. generalize (length (rs_rest s)) at 2 3. intro n.
    remember (XStar a) as r eqn:Er. revert n. induction H; try discriminate; injection Er as ->; intros n Hn.
    + destruct n as [|n]; [exact Hk|]. destruct (bt a _ s); [discriminate|exact Hk].
    + destruct n as [|n]; [lia|].
      destruct (bt a _ s1) eqn:E; [discriminate|]. exfalso. revert E. eapply IHa; [eassumption|].
      destruct (Nat.ltb_spec (length (rs_rest s2)) (length (rs_rest s1))); [|lia].
      apply IHxm2; auto. lia.
  - inversion H; subst. cbn. eapply IHa; [eassumption|]. exact Hk.
  - inversion H; subst. exact Hk.
  - inversion H; subst. exact Hk.
  - inversion H; subst. exact Hk.
Qed.

(** *** Shapes: what each piece of [_PRAGMA_RE] consumes *)
Definition eats (r : rx) (P : text -> dict text -> dict text -> Prop) : Prop :=
  forall b t d s', xm r (RS b t d) s' <->
    exists w t' d', t = w ++ t' /\ s' = RS (rev w ++ b) t' d' /\ P w d d'.

Lemma eats_cls p : eats (XCls p) (fun w d d' => d' = d /\ exists c, w = [c] /\ p c = true).
Proof.
  intros b t d s'. split.
  - intro H. inversion H; subst. exists [c], r, d. repeat split; eauto.
  - intros (w & t' & d' & -> & -> & -> & c & -> & Hc). cbn. now constructor.
Qed.
Lemma eats_chr c : eats (XChr c) (fun w d d' => d' = d /\ w = [c]).
Proof.
  intros b t d s'. unfold XChr. rewrite (eats_cls (Z.eqb c) b t d s'). split.
  - intros (w & t' & d' & -> & -> & -> & x & -> & Hx). apply Z.eqb_eq in Hx. subst x.
    exists [c], t', d. auto.
  - intros (w & t' & d' & -> & -> & -> & ->). exists [c], t', d. repeat split.
    exists c. split; [reflexivity|apply Z.eqb_refl].
Qed.
Lemma eats_seq a b P Q : eats a P -> eats b Q ->
  eats (XSeq a b) (fun w d d' => exists u v d1, w = u ++ v /\ P u d d1 /\ Q v d1 d').
Proof.
  intros Ha Hb b0 t d s'. split.
  - intro H. inversion H as [|? ? s1 s2 s3 H1 H2| | | | | | | |]; subst.
    apply Ha in H1. destruct H1 as (u & t1 & d1 & -> & -> & Pu).
    apply Hb in H2. destruct H2 as (v & t2 & d2 & -> & -> & Qv).
    exists (u ++ v), t2, d2. rewrite rev_app_distr, <- !app_assoc. repeat split; eauto 8.
  - intros (w & t' & d' & -> & -> & u & v & d1 & -> & Pu & Qv). rewrite <- app_assoc.
    eapply xm_seq; [apply Ha; eauto 10|]. apply Hb. exists v, t', d'.
    rewrite rev_app_distr, <- app_assoc. auto.
Qed.
Lemma eats_alt a b P Q : eats a P -> eats b Q -> eats (XAlt a b) (fun w d d' => P w d d' \/ Q w d d').
Proof.
  intros Ha Hb b0 t d s'. split.
  - intro H. inversion H; subst.
    + apply Ha in H4. destruct H4 as (w & t' & d' & ? & ? & ?). eauto 10.
    + apply Hb in H4. destruct H4 as (w & t' & d' & ? & ? & ?). eauto 10.
  - intros (w & t' & d' & -> & -> & [H|H]); [apply xm_alt_l, Ha|apply xm_alt_r, Hb]; eauto 10.
Qed.
Lemma eats_eps : eats XEps (fun w d d' => d' = d /\ w = []).
Proof.
  intros b t d s'. split.
  - intro H. inversion H; subst. exists [], t, d. auto.
  - intros (w & t' & d' & -> & -> & -> & ->). constructor.
Qed.
(** Repetition of a piece that consumes something and sets no group. *)
Lemma eats_star a (P : text -> Prop) :
  eats a (fun w d d' => d' = d /\ P w) -> (forall w, P w -> w <> []) ->
  eats (XStar a) (fun w d d' => d' = d /\ exists ws, w = concat ws /\ Forall P ws).
Proof.
  intros Ha Hne b t d s'. split.
  - intro H. remember (XStar a) as r eqn:Er. remember (RS b t d) as s eqn:Es. revert b t d Es.
    induction H; try discriminate; injection Er as ->; intros b t d ->.
    + exists [], t, d. repeat split. exists []. auto.
    + apply Ha in H. destruct H as (w & t1 & d1 & -> & -> & -> & Pw).
      destruct (IHxm2 eq_refl _ _ _ eq_refl) as (v & t2 & d2 & -> & -> & -> & ws & -> & Pws).
      exists (w ++ concat ws), t2, d. rewrite rev_app_distr, <- !app_assoc. repeat split.
      exists (w :: ws). auto.
  - intros (w & t' & d' & -> & -> & -> & ws & -> & Pws). revert b.
    induction Pws as [|w ws Pw Pws IH]; intro b; cbn; [constructor|].
    rewrite <- app_assoc, rev_app_distr, <- app_assoc.
    apply (xm_star1 a _ (RS (rev w ++ b) (concat ws ++ t') d)).
    + apply Ha. exists w, (concat ws ++ t'), d. auto.
    + cbn. rewrite !app_length. specialize (Hne w Pw). destruct w; [congruence|cbn; lia].
    + apply IH.
Qed.
Lemma concat_singletons p (ws : list text) :
  Forall (fun w => exists c, w = [c] /\ p c = true) ws -> all p (concat ws).
Proof. induction 1 as [|w ws (c & -> & Hc) H IH]; [constructor|]. cbn. constructor; auto. Qed.
Lemma singletons_concat p (w : text) :
  all p w -> exists ws, w = concat ws /\ Forall (fun w => exists c, w = [c] /\ p c = true) ws.
Proof.
  induction 1 as [|c w Hc H (ws & -> & IH)]; [exists []; auto|].
  exists ([c] :: ws). split; [reflexivity|]. constructor; eauto.
Qed.
Lemma eats_weaken r (P Q : text -> dict text -> dict text -> Prop) :
  eats r P -> (forall w d d', P w d d' <-> Q w d d') -> eats r Q.
Proof.
  intros H E b t d s'. rewrite (H b t d s'). split; intros (w & t' & d' & ? & ? & ?);
    exists w, t', d'; repeat split; auto; now apply E.
Qed.
Lemma eats_star_cls p : eats (XStar (XCls p)) (fun w d d' => d' = d /\ all p w).
Proof.
  eapply eats_weaken; [apply eats_star; [apply (eats_cls p)|]|].
  - intros w (c & -> & _). discriminate.
  - intros w d d'. cbn. split.
    + intros (-> & ws & -> & H). split; [reflexivity|]. now apply concat_singletons.
    + intros (-> & H). split; [reflexivity|]. now apply singletons_concat.
Qed.
Lemma eats_plus_cls p : eats (XPlus (XCls p)) (fun w d d' => d' = d /\ w <> [] /\ all p w).
Proof.
  eapply eats_weaken; [apply eats_seq; [apply eats_cls|apply eats_star_cls]|].
  intros w d d'. cbn. split.
  - intros (u & v & d1 & -> & (-> & c & -> & Hc) & -> & Hv). repeat split; [discriminate|]. now constructor.
  - intros (-> & Hne & H). destruct w as [|c w]; [congruence|]. inversion H; subst.
    exists [c], w, d. repeat split; eauto.
Qed.
Lemma eats_group n a P : eats a (fun w d d' => d' = d /\ P w) ->
  eats (XGroup n a) (fun w d d' => d' = dset d n w /\ P w).
Proof.
  intros Ha b t d s'. split.
  - intro H. inversion H as [| | | | | |? ? ? s1 H1| | |]; subst. apply Ha in H1.
    destruct H1 as (w & t' & d' & -> & -> & -> & Pw). exists w, t', (dset d n w).
    cbn. rewrite app_length. replace (length w + length t' - length t')%nat with (length w) by lia.
    rewrite firstn_app, Nat.sub_diag, firstn_all, app_nil_r. auto.
  - intros (w & t' & d' & -> & -> & -> & Pw).
    replace (RS (rev w ++ b) t' (dset d n w)) with
      (let s := RS b (w ++ t') d in let s1 := RS (rev w ++ b) t' d in
       RS (rs_before s1) (rs_rest s1)
             (dset (rs_caps s1) n (firstn (length (rs_rest s) - length (rs_rest s1)) (rs_rest s)))).
    + constructor. apply Ha. exists w, t', d. auto.
    + cbn. rewrite app_length. replace (length w + length t' - length t')%nat with (length w) by lia.
      rewrite firstn_app, Nat.sub_diag, firstn_all, app_nil_r. reflexivity.
Qed.

(** *** Characters *)
Section Chars.
  Variable uw : char -> bool.
  Notation is_name := (is_name uw).
  Notation is_value := (is_value uw).

  Lemma space_not_name c : is_space c = true -> is_name c = false.
  Proof.
    unfold Pragmas.is_name, is_word. intro H.
    destruct (c <? 128) eqn:E.
    - unfold is_space in H. apply Z.ltb_lt in E.
      repeat rewrite orb_true_iff in H. repeat rewrite andb_true_iff in H.
      repeat rewrite Z.leb_le in H. repeat rewrite Z.eqb_eq in H.
      repeat rewrite orb_false_iff. repeat rewrite andb_false_iff.
      repeat rewrite Z.leb_gt. repeat rewrite Z.eqb_neq. lia.
    - rewrite H, andb_false_r, orb_false_r. apply Z.eqb_neq. apply Z.ltb_ge in E. lia.
  Qed.
  Lemma space_not_value c : is_space c = true -> is_value c = false.
  Proof.
    intro H. unfold Pragmas.is_value. rewrite (space_not_name c H), orb_false_r.
    apply Z.eqb_neq. intros ->. discriminate.
  Qed.
  Lemma name_value c : is_name c = true -> is_value c = true.
  Proof. unfold Pragmas.is_value. intros ->. apply orb_true_r. Qed.

  (** None of [: = ,] is a name, value or space character. *)
  Definition punct (c : char) : Prop := c = 58 \/ c = 61 \/ c = 44.
  Lemma punct_not_value c : punct c -> is_value c = false.
  Proof. intros [-> |[-> | ->]]; reflexivity. Qed.
  Lemma punct_not_space c : punct c -> is_space c = false.
  Proof. intros [-> |[-> | ->]]; reflexivity. Qed.
  Lemma notin_value c w : punct c -> all is_value w -> ~ In c w.
  Proof.
    intros Hp H Hin. unfold all in H. rewrite Forall_forall in H. specialize (H c Hin). cbn beta in H.
    rewrite (punct_not_value c Hp) in H. discriminate.
  Qed.
  Lemma notin_name c w : punct c -> all is_name w -> ~ In c w.
  Proof.
    intros Hp H. apply notin_value; [assumption|]. eapply Forall_impl; [|exact H]. apply name_value.
  Qed.
  Lemma notin_space c w : punct c -> spaces w -> ~ In c w.
  Proof.
    intros Hp H Hin. unfold spaces, all in H. rewrite Forall_forall in H. specialize (H c Hin).
    cbn beta in H. rewrite (punct_not_space c Hp) in H. discriminate.
  Qed.

  (** *** strip, partition, split *)
  Lemma lstrip_spaces a s : spaces a -> lstrip (a ++ s) = lstrip s.
  Proof. induction 1 as [|c a Hc H IH]; [reflexivity|]. cbn. now rewrite Hc. Qed.
  Lemma lstrip_word c s : is_space c = false -> lstrip (c :: s) = c :: s.
  Proof. intro H. cbn. now rewrite H. Qed.
  Lemma strip_word a k b :
    spaces a -> spaces b -> k <> [] -> Forall (fun c => is_space c = false) k ->
    strip (a ++ k ++ b) = k.
  Proof.
    intros Ha Hb Hk Hf. unfold strip. rewrite lstrip_spaces by assumption.
    destruct k as [|c k]; [congruence|]. inversion Hf; subst.
    cbn [app]. rewrite lstrip_word by assumption.
    change (c :: k ++ b) with ((c :: k) ++ b). rewrite rev_app_distr.
    rewrite lstrip_spaces by (apply Forall_rev; assumption).
    destruct (rev (c :: k)) as [|y r] eqn:E.
    - apply (f_equal (@rev char)) in E. rewrite rev_involutive in E. discriminate.
    - assert (is_space y = false).
      { rewrite Forall_forall in Hf. apply Hf. apply in_rev. rewrite E. now left. }
      rewrite lstrip_word by assumption. rewrite <- E. apply rev_involutive.
  Qed.
  Lemma partition_spec c h t : ~ In c h -> partition_char c (h ++ c :: t) = (h, true, t).
  Proof.
    induction h as [|x h IH]; intro H; cbn.
    - now rewrite Z.eqb_refl.
    - destruct (Z.eqb_spec x c) as [->|]; [exfalso; apply H; now left|].
      rewrite IH; [reflexivity|]. intro. apply H. now right.
  Qed.
  Lemma split_nosep c w : ~ In c w -> split_char c w = [w].
  Proof.
    induction w as [|x w IH]; intro H; [reflexivity|]. cbn.
    destruct (Z.eqb_spec x c) as [->|]; [exfalso; apply H; now left|].
    rewrite IH; [reflexivity|]. intro. apply H. now right.
  Qed.
  Lemma split_cons c w rest : ~ In c w -> split_char c (w ++ c :: rest) = w :: split_char c rest.
  Proof.
    induction w as [|x w IH]; intro H; cbn.
    - now rewrite Z.eqb_refl.
    - destruct (Z.eqb_spec x c) as [->|]; [exfalso; apply H; now left|].
      rewrite IH; [reflexivity|]. intro. apply H. now right.
  Qed.
  Lemma split_join c ws : ws <> [] -> Forall (fun w => ~ In c w) ws -> split_char c (join [c] ws) = ws.
  Proof.
    intros Hne H. induction H as [|w ws Hw H IH]; [congruence|].
    destruct ws as [|w2 ws]; [cbn [join]; now apply split_nosep|].
    change (join [c] (w :: w2 :: ws)) with (w ++ c :: join [c] (w2 :: ws)).
    rewrite split_cons by assumption. rewrite IH by discriminate. reflexivity.
  Qed.
  Lemma join_last c ws w : ws <> [] -> join [c] (ws ++ [w]) = join [c] ws ++ c :: w.
  Proof.
    induction ws as [|x ws IH]; intro H; [congruence|]. destruct ws as [|y ws]; [reflexivity|].
    cbn [app]. change (join [c] (x :: (y :: ws) ++ [w]) = (x ++ c :: join [c] (y :: ws)) ++ c :: w).
    change (x ++ c :: join [c] ((y :: ws) ++ [w]) = (x ++ c :: join [c] (y :: ws)) ++ c :: w).
    rewrite IH by discriminate. now rewrite <- app_assoc.
  Qed.

  (** *** Declarations *)
  Notation decl := (declaration is_name is_value).

  Lemma decl_parse w k v : decl w (k, v) ->
    (let '(key, _, value) := partition_char 61 w in (strip key, strip value)) = (k, v)
    /\ ~ In 44 w /\ ~ In 58 w /\ In 61 w.
  Proof.
    intro H. remember (k, v) as kv eqn:E. destruct H as [a k' b c v' d Ha [Hkn Hk] Hb Hc [Hvn Hv] Hd].
    injection E as -> ->.
    assert (Hks : Forall (fun c => is_space c = false) k).
    { eapply Forall_impl; [|exact Hk]. intros x Hx. cbn in Hx. destruct (is_space x) eqn:E; [|reflexivity].
      rewrite (space_not_name x E) in Hx. discriminate. }
    assert (Hvs : Forall (fun c => is_space c = false) v).
    { eapply Forall_impl; [|exact Hv]. intros x Hx. cbn in Hx. destruct (is_space x) eqn:E; [|reflexivity].
      rewrite (space_not_value x E) in Hx. discriminate. }
    assert (Hno : forall x, punct x -> x <> 61 -> ~ In x (a ++ k ++ b ++ TX "=" ++ c ++ v ++ d)).
    { intros x Hp Hx. rewrite !in_app_iff. cbn [s2t In].
      pose proof (notin_space x a Hp Ha). pose proof (notin_name x k Hp Hk).
      pose proof (notin_space x b Hp Hb). pose proof (notin_space x c Hp Hc).
      pose proof (notin_value x v Hp Hv). pose proof (notin_space x d Hp Hd).
      change (Z.of_nat (nat_of_ascii "=")) with 61. intuition. }
    split; [|split; [|split]].
    - replace (a ++ k ++ b ++ TX "=" ++ c ++ v ++ d) with ((a ++ k ++ b) ++ 61 :: (c ++ v ++ d))
        by (rewrite <- !app_assoc; reflexivity).
      rewrite partition_spec.
      + rewrite !strip_word; auto.
      + assert (Hp : punct 61) by (red; auto). rewrite !in_app_iff.
        pose proof (notin_space 61 a Hp Ha). pose proof (notin_name 61 k Hp Hk).
        pose proof (notin_space 61 b Hp Hb). tauto.
    - apply Hno; [red; auto|discriminate].
    - apply Hno; [red; auto|discriminate].
    - rewrite !in_app_iff. do 3 right. left. now left.
  Qed.
  Definition parse_decl (w : text) : text * text :=
    let '(key, _, value) := partition_char 61 w in (strip key, strip value).
  Lemma decls_parse ws kvs : Forall2 decl ws kvs ->
    map parse_decl ws = kvs /\ Forall (fun w => ~ In 44 w /\ ~ In 58 w /\ In 61 w) ws.
  Proof.
    induction 1 as [|w [k v] ws kvs Hw H [IH1 IH2]]; [auto|].
    destruct (decl_parse w k v Hw) as (H1 & H2). cbn [map]. rewrite IH1. unfold parse_decl at 1. rewrite H1.
    auto.
  Qed.

  (** *** A pragma text has only one reading *)
  Lemma last_sep_unique (c : char) x y x' y' :
    x ++ c :: y = x' ++ c :: y' -> ~ In c y -> ~ In c y' -> x = x' /\ y = y'.
  Proof.
    revert x'. induction x as [|z x IH]; intros [|z' x'] E Hy Hy'; cbn in E.
    - injection E as ->. auto.
    - injection E as -> ->. exfalso. apply Hy. apply in_or_app. right. now left.
    - injection E as -> E. exfalso. apply Hy'. rewrite <- E. apply in_or_app. right. now left.
    - injection E as -> E. destruct (IH x' E Hy Hy') as [-> ->]. auto.
  Qed.
  Definition ends_not (p : char -> bool) (u : text) : Prop :=
    u = [] \/ exists u' c, u = u' ++ [c] /\ p c = false.
  Lemma suffix_unique p u w u' w' :
    u ++ w = u' ++ w' -> all p w -> all p w' -> ends_not p u -> ends_not p u' -> u = u' /\ w = w'.
  Proof.
    revert w w'. assert (H : forall l w w' u u', u ++ w = u' ++ w' -> (length w <= length w')%nat ->
      all p w -> all p w' -> ends_not p u -> l = length w -> u = u' /\ w = w').
    { intros l w w' u0 u0' E Hl Hw Hw' Hu _.
      assert (Hx : exists x, w' = x ++ w /\ u0 = u0' ++ x).
      { clear -E Hl. revert u0' E Hl. induction u0 as [|a u IH]; intros u' E Hl.
        - cbn in E. subst w. rewrite app_length in Hl. destruct u'; [|cbn in Hl; lia].
          exists []. auto.
        - destruct u' as [|a' u']; cbn in E.
          + exists (a :: u). auto.
          + injection E as -> E. destruct (IH u' E Hl) as (x & -> & ->). exists x. auto. }
      destruct Hx as (x & -> & ->). destruct x as [|c x _] using rev_ind.
      - now rewrite app_nil_r.
      - exfalso. destruct Hu as [Hu|(u1 & y & Hu & Hy)].
        + apply app_eq_nil in Hu. destruct Hu as [_ Hu]. destruct x; discriminate.
        + rewrite app_assoc in Hu. apply app_inj_tail in Hu. destruct Hu as [_ ->].
          unfold all in Hw'. rewrite !Forall_app in Hw'. destruct Hw' as [[_ Hw'] _].
          inversion Hw'. congruence. }
    intros w w' E Hw Hw' Hu Hu'.
    destruct (Nat.le_ge_cases (length w) (length w')) as [Hl|Hl].
    - eapply H; eauto.
    - destruct (H (length w') w' w u' u) as [-> ->]; auto.
  Qed.

  Lemma name_ends_not_space pre tag : name is_name tag -> ends_not is_space (pre ++ tag).
  Proof.
    intros [Hne Ht]. destruct (exists_last Hne) as (t & c & ->). right. exists (pre ++ t), c.
    split; [now rewrite app_assoc|]. unfold all in Ht. rewrite Forall_app in Ht. destruct Ht as [_ Ht].
    inversion Ht; subst. destruct (is_space c) eqn:E; [|reflexivity].
    rewrite (space_not_name c E) in H1. discriminate.
  Qed.

  Lemma pieces decls kvs tail :
    decls <> [] -> Forall2 decl decls kvs ->
    (tail = [] \/ exists w, tail = TX "," ++ w /\ spaces w) ->
    ~ In 58 (join (TX ",") decls ++ tail)
    /\ exists tp, split_char 44 (join (TX ",") decls ++ tail) = decls ++ tp
                  /\ (tp = [] \/ exists w, tp = [w] /\ ~ In 61 w).
  Proof.
    intros Hne Hd Ht. apply decls_parse in Hd. destruct Hd as [_ Hd].
    change (TX ",") with ([44] : text) in *.
    assert (H44 : Forall (fun w => ~ In 44 w) decls) by (eapply Forall_impl; [|exact Hd]; cbn; tauto).
    assert (H58 : ~ In 58 (join [44] decls)).
    { clear -Hd. induction Hd as [|w ws Hw H IH]; [intros []|]. destruct ws as [|w2 ws]; [cbn; tauto|].
      change (join [44] (w :: w2 :: ws)) with (w ++ 44 :: join [44] (w2 :: ws)).
      rewrite in_app_iff. cbn [In]. intuition discriminate. }
    destruct Ht as [->|(w & -> & Hw)].
    - rewrite app_nil_r. split; [assumption|]. exists []. rewrite app_nil_r. split; [|auto].
      now apply split_join.
    - split.
      + rewrite in_app_iff. cbn [app In]. pose proof (notin_space 58 w ltac:(red; auto) Hw).
        intuition discriminate.
      + exists [w]. split.
        * cbn [app]. rewrite <- join_last by assumption. apply split_join.
          -- destruct decls; discriminate.
          -- apply Forall_app. split; [assumption|]. repeat constructor. apply notin_space; [red; auto|assumption].
        * right. exists w. split; [reflexivity|]. apply notin_space; [red; auto|assumption].
  Qed.

  Notation ptext := (pragma_text is_name is_value).

  Lemma pragma_text_unique t tag kvs tag' kvs' :
    ptext t tag kvs -> ptext t tag' kvs' -> tag = tag' /\ kvs = kvs'.
  Proof.
    intros H H'. destruct H as [pre tag a decls kvs tail Hpre Htag Ha Hne Hd Ht].
    remember (pre ++ tag ++ a ++ TX ":" ++ join (TX ",") decls ++ tail) as t eqn:E.
    destruct H' as [pre' tag' a' decls' kvs' tail' Hpre' Htag' Ha' Hne' Hd' Ht'].
    destruct (pieces decls kvs tail Hne Hd Ht) as [H58 (tp & Hsp & Htp)].
    destruct (pieces decls' kvs' tail' Hne' Hd' Ht') as [H58' (tp' & Hsp' & Htp')].
    replace (pre ++ tag ++ a ++ TX ":" ++ join (TX ",") decls ++ tail)
      with (((pre ++ tag) ++ a) ++ 58 :: (join (TX ",") decls ++ tail)) in E
      by (rewrite <- !app_assoc; reflexivity).
    replace (pre' ++ tag' ++ a' ++ TX ":" ++ join (TX ",") decls' ++ tail')
      with (((pre' ++ tag') ++ a') ++ 58 :: (join (TX ",") decls' ++ tail')) in E
      by (rewrite <- !app_assoc; reflexivity).
    apply last_sep_unique in E; [|assumption|assumption]. destruct E as [E1 E2].
    apply suffix_unique with (p := is_space) in E1; try assumption;
      try (apply name_ends_not_space; assumption).
    destruct E1 as [E1 _].
    assert (Hen : forall p, (p = [] \/ exists p' c, p = p' ++ [c] /\ is_name c = false) -> ends_not is_name p)
      by (intros p Hp; exact Hp).
    apply suffix_unique with (p := is_name) in E1; try (apply Hen; assumption); try apply Htag; try apply Htag'.
    destruct E1 as [_ Etag]. rewrite E2 in Hsp'. rewrite Hsp in Hsp'.
    assert (decls = decls').
    { pose proof (proj2 (decls_parse _ _ Hd)) as F. pose proof (proj2 (decls_parse _ _ Hd')) as F'.
      clear -F F' Hsp' Htp Htp'. revert decls' F' Hsp'.
      induction F as [|w ws Hw F IH]; intros decls' F' E.
      - destruct F' as [|w' ws' Hw' F']; [reflexivity|]. exfalso.
        cbn in E. destruct Htp as [->|(x & -> & Hx)]; [discriminate|]. injection E as -> E. tauto.
      - destruct F' as [|w' ws' Hw' F'].
        + exfalso. cbn in E. destruct Htp' as [->|(x & -> & Hx)]; [discriminate|]. injection E as -> E. tauto.
        + cbn in E. injection E as -> E. f_equal. auto. }
    subst decls'. split; [now symmetry|].
    apply decls_parse in Hd. apply decls_parse in Hd'. destruct Hd as [<- _], Hd' as [<- _]. reflexivity.
  Qed.

  (** *** The regex reads exactly the pragma texts *)
  Definition decl0 (w : text) : Prop :=
    exists k b c v d, w = k ++ b ++ [61] ++ c ++ v ++ d
      /\ (k <> [] /\ all is_name k) /\ spaces b /\ spaces c /\ (v <> [] /\ all is_value v) /\ spaces d.
  Lemma decl0_decl w : decl0 w -> exists kv, decl w kv.
  Proof.
    intros (k & b & c & v & d & -> & Hk & Hb & Hc & Hv & Hd). exists (k, v).
    apply (PragmaSpec.decl is_name is_value [] k b c v d); auto. constructor.
  Qed.
  Lemma decl_decl0 w kv : decl w kv -> exists a w0, w = a ++ w0 /\ spaces a /\ decl0 w0.
  Proof.
    intros [a k b c v d Ha Hk Hb Hc Hv Hd]. exists a, (k ++ b ++ [61] ++ c ++ v ++ d).
    split; [reflexivity|]. split; [assumption|]. exists k, b, c, v, d. auto 10.
  Qed.

  Lemma eats_decl1 : eats (XSeqs [XPlus (XCls is_name); XStar (XCls is_space); XChr 61; XStar (XCls is_space);
                                  XPlus (XCls is_value); XStar (XCls is_space)])
                          (fun w d d' => d' = d /\ decl0 w).
  Proof.
    cbn [XSeqs]. eapply eats_weaken.
    { repeat (apply eats_seq; [first [apply eats_plus_cls|apply eats_star_cls|apply eats_chr]|]).
      apply eats_star_cls. }
    intros w d d'. cbn. split.
    - intros (k & ? & ? & -> & [-> Hk] & b & ? & ? & -> & [-> Hb] & ? & ? & ? & -> & [-> ->] &
              c & ? & ? & -> & [-> Hc] & v & e & ? & -> & [-> Hv] & -> & He).
      split; [reflexivity|]. exists k, b, c, v, e. auto 10.
    - intros (-> & k & b & c & v & e & -> & Hk & Hb & Hc & Hv & He).
      exists k, (b ++ [61] ++ c ++ v ++ e), d. repeat split; try tauto.
      exists b, ([61] ++ c ++ v ++ e), d. repeat split; try tauto.
      exists [61], (c ++ v ++ e), d. repeat split; try tauto.
      exists c, (v ++ e), d. repeat split; try tauto.
      exists v, e, d. repeat split; tauto.
  Qed.

  Definition decl1 (w : text) : Prop := exists a w0, w = [44] ++ a ++ w0 /\ spaces a /\ decl0 w0.
  Lemma eats_decl_more :
    eats (XSeqs [XChr 44; XStar (XCls is_space); XPlus (XCls is_name); XStar (XCls is_space); XChr 61;
                 XStar (XCls is_space); XPlus (XCls is_value); XStar (XCls is_space)])
         (fun w d d' => d' = d /\ decl1 w).
  Proof.
    change (XSeqs [XChr 44; XStar (XCls is_space); XPlus (XCls is_name); XStar (XCls is_space); XChr 61;
                 XStar (XCls is_space); XPlus (XCls is_value); XStar (XCls is_space)])
      with (XSeq (XChr 44) (XSeq (XStar (XCls is_space))
             (XSeqs [XPlus (XCls is_name); XStar (XCls is_space); XChr 61;
                 XStar (XCls is_space); XPlus (XCls is_value); XStar (XCls is_space)]))).
    eapply eats_weaken.
    { apply eats_seq; [apply eats_chr|]. apply eats_seq; [apply eats_star_cls|apply eats_decl1]. }
    intros w d d'. cbn. split.
    - intros (? & ? & ? & -> & [-> ->] & a & w0 & ? & -> & [-> Ha] & -> & Hw). split; [reflexivity|].
      exists a, w0. auto.
    - intros (-> & a & w0 & -> & Ha & Hw). exists [44], (a ++ w0), d. repeat split.
      exists a, w0, d. auto.
  Qed.

  Definition data_text (w : text) : Prop :=
    exists w0 ws, w = w0 ++ concat ws /\ decl0 w0 /\ Forall decl1 ws.
  Lemma eats_data :
    eats (XGroup (TX "data") (XSeqs [
        XPlus (XCls is_name); XStar (XCls is_space); XChr 61; XStar (XCls is_space); XPlus (XCls is_value);
        XStar (XCls is_space);
        XStar (XSeqs [XChr 44; XStar (XCls is_space); XPlus (XCls is_name); XStar (XCls is_space); XChr 61;
                      XStar (XCls is_space); XPlus (XCls is_value); XStar (XCls is_space)])]))
      (fun w d d' => d' = dset d (TX "data") w /\ data_text w).
  Proof.
    apply eats_group. set (more := XStar (XSeqs [XChr 44; _; _; _; _; _; _; _])).
    assert (Hm : eats more (fun w d d' => d' = d /\ exists ws, w = concat ws /\ Forall decl1 ws)).
    { apply eats_star; [apply eats_decl_more|]. intros w (a & w0 & -> & _). discriminate. }
    clearbody more. cbn [XSeqs]. eapply eats_weaken.
    { repeat (apply eats_seq; [first [apply eats_plus_cls|apply eats_star_cls|apply eats_chr]|]). exact Hm. }
    intros w d d'. cbn. split.
    - intros (k & ? & ? & -> & [-> Hk] & b & ? & ? & -> & [-> Hb] & ? & ? & ? & -> & [-> ->] &
              c & ? & ? & -> & [-> Hc] & v & ? & ? & -> & [-> Hv] & e & ? & ? & -> & [-> He] & -> & ws & -> & Hws).
      split; [reflexivity|]. exists (k ++ b ++ [61] ++ c ++ v ++ e), ws.
      split; [now rewrite <- !app_assoc|]. split; [|assumption].
      exists k, b, c, v, e. auto 10.
    - intros (-> & w0 & ws & -> & (k & b & c & v & e & -> & Hk & Hb & Hc & Hv & He) & Hws).
      exists k, (b ++ [61] ++ c ++ v ++ e ++ concat ws), d. rewrite <- !app_assoc. repeat split; try tauto.
      exists b, ([61] ++ c ++ v ++ e ++ concat ws), d. repeat split; try tauto.
      exists [61], (c ++ v ++ e ++ concat ws), d. repeat split; try tauto.
      exists c, (v ++ e ++ concat ws), d. repeat split; try tauto.
      exists v, (e ++ concat ws), d. repeat split; try tauto.
      exists e, (concat ws), d. repeat split; try tauto. eauto.
  Qed.

  Lemma data_text_join w : data_text w ->
    exists decls kvs, decls <> [] /\ w = join (TX ",") decls /\ Forall2 decl decls kvs.
  Proof.
    intros (w0 & ws & -> & H0 & Hws). apply decl0_decl in H0. destruct H0 as [kv H0].
    revert w0 kv H0. induction Hws as [|w ws Hw Hws IH]; intros w0 kv H0.
    - exists [w0], [kv]. cbn. rewrite app_nil_r. repeat split; [discriminate|auto].
    - destruct Hw as (a & w1 & -> & Ha & Hw).
      assert (Hd : exists kv', decl (a ++ w1) kv').
      { destruct Hw as (k & b & c & v & d & -> & ? & ? & ? & ? & ?). exists (k, v).
        now apply (PragmaSpec.decl is_name is_value a k b c v d). }
      destruct Hd as [kv' Hd]. destruct (IH _ _ Hd) as (decls & kvs & Hne & E & HF).
      exists (w0 :: decls), (kv :: kvs). split; [discriminate|]. split; [|auto].
      destruct decls as [|d0 decls]; [congruence|].
      change (join (TX ",") (w0 :: d0 :: decls)) with (w0 ++ [44] ++ join (TX ",") (d0 :: decls)).
      rewrite <- E. cbn [concat]. rewrite <- !app_assoc. reflexivity.
  Qed.
  Lemma join_data_text decls kvs : decls <> [] -> Forall2 decl decls kvs ->
    exists b w, join (TX ",") decls = b ++ w /\ spaces b /\ data_text w.
  Proof.
    intros Hne HF. destruct HF as [|w0 kv ws kvs H0 HF]; [congruence|]. clear Hne.
    apply decl_decl0 in H0. destruct H0 as (a & w1 & -> & Ha & H1).
    exists a. exists (w1 ++ concat (map (fun w => 44 :: w) ws)). split; [|split; [assumption|]].
    - rewrite app_assoc. generalize (a ++ w1). clear. induction ws as [|w ws IH]; intro x.
      + cbn. now rewrite app_nil_r.
      + change (join (TX ",") (x :: w :: ws)) with (x ++ 44 :: join (TX ",") (w :: ws)).
        rewrite IH. reflexivity.
    - exists w1, (map (fun w => 44 :: w) ws). split; [reflexivity|]. split; [assumption|].
      clear -HF. induction HF as [|w kv ws kvs H HF IH]; [constructor|]. cbn. constructor; [|assumption].
      apply decl_decl0 in H. destruct H as (a & w1 & -> & Ha & H1). exists a, w1. auto.
  Qed.

  (** The whole regex at one position. *)
  Lemma pragma_re_at b t s' :
    xm (PRAGMA_RE uw) (RS b t []) s' <->
    exists x tag a c w tail,
      t = x ++ tag ++ a ++ [58] ++ c ++ w ++ tail
      /\ ((exists ch, x = [ch] /\ is_name ch = false) \/ (x = [] /\ b = []))
      /\ (tag <> [] /\ all is_name tag) /\ spaces a /\ spaces c /\ data_text w
      /\ (tail = [] \/ exists v, tail = [44] ++ v /\ spaces v)
      /\ s' = RS (rev t ++ b) [] (dset (dset [] (TX "tag") tag) (TX "data") w).
  Proof.
    unfold PRAGMA_RE. cbv zeta.
    set (data := XGroup (TX "data") _).
    pose proof eats_data as Hdata. fold data in Hdata. clearbody data.
    set (tagx := XGroup (TX "tag") _).
    assert (Htag : eats tagx (fun w d d' => d' = dset d (TX "tag") w /\ (w <> [] /\ all is_name w)))
      by (apply eats_group; apply eats_plus_cls).
    clearbody tagx. cbn [XSeqs].
    assert (Htail : eats (XOpt (XSeq (XChr 44) (XStar (XCls is_space))))
                (fun w d d' => d' = d /\ (w = [] \/ exists v, w = [44] ++ v /\ spaces v))).
    { eapply eats_weaken; [apply eats_alt; [apply eats_seq; [apply eats_chr|apply eats_star_cls]|apply eats_eps]|].
      intros w d d'. cbn. split.
      - intros [(? & v & ? & -> & [-> ->] & -> & Hv)|[-> ->]]; [|auto]. split; [reflexivity|]. right.
        exists v. auto.
      - intros [-> [->|(v & -> & Hv)]]; [auto|]. left. exists [44], v, d. auto. }
    set (mid := XSeq tagx _).
    set (bnd := XAlt _ XBegin).
    assert (Hmid : forall b t d s', xm mid (RS b t d) s' <->
       exists tag a c w tail, t = tag ++ a ++ [58] ++ c ++ w ++ tail
         /\ (tag <> [] /\ all is_name tag) /\ spaces a /\ spaces c /\ data_text w
         /\ (tail = [] \/ exists v, tail = [44] ++ v /\ spaces v)
         /\ s' = RS (rev t ++ b) [] (dset (dset d (TX "tag") tag) (TX "data") w)).
    { intros b0 t0 d0 s0. subst mid. split.
      - intro H.
        inversion H as [|? ? ? s1 ? H1 H2| | | | | | | |]; subst; clear H.
        apply Htag in H1. destruct H1 as (tag & t1 & d1 & -> & -> & -> & Ht).
        inversion H2 as [|? ? ? s1 ? H1 H3| | | | | | | |]; subst; clear H2.
        apply eats_star_cls in H1. destruct H1 as (a & t2 & d2 & -> & -> & -> & Ha).
        inversion H3 as [|? ? ? s1 ? H1 H2| | | | | | | |]; subst; clear H3.
        apply eats_chr in H1. destruct H1 as (? & t3 & d3 & -> & -> & -> & ->).
        inversion H2 as [|? ? ? s1 ? H1 H3| | | | | | | |]; subst; clear H2.
        apply eats_star_cls in H1. destruct H1 as (c & t4 & d4 & -> & -> & -> & Hc).
        inversion H3 as [|? ? ? s1 ? H1 H2| | | | | | | |]; subst; clear H3.
        apply Hdata in H1. destruct H1 as (w & t5 & d5 & -> & -> & -> & Hw).
        inversion H2 as [|? ? ? s1 ? H1 H3| | | | | | | |]; subst; clear H2.
        apply Htail in H1. destruct H1 as (tail & t6 & d6 & -> & -> & -> & Htl).
        inversion H3; subst; clear H3.
        exists tag, a, c, w, tail. rewrite app_nil_r.
        repeat (split; [first [reflexivity|assumption]|]).
        rewrite !rev_app_distr, <- !app_assoc. reflexivity.
      - intros (tag & a & c & w & tail & -> & Ht & Ha & Hc & Hw & Htl & ->).
        eapply xm_seq; [apply Htag; eexists tag, _, _; eauto|].
        eapply xm_seq; [apply eats_star_cls; eexists a, _, _; eauto|].
        eapply xm_seq; [apply eats_chr; eexists [58], _, _; eauto|].
        eapply xm_seq; [apply eats_star_cls; eexists c, _, _; eauto|].
        eapply xm_seq; [apply Hdata; eexists w, _, _; eauto|].
        eapply xm_seq; [apply Htail; exists tail, [], (dset (dset d0 (TX "tag") tag) (TX "data") w);
                        rewrite app_nil_r; eauto|].
        rewrite !rev_app_distr, <- !app_assoc. constructor. }
    clearbody mid. split.
    - intro H. inversion H as [|? ? ? s1 ? H1 H2| | | | | | | |]; subst; clear H.
      unfold bnd in H1. inversion H1 as [| |? ? ? ? H3|? ? ? ? H3| | | | | |]; subst; clear H1.
      + apply eats_cls in H3. destruct H3 as (x & t' & d' & -> & -> & -> & ch & -> & Hch).
        apply negb_true_iff in Hch. apply Hmid in H2.
        destruct H2 as (tag & a & c & w & tail & -> & Ht & Ha & Hc & Hw & Htl & ->).
        exists [ch], tag, a, c, w, tail. split; [reflexivity|].
        split; [left; eauto|]. repeat (split; [assumption|]).
        rewrite !rev_app_distr, <- !app_assoc. reflexivity.
      + inversion H3; subst. apply Hmid in H2.
        destruct H2 as (tag & a & c & w & tail & -> & Ht & Ha & Hc & Hw & Htl & ->).
        exists [], tag, a, c, w, tail. split; [reflexivity|].
        split; [right; auto|]. repeat (split; [assumption|]). reflexivity.
    - intros (x & tag & a & c & w & tail & -> & [(ch & -> & Hch)|[-> ->]] & Ht & Ha & Hc & Hw & Htl & ->).
      + eapply xm_seq.
        * apply xm_alt_l. apply eats_cls. exists [ch], (tag ++ a ++ [58] ++ c ++ w ++ tail), [].
          repeat split. exists ch. split; [reflexivity|]. now apply negb_true_iff.
        * apply Hmid. exists tag, a, c, w, tail. repeat (split; [first [reflexivity|assumption]|]).
          f_equal. rewrite !rev_app_distr, <- !app_assoc. reflexivity.
      + eapply xm_seq.
        * apply xm_alt_r. constructor.
        * apply Hmid. exists tag, a, c, w, tail. repeat (split; [first [reflexivity|assumption]|]). reflexivity.
  Qed.

  Lemma search_from_sound r b t m :
    rx_search_from r b t = Some m ->
    exists u v s', t = u ++ v /\ xm r (RS (rev u ++ b) v []) s' /\ rs_caps s' = m.
  Proof.
    revert b. induction t as [|c t IH]; intros b H; cbn [rx_search_from] in H.
    - destruct (bt r _ _) eqn:E; [|discriminate]. injection H as ->. apply bt_sound in E.
      destruct E as (s' & Hx & E). injection E as <-. exists [], [], s'. auto.
    - destruct (bt r _ _) eqn:E.
      + injection H as ->. apply bt_sound in E. destruct E as (s' & Hx & E). injection E as <-.
        exists [], (c :: t), s'. auto.
      + apply IH in H. destruct H as (u & v & s' & -> & Hx & Hm). exists (c :: u), v, s'.
        cbn [rev]. rewrite <- app_assoc. auto.
  Qed.
  Lemma search_from_complete r b u v s' :
    xm r (RS (rev u ++ b) v []) s' -> rx_search_from r b (u ++ v) <> None.
  Proof.
    revert b. induction u as [|c u IH]; intros b H.
    - cbn in H. assert (Hb : bt r (fun s => Some (rs_caps s)) (RS b v []) <> None)
        by (eapply bt_complete; [eassumption|discriminate]).
      cbn [app]. destruct v; cbn [rx_search_from]; destruct (bt r _ _); congruence.
    - cbn [app rx_search_from]. destruct (bt r _ _); [discriminate|]. apply IH.
      cbn [rev] in H. rewrite <- app_assoc in H. exact H.
  Qed.

  Lemma fold_dict_of ws d :
    fold_left (fun d declaration =>
                 let '(key, _, value) := partition_char 61 declaration in
                 dset d (strip key) (strip value)) ws d
    = fold_left (fun d kv => dset d (fst kv) (snd kv)) (map parse_decl ws) d.
  Proof.
    revert d. induction ws as [|w ws IH]; intro d; [reflexivity|]. cbn [fold_left map].
    rewrite IH. f_equal. unfold parse_decl. destruct (partition_char 61 w) as [[k f] v]. reflexivity.
  Qed.

  Lemma from_text_sound t s e p :
    from_text uw t s e = Some p ->
    p_start p = s /\ p_end p = e
    /\ exists kvs, ptext t (p_tag p) kvs /\ p_data p = dict_of kvs.
  Proof.
    unfold from_text, rx_search. intro H.
    destruct (rx_search_from (PRAGMA_RE uw) [] t) as [m|] eqn:E; [|discriminate].
    apply search_from_sound in E. destruct E as (u & v & s' & -> & Hx & <-).
    rewrite app_nil_r in Hx. apply pragma_re_at in Hx.
    destruct Hx as (x & tag & a & c & w & tail & -> & Hx & Ht & Ha & Hc & Hw & Htl & ->).
    cbn [rs_caps] in H. change (dget (dset (dset [] (TX "tag") tag) (TX "data") w) (TX "tag")) with (Some tag) in H.
    change (dget (dset (dset [] (TX "tag") tag) (TX "data") w) (TX "data")) with (Some w) in H.
    injection H as <-. cbn [p_start p_end p_tag p_data]. split; [reflexivity|]. split; [reflexivity|].
    destruct (data_text_join w Hw) as (decls & kvs & Hne & -> & HF). exists kvs.
    split.
    - destruct decls as [|d0 decls]; [congruence|]. clear Hw Hne.
      inversion HF as [|? kv ? kvs' Hd0 HF']; subst.
      match goal with |- pragma_text _ _ ?t _ _ =>
        replace t with ((u ++ x) ++ tag ++ a ++ TX ":" ++ join (TX ",") ((c ++ d0) :: decls) ++ tail) end.
      + constructor; try assumption; [|discriminate|].
        * destruct Hx as [(ch & -> & Hch)|[-> Hu]]; [right; eauto|].
          apply (f_equal (@rev char)) in Hu. rewrite rev_involutive in Hu. subst u. left. reflexivity.
        * constructor; [|assumption]. destruct Hd0 as [a0 k b0 c0 v0 d0 ? ? ? ? ? ?].
          rewrite app_assoc. constructor; auto. apply Forall_app. auto.
      + rewrite <- !app_assoc. do 5 f_equal. destruct decls as [|d1 decls]; cbn [join];
          rewrite <- !app_assoc; reflexivity.
    - rewrite fold_dict_of. rewrite split_join.
      + apply decls_parse in HF. destruct HF as [-> _]. reflexivity.
      + assumption.
      + apply decls_parse in HF. destruct HF as [_ HF]. eapply Forall_impl; [|exact HF]. cbn. tauto.
  Qed.

  Theorem from_text_spec t s e p :
    from_text uw t s e = Some p <->
    p_start p = s /\ p_end p = e
    /\ exists kvs, ptext t (p_tag p) kvs /\ p_data p = dict_of kvs.
  Proof.
    split; [apply from_text_sound|].
    intros (Hs & He & kvs & Hp & Hd).
    assert (Hne : rx_search (PRAGMA_RE uw) t <> None).
    { destruct Hp as [pre tag a decls kvs' tail Hpre Htag Ha Hne HF Htl].
      destruct (join_data_text decls kvs' Hne HF) as (c & w & -> & Hc & Hw).
      destruct Hpre as [->|(pre' & ch & -> & Hch)].
      - change ([] ++ ?l) with l. unfold rx_search. rewrite <- (app_nil_l (tag ++ _)).
        eapply search_from_complete with (s' := _). cbn [rev app].
        apply pragma_re_at. exists [], tag, a, c, w, tail.
        split; [rewrite <- !app_assoc; reflexivity|].
        split; [right; auto|]. destruct Htag. repeat (split; [first [assumption|split; assumption]|]). reflexivity.
      - unfold rx_search. rewrite <- app_assoc. eapply search_from_complete with (s' := _).
        apply pragma_re_at. exists [ch], tag, a, c, w, tail.
        split; [rewrite <- !app_assoc; reflexivity|].
        split; [left; eauto|]. destruct Htag. repeat (split; [first [assumption|split; assumption]|]). reflexivity. }
    destruct (from_text uw t s e) as [p'|] eqn:E.
    - apply from_text_sound in E. destruct E as (Hs' & He' & kvs' & Hp' & Hd').
      destruct (pragma_text_unique _ _ _ _ _ Hp Hp') as [Htag ->].
      destruct p, p'. cbn in *. subst. reflexivity.
    - exfalso. unfold from_text in E. destruct (rx_search (PRAGMA_RE uw) t) as [m|] eqn:Em; [|congruence].
      unfold rx_search in Em. apply search_from_sound in Em. destruct Em as (u & v & s' & -> & Hx & <-).
      apply pragma_re_at in Hx. destruct Hx as (x & tag & a & c & w & tail & _ & _ & _ & _ & _ & _ & _ & ->).
      cbn in E. discriminate.
  Qed.
End Chars.
