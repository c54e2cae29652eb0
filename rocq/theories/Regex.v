(** A small regular expression language, used to transcribe the fixed regexes of
    the code base (not the user's).  [matches] is the denotational meaning,
    [re_match] a decision procedure (Brzozowski derivatives) proved equal to it. *)
From Verif Require Import Py.

Inductive re :=
  | Void
  | Eps
  | Cls (p : char -> bool)
  | Seq (a b : re)
  | Alt (a b : re)
  | Star (a : re).

Inductive matches : re -> text -> Prop :=
  | m_eps : matches Eps []
  | m_cls p c : p c = true -> matches (Cls p) [c]
  | m_seq a b s t : matches a s -> matches b t -> matches (Seq a b) (s ++ t)
  | m_alt_l a b s : matches a s -> matches (Alt a b) s
  | m_alt_r a b s : matches b s -> matches (Alt a b) s
  | m_star_nil a : matches (Star a) []
  | m_star_cons a s t : matches a s -> matches (Star a) t -> matches (Star a) (s ++ t).

Fixpoint nullable (r : re) : bool :=
  match r with
  | Void => false
  | Eps => true
  | Cls _ => false
  | Seq a b => nullable a && nullable b
  | Alt a b => nullable a || nullable b
  | Star _ => true
  end.

Fixpoint deriv (c : char) (r : re) : re :=
  match r with
  | Void | Eps => Void
  | Cls p => if p c then Eps else Void
  | Seq a b => if nullable a then Alt (Seq (deriv c a) b) (deriv c b) else Seq (deriv c a) b
  | Alt a b => Alt (deriv c a) (deriv c b)
  | Star a => Seq (deriv c a) (Star a)
  end.

Fixpoint re_match (r : re) (s : text) : bool :=
  match s with
  | [] => nullable r
  | c :: rest => re_match (deriv c r) rest
  end.

Lemma nullable_ok r : nullable r = true <-> matches r [].
Proof.
  split.
  - induction r as [| |p|a IHa b IHb|a IHa b IHb|a IHa]; cbn; intro H; try discriminate.
    + constructor.
    + apply andb_true_iff in H. destruct H. change (@nil char) with (@nil char ++ []).
      constructor; auto.
    + apply orb_true_iff in H. destruct H; [apply m_alt_l|apply m_alt_r]; auto.
    + constructor.
  - remember (@nil char) as s eqn:Hs. intro H. revert Hs.
    induction H as [|p c Hp|a b s t Ha IHa Hb IHb|a b s Ha IHa|a b s Ha IHa|a|a s t Ha IHa Hb IHb];
      cbn; intro Hs; try reflexivity; try discriminate.
    + apply app_eq_nil in Hs. destruct Hs. rewrite IHa, IHb by assumption. reflexivity.
    + now rewrite IHa.
    + rewrite IHa by assumption. apply orb_true_r.
Qed.

Lemma matches_Seq a b s : matches (Seq a b) s <-> exists x y, s = x ++ y /\ matches a x /\ matches b y.
Proof.
  split.
  - intro H. inversion H as [| |? ? x y Hx Hy| | | |]; subst. eauto.
  - intros (x & y & -> & Hx & Hy). now constructor.
Qed.
Lemma matches_Cls p s : matches (Cls p) s <-> exists c, s = [c] /\ p c = true.
Proof.
  split.
  - intro H. inversion H; subst. eauto.
  - intros (c & -> & Hc). now constructor.
Qed.
Lemma matches_Alt a b s : matches (Alt a b) s <-> matches a s \/ matches b s.
Proof.
  split.
  - intro H. inversion H; subst; auto.
  - intros [H|H]; [now apply m_alt_l|now apply m_alt_r].
Qed.
Lemma matches_Star a s : matches (Star a) s <-> exists l, s = concat l /\ Forall (matches a) l.
Proof.
  split.
  - remember (Star a) as r eqn:Hr. intro H. revert Hr.
    induction H as [| | | | |a'|a' s t Hs _ Ht IHt]; intro Hr; try discriminate; injection Hr as ->.
    + exists []. auto.
    + destruct (IHt eq_refl) as (l & -> & Hl). exists (s :: l). cbn. auto.
  - intros (l & -> & Hl). induction Hl; cbn; now constructor.
Qed.
Lemma matches_Star_cons a c s :
  matches (Star a) (c :: s) <-> exists x y, s = x ++ y /\ matches a (c :: x) /\ matches (Star a) y.
Proof.
  split.
  - rewrite matches_Star. intros (l & Hl & Hf). revert Hl.
    induction Hf as [|w l Hw Hf IH]; cbn; intro H; [discriminate|].
    destruct w as [|c' w]; [auto|].
    cbn in H. injection H as -> ->. exists w, (concat l). repeat split; auto.
    apply matches_Star. eauto.
  - intros (x & y & -> & Hx & Hy). change (c :: x ++ y) with ((c :: x) ++ y). now constructor.
Qed.

Lemma deriv_ok c r s : matches (deriv c r) s <-> matches r (c :: s).
Proof.
  revert s. induction r as [| |p|a IHa b IHb|a IHa b IHb|a IHa]; intro s; cbn [deriv].
  - split; intro H; inversion H.
  - split; intro H; inversion H.
  - rewrite matches_Cls. destruct (p c) eqn:E.
    + split; intro H.
      * inversion H; subst. eauto.
      * destruct H as (c' & H & _). injection H as -> ->. constructor.
    + split; intro H; [inversion H|]. destruct H as (c' & H & Hc).
      injection H as -> ->. congruence.
  - assert (Haux : matches (Seq a b) (c :: s) <->
      (exists x y, s = x ++ y /\ matches a (c :: x) /\ matches b y)
      \/ (matches a [] /\ matches b (c :: s))).
    { rewrite matches_Seq. split.
      - intros (x & y & H & Hx & Hy). destruct x as [|c' x]; cbn in H.
        + subst y. auto.
        + injection H as -> ->. left. eauto.
      - intros [(x & y & -> & Hx & Hy)|[Hx Hy]].
        + exists (c :: x), y. auto.
        + exists [], (c :: s). auto. }
    rewrite Haux. destruct (nullable a) eqn:E.
    + rewrite matches_Alt, matches_Seq, IHb. apply nullable_ok in E.
      split.
      * intros [(x & y & -> & Hx & Hy)|H]; [left|right; auto].
        exists x, y. rewrite <- IHa. auto.
      * intros [(x & y & -> & Hx & Hy)|[_ H]]; [left|right; auto].
        exists x, y. rewrite IHa. auto.
    + rewrite matches_Seq. split.
      * intros (x & y & -> & Hx & Hy). left. exists x, y. rewrite <- IHa. auto.
      * intros [(x & y & -> & Hx & Hy)|[H _]].
        -- exists x, y. rewrite IHa. auto.
        -- apply nullable_ok in H. congruence.
  - rewrite !matches_Alt, IHa, IHb. reflexivity.
  - rewrite matches_Seq, matches_Star_cons. split; intros (x & y & -> & Hx & Hy);
      exists x, y; [rewrite <- IHa|rewrite IHa]; auto.
Qed.

Theorem re_match_ok r s : re_match r s = true <-> matches r s.
Proof.
  revert r. induction s as [|c s IH]; intro r; cbn.
  - apply nullable_ok.
  - rewrite IH. apply deriv_ok.
Qed.
