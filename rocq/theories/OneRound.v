(** C81: with a single round, what is found can always be applied. *)
From Verif Require Import TemplateProofs Py PyFacts Regex Subst ApplySpec ApplyProofs SubstSpec SubstProofs Ast Template FromDiff Matcher MatchSpec MatcherProofs FindSpec FindProofs
  FilterSpec NavSpec NavProofs PatTok PatSpec Pattern PatternSpec EquivProofs PatternProofs PatternApi
  PyTemplate PyTemplateSpec PyTemplateProofs Search SearchSpec Removal OwnSpec SampleTrees PropsPattern
  PropsTemplate ExprSubSpec ExprSubProofs PropsExprSub Fixer FixerSpec FixerProofs PyCode BuiltinFixers BuiltinSpec
  PragmaProofs Fmt Cli.
From Coq Require Import Permutation.

(** *** One edit for each substitution *)
(** The substitution has one edit, which is inside its primary span. *)
Definition one_edit (s : substitution) : Prop :=
  exists t a b pa pb, edits_of s = [(t, a, b)] /\ has_primary s pa pb /\ 0 <= pa /\ pa <= a /\ a < b /\ b <= pb.
Definition primaries_apart (s s' : substitution) : Prop :=
  forall a b c d, has_primary s a b -> has_primary s' c d -> b <= c \/ d <= a.
Record orderly (subs : list substitution) : Prop := {
  od_wf : Forall wf_sub subs;
  od_one : Forall one_edit subs;
  od_apart : ForallOrdPairs primaries_apart subs;
  od_oriented : Forall well_oriented subs
}.
Lemma group_one s t a b : edits_of s = [(t, a, b)] -> group s = [(t, a, b)].
Proof. intros E. unfold group, sorted_edits. rewrite E. reflexivity. Qed.
Lemma orderly_applies data subs : orderly subs -> exists out, apply_substitutions data subs = Ok out.
Proof.
  intros [W O A _]. rewrite (apply_eq_edits data subs (wf_validate _ W)).
  2:{ eapply Forall_impl; [|exact O]. intros s (t & a & b & pa & pb & E & _ & H1 & H2 & _) x Hx. rewrite E in Hx. destruct Hx as [<-|[]]. cbn. lia. }
  enough (Ho : in_order 0 (order_of subs)) by (apply in_orderb_ok in Ho; rewrite Ho; eauto).
  unfold order_of.
  assert (G : forall g, In g (py_sorted gleb (map group subs)) -> exists t a b, g = [(t, a, b)] /\ 0 <= a < b).
  { intros g Hg. eapply Permutation_in in Hg; [|symmetry; apply py_sorted_perm]. apply in_map_iff in Hg as (s & <- & Hs).
    rewrite Forall_forall in O. destruct (O s Hs) as (t & a & b & pa & pb & E & _ & H1 & H2 & H3 & _). exists t, a, b. split; [now apply group_one|lia]. }
  apply concat_in_order.
  - intros g Hg. destruct (G g Hg) as (t & a & b & -> & H). split; [discriminate|]. cbn. split; [|lia]. unfold gordb. cbn. lia.
  - set (R := fun g h : list edit => forall x y, In x g -> In y h -> edit_ends_before x y \/ edit_ends_before y x).
    assert (HR : ForallOrdPairs R (py_sorted gleb (map group subs))).
    { eapply ForallOrdPairs_perm; [|apply py_sorted_perm|].
      - unfold R. intros g h H x y Hx Hy. destruct (H y x Hy Hx); auto.
      - clear -O A. induction A as [|s subs Hs A IH]; [constructor|]. inversion O as [|? ? (t & a & b & pa & pb & E & HP & H1 & H2 & H3 & H4) O']; subst. cbn [map]. constructor; [|auto].
        apply Forall_forall. intros g Hg. apply in_map_iff in Hg as (s' & <- & Hs'). rewrite Forall_forall in Hs, O'. specialize (Hs s' Hs').
        destruct (O' s' Hs') as (t' & a' & b' & pa' & pb' & E' & HP' & H1' & H2' & H3' & H4').
        rewrite (group_one _ _ _ _ E), (group_one _ _ _ _ E'). intros x y [<-|[]] [<-|[]]. cbn. destruct (Hs _ _ _ _ HP HP'); lia. }
    pose proof (StronglySorted_pairs _ _ (py_sorted_sorted gleb gleb_total gleb_trans (map group subs))) as HS.
    pose proof (ForallOrdPairs_and _ _ _ HR HS) as HRS. revert G HRS. generalize (py_sorted gleb (map group subs)). clear. intros gs G H.
    induction H as [|g gs Hg H IH]; [constructor|]. constructor; [|apply IH; intros x Hx; apply G; now right].
    apply Forall_forall. intros h Hh. rewrite Forall_forall in Hg. destruct (Hg h Hh) as [H1 H2].
    destruct (G g (or_introl eq_refl)) as (t & a & b & -> & L), (G h (or_intror Hh)) as (t' & a' & b' & -> & L'). intros x y [<-|[]] [<-|[]].
    specialize (H1 _ _ (or_introl eq_refl) (or_introl eq_refl)). cbn in *. unfold gleb in H2. cbn in H2. lia.
Qed.

(** *** Searchers made of others *)
Lemma ForallOrdPairs_filter {A} (R : A -> A -> Prop) keep l : ForallOrdPairs R l -> ForallOrdPairs R (filter keep l).
Proof.
  induction 1 as [|x l H F IH]; [constructor|]. cbn [filter]. destruct (keep x); [|exact IH]. constructor; [|exact IH].
  apply Forall_forall. intros y Hy. apply filter_In in Hy as [Hy _]. rewrite Forall_forall in H. auto.
Qed.
Lemma orderly_filter keep subs : orderly subs -> orderly (filter keep subs).
Proof.
  intros [W O A R]. constructor; [| |now apply ForallOrdPairs_filter|]; apply Forall_forall; intros x Hx; apply filter_In in Hx as [Hx _].
  - rewrite Forall_forall in W. auto.
  - rewrite Forall_forall in O. auto.
  - rewrite Forall_forall in R. auto.
Qed.
Lemma one_edit_primary s : wf_sub s -> one_edit s -> wf_primary s.
Proof. intros [D _] (t & a & b & pa & pb & _ & H & _ & H2 & H3 & H4). split; [exact D|]. exists pa, pb. split; [exact H|lia]. Qed.
Section Built.
  Variable parse_ast : text -> text -> res parsed_file.
  Variable path : text.
  Definition orderly_searcher (s : searcher) : Prop :=
    (forall t parsed subs, parse_ast t path = Ok parsed -> s_find s parsed = Ok subs -> orderly subs)
    /\ forall t parsed, s_parse s t path = Ok parsed -> parse_ast t path = Ok parsed.
  Lemma orderly_combined ss : ss <> [] -> Forall orderly_searcher ss -> orderly_searcher (combined ss).
  Proof.
    intros Hne HF. rewrite Forall_forall in HF. split.
    2:{ intros t parsed H. cbn [s_parse combined] in H. apply bind_Ok in H as (r & Hr & H). apply combined_parse_spec in Hr as (ps & F & K & _).
      destruct (K eq_refl Hne) as (p & -> & Hin & _). injection H as <-.
      assert (exists s, In s ss /\ s_parse s t path = Ok p) as (s & Hs & Hp).
      { clear -F Hin. induction F as [|s q ss ps Hq F IH]; [destruct Hin|]. destruct Hin as [->|Hin]; [exists s; split; [now left|exact Hq]|].
        destruct (IH Hin) as (s' & H1 & H2). exists s'. split; [now right|exact H2]. }
      exact (proj2 (HF s Hs) _ _ Hp). }
    intros t parsed subs Hp Hf. cbn [s_find combined] in Hf. apply bind_Ok in Hf as (ls & Hm & Hd). apply mapM_Forall2 in Hm.
    assert (X : forall x, In x (concat ls) -> wf_sub x /\ one_edit x /\ well_oriented x).
    { intros x Hx. apply in_concat in Hx as (l & Hl & Hx).
      assert (exists s, In s ss /\ s_find s parsed = Ok l) as (s & Hs & Hsl).
      { clear -Hm Hl. induction Hm as [|s l' ss ls Hs F IH]; [destruct Hl|]. destruct Hl as [->|Hl]; [exists s; split; [now left|auto]|].
        destruct (IH Hl) as (s' & H1 & H2). exists s'. split; [now right|exact H2]. }
      destruct (proj1 (HF s Hs) t parsed l Hp Hsl) as [W O _ R]. rewrite Forall_forall in W, O, R. auto. }
    destruct (disjoint_spec (concat ls)) as (out & dropped & E & P & B & _).
    { apply Forall_forall. intros x Hx. apply one_edit_primary; apply X, Hx. }
    assert (E' : subs = out) by (pose proof (eq_trans (eq_sym Hd) E) as K; now injection K). subst subs.
    assert (I : forall x, In x out -> In x (concat ls)).
    { intros x Hx. eapply Permutation_in; [symmetry; exact P|]. apply in_or_app. now left. }
    constructor.
    - apply Forall_forall. intros x Hx. apply X, I, Hx.
    - apply Forall_forall. intros x Hx. apply X, I, Hx.
    - eapply ForallOrdPairs_impl; [|exact B]. intros x y H a b c d H1 H2. left. exact (H a b c d H1 H2).
    - apply Forall_forall. intros x Hx. apply X, I, Hx.
  Qed.
  Lemma orderly_also also noalso s : orderly_searcher s -> orderly_searcher (also_regexp also noalso s).
  Proof.
    intros [J P]. split; [exact J|]. intros t parsed H. apply P. cbn [s_parse also_regexp] in H. destruct (_ || _); [discriminate H|exact H].
  Qed.
  Lemma orderly_suppressed s : orderly_searcher s -> orderly_searcher (pragma_suppressed s).
  Proof.
    intros [J P]. split; [|exact P]. intros t parsed subs' Hp H. pose proof H as H0. cbn [s_find pragma_suppressed] in H. apply bind_Ok in H as (subs & Hs & _).
    pose proof (J t parsed subs Hp Hs) as O. destruct (pragma_suppressed_spec s parsed subs Hs) as (keep & E & _).
    - eapply Forall_impl; [|exact (od_wf _ O)]. intros x (D & _ & V). now split.
    - rewrite H0 in E. injection E as ->. now apply orderly_filter.
  Qed.
  Lemma orderly_built o ss s : Forall orderly_searcher ss -> build_searcher o ss = Some s -> orderly_searcher s.
  Proof.
    intros HF H. unfold build_searcher in H. destruct ss as [|s0 rest]; [discriminate H|]. injection H as <-.
    assert (S1 : orderly_searcher (match rest with [] => s0 | _ => combined (s0 :: rest) end)).
    { destruct rest; [now inversion HF|]. apply orderly_combined; [discriminate|exact HF]. }
    generalize dependent (match rest with [] => s0 | _ => combined (s0 :: rest) end). intros s1 S1.
    assert (S2 : orderly_searcher (match co_also o, co_noalso o with [], [] => s1 | also, noalso => also_regexp also noalso s1 end)).
    { destruct (co_also o), (co_noalso o); try exact S1; now apply orderly_also. }
    generalize dependent (match co_also o, co_noalso o with [], [] => s1 | also, noalso => also_regexp also noalso s1 end). intros s2 S2.
    destruct (co_force_enable o); [exact S2|now apply orderly_suppressed].
  Qed.
End Built.
