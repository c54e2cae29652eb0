(** C81: the searchers that a command line makes of others keep what is justified. *)
From Verif Require Import Py PyFacts Subst ApplySpec SubstSpec SubstProofs Ast Template Matcher MatcherProofs Search SearchSpec Fixer FixerProofs PragmaProofs Cli IterSpec IterProofs IterAll.
From Coq Require Import Permutation.

(** What is kept was there. *)
Lemma disjoint_loop_incl l : forall last, incl (disjoint_loop last l) (map snd (match last with Some x => [x] | None => [] end ++ l)).
Proof.
  induction l as [|[[a b] s] l IH]; intros last; cbn [disjoint_loop].
  - destruct last as [[sp s]|]; [|intros x []]. intros x [<-|[]]. now left.
  - destruct last as [[[la lb] ls]|].
    + destruct (a >=? lb).
      * intros x [<-|H]; [now left|]. apply IH in H. right. exact H.
      * destruct (_ >? _); intros x H; apply IH in H; cbn in *; tauto.
    + intros x H. apply IH in H. exact H.
Qed.
Lemma disjoint_incl subs out : disjoint_substitutions subs = Ok out -> incl out subs.
Proof.
  unfold disjoint_substitutions. intros H. apply bind_Ok in H as (sps & Hm & [= <-]). intros x Hx. apply disjoint_loop_incl in Hx. cbn [app] in Hx.
  apply in_map_iff in Hx as (y & <- & Hy). eapply Permutation_in in Hy; [|symmetry; apply py_sorted_perm].
  apply mapM_Forall2 in Hm. induction Hm as [|s z ss zs Hz HF IH]; [destruct Hy|]. destruct Hy as [->|Hy]; [left|right; auto].
  apply bind_Ok in Hz as (sp & _ & [= <-]). reflexivity.
Qed.

Section Built.
  Variable ok : text -> edit -> Prop.
  Variable parse_ast : text -> text -> res parsed_file.
  Variable path : text.
  (** What is found is justified, and files are parsed as Python. *)
  Definition sound_searcher (s : searcher) : Prop :=
    justified ok parse_ast s path /\ forall t parsed, s_parse s t path = Ok parsed -> parse_ast t path = Ok parsed.
  Lemma sound_combined ss : ss <> [] -> Forall sound_searcher ss -> sound_searcher (combined ss).
  Proof.
    intros Hne HF. rewrite Forall_forall in HF.
    assert (P : forall t parsed, s_parse (combined ss) t path = Ok parsed -> parse_ast t path = Ok parsed).
    { intros t parsed H. cbn [s_parse combined] in H. apply bind_Ok in H as (r & Hr & H). apply combined_parse_spec in Hr as (ps & F & K & _).
      destruct (K eq_refl Hne) as (p & -> & Hin & _). injection H as <-.
      assert (exists s, In s ss /\ s_parse s t path = Ok p) as (s & Hs & Hp).
      { clear -F Hin. induction F as [|s q ss ps Hq F IH]; [destruct Hin|]. destruct Hin as [->|Hin]; [exists s; split; [now left|exact Hq]|].
        destruct (IH Hin) as (s' & H1 & H2). exists s'. split; [now right|exact H2]. }
      exact (proj2 (HF s Hs) _ _ Hp). }
    split; [|exact P]. intros t parsed subs Hp Hf.
    assert (Hp' : parse_ast t path = Ok parsed) by (destruct Hp; auto). clear Hp.
    cbn [s_find combined] in Hf. apply bind_Ok in Hf as (ls & Hm & Hd). apply disjoint_incl in Hd. apply mapM_Forall2 in Hm.
    assert (X : forall x, In x subs -> exists s l, In s ss /\ s_find s parsed = Ok l /\ In x l).
    { intros x Hx. apply Hd in Hx. apply in_concat in Hx as (l & Hl & Hx). clear -Hm Hl Hx.
      induction Hm as [|s l' ss ls Hs F IH]; [destruct Hl|]. destruct Hl as [->|Hl]; [exists s, l; split; [now left|auto]|].
      destruct (IH Hl) as (s' & l2 & H1 & H2). exists s', l2. split; [now right|exact H2]. }
    assert (J0 : pf_text parsed = t /\ pf_path parsed = path).
    { destruct ss as [|s ss]; [congruence|]. inversion Hm as [|? l ? ? Hs]; subst. destruct (proj1 (HF s (or_introl eq_refl)) t parsed l (or_intror Hp') Hs) as (J1 & J2 & _). auto. }
    split; [apply J0|]. split; [apply J0|]. split; [|split].
    - apply Forall_forall. intros x Hx. destruct (X x Hx) as (s & l & Hs & Hl & Hin).
      destruct (proj1 (HF s Hs) t parsed l (or_intror Hp') Hl) as (_ & _ & J3 & _). rewrite Forall_forall in J3. auto.
    - intros x a b Hx. destruct (X x Hx) as (s & l & Hs & Hl & Hin). destruct (proj1 (HF s Hs) t parsed l (or_intror Hp') Hl) as (_ & _ & _ & J4 & _). eauto.
    - intros x e Hx. destruct (X x Hx) as (s & l & Hs & Hl & Hin). destruct (proj1 (HF s Hs) t parsed l (or_intror Hp') Hl) as (_ & _ & _ & _ & J5). eauto.
  Qed.
  Lemma sound_also also noalso s : sound_searcher s -> sound_searcher (also_regexp also noalso s).
  Proof.
    intros [J P].
    assert (P' : forall t parsed, s_parse (also_regexp also noalso s) t path = Ok parsed -> s_parse s t path = Ok parsed).
    { intros t parsed H. cbn [s_parse also_regexp] in H. destruct (_ || _); [discriminate H|exact H]. }
    split; [|intros t parsed H; apply P, P', H]. intros t parsed subs Hp Hf. apply (J t parsed subs); [|exact Hf]. destruct Hp as [Hp|Hp]; auto.
  Qed.
  Lemma sound_suppressed s : sound_searcher s -> sound_searcher (pragma_suppressed s).
  Proof. intros [J P]. split; [now apply justified_suppressed|exact P]. Qed.
  Lemma sound_built o ss s : Forall sound_searcher ss -> build_searcher o ss = Some s -> sound_searcher s.
  Proof.
    intros HF H. unfold build_searcher in H. destruct ss as [|s0 rest]; [discriminate H|]. injection H as <-.
    assert (S1 : sound_searcher (match rest with [] => s0 | _ => combined (s0 :: rest) end)).
    { destruct rest; [now inversion HF|]. apply sound_combined; [discriminate|exact HF]. }
    generalize dependent (match rest with [] => s0 | _ => combined (s0 :: rest) end). intros s1 S1.
    assert (S2 : sound_searcher (match co_also o, co_noalso o with [], [] => s1 | also, noalso => also_regexp also noalso s1 end)).
    { destruct (co_also o), (co_noalso o); try exact S1; now apply sound_also. }
    generalize dependent (match co_also o, co_noalso o with [], [] => s1 | also, noalso => also_regexp also noalso s1 end). intros s2 S2.
    destruct (co_force_enable o); [exact S2|now apply sound_suppressed].
  Qed.
End Built.
