(** Code that reads as a pattern fits it: proofs. *)
From Verif Require Import TemplateProofs Py PyFacts Subst ApplySpec Ast Template FromDiff Matcher MatchSpec MatcherProofs FindSpec FindProofs
  NavSpec NavProofs PatTok PatSpec Pattern PatternSpec EquivProofs PatternProofs PatternApi
  PropsTemplate ExprSubSpec ExprSubProofs PyCode BuiltinSpec CodeProofs BuiltinProofs BuiltinApply ThoroughSpec.

Definition is_context {A} (t : tree A) : bool := match t with TContext => true | _ => false end.
(** The context of this node counts. *)
Definition exposed {A} (t : tree A) : bool :=
  match t with TNode ty fs => negb (text_eqb ty (TX "Name")) && existsb (fun kv => is_context (snd kv)) fs | _ => false end.
Fixpoint exposed_ok {A} (t : tree A) : bool :=
  match t with
  | TVar _ | TConst _ | TContext => true
  | TList l => forallb (fun t => match t with TList _ | TContext => false | _ => true end) l && forallb exposed_ok l
  | TNode ty fs =>
      forallb (fun kv => match snd kv with
                         | TNode _ _ as t => negb (exposed t) || pmem (ty, fst kv) evaluated_fields
                         | TList l => negb (existsb exposed l) || pmem (ty, fst kv) evaluated_lists
                         | _ => true
                         end) fs
      && forallb (fun kv => exposed_ok (snd kv)) fs
  end.

Section Fits.
  Variables (e : env) (holes : text -> option hole).
  Hypothesis Hh : forall n h, holes n = Some h -> gensym n = true.
  Variable R : label -> value -> Prop.
  Variables root_p root_c : value.
  Hypothesis Ep : evaluated_exprs root_p.
  Hypothesis Ec : evaluated_exprs root_c.
  Definition here (c : value) (xm : label * pymatch) : Prop := exists w, R (fst xm) w /\ PatternSpec.inside c w /\ snd xm = create_match (e_parsed e) w.
  Lemma child_inside root v w : PatternSpec.inside root v -> In w (vchildren v) -> PatternSpec.inside root w.
  Proof. apply inside_child. Qed.
  Lemma inside_through c v w : In v (vchildren c) -> PatternSpec.inside v w -> PatternSpec.inside c w.
  Proof. intros Hv (q & Hq). apply In_nth_error in Hv as (k & Hk). exists (k :: q). cbn [at_path]. now rewrite Hk. Qed.
  Lemma here_through c v xm : In v (vchildren c) -> here v xm -> here c xm.
  Proof. intros Hv (w & A & B & C). exists w. split; [exact A|]. split; [eapply inside_through; eassumption|exact C]. Qed.

  Lemma stands_fits : forall t p c, plain_tree t = true -> exposed_ok t = true -> t <> TContext ->
    stands (at_hole holes) t p -> stands R t c -> PatternSpec.inside root_p p -> PatternSpec.inside root_c c ->
    (exposed t = true -> evaluated p /\ evaluated c) ->
    (forall l, t = TList l -> existsb exposed l = true -> (forall w, In w (vchildren p) -> evaluated w) /\ (forall w, In w (vchildren c) -> evaluated w)) ->
    exists occ, fits e holes p c occ /\ map fst occ = tvars t /\ Forall (here c) occ.
  Proof.
    induction t as [a|k| |l IH|ty fs IH] using tree_ind'; intros p c Hp Hx Nc Sp Sc Ip Ic H1 H2.
    - inversion Sp as [? ? (n & Hn & Eh)| | | |]; subst. inversion Sc; subst. exists [(a, create_match (e_parsed e) c)]. split; [|split; [reflexivity|]].
      + eapply F_named; [exact Hn|exact Eh|]. intros s. reflexivity.
      + constructor; [|constructor]. exists c. split; [assumption|]. split; [apply inside_refl|reflexivity].
    - inversion Sp; subst. inversion Sc; subst. exists []. split; [|split; [reflexivity|constructor]]. constructor. eapply const_eqb_trans; [|eassumption].
      now apply const_eqb_sym.
    - congruence.
    - cbn [plain_tree] in Hp. cbn [exposed_ok] in Hx. apply andb_prop in Hx as [Hx0 Hx].
      inversion Sp as [| | |? id ps Kp|]; subst. inversion Sc as [| | |? id' cs Kc|]; subst.
      specialize (H2 l eq_refl). cbn [vchildren] in H2.
      assert (Jp : forall w, In w ps -> PatternSpec.inside root_p w) by (intros; eapply child_inside; [exact Ip|assumption]).
      assert (Jc : forall w, In w cs -> PatternSpec.inside root_c w) by (intros; eapply child_inside; [exact Ic|assumption]).
      assert (Q : exists occ, fits_items e holes ps cs occ /\ map fst occ = flat_map tvars l /\ Forall (fun xm => exists v, In v cs /\ here v xm) occ).
      { clear Sp Sc Ip Ic H1 Nc. revert ps Kp H2 Jp. induction Kc as [|x y l cs S Kc IHK]; intros ps Kp H2 Jp; inversion Kp as [|? z ? ps' S' Kp']; subst.
        - exists []. split; [constructor|]. split; [reflexivity|constructor].
        - inversion IH as [|? ? Hx1 Hl]; subst. cbn [forallb existsb] in *. apply andb_prop in Hp as [Hp1 Hp2]. apply andb_prop in Hx as [Hx2 Hx3]. apply andb_prop in Hx0 as [Hx4 Hx5].
          destruct (Hx1 z y Hp1 Hx2) as (o & F1 & F2 & F3); auto.
          + intros ->. discriminate Hx4.
          + apply Jp. now left.
          + apply Jc. now left.
          + intros Ex. destruct H2 as [A B]; [now rewrite Ex|]. split; [apply A|apply B]; now left.
          + intros l0 ->. discriminate Hx4.
          + destruct (IHK Hl Hp2 Hx5 Hx3 (fun w Hw => Jc w (or_intror Hw)) ps' Kp') as (os & G1 & G2 & G3).
            * intros Ex. destruct H2 as [A B]; [rewrite Ex; apply orb_true_r|]. split; intros w Hw; [apply A|apply B]; now right.
            * intros w Hw. apply Jp. now right.
            * exists (o ++ os). split; [now constructor|]. split; [cbn [flat_map]; now rewrite map_app, F2, G2|]. apply Forall_app. split.
              -- eapply Forall_impl; [|exact F3]. intros xm K. exists y. split; [now left|exact K].
              -- eapply Forall_impl; [|exact G3]. intros xm (v & K1 & K2). exists v. split; [now right|exact K2]. }
      destruct Q as (occ & Q1 & Q2 & Q3). exists occ. split; [now constructor|]. split; [exact Q2|]. eapply Forall_impl; [|exact Q3]. intros xm (v & K1 & K2). eapply here_through; [|exact K2]. exact K1.
    - pose proof (fun n => node_is_no_hole holes Hh (at_hole holes) ty fs p n Hp Sp) as Nn.
      cbn [plain_tree] in Hp. apply andb_prop in Hp as [Hp Hp3]. apply andb_prop in Hp as [Hp1 Hp2].
      cbn [exposed_ok] in Hx. apply andb_prop in Hx as [Hx1 Hx2].
      inversion Sp as [| | | |? ? i ps Ei Kp]; subst. inversion Sc as [| | | |? ? j cs Ej Kc]; subst.
      assert (Jp : forall f v, In (f, v) ps -> PatternSpec.inside root_p v /\ (In (n_type i, f) evaluated_fields -> evaluated v)
         /\ (In (n_type i, f) evaluated_lists -> forall w, In w (vchildren v) -> evaluated w)).
      { intros f v Hf. split; [eapply child_inside; [exact Ip|cbn; now apply (in_map snd) in Hf]|]. now apply (Ep i ps). }
      assert (Jc : forall f v, In (f, v) cs -> PatternSpec.inside root_c v /\ (In (n_type i, f) evaluated_fields -> evaluated v)
         /\ (In (n_type i, f) evaluated_lists -> forall w, In w (vchildren v) -> evaluated w)).
      { intros f v Hf. split; [eapply child_inside; [exact Ic|cbn; now apply (in_map snd) in Hf]|]. rewrite <- Ej. now apply (Ec j cs). }
      assert (Lx : forall v w, In (TX "ctx", TContext) fs -> n_type i <> TX "Name" -> In (TX "ctx", v) ps -> In (TX "ctx", w) cs -> vtype v = TX "Load" /\ vtype w = TX "Load").
      { intros v w Hf Hn Hv Hw. destruct H1 as [A B].
        - cbn [exposed]. rewrite (proj2 (text_eqb_neq _ _) Hn). cbn [negb andb]. apply existsb_exists. exists (TX "ctx", TContext). auto.
        - split; [eapply A|eapply B]; eauto. }
      assert (Q : exists occ, fits_fields e holes (n_type i) ps cs occ /\ map fst occ = flat_map (fun kv => tvars (snd kv)) fs
                /\ Forall (fun xm => exists v, In v (map snd cs) /\ here v xm) occ).
      { clear Sp Sc Ip Ic H1 H2 Nc Nn Ej Hp1. revert Jp Jc Hx1 Lx. generalize (n_type i). intros ty Jp Jc Hx1 Lx. clear i j.
        revert ps Kp Jp Lx. induction Kc as [|[f x] [g y] l cs [Eg S] Kc IHK]; intros ps Kp Jp Lx; inversion Kp as [|? [g' z] ? ps' [Eg' S'] Kp']; subst; cbn [fst snd] in *.
        - exists []. split; [constructor|]. split; [reflexivity|constructor].
        - subst g g'. inversion IH as [|? ? Hy Hl]; subst. cbn [forallb fst snd] in *.
          apply andb_prop in Hp2 as [Hp2 Hp2']. apply andb_prop in Hp3 as [Hp3 Hp3']. apply andb_prop in Hx1 as [Hx1 Hx1']. apply andb_prop in Hx2 as [Hx2 Hx2'].
          destruct (IHK Hl Hp2' Hp3' Hx2' (fun f v Hf => Jc f v (or_intror Hf)) Hx1' ps' Kp' (fun f v Hf => Jp f v (or_intror Hf))) as (os & G1 & G2 & G3).
          { intros v w Hf Hn Hv Hw. apply Lx; auto; now right. }
          destruct (Jp f z (or_introl eq_refl)) as (P1 & P2 & P3). destruct (Jc f y (or_introl eq_refl)) as (C1 & C2 & C3).
          assert (D : name_context ty f \/ ~ name_context ty f).
          { unfold name_context. destruct (text_eqb_spec ty (TX "Name")), (text_eqb_spec f (TX "ctx")); tauto. }
          assert (G3' : Forall (fun xm => exists v, In v (map snd ((f, y) :: cs)) /\ here v xm) os).
          { eapply Forall_impl; [|exact G3]. intros xm (v & K1 & K2). exists v. split; [now right|exact K2]. }
          destruct D as [D|D].
          { assert (x = TContext) as -> by (destruct D as [_ ->]; destruct x; try discriminate Hp2; reflexivity).
            exists os. split; [now apply FF_context|]. split; [exact G2|exact G3']. }
          assert (Q : exists o, fits e holes z y o /\ map fst o = tvars x /\ Forall (here y) o).
          { assert (x = TContext \/ x <> TContext) as [->|Nx] by (destruct x; (now left) || (right; discriminate)).
            - apply text_eqb_eq in Hp2. subst f. inversion S' as [| |k Hk| |]; subst. inversion S as [| |k' Hk'| |]; subst.
              destruct (Lx (VNode k []) (VNode k' [])) as [L1 L2]; [now left|intros ->; apply D; split; reflexivity|now left|now left|].
              exists []. split; [|split; [reflexivity|constructor]]. apply F_node.
              + intros n Hn. now apply no_name_alone in Hn.
              + cbn [vtype] in L1, L2. congruence.
              + constructor.
            - apply Hy; auto.
              + intros Ex. destruct x; try discriminate Ex. rewrite Ex in Hx1. apply pmem_In in Hx1. auto.
              + intros l0 -> El. rewrite El in Hx1. apply pmem_In in Hx1. auto. }
          destruct Q as (o & F1 & F2 & F3). exists (o ++ os). split; [now apply FF_cons|]. split; [cbn [flat_map snd]; now rewrite map_app, F2, G2|].
          apply Forall_app. split; [|exact G3']. eapply Forall_impl; [|exact F3]. intros xm K. exists y. split; [now left|exact K]. }
      destruct Q as (occ & Q1 & Q2 & Q3). exists occ. split; [apply F_node; [exact Nn|congruence|exact Q1]|]. split; [exact Q2|].
      eapply Forall_impl; [|exact Q3]. intros xm (v & K1 & K2). eapply here_through; [|exact K2]. exact K1.
  Qed.
End Fits.

Lemma stands_unmap {A B} (R : B -> value -> Prop) (f : A -> B) : forall t v, stands R (tmap f t) v -> stands (fun x w => R (f x) w) t v.
Proof.
  induction t as [a|c| |l IH|ty fs IH] using tree_ind'; intros v S; inversion S as [? ? K|? ? ? K|? K|? ? m K|? ? i gs E K]; subst.
  - now apply ST_var.
  - now apply ST_const.
  - now apply ST_context.
  - apply ST_list. clear S. revert m K. induction l as [|x l IHl]; intros m K; inversion K; subst; constructor; inversion IH; subst; auto.
  - apply ST_node; [reflexivity|]. clear S. revert gs K. induction fs as [|[x t] fs IHf]; intros gs K; inversion K as [|? ? ? ? [E1 E2]]; subst; constructor; inversion IH; subst; auto.
Qed.
Lemma alike_distinct occ : NoDup (map fst occ) -> alike occ.
Proof.
  unfold alike. induction occ as [|[x m] occ IH]; intros N; constructor; inversion N as [|? ? N1 N2]; subst.
  - apply Forall_forall. intros [y m'] Hin E. cbn [fst] in *. subst y. exfalso. apply N1. now apply (in_map fst) in Hin.
  - auto.
Qed.
