From Verif Require Import Py PyFacts Ast Template FromDiff Matcher SumMatcher SumSpec.
From Coq Require Import Permutation.

Fixpoint sizes (l : list value) : nat := match l with [] => O | x :: r => (vsize x + sizes r)%nat end.
Lemma sizes_app a b : sizes (a ++ b) = (sizes a + sizes b)%nat.
Proof. induction a as [|x a IH]; [reflexivity|]. cbn [app sizes]. rewrite IH. lia. Qed.
Lemma vsize_node i fs : vsize (VNode i fs) = S (sizes (map snd fs)).
Proof. cbn. f_equal. induction fs as [|kv fs IH]; [reflexivity|]. cbn. now rewrite IH. Qed.
Lemma vsize_list id l : vsize (VList id l) = S (sizes l).
Proof. cbn [vsize]. f_equal. Qed.
Lemma vsize_pos v : (1 <= vsize v)%nat.
Proof. destruct v; cbn; lia. Qed.
Lemma sizes_filter f l : (sizes (filter f l) <= sizes l)%nat.
Proof. induction l as [|x l IH]; [cbn; lia|]. cbn [filter sizes]. destruct (f x); cbn [sizes]; lia. Qed.
Lemma child_sizes v : (S (sizes (child_nodes v)) <= vsize v)%nat.
Proof.
  destruct v as [i fs|id l|id c]; cbn [child_nodes]; [|cbn; lia..]. rewrite vsize_node.
  enough (sizes (flat_map (fun kv : text * value => match snd kv with VNode i f => [VNode i f] | VList _ l => filter is_node l | VConst _ _ => [] end) fs)
          <= sizes (map snd fs))%nat by lia.
  induction fs as [|[f c] fs IH]; [cbn; lia|]. cbn [flat_map map snd]. rewrite sizes_app. cbn [sizes] in *. destruct c as [j g|k l|k c]; cbn [sizes] in *; [lia| |lia].
  pose proof (sizes_filter is_node l). rewrite vsize_list. lia.
Qed.
Lemma child_In i fs c : In c (child_nodes (VNode i fs)) <->
  is_node c = true /\ ((exists f, In (f, c) fs) \/ exists f id l, In (f, VList id l) fs /\ In c l).
Proof.
  cbn [child_nodes]. rewrite in_flat_map. split.
  - intros ([f x] & Hi & H). cbn in H. destruct x as [j g|k l|k y].
    + destruct H as [<-|[] ]. split; [reflexivity|]. left. now exists f.
    + apply filter_In in H as [H1 H2]. split; [assumption|]. right. now exists f, k, l.
    + destruct H.
  - intros [Hn [[f H]|(f & id & l & H1 & H2)] ].
    + exists (f, c). split; [assumption|]. cbn. destruct c; try discriminate Hn. now left.
    + exists (f, VList id l). split; [assumption|]. cbn. apply filter_In. now split.
Qed.
(** Every node is walked over, and nothing else. *)
Lemma walk_In : forall fuel todo, (sizes todo <= fuel)%nat ->
  forall x, In x (walk_from fuel todo) <-> exists t, In t todo /\ node_of t x.
Proof.
  induction fuel as [|fuel IH]; intros todo Hf x.
  - destruct todo as [|t todo]; [|pose proof (vsize_pos t); cbn [sizes] in Hf; lia]. cbn. split; [intros [] | now intros (t & [] & _)].
  - destruct todo as [|t todo]; [cbn; split; [intros [] | now intros (t & [] & _)]|]. cbn [walk_from].
    cbn [sizes] in Hf. pose proof (child_sizes t) as Hc.
    assert (Hf' : (sizes (todo ++ child_nodes t) <= fuel)%nat) by (rewrite sizes_app; lia).
    cbn [In]. rewrite (IH _ Hf' x). split.
    + intros [<-|(u & Hu & Hx)]; [exists t; split; [now left | constructor]|].
      apply in_app_iff in Hu as [Hu|Hu]; [exists u; split; [now right | assumption]|].
      exists t. split; [now left|]. destruct t as [i fs| |]; [|destruct Hu..].
      apply child_In in Hu as [Hn [[f H]|(f & id & l & H1 & H2)] ]; [eapply NO_field | eapply NO_list]; eassumption.
    + intros (u & [<-|Hu] & Hx).
      * inversion Hx as [|i fs f c y H1 H2 H3|i fs f id l c y H1 H2 H3 H4]; subst; [now left| |]; right; exists c.
        -- split; [|assumption]. apply in_app_iff. right. apply child_In. split; [assumption|]. left. now exists f.
        -- split; [|assumption]. apply in_app_iff. right. apply child_In. split; [assumption|]. right. now exists f, id, l.
      * right. exists u. split; [apply in_app_iff; now left | assumption].
Qed.
Lemma collect_In nodes : (exists vs, collect_values nodes = Some vs) <-> Forall part_of_sum nodes.
Proof.
  induction nodes as [|x nodes IH]; [split; [constructor | intros _; now exists []]|]. cbn [collect_values].
  destruct (text_eqb (vtype x) (TX "Constant")) eqn:E1; [|destruct (text_eqb (vtype x) (TX "BinOp") || text_eqb (vtype x) (TX "Add")) eqn:E2].
  - apply text_eqb_eq in E1. split.
    + intros [vs H]. constructor; [left; symmetry; exact E1|]. apply IH. destruct (collect_values nodes) as [ws|]; [now exists ws | discriminate H].
    + intros H. inversion H as [|? ? _ H2]; subst. apply IH in H2 as [vs ->]. eauto.
  - split.
    + intros H. constructor; [|now apply IH]. right. apply Bool.orb_true_iff in E2 as [E|E]; apply text_eqb_eq in E; [left | right; left]; now symmetry.
    + intros H. inversion H; subst. now apply IH.
  - split; [intros [vs H]; discriminate H|]. intros H. exfalso. inversion H as [|? ? Hx _]; subst.
    apply Bool.orb_false_iff in E2 as [E2 E3]. destruct Hx as [Hx|[Hx|[Hx|[] ] ] ].
    + rewrite <- Hx, text_eqb_refl in E1. discriminate E1.
    + rewrite <- Hx, text_eqb_refl in E2. discriminate E2.
    + rewrite <- Hx, text_eqb_refl in E3. discriminate E3.
Qed.

(** Of a sum the integers are collected, in some order. *)
Inductive summand : value -> list Z -> Prop :=
  | SM_sum x ns : sum_of x ns -> summand x ns
  | SM_op j : n_type j = TX "Add" -> summand (VNode j []) [].
Lemma collect_sum : forall fuel todo nss, (sizes todo <= fuel)%nat -> Forall2 summand todo nss ->
  exists vs ms, collect_values (walk_from fuel todo) = Some vs /\ Forall2 int_value vs ms /\ Permutation (concat nss) ms.
Proof.
  induction fuel as [|fuel IH]; intros todo nss Hf H.
  - destruct H as [|t ns todo nss Ht H]; [|pose proof (vsize_pos t); cbn [sizes] in Hf; lia].
    exists [], []. split; [reflexivity|]. split; constructor.
  - destruct H as [|t ns todo nss Ht H]; [exists [], []; split; [reflexivity|]; split; constructor|].
    cbn [sizes] in Hf. pose proof (child_sizes t) as Hc.
    assert (Hf' : (sizes (todo ++ child_nodes t) <= fuel)%nat) by (rewrite sizes_app; lia).
    cbn [walk_from concat]. destruct Ht as [x ns Hx|j Hj].
    + destruct Hx as [i fs x n Hi Hx Hn Hall|i l j r ls rs Hi Hj Hl Hr].
      * assert (child_nodes (VNode i fs) = []) as Hch.
        { destruct (child_nodes (VNode i fs)) as [|c cs] eqn:Ec; [reflexivity|]. exfalso.
          assert (Hc0 : In c (child_nodes (VNode i fs))) by (rewrite Ec; now left).
          apply child_In in Hc0 as [Hn0 [[f H0]|(f & id & l & H1 & H2)] ].
          - destruct (Hall _ _ H0) as (a & b & ->). discriminate Hn0.
          - destruct (Hall _ _ H1) as (a & b & Hab). discriminate Hab. }
        rewrite Hch in *. rewrite app_nil_r in *. destruct (IH _ _ Hf' H) as (vs & ms & Hv & Hm & Hp).
        exists (x :: vs), (n :: ms). split; [|split; [now constructor | now constructor]].
        cbn [collect_values vtype]. rewrite Hi, text_eqb_refl, Hv. cbn [vfield]. now rewrite Hx.
      * assert (H' : Forall2 summand (todo ++ [l; VNode j []; r]) (nss ++ [ls; []; rs])).
        { apply Forall2_app; [assumption|]. constructor; [now apply SM_sum|]. constructor; [now apply SM_op|]. constructor; [now apply SM_sum | constructor]. }
        assert (Hch : child_nodes (VNode i [(TX "left", l); (TX "op", VNode j []); (TX "right", r)]) = [l; VNode j []; r]).
        { destruct Hl, Hr; reflexivity. }
        rewrite Hch in *. destruct (IH _ _ Hf' H') as (vs & ms & Hv & Hm & Hp). exists vs, ms. split; [|split; [assumption|]].
        -- cbn [collect_values vtype]. rewrite Hi, Hv. reflexivity.
        -- rewrite <- Hp, concat_app. cbn [concat app]. rewrite app_nil_r. apply Permutation_app_comm.
    + cbn [child_nodes flat_map] in *. rewrite app_nil_r in *. destruct (IH _ _ Hf' H) as (vs & ms & Hv & Hm & Hp).
      exists vs, ms. split; [|now split]. cbn [collect_values vtype]. rewrite Hj, Hv. reflexivity.
Qed.
Lemma total_perm a b : Permutation a b -> total a = total b.
Proof. unfold total. induction 1; cbn [fold_right] in *; lia. Qed.
Lemma Forall2_len {A B} (R : A -> B -> Prop) a b : Forall2 R a b -> length a = length b.
Proof. induction 1; cbn; congruence. Qed.
