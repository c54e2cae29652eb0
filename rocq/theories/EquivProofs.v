(** What [ast_equivalent] decides. *)
From Verif Require Import Py PyFacts Ast Template Matcher MatchSpec FindSpec MergeProofs FindProofs PatternSpec.
From Coq Require Import Lia.

Lemma inside_refl r : inside r r.
Proof. exists []. reflexivity. Qed.
Lemma inside_child r v x : inside r v -> In x (vchildren v) -> inside r x.
Proof.
  intros (p & Hp) Hx. apply In_nth_error in Hx as (k & Hk). exists (p ++ [k]).
  rewrite at_path_app, Hp. cbn. now rewrite Hk.
Qed.

Lemma const_eqb_refl c : const_eqb c c = true.
Proof. destruct c; cbn; auto; try apply Z.eqb_refl; destruct (text_eqb_spec s s); auto. Qed.
Lemma const_eqb_sym c d : const_eqb c d = true -> const_eqb d c = true.
Proof.
  destruct c, d; cbn; auto; try discriminate; intros H.
  - now apply Z.eqb_eq in H as ->; apply Z.eqb_refl.
  - destruct (text_eqb_spec s s0) as [->|]; [|discriminate]. destruct (text_eqb_spec s0 s0); auto.
  - destruct (text_eqb_spec s s0) as [->|]; [|discriminate]. destruct (text_eqb_spec s0 s0); auto.
Qed.
Lemma const_eqb_trans c d k : const_eqb c d = true -> const_eqb d k = true -> const_eqb c k = true.
Proof.
  destruct c, d, k; cbn; auto; try discriminate; intros H H'.
  - apply Z.eqb_eq in H, H'. apply Z.eqb_eq. congruence.
  - destruct (text_eqb_spec s s0) as [->|]; [|discriminate]. assumption.
  - destruct (text_eqb_spec s s0) as [->|]; [|discriminate]. assumption.
Qed.

Lemma Forall2_map_fst {A} (R : A -> A -> Prop) (fs gs : list (text * A)) :
  map fst fs = map fst gs -> Forall2 R (map snd fs) (map snd gs) ->
  Forall2 (fun kv kw => fst kv = fst kw /\ R (snd kv) (snd kw)) fs gs.
Proof.
  revert gs. induction fs as [|[k v] fs IH]; intros [|[k' v'] gs] E H; cbn in *; try discriminate; [constructor|].
  inversion H; subst. injection E as -> E. constructor; auto.
Qed.

(** The fields of the other node, in order. *)
Lemma fields_of_same {V} (fs : list (text * V)) j (gs : list (text * value)) :
  map fst fs = map fst gs -> NoDup (map fst gs) ->
  map (fun kv => vfield (VNode j gs) (fst kv)) fs = map snd gs.
Proof.
  intros E N. replace (map (fun kv => vfield (VNode j gs) (fst kv)) fs)
    with (map (vfield (VNode j gs)) (map fst fs)) by apply map_map.
  rewrite E. clear E fs.
  assert (H : forall pre, NoDup (map fst (pre ++ gs)) ->
    map (vfield (VNode j (pre ++ gs))) (map fst gs) = map snd gs).
  { clear N. induction gs as [|[k v] gs IH]; intros pre N; [reflexivity|]. cbn [map fst snd]. f_equal.
    - cbn [vfield]. rewrite dget_app.
      assert (Hn : dget pre k = None).
      { apply dget_None. intros Hin. rewrite map_app in N. apply NoDup_remove_2 in N. apply N.
        rewrite in_app_iff. now left. }
      rewrite Hn. cbn. now destruct (text_eqb_spec k k).
    - specialize (IH (pre ++ [(k, v)])). rewrite <- app_assoc in IH. now apply IH. }
  apply (H []). exact N.
Qed.

Section Equiv.
  Variable G : grammar.
  Variable D : text -> text -> option text.
  Hypothesis HG : proper G.
  Hypothesis HC : context_grammar G D.
  Variable root : value.
  Hypothesis Hco : coherent root.

  Definition fine (v : value) : Prop := inside root v /\ conforms G v /\ regular D v.
  Notation same := same_code_by_id.

  Lemma list_py_eq id l id' m : Forall (fun x => inside root x /\ is_list x = false) l ->
    Forall (fun x => inside root x /\ is_list x = false) m ->
    (py_eq (VList id l) (VList id' m) = true <-> same (VList id l) (VList id' m)).
  Proof.
    intros Hl Hm. split.
    - intros H. apply SI_list. revert m Hm H. induction l as [|x l IH]; intros [|y m] Hm H; try discriminate H; constructor.
      + inversion Hl as [|? ? [Hx Lx] ?]; inversion Hm as [|? ? [Hy Ly] ?]; subst.
        cbn in H. apply andb_prop in H as [H _]. apply orb_prop in H as [H|H].
        * left. apply Hco; auto. now apply Z.eqb_eq.
        * destruct x as [i fs| |a c], y as [j gs| |b d]; try discriminate; cbn in H.
          -- left. apply Hco; auto. now apply Z.eqb_eq.
          -- right. exists a, c, b, d. auto.
      + inversion Hl; inversion Hm; subst. apply IH; auto. cbn in H. now apply andb_prop in H as [_ H].
    - intros H. inversion H as [? ? C1| | ? ? ? ? F |]; subst; [discriminate C1|]. clear H Hl Hm.
      cbn. induction F as [|x y l m Hxy F IH]; [reflexivity|]. apply andb_true_intro. split; [|exact IH].
      destruct Hxy as [->|(a & c & b & d & -> & -> & E)]; [now rewrite Z.eqb_refl|]. cbn. rewrite E. apply orb_true_r.
  Qed.

  Lemma fine_items id l : fine (VList id l) -> Forall (fun x => inside root x /\ is_list x = false) l.
  Proof.
    intros (Hi & Hc & _). apply Forall_forall. intros x Hx. split; [apply (inside_child root (VList id l)); auto|].
    inversion Hc as [|? ? F|]; subst. rewrite Forall_forall in F. now apply F.
  Qed.
  Lemma fine_keys i fs : conforms G (VNode i fs) -> map fst fs = map fst (G (n_type i)).
  Proof. intros H. inversion H as [| |? ? _ E _]; subst. rewrite <- E, map_map. now apply map_ext. Qed.

  (** One comparison of things that are no two nodes. *)
  Lemma step_other fuel x y rest :
    fine x -> fine y -> is_node x && is_node y = false ->
    (same x y /\ equiv_loop (S fuel) ((x, y) :: rest) = equiv_loop fuel rest)
    \/ (~ same x y /\ equiv_loop (S fuel) ((x, y) :: rest) = Ok false).
  Proof.
    intros Fx Fy N. cbn [equiv_loop].
    destruct x as [i fs|i l|i c]; destruct y as [j gs|j m|j d]; try discriminate N.
    - right. split; [|reflexivity]. intros H. inversion H; discriminate.
    - right. split; [|reflexivity]. intros H. inversion H; discriminate.
    - right. split; [|reflexivity]. intros H. inversion H; discriminate.
    - pose proof (list_py_eq i l j m (fine_items _ _ Fx) (fine_items _ _ Fy)) as E.
      destruct (py_eq (VList i l) (VList j m)); [left|right]; (split; [|reflexivity]); [now apply E|].
      intros H. apply E in H. discriminate H.
    - right. split; [|reflexivity]. intros H. inversion H; discriminate.
    - right. split; [|reflexivity]. intros H. inversion H; discriminate.
    - right. split; [|reflexivity]. intros H. inversion H; discriminate.
    - cbn [py_eq]. destruct (const_eqb c d) eqn:E; [left|right]; (split; [|reflexivity]); [now apply SI_const|].
      intros H. inversion H; subst; [discriminate|congruence].
  Qed.

  Lemma is_ctx_type i fs j gs : n_type i = n_type j -> is_ctx (VNode i fs) = is_ctx (VNode j gs).
  Proof. intros H. unfold is_ctx, isinst. now rewrite H. Qed.

  Lemma same_nodes i fs j gs :
    conforms G (VNode i fs) -> conforms G (VNode j gs) -> is_ctx (VNode i fs) && is_ctx (VNode j gs) = false ->
    (same (VNode i fs) (VNode j gs) <-> n_type i = n_type j /\ Forall2 same (map snd fs) (map snd gs)).
  Proof.
    intros Ci Cj N. split.
    - intros H. inversion H as [? ? C1 C2| | |? ? ? ? E F]; subst; [now rewrite C1, C2 in N|].
      split; [exact E|]. clear - F. induction F as [|a b fs gs [_ H] F IH]; constructor; auto.
    - intros [E F]. apply SI_node; [exact E|]. apply Forall2_map_fst; [|exact F].
      rewrite (fine_keys _ _ Ci), (fine_keys _ _ Cj). now rewrite E.
  Qed.

  (** A whole list of pairs. *)
  Definition decided (pairs rest : list (value * value)) (fuel : nat) : Prop :=
    (Forall (fun p => same (fst p) (snd p)) pairs
     /\ exists fuel', (stack_size rest <= fuel')%nat /\ equiv_loop fuel (pairs ++ rest) = equiv_loop fuel' rest)
    \/ (~ Forall (fun p => same (fst p) (snd p)) pairs /\ equiv_loop fuel (pairs ++ rest) = Ok false).
  (** [x] and [y] have the same context, if they are of the same class. *)
  Definition agree (x y : value) : Prop :=
    forall i fs j gs, x = VNode i fs -> y = VNode j gs -> n_type i = n_type j -> context_of x = context_of y.

  Lemma decided_cons x y pairs rest fuel :
    (forall fuel rest, (vsize x + stack_size rest <= fuel)%nat -> decided [(x, y)] rest fuel) ->
    (forall fuel, (stack_size (pairs ++ rest) <= fuel)%nat -> decided pairs rest fuel) ->
    (vsize x + stack_size (pairs ++ rest) <= fuel)%nat -> decided ((x, y) :: pairs) rest fuel.
  Proof.
    intros H1 H2 Hf. destruct (H1 fuel (pairs ++ rest) Hf) as [[S1 (f1 & L1 & E1)]|[N1 E1]].
    - cbn [app] in E1. destruct (H2 f1 L1) as [[S2 (f2 & L2 & E2)]|[N2 E2]].
      + left. split; [constructor; [now inversion S1|exact S2]|]. exists f2. split; [exact L2|]. cbn [app]. now rewrite E1.
      + right. split; [intros H; inversion H; auto|]. cbn [app]. now rewrite E1.
    - right. split; [intros H; inversion H; subst; apply N1; constructor; auto|]. exact E1.
  Qed.

  Lemma node_pairs i fs j gs :
    conforms G (VNode i fs) -> conforms G (VNode j gs) -> n_type i = n_type j ->
    map (fun kv => (snd kv, vfield (VNode j gs) (fst kv))) fs = combine (map snd fs) (map snd gs).
  Proof.
    intros Ci Cj E.
    assert (K : map fst fs = map fst gs) by (rewrite (fine_keys _ _ Ci), (fine_keys _ _ Cj); now rewrite E).
    rewrite <- (fields_of_same fs j gs K).
    - clear. generalize (vfield (VNode j gs)). intros f. induction fs as [|kv fs IH]; [reflexivity|]. cbn. now f_equal.
    - rewrite (fine_keys _ _ Cj). apply HG.
  Qed.

  (** *** Things with the same context *)

  Definition slot_ok (ty : text) (k : option text) (kv : text * value) : Prop :=
    (fst kv = TX "ctx" /\ is_ctx (snd kv) = true /\ vchildren (snd kv) = [])
    \/ (fst kv <> TX "ctx" /\ is_ctx (snd kv) = false /\ regular D (snd kv)
        /\ (context_of (snd kv) = None
            \/ context_of (snd kv) = match D ty (fst kv) with Some k' => Some k' | None => k end)).
  Lemma regular_slots i fs : regular D (VNode i fs) -> Forall (slot_ok (n_type i) (context_of (VNode i fs))) fs.
  Proof. intros H. inversion H; subst. assumption. Qed.


  Lemma context_keys i fs : conforms G (VNode i fs) ->
    (context_of (VNode i fs) = None <-> ~ In (TX "ctx") (map fst (G (n_type i)))).
  Proof.
    intros Hc. unfold context_of. cbn [has_field]. rewrite <- (fine_keys _ _ Hc).
    destruct (dmem fs (TX "ctx")) eqn:E; split; try discriminate; intros H; try reflexivity.
    - exfalso. apply H. apply dmem_keys. exact E.
    - intros H'. apply dmem_keys in H'. congruence.
  Qed.
  Lemma agree_slots k0 x y : conforms G x -> conforms G y ->
    (context_of x = None \/ context_of x = k0) -> (context_of y = None \/ context_of y = k0) -> agree x y.
  Proof.
    intros Cx Cy Hx Hy i fs j gs -> -> E.
    pose proof (context_keys _ _ Cx) as Kx. pose proof (context_keys _ _ Cy) as Ky. rewrite E in Kx.
    destruct Hx as [Hx|Hx].
    - rewrite Hx. symmetry. apply Ky. now apply Kx.
    - destruct Hy as [Hy|Hy]; [|congruence]. rewrite Hy. apply Kx. now apply Ky.
  Qed.

  Lemma context_type i fs x : context_of (VNode i fs) = Some x -> NoDup (map fst fs) ->
    forall kv, In kv fs -> fst kv = TX "ctx" -> vtype (snd kv) = x.
  Proof.
    unfold context_of. cbn [has_field vfield]. intros H N [f v] Hin E. cbn in E. subst f.
    assert (Hd : dget fs (TX "ctx") = Some v) by (apply In_dget; assumption).
    rewrite Hd in H. destruct (dmem fs (TX "ctx")); [|discriminate H]. now injection H as <-.
  Qed.

  (** Two contexts of the same kind. *)
  Lemma decided_ctx x y rest fuel : is_ctx x = true -> is_ctx y = true -> vchildren x = [] -> vtype x = vtype y ->
    (vsize x + stack_size rest <= fuel)%nat -> decided [(x, y)] rest fuel.
  Proof.
    intros Hx Hy Cx E Hf. destruct x as [i fs| |]; try discriminate Hx. destruct y as [j gs| |]; try discriminate Hy.
    cbn in Cx. apply map_eq_nil in Cx as ->. cbn in E. left. split; [constructor; [now apply SI_context|constructor]|].
    destruct fuel as [|fuel]; [cbn in Hf; lia|]. exists fuel. split; [cbn in Hf; lia|].
    cbn [app equiv_loop]. rewrite E. destruct (text_eqb_spec (n_type j) (n_type j)); [reflexivity|congruence].
  Qed.

  Lemma fields_decided ty k fs gs rest :
    Forall (fun kv => forall y, fine (snd kv) -> fine y -> is_ctx (snd kv) = false -> is_ctx y = false ->
              agree (snd kv) y -> forall fuel rest, (vsize (snd kv) + stack_size rest <= fuel)%nat ->
              decided [(snd kv, y)] rest fuel) fs ->
    map fst fs = map fst gs ->
    Forall (fun kv => inside root (snd kv) /\ conforms G (snd kv)) fs ->
    Forall (fun kv => inside root (snd kv) /\ conforms G (snd kv)) gs ->
    Forall (slot_ok ty k) fs -> Forall (slot_ok ty k) gs ->
    Forall (fun kv => fst kv = TX "ctx" -> Some (vtype (snd kv)) = k) fs ->
    Forall (fun kv => fst kv = TX "ctx" -> Some (vtype (snd kv)) = k) gs ->
    forall fuel, (stack_size (combine (map snd fs) (map snd gs) ++ rest) <= fuel)%nat ->
    decided (combine (map snd fs) (map snd gs)) rest fuel.
  Proof.
    revert gs. induction fs as [|[f x] fs IH]; intros [|[g y] gs] HP E If Ig Sf Sg Kf Kg fuel Hf; try discriminate E.
    - left. split; [constructor|]. exists fuel. split; [exact Hf|reflexivity].
    - cbn [map fst snd combine] in *. injection E as -> E.
      inversion HP as [|? ? P1 P2]; inversion If as [|? ? [I1 C1] I2]; inversion Ig as [|? ? [J1 D1] J2];
      inversion Sf as [|? ? S1 S2]; inversion Sg as [|? ? T1 T2]; inversion Kf as [|? ? A1 A2];
      inversion Kg as [|? ? B1 B2]; subst. cbn [fst snd] in *.
      apply decided_cons; [|intros fuel' Hf'; now apply IH|exact Hf].
      intros fuel' rest' Hf'.
      destruct S1 as [(F1 & X1 & V1)|(F1 & X1 & R1 & Q1)]; destruct T1 as [(F2 & Y1 & V2)|(F2 & Y1 & R2 & Q2)];
        cbn [fst snd] in *; try contradiction.
      + apply decided_ctx; auto. specialize (A1 F1). specialize (B1 F1). congruence.
      + apply P1; auto; [split; auto|split; auto|]. eapply agree_slots; eauto.
  Qed.

  Lemma fine_fields i fs : fine (VNode i fs) -> Forall (fun kv => inside root (snd kv) /\ conforms G (snd kv)) fs.
  Proof.
    intros (Hi & Hc & _). apply Forall_forall. intros kv Hk. split.
    - apply (inside_child root (VNode i fs)); auto. cbn. now apply in_map.
    - inversion Hc as [| |? ? _ _ F]; subst. rewrite Forall_forall in F. now apply F.
  Qed.
  Lemma ctx_fields i fs : conforms G (VNode i fs) ->
    Forall (fun kv => fst kv = TX "ctx" -> Some (vtype (snd kv)) = context_of (VNode i fs)) fs.
  Proof.
    intros Hc. apply Forall_forall. intros kv Hk E.
    assert (N : NoDup (map fst fs)) by (rewrite (fine_keys _ _ Hc); apply HG).
    destruct (context_of (VNode i fs)) as [x|] eqn:Ex.
    - f_equal. now apply (context_type i fs x Ex N kv).
    - exfalso. apply (context_keys _ _ Hc) in Ex. apply Ex. rewrite <- (fine_keys _ _ Hc), <- E. now apply in_map.
  Qed.

  Lemma agreeing_decided : forall x y, fine x -> fine y -> is_ctx x = false -> is_ctx y = false -> agree x y ->
    forall fuel rest, (vsize x + stack_size rest <= fuel)%nat -> decided [(x, y)] rest fuel.
  Proof.
    induction x as [i fs IH|i l _|i c] using value_ind'; intros y Fx Fy Nx Ny A fuel rest Hf.
    2-3: (destruct fuel as [|fuel]; [match type of Hf with (vsize ?v + _ <= _)%nat => pose proof (vsize_pos v) end; lia|];
      match goal with |- decided [(?a, ?b)] _ _ => destruct (step_other fuel a b rest Fx Fy eq_refl) as [[S E]|[N E]] end;
      [left; split; [constructor; [exact S|constructor]|]; exists fuel; split; [|exact E];
       match type of Hf with (vsize ?v + _ <= _)%nat => pose proof (vsize_pos v) end; lia
      |right; split; [intros H; inversion H; auto|exact E]]).
    destruct fuel as [|fuel]; [cbn in Hf; lia|]. rewrite vsize_node in Hf.
    destruct y as [j gs| |].
    2-3: (match goal with |- decided [(?a, ?b)] _ _ => destruct (step_other fuel a b rest Fx Fy eq_refl) as [[S E]|[N E]] end;
      [left; split; [constructor; [exact S|constructor]|]; exists fuel; split; [lia|exact E]
      |right; split; [intros H; inversion H; auto|exact E]]).
    unfold decided. cbn [app equiv_loop].
    destruct (text_eqb_spec (n_type i) (n_type j)) as [E|E]; cbn [negb].
    - pose proof Fx as (_ & Cx & Rx). pose proof Fy as (_ & Cy & Ry).
      rewrite (node_pairs i fs j gs Cx Cy E).
      assert (Ec : context_of (VNode i fs) = context_of (VNode j gs)) by (eapply A; eauto).
      assert (K : map fst fs = map fst gs) by (rewrite (fine_keys _ _ Cx), (fine_keys _ _ Cy); now rewrite E).
      destruct (fields_decided (n_type i) (context_of (VNode i fs)) fs gs rest) with (fuel := fuel)
        as [[S (f' & L & Eq)]|[N Eq]]; auto.
      + now apply (fine_fields i).
      + now apply (fine_fields j).
      + now apply regular_slots.
      + rewrite Ec, E. now apply regular_slots.
      + now apply ctx_fields.
      + rewrite Ec. now apply ctx_fields.
      + rewrite stack_size_app. rewrite <- (node_pairs i fs j gs Cx Cy E), stack_size_fields. lia.
      + left. split; [|exists f'; auto]. constructor; [|constructor]. cbn [fst snd]. apply same_nodes; auto.
        * now rewrite Nx.
        * split; [exact E|]. revert S K. clear. revert gs. induction fs as [|a fs IH]; intros [|b gs] S K; try discriminate K; [constructor|].
          cbn in *. injection K as _ K. inversion S; subst. constructor; auto.
      + right. split; [|exact Eq]. intros H. inversion H as [|? ? H1 _]; subst. apply N. cbn [fst snd] in H1.
        apply same_nodes in H1 as [_ H1]; auto; [|now rewrite Nx].
        revert H1. clear. generalize (map snd gs). induction (map snd fs) as [|a l IH]; intros m H; inversion H; subst; cbn; [constructor|].
        constructor; auto.
    - rewrite Nx. cbn. right. split; [|reflexivity]. intros H. inversion H as [|? ? H1 _]; subst. cbn in H1.
      inversion H1; subst; congruence.
  Qed.

  (** *** Things whose context may be different *)

  Definition contexts (p : value * value) : Prop :=
    is_ctx (fst p) = true /\ is_ctx (snd p) = true /\ vchildren (fst p) = [].
  Lemma contexts_same rest : Forall contexts rest -> forall fuel, (stack_size rest <= fuel)%nat -> equiv_loop fuel rest = Ok true.
  Proof.
    induction 1 as [|[x y] rest (Hx & Hy & Cx) F IH]; intros fuel Hf; [now destruct fuel|].
    cbn [fst snd] in *. destruct x as [i fs| |]; try discriminate Hx. destruct y as [j gs| |]; try discriminate Hy.
    cbn in Cx. apply map_eq_nil in Cx as ->. destruct fuel as [|fuel]; [cbn in Hf; lia|]. cbn [equiv_loop].
    destruct (text_eqb (n_type i) (n_type j)); cbn [negb].
    - apply IH. cbn in Hf. lia.
    - now rewrite Hx, Hy.
  Qed.
  Definition settled (pairs rest : list (value * value)) (fuel : nat) : Prop :=
    (Forall (fun p => same (fst p) (snd p)) pairs /\ equiv_loop fuel (pairs ++ rest) = Ok true)
    \/ (~ Forall (fun p => same (fst p) (snd p)) pairs /\ equiv_loop fuel (pairs ++ rest) = Ok false).

  Lemma fields_settled ty k k' fs gs rest :
    Forall (fun kv => forall y, fine (snd kv) -> fine y -> is_ctx (snd kv) = false -> is_ctx y = false ->
              forall fuel rest, Forall contexts rest -> (vsize (snd kv) + stack_size rest <= fuel)%nat ->
              settled [(snd kv, y)] rest fuel) fs ->
    (exists pre, map fst (G ty) = pre ++ map fst fs) -> map fst fs = map fst gs ->
    Forall (fun kv => inside root (snd kv) /\ conforms G (snd kv)) fs ->
    Forall (fun kv => inside root (snd kv) /\ conforms G (snd kv)) gs ->
    Forall (slot_ok ty k) fs -> Forall (slot_ok ty k') gs -> Forall contexts rest ->
    forall fuel, (stack_size (combine (map snd fs) (map snd gs) ++ rest) <= fuel)%nat ->
    settled (combine (map snd fs) (map snd gs)) rest fuel.
  Proof.
    revert gs. induction fs as [|[f x] fs IH]; intros [|[g y] gs] HP (pre & Eg) E If Ig Sf Sg Cr fuel Hf; try discriminate E.
    - left. split; [constructor|]. now apply contexts_same.
    - cbn [map fst snd combine] in *. injection E as -> E.
      inversion HP as [|? ? P1 P2]; inversion If as [|? ? [I1 C1] I2]; inversion Ig as [|? ? [J1 D1] J2];
      inversion Sf as [|? ? S1 S2]; inversion Sg as [|? ? T1 T2]; subst. cbn [fst snd] in *.
      assert (Later : forall P : text -> Prop, (forall pre0 b post, G ty = pre0 ++ (g, b) :: post -> Forall P (map fst post)) -> Forall P (map fst fs)).
      { intros P H. clear - Eg H. revert pre Eg H. induction (G ty) as [|[h b] l IHl]; intros pre Eg H; [destruct pre; discriminate Eg|].
        destruct pre as [|h' pre]; cbn in Eg.
        - injection Eg as -> Eg. rewrite <- Eg. apply (H [] b). reflexivity.
        - injection Eg as _ Eg. apply (IHl pre Eg). intros pre0 b0 post ->. apply (H ((h, b) :: pre0) b0). reflexivity. }
      assert (Tail : Forall (fun h => h = TX "ctx") (map fst fs) ->
                     Forall contexts (combine (map snd fs) (map snd gs))).
      { clear - S2 T2 E. revert gs T2 E. induction fs as [|[h a] fs IHf]; intros [|[h' b] gs] T2 E H; try discriminate E; [constructor|].
        cbn in *. injection E as <- E. inversion S2 as [|? ? A1 A2]; inversion T2 as [|? ? B1 B2]; inversion H; subst. constructor; [|now apply IHf].
        destruct A1 as [(F1 & X1 & V1)|(F1 & _)]; [|now exfalso; apply F1].
        destruct B1 as [(F2 & Y1 & V2)|(F2 & _)]; [|now exfalso; apply F2]. now split. }
      destruct S1 as [(F1 & X1 & V1)|(F1 & X1 & R1 & Q1)]; destruct T1 as [(F2 & Y1 & V2)|(F2 & Y1 & R2 & Q2)];
        cbn [fst snd] in *; try contradiction.
      + (* the context itself: nothing comes after it *)
        assert (H0 : Forall contexts ((x, y) :: combine (map snd fs) (map snd gs))).
        { constructor; [now split|]. apply Tail. apply Later. intros pre0 b post Ep.
          destruct HC as [H1 _]. rewrite F1 in Ep. rewrite (H1 _ _ _ _ Ep). constructor. }
        left. split.
        * apply Forall_forall. intros p Hp. rewrite Forall_forall in H0. destruct (H0 p Hp) as (A & B & _). now apply SI_context.
        * apply contexts_same; [apply Forall_app; auto|exact Hf].
      + destruct (D ty g) as [kk|] eqn:ED.
        * (* a field that determines the context *)
          assert (A : agree x y) by (eapply agree_slots; eauto).
          destruct (agreeing_decided x y) with (fuel := fuel) (rest := combine (map snd fs) (map snd gs) ++ rest)
            as [[S (f1 & L1 & E1)]|[N E1]]; auto; [split; auto|split; auto| |].
          -- cbn [app] in E1. destruct (IH gs) with (fuel := f1) as [[S' E2]|[N' E2]]; auto.
             ++ exists (pre ++ [g]). now rewrite <- app_assoc.
             ++ left. split; [inversion S; constructor; auto|]. cbn [app]. congruence.
             ++ right. split; [intros H; inversion H; auto|]. cbn [app]. congruence.
          -- right. split; [intros H; inversion H; subst; apply N; constructor; auto|]. exact E1.
        * (* a field that inherits it: only contexts come after it *)
          assert (H0 : Forall contexts (combine (map snd fs) (map snd gs))).
          { apply Tail. apply Later. intros pre0 b post Ep. destruct HC as [_ H2]. apply Forall_forall. intros h Hh.
            eapply H2; eauto. }
          destruct (P1 y) with (fuel := fuel) (rest := combine (map snd fs) (map snd gs) ++ rest)
            as [[S E1]|[N E1]]; auto; [split; auto|split; auto|apply Forall_app; auto| |].
          -- left. split; [|exact E1]. constructor; [now inversion S|].
             apply Forall_forall. intros p Hp. rewrite Forall_forall in H0. destruct (H0 p Hp) as (A & B & _). now apply SI_context.
          -- right. split; [intros H; inversion H; subst; apply N; constructor; auto|]. exact E1.
  Qed.

  Lemma regular_settled : forall x y, fine x -> fine y -> is_ctx x = false -> is_ctx y = false ->
    forall fuel rest, Forall contexts rest -> (vsize x + stack_size rest <= fuel)%nat -> settled [(x, y)] rest fuel.
  Proof.
    assert (Other : forall x y fuel rest, fine x -> fine y -> is_node x && is_node y = false -> Forall contexts rest ->
              (vsize x + stack_size rest <= fuel)%nat -> settled [(x, y)] rest fuel).
    { intros x y fuel rest Fx Fy N Cr Hf. pose proof (vsize_pos x). destruct fuel as [|fuel]; [lia|].
      destruct (step_other fuel x y rest Fx Fy N) as [[S E]|[Ns E]].
      - left. split; [constructor; [exact S|constructor]|]. cbn [app]. rewrite E. apply contexts_same; [exact Cr|lia].
      - right. split; [intros H0; inversion H0; auto|exact E]. }
    induction x as [i fs IH|i l _|i c] using value_ind'; intros y Fx Fy Nx Ny fuel rest Cr Hf; [|now apply Other..].
    destruct y as [j gs| |]; [|now apply Other..].
    destruct fuel as [|fuel]; [cbn in Hf; lia|]. rewrite vsize_node in Hf.
    unfold settled. cbn [app equiv_loop].
    destruct (text_eqb_spec (n_type i) (n_type j)) as [E|E]; cbn [negb].
    - pose proof Fx as (_ & Cx & Rx). pose proof Fy as (_ & Cy & Ry).
      rewrite (node_pairs i fs j gs Cx Cy E).
      assert (K : map fst fs = map fst gs) by (rewrite (fine_keys _ _ Cx), (fine_keys _ _ Cy); now rewrite E).
      destruct (fields_settled (n_type i) (context_of (VNode i fs)) (context_of (VNode j gs)) fs gs rest) with (fuel := fuel)
        as [[S Eq]|[N Eq]]; auto.
      + exists []. cbn. symmetry. now apply fine_keys.
      + now apply (fine_fields i).
      + now apply (fine_fields j).
      + now apply regular_slots.
      + rewrite E. now apply regular_slots.
      + rewrite stack_size_app. rewrite <- (node_pairs i fs j gs Cx Cy E), stack_size_fields. lia.
      + left. split; [|exact Eq]. constructor; [|constructor]. cbn [fst snd]. apply same_nodes; auto.
        * now rewrite Nx.
        * split; [exact E|]. revert S K. clear. revert gs. induction fs as [|a fs IH]; intros [|b gs] S K; try discriminate K; [constructor|].
          cbn in *. injection K as _ K. inversion S; subst. constructor; auto.
      + right. split; [|exact Eq]. intros H. inversion H as [|? ? H1 _]; subst. apply N. cbn [fst snd] in H1.
        apply same_nodes in H1 as [_ H1]; auto; [|now rewrite Nx].
        revert H1. clear. generalize (map snd gs). induction (map snd fs) as [|a l IH]; intros m H; inversion H; subst; cbn; [constructor|].
        constructor; auto.
    - rewrite Nx. cbn. right. split; [|reflexivity]. intros H. inversion H as [|? ? H1 _]; subst. cbn in H1.
      inversion H1; subst; congruence.
  Qed.
End Equiv.

Lemma same_by_id_refl v : same_code_by_id v v.
Proof.
  induction v as [i fs IH|i l IH|i c] using value_ind'.
  - apply SI_node; [reflexivity|]. induction IH as [|kv fs H F IH]; constructor; auto.
  - apply SI_list. clear IH. induction l; constructor; auto.
  - apply SI_const. apply const_eqb_refl.
Qed.
Lemma same_by_id_sym : forall a b, same_code_by_id a b -> same_code_by_id b a.
Proof.
  induction a as [i fs IH|i l IH|i c] using value_ind'; intros b H; inversion H as [? ? C1 C2|? ? ? ? E|? ? ? ? F|? ? ? ? E F]; subst;
    try (now apply SI_context).
  - apply SI_node; [now symmetry|]. clear H E. revert IH. induction F as [|x y fs gs [E H] F IHF]; intros IH; constructor.
    + inversion IH as [|? ? H1 H2]; subst. split; [now symmetry|now apply H1].
    + inversion IH; subst. now apply IHF.
  - apply SI_list. clear H IH. induction F as [|x y l m [E|(a & c & b & d & -> & -> & E)] F IHF]; constructor; auto.
    right. exists b, d, a, c. split; [reflexivity|]. split; [reflexivity|]. now apply const_eqb_sym.
  - apply SI_const. now apply const_eqb_sym.
Qed.
Lemma same_by_id_trans : forall a b c, same_code_by_id a b -> same_code_by_id b c -> same_code_by_id a c.
Proof.
  induction a as [i fs IH|i l IH|i k] using value_ind'; intros b c H H'.
  - inversion H as [? ? C1 C2| | |? ? ? ? E F]; subst.
    + inversion H' as [? ? D1 D2|? ? ? ? E|? ? ? ? F|? ? ? ? E F]; subst; try discriminate C2; apply SI_context; auto.
      unfold is_ctx, isinst in *. now rewrite <- E.
    + inversion H' as [? ? D1 D2| | |? ? ? ? E' F']; subst.
      * apply SI_context; auto. unfold is_ctx, isinst in *. now rewrite E.
      * apply SI_node; [congruence|]. clear H H' E E'. revert gs0 F' IH.
        induction F as [|x y fs gs [E H] F IHF]; intros gs0 F' IH; inversion F' as [|? ? ? ? [E' H'] F'']; subst; constructor.
        -- inversion IH as [|? ? H1 H2]; subst. split; [congruence|now apply (H1 (snd y))].
        -- inversion IH; subst. now apply IHF.
  - inversion H as [? ? C1 C2| |? ? ? ? F|]; subst; [discriminate C1|].
    inversion H' as [? ? D1 D2| |? ? ? ? F'|]; subst; [discriminate D1|]. apply SI_list. clear H H' IH. revert m0 F'.
    induction F as [|x y l m Hxy F IHF]; intros m0 F'; inversion F' as [|? z ? ? Hyz F'']; subst; constructor; auto.
    destruct Hxy as [->|(a & k & b & d & -> & -> & E)]; [exact Hyz|].
    destruct Hyz as [<-|(a' & k' & b' & d' & E1 & -> & E')]; [right; eauto 8|].
    injection E1 as <- <-. right. exists a, k, b', d'. split; [reflexivity|]. split; [reflexivity|]. eapply const_eqb_trans; eauto.
  - inversion H as [? ? C1 C2|? ? ? ? E| |]; subst; [discriminate C1|].
    inversion H' as [? ? D1 D2|? ? ? ? E'| |]; subst; [discriminate D1|]. apply SI_const. eapply const_eqb_trans; eauto.
Qed.

(** Identical items are the same code. *)
Lemma same_code_refl v : same_code v v.
Proof.
  induction v as [i fs IH|i l IH|i c] using value_ind'.
  - apply SC_node; [reflexivity|]. induction IH as [|kv fs H F IH]; constructor; auto.
  - apply SC_list. induction IH; constructor; auto.
  - apply SC_const. apply const_eqb_refl.
Qed.
Lemma same_by_id_code : forall a b, same_code_by_id a b -> same_code a b.
Proof.
  induction a as [i fs IH|i l IH|i c] using value_ind'; intros b H; inversion H as [? ? C1 C2|? ? ? ? E|? ? ? ? F|? ? ? ? E F]; subst;
    try (now apply SC_context).
  - apply SC_node; [assumption|]. clear H E. revert IH. induction F as [|x y fs gs [E H] F IHF]; intros IH; constructor.
    + inversion IH as [|? ? H1 H2]; subst. split; [assumption|now apply H1].
    + inversion IH; subst. now apply IHF.
  - apply SC_list. clear H IH. induction F as [|x y l m [->|(a & c & b & d & -> & -> & E)] F IHF]; constructor; auto.
    + apply same_code_refl.
    + now apply SC_const.
  - now apply SC_const.
Qed.

(** Everything inside of a parsed tree. *)
Lemma conforms_child G v x : conforms G v -> In x (vchildren v) -> conforms G x.
Proof.
  intros H Hx. inversion H as [|? ? F|? ? _ _ F]; subst; cbn in Hx; [destruct Hx| |].
  - rewrite Forall_forall in F. now apply F.
  - apply in_map_iff in Hx as (kv & <- & Hk). rewrite Forall_forall in F. now apply F.
Qed.
Lemma conforms_inside G root x : conforms G root -> inside root x -> conforms G x.
Proof.
  intros H (p & Hp). revert root H Hp. induction p as [|k p IH]; intros root H Hp; cbn in Hp; [now injection Hp as <-|].
  destruct (nth_error (vchildren root) k) as [y|] eqn:E; [|discriminate Hp].
  eapply (IH y); eauto. eapply conforms_child; eauto. eapply nth_error_In; eauto.
Qed.
(** Contexts have nothing inside. *)
Lemma regular_inside D root x : regular D root -> is_ctx root = false -> inside root x ->
  (is_ctx x = true /\ vchildren x = []) \/ (is_ctx x = false /\ regular D x).
Proof.
  intros H Hr (p & Hp). revert root H Hr Hp. induction p as [|k p IH]; intros root H Hr Hp; cbn in Hp; [injection Hp as <-; now right|].
  destruct (nth_error (vchildren root) k) as [y|] eqn:E; [|discriminate Hp]. apply nth_error_In in E.
  inversion H as [|? ? F|? ? F]; subst; cbn in E; [destruct E| |].
  - rewrite Forall_forall in F. destruct (F _ E). eapply (IH y); eauto.
  - apply in_map_iff in E as (kv & <- & Hk). rewrite Forall_forall in F.
    destruct (F _ Hk) as [(_ & C & V)|(_ & C & R & _)]; [|eapply IH; eauto].
    destruct p as [|k' p]; cbn in Hp; [injection Hp as <-; now left|].
    rewrite V in Hp. destruct k'; discriminate Hp.
Qed.

Theorem ast_equivalent_iff G root x y : proper G -> parsed_tree G root -> inside root x -> inside root y ->
  (ast_equivalent x y = Ok true <-> same_code_by_id x y).
Proof.
  intros HG [Cr Co Nr (D & HC & R)] Ix Iy. unfold ast_equivalent.
  destruct (Z.eqb_spec (vid x) (vid y)) as [E|E].
  { rewrite (Co x y Ix Iy E). split; [intros _; apply same_by_id_refl|reflexivity]. }
  pose proof (regular_inside D root x R Nr Ix) as Rx. pose proof (regular_inside D root y R Nr Iy) as Ry.
  pose proof (conforms_inside G root x Cr Ix) as Cx. pose proof (conforms_inside G root y Cr Iy) as Cy.
  destruct Rx as [[Hx Vx]|[Hx Rx]]; destruct Ry as [[Hy Vy]|[Hy Ry]].
  - rewrite (contexts_same [(x, y)]); [split; [intros _; now apply SI_context|reflexivity]|repeat constructor; auto|cbn; lia].
  - split.
    + destruct x as [i fs| |]; try discriminate Hx. cbn in Vx. apply map_eq_nil in Vx as ->. cbn [vsize equiv_loop].
      destruct y as [j gs| |]; try discriminate.
      destruct (text_eqb_spec (n_type i) (n_type j)) as [Et|Et]; cbn [negb].
      * exfalso. unfold is_ctx, isinst in Hx, Hy. rewrite Et in Hx. congruence.
      * rewrite Hy. rewrite andb_false_r. discriminate.
    + intros H. exfalso. inversion H; subst; try congruence; try discriminate Hx.
      unfold is_ctx, isinst in Hx, Hy. rewrite H0 in Hx. congruence.
  - split.
    + destruct x as [i fs|i l|i c]; cbn [vsize equiv_loop].
      * destruct y as [j gs| |]; try discriminate.
        destruct (text_eqb_spec (n_type i) (n_type j)) as [Et|Et]; cbn [negb].
        -- exfalso. unfold is_ctx, isinst in Hx, Hy. rewrite Et in Hx. congruence.
        -- rewrite Hx. discriminate.
      * destruct y as [j gs| |]; discriminate.
      * destruct y as [j gs| |]; discriminate.
    + intros H. exfalso. inversion H; subst; try congruence; try discriminate Hy.
      unfold is_ctx, isinst in Hx, Hy. rewrite H0 in Hx. congruence.
  - destruct (regular_settled G D HG HC root Co x y) with (fuel := vsize x) (rest := @nil (value * value)) as [[S Eq]|[N Eq]];
      auto; [split; auto|split; auto|cbn; lia| |]; cbn [app] in Eq; rewrite Eq.
    + split; [intros _|reflexivity]. inversion S; subst. assumption.
    + split; [discriminate|]. intros H. exfalso. apply N. constructor; [exact H|constructor].
Qed.

(** Without nodes in lists, it is the same as being the same code. *)
Lemma same_code_no_lists : forall a b,
  (forall id l x, inside a (VList id l) -> In x l -> is_node x = false) ->
  (forall id l x, inside a (VList id l) -> In x l -> is_list x = false) ->
  same_code a b -> same_code_by_id a b.
Proof.
  induction a as [i fs IH|i l IH|i c] using value_ind'; intros b Hn Hl H; inversion H as [? ? C1 C2|? ? ? ? E|? ? ? ? F|? ? ? ? E F]; subst;
    try (now apply SI_context).
  - apply SI_node; [assumption|]. clear H E.
    assert (Sub : forall kv, In kv fs -> forall id l x, inside (snd kv) (VList id l) -> In x l -> is_node x = false /\ is_list x = false).
    { intros kv Hk id l x (q & Hq) Hx. assert (I : inside (VNode i fs) (VList id l)).
      { destruct (inside_child (VNode i fs) (VNode i fs) (snd kv) (inside_refl _)) as (r & Hr); [cbn; now apply in_map|].
        exists (r ++ q). rewrite at_path_app, Hr. exact Hq. }
      split; [now apply (Hn id l)|now apply (Hl id l)]. }
    clear Hn Hl. revert IH Sub. induction F as [|x y fs gs [E H] F IHF]; intros IH Sub; constructor.
    + inversion IH as [|? ? H1 H2]; subst. split; [assumption|]. apply H1; auto; intros id l z Hz1 Hz2; eapply (Sub x); eauto; now left.
    + inversion IH; subst. apply IHF; auto. intros kv Hk. apply Sub. now right.
  - apply SI_list. specialize (Hn i l). specialize (Hl i l).
    assert (Hn' : forall x, In x l -> is_node x = false) by (intros x; apply Hn; apply inside_refl).
    assert (Hl' : forall x, In x l -> is_list x = false) by (intros x; apply Hl; apply inside_refl).
    clear H IH Hn Hl. induction F as [|x y l m Hxy F IHF]; constructor.
    + right. pose proof (Hn' x (or_introl eq_refl)) as N. pose proof (Hl' x (or_introl eq_refl)) as L.
      inversion Hxy as [? ? C1 C2|? ? ? ? E|? ? ? ? F'|? ? ? ? E F']; subst; try discriminate.
      * destruct x; discriminate.
      * eauto 8.
    + apply IHF; intros z Hz; [apply Hn'|apply Hl']; now right.
  - now apply SI_const.
Qed.
