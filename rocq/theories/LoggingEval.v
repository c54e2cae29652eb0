(** Matchers that say yes or no and change nothing: what they give.  Proofs. *)
From Verif Require Import TemplateProofs Py PyFacts Regex Subst ApplySpec Ast Template FromDiff Matcher MatchSpec MergeSpec MergeProofs MatcherProofs BindProofs OnceProofs FindSpec FindProofs
  NavSpec NavProofs CollSpec CollProofs PatTok PatSpec Pattern PatternSpec CorrectnessProofs.

Definition gives (e : env) (c : value) (m : matcher) (o : option (dict bound)) : Prop :=
  forall d s, eval (with_done e d) m c s = (s, Ok (option_map (fun b => RInfo (create_match (e_parsed e) c) (Some b) []) o)).
(** All of the bindings together. *)
Fixpoint joined (acc : dict bound) (os : list (option (dict bound))) : res (option (dict bound)) :=
  match os with
  | [] => Ok (Some acc)
  | None :: _ => Ok None
  | Some b :: rest => do ob <- merge_bindings acc b; match ob with None => Ok None | Some b' => joined b' rest end
  end.
Definition act_gives (a : outcome) (o : option (dict bound)) : Prop :=
  exists rm, forall s, a s = (s, Ok (option_map (fun b => RInfo rm (Some b) []) o)).
Lemma accumulate_joined acts os : Forall2 act_gives acts os -> forall acc o, joined acc os = Ok o ->
  forall s, accumulate acts acc [] s = (s, Ok (option_map (fun b => (b, [])) o)).
Proof.
  induction 1 as [|a ob acts os [rm Ha] F IH]; intros acc o J s; cbn [accumulate].
  - injection J as <-. reflexivity.
  - unfold mbind at 1. rewrite Ha. destruct ob as [b|]; cbn [option_map joined] in *; [|injection J as <-; reflexivity].
    unfold mbind, lift. cbn [r_bindings r_reps bind not_none]. destruct (merge_bindings acc b) as [[b'|]|x]; cbn [bind] in J; [|injection J as <-; reflexivity|discriminate J].
    change (merge_replacements [] []) with (@Ok (dict template) []). cbn iota beta. now apply IH.
Qed.
Lemma accumulating_joined e v acts os o : Forall2 act_gives acts os -> joined [] os = Ok o ->
  forall s, accumulating e v acts s = (s, Ok (option_map (fun b => RInfo (create_match (e_parsed e) v) (Some b) []) o)).
Proof.
  intros F J s. unfold accumulating, mbind. rewrite (accumulate_joined _ _ F _ _ J). destruct o; reflexivity.
Qed.
Lemma gives_act e c m o d : gives e c m o -> act_gives (eval (with_done e d) m c) o.
Proof. intros H. exists (create_match (e_parsed e) c). intros s. apply H. Qed.

Lemma gives_anything e c : gives e c MAnything (Some []).
Proof. intros d s. reflexivity. Qed.
Lemma gives_bind e c m o name cf g : gives e c m o -> (forall b, o = Some b -> dget b name = None /\ dict_ok b) ->
  gives e c (MBind name m cf g) (option_map (fun b => b ++ [(name, bound_value (create_match (e_parsed e) c) cf g)]) o).
Proof.
  intros H N d s. cbn [eval]. unfold mbind, lift. rewrite H. destruct o as [b|]; [|reflexivity]. cbn [option_map r_bindings r_match r_reps bind not_none].
  destruct (N b eq_refl) as [Nb Db].
  assert (M : forall x, merge_bindings b [(name, x)] = Ok (Some (b ++ [(name, x)]))).
  { intros x. unfold merge_bindings, merge_bindings_in.
    assert (E : shared_keys b [(name, x)] = []).
    { unfold shared_keys. apply dget_None in Nb. unfold dkeys in *. clear Db. induction (map fst b) as [|y l IH]; [reflexivity|]. cbn [filter].
      unfold dmem. cbn [dget]. destruct (text_eqb_spec name y) as [->|]; [exfalso; apply Nb; now left|]. apply IH. intros K. apply Nb. now right. }
    rewrite E. cbn [merge_shared bind app]. f_equal. f_equal.
    assert (Fb : filter (fun kv : label * bound => negb (dmem [(name, x)] (fst kv))) b = b).
    { apply dget_None in Nb. clear - Nb. induction b as [|[y v] b IH]; [reflexivity|]. cbn [filter fst]. unfold dmem at 1. cbn [dget]. unfold dkeys in *. cbn [map fst] in Nb.
      destruct (text_eqb_spec name y) as [->|]; [exfalso; apply Nb; now left|]. cbn [is_some negb]. f_equal. apply IH. intros K. apply Nb. now right. }
    rewrite Fb. cbn [filter fst]. unfold dmem. rewrite Nb. reflexivity. }
  rewrite M. reflexivity.
Qed.
Lemma gives_rebind e c m o cf g : gives e c m o -> gives e c (MRebind m cf g) (option_map (map (fun kv => (fst kv, rebind cf g (snd kv)))) o).
Proof. intros H d s. cbn [eval]. unfold mbind, lift. rewrite H. destruct o; reflexivity. Qed.
Lemma gives_node e c ty fs os o : vtype c = ty -> Forall2 (fun kv o => gives e (vfield c (fst kv)) (snd kv) o) fs os -> joined [] os = Ok o ->
  gives e c (MNode ty fs) o.
Proof.
  intros Et F J d s. cbn [eval]. rewrite Et, text_eqb_refl. apply (accumulating_joined (with_done e d)) with os; [|exact J].
  clear J. induction F as [|kv ob fs os H F IH]; [constructor|]. cbn [map]. constructor; [now apply gives_act|exact IH].
Qed.
Lemma gives_other e c ty fs : vtype c <> ty -> gives e c (MNode ty fs) None.
Proof. intros N d s. cbn [eval]. now rewrite (proj2 (text_eqb_neq _ _) N). Qed.
Lemma gives_all e c ms os o : Forall2 (gives e c) ms os -> joined [] os = Ok o -> gives e c (MAllOf ms) o.
Proof.
  intros F J d s. cbn [eval]. apply (accumulating_joined (with_done e d)) with os; [|exact J].
  clear J. induction F as [|m ob ms os H F IH]; [constructor|]. cbn [map]. constructor; [now apply gives_act|exact IH].
Qed.
Lemma gives_unless e c m o : gives e c m o -> gives e c (MUnless m) (match o with Some _ => None | None => Some [] end).
Proof. intros H d s. cbn [eval]. unfold unless, mbind. rewrite H. destruct o; reflexivity. Qed.
(** The first that is there. *)
Fixpoint first_some (os : list (option (dict bound))) : option (dict bound) :=
  match os with [] => None | Some b :: _ => Some b | None :: rest => first_some rest end.
Lemma first_some_none os : first_some os = None <-> Forall (fun o => o = None) os.
Proof.
  induction os as [|[b|] os IH]; cbn [first_some]; split; intros H; try (now constructor); try discriminate H.
  - inversion H; discriminate.
  - constructor; [reflexivity|now apply IH].
  - apply IH. now inversion H.
Qed.
Lemma first_some_in os b : first_some os = Some b -> In (Some b) os.
Proof. induction os as [|[b'|] os IH]; cbn [first_some]; intros H; [discriminate H|left; exact H|right; auto]. Qed.
Lemma gives_contains e id l m os : Forall2 (fun x o => gives e x m o) l os -> gives e (VList id l) (MContains m) (first_some os).
Proof.
  intros F d s. cbn [eval seq_items]. unfold mbind.
  assert (K : exists x, first_of (map (eval (with_done e d) m) l) s = (s, Ok (option_map (fun b => RInfo (create_match (e_parsed e) x) (Some b) []) (first_some os)))).
  { induction F as [|x o l os H F IH]; [exists (VList id []); reflexivity|]. cbn [map first_of]. unfold mbind. rewrite H.
    destruct o as [b|]; [exists x; reflexivity|exact IH]. }
  destruct K as (x & K). rewrite K. destruct (first_some os); reflexivity.
Qed.
Lemma gives_item e id x m o : gives e x m o -> gives e (VList id [x]) (MItemsAre [m]) o.
Proof.
  intros H d s. cbn [eval map]. unfold items_are. rewrite (accumulating_joined _ _ _ [Some []; o] o); [reflexivity| |].
  - constructor; [|constructor; [|constructor]].
    + exists (create_match (e_parsed e) (VList id [x])). intros s0. reflexivity.
    + exists (create_match (e_parsed e) (VList id [x])). intros s0.
      refine (eq_trans (y := (run o' <- eval (with_done e d) m x; rewrap (with_done e d) (VList id [x]) o') s0) eq_refl _).
      unfold mbind. rewrite H. destruct o; reflexivity.
  - cbn [joined]. rewrite merge_bindings_nil. cbn [bind]. destruct o as [b|]; [|reflexivity]. now rewrite merge_bindings_nil.
Qed.
Lemma gives_no_item e id l m : (forall x, l <> [x]) -> gives e (VList id l) (MItemsAre [m]) None.
Proof.
  intros H d s. destruct l as [|x [|y l]]; [|elim (H x eq_refl)|].
  - reflexivity.
  - reflexivity.
Qed.
Lemma gives_decided e m P c : decides_in m P -> (P (e_parsed e) c /\ gives e c m (Some [])) \/ (~ P (e_parsed e) c /\ gives e c m None).
Proof.
  intros D. destruct (D e c) as [[Y _]|[N _]]; [left|right]; (split; [assumption|]); intros d s;
    destruct (D (with_done e d) c) as [[Y' E]|[N' E]]; try contradiction; exact (E s).
Qed.
Lemma gives_fun e c m o o' : gives e c m o -> gives e c m o' -> o = o'.
Proof. intros H H'. specialize (H [] []). specialize (H' [] []). rewrite H in H'. destruct o, o'; cbn in H'; congruence. Qed.

(** *** The innermost node of a class around a place *)
Definition nearest (ty : text) (tree : value) (p : path) : option value := find (fun v => text_eqb (vtype v) ty) (ancestors tree p).
Lemma node_of_type v ty : tmem ty builtin_types = false -> vtype v = ty -> exists i fs, v = VNode i fs.
Proof.
  intros H E. destruct v as [i fs|id l|id k]; [eauto| |]; exfalso; rewrite <- E in H; [vm_compute in H; discriminate H|].
  destruct k as [| |[]| |]; vm_compute in H; discriminate H.
Qed.
Lemma gives_first_ancestor e ty fs b p x ob : unshared (e_tree e) -> climbable (e_tree e) p x -> tmem ty builtin_types = false ->
  Forall (fun kv => snd kv = MAnything) fs ->
  (forall anc, nearest ty (e_tree e) p = Some anc -> gives e anc b (ob anc)) ->
  gives e x (MHasFirstAncestor (MNode ty fs) b) (match nearest ty (e_tree e) p with Some anc => ob anc | None => None end).
Proof.
  intros Un Cl Hty F Hb d s.
  destruct (eval (with_done e d) (MHasFirstAncestor (MNode ty fs) b) x s) as [s' o] eqn:Ev.
  apply (has_first_ancestor_hits (with_done e d) _ _ p x s s' o Un Cl) in Ev as (s1 & o1 & Hf & Ho).
  change (e_tree (with_done e d)) with (e_tree e) in Hf. unfold nearest in *.
  assert (K : s1 = s /\ o1 = Ok (option_map (fun anc => (anc, RInfo (create_match (e_parsed e) anc) (Some []) [])) (find (fun v => text_eqb (vtype v) ty) (ancestors (e_tree e) p)))).
  { clear - Hf F. remember (ancestors (e_tree e) p) as l eqn:El. clear El.
    assert (P : forall c, (vtype c = ty /\ gives e c (MNode ty fs) (Some [])) \/ (vtype c <> ty /\ gives e c (MNode ty fs) None)).
    { intros c. exact (gives_decided e _ _ c (decides_always _ _ (decides_class ty fs F))). }
    induction Hf as [s|y l s s1 s' o H Hf IH|y l s s' r H|y l s s' exn H].
    - split; reflexivity.
    - destruct (P y) as [[Y E]|[N E]]; rewrite E in H; [discriminate H|]. injection H as <-. cbn [find]. rewrite (proj2 (text_eqb_neq _ _) N). apply IH.
    - destruct (P y) as [[Y E]|[N E]]; rewrite E in H; [|discriminate H]. injection H as <- <-. cbn [find]. rewrite (proj2 (text_eqb_eq _ _) Y). split; reflexivity.
    - destruct (P y) as [[Y E]|[N E]]; rewrite E in H; discriminate H. }
  destruct K as [-> ->]. destruct (find _ _) as [anc|] eqn:Ef; cbn [option_map] in Ho |- *; [|destruct Ho as [-> ->]; reflexivity].
  apply find_some in Ef as [_ Et]. apply text_eqb_eq in Et. destruct (node_of_type _ _ Hty Et) as (i & fs' & ->).
  assert (Em : m_matched (create_match (e_parsed e) (VNode i fs')) = Some (VNode i fs')).
  { unfold create_match. destruct (lexical_tokens _) as [[f l]|]; reflexivity. }
  rewrite Em in Ho. destruct Ho as (o2 & E2 & Ho). rewrite (Hb _ eq_refl) in E2. injection E2 as <- <-.
  destruct (ob (VNode i fs')) as [bb|]; cbn [option_map] in Ho; [|now rewrite Ho]. rewrite merge_bindings_nil in Ho. rewrite Ho. reflexivity.
Qed.
(** In terms of places. *)
Lemma nearest_place ty tree p x : at_path tree p = Some x -> forall v, nearest ty tree p = Some v ->
  exists q r, p = q ++ r /\ r <> [] /\ at_path tree q = Some v /\ vtype v = ty
    /\ forall r1 r2 w, r = r1 ++ r2 -> r1 <> [] -> r2 <> [] -> at_path tree (q ++ r1) = Some w -> vtype w <> ty.
Proof.
  intros Hp v. unfold nearest, ancestors. revert x Hp. 
  assert (Q : forall p tree x, at_path tree p = Some x ->
     match find (fun v => text_eqb (vtype v) ty) (rev (above tree p)) with
     | Some v => exists q r, p = q ++ r /\ r <> [] /\ at_path tree q = Some v /\ vtype v = ty
        /\ forall r1 r2 w, r = r1 ++ r2 -> r1 <> [] -> r2 <> [] -> at_path tree (q ++ r1) = Some w -> vtype w <> ty
     | None => forall q r w, p = q ++ r -> r <> [] -> at_path tree q = Some w -> vtype w <> ty
     end).
  { clear. induction p as [|i p IH]; intros tree x H.
    - cbn [above rev find]. intros q r w E Hr _. symmetry in E. apply app_eq_nil in E as [_ E]. contradiction.
    - cbn [above rev]. cbn [at_path] in H. destruct (nth_error (vchildren tree) i) as [y|] eqn:Ey; [|discriminate H].
      specialize (IH y x H). 
      assert (Fa : forall l, find (fun v => text_eqb (vtype v) ty) (l ++ [tree]) = match find (fun v => text_eqb (vtype v) ty) l with Some w => Some w | None => if text_eqb (vtype tree) ty then Some tree else None end).
      { induction l as [|z l IHl]; cbn [app find]; [reflexivity|]. destruct (text_eqb (vtype z) ty); [reflexivity|exact IHl]. }
      rewrite Fa. destruct (find _ (rev (above y p))) as [v|].
      + destruct IH as (q & r & E & Hr & Hq & Et & Hn). exists (i :: q), r. split; [now rewrite E|]. split; [exact Hr|]. cbn [at_path app]. rewrite Ey. auto.
      + destruct (text_eqb_spec (vtype tree) ty) as [Et|Nt].
        * exists [], (i :: p). split; [reflexivity|]. split; [discriminate|]. split; [reflexivity|]. split; [exact Et|].
          intros r1 r2 w E N1 N2 Hw. destruct r1 as [|j r1]; [congruence|]. cbn [app] in *. injection E as <- E. cbn [at_path] in Hw. rewrite Ey in Hw. now apply (IH r1 r2).
        * intros q r w E Hr Hw. destruct q as [|j q]; [cbn in Hw; congruence|]. cbn [app] in E. injection E as <- E. cbn [at_path] in Hw. rewrite Ey in Hw. now apply (IH q r). }
  intros x Hp E. specialize (Q p tree x Hp). rewrite E in Q. exact Q.
Qed.
Lemma place_nearest ty tree p x q r v : at_path tree p = Some x -> p = q ++ r -> r <> [] -> at_path tree q = Some v -> vtype v = ty ->
  (forall r1 r2 w, r = r1 ++ r2 -> r1 <> [] -> r2 <> [] -> at_path tree (q ++ r1) = Some w -> vtype w <> ty) -> nearest ty tree p = Some v.
Proof.
  intros Hp -> Hr Hq Et Hn. unfold nearest, ancestors. revert tree Hp Hq Hn.
  induction q as [|i q IH]; intros tree Hp Hq Hn.
  - cbn [app at_path] in *. injection Hq as ->. destruct r as [|i r]; [congruence|]. cbn [above rev]. cbn [at_path] in Hp.
    destruct (nth_error (vchildren v) i) as [y|] eqn:Ey; [|discriminate Hp].
    assert (N : find (fun w => text_eqb (vtype w) ty) (rev (above y r)) = None).
    { destruct (find _ _) as [w|] eqn:Ef; [|reflexivity]. exfalso. apply find_some in Ef as [Hin E]. apply text_eqb_eq in E.
      apply (ancestors_above _ _ _ _ Hp) in Hin as (q & r' & N & -> & Hw). apply (Hn (i :: q) r' w); auto; [discriminate|]. cbn [at_path]. now rewrite Ey. }
    clear Hp Hr Hn. induction (rev (above y r)) as [|z l IHl]; cbn [app find]; [now rewrite (proj2 (text_eqb_eq _ _) Et)|].
    cbn [find] in N. destruct (text_eqb (vtype z) ty); [discriminate N|auto].
  - cbn [app above rev]. cbn [app at_path] in *. destruct (nth_error (vchildren tree) i) as [y|]; [|discriminate Hp].
    specialize (IH y Hp Hq Hn). clear - IH. induction (rev (above y (q ++ r))) as [|z l IHl]; cbn [app find] in *; [discriminate IH|].
    destruct (text_eqb (vtype z) ty); [exact IH|auto].
Qed.
