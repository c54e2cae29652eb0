(** From the text of a pattern to what it matches. *)
From Verif Require Import Py PyFacts Ast Template FromDiff Matcher MatchSpec FindSpec MergeProofs
  PatTok PatSpec PatTokProofs LexProofs Pattern PatternSpec EquivProofs PatternProofs.
From Coq Require Import Lia Permutation.

Lemma dget_fold_dset {A V} (f : A -> label) (g : A -> V) (l : list A) n : forall d,
  NoDup (map f l) ->
  dget (fold_left (fun d a => dset d (f a) (g a)) l d) n =
  match find (fun a => text_eqb (f a) n) l with Some a => Some (g a) | None => dget d n end.
Proof.
  induction l as [|a l IH]; intros d N; cbn [fold_left find]; [reflexivity|].
  cbn in N. inversion N as [|? ? N1 N2]; subst. rewrite (IH _ N2), dget_dset.
  destruct (text_eqb_spec (f a) n) as [E|E]; [|reflexivity].
  destruct (find (fun a0 => text_eqb (f a0) n) l) as [b|] eqn:Ef; [|reflexivity].
  apply find_some in Ef as [Hin Hb]. destruct (text_eqb_spec (f b) n) as [E'|]; [|discriminate].
  exfalso. apply N1. rewrite E, <- E'. now apply in_map.
Qed.
Lemma dget_fold_const (l : list text) n : forall d : dict matcher,
  dget (fold_left (fun d x => dset d x MAnything) l d) n = if tmem n l then Some MAnything else dget d n.
Proof.
  induction l as [|a l IH]; intros d; cbn [fold_left tmem]; [reflexivity|]. rewrite IH, dget_dset.
  destruct (tmem n l); [now rewrite orb_true_r|]. rewrite orb_false_r.
  destruct (text_eqb_spec a n) as [->|E].
  - now destruct (text_eqb_spec n n).
  - destruct (text_eqb_spec n a); [congruence|reflexivity].
Qed.
Lemma submatchers_spec restrictions names anonymous n : NoDup (map snd names) ->
  dget (submatchers restrictions names anonymous) n =
  match metavariables restrictions names anonymous n with
  | None => None
  | Some Anonymous => Some MAnything
  | Some (Named x m) => Some (MBind x m (Some MERGE_EQUIVALENT_AST) None)
  end.
Proof.
  intros N. unfold submatchers, metavariables.
  rewrite (dget_fold_dset (fun kv : label * text => snd kv)
             (fun kv => MBind (fst kv) (or_default (dget restrictions (fst kv)) MAnything) (Some MERGE_EQUIVALENT_AST) None)) by exact N.
  destruct (find _ names) as [[x y]|]; [reflexivity|].
  rewrite dget_fold_const. now destruct (tmem n anonymous).
Qed.

Lemma names_distinct toks metas f r : renames toks metas f r -> NoDup (map snd (rn_names r)).
Proof.
  intros R. pose proof (rs_dict _ _ _ _ R) as D. unfold dict_ok, dkeys in D.
  assert (Inj : forall v w n, In (v, n) (rn_names r) -> In (w, n) (rn_names r) -> v = w).
  { intros v w n Hv Hw. apply In_dget in Hv; [|exact D]. apply In_dget in Hw; [|exact D].
    apply (rs_names _ _ _ _ R) in Hv as (Nv & i & Ii & Si & Ei). apply (rs_names _ _ _ _ R) in Hw as (Nw & j & Ij & Sj & Ej).
    destruct (proj1 (rs_same _ _ _ _ R i j v w Ii Ij Si Sj)) as [->|[E _]]; [congruence| |exact E].
    destruct Si as (t & Et & <-), Sj as (t' & Et' & <-). congruence. }
  clear - D Inj. induction (rn_names r) as [|[v n] l IH]; [constructor|]. cbn in *. inversion D as [|? ? D1 D2]; subst. constructor.
  - intros H. apply in_map_iff in H as ([w n'] & E & H). cbn in E. subst n'.
    assert (v = w) as -> by (eapply Inj; [now left|now right]). apply D1. apply in_map_iff. now exists (w, n).
  - apply IH; auto. intros a b c Ha Hb. eapply Inj; right; eauto.
Qed.

(** The names that the visitor sees. *)
Lemma name_ids_inside : forall v n, In n (name_ids v) -> exists q, inside v q /\ is_name q n.
Proof.
  assert (Up : forall v x n, In x (vchildren v) -> (exists q, inside x q /\ is_name q n) -> exists q, inside v q /\ is_name q n).
  { intros v x n Hx (q & (p & Hp) & Hq). exists q. split; [|exact Hq]. apply In_nth_error in Hx as (k & Hk).
    exists (k :: p). cbn. now rewrite Hk. }
  induction v as [i fs IH|id l IH|id k] using value_ind'; intros n Hn; cbn [name_ids] in Hn.
  - destruct (text_eqb (n_type i) (TX "Name")).
    + destruct (name_id (VNode i fs)) as [n'|] eqn:E; [|destruct Hn]. destruct Hn as [<-|[]].
      exists (VNode i fs). split; [apply inside_refl|now apply name_id_is_name].
    + apply in_flat_map in Hn as (kv & Hk & Hn). rewrite Forall_forall in IH. apply (Up _ (snd kv)); [cbn; now apply in_map|]. now apply IH.
  - apply in_flat_map in Hn as (x & Hx & Hn). rewrite Forall_forall in IH. apply (Up _ x); auto.
  - destruct Hn.
Qed.
Lemma verify_found tree names : verify_variables tree names = Ok tt -> NoDup (map snd names) -> dict_ok names ->
  forall x n, dget names x = Some n -> In n (name_ids tree).
Proof.
  unfold verify_variables. intros H N Dn x n Hx.
  match type of H with (if ?b then _ else _) = _ => destruct b eqn:F; [|discriminate H] end. rewrite forallb_forall in F.
  specialize (F x (dget_Some_keys _ _ _ Hx)). apply tmem_In in F. apply in_flat_map in F as (n' & Hn' & H').
  rewrite (dget_fold_dset (fun kv : label * text => snd kv) (fun kv => fst kv)) in H' by exact N.
  destruct (find _ names) as [[y n'']|] eqn:Ef; [|destruct H'].
  destruct H' as [<-|[]]. cbn [fst] in *. apply find_some in Ef as [Hin E]. cbn in E.
  destruct (text_eqb_spec n'' n') as [->|]; [|discriminate]. apply In_dget in Hin; [|exact Dn]. pose proof (eq_trans (eq_sym Hin) Hx) as Q. injection Q as <-. exact Hn'.
Qed.
Lemma verify_complete tree names : NoDup (map snd names) -> dict_ok names ->
  (forall x n, dget names x = Some n -> In n (name_ids tree)) -> verify_variables tree names = Ok tt.
Proof.
  unfold verify_variables. intros N Dn H.
  match goal with |- (if ?b then _ else _) = _ => assert (F : b = true); [|now rewrite F] end.
  apply forallb_forall. intros x Hx. apply tmem_In. destruct (keys_dget _ _ Hx) as (n & Hn).
  apply in_flat_map. exists n. split; [eapply H; eauto|].
  rewrite (dget_fold_dset (fun kv : label * text => snd kv) (fun kv => fst kv)) by exact N.
  destruct (find (fun a => text_eqb (snd a) n) names) as [[y n']|] eqn:Ef.
  - apply find_some in Ef as [Hin E]. cbn in E. destruct (text_eqb_spec n' n) as [->|]; [|discriminate]. left. cbn.
    apply dget_In in Hn. clear - N Hn Hin. induction names as [|[z k] l IH]; [destruct Hn|]. cbn in N. inversion N as [|? ? N1 N2]; subst.
    destruct Hin as [E|Hin], Hn as [E'|Hn]; try congruence.
    + injection E as -> ->. exfalso. apply N1. apply in_map_iff. now exists (x, n).
    + injection E' as -> ->. exfalso. apply N1. apply in_map_iff. now exists (y, n).
    + now apply IH.
  - exfalso. apply dget_In in Hn. pose proof (find_none _ _ Ef _ Hn) as E. cbn in E. now destruct (text_eqb_spec n n).
Qed.

Lemma fits_inside e G root holes : proper G -> parsed_tree G root ->
  (forall n x r, holes n = Some (Named x r) -> restriction_ok e r) ->
  forall p c occ, fits e holes p c occ -> inside root c ->
  forall x rm a, In (x, rm) occ -> m_matched rm = Some a -> inside root a.
Proof.
  intros HG HP HR.
  induction p as [i fs IH|id l IH|id k] using value_ind'; intros c occ F Ic x rm a Hin Ha;
    inversion F as [p n y m c0 rm0 Hn Hh Hp|p n c0 Hn Hh|? ? ? ? E|? ? ? ms ? FI|? ? j gs ? Hn Ht FF]; subst.
  all: try (destruct Hin; fail).
  all: try (destruct Hin as [E|[]]; injection E as <- <-; destruct (HR _ _ _ Hh c) as [N|(rm' & Y & Q)];
            [specialize (N []); specialize (Hp []); rewrite N in Hp; discriminate Hp
            |specialize (Y []); specialize (Hp []); rewrite Y in Hp; injection Hp as ->; rewrite (Q a Ha); exact Ic]).
  - (* fields *)
    assert (Hc : forall kw, In kw gs -> inside root (snd kw)).
    { intros kw Hk. apply (inside_child _ _ _ Ic). cbn. now apply in_map. }
    clear F Hn Ht Ic. revert FF Hc Hin. generalize (n_type i). intros ty FF.
    revert IH. induction FF as [|? f u w fs' gs' os Hcx FF IHF|? f u w fs' gs' o os Hcx FU FF IHF]; intros IH Hc Hin.
    + destruct Hin.
    + inversion IH; subst. apply IHF; auto. intros kw Hk. apply Hc. now right.
    + inversion IH as [|? ? H1 H2]; subst. apply in_app_iff in Hin as [Hin|Hin].
      * eapply H1; eauto. apply (Hc (f, w)). now left.
      * apply IHF; auto. intros kw Hk. apply Hc. now right.
  - assert (Hc : forall y, In y ms -> inside root y).
    { intros y Hy. apply (inside_child _ _ _ Ic). exact Hy. }
    clear F Ic. revert Hc Hin IH. induction FI as [|u w l' m' o os FU FI IHF]; intros Hc Hin IH.
    + destruct Hin.
    + inversion IH as [|? ? H1 H2]; subst. apply in_app_iff in Hin as [Hin|Hin].
      * eapply H1; eauto. apply Hc. now left.
      * apply IHF; auto. intros y Hy. apply Hc. now right.
Qed.

Section Api.
  Variable tokenize : text -> res (list ptok).
  Variable order : list nat -> list nat.
  Variable parse : text -> res value.
  Variable toks : list ptok.
  Variable pattern : text.
  Let added := negb (endswith [NL] pattern).
  Hypothesis Htok : tokenize (if added then pattern ++ [NL] else pattern) = Ok toks.
  Hypothesis Hends : ends toks.
  Hypothesis Horder : forall l, Permutation (order l) l.

  Lemma remap_distinct src names anon : remap_macro_variables tokenize order pattern = Ok (src, names, anon) ->
    NoDup (map snd names) /\ dict_ok names.
  Proof.
    unfold remap_macro_variables. intros H. destruct (token_pattern tokenize pattern) as [[ts metas]|] eqn:Et; [|discriminate H].
    destruct (remap_pattern tokenize order pattern toks ts metas Htok Hends Horder Et) as (r & f & Er & R & _).
    cbn [bind fst snd] in H. rewrite Er in H. cbn [bind] in H. destruct (untokenize (rn_tokens r)) as [src'|]; [|discriminate H].
    cbn [bind] in H. injection H as _ <- _. split; [eapply names_distinct; eauto|apply (rs_dict _ _ _ _ R)].
  Qed.

  Theorem base_pattern_spec pull restrictions m :
    base_ast_pattern tokenize order parse pull pattern restrictions = Ok m ->
    exists src names anon module p,
      remap_macro_variables tokenize order pattern = Ok (src, names, anon)
      /\ parse src = Ok module /\ pull module = Ok p
      /\ (forall x, dmem restrictions x = true -> dmem names x = true)
      /\ (forall x n, dget names x = Some n -> exists q, inside module q /\ is_name q n)
      /\ finds_pattern (metavariables restrictions names anon) p m.
  Proof.
    unfold base_ast_pattern, remapped_ast, rewrite_submatchers. intros H.
    destruct (remap_macro_variables tokenize order pattern) as [[[src names] anon]|x] eqn:Er; cbn [bind] in H.
    2:{ destruct x; discriminate H. }
    destruct (forallb (dmem names) (dkeys restrictions)) eqn:Ek; cbn [bind] in H; [|discriminate H].
    destruct (parse src) as [module|x] eqn:Ep; cbn [bind] in H.
    2:{ destruct x; discriminate H. }
    destruct (verify_variables module names) as [[]|] eqn:Ev; cbn [bind] in H; [|discriminate H].
    destruct (pull module) as [p|] eqn:El; cbn [bind] in H; [|discriminate H]. injection H as <-.
    destruct (remap_distinct src names anon Er) as [N Dn].
    exists src, names, anon, module, p. split; [reflexivity|]. split; [exact Ep|]. split; [exact El|]. split.
    { intros x Hx. rewrite forallb_forall in Ek. apply Ek. now apply dmem_keys. }
    split.
    { intros x n Hx. apply name_ids_inside. eapply verify_found; eauto. }
    intros e G root c s HG Pr Cp Np Ic Hr.
    apply (pattern_matches e G root (metavariables restrictions names anon)); auto.
    intros n. now apply submatchers_spec.
  Qed.
End Api.

(** What [ExprPattern] and [StmtPattern] match is the expression or the statement
    that the text consists of. *)
Lemma pull_stmt_spec module p : pull_stmt module = Ok p <->
  vtype module = TX "Module" /\ exists id, vfield module (TX "body") = VList id [p].
Proof.
  unfold pull_stmt. split.
  - destruct (text_eqb_spec (vtype module) (TX "Module")) as [E|]; cbn [negb]; [|discriminate].
    destruct (vfield module (TX "body")) as [| id [|q [|]]|]; cbn; try discriminate. intros [= <-]. split; [exact E|eauto].
  - intros [E (id & Eb)]. rewrite E, Eb. reflexivity.
Qed.
Lemma pull_expr_spec module p : pull_expr module = Ok p <->
  vtype module = TX "Module" /\ exists id stmt, vfield module (TX "body") = VList id [stmt]
    /\ vtype stmt = TX "Expr" /\ vfield stmt (TX "value") = p.
Proof.
  unfold pull_expr. split.
  - destruct (pull_stmt module) as [stmt|] eqn:E; cbn [bind]; [|discriminate].
    apply pull_stmt_spec in E as [E (id & Eb)]. destruct (text_eqb_spec (vtype stmt) (TX "Expr")) as [E'|]; cbn [negb]; [|discriminate].
    intros [= <-]. split; [exact E|]. exists id, stmt. auto.
  - intros (E & id & stmt & Eb & Es & Ev). rewrite (proj2 (pull_stmt_spec module stmt)) by eauto. cbn [bind]. rewrite Es. change (Ok (vfield stmt (TX "value")) = Ok p). now rewrite Ev.
Qed.
