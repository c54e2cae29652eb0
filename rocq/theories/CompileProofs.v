(** Proofs for C87: the constructors of the matcher classes, and the table of their names. *)
From Verif Require Import Py PyFacts Regex Ast Matcher MatcherProofs PatTok Pattern Pragmas Eval Compile CompileSpec.

(** *** Passing arguments *)
Lemma pass_sound ps : forall args kw os, NoDup (map fst ps) -> pass ps args kw = Ok os ->
  exists a, os = map a (map fst ps) /\ (length args <= length ps)%nat
    /\ forall i n required, nth_error ps i = Some (n, required) ->
       match nth_error args i with
       | Some o => a n = Some o /\ dget kw n = None
       | None => a n = dget kw n /\ (required = true -> a n <> None)
       end.
Proof.
  induction ps as [|[n r] ps IH]; intros args kw os Hn H; cbn [pass] in H.
  - destruct args; [|discriminate H]. injection H as <-. exists (fun _ => None). split; [reflexivity|]. split; [cbn; lia|]. intros [|i] ? ? [=].
  - cbn [map fst] in Hn. inversion Hn as [|? ? N1 N2]; subst.
    assert (K : forall args' o rest, pass ps args' kw = Ok rest -> os = o :: rest ->
      exists a, os = map a (map fst ((n, r) :: ps)) /\ a n = o /\ (length args' <= length ps)%nat
        /\ forall i m q, nth_error ps i = Some (m, q) ->
           match nth_error args' i with Some o => a m = Some o /\ dget kw m = None | None => a m = dget kw m /\ (q = true -> a m <> None) end).
    { intros args' o rest Hp ->. destruct (IH args' kw rest N2 Hp) as (a & -> & L & A). exists (fun x => if text_eqb x n then o else a x).
      split; [|split; [|split; [exact L|] ] ].
      - cbn [map fst]. rewrite text_eqb_refl. f_equal. apply map_ext_in. intros x Hx. destruct (text_eqb_spec x n) as [->|_]; [contradiction|reflexivity].
      - now rewrite text_eqb_refl.
      - intros i m q Hi. assert (Nm : text_eqb m n = false).
        { destruct (text_eqb_spec m n) as [->|]; [|reflexivity]. exfalso. apply N1. apply nth_error_In in Hi. exact (in_map fst _ _ Hi). }
        rewrite Nm. exact (A i m q Hi). }
    destruct args as [|x args'].
    + destruct (dget kw n) as [o|] eqn:E.
      * apply bind_Ok in H as (rest & Hp & [= <-]). destruct (K [] (Some o) rest Hp eq_refl) as (a & Ea & An & _ & A). exists a. split; [exact Ea|]. split; [cbn; lia|].
        intros [|i] m q Hi; cbn [nth_error] in Hi |- *; [|specialize (A i m q Hi); destruct i; exact A]. injection Hi as <- <-. rewrite An, E. split; [reflexivity|discriminate].
      * destruct r eqn:Er; [discriminate H|]. apply bind_Ok in H as (rest & Hp & [= <-]). destruct (K [] None rest Hp eq_refl) as (a & Ea & An & _ & A). exists a.
        split; [exact Ea|]. split; [cbn; lia|]. intros [|i] m q Hi; cbn [nth_error] in Hi |- *; [|specialize (A i m q Hi); destruct i; exact A].
        injection Hi as <- <-. rewrite An, E. split; [reflexivity|discriminate].
    + destruct (dmem kw n) eqn:E; [discriminate H|]. apply bind_Ok in H as (rest & Hp & [= <-]). destruct (K args' (Some x) rest Hp eq_refl) as (a & Ea & An & L & A). exists a.
      split; [exact Ea|]. split; [cbn; lia|]. intros [|i] m q Hi; cbn [nth_error] in Hi |- *; [|exact (A i m q Hi)]. injection Hi as <- <-. split; [exact An|].
      unfold dmem in E. now destruct (dget kw n).
Qed.
Lemma pass_complete a ps : forall args kw, (length args <= length ps)%nat ->
  (forall i n required, nth_error ps i = Some (n, required) ->
     match nth_error args i with
     | Some o => a n = Some o /\ dget kw n = None
     | None => a n = dget kw n /\ (required = true -> a n <> None)
     end) -> pass ps args kw = Ok (map a (map fst ps)).
Proof.
  induction ps as [|[n r] ps IH]; intros args kw L A; [destruct args; [reflexivity|cbn in L; lia]|]. cbn [pass map fst].
  pose proof (A 0%nat n r eq_refl) as A0. destruct args as [|x args]; cbn [nth_error] in A0.
  - assert (P : pass ps [] kw = Ok (map a (map fst ps))).
    { apply IH; [cbn; lia|]. intros i m q Hi. specialize (A (S i) m q Hi). destruct i; exact A. }
    destruct A0 as [A0 A1]. rewrite A0. rewrite A0 in A1. destruct (dget kw n) as [o|]; [rewrite P; reflexivity|]. destruct r; [now destruct (A1 eq_refl)|]. rewrite P. reflexivity.
  - destruct A0 as [A0 A1]. unfold dmem. rewrite A1, A0. rewrite (IH args kw); [reflexivity|cbn in L; lia|]. intros i m q Hi. exact (A (S i) m q Hi).
Qed.
Theorem passing ps by_name args kw os : NoDup (map fst ps) ->
  pass_all ps by_name args kw = Ok os <-> exists a, passes ps by_name args kw a /\ os = map a (map fst ps).
Proof.
  intros Hn. unfold pass_all, passes. destruct (by_name && _) eqn:E.
  - split; [discriminate|]. intros (a & (H & _) & _). apply andb_prop in E as [-> E]. rewrite (H eq_refl) in E. discriminate E.
  - assert (Hb : by_name = true -> args = []) by (intros ->; destruct args; [reflexivity|discriminate E]).
    destruct (forallb _ _) eqn:F.
    + rewrite forallb_forall in F. split.
      * intros H. destruct (pass_sound ps args kw os Hn H) as (a & -> & L & A). exists a. split; [|reflexivity]. split; [exact Hb|]. split; [exact L|]. split; [|exact A].
        intros k Hk. apply tmem_In. now apply F.
      * intros (a & (_ & L & _ & A) & ->). now apply pass_complete.
    + split; [discriminate|]. intros (a & (_ & _ & K & _) & _). assert (forallb (fun n => tmem n (map fst ps)) (dkeys kw) = true); [|congruence].
      apply forallb_forall. intros k Hk. apply tmem_In. now apply K.
Qed.

(** *** Submatchers *)
Lemma obj_ind' (P : obj -> Prop) :
  (forall c, P (OConst c)) -> (forall l, Forall P l -> P (OTuple l)) -> (forall l, Forall P l -> P (OList l)) -> (forall l, Forall P l -> P (OSet l)) ->
  (forall l, Forall (fun kv => P (fst kv) /\ P (snd kv)) l -> P (ODict l)) -> (forall m, P (OMatcher m)) -> (forall c, P (OConflict c)) -> (forall g, P (OMerge g)) -> forall o, P o.
Proof.
  intros H1 H2 H3 H4 H5 H6 H7 H8. fix IH 1. intros [c|l|l|l|l|m|c|g]; [apply H1|apply H2|apply H3|apply H4|apply H5|apply H6|apply H7|apply H8].
  1-3: induction l as [|x l IHl]; constructor; [apply IH|exact IHl].
  induction l as [|[x y] l IHl]; constructor; [split; apply IH|exact IHl].
Qed.
Lemma written_iff o : forall v, as_value o = Some v <-> written_as o v.
Proof.
  induction o as [c|l _|l IH|l _|l _|m|c|g] using obj_ind'; intros v; cbn [as_value]; try (split; [discriminate|intros H; inversion H]; fail).
  - split; [intros [= <-]; constructor|intros H; inversion H; reflexivity].
  - set (go := fix go (l : list obj) : option (list value) :=
               match l with
               | [] => Some []
               | x :: rest => match as_value x, go rest with Some v, Some vs => Some (v :: vs) | _, _ => None end
               end).
    assert (K : forall vs, go l = Some vs <-> Forall2 written_as l vs).
    { induction IH as [|x l Hx F IHl]; intros vs; cbn [go].
      - split; [intros [= <-]; constructor|intros H; inversion H; reflexivity].
      - split.
        + destruct (as_value x) as [w|] eqn:E; [|discriminate]. destruct (go l) as [ws|]; [|discriminate]. intros [= <-]. constructor; [now apply Hx|now apply IHl].
        + intros H. inversion H as [|? w ? ws H1 H2]; subst. apply Hx in H1. apply IHl in H2. now rewrite H1, H2. }
    split.
    + destruct (go l) as [vs|] eqn:E; [|discriminate]. intros [= <-]. constructor. now apply K.
    + intros H. inversion H as [|? vs H1]; subst. apply K in H1. now rewrite H1.
Qed.
Lemma equal_to_iff o m : equal_to o m <-> m = implicit_equals o.
Proof.
  unfold implicit_equals. split.
  - intros H. inversion H as [? v W|? W]; subst; [apply written_iff in W; now rewrite W|]. destruct (as_value o) as [v|] eqn:E; [|reflexivity]. apply written_iff in E. now destruct (W v).
  - intros ->. destruct (as_value o) as [v|] eqn:E; [constructor; now apply written_iff|]. apply E_never. intros v W. apply written_iff in W. congruence.
Qed.
Lemma stands_iff o m : stands o m <-> m = coerce o.
Proof.
  split.
  - intros H. inversion H as [|? ? N E]; subst; [reflexivity|]. apply equal_to_iff in E. rewrite E. destruct o; try reflexivity. destruct N. now eexists.
  - intros ->. destruct o; cbn [coerce]; try (constructor; [intros (? & [=])|now apply equal_to_iff]). constructor.
Qed.
Lemma sub_iff o m : submatcher o m <-> m = sub o.
Proof. destruct o; cbn [submatcher sub]; [apply stands_iff|reflexivity]. Qed.
Lemma stands_all l ms : Forall2 stands l ms <-> ms = map coerce l.
Proof.
  split.
  - induction 1 as [|x m l ms H F IH]; [reflexivity|]. apply stands_iff in H. cbn [map]. now rewrite <- H, <- IH.
  - intros ->. induction l; constructor; [now apply stands_iff|assumption].
Qed.
Lemma items_iff o ms : items (Some o) ms <-> coerce_list o = Ok ms.
Proof.
  split.
  - intros (l & F & H). apply stands_all in F. subst ms. destruct H as [[= ->]|[[= ->]|[(vs & [= ->] & L)|(s & [= ->] & ->)]]]; try reflexivity.
    + cbn [coerce_list]. f_equal. revert vs L. induction l as [|x l IH]; intros [|v vs] L; try discriminate L; [reflexivity|]. cbn [combine map fst]. f_equal. apply IH. now injection L.
    + cbn [coerce_list]. now rewrite map_map.
  - intros H. destruct o as [c|l|l|l|l|m|c|g]; try discriminate H; cbn [coerce_list] in H.
    + destruct c; try discriminate H. injection H as <-. exists (map (fun c => OConst (CStr [c])) s). split; [apply stands_all; now rewrite map_map|]. right. right. right. now eexists.
    + injection H as <-. exists l. split; [now apply stands_all|]. tauto.
    + injection H as <-. exists l. split; [now apply stands_all|]. tauto.
    + injection H as <-. exists (map fst l). split; [apply stands_all; now rewrite map_map|]. right. right. left. exists (map snd l). split; [|now rewrite !map_length].
      do 2 f_equal. induction l as [|[x y] l IH]; [reflexivity|]. cbn [map combine fst snd]. now rewrite <- IH.
Qed.
Lemma string_iff o s : string o s <-> str_arg o = Ok s.
Proof.
  unfold string, str_arg. split; [intros ->; reflexivity|]. destruct o as [[[]| | | | | | | ]|]; try discriminate. now intros [= ->].
Qed.
Lemma conflict_iff o c : optional OConflict o c <-> conflict_of o = Ok c.
Proof.
  unfold optional, conflict_of. split.
  - destruct c; [intros ->; reflexivity|]. intros [->| ->]; reflexivity.
  - destruct o as [[[]| | | | | |c'| ]|]; try discriminate; intros [= <-]; auto.
Qed.
Lemma merge_iff o c : optional OMerge o c <-> merge_of o = Ok c.
Proof.
  unfold optional, merge_of. split.
  - destruct c; [intros ->; reflexivity|]. intros [->| ->]; reflexivity.
  - destruct o as [[[]| | | | | | |c']|]; try discriminate; intros [= <-]; auto.
Qed.
Lemma integer_iff o n : integer o n <-> int_of o = Ok n.
Proof.
  unfold integer, int_of. split.
  - intros (k & [->| ->] & c & -> & ->); reflexivity.
  - destruct o as [[| |[] c| |]| | | | | | |]; try discriminate; intros [= <-]; eexists; (split; [|eexists; split; reflexivity]); auto.
Qed.
Lemma integers_iff l ns : Forall2 integer l ns <-> mapM int_of l = Ok ns.
Proof.
  revert ns. induction l as [|x l IH]; intros ns; cbn [mapM].
  - split; [intros H; inversion H; reflexivity|intros [= <-]; constructor].
  - split.
    + intros H. inversion H as [|? n ? ns' H1 H2]; subst. apply integer_iff in H1. apply IH in H2. now rewrite H1, H2.
    + intros H. apply bind_Ok in H as (n & H1 & H). apply bind_Ok in H as (ns' & H2 & [= <-]). constructor; [now apply integer_iff|now apply IH].
Qed.
Lemma matchers_iff os : forall ms, only_matchers os = Ok ms <-> os = map Some (map OMatcher ms).
Proof.
  induction os as [|o os IH]; intros ms; cbn [only_matchers].
  - split; [intros [= <-]; reflexivity|]. destruct ms; [reflexivity|discriminate].
  - split.
    + destruct o as [[| | | | |m| |]|]; try discriminate. intros H. apply bind_Ok in H as (ms' & H & [= <-]). apply IH in H. now rewrite H.
    + destruct ms as [|m ms]; [discriminate|]. intros [= -> H]. apply IH in H. now rewrite H.
Qed.

Lemma last_part_iff s r : last_name s r <-> r = last_part s.
Proof.
  unfold last_name, last_part. set (go := fix go (l : text) : text := match l with [] => [] | c :: r => if c =? 46 then [] else c :: go r end).
  assert (G1 : forall l, ~ In 46 (go l) /\ (l = go l \/ exists q, l = go l ++ 46 :: q)).
  { induction l as [|c l [I1 I2]]; cbn [go]; [split; [intros []|now left]|]. destruct (Z.eqb_spec c 46) as [->|N].
    - split; [intros []|]. right. now exists l.
    - split; [intros [K|K]; [congruence|now apply I1]|]. destruct I2 as [E|(q & E)]; [left; exact (f_equal (cons c) E)|right; exists q]. exact (f_equal (cons c) E). }
  assert (G2 : forall u q, ~ In 46 u -> go (u ++ 46 :: q) = u /\ go u = u).
  { induction u as [|c l IH]; intros q N; [split; reflexivity|]. cbn [app go]. destruct (Z.eqb_spec c 46) as [->|_]; [destruct N; now left|].
    destruct (IH q) as [E1 E2]; [intros K; apply N; now right|]. split; [exact (f_equal (cons c) E1)|exact (f_equal (cons c) E2)]. }
  split.
  - intros [N H]. assert (N' : ~ In 46 (rev r)) by (intros K; apply N; now apply in_rev). destruct H as [->|(q & ->)].
    + rewrite (proj2 (G2 (rev r) [] N')). now rewrite rev_involutive.
    + assert (E : rev (q ++ TX "." ++ r) = rev r ++ 46 :: rev q) by (rewrite !rev_app_distr, <- app_assoc; reflexivity).
      exact (eq_sym (eq_trans (f_equal (@rev Z) (eq_trans (f_equal go E) (proj1 (G2 (rev r) (rev q) N')))) (rev_involutive r))).
  - intros ->. destruct (G1 (rev s)) as [N H]. split; [intros K; apply N; now apply in_rev|]. destruct H as [E|(q & E)].
    + left. rewrite <- E. now rewrite rev_involutive.
    + right. exists (rev q). apply (f_equal (@rev Z)) in E. rewrite rev_involutive, rev_app_distr in E. cbn [rev] in E. rewrite <- app_assoc in E. exact E.
Qed.
