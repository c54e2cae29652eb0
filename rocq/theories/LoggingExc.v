(** The fixer for [logging.exception]: what its matcher finds.  Proofs. *)
From Verif Require Import TemplateProofs Py PyFacts Regex RegexProofs Subst ApplySpec Ast Template FromDiff Matcher MatchSpec MergeSpec MergeProofs MatcherProofs BindProofs OnceProofs FindSpec FindProofs
  NavSpec NavProofs CollSpec CollProofs PatTok PatSpec Pattern PatternSpec EquivProofs PatternProofs PatternApi LexProofs RenameProofs
  PyTemplate PyTemplateSpec PyTemplateProofs Search SearchSpec Removal OwnSpec
  PropsTemplate ExprSubSpec ExprSubProofs PropsExprSub Fixer FixerSpec FixerProofs PyCode BuiltinFixers BuiltinSpec CodeProofs BuiltinProofs BuiltinApply BuiltinTables BuiltinMain
  CorrectnessFixers CorrectnessSpec CorrectnessProofs CorrectnessMain CorrectnessSearch ThoroughSpec ThoroughCode ThoroughProofs ThoroughSearch ThoroughMain
  IdiomFixers IdiomSpec IdiomProofs LoggingSpec LoggingEval LoggingProofs LoggingError LoggingExcSpec.
From Coq Require Import Permutation.

(** *** The regular expression *)
Lemma dollar_language r txt a b : ~ matches r [] -> 0 <= a -> 0 <= b <= tlen txt ->
  (exists regs, cr_match (dollar r) txt a b = Some regs) <-> exists w, (slice txt a b = w \/ slice txt a b = w ++ [10]) /\ matches r w.
Proof.
  intros Nr Ha [H0 Hb]. split.
  - intros (regs & H). pose proof (dollar_compiled r txt a b) as K. rewrite H in K. destruct K as [(e & (_ & A2 & A3 & A4 & _) & D) _].
    exists (slice txt a e). split; [|exact A4]. destruct D as [->|[D1 D2]]; [now left|right]. rewrite <- (slice_app txt a e b) by lia. now rewrite D2.
  - intros (w & E & M).
    assert (Hab : a < b).
    { destruct (Z_lt_le_dec a b) as [|L]; [assumption|]. exfalso. rewrite (slice_inv txt a b H0 L) in E. destruct E as [E|E]; [rewrite <- E in M; contradiction|]. destruct w; discriminate E. }
    pose proof (dollar_compiled r txt a b) as K. destruct (cr_match _ txt a b) as [regs|]; [eauto|]. exfalso. destruct E as [E|E].
    + apply (K b [(a, b)]); [|now left]. do 3 (split; [lia|]). split; [|reflexivity]. now rewrite E.
    + assert (Es : slice txt a (b - 1) = w /\ slice txt (b - 1) b = [10]).
      { pose proof (slice_app txt a (b - 1) b ltac:(lia) ltac:(lia) ltac:(lia)) as S. rewrite E in S.
        pose proof (slice_len txt (b - 1) b ltac:(lia) ltac:(lia) ltac:(lia)) as Sl. destruct (slice txt (b - 1) b) as [|x [|y l]]; try (unfold tlen in Sl; cbn [length] in Sl; lia).
        apply app_inj_tail in S. exact (conj (proj1 S) (f_equal (fun x => [x]) (proj2 S))). }
      destruct Es as [E1 E2]. apply (K (b - 1) [(a, b - 1)]); [|right; split; [lia|exact E2]]. do 3 (split; [lia|]). split; [|reflexivity]. now rewrite E1.
Qed.
Lemma star_cls p s : matches (Star (Cls p)) s <-> Forall (fun c => p c = true) s.
Proof.
  split.
  - intros H. remember (Star (Cls p)) as r eqn:Er. induction H as [| | | | | |a s t H1 _ H2 IH]; try discriminate Er; [constructor|]. injection Er as ->.
    inversion H1; subst. cbn [app]. constructor; auto.
  - induction 1 as [|c s Hc Hs IH]; [constructor|]. change (c :: s) with ([c] ++ s). constructor; [now constructor|exact IH].
Qed.
Lemma quoted_language w : matches quoted_re w <-> exists a b, w = a ++ [34] ++ b /\ a <> [] /\ b <> [] /\ ~ In 10 w.
Proof.
  assert (D : forall s, Forall (fun c => negb (c =? 10) = true) s <-> ~ In 10 s).
  { intros s. rewrite Forall_forall. split.
    - intros H K. specialize (H _ K). discriminate H.
    - intros H c Hc. apply negb_true_iff. apply Z.eqb_neq. intros ->. contradiction. }
  assert (P : forall s, matches (Seq (Cls (fun c => negb (c =? 10))) (Star (Cls (fun c => negb (c =? 10))))) s <-> s <> [] /\ ~ In 10 s).
  { intros s. split.
    - intros H. inversion H as [| |? ? s1 s2 H1 H2| | | |]; subst. inversion H1; subst. apply star_cls in H2. split; [discriminate|]. apply D. constructor; assumption.
    - intros [N H]. destruct s as [|c s]; [congruence|]. apply D in H. inversion H; subst. change (c :: s) with ([c] ++ s). constructor; [now constructor|now apply star_cls]. }
  unfold quoted_re. split.
  - intros H. inversion H as [| |? ? s1 s2 H1 H2| | | |]; subst. inversion H2 as [| |? ? s3 s4 H3 H4| | | |]; subst. inversion H3; subst.
    match goal with K : (_ =? 34) = true |- _ => apply Z.eqb_eq in K; subst end.
    apply P in H1 as [N1 F1], H4 as [N4 F4]. exists s1, s4. do 3 (split; [assumption || reflexivity|]). intros K. apply in_app_or in K as [K|[K|K]]; [contradiction|discriminate K|contradiction].
  - intros (a & b & -> & N1 & N2 & F). constructor; [apply P; split; [exact N1|]; intros K; apply F, in_or_app; now left|].
    constructor; [now constructor|]. apply P. split; [exact N2|]. intros K. apply F, in_or_app. right. now right.
Qed.
Lemma quoted_dollar txt a b : 0 <= a -> 0 <= b <= tlen txt -> (exists regs, cr_match (dollar quoted_re) txt a b = Some regs) <-> quoted (slice txt a b).
Proof.
  intros Ha Hb. rewrite dollar_language by (auto; intros K; apply quoted_language in K as (x & y & E & _); destruct x; discriminate E).
  split.
  - intros (w & E & M). apply quoted_language in M as (x & y & M). exists w, x, y. tauto.
  - intros (w & x & y & E & M). exists w. split; [exact E|]. apply quoted_language. eauto.
Qed.

(** *** More about what is given *)
Lemma gives_no_items e v : (exists id, v = VList id []) \/ (exists id x l, v = VList id (x :: l)) ->
  gives e v (MItemsAre []) (match v with VList _ [] => Some [] | _ => None end).
Proof. intros [(id & ->)|(id & x & l & ->)] d s; reflexivity. Qed.
(** Without its bindings' strategies. *)
Lemma gives_unrebound e c m o cf g : gives e c (MRebind m cf g) o -> (o = None \/ o = Some []) -> gives e c m o.
Proof.
  intros H Ho d s. specialize (H d s). cbn [eval] in H. unfold mbind, lift in H. destruct (eval (with_done e d) m c s) as [s1 [[[rm [b|] t|]|]|x]]; cbn [r_bindings r_match r_reps bind not_none] in H.
  - destruct Ho as [-> | ->]; cbn [option_map] in *; [discriminate H|]. assert (map (fun kv : label * bound => (fst kv, rebind cf g (snd kv))) b = [] /\ rm = create_match (e_parsed e) c /\ t = [] /\ s1 = s) as (E1 & -> & -> & ->).
    { unfold ret in H. repeat split; congruence. } destruct b; [reflexivity|discriminate E1].
  - discriminate H.
  - discriminate H.
  - destruct Ho as [-> | ->]; cbn [option_map] in *; [exact H|discriminate H].
  - discriminate H.
Qed.
Lemma gives_anyof e c ms o : forall m, In m ms -> gives e c m o -> (forall m', In m' ms -> admits (type_filter m') (vtype c) = true -> m' = m) -> admits (type_filter m) (vtype c) = true -> NoDup ms ->
  gives e c (MAnyOf ms) o.
Proof.
  intros m Hin Hg Hu Ha Hd d s. rewrite eval_anyof.
  assert (E : filter (fun m0 => admits (type_filter m0) (vtype c)) ms = [m]).
  { clear Hg. induction Hd as [|m1 ms N Hd IH]; [destruct Hin|]. cbn [filter]. destruct (admits (type_filter m1) (vtype c)) eqn:E1.
    - assert (m1 = m) as -> by (apply Hu; [now left|exact E1]). f_equal.
      assert (forall l, (forall m', In m' l -> In m' ms) -> filter (fun m0 => admits (type_filter m0) (vtype c)) l = []) as K.
      { induction l as [|m2 l IHl]; intros Hl; [reflexivity|]. cbn [filter]. destruct (admits (type_filter m2) (vtype c)) eqn:E2.
        - exfalso. apply N. rewrite <- (Hu m2); [apply Hl; now left|right; apply Hl; now left|exact E2].
        - apply IHl. intros m' Hm'. apply Hl. now right. }
      now apply K.
    - destruct Hin as [->|Hin]; [congruence|]. apply IH; [exact Hin|]. intros m' Hm'. apply Hu. now right. }
  rewrite E. cbn [map first_of]. unfold mbind. rewrite Hg. now destruct o.
Qed.
Lemma gives_noneof e c ms : (forall m', In m' ms -> admits (type_filter m') (vtype c) = false) -> gives e c (MAnyOf ms) None.
Proof.
  intros H d s. rewrite eval_anyof. assert (E : filter (fun m0 => admits (type_filter m0) (vtype c)) ms = []).
  { induction ms as [|m ms IH]; [reflexivity|]. cbn [filter]. rewrite H by now left. apply IH. intros m' Hm'. apply H. now right. }
  rewrite E. reflexivity.
Qed.

(** *** The body of a [try] *)
Section Body.
  Variable e : env.
  Definition func_bound (g : value) : dict bound := [(TX "func", bound_value (create_match (e_parsed e) g) None None)].
  Definition spans_fine : Prop := forall v a b, PatternSpec.inside (e_tree e) v -> m_span (create_match (e_parsed e) v) = Some (a, b) -> 0 <= a /\ 0 <= b <= tlen (pf_text (e_parsed e)).
  Hypothesis Sp : spans_fine.
  Lemma gives_call_func w : gives e w call_func (if text_eqb (vtype w) (TX "Call") then Some (func_bound (vfield w (TX "func"))) else None).
  Proof.
    destruct (text_eqb_spec (vtype w) (TX "Call")) as [E|N]; [|now apply gives_other].
    apply (gives_node e w _ _ [Some (func_bound (vfield w (TX "func"))); Some []; Some []]); [exact E| |reflexivity].
    constructor; [|constructor; [apply gives_anything|constructor; [apply gives_anything|constructor]]].
    cbn [fst snd]. apply (gives_bind e _ MAnything (Some []) (TX "func") None None (gives_anything e _)). intros b [= <-]. split; [reflexivity|constructor].
  Qed.
  Definition value_calls (st : value) : option (dict bound) :=
    if tmem (vtype st) [TX "Return"; TX "Expr"; TX "Assign"]
    then if text_eqb (vtype (vfield st (TX "value"))) (TX "Call") then Some (func_bound (vfield (vfield st (TX "value")) (TX "func"))) else None
    else None.
  Definition statements : list matcher :=
    [MNode (TX "Return") [(TX "value", call_func)]; MNode (TX "Expr") [(TX "value", call_func)];
     MNode (TX "Assign") [(TX "targets", MAnything); (TX "value", call_func); (TX "type_comment", MAnything)]].
  Lemma gives_statement st : gives e st (MAnyOf statements) (value_calls st).
  Proof.
    unfold value_calls. pose proof (gives_call_func (vfield st (TX "value"))) as Gc. set (o := if text_eqb (vtype (vfield st (TX "value"))) (TX "Call") then _ else _) in *. clearbody o.
    assert (Dup : NoDup statements).
    { repeat constructor; cbn [In]; intros K; repeat (destruct K as [K|K]; [discriminate K|]); destruct K. }
    assert (One : forall ty, vtype st = ty -> In ty [TX "Return"; TX "Expr"; TX "Assign"] -> forall m, In m statements -> admits (type_filter m) (vtype st) = true ->
      forall m', In m' statements -> admits (type_filter m') (vtype st) = true -> m' = m).
    { intros ty E Ht m Hm Am m' Hm' Am'. rewrite E in *. destruct Ht as [<-|[<-|[<-|[]]]]; destruct Hm as [<-|[<-|[<-|[]]]]; try discriminate Am;
        destruct Hm' as [<-|[<-|[<-|[]]]]; try discriminate Am'; reflexivity. }
    assert (J : forall m pre post, In m statements -> admits (type_filter m) (vtype st) = true -> m = MNode (vtype st) (pre ++ (TX "value", call_func) :: post) ->
      Forall (fun kv => snd kv = MAnything) pre -> Forall (fun kv => snd kv = MAnything) post -> gives e st m o).
    { intros m pre post _ _ -> F1 F2. apply (gives_node e st _ _ (map (fun _ => Some []) pre ++ o :: map (fun _ => Some []) post)); [reflexivity| |].
      - apply Forall2_app.
        + induction F1 as [|kv l E F IH]; constructor; [rewrite E; apply gives_anything|exact IH].
        + constructor; [exact Gc|]. induction F2 as [|kv l E F IH]; constructor; [rewrite E; apply gives_anything|exact IH].
      - assert (Q : forall acc (l : list (text * matcher)) rest, joined acc (map (fun _ => Some []) l ++ rest) = joined acc rest).
        { intros acc l rest. induction l as [|x l IH]; [reflexivity|]. cbn [map app joined]. rewrite merge_bindings_nil_r. exact IH. }
        rewrite Q. cbn [joined]. destruct o as [b|]; [|reflexivity]. rewrite merge_bindings_nil. cbn [bind].
        specialize (Q b post []). rewrite app_nil_r in Q. rewrite Q. reflexivity. }
    destruct (tmem (vtype st) _) eqn:Et.
    - apply tmem_In in Et. pose proof Et as Et'. destruct Et as [E|[E|[E|[]]]]; symmetry in E.
      + eapply (gives_anyof e st statements o (MNode (TX "Return") [(TX "value", call_func)])); [now left| | | |exact Dup].
        * rewrite <- E. apply (J _ [] []); [rewrite E; now left|now rewrite E|reflexivity|constructor|constructor].
        * apply (One (vtype st) eq_refl Et'); [now left|now rewrite E].
        * now rewrite E.
      + eapply (gives_anyof e st statements o (MNode (TX "Expr") [(TX "value", call_func)])); [right; now left| | | |exact Dup].
        * rewrite <- E. apply (J _ [] []); [rewrite E; right; now left|now rewrite E|reflexivity|constructor|constructor].
        * apply (One (vtype st) eq_refl Et'); [right; now left|now rewrite E].
        * now rewrite E.
      + eapply (gives_anyof e st statements o (MNode (TX "Assign") [(TX "targets", MAnything); (TX "value", call_func); (TX "type_comment", MAnything)])); [right; right; now left| | | |exact Dup].
        * rewrite <- E. apply (J _ [(TX "targets", MAnything)] [(TX "type_comment", MAnything)]); [rewrite E; right; right; now left|now rewrite E|reflexivity|constructor; [reflexivity|constructor]|constructor; [reflexivity|constructor]].
        * apply (One (vtype st) eq_refl Et'); [right; right; now left|now rewrite E].
        * now rewrite E.
    - apply gives_noneof. intros m Hm. destruct (admits (type_filter m) (vtype st)) eqn:A; [|reflexivity]. exfalso.
      assert (K : In (vtype st) [TX "Return"; TX "Expr"; TX "Assign"]).
      { assert (Q : forall ty, admits (Some [ty]) (vtype st) = true -> vtype st = ty).
        { intros ty. unfold admits. intros H. apply tmem_In in H. now destruct H as [<-|[]]. }
        destruct Hm as [<-|[<-|[<-|[]]]]; apply Q in A; rewrite A; cbn [In]; auto. }
      apply tmem_In in K. congruence.
  Qed.
  Variable G : grammar.
  Hypothesis HG : proper G.
  Hypothesis HGc : call_grammar G.
  Hypothesis HGt : try_grammar G.
  Hypothesis PT : parsed_tree G (e_tree e).
  Definition unquoted (st : value) : Prop :=
    forall a b, m_span (create_match (e_parsed e) st) = Some (a, b) -> ~ quoted (slice (pf_text (e_parsed e)) a b).
  Lemma gives_unquoted st : PatternSpec.inside (e_tree e) st ->
    (unquoted st /\ gives e st (MUnless (MMatchesRegex (dollar quoted_re) MAnything)) (Some []))
    \/ (~ unquoted st /\ gives e st (MUnless (MMatchesRegex (dollar quoted_re) MAnything)) None).
  Proof.
    intros Is. destruct (gives_decided e _ _ st (decides_regex (dollar quoted_re) eq_refl)) as [[(a & b & regs & E1 & E2) H]|[N H]]; [right|left]; (split; [|exact (gives_unless _ _ _ _ H)]).
    - intros U. destruct (Sp st a b Is E1) as [S1 S2]. apply (U a b E1). apply quoted_dollar; eauto.
    - intros a b E1 Q. apply N. destruct (Sp st a b Is E1) as [S1 S2]. apply quoted_dollar in Q as (regs & E2); try assumption. exists a, b, regs. auto.
  Qed.
  Lemma just_calls_given st : PatternSpec.inside (e_tree e) st ->
    (exists func, just_calls st func /\ value_calls st = Some (func_bound func)) \/ ((forall func, ~ just_calls st func) /\ value_calls st = None).
  Proof.
    intros Is. unfold value_calls. destruct (tmem (vtype st) _) eqn:Et.
    - apply tmem_In in Et. assert (exists i fs, st = VNode i fs) as (i & fs & ->).
      { destruct Et as [E|[E|[E|[]]]]; symmetry in E; [exact (node_of_type st (TX "Return") eq_refl E)|exact (node_of_type st (TX "Expr") eq_refl E)|exact (node_of_type st (TX "Assign") eq_refl E)]. }
      change (vtype (VNode i fs)) with (n_type i) in Et. cbn [vfield].
      destruct (dget fs (TX "value")) as [w|] eqn:Ev.
      2:{ right. split; [|reflexivity]. intros func (i' & fs' & j & gs & E & _ & Ev' & _). injection E as <- <-. congruence. }
      destruct (text_eqb_spec (vtype w) (TX "Call")) as [Ec|Nc].
      + left. assert (Iw : PatternSpec.inside (e_tree e) w).
        { apply dget_In in Ev. eapply EquivProofs.inside_child; [exact Is|]. cbn [vchildren]. now apply (in_map snd) in Ev. }
        destruct (field_of e G PT w _ (TX "func") false Iw Ec) as (j & gs & -> & Ej & Ef & If); [now apply not_builtin|rewrite (proj1 HGc); now left|].
        exists (vfield (VNode j gs) (TX "func")). split; [|reflexivity]. exists i, fs, j, gs. auto.
      + right. split; [|reflexivity]. intros func (i' & fs' & j & gs & E & _ & Ev' & Ej & _). injection E as <- <-. rewrite Ev in Ev'. injection Ev' as ->. contradiction.
    - right. split; [|reflexivity]. intros func (i' & fs' & j & gs & -> & Hi & _). apply tmem_In in Hi. change (vtype (VNode i' fs')) with (n_type i') in Et. congruence.
  Qed.
  Lemma gives_only_call st : PatternSpec.inside (e_tree e) st ->
    (exists func, just_calls st func /\ unquoted st /\ gives e st only_call (Some (func_bound func)))
    \/ ((forall func, just_calls st func -> ~ unquoted st) /\ gives e st only_call None).
  Proof.
    intros Is. pose proof (gives_statement st) as G1. destruct (gives_unquoted st Is) as [[U G2]|[U G2]], (just_calls_given st Is) as [(func & J & Ej)|[J Ej]]; rewrite Ej in G1.
    - left. exists func. split; [exact J|]. split; [exact U|]. apply (gives_all e st _ [Some (func_bound func); Some []]); [constructor; [exact G1|constructor; [exact G2|constructor]]|].
      cbn [joined]. rewrite merge_bindings_nil. cbn [bind]. rewrite merge_bindings_nil_r. reflexivity.
    - right. split; [intros func K; destruct (J func K)|]. apply (gives_all e st _ [None; Some []]); [constructor; [exact G1|constructor; [exact G2|constructor]]|reflexivity].
    - right. split; [auto|]. apply (gives_all e st _ [Some (func_bound func); None]); [constructor; [exact G1|constructor; [exact G2|constructor]]|].
      cbn [joined]. rewrite merge_bindings_nil. reflexivity.
    - right. split; [auto|]. apply (gives_all e st _ [None; None]); [constructor; [exact G1|constructor; [exact G2|constructor]]|reflexivity].
  Qed.
  Lemma list_field i fs ty x w : PatternSpec.inside (e_tree e) (VNode i fs) -> n_type i = ty -> In (x, true) (G ty) -> dget fs x = Some w -> exists id l, w = VList id l.
  Proof.
    intros Ic Ei Hx Hw. assert (C : conforms G (VNode i fs)) by (eapply conforms_inside; [apply (pt_conforms _ _ PT)|exact Ic]).
    inversion C as [| |? ? _ E _]; subst. rewrite <- E in Hx. apply in_map_iff in Hx as ([y u] & Ey & Hin).
    injection Ey as <- Hu. assert (ND : NoDup (map fst fs)).
    { replace (map fst fs) with (map fst (G (n_type i))); [|rewrite <- E, map_map; reflexivity]. apply HG. }
    apply (In_dget fs y u) in Hin; [|exact ND]. rewrite Hw in Hin. injection Hin as ->. destruct u as [| id l|]; try discriminate Hu. eauto.
  Qed.
  Definition in_try : matcher := MHasFirstAncestor (try_ MAnything) (try_ (MAllOf [MItemsAre [only_call]])).
  Definition try_has (t func : value) : Prop :=
    exists i fs id st, t = VNode i fs /\ dget fs (TX "body") = Some (VList id [st]) /\ just_calls st func /\ unquoted st.
  Lemma gives_try t : PatternSpec.inside (e_tree e) t -> vtype t = TX "Try" ->
    (exists func, try_has t func /\ gives e t (try_ (MAllOf [MItemsAre [only_call]])) (Some (func_bound func)))
    \/ ((forall func, ~ try_has t func) /\ gives e t (try_ (MAllOf [MItemsAre [only_call]])) None).
  Proof.
    intros It Et. destruct (field_of e G PT t _ (TX "body") true It Et) as (i & fs & -> & Ei & Eb & Ib); [now apply not_builtin|rewrite HGt; now left|].
    assert (Lb : exists id l, vfield (VNode i fs) (TX "body") = VList id l).
    { eapply list_field; [exact It|exact Ei|rewrite HGt; now left|exact Eb]. }
    destruct Lb as (id & l & El). rewrite El in *.
    assert (Node : forall o, gives e (VList id l) (MItemsAre [only_call]) o -> gives e (VNode i fs) (try_ (MAllOf [MItemsAre [only_call]])) o).
    { intros o H. apply (gives_node e _ _ _ [o; Some []; Some []; Some []]); [exact Et| |].
      - constructor; [cbn [fst snd]; rewrite El; apply (gives_all e _ _ [o]); [constructor; [exact H|constructor]|]|].
        + cbn [joined]. destruct o as [b|]; [|reflexivity]. rewrite merge_bindings_nil. reflexivity.
        + do 3 (constructor; [apply gives_anything|]). constructor.
      - cbn [joined]. destruct o as [b|]; [|reflexivity]. rewrite merge_bindings_nil. cbn [bind]. rewrite merge_bindings_nil_r. cbn [bind]. rewrite merge_bindings_nil_r. cbn [bind]. rewrite merge_bindings_nil_r. reflexivity. }
    destruct l as [|st [|st' l]].
    - right. split; [intros func (i' & fs' & id' & st & E & E' & _); injection E as <- <-; congruence|]. apply Node, gives_no_item. discriminate.
    - assert (Is : PatternSpec.inside (e_tree e) st) by (eapply EquivProofs.inside_child; [exact Ib|now left]).
      destruct (gives_only_call st Is) as [(func & J & U & H)|[N H]].
      + left. exists func. split; [exists i, fs, id, st; auto|]. now apply Node, gives_item.
      + right. split; [|now apply Node, gives_item]. intros func (i' & fs' & id' & st' & E & E' & J & U). injection E as <- <-.
        assert (st' = st) as -> by congruence. exact (N func J U).
    - right. split; [intros func (i' & fs' & id' & st0 & E & E' & _); injection E as <- <-; congruence|]. apply Node, gives_no_item. discriminate.
  Qed.
  Hypothesis Un : unshared (e_tree e).
  Lemma gives_in_try p c : at_path (e_tree e) p = Some c -> is_node c = true ->
    (exists func, only_tries (e_parsed e) (e_tree e) p func /\ gives e c in_try (Some (func_bound func)))
    \/ ((forall func, ~ only_tries (e_parsed e) (e_tree e) p func) /\ gives e c in_try None).
  Proof.
    intros Hp Hn.
    assert (Cl : climbable (e_tree e) p c).
    { split; [apply Un; [exact Hp|now rewrite Hn]|]. intros. left. destruct c; try discriminate Hn. reflexivity. }
    assert (Sem : forall func, only_tries (e_parsed e) (e_tree e) p func <-> exists t, nearest (TX "Try") (e_tree e) p = Some t /\ try_has t func).
    { intros func. split.
      - intros (i & fs & id & st & (q & r & E1 & E2 & E3 & E4 & E5) & H). exists (VNode i fs). split; [eapply place_nearest; eassumption|]. exists i, fs, id, st. tauto.
      - intros (t & Hn' & i & fs & id & st & -> & H). destruct (nearest_place _ _ _ _ Hp _ Hn') as (q & r & E1 & E2 & E3 & E4 & E5). exists i, fs, id, st.
        split; [exists q, r; auto|exact H]. }
    assert (It : forall t, nearest (TX "Try") (e_tree e) p = Some t -> PatternSpec.inside (e_tree e) t /\ vtype t = TX "Try").
    { intros t Ht. destruct (nearest_place _ _ _ _ Hp _ Ht) as (q & r & E1 & E2 & E3 & E4 & E5). split; [now exists q|exact E4]. }
    destruct (nearest (TX "Try") (e_tree e) p) as [t|] eqn:Et.
    - destruct (It t eq_refl) as [I1 I2]. destruct (gives_try t I1 I2) as [(func & T & H)|[N H]]; [left; exists func|right]; (split; [|]).
      + apply Sem. eauto.
      + pose proof (gives_first_ancestor e (TX "Try") [(TX "body", MAnything); (TX "handlers", MAnything); (TX "orelse", MAnything); (TX "finalbody", MAnything)]
          (try_ (MAllOf [MItemsAre [only_call]])) p c (fun _ => Some (func_bound func)) Un Cl eq_refl) as K. rewrite Et in K. apply K; [repeat constructor|]. now intros ? [= <-].
      + intros func K. apply Sem in K as (t' & E & K). injection E as <-. exact (N func K).
      + pose proof (gives_first_ancestor e (TX "Try") [(TX "body", MAnything); (TX "handlers", MAnything); (TX "orelse", MAnything); (TX "finalbody", MAnything)]
          (try_ (MAllOf [MItemsAre [only_call]])) p c (fun _ => None) Un Cl eq_refl) as K. rewrite Et in K. apply K; [repeat constructor|]. now intros ? [= <-].
    - right. split; [intros func K; apply Sem in K as (t' & E & _); discriminate E|].
      pose proof (gives_first_ancestor e (TX "Try") [(TX "body", MAnything); (TX "handlers", MAnything); (TX "orelse", MAnything); (TX "finalbody", MAnything)]
          (try_ (MAllOf [MItemsAre [only_call]])) p c (fun _ => None) Un Cl eq_refl) as K. rewrite Et in K. apply K; [repeat constructor|]. discriminate.
  Qed.
End Body.
