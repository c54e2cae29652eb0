(** Fixers made of expression patterns: proofs. *)
From Verif Require Import TemplateProofs Py PyFacts Subst Fmt ApplySpec SubstSpec SubstProofs ApplyProofs Ast Template FromDiff Matcher MatchSpec MergeSpec MergeProofs MatcherProofs FindSpec FindProofs
  NavSpec NavProofs PatTok PatSpec PatTokProofs LexProofs Pattern PatternSpec EquivProofs PatternProofs PatternApi RenameProofs
  PyTemplate PyTemplateSpec PyTemplateProofs Search SearchSpec SearchProofs RewriteProofs Removal RemovalSearch ReSubProofs OwnSpec
  PropsTemplate ExprSubSpec ExprSubProofs PropsExprSub Fixer FixerSpec FixerProofs PyCode CodeProofs BuiltinFixers.
From Coq Require Import Permutation Sorted.

(** *** White space is determined by the tokens *)
Lemma blank_det at_ g g' p : blank at_ g -> blank at_ g' -> after p g = after p g' -> g = g'.
Proof.
  intros (n & k & -> & _) (n0 & k0 & -> & _) H. rewrite !after_app in H. rewrite !after_spaces in H.
  assert (A : forall n, after p (concat (repeat continuation n)) = match n with O => p | S m => (fst p + Z.of_nat (S m), 0) end).
  { intros [|m]; [reflexivity|apply after_cont]. }
  rewrite !A in H. destruct p as [r c]. destruct n as [|n], n0 as [|n0]; cbn [fst snd] in H; pose proof (f_equal fst H) as H1; pose proof (f_equal snd H) as H2; cbn [fst snd] in H1, H2.
  - assert (k = k0) by lia. now subst.
  - lia.
  - lia.
  - assert (n = n0) by lia. assert (k = k0) by lia. now subst.
Qed.
Lemma spelled_det w p at_ ind gl : spelled w p at_ ind gl -> forall gl', spelled w p at_ ind gl' -> map snd gl = map snd gl' -> gl = gl'.
Proof.
  induction 1 as [p at_ ind t w T E|p at_ ind w g t l W B S1 E1 I1 D1 H IH|row col at_ ind k t l N Sp S1 E1 H IH|p at_ ind k t l T Sp Na H IH|row i ind w t l T Sp E1 E2 H IH];
    intros [|[g' t'] l'] H' M; try discriminate M; cbn [map snd] in M; injection M as <- M.
  - symmetry in M. apply map_eq_nil in M. subst l'. inversion H'; subst; try (match goal with X : spelled _ _ _ _ [] |- _ => inversion X end); reflexivity.
  - inversion H' as [? ? ? ? ? T' E'|? ? ? ? ? ? ? W' B' S1' E1' I1' D1' H0'|? ? ? ? ? ? ? N' Sp' S1' E1' H0'|? ? ? ? ? ? T' Sp' Na' H0'|? ? ? ? ? ? T' Sp' E1' E2' H0']; subst.
    + exfalso. apply W. rewrite T'. cbn. auto.
    + f_equal; [f_equal; apply (blank_det at_ _ _ p B B'); congruence|]. apply IH; assumption.
    + exfalso. apply W. destruct N' as [->| ->]; cbn; auto 10.
    + exfalso. apply W. rewrite T'. cbn. auto 10.
    + exfalso. apply W. rewrite T'. cbn. auto 10.
  - inversion H' as [? ? ? ? ? T' E'|? ? ? ? ? ? ? W' B' S1' E1' I1' D1' H0'|? ? ? ? ? ? ? N' Sp' S1' E1' H0'|? ? ? ? ? ? T' Sp' Na' H0'|? ? ? ? ? ? T' Sp' E1' E2' H0']; subst.
    + exfalso. destruct N as [N|N]; rewrite N in T'; discriminate T'.
    + exfalso. apply W'. destruct N as [->| ->]; cbn; auto 10.
    + rewrite S1 in S1'. injection S1' as K. assert (k = k0) by lia. subst k0. f_equal. apply IH; assumption.
    + exfalso. destruct N as [N|N]; rewrite N in T'; discriminate T'.
    + exfalso. destruct N as [N|N]; rewrite N in T'; discriminate T'.
  - inversion H' as [? ? ? ? ? T' E'|? ? ? ? ? ? ? W' B' S1' E1' I1' D1' H0'|? ? ? ? ? ? ? N' Sp' S1' E1' H0'|? ? ? ? ? ? T' Sp' Na' H0'|? ? ? ? ? ? T' Sp' E1' E2' H0']; subst.
    + rewrite T in T'. discriminate T'.
    + exfalso. apply W'. rewrite T. cbn. auto 10.
    + exfalso. destruct N' as [N|N]; rewrite N in T; discriminate T.
    + f_equal. apply IH; [|exact M]. assert (k = k0) by (rewrite Sp in Sp'; apply (f_equal (@length Z)) in Sp'; unfold spaces in Sp'; now rewrite !repeat_length in Sp').
      now subst k0.
    + rewrite T in T'. discriminate T'.
  - inversion H' as [? ? ? ? ? T' E'|? ? ? ? ? ? ? W' B' S1' E1' I1' D1' H0'|? ? ? ? ? ? ? N' Sp' S1' E1' H0'|? ? ? ? ? ? T' Sp' Na' H0'|? ? ? ? ? ? T' Sp' E1' E2' H0']; subst.
    + rewrite T in T'. discriminate T'.
    + exfalso. apply W'. rewrite T. cbn. auto 10.
    + exfalso. destruct N' as [N|N]; rewrite N in T; discriminate T.
    + rewrite T in T'. discriminate T'.
    + f_equal. apply IH; assumption.
Qed.

(** *** Tokens of one line *)
Definition wordb (t : ptok) : bool := negb (existsb (Z.eqb (pt_type t)) [T_ENCODING; T_ENDMARKER; T_INDENT; T_DEDENT; T_NEWLINE; T_NL]).
Definition pos_eqb (p q : Z * Z) : bool := (fst p =? fst q) && (snd p =? snd q).
Lemma pos_eqb_eq p q : pos_eqb p q = true -> p = q.
Proof. unfold pos_eqb. intros H. destruct p, q. cbn in H. f_equal; lia. Qed.
Fixpoint lineb (p : Z * Z) (gl : list (text * ptok)) : bool :=
  match gl with
  | [] => false
  | (g, t) :: l =>
      forallb (Z.eqb 32) g &&
      (if pt_type t =? T_ENDMARKER then match l with [] => match g with [] => text_eqb (pt_string t) [] | _ => false end | _ => false end
       else if pt_type t =? T_NEWLINE then forallb is_space (pt_string t) && pos_eqb (pt_start t) (after p g) && (fst (pt_end t) =? fst p)
                                           && lineb (fst p + 1, 0) l
       else wordb t && pos_eqb (pt_start t) (after p g) && pos_eqb (pt_end t) (after (pt_start t) (pt_string t)) && lineb (pt_end t) l)
  end.
Lemma all_spaces g : forallb (Z.eqb 32) g = true -> g = spaces (length g).
Proof.
  induction g as [|c g IH]; [reflexivity|]. cbn [forallb]. intros H. apply andb_prop in H as [H1 H2]. unfold spaces. cbn [length repeat].
  rewrite (IH H2) at 1. apply Z.eqb_eq in H1. now rewrite <- H1.
Qed.
Lemma lineb_spelled gl : forall p at_, lineb p gl = true -> spelled 0 p at_ [] gl.
Proof.
  induction gl as [|[g t] l IH]; intros p at_ H; cbn [lineb] in H; [discriminate H|].
  apply andb_prop in H as [Hg H]. destruct (Z.eqb_spec (pt_type t) T_ENDMARKER) as [E|N].
  - destruct l; [|discriminate H]. destruct g; [|discriminate H]. apply text_eqb_eq in H. now apply SL_end.
  - destruct (Z.eqb_spec (pt_type t) T_NEWLINE) as [E|N'].
    + apply andb_prop in H as [H H4]. apply andb_prop in H as [H H3]. apply andb_prop in H as [H1 H2]. apply pos_eqb_eq in H2.
      rewrite (all_spaces _ Hg) in *. rewrite after_spaces in H2. destruct p as [row col]. apply SL_newline; auto.
      * now left.
      * cbn [fst] in H3. lia.
    + apply andb_prop in H as [H H4]. apply andb_prop in H as [H H3]. apply andb_prop in H as [H1 H2]. apply pos_eqb_eq in H2, H3.
      apply SL_word; auto.
      * intros K. unfold wordb in H1. apply negb_true_iff in H1. assert (existsb (Z.eqb (pt_type t)) [T_ENCODING; T_ENDMARKER; T_INDENT; T_DEDENT; T_NEWLINE; T_NL] = true); [|congruence].
        apply existsb_exists. exists (pt_type t). split; [exact K|apply Z.eqb_refl].
      * exists 0%nat, (length g). split; [now apply all_spaces|now left].
      * intros _. destruct l as [|[g' t'] l]; cbn [same_line]; [exact I|]. cbn [lineb] in H4. apply andb_prop in H4 as [H4 _].
        rewrite forallb_forall in H4. intros K. apply H4 in K. discriminate K.
Qed.

(** What can be checked of the text of an expression. *)
Record lexed (c : code label) : Prop := {
  lx_newline : endswith [NL] (source c) = false;
  lx_text : spelling (line_tokens (source c)) = source c ++ [NL];
  lx_line : lineb (1, 0) (line_tokens (source c)) = true;
  lx_vars : metavars (map snd (line_tokens (source c))) = left_open c;
  lx_anonymous : tmem (TX "_") (left_open c) = false;
  lx_root : tmem (TX "__root") (left_open c) = false;
  lx_show : forall f, expand_each (map f (left_open c)) (without_newline (line_tokens (source c))) = show f c;
  lx_plain : plain_tree (tree_of c) = true;
  lx_node : exists ty fs, tree_of c = TNode ty fs /\ forall i gs, n_type i = ty -> is_ctx (VNode i gs) = false
}.

Lemma in_nth_pair {X Y} (R : X -> Y -> Prop) l m x : Forall2 R l m -> In x l -> exists i y, nth_error l i = Some x /\ nth_error m i = Some y /\ R x y.
Proof.
  intros F. induction F as [|a b l m H F IH]; intros []; [subst; exists 0%nat, b; auto|].
  destruct IH as (i & y & H1); [assumption|]. exists (S i), y. exact H1.
Qed.
Section Trees.
  Variable tokenize : text -> res (list ptok).
  Variable ast_parse : text -> res value.
  Lemma code_tree {k} c holes p : understood_as k tokenize ast_parse c -> lexed c -> has_tree tokenize ast_parse k (source c) holes p ->
    (forall n h, holes n = Some h -> gensym n = true) /\ stands (at_hole holes) (tree_of c) p.
  Proof.
    intros [Ut Up] [L1 L0 L2 L3 L4 L5 L6 L7 _] (gl & news & names & anon & module & Et & Hs & Hsp & N & Ep & El & ->).
    rewrite L1 in Et, Ep. cbn [negb] in Et, Ep. rewrite Ut in Et. injection Et as Et.
    assert (gl = line_tokens (source c)) as ->.
    { eapply spelled_det; [exact Hs|apply lineb_spelled; exact L2|congruence]. }
    rewrite L3 in N. destruct N as (N1 & N2 & _ & N4 & N5 & N6 & N7).
    set (rename := fun x => match dget names x with Some n => n | None => TX "gensym" end).
    assert (Nu : forall x, In x (left_open c) -> text_eqb x (TX "_") = false).
    { intros x Hx. destruct (text_eqb_spec x (TX "_")) as [->|]; [|reflexivity]. apply tmem_In in Hx. congruence. }
    assert (E : news = map rename (left_open c)).
    { clear - N1 Nu. induction N1 as [|x n l m H F IH]; [reflexivity|]. cbn [map]. rewrite Nu in H by now left. f_equal.
      - unfold rename. now rewrite H.
      - apply IH. intros y Hy. apply Nu. now right. }
    assert (An : anon = []).
    { destruct anon as [|n anon]; [reflexivity|]. exfalso. destruct (N5 n (or_introl eq_refl)) as (i & Hi & _). apply nth_error_In in Hi.
      apply tmem_In in Hi. congruence. }
    subst anon. rewrite Forall_forall in N6.
    assert (Ri : forall x, invented (rename x)).
    { intros x. unfold rename. destruct (dget names x) as [n|] eqn:Ed.
      - destruct (N4 _ _ Ed) as (i & _ & Hi). apply nth_error_In in Hi. auto.
      - split; [reflexivity|]. now exists []. }
    assert (Gs : forall x, gensym (rename x) = true).
    { intros x. destruct (Ri x) as (_ & r & ->). reflexivity. }
    split.
    - intros n h. unfold metavariables. destruct (find _ names) as [[y z]|] eqn:Ef; [|cbn; discriminate].
      intros _. apply find_some in Ef as [Hin Ez]. cbn in Ez. apply text_eqb_eq in Ez. subst z.
      apply In_dget in Hin; [|exact N7]. specialize (Gs y). unfold rename in Gs. now rewrite Hin in Gs.
    - rewrite E, L6 in Ep. pose proof (Up rename module p Ri Ep El) as S.
      destruct (stands_parts _ _ _ S) as (ws & W1 & W2 & W3). rewrite tree_vars in W1. eapply stands_mono; [|exact W3].
      intros x w Hin. rewrite Forall_forall in W2. pose proof (W2 _ Hin) as Hn. cbn [fst snd] in Hn. exists (rename x). split; [exact Hn|].
      assert (Hx : In x (left_open c)) by (rewrite <- W1; now apply (in_map fst) in Hin).
      destruct (in_nth_pair _ _ _ _ N1 Hx) as (i & n & Hi & Hn' & Hd). rewrite Nu in Hd by assumption.
      assert (rename x = n) as -> by (unfold rename; now rewrite Hd).
      unfold metavariables. destruct (find (fun kv : label * text => text_eqb (snd kv) n) names) as [[y z]|] eqn:Ef.
      + apply find_some in Ef as [Hy Ez]. cbn in Ez. apply text_eqb_eq in Ez. subst z. apply In_dget in Hy; [|exact N7].
        destruct (N4 _ _ Hy) as (j & Hj & Hj'). destruct (N2 i j x y n Hi Hj Hn' Hj') as [<-|[<- _]]; [|reflexivity].
        rewrite Hi in Hj. injection Hj as <-. reflexivity.
      + exfalso. apply dget_In in Hd. apply (find_none _ _ Ef) in Hd. cbn in Hd. rewrite text_eqb_refl in Hd. discriminate Hd.
  Qed.
End Trees.

(** *** What a fixer with a pattern does *)
(** The matcher [m] matches only occurrences of [p] for which [Cond] holds; it binds
    the metavariables to their last places and says that it has matched all of it. *)
Definition narrows (e : env) (holes : text -> option hole) (p : value) (Cond : value -> list (label * pymatch) -> Prop) (m : matcher) : Prop :=
  forall d c s s' r, PatternSpec.inside (e_tree e) c -> eval (with_done e d) m c s = (s', Ok (Some r)) ->
  exists b occ, r = RInfo (create_match (e_parsed e) c) (Some b) [] /\ occurrence e holes p c occ /\ dict_ok b
    /\ (forall x, option_map b_value (dget b x) = last_occ x occ) /\ Cond c occ.
Lemma narrows_weaken e holes p (C C' : value -> list (label * pymatch) -> Prop) m :
  (forall c occ, C c occ -> C' c occ) -> narrows e holes p C m -> narrows e holes p C' m.
Proof. intros H N d c s s' r Ic Ev. destruct (N d c s s' r Ic Ev) as (b & occ & A & B & D & E & F). exists b, occ. auto 10. Qed.

Section Pattern.
  Variables (e : env) (holes : text -> option hole) (p : value) (m : matcher) (G : grammar).
  Hypothesis HF : finds_pattern holes p m.
  Hypothesis HG : proper G.
  Hypothesis HP : parsed_tree G (e_tree e).
  Hypothesis Hp : conforms G p.
  Hypothesis Hn : is_node p = true.
  Hypothesis Hplain : forall n x r, holes n = Some (Named x r) -> r = MAnything /\ x <> ROOT_LABEL.
  Lemma pattern_narrows : narrows e holes p (fun _ _ => True) m.
  Proof.
    intros d c s s' r Ic Ev. set (e' := with_done e d) in *.
    destruct (HF e' G (e_tree e) c s HG HP Hp Hn Ic (fun n x r H => plain_restriction holes Hplain e' n x r H))
      as [(rm & occ & b & E & F & A & B & R)|[E N]]; rewrite E in Ev; [|discriminate Ev].
    injection Ev as _ <-. specialize (R (fun n x r _ H => proj1 (Hplain n x r H))). subst rm. change (e_parsed e') with (e_parsed e) in *.
    assert (F' : fits e holes p c occ) by (eapply fits_env; [exact Hplain| |exact F]; reflexivity).
    destruct B as [Bd Bg]. exists b, occ. split; [reflexivity|]. split; [now split|]. split; [exact Bd|]. split; [|exact I].
    intros x. rewrite Bg. now destruct (last_occ x occ).
  Qed.
End Pattern.

Section Fixers.
  Variables (e : env) (holes : text -> option hole) (p : value) (m : matcher) (Cond : value -> list (label * pymatch) -> Prop).
  Hypothesis HF : narrows e holes p Cond m.
  Hypothesis Hplain : forall n x r, holes n = Some (Named x r) -> r = MAnything /\ x <> ROOT_LABEL.

  Lemma fixer_eval d ts c s s' r : PatternSpec.inside (e_tree e) c ->
    eval (with_done e d) (MWithReplacements (MBind ROOT_LABEL m None None) ts) c s = (s', Ok (Some r)) ->
    exists b occ, r_bindings r = Ok (Some b) /\ occurrence e holes p c occ /\ seen e c occ (mapping b) /\ Cond c occ.
  Proof.
    intros Ic Ev. set (e' := with_done e d) in *. cbn [eval] in Ev.
    apply mbind_Ok in Ev as (s0 & o0 & Ev & Hend). apply mbind_Ok in Ev as (s1 & o & E & Ev).
    destruct o as [r0|]; [|apply ret_Ok in Ev as [_ Ev]; subst o0; discriminate Hend].
    destruct (HF d c s s1 r0 Ic E) as (b & occ & -> & [F' A] & Bd & Bg & HC).
    assert (Nr : dget b ROOT_LABEL = None).
    { specialize (Bg ROOT_LABEL). rewrite (no_root holes Hplain e p c occ F') in Bg. destruct (dget b ROOT_LABEL); [discriminate Bg|reflexivity]. }
    assert (M : exists b', merge_bindings b [(ROOT_LABEL, bound_value (create_match (e_parsed e) c) None None)] = Ok (Some b')
                /\ dict_ok b' /\ forall k, dget b' k = merged_value (dget b k) (dget [(ROOT_LABEL, bound_value (create_match (e_parsed e) c) None None)] k)).
    { assert (K : forall k a b0, both b [(ROOT_LABEL, bound_value (create_match (e_parsed e) c) None None)] k a b0 -> False).
      { intros k a b0 [K1 K2]. cbn [dget] in K2. destruct (text_eqb_spec ROOT_LABEL k) as [<-|]; [|discriminate K2]. congruence. }
      pose proof (merge_bindings_spec b [(ROOT_LABEL, bound_value (create_match (e_parsed e) c) None None)] Bd) as HM.
      destruct (merge_bindings b _) as [[b'|]|x].
      - destruct HM as (M1 & _ & M2); [repeat constructor; intros []|]. exists b'. auto.
      - destruct HM as (_ & k & a & b0 & HB & _); [repeat constructor; intros []|]. destruct (K _ _ _ HB).
      - destruct HM as (_ & k & a & b0 & HB & _); [repeat constructor; intros []|]. destruct (K _ _ _ HB). }
    destruct M as (b' & M & Md & Mg). exists b', occ. clear E.
    cbn [r_bindings r_match r_reps bind not_none] in Ev. unfold mbind, lift, ret in Ev. rewrite M in Ev. injection Ev as -> <-.
    cbn [r_bindings r_match r_reps bind not_none] in Hend. unfold mbind, lift, ret in Hend. cbn in Hend. injection Hend as _ <-.
    split; [reflexivity|]. split; [now split|]. split; [|exact HC]. split; [|split].
    - unfold dict_ok, dkeys, mapping in *. rewrite map_map. exact Md.
    - unfold mapping. rewrite dget_map, Mg. change (TX "__root") with ROOT_LABEL. rewrite Nr. reflexivity.
    - intros x Hx. change (TX "__root") with ROOT_LABEL in Hx. unfold mapping. rewrite dget_map, Mg. cbn [dget]. rewrite (proj2 (text_eqb_neq ROOT_LABEL x)) by congruence.
      rewrite <- Bg. now destruct (dget b x).
  Qed.

  Lemma fixer_applies pass fs h f t key mb ts sub reps l new :
    fx_matcher f = m -> fx_replacement f = inl t -> t_template t <> [] -> plain_fixer f ->
    at_path (e_tree e) (h_path h) = Some (h_value h) ->
    by_fixer pass e fs h f mb ts -> describes (e_parsed e) key mb ts sub -> replacements sub = Some reps -> In (l, new) reps ->
    exists occ sp, occurrence e holes p (h_value h) occ /\ Cond (h_value h) occ /\ seen e (h_value h) occ mb
      /\ l = TX "__root" /\ m_span (create_match (e_parsed e) (h_value h)) = Some sp /\ In (TX "__root", sp) (matched_spans sub)
      /\ t_substitute t (e_parsed e) (create_match (e_parsed e) (h_value h)) mb = Ok new.
  Proof.
    intros Em Et Nt Hf Hat ((d & Hff) & (Dmb & b & Eb & Hmb) & Hts) (Hsp & _ & (reps' & Er & Hreps) & _) Er' Hin.
    rewrite Er in Er'. injection Er' as ->.
    destruct (first_fixer_matches _ _ _ _ _ _ _ Hff) as [_ (s1 & m0 & Hm0 & He)].
    destruct (with_meta_result _ _ _ _ _ _ _ Hf Hm0 He) as (b0 & Eb0 & _ & _ & Hmeta). rewrite Eb in Eb0. injection Eb0 as <-.
    apply with_meta_shape in Hm0. subst m0. rewrite Em in He.
    destruct (fixer_eval d (fixer_templates f) (h_value h) s1 (h_ran h) (h_result h) (ex_intro _ _ Hat) He) as (b1 & occ & Eb1 & O & (Sd & Sr & Sx) & HC).
    rewrite Eb in Eb1. injection Eb1 as <-.
    assert (Tm : forall x t0, dget (fixer_templates f) x = Some t0 -> x = ROOT_LABEL /\ t0 = t \/ In x meta_labels).
    { intros x t0. rewrite fixer_templates_get. unfold fx_base. rewrite Et.
      destruct (text_eqb_spec SIGNIFICANT_LABEL x); [subst; right; cbn; auto|]. destruct (text_eqb_spec CATEGORY_LABEL x); [subst; right; cbn; auto|].
      destruct (text_eqb_spec URL_LABEL x); [subst; right; cbn; auto|]. destruct (text_eqb_spec MESSAGE_LABEL x); [subst; right; cbn; auto|].
      cbn [dget]. destruct (text_eqb_spec ROOT_LABEL x); [|discriminate]. intros [= <-]. left. auto. }
    assert (Mb : forall x, dget mb x = dget (mapping b) x).
    { intros x. unfold mapping. rewrite dget_map. destruct (Hmb x) as [E|(v & txt & f1 & l1 & a1 & b1 & f2 & l2 & a2 & b2 & t0 & E1 & E2 & _ & E3 & _)]; [exact E|].
      exfalso. apply Tm in E1 as [[_ ->]|E1]; [congruence|]. rewrite (Hmeta _ E1) in E3. discriminate E3. }
    assert (S : seen e (h_value h) occ mb) by (split; [exact Dmb|split; [rewrite Mb; exact Sr|intros x Hx; rewrite Mb; now apply Sx]]).
    apply Hreps in Hin as [(t0 & Ht0 & Hfill) Hl].
    assert (Hd : dget (fixer_templates f) l <> None /\ forall t1, dget (fixer_templates f) l = Some t1 -> t0 = t1 \/ t_template t1 = []).
    { pose proof (fixer_templates_ok f Hf) as D. unfold own_templates in Hts. revert D Hts Ht0. generalize (fixer_templates f). intros d0 D F. clear - D F.
      induction F as [|[x u] [y w] d1 d2 [E1 E2] F IH]; intros Hin; [destruct Hin|]. cbn [fst snd] in *. subst y. cbn [dget].
      unfold dict_ok, dkeys in D. cbn [map fst] in D. inversion D as [|? ? D1 D2]; subst. destruct Hin as [E|Hin].
      - injection E as -> ->. rewrite text_eqb_refl. split; [discriminate|]. intros t1 [= <-]. destruct E2 as [E2|[E2 _]]; auto.
      - destruct (text_eqb_spec x l) as [->|N].
        + exfalso. apply D1. assert (K : In l (map fst d2)) by now apply (in_map fst) in Hin. clear - F K.
          induction F as [|[a u] [b w] d1 d2 [E1 _] F IH]; cbn in *; [exact K|]. destruct K as [<-|K]; auto.
        + now apply IH. }
    destruct Hd as [Hd1 Hd2]. destruct (dget (fixer_templates f) l) as [t1|] eqn:Ed; [|congruence]. destruct (Tm l t1 Ed) as [[-> ->]|K]; [|tauto].
    destruct (Hd2 t eq_refl) as [->|K]; [|congruence].
    assert (Hroot : In (ROOT_LABEL, create_match (e_parsed e) (h_value h)) mb) by (apply dget_In; rewrite Mb; exact Sr).
    destruct Hfill as [(mm & Hmm & (sp & Hsp1 & Hsp2) & E)|(K & _)]; [|now apply K in Hroot].
    assert (mm = create_match (e_parsed e) (h_value h)) as ->.
    { apply (In_dget _ _ _ Dmb) in Hmm. rewrite Mb in Hmm. change ROOT_LABEL with (TX "__root") in Hmm. rewrite Sr in Hmm. now injection Hmm. }
    exists occ, sp. split; [exact O|]. split; [exact HC|]. split; [exact S|]. split; [reflexivity|]. split; [exact Hsp1|]. split; [|now symmetry].
    apply Hsp. exists (create_match (e_parsed e) (h_value h)). auto.
  Qed.
End Fixers.
