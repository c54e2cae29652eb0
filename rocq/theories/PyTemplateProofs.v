(** Proofs about syntax-aware templates. *)
From Verif Require Import Py PyFacts Ast Template FromDiff Matcher MatchSpec FindSpec MatcherProofs FindProofs MergeProofs
  PatTok PatSpec PatTokProofs LexProofs Pattern PatternSpec EquivProofs PatternProofs PatternApi RenameProofs
  PyTemplate PyTemplateSpec.
From Coq Require Import Permutation Lia.

(** *** The same code *)

Lemma same_syntax_refl v : same_syntax v v.
Proof.
  induction v as [i fs IH|i l IH|i c] using value_ind'.
  - apply SS_node; [reflexivity|]. induction IH; constructor; auto.
  - apply SS_list. induction IH; constructor; auto.
  - apply SS_const, const_eqb_refl.
Qed.
Lemma same_code_sym : forall a b, same_code a b -> same_code b a.
Proof.
  induction a as [i fs IH|i l IH|i c] using value_ind'; intros b H;
    inversion H as [? ? C1 C2|? ? ? ? E|? ? ? ? F|? ? ? ? E F]; subst; try (now apply SC_context).
  - apply SC_node; [now symmetry|]. clear H E. revert IH. induction F as [|x y fs gs [E H] F IHF]; intros IH; constructor.
    + inversion IH as [|? ? H1 H2]; subst. split; [now symmetry|now apply H1].
    + inversion IH; auto.
  - apply SC_list. clear H. revert IH. induction F as [|x y l m H F IHF]; intros IH; inversion IH; subst; constructor; auto.
  - apply SC_const. now apply const_eqb_sym.
Qed.
Lemma same_code_ctx a b : same_code a b -> is_ctx a = is_ctx b.
Proof.
  intros H. inversion H as [? ? C1 C2|? ? ? ? E|? ? ? ? F|? ? ? ? E F]; subst; try congruence.
  - reflexivity.
  - reflexivity.
  - unfold is_ctx, isinst. now rewrite E.
Qed.
Lemma same_code_trans : forall a b c, same_code a b -> same_code b c -> same_code a c.
Proof.
  induction a as [i fs IH|i l IH|i k] using value_ind'; intros b c H H'.
  all: pose proof (same_code_ctx _ _ H) as K; pose proof (same_code_ctx _ _ H') as K';
    match type of K with ?x = _ => destruct x eqn:Ex end;
    [apply SC_context; congruence|].
  all: inversion H as [? ? C1 C2|? ? ? ? E|? ? ? ? F|? ? ? ? E F]; subst; try congruence.
  all: inversion H' as [? ? D1 D2|? ? ? ? E'|? ? ? ? F'|? ? ? ? E' F']; subst; try congruence.
  - apply SC_node; [congruence|]. clear H H' K K' Ex E E'. revert gs0 F' IH.
    induction F as [|x y fs gs [E H] F IHF]; intros hs F' IH; inversion F' as [|? z ? ? [E' H'] F'']; subst; constructor.
    + inversion IH; subst. split; [congruence|eauto].
    + inversion IH; subst. auto.
  - apply SC_list. clear H H' K K' Ex. revert m0 F' IH.
    induction F as [|x y l m H F IHF]; intros hs F' IH; inversion F' as [|? z ? ? H' F'']; subst; constructor.
    + inversion IH; subst. eauto.
    + inversion IH; subst. auto.
  - apply SC_const. eapply const_eqb_trans; eauto.
Qed.
Lemma same_syntax_code D D' : forall v w, regular D v -> regular D' w -> same_syntax v w -> same_code v w.
Proof.
  induction v as [i fs IH|i l IH|i c] using value_ind'; intros w R R' H; inversion H as [? ? ? ? E|? ? ? ? F|? ? ? ? E F]; subst.
  - apply SC_node; [exact E|]. clear H. inversion R as [| |? ? RF]; subst. inversion R' as [| |? ? RF']; subst.
    clear R R'. revert RF RF' IH. generalize (context_of (VNode i fs)), (context_of (VNode j gs)). intros K K'.
    induction F as [|x y fs gs [Ek Hs] F IHF]; intros RF RF' IH; constructor.
    + inversion RF as [|? ? R1 R2]; subst. inversion RF' as [|? ? R1' R2']; subst. inversion IH as [|? ? I1 I2]; subst.
      split; [exact Ek|].
      destruct R1 as [(A1 & A2 & _)|(A1 & A2 & A3 & _)], R1' as [(B1 & B2 & _)|(B1 & B2 & B3 & _)]; try congruence.
      * now apply SC_context.
      * destruct Hs as [[_ N]|Hs]; [congruence|]. now apply I1.
    + apply IHF; [now inversion RF|now inversion RF'|now inversion IH].
  - apply SC_list. clear H. inversion R as [|? ? RF|]; subst. inversion R' as [|? ? RF'|]; subst.
    clear R R'. revert RF RF' IH. induction F as [|x y l m Hs F IHF]; intros RF RF' IH; constructor.
    + inversion RF as [|? ? [_ R1] R2]; subst. inversion RF' as [|? ? [_ R1'] R2']; subst. inversion IH; subst. auto.
    + apply IHF; [now inversion RF|now inversion RF'|now inversion IH].
  - now apply SC_const.
Qed.
(** Contexts are never at the end of a path that goes through a regular tree,
    except in the field [ctx]. *)
Lemma regular_inside D : forall p root v, regular D root -> at_path root p = Some v ->
  regular D v \/ (is_ctx v = true /\ vchildren v = []).
Proof.
  induction p as [|k p IH]; intros root v R H; [injection H as <-; now left|].
  cbn in H. destruct (nth_error (vchildren root) k) as [x|] eqn:E; [|discriminate H]. apply nth_error_In in E.
  assert (K : regular D x \/ (is_ctx x = true /\ vchildren x = [])).
  { inversion R as [|? ? F|? ? F]; subst; cbn [vchildren] in E.
    - destruct E.
    - rewrite Forall_forall in F. left. now apply F.
    - apply in_map_iff in E as (kv & <- & E). rewrite Forall_forall in F. destruct (F kv E) as [(_ & A & B)|(_ & _ & A & _)]; auto. }
  destruct K as [K|[K1 K2]]; [eapply IH; eauto|].
  destruct p as [|k' p]; [injection H as <-; auto|]. cbn in H. rewrite K2 in H. destruct k'; discriminate H.
Qed.
Lemma same_syntax_ctx v w : same_syntax v w -> is_ctx v = is_ctx w.
Proof. intros H. inversion H as [| |? ? ? ? E F]; subst; try reflexivity. unfold is_ctx, isinst. now rewrite E. Qed.
Lemma same_syntax_code_inside G root root' v w :
  parsed_tree G root -> parsed_tree G root' -> inside root v -> inside root' w -> same_syntax v w -> same_code v w.
Proof.
  intros [_ _ _ (D & _ & R)] [_ _ _ (D' & _ & R')] (p & Hv) (q & Hw) H.
  destruct (regular_inside _ _ _ _ R Hv) as [Rv|[Cv _]].
  - destruct (regular_inside _ _ _ _ R' Hw) as [Rw|[Cw _]].
    + eapply same_syntax_code; eauto.
    + apply SC_context; [rewrite (same_syntax_ctx _ _ H)|]; assumption.
  - apply SC_context; [|rewrite <- (same_syntax_ctx _ _ H)]; assumption.
Qed.

(** *** Literal matching *)
Lemma literal_match e G p c s :
  proper G -> conforms G p -> conforms G c -> is_node p = true ->
  (same_syntax p c /\ exists rm b reps, eval e (ast_matchers_matcher p) c s = (s, Ok (Some (RInfo rm b reps))))
  \/ (~ same_syntax p c /\ eval e (ast_matchers_matcher p) c s = (s, Ok None)).
Proof.
  intros HG Cp Cc Np.
  assert (R : runs_as (fun _ => False) (eval e (ast_pattern [] p) c) (fits e (fun _ => None) p c)).
  { apply (pattern_run e (fun _ => False)) with (G := G) (tame := fun _ => True); auto; try discriminate; try contradiction.
    destruct p; try discriminate Np. discriminate. }
  unfold ast_matchers_matcher.
  destruct (ra_run _ _ _ R s) as [(rm & occ & b & E & HF & S & A)|[E N]]; rewrite E.
  - left. apply fits_no_holes in HF as [-> HF]. eauto.
  - right. split; [|reflexivity]. intros H. apply (N []); [now apply fits_no_holes|constructor].
Qed.

(** *** Dropping parentheses *)
Section Drop.
  Variable parse_ast : text -> res env.
  Variable lt : lex_template.
  Variable G : grammar.
  Hypothesis HG : proper G.
  Hypothesis HP : python_parser G parse_ast.
  Variable can : label -> bool.
  Variable tree : value.
  Hypothesis Ct : conforms G tree.
  Hypothesis Nt : is_node tree = true.
  Let works := reads_as parse_ast lt tree.

  Lemma dset_middle {A} (pre : dict A) k a b post : ~ In k (dkeys pre) -> dset (pre ++ (k, a) :: post) k b = pre ++ (k, b) :: post.
  Proof.
    induction pre as [|[k' x] pre IH]; intros H; cbn.
    - now destruct (text_eqb_spec k k).
    - destruct (text_eqb_spec k' k) as [->|N]; [exfalso; apply H; now left|]. f_equal. apply IH. intros K. apply H. now right.
  Qed.
  Lemma drop_parens_spec : forall strings pre replacement r safe,
    NoDup (dkeys pre ++ dkeys strings) ->
    drop_parens parse_ast lt (ast_matchers_matcher tree) (filter (fun kv => can (fst kv)) strings)
                (pre ++ all_parens can strings) replacement = Ok (r, safe) ->
    lex_substitute lt (pre ++ all_parens can strings) = Ok replacement ->
    (exists e, parse_ast replacement = Ok e /\ same_syntax tree (e_tree e)) ->
    pruned works can pre strings safe /\ lex_substitute lt safe = Ok r
    /\ exists e, parse_ast r = Ok e /\ same_syntax tree (e_tree e).
  Proof.
    induction strings as [|[k s] strings IH]; intros pre replacement r safe N H Hl He; cbn [filter all_parens map fst snd] in *.
    - rewrite app_nil_r in *. cbn in H. injection H as <- <-. split; [constructor|]. auto.
    - assert (N' : forall x : text, NoDup (dkeys (pre ++ [(k, x)]) ++ dkeys strings)).
      { intros x. unfold dkeys in *. rewrite map_app. cbn [map fst] in *. now rewrite <- app_assoc. }
      assert (Nk : ~ In k (dkeys pre)).
      { intros K. apply NoDup_remove_2 in N. apply N. apply in_app_iff. now left. }
      assert (A : forall x : text, pre ++ (k, x) :: all_parens can strings = (pre ++ [(k, x)]) ++ all_parens can strings)
        by (intros x; now rewrite <- app_assoc).
      fold (all_parens can strings) in *.
      destruct (can k) eqn:Ek.
      + cbn [drop_parens] in H. rewrite dset_middle in H by exact Nk.
        assert (Skip : ~ works (pre ++ (k, s) :: all_parens can strings) ->
          drop_parens parse_ast lt (ast_matchers_matcher tree) (filter (fun kv => can (fst kv)) strings)
            (pre ++ (k, parens s) :: all_parens can strings) replacement = Ok (r, safe) ->
          pruned works can pre ((k, s) :: strings) safe /\ lex_substitute lt safe = Ok r
            /\ exists e, parse_ast r = Ok e /\ same_syntax tree (e_tree e)).
        { intros Hn H'. rewrite A in H', Hl. destruct (IH _ _ _ _ (N' _) H' Hl He) as (P & Q). split; [|exact Q]. now apply PN_kept. }
        destruct (lex_substitute lt (pre ++ (k, s) :: all_parens can strings)) as [alt|x] eqn:El; cbn [bind] in H.
        2:{ destruct x; try discriminate H; apply Skip; auto; intros (? & ? & E & _); congruence. }
        destruct (parse_ast alt) as [e|x] eqn:Ep; cbn [bind] in H.
        2:{ destruct x; try discriminate H; apply Skip; auto; intros (? & ? & E & E' & _); congruence. }
        destruct (HP _ _ Ep) as [Pt _].
        destruct (literal_match e G tree (e_tree e) [] HG Ct (pt_conforms _ _ Pt) Nt) as [(S & rm & b & reps & E)|[S E]];
          rewrite E in H; cbn [snd] in H.
        * rewrite A in H, El. destruct (IH _ _ _ _ (N' _) H El (ex_intro _ e (conj Ep S))) as (P & Q). split; [|exact Q].
          apply PN_dropped; auto. exists alt, e. rewrite A. auto.
        * apply Skip; [|exact H]. intros (t & e' & E1 & E2 & E3). congruence.
      + rewrite A in H, Hl. destruct (IH _ _ _ _ (N' _) H Hl He) as (P & Q). split; [|exact Q]. now apply PN_verbatim.
  Qed.
End Drop.

(** *** The whole of it *)
Lemma stringify_keys ms : forall k, In k (dkeys (stringify_matches ms)) -> In k (dkeys ms).
Proof.
  induction ms as [|[k m] ms IH]; intros k' H; cbn in *; [exact H|]. destruct (m_string m); cbn in H.
  - destruct H as [->|H]; auto.
  - auto.
Qed.
Lemma stringify_dict_ok ms : dict_ok ms -> dict_ok (stringify_matches ms).
Proof.
  unfold dict_ok. induction ms as [|[k m] ms IH]; intros H; cbn in *; [exact H|]. inversion H as [|? ? H1 H2]; subst.
  destruct (m_string m); cbn; [|auto]. constructor; [|auto]. intros K. apply H1. now apply stringify_keys.
Qed.

Lemma check_bindings_spec e matchers b : check_bindings e matchers b = Ok tt ->
  forall k x, In (k, x) b -> exists m v rm ob reps, dget matchers k = Some m /\ m_matched (b_value x) = Some v
    /\ snd (eval e m v []) = Ok (Some (RInfo rm ob reps)).
Proof.
  induction b as [|[k x] b IH]; intros H k' x' Hin; [destruct Hin|]. cbn [check_bindings] in H.
  destruct (dget matchers k) as [m|] eqn:Em; [|discriminate H].
  destruct (m_matched (b_value x)) as [v|] eqn:Ev; [|discriminate H].
  destruct (snd (eval e m v [])) as [[[rm ob reps|]|]|] eqn:Ee; try discriminate H.
  destruct Hin as [E|Hin]; [injection E as <- <-; repeat eexists; eauto|]. eapply IH; eauto.
Qed.

Section Spec.
  Variable parse_ast : text -> res env.
  Variable G : grammar.
  Hypothesis HG : proper G.
  Hypothesis HP : python_parser G parse_ast.

  Theorem parenthesized_spec t matchers strings r safe : dict_ok strings ->
    parenthesized parse_ast t matchers strings = Ok (r, safe) ->
    exists full e0 rm b reps,
      lex_substitute (py_lex t) (all_parens (dmem matchers) strings) = Ok full /\ parse_ast full = Ok e0
      /\ snd (eval e0 (py_matcher t) (e_tree e0) []) = Ok (Some (RInfo rm (Some b) reps))
      /\ (forall k x, In (k, x) b -> exists m v rm ob reps, dget matchers k = Some m /\ m_matched (b_value x) = Some v
             /\ snd (eval e0 m v []) = Ok (Some (RInfo rm ob reps)))
      /\ pruned (reads_as parse_ast (py_lex t) (e_tree e0)) (dmem matchers) [] strings safe
      /\ lex_substitute (py_lex t) safe = Ok r
      /\ exists e1, parse_ast r = Ok e1 /\ same_syntax (e_tree e0) (e_tree e1).
  Proof.
    intros D H. unfold parenthesized in H. fold (all_parens (dmem matchers) strings) in H.
    destruct (lex_substitute (py_lex t) (all_parens (dmem matchers) strings)) as [full|] eqn:El; cbn [bind] in H; [|discriminate H].
    destruct (parse_ast full) as [e0|x] eqn:Ep; [|destruct x; discriminate H].
    destruct (snd (eval e0 (py_matcher t) (e_tree e0) [])) as [[[rm ob reps|]|]|] eqn:Em; try discriminate H.
    cbn [r_bindings bind] in H. destruct ob as [b|]; [|discriminate H]. cbn [not_none bind] in H.
    destruct (check_bindings e0 matchers b) as [[]|] eqn:Ec; cbn [bind] in H; [|discriminate H].
    destruct (HP _ _ Ep) as [Pt Nt].
    destruct (drop_parens_spec parse_ast (py_lex t) G HG HP (dmem matchers) (e_tree e0) (pt_conforms _ _ Pt) Nt
                strings [] full r safe D H El (ex_intro _ e0 (conj Ep (same_syntax_refl _)))) as (P & Q & R).
    exists full, e0, rm, b, reps.
    split; [reflexivity|]. split; [exact Ep|]. split; [exact Em|]. split; [now apply check_bindings_spec|]. auto.
  Qed.
End Spec.

(** *** Instances *)
Lemma create_match_matched pf c w : m_matched (create_match pf c) = Some w -> w = c.
Proof.
  unfold create_match. destruct (lexical_tokens c) as [[f l]|]; [intros H; now injection H|].
  destruct c as [i fs|id l|id []]; cbn; congruence.
Qed.
Lemma restriction_anything e : restriction_ok e MAnything.
Proof. intros c. right. eexists. split; [intros s; reflexivity|]. apply create_match_matched. Qed.

Section Inst.
  Variable e : env.
  Variable G : grammar.
  Variable tree0 tree1 : value.
  Hypothesis P0 : parsed_tree G tree0.
  Hypothesis P1 : parsed_tree G tree1.
  Variable holes : text -> option hole.
  Hypothesis Hany : forall n x m, holes n = Some (Named x m) -> m = MAnything.
  Variable values : label -> option value.

  Lemma fits_instance : forall p c occ, fits e holes p c occ ->
    (forall x rm v, In (x, rm) occ -> values x = Some v -> exists w, m_matched rm = Some w /\ same_code v w) ->
    forall c', inside tree0 c -> inside tree1 c' -> same_syntax c c' -> instance holes values p c'.
  Proof.
    induction p as [i fs IH|id l IH|id k] using value_ind'; intros c occ F Hv c' Ic Ic' S;
      inversion F as [p n y m c0 rm0 Hn Hh Hp|p n c0 Hn Hh|? ? ? ? E|? ? ? ms ? FI|? ? j gs ? Hn Ht FF]; subst.
    all: try (eapply IN_anonymous; eauto; fail).
    all: try (eapply IN_named; [eassumption|eassumption|];
              intros v Ev; destruct (Hv _ _ v (or_introl eq_refl) Ev) as (w & Hw & Sw);
              rewrite (Hany _ _ _ Hh) in Hp; specialize (Hp []); cbn in Hp; injection Hp as <-;
              apply create_match_matched in Hw; subst w;
              eapply same_code_trans; [exact Sw|]; eapply same_syntax_code_inside; [exact P0|exact P1|..]; eassumption).
    - inversion S as [| |? ? j' hs Et FS]; subst. apply IN_node; [exact Hn|congruence|]. rewrite <- Ht in FS.
      assert (Hc : forall kw, In kw gs -> inside tree0 (snd kw)).
      { intros kw Hk. apply (inside_child _ _ _ Ic). cbn. now apply in_map. }
      assert (Hc' : forall kw, In kw hs -> inside tree1 (snd kw)).
      { intros kw Hk. apply (inside_child _ _ _ Ic'). cbn. now apply in_map. }
      clear F S Hn Ht Et Ic Ic'. remember (n_type i) as ty eqn:Ety. clear Ety.
      revert hs FS Hc Hc' Hv IH. induction FF as [|ty f u w fs' gs' os Hcx FF IHF|ty f u w fs' gs' o os Hcx FU FF IHF];
        intros hs FS Hc Hc' Hv IH; inversion FS as [|? [g z] ? hs' [E1 E2] FS']; subst; constructor; cbn [fst snd] in *; subst.
      + split; [reflexivity|now left].
      + apply IHF; auto; [intros kw Hk; apply Hc; now right|intros kw Hk; apply Hc'; now right|now inversion IH].
      + split; [reflexivity|]. right. destruct E2 as [E2|E2]; [contradiction|].
        inversion IH as [|? ? I1 I2]; subst. eapply I1; eauto.
        * intros x rm v Hin. apply Hv. apply in_app_iff. now left.
        * apply (Hc (g, w)). now left.
        * apply (Hc' (g, z)). now left.
      + apply IHF; auto.
        * intros kw Hk. apply Hc. now right.
        * intros kw Hk. apply Hc'. now right.
        * intros x rm v Hin. apply Hv. apply in_app_iff. now right.
        * now inversion IH.
    - inversion S as [|? ? id3 m3 FS|]; subst. apply IN_list.
      assert (Hc : forall y, In y ms -> inside tree0 y) by (intros y Hy; now apply (inside_child _ _ _ Ic)).
      assert (Hc' : forall y, In y m3 -> inside tree1 y) by (intros y Hy; now apply (inside_child _ _ _ Ic')).
      clear F S Ic Ic'. revert m3 FS Hc Hc' Hv IH. induction FI as [|u w l' m' o os FU FI IHF];
        intros m3 FS Hc Hc' Hv IH; inversion FS as [|? z ? m4 E2 FS']; subst; constructor.
      + inversion IH as [|? ? I1 I2]; subst. eapply I1; eauto.
        * intros x rm v Hin. apply Hv. apply in_app_iff. now left.
        * apply Hc. now left.
        * apply Hc'. now left.
      + apply IHF; auto.
        * intros kw Hk. apply Hc. now right.
        * intros kw Hk. apply Hc'. now right.
        * intros x rm v Hin. apply Hv. apply in_app_iff. now right.
        * now inversion IH.
    - inversion S as [? ? ? ? E'| |]; subst. apply IN_const. eapply const_eqb_trans; eauto.
  Qed.
End Inst.

(** *** The three kinds of templates *)
Definition wrap (k : template_kind) (m : matcher) : matcher :=
  match k with
  | KModule => m
  | KStmt => module_of m
  | KExpr => module_of (MNode (TX "Expr") [(TX "value", m)])
  end.
Lemma template_parts tokenize order ast_parse k src t :
  template_of tokenize order ast_parse k src = Ok t ->
  lexical_template tokenize order src = Ok (py_lex t)
  /\ exists m, base_ast_pattern tokenize order ast_parse (pull_of k) src [] = Ok m /\ py_matcher t = wrap k m.
Proof.
  destruct k; cbn [template_of]; unfold python_template, python_stmt_template, python_expr_template, make_template;
    intros H; destruct (lexical_template tokenize order src) as [lt|]; cbn [bind] in H; try discriminate H.
  - unfold module_pattern in H. destruct (base_ast_pattern _ _ _ _ _ _) as [m|] eqn:E; cbn [bind] in H; [|discriminate H].
    injection H as <-. split; [reflexivity|]. exists m. split; [first [exact E|reflexivity]|reflexivity].
  - unfold stmt_pattern in H. destruct (base_ast_pattern _ _ _ _ _ _) as [m|] eqn:E; cbn [bind] in H; [|discriminate H].
    injection H as <-. split; [reflexivity|]. exists m. split; [first [exact E|reflexivity]|reflexivity].
  - unfold expr_pattern in H. destruct (base_ast_pattern _ _ _ _ _ _) as [m|] eqn:E; cbn [bind] in H; [|discriminate H].
    injection H as <-. split; [reflexivity|]. exists m. split; [first [exact E|reflexivity]|reflexivity].
Qed.

Lemma merge_bindings_nil_r b : merge_bindings b [] = Ok (Some b).
Proof.
  unfold merge_bindings, merge_bindings_in, shared_keys.
  assert (filter (dmem (@nil (label * bound))) (dkeys b) = []) as -> by (induction (dkeys b); auto).
  cbn. assert (H : filter (fun _ : label * bound => true) b = b) by (induction b as [|x b IH]; cbn; [reflexivity|now rewrite IH]).
  rewrite app_nil_r. exact (f_equal (fun x => Ok (Some x)) H).
Qed.
Lemma one_field e ty f m v s s' rm b reps :
  eval e (MNode ty [(f, m)]) v s = (s', Ok (Some (RInfo rm (Some b) reps))) ->
  vtype v = ty /\ exists rm' reps', eval e m (vfield v f) s = (s', Ok (Some (RInfo rm' (Some b) reps'))).
Proof.
  cbn [eval map fst snd]. intros H. destruct (text_eqb_spec (vtype v) ty) as [E|]; [|discriminate H]. split; [exact E|].
  apply CollProofs.accumulating_iff in H as (b' & t & E' & H). injection E' as -> -> ->.
  inversion H as [|? ? ? ? ? s1 rm1 rb rt b1 t1 ? ? ? E1 E2 E3 E4]; subst. inversion E4; subst.
  rewrite OnceProofs.merge_bindings_nil in E2. injection E2 as ->. eauto.
Qed.
Lemma module_of_match e m v s s' rm b reps :
  is_list (vfield v (TX "body")) = true ->
  eval e (module_of m) v s = (s', Ok (Some (RInfo rm (Some b) reps))) ->
  vtype v = TX "Module" /\ exists id c rm' reps', vfield v (TX "body") = VList id [c]
    /\ eval e m c s = (s', Ok (Some (RInfo rm' (Some b) reps'))).
Proof.
  intros Hl. unfold module_of. cbn [eval map fst snd]. intros H.
  destruct (text_eqb_spec (vtype v) (TX "Module")) as [E|]; [|discriminate H]. split; [exact E|].
  apply CollProofs.accumulating_iff in H as (b' & t & E' & H). injection E' as -> -> ->.
  inversion H as [|? ? ? ? ? s1 rm1 rb rt b1 t1 ? ? ? E1 E2 E3 E4]; subst.
  inversion E4 as [|? ? ? ? ? s2 rm2 rb2 rt2 b2 t2 ? ? ? F1 F2 F3 F4]; subst. inversion F4; subst.
  cbn in F1. injection F1 as <- _ <- _. rewrite merge_bindings_nil_r in F2. injection F2 as ->.
  rewrite OnceProofs.merge_bindings_nil in E2. injection E2 as ->.
  assert (E1' : eval e (MItemsAre [m]) (vfield v (TX "body")) s = (s1, Ok (Some (RInfo rm1 (Some b') rt)))) by exact E1.
  apply CollProofs.items_are_matches in E1' as (b3 & E5 & E6). injection E5 as -> -> ->.
  destruct (vfield v (TX "body")) as [|id l|] eqn:El; try discriminate Hl. cbn [seq_items] in E6. destruct E6 as [Hlen E6].
  destruct l as [|c [|? ?]]; try discriminate Hlen. exists id, c. cbn [CollSpec.one_by_one combine map fst snd] in E6.
  inversion E6 as [|? ? ? ? s3 rm3 rb3 t3 b4 ? ? G1 G2 G3]; subst. inversion G3; subst.
  rewrite OnceProofs.merge_bindings_nil in G2. injection G2 as ->. eauto.
Qed.

Lemma module_fields G i fs : python_grammar G -> conforms G (VNode i fs) -> n_type i = TX "Module" ->
  exists b t, fs = [(TX "body", b); (TX "type_ignores", t)] /\ is_list b = true.
Proof.
  intros [GM _] C Ht. inversion C as [| |? ? _ E _]; subst. rewrite Ht, GM in E.
  destruct fs as [|[f1 b] [|[f2 t] [|? ?]]]; try discriminate E. cbn in E. injection E as -> E1 -> E2. eauto.
Qed.
Lemma expr_fields G i fs : python_grammar G -> conforms G (VNode i fs) -> n_type i = TX "Expr" ->
  exists v, fs = [(TX "value", v)].
Proof.
  intros [_ GE] C Ht. inversion C as [| |? ? _ E _]; subst. rewrite Ht, GE in E.
  destruct fs as [|[f1 b] [|? ?]]; try discriminate E. cbn in E. injection E as -> E1. eauto.
Qed.
Lemma typed_node G v ty : conforms G v -> vtype v = ty -> ~ In ty builtin_types -> exists i fs, v = VNode i fs /\ n_type i = ty.
Proof.
  intros C <- H. destruct v as [i fs|id l|id c]; [eauto| |].
  - exfalso. apply H. cbn. auto.
  - exfalso. apply H. destruct c as [| |[]| |]; cbn; auto 20.
Qed.
Lemma not_builtin_Module : ~ In (TX "Module") builtin_types.
Proof. intros H. cbn in H. repeat destruct H as [H|H]; try discriminate H; exact H. Qed.
Lemma not_builtin_Expr : ~ In (TX "Expr") builtin_types.
Proof. intros H. cbn in H. repeat destruct H as [H|H]; try discriminate H; exact H. Qed.

Lemma kind_match G k m e tree s s' rm b reps :
  python_grammar G -> conforms G tree -> is_node tree = true ->
  eval e (wrap k m) tree s = (s', Ok (Some (RInfo rm (Some b) reps))) ->
  exists c rm' reps', consists_of k tree c /\ inside tree c
    /\ eval e m c s = (s', Ok (Some (RInfo rm' (Some b) reps'))).
Proof.
  intros HG C N H. destruct k; cbn [wrap consists_of] in *.
  - exists tree, rm, reps. split; [reflexivity|]. split; [apply inside_refl|exact H].
  - assert (Hty : vtype tree = TX "Module").
    { unfold module_of in H. cbn [eval] in H. destruct (text_eqb_spec (vtype tree) (TX "Module")) as [E|]; [exact E|discriminate H]. }
    destruct (typed_node G tree _ C Hty not_builtin_Module) as (i & fs & -> & Hi).
    destruct (module_fields G i fs HG C Hi) as (bd & t & -> & Hl).
    destruct (module_of_match e m (VNode i [(TX "body", bd); (TX "type_ignores", t)]) s s' rm b reps Hl H)
      as (_ & id & c & rm' & reps' & Eb & Hm).
    exists c, rm', reps'. split; [split; [exact Hty|now exists id]|]. split; [|exact Hm].
    change (bd = VList id [c]) in Eb. subst bd. now exists [0; 0]%nat.
  - assert (Hty : vtype tree = TX "Module").
    { unfold module_of in H. cbn [eval] in H. destruct (text_eqb_spec (vtype tree) (TX "Module")) as [E|]; [exact E|discriminate H]. }
    destruct (typed_node G tree _ C Hty not_builtin_Module) as (i & fs & -> & Hi).
    destruct (module_fields G i fs HG C Hi) as (bd & t & -> & Hl).
    destruct (module_of_match e (MNode (TX "Expr") [(TX "value", m)]) (VNode i [(TX "body", bd); (TX "type_ignores", t)]) s s' rm b reps Hl H)
      as (_ & id & stmt & rm' & reps' & Eb & Hm).
    change (bd = VList id [stmt]) in Eb. subst bd.
    assert (Is : inside (VNode i [(TX "body", VList id [stmt]); (TX "type_ignores", t)]) stmt) by now exists [0; 0]%nat.
    apply one_field in Hm as (Hs & rm'' & reps'' & Hm). pose proof (conforms_inside _ _ _ C Is) as Cs.
    destruct (typed_node G stmt _ Cs Hs not_builtin_Expr) as (j & gs & -> & Hj).
    destruct (expr_fields G j gs HG Cs Hj) as (v & ->). cbn in Hm.
    exists v, rm'', reps''. split; [|split; [now exists [0; 0; 0]%nat|exact Hm]].
    split; [exact Hty|]. exists id, (VNode j [(TX "value", v)]). auto.
Qed.
Lemma kind_transport G k tree0 tree1 c0 : python_grammar G -> conforms G tree0 -> conforms G tree1 ->
  same_syntax tree0 tree1 -> consists_of k tree0 c0 ->
  exists c1, consists_of k tree1 c1 /\ inside tree1 c1 /\ same_syntax c0 c1.
Proof.
  intros HG C0 C1 S H.
  assert (M : forall id stmt, vtype tree0 = TX "Module" -> vfield tree0 (TX "body") = VList id [stmt] ->
    exists i1 t1 id1 stmt1, tree1 = VNode i1 [(TX "body", VList id1 [stmt1]); (TX "type_ignores", t1)] /\ n_type i1 = TX "Module"
      /\ same_syntax stmt stmt1 /\ inside tree0 stmt).
  { intros id stmt Ht Eb. destruct (typed_node G tree0 _ C0 Ht not_builtin_Module) as (i & fs & -> & Hi).
    destruct (module_fields G i fs HG C0 Hi) as (bd & t & -> & Hl). change (bd = VList id [stmt]) in Eb. subst bd.
    inversion S as [| |? ? j gs Et F]; subst. rewrite Hi in F.
    inversion F as [|? [g1 y1] ? gs1 [E1 F1] F1']; subst. inversion F1' as [|? [g2 y2] ? gs2 [E2 F2] F2']; subst. inversion F2'; subst.
    cbn [fst snd] in *. subst g1 g2. destruct F1 as [[K _]|F1]; [discriminate K|].
    inversion F1 as [|? ? id1 m1 FL|]; subst. inversion FL as [|? z ? m2 Z1 Z2]; subst. inversion Z2; subst.
    exists j, y2, id1, z. split; [reflexivity|]. split; [now rewrite <- Et|]. split; [exact Z1|]. now exists [0; 0]%nat. }
  destruct k; cbn [consists_of] in *.
  - subst c0. exists tree1. split; [reflexivity|]. split; [apply inside_refl|exact S].
  - destruct H as (Ht & id & Eb). destruct (M id c0 Ht Eb) as (i1 & t1 & id1 & stmt1 & -> & Hi & Hs & _).
    exists stmt1. split; [|split; [now exists [0; 0]%nat|exact Hs]]. split; [exact Hi|]. now exists id1.
  - destruct H as (Ht & id & stmt & Eb & Es & Ev). destruct (M id stmt Ht Eb) as (i1 & t1 & id1 & stmt1 & -> & Hi & Hs & Is).
    pose proof (conforms_inside _ _ _ C0 Is) as Cs. destruct (typed_node G stmt _ Cs Es not_builtin_Expr) as (j & gs & -> & Hj).
    destruct (expr_fields G j gs HG Cs Hj) as (v & ->). cbn in Ev. subst c0.
    inversion Hs as [| |? ? j1 gs1 Et F]; subst. rewrite Hj in F. inversion F as [|? [g1 y1] ? gs2 [E1 F1] F1']; subst. inversion F1'; subst.
    cbn [fst snd] in *. subst g1. destruct F1 as [[K _]|F1]; [discriminate K|].
    exists y1. split; [|split; [now exists [0; 0; 0]%nat|exact F1]]. split; [exact Hi|].
    exists id1, (VNode j1 [(TX "value", y1)]). split; [reflexivity|]. split; [exact (eq_trans (eq_sym Et) Hj)|reflexivity].
Qed.

Lemma pruned_ext works can can' : forall pre strings out, (forall k, In k (dkeys strings) -> can k = can' k) ->
  pruned works can pre strings out -> pruned works can' pre strings out.
Proof.
  intros pre strings out H P. revert H. induction P as [pre|pre k s post out Hc P IH|pre k s post out Hc W P IH|pre k s post out Hc W P IH]; intros H.
  - constructor.
  - apply PN_verbatim; [rewrite <- H; [exact Hc|now left]|]. apply IH. intros k' Hk. apply H. now right.
  - assert (A : all_parens can post = all_parens can' post).
    { apply map_ext_in. intros [k' x] Hk. cbn. rewrite (H k'); [reflexivity|]. right. now apply (in_map fst) in Hk. }
    apply PN_dropped; [rewrite <- H; [exact Hc|now left]|now rewrite <- A|]. apply IH. intros k' Hk. apply H. now right.
  - assert (A : all_parens can post = all_parens can' post).
    { apply map_ext_in. intros [k' x] Hk. cbn. rewrite (H k'); [reflexivity|]. right. now apply (in_map fst) in Hk. }
    apply PN_kept; [rewrite <- H; [exact Hc|now left]|now rewrite <- A|]. apply IH. intros k' Hk. apply H. now right.
Qed.
Lemma all_parens_ext can can' strings : (forall k, In k (dkeys strings) -> can k = can' k) ->
  all_parens can strings = all_parens can' strings.
Proof. intros H. apply map_ext_in. intros [k' x] Hk. cbn. rewrite (H k'); [reflexivity|]. now apply (in_map fst) in Hk. Qed.

Lemma expr_is_node v : is_expr v = true -> is_node v = true.
Proof. destruct v as [|id l|id [| |[]| |]]; [reflexivity|..]; intros H; vm_compute in H; discriminate H. Qed.

Section Template.
  Variable tokenize : text -> res (list ptok).
  Variable order : list nat -> list nat.
  Variable ast_parse : text -> res value.
  Variable parse_ast : text -> res env.
  Variable G : grammar.
  Hypothesis HG : proper G.
  Hypothesis HGp : python_grammar G.
  Hypothesis HP : python_parser G parse_ast.

  (** What is computed for any [values] of the metavariables. *)
  Theorem rendered holes p k t m matchers strings values r safe :
    py_matcher t = wrap k m -> finds_pattern holes p m ->
    (forall n x q, holes n = Some (Named x q) -> q = MAnything) ->
    conforms G p -> is_node p = true -> dict_ok strings ->
    (forall x v, values x = Some v -> dget matchers x = Some (ast_matchers_matcher v)
        /\ is_node v = true /\ exists root, parsed_tree G root /\ inside root v) ->
    parenthesized parse_ast t matchers strings = Ok (r, safe) ->
    exists full e0 e1 c1,
      lex_substitute (py_lex t) (all_parens (dmem matchers) strings) = Ok full /\ parse_ast full = Ok e0
      /\ pruned (reads_as parse_ast (py_lex t) (e_tree e0)) (dmem matchers) [] strings safe
      /\ lex_substitute (py_lex t) safe = Ok r /\ parse_ast r = Ok e1
      /\ same_syntax (e_tree e0) (e_tree e1)
      /\ consists_of k (e_tree e1) c1 /\ instance holes values p c1.
  Proof.
    intros Em F Hany Cp Np D Hv H.
    destruct (parenthesized_spec parse_ast G HG HP t matchers strings r safe D H)
      as (full & e0 & rm & b & reps & L0 & E0 & M & Hb & Pn & L1 & e1 & E1 & S).
    destruct (HP _ _ E0) as [P0 N0]. destruct (HP _ _ E1) as [P1 N1]. rewrite Em in M.
    destruct (eval e0 (wrap k m) (e_tree e0) []) as [s' o] eqn:Ev. cbn [snd] in M. subst o.
    destruct (kind_match G k m e0 (e_tree e0) [] s' rm b reps HGp (pt_conforms _ _ P0) N0 Ev) as (c0 & rm' & reps' & K0 & I0 & Em0).
    assert (R : forall n x q, holes n = Some (Named x q) -> restriction_ok e0 q).
    { intros n x q Hq. rewrite (Hany _ _ _ Hq). apply restriction_anything. }
    destruct (F e0 G (e_tree e0) c0 [] HG P0 Cp Np I0 R) as [(rm2 & occ & b2 & E2 & Hf & Ha & [Db Hl] & _)|[E2 _]];
      rewrite E2 in Em0; [|discriminate Em0]. injection Em0 as _ _ Eb _. subst b2.
    destruct (kind_transport G k _ _ c0 HGp (pt_conforms _ _ P0) (pt_conforms _ _ P1) S K0) as (c1 & K1 & I1 & S1).
    exists full, e0, e1, c1. repeat (split; [assumption|]).
    apply (fits_instance e0 G (e_tree e0) (e_tree e1) P0 P1 holes Hany values p c0 occ Hf); auto.
    intros x rm0 v Hin Hx. destruct (Hv x v Hx) as (Hm & Nv & root & Pr & Iv).
    destruct (last_occ_Some _ _ _ Hin) as (rl & Hrl).
    pose proof (Hl x) as Hlx. rewrite Hrl in Hlx. cbn in Hlx. apply dget_In in Hlx.
    destruct (Hb _ _ Hlx) as (mx & w & rm3 & ob & reps3 & Gx & Mw & Ex). cbn [b_value] in Mw.
    pose proof (eq_trans (eq_sym Gx) Hm) as Q. injection Q as ->.
    assert (Iw : inside (e_tree e0) w).
    { eapply (fits_inside e0 G (e_tree e0) holes HG P0 R p c0 occ Hf I0); [apply last_occ_In; exact Hrl|exact Mw]. }
    assert (Sw : same_code v w).
    { destruct (literal_match e0 G v w [] HG (conforms_inside _ _ _ (pt_conforms _ _ Pr) Iv) (conforms_inside _ _ _ (pt_conforms _ _ P0) Iw) Nv)
        as [(Sy & _)|[_ E]]; [|rewrite E in Ex; discriminate Ex].
      eapply same_syntax_code_inside; [exact Pr|exact P0|..]; assumption. }
    destruct (alike_last occ x rm0 Ha Hin) as (rl' & Hrl' & Q). rewrite Hrl in Hrl'. injection Hrl' as <-.
    destruct Q as [->|(u & w' & Mu & Mw' & Eq)]; [now exists w|].
    rewrite Mw in Mw'. injection Mw' as <-. exists u. split; [exact Mu|].
    assert (Iu : inside (e_tree e0) u) by (eapply (fits_inside e0 G (e_tree e0) holes HG P0 R p c0 occ Hf I0); eauto).
    eapply same_code_trans; [exact Sw|]. apply same_code_sym. apply same_by_id_code. now apply (ast_equivalent_iff G (e_tree e0)).
  Qed.
End Template.

(** *** The context of a match *)
From Verif Require Import NavSpec NavProofs.

Lemma reparseable_iff parsed tree : unshared tree -> forall n p a o,
  climbable tree p a -> compound a = false -> (2 * length p < n)%nat ->
  (reparseable n parsed tree a = Ok o <-> context parsed (a :: ancestors tree p) o).
Proof.
  intros U. induction n as [n IH] using lt_wf_ind. intros p a o C Ha Hn. destruct n as [|n]; [lia|]. cbn [reparseable].
  assert (Climb : is_expr a || is_stmt a = false \/ m_span (create_match parsed a) = None ->
     (climb n parsed tree a = Ok o <-> context parsed (a :: ancestors tree p) o)).
  { intros Hno.
    assert (Out : context parsed (a :: ancestors tree p) o <-> context parsed (ancestors tree p) o).
    { split; [|now apply CX_outer]. intros H. inversion H as [? ? Hc|? ? ? Hc H1 H2|? ? ? Hc H1 H2]; subst; auto; try congruence.
      destruct Hno; congruence. }
    rewrite Out. destruct (climbable_cases _ _ _ U C) as [(-> & Hp & ->)|(q & i & par & -> & Cq & Hp & ->)].
    - split; intros H; [|inversion H]. destruct n; cbn [climb] in H; [discriminate H|]. rewrite Hp in H. discriminate H.
    - rewrite app_length in Hn. cbn [length] in Hn. destruct n as [|n]; [lia|]. cbn [climb]. rewrite Hp.
      destruct (compound par) eqn:Ec.
      + split; intros H; [injection H as <-; now apply CX_compound|]. inversion H; subst; congruence.
      + apply IH; auto; lia. }
  destruct (m_span (create_match parsed a)) as [sp|] eqn:Es; [|apply Climb; now right].
  destruct (is_expr a || is_stmt a) eqn:Ee; [|apply Climb; now left].
  split; intros H.
  - injection H as <-. now apply CX_found.
  - inversion H as [? ? Hc|? ? sp' Hc H1 H2|? ? ? Hc H1 H2]; subst; [congruence| |destruct H1; congruence].
    rewrite Es in H2. now injection H2 as ->.
Qed.

Section Substitute.
  Variable tokenize : text -> res (list ptok).
  Variable order : list nat -> list nat.
  Variable ast_parse : text -> res value.
  Variable parse_ast : text -> res env.

  (** When the replacement is used as it is. *)
  Theorem substitute_verbatim t parsed m matches r safe :
    parenthesized parse_ast t (matchers_for_matches matches) (stringify_matches matches) = Ok (r, safe) ->
    (pf_py parsed = None
     \/ (forall v txt f l a b, m = PLex v txt f l a b -> is_expr v = false)
     \/ exists info v txt f l a b p par rest, pf_py parsed = Some info /\ m = PLex v txt f l a b
          /\ unshared (py_tree info) /\ climbable (py_tree info) p v /\ ancestors (py_tree info) p = par :: rest
          /\ (vtype par = TX "Expr" \/ context parsed (par :: rest) None)) ->
    py_substitute tokenize order ast_parse parse_ast t parsed m matches = Ok r.
  Proof.
    intros H Hc. unfold py_substitute. rewrite H. cbn [bind fst].
    destruct Hc as [->|[Hc|(info & v & txt & f & l & a & b & p & par & rest & -> & -> & U & C & A & Hc)]]; [reflexivity| |].
    - destruct (pf_py parsed) as [info|]; [|reflexivity]. destruct m as [| | | |v txt f l a b]; try reflexivity.
      now rewrite (Hc v txt f l a b eq_refl).
    - destruct (is_expr v); [|reflexivity]. cbn [negb].
      destruct (climbable_cases _ _ _ U C) as [(-> & _ & A')|(q & i & par' & -> & Cq & Hp & A')]; [congruence|].
      rewrite A' in A. injection A as -> <-. rewrite Hp.
      destruct (text_eqb_spec (vtype par) (TX "Expr")) as [|Ne]; [reflexivity|]. cbn [orb].
      destruct (compound par) eqn:Ec; [reflexivity|].
      destruct Hc as [Hc|Hc]; [congruence|].
      apply (reparseable_iff parsed (py_tree info) U (2 * S (vsize (py_tree info))) q par None Cq Ec) in Hc.
      + rewrite Hc. reflexivity.
      + destruct Cq as [[Cq _] _]. apply vsize_path in Cq. lia.
  Qed.

  Theorem substitute_in_context t parsed info v txt f l a b matches p par rest q sp r safe out :
    parenthesized parse_ast t (matchers_for_matches matches) (stringify_matches matches) = Ok (r, safe) ->
    pf_py parsed = Some info -> is_expr v = true -> unshared (py_tree info) -> climbable (py_tree info) p v ->
    ancestors (py_tree info) p = par :: rest -> vtype par <> TX "Expr" -> context parsed (par :: rest) (Some (q, sp)) ->
    py_substitute tokenize order ast_parse parse_ast t parsed (PLex v txt f l a b) matches = Ok out ->
    exists pseudo tree c safe',
      python_template tokenize order ast_parse
        (before parsed q sp (lex_span f l a b) ++ TX "$current_expr" ++ behind parsed q sp (lex_span f l a b)) = Ok pseudo
      /\ ast_parse r = Ok tree
      /\ (exists id stmt, vfield tree (TX "body") = VList id [stmt] /\ vtype stmt = TX "Expr" /\ vfield stmt (TX "value") = c)
      /\ (exists r', parenthesized parse_ast pseudo [(TX "current_expr", ast_matchers_matcher c)] [(TX "current_expr", r)] = Ok (r', safe'))
      /\ dget safe' (TX "current_expr") = Some out.
  Proof.
    intros H Hpy He U C A Ne Hc Hs. unfold py_substitute in Hs. rewrite H, Hpy in Hs. cbn [bind fst] in Hs.
    rewrite He in Hs. cbn [negb] in Hs.
    destruct (climbable_cases _ _ _ U C) as [(-> & _ & A')|(q0 & i & par' & -> & Cq & Hp & A')]; [congruence|].
    rewrite A' in A. injection A as -> <-. rewrite Hp in Hs.
    destruct (text_eqb_spec (vtype par) (TX "Expr")) as [|_]; [congruence|]. cbn [orb] in Hs.
    assert (Ec : compound par = false) by (inversion Hc; auto). rewrite Ec in Hs.
    apply (reparseable_iff parsed (py_tree info) U (2 * S (vsize (py_tree info))) q0 par _ Cq Ec) in Hc.
    2:{ destruct Cq as [[Cq _] _]. apply vsize_path in Cq. lia. }
    rewrite Hc in Hs. cbn [bind] in Hs. unfold in_context in Hs.
    assert (Eb : (if is_expr q then TX "(" ++ slice (pf_text parsed) (fst sp) (fst (lex_span f l a b)) else slice (pf_text parsed) (fst sp) (fst (lex_span f l a b)))
                 = before parsed q sp (lex_span f l a b)) by (unfold before; now destruct (is_expr q)).
    assert (Ea : (if is_expr q then slice (pf_text parsed) (snd (lex_span f l a b)) (snd sp) ++ TX ")" else slice (pf_text parsed) (snd (lex_span f l a b)) (snd sp))
                 = behind parsed q sp (lex_span f l a b)) by (unfold behind; destruct (is_expr q); [reflexivity|now rewrite app_nil_r]).
    rewrite Eb, Ea in Hs.
    destruct (python_template tokenize order ast_parse _) as [pseudo|]; cbn [bind] in Hs; [|discriminate Hs].
    destruct (ast_parse r) as [tree|] eqn:Er; cbn [bind] in Hs; [|discriminate Hs].
    destruct (list_of (vfield tree (TX "body"))) as [|stmt [|? ?]] eqn:El; try discriminate Hs.
    destruct (text_eqb_spec (vtype stmt) (TX "Expr")) as [Et|]; [|discriminate Hs].
    destruct (parenthesized parse_ast pseudo _ _) as [[r' safe']|] eqn:Ep; cbn [bind snd] in Hs; [|discriminate Hs].
    destruct (dget safe' (TX "current_expr")) as [s|] eqn:Ed; [|discriminate Hs]. injection Hs as ->.
    exists pseudo, tree, (vfield stmt (TX "value")), safe'. split; [reflexivity|]. split; [reflexivity|]. split.
    { destruct (vfield tree (TX "body")) as [|id l0|]; try discriminate El. cbn in El. subst l0. exists id, stmt. auto. }
    split; [eauto|exact Ed].
  Qed.
End Substitute.
