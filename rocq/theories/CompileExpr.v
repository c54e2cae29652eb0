(** Proofs for C87: whole expressions, and what the matchers cannot be. *)
From Verif Require Import Py PyFacts Regex Ast Template Matcher MatchSpec MatcherProofs PatTok Pattern Pragmas Eval EvalSpec EvalProofs OwnSpec PiecesSpec PatternProofs
  Compile CompileSpec CompileProofs CompileTable.

Scheme means_mut := Minimality for means Sort Prop
  with means_all_mut := Minimality for means_all Sort Prop
  with means_kws_mut := Minimality for means_kws Sort Prop
  with means_pairs_mut := Minimality for means_pairs Sort Prop.
Combined Scheme means_all_ind' from means_mut, means_all_mut, means_kws_mut, means_pairs_mut.
Scheme spells_mut := Minimality for spells Sort Prop
  with spells_all_mut := Minimality for spells_all Sort Prop
  with spells_kws_mut := Minimality for spells_kws Sort Prop
  with spells_pairs_mut := Minimality for spells_pairs Sort Prop.
Combined Scheme spells_all_ind' from spells_mut, spells_all_mut, spells_kws_mut, spells_pairs_mut.

Section Expr.
  Variable uni_word : char -> bool.
  Variable full_regex file_regex : text -> res crx.
  Variable hashable : obj -> bool.
  Variable key_code : obj -> Z.
  Variable ast_classes : list (text * list text).
  Variable tokenize : text -> res (list ptok).
  Variable order : list nat -> list nat.
  Variable ast_parse : text -> res value.
  Variable negate_other : const -> const.
  Variable t : dict cls.
  Notation calls := (calls uni_word full_regex file_regex hashable key_code ast_classes tokenize order ast_parse).
  Hypothesis table_ok : forall n h args kw o,
    (exists c, dget t n = Some c /\ instantiate c h args kw = Ok o) <-> exists k m, named ast_classes n k /\ o = OMatcher m /\ calls (length h) k args kw m.
  Notation callables := (map (fun nc : text * cls => (fst nc, instantiate (snd nc))) t).
  Notation means := (means obj OConst (negate negate_other) OTuple OList OSet ODict hashable callables constant_table).
  Notation means_all := (means_all obj OConst (negate negate_other) OTuple OList OSet ODict hashable callables constant_table).
  Notation means_kws := (means_kws obj OConst (negate negate_other) OTuple OList OSet ODict hashable callables constant_table).
  Notation means_pairs := (means_pairs obj OConst (negate negate_other) OTuple OList OSet ODict hashable callables constant_table).
  Notation spells := (spells uni_word full_regex file_regex hashable key_code ast_classes tokenize order ast_parse negate_other).
  Notation spells_all := (spells_all uni_word full_regex file_regex hashable key_code ast_classes tokenize order ast_parse negate_other).
  Notation spells_kws := (spells_kws uni_word full_regex file_regex hashable key_code ast_classes tokenize order ast_parse negate_other).
  Notation spells_pairs := (spells_pairs uni_word full_regex file_regex hashable key_code ast_classes tokenize order ast_parse negate_other).

  Lemma dget_callables n : dget callables n = option_map instantiate (dget t n).
  Proof. clear table_ok. induction t as [|[m c] t' IH]; [reflexivity|]. cbn [map dget fst snd]. destruct (text_eqb m n); [reflexivity|exact IH]. Qed.

  Lemma constants_iff n o : dget constant_table n = Some o <->
    n = TX "_" /\ o = OMatcher MAnything \/ (exists name c, n = TX "BindConflict." ++ name /\ In (name, c) conflict_names /\ o = OConflict c)
    \/ exists name g, n = TX "BindMerge." ++ name /\ In (name, g) merge_names /\ o = OMerge g.
  Proof.
    assert (D : dict_ok constant_table) by (apply distinct_ok; vm_compute; reflexivity). split.
    - intros H. apply dget_In in H. destruct H as [[= <- <-]|H]; [now left|right]. apply in_app_iff in H as [H|H]; [left|right].
      + apply in_map_iff in H as ([name c] & [= <- <-] & H). exists name, c. auto.
      + apply in_map_iff in H as ([name c] & [= <- <-] & H). exists name, c. auto.
    - intros H. apply In_dget; [exact D|]. destruct H as [[-> ->]|[(name & c & -> & H & ->)|(name & g & -> & H & ->)]].
      + now left.
      + right. apply in_app_iff. left. apply in_map_iff. exists (name, c). auto.
      + right. apply in_app_iff. right. apply in_map_iff. exists (name, g). auto.
  Qed.

  Lemma means_spells :
    (forall h e h' o, means h e h' o -> spells (length h) e (length h') o)
    /\ (forall h l h' os, means_all h l h' os -> spells_all (length h) l (length h') os)
    /\ (forall h l h' os, means_kws h l h' os -> spells_kws (length h) l (length h') os)
    /\ (forall h l h' os, means_pairs h l h' os -> spells_pairs (length h) l (length h') os).
  Proof.
    apply (means_all_ind' obj OConst (negate negate_other) OTuple OList OSet ODict hashable callables constant_table).
    - intros. apply P_const.
    - intros h k c Hk. destruct k; [congruence|exact (P_minus_int _ _ _ _ _ _ _ _ _ _ _ c)|now apply P_minus_other|now apply P_minus_other].
    - intros. now apply P_tuple.
    - intros. now apply P_list.
    - intros. now apply P_set.
    - intros. now apply P_dict.
    - intros h f n c args kws h1 os h2 ks o Hd Hc Hs _ H1 _ H2 Ho. rewrite dget_callables in Hc. destruct (dget t n) as [c'|] eqn:E; [|discriminate Hc]. injection Hc as <-.
      assert (K : exists k m, named ast_classes n k /\ o = OMatcher m /\ calls (length h2) k os (fold_left (fun d kv => dset d (fst kv) (snd kv)) ks []) m).
      { apply table_ok. exists c'. split; [exact E|exact Ho]. }
      destruct K as (k & m & Hn & -> & Hk). rewrite app_length. cbn [length]. rewrite Nat.add_1_r. exact (P_call _ _ _ _ _ _ _ _ _ _ _ f n k args kws _ os _ ks m Hd Hn Hs H1 H2 Hk).
    - intros h e n o Hd Ho. apply constants_iff in Ho as [[-> ->]|[(name & c & -> & H & ->)|(name & g & -> & H & ->)]].
      + now apply P_anything.
      + now apply (P_conflict _ _ _ _ _ _ _ _ _ _ _ _ name).
      + now apply (P_merge _ _ _ _ _ _ _ _ _ _ _ _ name).
    - intros. constructor.
    - intros h x h1 o l h2 os _ H1 _ H2. exact (PA_cons _ _ _ _ _ _ _ _ _ _ _ _ _ _ _ _ _ H1 H2).
    - intros. constructor.
    - intros h k x h1 o l h2 os _ H1 _ H2. exact (PK_cons _ _ _ _ _ _ _ _ _ _ _ _ _ _ _ _ _ _ H1 H2).
    - intros. constructor.
    - intros h k x h1 a h2 b l h3 os _ H1 _ H2 _ H3. exact (PP_cons _ _ _ _ _ _ _ _ _ _ _ _ _ _ _ _ _ _ _ _ H1 H2 H3).
  Qed.
  Lemma spells_means :
    (forall i e j o, spells i e j o -> forall h, length h = i -> exists h', length h' = j /\ means h e h' o)
    /\ (forall i l j os, spells_all i l j os -> forall h, length h = i -> exists h', length h' = j /\ means_all h l h' os)
    /\ (forall i l j os, spells_kws i l j os -> forall h, length h = i -> exists h', length h' = j /\ means_kws h l h' os)
    /\ (forall i l j os, spells_pairs i l j os -> forall h, length h = i -> exists h', length h' = j /\ means_pairs h l h' os).
  Proof.
    apply (spells_all_ind' uni_word full_regex file_regex hashable key_code ast_classes tokenize order ast_parse negate_other).
    - intros i c h Hh. exists h. split; [exact Hh|apply M_const].
    - intros i c h Hh. exists h. split; [exact Hh|]. refine (M_minus _ _ (negate negate_other) _ _ _ _ _ _ _ h KInt c _). discriminate.
    - intros i k c Hk Hi h Hh. exists h. split; [exact Hh|]. pose proof (M_minus _ OConst (negate negate_other) OTuple OList OSet ODict hashable callables constant_table h k c Hk) as M. destruct k; [congruence|congruence|exact M|exact M].
    - intros i l j os _ IH h Hh. destruct (IH h Hh) as (h' & E & H). exists h'. split; [exact E|now apply M_tuple].
    - intros i l j os _ IH h Hh. destruct (IH h Hh) as (h' & E & H). exists h'. split; [exact E|now apply M_list].
    - intros i l j os _ IH F h Hh. destruct (IH h Hh) as (h' & E & H). exists h'. split; [exact E|now apply M_set].
    - intros i l j os _ IH F h Hh. destruct (IH h Hh) as (h' & E & H). exists h'. split; [exact E|now apply M_dict].
    - intros i e Hd h Hh. exists h. split; [exact Hh|]. apply (M_name _ _ _ _ _ _ _ _ _ _ h e _ _ Hd). apply constants_iff. now left.
    - intros i e name c Hd Hin h Hh. exists h. split; [exact Hh|]. apply (M_name _ _ _ _ _ _ _ _ _ _ h e _ _ Hd). apply constants_iff. right. left. now exists name, c.
    - intros i e name c Hd Hin h Hh. exists h. split; [exact Hh|]. apply (M_name _ _ _ _ _ _ _ _ _ _ h e _ _ Hd). apply constants_iff. right. right. now exists name, c.
    - intros i f n k args kws j os l ks m Hd Hn Hs _ IH1 _ IH2 Hk h Hh. destruct (IH1 h Hh) as (h1 & E1 & H1). destruct (IH2 h1 E1) as (h2 & E2 & H2).
      assert (K : exists c, dget t n = Some c /\ instantiate c h2 os (fold_left (fun d kv => dset d (fst kv) (snd kv)) ks []) = Ok (OMatcher m)).
      { apply table_ok. exists k, m. rewrite E2. auto. }
      destruct K as (c & Hc & Ho). eexists. split; [|apply (M_call _ _ _ _ _ _ _ _ _ _ h f n (instantiate c) args kws h1 os h2 ks (OMatcher m) Hd)].
      + rewrite app_length, E2. cbn [length]. apply Nat.add_1_r.
      + rewrite dget_callables, Hc. reflexivity.
      + exact Hs.
      + exact H1.
      + exact H2.
      + exact Ho.
    - intros i h Hh. exists h. split; [exact Hh|constructor].
    - intros i x j o l k os _ IH1 _ IH2 h Hh. destruct (IH1 h Hh) as (h1 & E1 & H1). destruct (IH2 h1 E1) as (h2 & E2 & H2). exists h2. split; [exact E2|].
      exact (MA_cons _ _ _ _ _ _ _ _ _ _ _ _ _ _ _ _ _ H1 H2).
    - intros i h Hh. exists h. split; [exact Hh|constructor].
    - intros i n x j o l k os _ IH1 _ IH2 h Hh. destruct (IH1 h Hh) as (h1 & E1 & H1). destruct (IH2 h1 E1) as (h2 & E2 & H2). exists h2. split; [exact E2|].
      exact (MK_cons _ _ _ _ _ _ _ _ _ _ _ _ _ _ _ _ _ _ H1 H2).
    - intros i h Hh. exists h. split; [exact Hh|constructor].
    - intros i y x j a k b l n os _ IH1 _ IH2 _ IH3 h Hh. destruct (IH1 h Hh) as (h1 & E1 & H1). destruct (IH2 h1 E1) as (h2 & E2 & H2). destruct (IH3 h2 E2) as (h3 & E3 & H3).
      exists h3. split; [exact E3|]. exact (MP_cons _ _ _ _ _ _ _ _ _ _ _ _ _ _ _ _ _ _ _ _ H1 H2 H3).
  Qed.
End Expr.

(** *** What holds for all matchers that can be written *)
Section Closed.
  Variable uni_word : char -> bool.
  Variable full_regex file_regex : text -> res crx.
  Variable hashable : obj -> bool.
  Variable key_code : obj -> Z.
  Variable ast_classes : list (text * list text).
  Variable tokenize : text -> res (list ptok).
  Variable order : list nat -> list nat.
  Variable ast_parse : text -> res value.
  Variable negate_other : const -> const.
  Notation calls := (calls uni_word full_regex file_regex hashable key_code ast_classes tokenize order ast_parse).
  Notation builds := (builds uni_word full_regex file_regex hashable key_code ast_classes tokenize order ast_parse).
  Variable P : matcher -> Prop.
  Hypothesis P_leaf : forall v, P (MEquals v) /\ P MAnything /\ P MRaise /\ P (MAnyOf []) /\ (forall s, P (MStringMatch s)) /\ forall ns, P (MInLines ns).
  Hypothesis P_lists : forall ms, Forall P ms -> P (MAllOf ms) /\ P (MAnyOf ms) /\ P (MItemsAre ms).
  Hypothesis P_node : forall ty fs, Forall (fun fm => P (snd fm)) fs -> P (MNode ty fs).
  Hypothesis P_one : forall m, P m -> (forall k f, In (k, f) one_submatcher -> P (f m)) /\ (forall k, P (MOnce k m)) /\ (forall n c g, P (MBind n m c g)) /\ (forall c g, P (MRebind m c g))
    /\ (forall i, P (MHasItem i m)) /\ (forall p a, P (MWithTopLevelImport m p a)) /\ (forall k field f, In (k, field, f) constant_classes -> P (f m)) /\ forall ts, P (MConst ts m).
  Hypothesis P_two : forall a b, P a -> P b -> P (MNamedFunctionDefinition a b).
  Hypothesis P_regex : forall p r m, full_regex p = Ok r -> P m -> P (MMatchesRegex r m).
  Hypothesis P_file : forall p r, file_regex p = Ok r -> P (MFileMatchesRegex r).

  Lemma P_never : P (MUnless MAnything).
  Proof. destruct (P_one MAnything) as [H _]; [apply (P_leaf (VConst 0 CNone))|]. apply (H (TX "Unless") MUnless). cbn. tauto. Qed.
  Lemma pattern_closed pull src d m : (forall x r, dget d x = Some r -> P r) -> base_ast_pattern tokenize order ast_parse pull src d = Ok m -> P m.
  Proof.
    intros HR H. unfold base_ast_pattern, remapped_ast, rewrite_submatchers in H.
    destruct (remap_macro_variables tokenize order src) as [[[s names] anon]|x] eqn:Er; cbn [bind] in H; [|destruct x; discriminate H].
    destruct (forallb _ _); cbn [bind] in H; [|discriminate H].
    destruct (ast_parse s) as [module|x] eqn:Ep; cbn [bind] in H; [|destruct x; discriminate H].
    destruct (verify_variables module names) as [[]|]; cbn [bind] in H; [|discriminate H].
    destruct (pull module) as [p|]; cbn [bind] in H; [|discriminate H]. injection H as <-. unfold rebound.
    assert (S : forall n m, dget (submatchers d names anon) n = Some m -> P m).
    { unfold submatchers.
      assert (A : forall l d, (forall n m, dget d n = Some m -> P m) -> forall n m, dget (fold_left (fun d n => dset d n MAnything) l d) n = Some m -> P m).
      { induction l as [|x l IH]; intros d0 Hd; [exact Hd|]. cbn [fold_left]. apply IH. intros n m. rewrite dget_dset. destruct (text_eqb _ _); [intros [= <-]; apply (P_leaf (VConst 0 CNone))|apply Hd]. }
      assert (B : forall l d0, (forall n m, dget d0 n = Some m -> P m) -> forall n m, dget (fold_left (fun d0 kv => dset d0 (snd kv)
          (MBind (fst kv) (or_default (dget d (fst kv)) MAnything) (Some MERGE_EQUIVALENT_AST) None)) l d0) n = Some m -> P m).
      { induction l as [|x l IH]; intros d0 Hd; [exact Hd|]. cbn [fold_left]. apply IH. intros n m. rewrite dget_dset. destruct (text_eqb _ _); [|apply Hd].
        intros [= <-]. apply P_one. destruct (dget d (fst x)) as [r|] eqn:E; [exact (HR _ _ E)|apply (P_leaf (VConst 0 CNone))]. }
      apply B. apply A. intros n m [=]. }
    apply P_one. clear -S P_leaf P_lists P_node. induction p as [i fs IH|i l IH|i c] using value_ind'.
    - cbn [ast_pattern].
      assert (K : P (MNode (n_type i) (map (fun kv => (fst kv, if ignored_field (n_type i) (fst kv) then MAnything else ast_pattern (submatchers d names anon) (snd kv))) fs))).
      { apply P_node. apply Forall_forall. intros x Hx. apply in_map_iff in Hx as (kv & <- & Hin). cbn [snd]. destruct (ignored_field _ _); [apply (P_leaf (VConst 0 CNone))|].
        rewrite Forall_forall in IH. now apply IH. }
      destruct (name_id _) as [n|]; [|exact K]. destruct (dget _ n) as [m|] eqn:E; [now apply (S n)|exact K].
    - cbn [ast_pattern]. apply P_lists. apply Forall_forall. intros x Hx. apply in_map_iff in Hx as (v & <- & Hin). rewrite Forall_forall in IH. now apply IH.
    - apply P_leaf.
  Qed.

  (** All matchers in an object are such. *)
  Inductive fair : obj -> Prop :=
    | F_const c : fair (OConst c)
    | F_tuple l : Forall fair l -> fair (OTuple l)
    | F_list l : Forall fair l -> fair (OList l)
    | F_set l : Forall fair l -> fair (OSet l)
    | F_dict l : Forall (fun kv => fair (fst kv) /\ fair (snd kv)) l -> fair (ODict l)
    | F_matcher m : P m -> fair (OMatcher m)
    | F_conflict c : fair (OConflict c)
    | F_merge g : fair (OMerge g).
  Lemma stands_fair o m : fair o -> stands o m -> P m.
  Proof.
    intros F S. inversion S as [|? ? _ E]; subst; [now inversion F|]. inversion E; subst; [apply P_leaf|apply P_never].
  Qed.
  Definition all_fair (a : text -> option obj) : Prop := forall n o, a n = Some o -> fair o.
  Lemma sub_fair a n m : all_fair a -> submatcher (a n) m -> P m.
  Proof. intros A H. destruct (a n) as [o|] eqn:E; cbn [submatcher] in H; [exact (stands_fair o m (A n o E) H)|]. subst m. apply (P_leaf (VConst 0 CNone)). Qed.
  Lemma restricts_fair l d d' : restricts d l d' -> Forall (fun kv => fair (fst kv) /\ fair (snd kv)) l -> (forall x r, dget d x = Some r -> P r) -> forall x r, dget d' x = Some r -> P r.
  Proof.
    induction 1 as [|d k v m rest d' S R IH]; intros F D; [exact D|]. inversion F as [|? ? [_ F1] F2]; subst. apply IH; [exact F2|].
    intros x r. rewrite dget_dset. destruct (text_eqb _ _); [|apply D]. intros [= <-]. exact (stands_fair v m F1 S).
  Qed.
  Lemma restrictions_fair a n d : all_fair a -> restrictions (a n) d -> forall x r, dget d x = Some r -> P r.
  Proof.
    intros A [[_ ->]|(l & E & R)]; [discriminate|]. apply (restricts_fair l [] d R); [|discriminate]. specialize (A n _ E). now inversion A.
  Qed.
  Lemma builds_fair fresh k ps bn a m : all_fair a -> builds fresh k ps bn a m -> P m.
  Proof.
    intros A B. destruct B; try (apply (P_leaf (VConst 0 CNone)); fail).
    - apply (proj1 (P_one m (sub_fair a _ m A H0)) k f H).
    - apply P_one. exact (sub_fair a _ m A H0).
    - apply P_one. exact (sub_fair a _ m A H1).
    - apply P_one. exact (sub_fair a _ m A H1).
    - apply P_one. exact (sub_fair a _ m A H).
    - inversion H0; subst; [apply P_leaf|apply P_never].
    - exact (P_regex p r m H0 (sub_fair a _ m A H1)).
    - exact (P_file p r H0).
    - apply P_one. exact (sub_fair a _ m A H1).
    - apply P_lists. destruct H as (l & F & H). assert (FL : Forall fair l).
      { destruct (a (TX "matchers")) as [o|] eqn:E; [|destruct H as [H|[H|[(? & H & _)|(? & H & _)]]]; discriminate H]. specialize (A _ o E).
        destruct H as [[= ->]|[[= ->]|[(vs & [= ->] & L)|(s & [= ->] & ->)]]]; try (inversion A; assumption).
        - inversion A as [| | | |? F' | | |]; subst. clear -F' L. revert vs F' L. induction l as [|x l IH]; intros [|v vs] F' L; try discriminate L; [constructor|].
          cbn [combine] in F'. inversion F' as [|? ? [F1 _] F2]; subst. constructor; [exact F1|]. apply (IH vs F2). now injection L.
        - apply Forall_forall. intros x Hx. apply in_map_iff in Hx as (c & <- & _). constructor. }
      clear -F FL P_leaf P_one. induction F as [|x m l ms S F IH]; [constructor|]. inversion FL; subst. constructor; [eapply stands_fair; eassumption|auto].
    - refine (pattern_closed _ src d m (restrictions_fair a _ d A H0) H1).
    - refine (pattern_closed _ src d m (restrictions_fair a _ d A H0) H1).
    - apply P_two; eapply sub_fair; eassumption.
    - apply P_one. exact (sub_fair a _ m A H).
    - refine (proj1 (proj2 (proj2 (proj2 (proj2 (proj2 (proj2 (P_one m (sub_fair a _ m A H0)))))))) k field f H).
    - apply P_one. apply P_leaf.
    - apply P_node. clear H H0. induction H1 as [|f m fields ms H1 F IH]; [constructor|]. cbn [combine]. constructor; [exact (sub_fair a f m A H1)|exact IH].
  Qed.
  Lemma calls_fair fresh k args kw m : Forall fair args -> (forall n o, dget kw n = Some o -> fair o) -> calls fresh k args kw m -> P m.
  Proof.
    intros Fa Fk H. assert (G : forall ms, Forall fair (map OMatcher ms) -> Forall P ms).
    { intros ms F. apply Forall_forall. intros m' Hm. rewrite Forall_forall in F. specialize (F (OMatcher m') (in_map _ _ _ Hm)). now inversion F. }
    destruct H as [ms|ms|k ps bn args kw a m B Hp].
    - apply P_lists. now apply G.
    - apply P_lists. now apply G.
    - destruct Hp as (_ & _ & _ & Hp).
      set (a' := fun n => if tmem n (map fst ps) then a n else None).
      assert (A : all_fair a').
      { intros n o Hn. unfold a' in Hn. destruct (tmem n (map fst ps)) eqn:E; [|discriminate Hn]. apply tmem_In in E. apply in_map_iff in E as ([n' r] & <- & E). cbn [fst] in Hn |- *.
        apply In_nth_error in E as (i & E). specialize (Hp i n' r E). destruct (nth_error args i) as [x|] eqn:Ex.
        - destruct Hp as [Hp _]. rewrite Hn in Hp. injection Hp as ->. rewrite Forall_forall in Fa. apply Fa. exact (nth_error_In _ _ Ex).
        - destruct Hp as [Hp _]. rewrite Hn in Hp. exact (Fk n' o (eq_sym Hp)). }
      apply (builds_fair fresh k ps bn a' m A).
      assert (E : forall n, In n (map fst ps) -> a' n = a n) by (intros n Hn; unfold a'; apply tmem_In in Hn; now rewrite Hn).
      clearbody a'. clear A Hp.
      destruct B; econstructor; rewrite ?E by (cbn; tauto); try eassumption.
      clear -H1 E. assert (E' : forall f, In f fields -> a' f = a f) by (intros f Hf; apply E; rewrite map_map; cbn; now rewrite map_id).
      clear E. induction H1 as [|f m fields ms H1 F IH]; [constructor|]. constructor; [rewrite E' by (now left); exact H1|]. apply IH. intros g Hg. apply E'. now right.
  Qed.
  Theorem spells_fair :
    (forall i e j o, spells uni_word full_regex file_regex hashable key_code ast_classes tokenize order ast_parse negate_other i e j o -> fair o)
    /\ (forall i l j os, spells_all uni_word full_regex file_regex hashable key_code ast_classes tokenize order ast_parse negate_other i l j os -> Forall fair os)
    /\ (forall i l j os, spells_kws uni_word full_regex file_regex hashable key_code ast_classes tokenize order ast_parse negate_other i l j os -> Forall (fun kv => fair (snd kv)) os)
    /\ (forall i l j os, spells_pairs uni_word full_regex file_regex hashable key_code ast_classes tokenize order ast_parse negate_other i l j os -> Forall (fun kv => fair (fst kv) /\ fair (snd kv)) os).
  Proof.
    apply (spells_all_ind' uni_word full_regex file_regex hashable key_code ast_classes tokenize order ast_parse negate_other); intros; try (constructor; auto; fail).
    - constructor. apply P_leaf. exact (VConst 0 CNone).
    - constructor. match goal with H : calls _ _ _ _ _ |- _ => refine (calls_fair _ _ _ _ _ _ _ H) end; [assumption|].
      match goal with H : Forall (fun kv => fair (snd kv)) ks |- _ => rename H into HF end. clear -HF.
      assert (G : forall d, (forall n o, dget d n = Some o -> fair o) -> forall n o, dget (fold_left (fun d kv => dset d (fst kv) (snd kv)) ks d) n = Some o -> fair o).
      { induction HF as [|[k v] ks Hv F IH]; intros d D; [exact D|]. cbn [fold_left fst snd]. apply IH. intros n o. rewrite dget_dset. destruct (text_eqb _ _); [intros [= <-]; exact Hv|apply D]. }
      apply G. discriminate.
  Qed.
End Closed.
