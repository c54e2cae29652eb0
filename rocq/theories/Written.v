(** C86: what a search of a Python file finds is in the file.  Proofs. *)
From Coq Require Import Permutation.
From Verif Require Import Py PyFacts Subst Fmt ApplySpec SubstSpec ApplyProofs Ast Template FromDiff Matcher MatchSpec MergeSpec MergeProofs MatcherProofs
  OwnSpec OwnProofs FindSpec FindProofs NavSpec NavProofs Search SearchSpec RewriteProofs Removal RemovalSpec RemovalProofs RemovalApi RemovalSearch
  PatternSpec EquivProofs PiecesSpec Pieces WrittenSpec AllProofs PragmaProofs IterAll FixMode FixerProofs SearchProofs Cli.

Lemma lex_tokens v f l : lexical_tokens v = Some (f, l) -> first_token v = Ok f /\ last_token v = Ok l.
Proof.
  unfold lexical_tokens. destruct v as [i fs| |]; try discriminate. cbn [first_token last_token]. destruct (n_first i) as [f'|], (n_last i) as [l'|]; try discriminate.
  destruct (text_eqb _ _); [destruct (vfield _ _) as [|? []|]; try discriminate|destruct (text_eqb _ _); [discriminate|]]; intros [= -> ->]; auto.
Qed.

Section Written.
  Variable e : env.
  Variable pass_template : template.
  Notation tree := (e_tree e).
  Notation t := (pf_text (e_parsed e)).
  Hypothesis W : written e.

  Definition in_file (m : pymatch) : Prop :=
    (forall sp, m_span m = Some sp -> sp = (-1, -1) \/ in_text t sp) /\ forall v tx f l a b, m = PLex v tx f l a b -> PatternSpec.inside tree v.
  Lemma written_positioned : positioned (e_parsed e) tree.
  Proof.
    intros w sp Hw Hs. unfold create_match in Hs. destruct (lexical_tokens w) as [[f l]|] eqn:E; [|destruct w as [| |? []]; discriminate Hs].
    cbn in Hs. injection Hs as <-. apply lex_tokens in E as [E1 E2]. exact (wr_tokens _ W w f l Hw E1 E2).
  Qed.
  Lemma fine_in_file m : fine e m -> in_file m.
  Proof.
    intros [[P L] G]. split; [intros sp Hs; destruct (P sp Hs) as [?|[? _]]; auto|]. intros v tx f l a b E. pose proof (L _ _ _ _ _ _ E) as E'. subst m.
    apply (G v eq_refl v); [now exists []|]. unfold create_match in E'. destruct (lexical_tokens v) as [[f0 l0]|] eqn:Et; [|destruct v as [| |? []]; discriminate E'].
    destruct v; try discriminate Et. reflexivity.
  Qed.

  Lemma sanitized_one o tm st m' t' st' : (forall m, o = Some m -> fine e m) -> sanitize_one pass_template tree (e_tokens e) o tm st = Ok (m', t', st') ->
    forall m, m' = Some m -> in_file m.
  Proof.
    intros Ho H m Em. subst m'. unfold sanitize_one in H. destruct (removes_stmt o tm) as [[[[[[v txt] f] l] a] b]|] eqn:E.
    2:{ injection H as -> _ _. apply fine_in_file, Ho, eq_refl. }
    assert (E' : o = Some (PLex v txt f l a b) /\ is_stmt v = true).
    { unfold removes_stmt in E. destruct o as [[]|]; try discriminate E. destruct (t_template _); [|discriminate E]. destruct (is_stmt _) eqn:Es; [|discriminate E].
      injection E as <- <- <- <- <- <-. now split. }
    destruct E' as [-> Es]. clear E. pose proof (Ho _ eq_refl) as F. pose proof F as [[_ HL] HG].
    pose proof (HL _ _ _ _ _ _ eq_refl) as E. unfold create_match in E. destruct (lexical_tokens v) as [[f0 l0]|] eqn:Et; [|destruct v as [| |? []]; discriminate E].
    injection E as -> <- <- -> ->. apply lex_tokens in Et as [Ef El].
    assert (Hv : PatternSpec.inside tree v).
    { apply (HG v eq_refl v); [now exists []|]. destruct v; try discriminate Ef. reflexivity. }
    pose proof (wr_tokens _ W v f l Hv Ef El) as [T1 [T2 T3]]. cbn [fst snd] in T1, T2, T3.
    destruct Hv as (p & Hp). assert (Hon : only_at tree p v) by (apply (wr_unshared _ W); [exact Hp|destruct v; try discriminate Ef; reflexivity]).
    destruct (get_parent tree v) as [[|id items|]|] eqn:Ep; try discriminate H.
    destruct p as [|i q _] using rev_ind.
    { cbn in Hp. injection Hp as <-. destruct (nav_root tree Hon) as [E0 _]. rewrite E0 in Ep. discriminate Ep. }
    pose proof Hp as Hv. rewrite at_path_app in Hp. destruct (at_path tree q) as [par'|] eqn:Hq; [|discriminate Hp].
    cbn in Hp. destruct (nth_error (vchildren par') i) as [x|] eqn:Hi; [|discriminate Hp]. injection Hp as ->.
    rewrite (nav_parent tree q i par' v Hq Hi (or_introl (stmt_not_none _ Es)) Hon) in Ep. injection Ep as ->. cbn [vchildren] in Hi.
    destruct (nav_siblings_list tree q i id items v Hq Hi Hon) as [Eprev Enext]. rewrite Enext, Eprev in H.
    pose proof (ex_intro (fun q => at_path tree q = Some (VList id items)) q Hq) as Hl. change (PatternSpec.inside tree (VList id items)) in Hl.
    destruct (nth_error items (S i)) as [next|] eqn:En.
    - apply bind_Ok in H as (ft & Hft & H). injection H as <- _ _. split; [|intros ? ? ? ? ? ? [= <- _ _ _ _ _]; now exists (q ++ [i])]. intros sp [= <-]. right. unfold lex_span, in_text. cbn [fst snd].
      destruct (wr_suites _ W id items i v next l ft Hl Hi En (or_introl Es) El Hft). lia.
    - destruct i as [|k].
      + injection H as <- _ _. apply fine_in_file. exact F.
      + destruct (nth_error items k) as [prev|] eqn:Ek; [|injection H as <- _ _; apply fine_in_file; exact F].
        apply bind_Ok in H as (own & Hown & H). rewrite El in Hown. injection Hown as <-.
        apply bind_Ok in H as ([sf sa] & Hstart & H). apply bind_Ok in H as (semi & Hsemi & H). injection H as <- _ _.
        pose proof (wr_next _ W v l semi (ex_intro _ _ Hv) Es El Hsemi) as N.
        split; [|intros ? ? ? ? ? ? [= <- _ _ _ _ _]; now exists (q ++ [S k])]. intros sp [= <-]. right. unfold lex_span, in_text. cbn [fst snd].
        assert (S1 : 0 <= (if sa then tk_start sf else tk_end sf) <= tk_start f).
        { destruct (_ || _); [injection Hstart as <- <-; lia|]. apply bind_Ok in Hstart as (lt & Hlt & Hstart). injection Hstart as <- <-.
          exact (proj1 (wr_suites _ W id items k prev v lt f Hl Ek Hi (or_intror Es) Hlt Ef)). }
        change [59] with (TX ";"). destruct (text_eqb_spec (tk_string semi) (TX ";")) as [Esemi|_]; cbn [fst snd]; [specialize (N Esemi)|]; lia.
  Qed.
  Lemma dget_dset_same {V} (d : dict V) k v : dget (dset d k v) k = Some v.
  Proof. rewrite dget_dset. now rewrite text_eqb_refl. Qed.
  Lemma sanitized todo : forall ms done st ms' ts' st', NoDup (dkeys todo) ->
    (forall x m, dget ms x = Some m -> (In x (dkeys todo) -> fine e m) /\ in_file m) ->
    sanitize pass_template tree (e_tokens e) ms todo done st = Ok (ms', ts', st') -> forall x m, dget ms' x = Some m -> in_file m.
  Proof.
    induction todo as [|[x0 tm] todo IH]; intros ms done st ms' ts' st' ND HM H; cbn [sanitize] in H.
    - injection H as <- _ _. intros x m Hx. now apply HM in Hx.
    - destruct (sanitize_one _ _ _ _ _ _) as [[[m1 t1] st1]|] eqn:E; [|discriminate H]. cbn [bind] in H. cbn [dkeys map fst] in ND, HM. inversion ND as [|? ? N1 N2]; subst.
      refine (IH _ _ _ _ _ _ N2 _ H). intros x m Hx.
      assert (K : forall m, m1 = Some m -> in_file m).
      { refine (sanitized_one _ _ _ _ _ _ _ E). intros m0 Hm0. apply (HM x0 m0 Hm0). now left. }
      destruct m1 as [m1|].
      + rewrite dget_dset in Hx. destruct (text_eqb_spec x0 x) as [->|Nx].
        * injection Hx as <-. split; [contradiction|now apply K].
        * destruct (HM x m Hx) as [A B]. split; [|exact B]. intros Hin. apply A. now right.
      + destruct (HM x m Hx) as [A B]. split; [|exact B]. intros Hin. apply A. now right.
  Qed.
  Lemma sanitized_all results : forall st outs, Forall result_ok results -> Forall (fine_result e) results ->
    sanitize_all pass_template tree (e_tokens e) results st = Ok outs ->
    Forall (fun mt : dict pymatch * dict template => forall x m, In (x, m) (fst mt) -> in_file m) outs.
  Proof.
    induction results as [|r results IH]; intros st outs HR HF H; cbn [sanitize_all] in H.
    - injection H as <-. constructor.
    - inversion HR as [|? ? [Hr1 Hr2] HR']; inversion HF as [|? ? Hf HF']; subst. apply bind_Ok in H as (ob & H1 & H). apply bind_Ok in H as (b & H2 & H).
      apply bind_Ok in H as (reps & H3 & H). apply bind_Ok in H as ([[ms ts] st'] & H4 & H). apply bind_Ok in H as (outs' & H5 & H).
      injection H as <-. apply not_none_Ok in H2. subst ob. constructor; [|eapply IH; eassumption].
      pose proof (sanitize_keys _ _ _ _ _ _ _ _ _ _ H4) as [K1 _]. cbn [fst]. intros x m Hin.
      assert (D : dict_ok ms). { unfold dict_ok. rewrite K1. unfold dkeys. rewrite map_map. cbn [fst]. now apply Hr1. }
      refine (sanitized reps _ _ _ _ _ _ (Hr2 _ H3) _ H4 x m (proj1 (dict_ok_In _ _ _ D) Hin)).
      intros y m0 Hy. apply dget_In in Hy. apply in_map_iff in Hy as ([k bv] & [= <- <-] & Hin'). cbn [fst snd].
      pose proof (proj2 Hf b H1 k bv Hin') as F. split; [intros _; exact F|now apply fine_in_file].
  Qed.
  Lemma finds_fine m out : engines_ok t m -> matcher_find_iter e m = Ok out -> Forall (fine_result e) (map snd out).
  Proof.
    intros HE H. apply find_iter_found in H as (hs & Hf & ->). rewrite map_map. cbn [snd]. apply Forall_forall. intros r Hin.
    apply in_map_iff in Hin as (h & <- & Hin). apply in_split in Hin as (h1 & h2 & ->).
    destruct (fd_match _ _ _ Hf h1 h h2 eq_refl) as [Hp Ha]. unfold attempt in Ha. destruct (admits _ _); [|discriminate Ha].
    exact (results_are_pieces (with_done e (done_after [] h1)) written_positioned m (h_value h) [] (h_ran h) (h_result h) HE
      (good_inside (with_done e (done_after [] h1)) _ _ (good_tree _) (ex_intro _ _ Hp)) Ha).
  Qed.

  (** *** Substitutions *)
  Lemma key_in_file ms sp : (forall x m, In (x, m) ms -> in_file m) -> key_span_for_dict tree ms = Ok (Some sp) -> in_text t sp.
  Proof.
    intros H K. unfold key_span_for_dict in K. destruct (dget ms ROOT_LABEL) as [[]|] eqn:E; try discriminate K.
    apply dget_In in E. apply H in E as [_ E]. specialize (E _ _ _ _ _ _ eq_refl).
    apply bind_Ok in K as (simple & H1 & K). destruct simple as [n|]; [|discriminate K].
    apply bind_Ok in K as (f' & H2 & K). apply bind_Ok in K as (l' & H3 & K). injection K as <-. apply (wr_tokens _ W n f' l'); [|exact H2|exact H3].
    unfold get_simple_node in H1. eapply simple_inside; [exact H1|exact E|discriminate].
  Qed.
  Definition sub_in_file (s : substitution) : Prop :=
    (forall l sp, In (l, sp) (matched_spans s) -> in_text t sp) /\ (forall sp, key_span s = Some sp -> in_text t sp).
  Lemma described_in_file outs subs : described (e_parsed e) (key_span_for_dict tree) outs subs ->
    Forall (fun mt : dict pymatch * dict template => forall x m, In (x, m) (fst mt) -> in_file m) outs -> Forall sub_in_file subs.
  Proof.
    induction 1 as [|ms ts rest out Hl H IH|ms ts rest s out Hn Hd Hv H IH]; intros HF; [constructor| |]; inversion HF as [|? ? H1 H2]; subst; [auto|].
    constructor; [|auto]. cbn [fst] in H1. destruct Hd as (A & _ & _ & _ & _ & _ & _ & K). split.
    - intros l sp Hin. apply A in Hin as (m & Hm & Hs & N). destruct (proj1 (H1 _ _ Hm) _ Hs); [contradiction|assumption].
    - intros sp Hk. rewrite Hk in K. exact (key_in_file _ _ H1 K).
  Qed.
End Written.

(** *** Searchers *)
Section Searchers.
  Variable parse_ast : text -> text -> res parsed_file.
  Variable context : parsed_file -> pyinfo -> env.
  Variable pass_template : template.
  Variable m : matcher.
  Hypothesis Hm : dicts_ok m.
  Notation s := (python_searcher parse_ast context pass_template m).
  Lemma search_in_file parsed info subs : pf_py parsed = Some info -> let e := context parsed info in
    e_parsed e = parsed -> e_tree e = py_tree info -> written e -> engines_ok (pf_text parsed) m -> s_find s parsed = Ok subs ->
    Forall wf_sub subs /\ Forall (sub_in_file e) subs.
  Proof.
    intros Hi e Ep Et W HE H. split.
    - cbn [s_find python_searcher] in H. apply bind_Ok in H as (ds & Hd & H). refine (rewriting_find_wf _ _ _ _ _ H).
      unfold find_dicts in Hd. rewrite Hi in Hd. apply bind_Ok in Hd as (found & Hf & Hd). refine (sanitize_all_dicts _ _ _ _ _ _ _ Hd).
      eapply find_iter_results; eassumption.
    - apply searcher_finds in H as (info' & outs & Hi' & Ho & Hd); [|exact Hm]. rewrite Hi in Hi'. injection Hi' as <-. fold e in Et. rewrite <- Et in Hd. rewrite <- Ep in Hd.
      unfold find_dicts in Ho. rewrite Hi in Ho. fold e in Ho. apply bind_Ok in Ho as (found & Hf & Ho).
      refine (described_in_file e W _ _ Hd _). refine (sanitized_all e pass_template W _ _ _ _ _ Ho).
      + eapply find_iter_results; eassumption.
      + refine (finds_fine e W m found _ Hf). now rewrite Ep.
  Qed.
End Searchers.

(** *** Rounds, and searchers made of others *)
Definition placed (t : text) (s : substitution) : Prop :=
  wf_sub s /\ (forall l sp, In (l, sp) (matched_spans s) -> in_text t sp) /\ (forall sp, key_span s = Some sp -> in_text t sp).
Section Rounds.
  Variable parse_ast : text -> text -> res parsed_file.
  Variable data path : text.
  Definition places_all (s : searcher) : Prop :=
    (forall parsed subs, parse_ast data path = Ok parsed -> s_find s parsed = Ok subs -> Forall (placed data) subs)
    /\ forall parsed, s_parse s data path = Ok parsed -> parse_ast data path = Ok parsed.
  Lemma fixed_point_placed s parsed initial a b n out : initial <> [] -> Forall (placed data) initial -> in_text data (a, b) ->
    fixed_point parse_ast s parsed initial a b n = Ok out -> Forall (placed data) out.
  Proof.
    intros Hne HP Hab H.
    assert (Hv : Forall (fun x => validate x = Ok tt) initial) by (eapply Forall_impl; [|exact HP]; intros x ((_ & _ & V) & _); exact V).
    destruct (Z.le_gt_cases n 1) as [Hle|Hgt].
    { rewrite fixed_point_same in H by auto. injection H as <-. auto. }
    destruct (all_some_rel a b initial Hv) as (rel & E & [(Hi & _)|(Hx & _)]).
    2: { rewrite fixed_point_same in H by auto. injection H as <-. auto. }
    destruct (fixed_point_spec parse_ast s parsed initial a b n Hne Hv Hgt Hi) as (rels & _ & HS).
    rewrite H in HS. destruct HS as (bs & t & pend & _ & _ & _ & HR).
    destruct bs as [|b0 [|b1 bs]]; cbn [fp_result] in HR.
    - subst. constructor.
    - subst. auto.
    - destruct HR as (m & Hm & ->). pose proof (compile_wf _ _ _ _ _ Hm (proj1 Hab)) as [W _].
      destruct (compile_eq (concat (b0 :: b1 :: bs)) a b t) as (m' & E' & Hms & _ & _ & Hk). assert (E2 : m = m') by congruence. subst m'.
      constructor; [|constructor]. split; [exact W|]. rewrite Hms, Hk. split; [|discriminate]. intros l sp [[= <- <-]|[]]. exact Hab.
  Qed.
  Lemma find_iter_placed s n out : places_all s -> find_iter parse_ast s data path n = Ok out -> Forall (placed data) out.
  Proof.
    intros [J P] H. apply find_iter_ok in H. destruct H as (p & subs & outs & _ & Hp & Hf & H2 & ->).
    pose proof (J p subs (P _ Hp) Hf) as H1. clear Hf Hp. pose proof (group_by_key_spec subs) as HG.
    revert outs H2 H1. induction HG as [|k g rest gs Hne HF HG IH Hd]; intros outs H2 H1.
    - inversion H2; subst. cbn. constructor.
    - inversion H2 as [|? o ? os Ho Hos]; subst. apply Forall_app in H1 as [H1 H3]. cbn [concat]. apply Forall_app. split; [|auto].
      unfold process_group in Ho. cbn [fst snd] in Ho. destruct k as [[a b]|]; [|injection Ho as <-; exact H1].
      refine (fixed_point_placed s p g a b n o Hne H1 _ Ho). destruct g as [|x g]; [congruence|].
      inversion HF as [|? ? Hkx _]; inversion H1 as [|? ? (_ & _ & K) _]; subst. now apply K.
  Qed.
  Lemma places_combined ss : ss <> [] -> Forall places_all ss -> places_all (combined ss).
  Proof.
    intros Hne HF. rewrite Forall_forall in HF. split.
    2:{ intros parsed H. cbn [s_parse combined] in H. apply bind_Ok in H as (r & Hr & H). apply combined_parse_spec in Hr as (ps & F & K & _).
      destruct (K eq_refl Hne) as (p & -> & Hin & _). injection H as <-.
      assert (exists s, In s ss /\ s_parse s data path = Ok p) as (s & Hs & Hp).
      { clear -F Hin. induction F as [|s q ss ps Hq F IH]; [destruct Hin|]. destruct Hin as [->|Hin]; [exists s; split; [now left|exact Hq]|].
        destruct (IH Hin) as (s' & H1 & H2). exists s'. split; [now right|exact H2]. }
      exact (proj2 (HF s Hs) _ Hp). }
    intros parsed subs Hp Hf. cbn [s_find combined] in Hf. apply bind_Ok in Hf as (ls & Hm & Hd). apply disjoint_incl in Hd. apply mapM_Forall2 in Hm.
    apply Forall_forall. intros x Hx. apply Hd in Hx. apply in_concat in Hx as (l & Hl & Hx).
    assert (exists s, In s ss /\ s_find s parsed = Ok l) as (s & Hs & Hsl).
    { clear -Hm Hl. induction Hm as [|s l' ss ls Hs F IH]; [destruct Hl|]. destruct Hl as [->|Hl]; [exists s; split; [now left|auto]|].
      destruct (IH Hl) as (s' & H1 & H2). exists s'. split; [now right|exact H2]. }
    pose proof (proj1 (HF s Hs) parsed l Hp Hsl) as O. rewrite Forall_forall in O. auto.
  Qed.
  Lemma places_also also noalso s : places_all s -> places_all (also_regexp also noalso s).
  Proof.
    intros [J P]. split; [exact J|]. intros parsed H. apply P. cbn [s_parse also_regexp] in H. destruct (_ || _); [discriminate H|exact H].
  Qed.
  Lemma places_suppressed s : places_all s -> places_all (pragma_suppressed s).
  Proof.
    intros [J P]. split; [|exact P]. intros parsed subs' Hp H. pose proof H as H0. cbn [s_find pragma_suppressed] in H. apply bind_Ok in H as (subs & Hs & _).
    pose proof (J parsed subs Hp Hs) as O. destruct (pragma_suppressed_spec s parsed subs Hs) as (keep & E & _).
    - eapply Forall_impl; [|exact O]. intros x ((D & _ & V) & _). now split.
    - rewrite H0 in E. injection E as ->. apply Forall_forall. intros x Hx. apply filter_In in Hx as [Hx _]. rewrite Forall_forall in O. auto.
  Qed.
  Lemma places_built o ss s : Forall places_all ss -> build_searcher o ss = Some s -> places_all s.
  Proof.
    intros HF H. unfold build_searcher in H. destruct ss as [|s0 rest]; [discriminate H|]. injection H as <-.
    assert (S1 : places_all (match rest with [] => s0 | _ => combined (s0 :: rest) end)).
    { destruct rest; [now inversion HF|]. apply places_combined; [discriminate|exact HF]. }
    generalize dependent (match rest with [] => s0 | _ => combined (s0 :: rest) end). intros s1 S1.
    assert (S2 : places_all (match co_also o, co_noalso o with [], [] => s1 | also, noalso => also_regexp also noalso s1 end)).
    { destruct (co_also o), (co_noalso o); try exact S1; now apply places_also. }
    generalize dependent (match co_also o, co_noalso o with [], [] => s1 | also, noalso => also_regexp also noalso s1 end). intros s2 S2.
    destruct (co_force_enable o); [exact S2|now apply places_suppressed].
  Qed.
  Lemma python_places context pass_template m : dicts_ok m -> engines_ok data m -> written_source parse_ast context data path ->
    places_all (python_searcher parse_ast context pass_template m).
  Proof.
    intros Hm HE HW. split.
    - intros parsed subs Hp Hf. destruct (HW parsed Hp) as (info & Hi & Ht & H1 & H2 & W).
      assert (HE' : engines_ok (pf_text parsed) m) by now rewrite Ht.
      destruct (search_in_file parse_ast context pass_template m Hm parsed info subs Hi H1 H2 W HE' Hf) as [A B].
      apply Forall_forall. intros x Hx. rewrite Forall_forall in A, B. split; [auto|]. specialize (B x Hx). unfold sub_in_file in B. rewrite H1, Ht in B. exact B.
    - intros parsed H. cbn [s_parse python_searcher] in H. unfold python_parse in H. destruct (parse_ast data path) as [u|[]]; try discriminate H; exact H.
  Qed.
  Lemma placed_edits subs out : Forall (placed data) subs -> apply_substitutions data subs = Ok out ->
    exists es, Permutation es (flat_map edits_of subs) /\ Edited data 0 es out /\ forall r a b, In (r, a, b) es -> in_text data (a, b).
  Proof.
    intros HP H.
    assert (H1 : Forall wf_sub subs) by (eapply Forall_impl; [|exact HP]; intros x (K & _); exact K).
    assert (H2 : Forall nonneg_spans subs).
    { eapply Forall_impl; [|exact HP]. intros x (_ & K & _). unfold nonneg_spans. apply Forall_forall. intros [l sp] Hin. apply (K l sp) in Hin. exact (proj1 Hin). }
    destruct (apply_edits _ _ _ H1 H2 H) as (es & P & HE). exists es. split; [exact P|]. split; [exact HE|]. intros r a b Hin.
    eapply Permutation_in in Hin; [|exact P]. apply in_flat_map in Hin as (x & Hx & Hin). rewrite Forall_forall in HP. destruct (HP x Hx) as (_ & K & _).
    unfold edits_of in Hin. apply in_flat_map in Hin as ([l [a' b']] & Hl & Hin). destruct (replacements x) as [rs|]; [|destruct Hin].
    destruct (dget rs l); [|destruct Hin]. destruct Hin as [[= <- <- <-]|[]]. exact (K l (a', b') Hl).
  Qed.
End Rounds.
