(** C68: rewriting with a regex and a regex template is [re.sub]. *)
From Verif Require Import Py PyFacts Regex Subst Fmt ApplySpec ApplyProofs SubstSpec SubstProofs Ast Template
  Search SearchSpec SearchProofs RewriteProofs RegexProofs PragmaProofs ReSubSpec.

Lemma group_span_fun r regs l sp sp' :
  valid_regex r -> group_span r regs l sp -> group_span r regs l sp' -> sp = sp'.
Proof.
  intros (_ & Hd & Hn) H H'.
  destruct H as [(-> & E)|[(i & Hi & -> & E)|(i & Hin & E)]],
           H' as [(El & E')|[(j & Hj & El & E')|(j & Hin' & E')]].
  - congruence.
  - discriminate El.
  - destruct (Hn _ _ Hin') as (_ & _ & C). discriminate C.
  - discriminate El.
  - apply int_label_inj in El. subst j. congruence.
  - destruct (Hn _ _ Hin') as (_ & C & _). discriminate C.
  - subst l. destruct (Hn _ _ Hin) as (_ & _ & C). discriminate C.
  - subst l. destruct (Hn _ _ Hin) as (_ & C & _). discriminate C.
  - apply (In_dget (r_groupindex r)) in Hin, Hin'; try exact Hd. congruence.
Qed.
Lemma expands_fun r txt regs ps t t' :
  valid_regex r -> expands r txt regs ps t -> expands r txt regs ps t' -> t = t'.
Proof.
  intros Hr H. revert t'. induction H as [|s ps t H IH|l sp ps t Hg H IH]; intros t' H'; inversion H'; subst.
  - reflexivity.
  - f_equal. auto.
  - f_equal; [|auto]. f_equal. eapply group_span_fun; eauto.
Qed.
Lemma re_sub_fun r ps txt p ms out out' :
  valid_regex r -> re_sub r ps txt p ms out -> re_sub r ps txt p ms out' -> out = out'.
Proof.
  intros Hr H. revert out'. induction H as [p|p a b g t rest out He H IH]; intros out' H'; inversion H'; subst.
  - reflexivity.
  - f_equal. f_equal; [|auto]. eapply expands_fun; eauto.
Qed.

Lemma span_eqb_eq (x y : span) : span_eqb x y = true -> x = y.
Proof. destruct x as [a b], y as [c d]. unfold span_eqb. cbn [fst snd]. intro H. f_equal; lia. Qed.
Lemma captured_slice txt sp : captured txt sp = slice txt (fst sp) (snd sp).
Proof.
  unfold captured. destruct (span_eqb sp (-1, -1)) eqn:E; [|reflexivity].
  apply span_eqb_eq in E. subst sp. cbn [fst snd]. now rewrite slice_empty.
Qed.

Lemma re_fill_expands r txt regs d ps :
  dict_ok d ->
  (forall l m, In (l, m) d <-> exists sp, group_span r regs l sp /\ m = span_match txt sp) ->
  (forall v, In v (re_vars ps) -> exists sp, group_span r regs v sp) ->
  exists t, re_fill ps (stringify_matches d) = Ok t /\ expands r txt regs ps t.
Proof.
  intros Hd HS. induction ps as [|[s|v] ps IH]; intros Hv; cbn [re_fill].
  - exists []. split; [reflexivity|constructor].
  - destruct IH as (t & E & HE); [exact Hv|]. rewrite E. exists (s ++ t). split; [reflexivity|now constructor].
  - destruct (Hv v) as (sp & Hsp); [now left|].
    rewrite (stringify_get d v (span_match txt sp) Hd (proj2 (HS _ _) (ex_intro _ sp (conj Hsp eq_refl)))
               (slice txt (fst sp) (snd sp)) eq_refl).
    destruct IH as (t & E & HE); [intros w Hw; apply Hv; now right|]. rewrite E. cbn [bind].
    rewrite <- captured_slice. eexists. split; [reflexivity|]. now constructor.
Qed.

Lemma flat_map_none {A B} (f : A -> list B) l : (forall x, In x l -> f x = []) -> flat_map f l = [].
Proof. induction l as [|x l IH]; intro H; [reflexivity|]. cbn. rewrite (H x); [|now left]. apply IH. intros y Hy. apply H. now right. Qed.

Lemma one_replaced (d : dict span) l (t : text) a b :
  dict_ok d -> In (l, (a, b)) d ->
  flat_map (fun kv : label * span => let '(k, (x, y)) := kv in
     match dget [(l, t)] k with Some u => [(u, x, y)] | None => [] end) d = [(t, a, b)].
Proof.
  intros Hd Hin. induction d as [|[k [x y]] d IH]; [contradiction|].
  unfold dict_ok in Hd. cbn [dkeys map fst] in Hd. inversion Hd as [|? ? Hni Hd']; subst.
  cbn [flat_map]. cbn [dget]. destruct (text_eqb_spec l k) as [->|Hne].
  - destruct Hin as [E|Hin].
    + injection E as -> ->. rewrite flat_map_none; [reflexivity|].
      intros [k' [x' y']] Hk. rewrite (proj2 (text_eqb_neq k k')); [reflexivity|].
      intros ->. apply Hni. unfold dkeys. apply in_map_iff. eexists. split; [|exact Hk]. reflexivity.
    + exfalso. apply Hni. unfold dkeys. apply in_map_iff. eexists. split; [|exact Hin]. reflexivity.
  - destruct Hin as [E|Hin]; [injection E as -> _ _; congruence|]. cbn [app]. apply IH; assumption.
Qed.

Lemma find_cons_ok parsed key x xs s l :
  rewriting_find parsed key [x] = Ok [s] -> rewriting_find parsed key xs = Ok l ->
  rewriting_find parsed key (x :: xs) = Ok (s :: l).
Proof. intros H1 H2. rewrite rewriting_find_cons, H1, H2. reflexivity. Qed.

Section One.
  Variables (r : regex) (src : text) (ps : list re_piece) (parsed : parsed_file).
  Hypothesis Hr : valid_regex r.
  Hypothesis Hlab : forall v, In v (re_vars ps) -> group_label r v.
  Hypothesis Hzero : ~ In (int_label 0) (re_vars ps).
  Notation ts := [(ROOT_LABEL, regex_template src ps)].

  Lemma var_span regs v : valid_regs r regs -> In v (re_vars ps) -> exists sp, group_span r regs v sp.
  Proof.
    intros [Hlen _] Hv. destruct Hr as (Hg & Hgi & Hn).
    destruct (Hlab v Hv) as [->|[H|(i & Hi & ->)]].
    - destruct (nth_some regs 0) as (sp & E); [lia|]. exists sp. left. auto.
    - unfold dkeys in H. apply in_map_iff in H. destruct H as ([n i] & E & Hin). cbn in E. subst n.
      destruct (Hn _ _ Hin) as (Hi & _). destruct (nth_some regs i) as (sp & E); [lia|].
      exists sp. right. right. exists i. auto.
    - destruct (Z.eq_dec i 0) as [->|Hne]; [contradiction|].
      destruct (nth_some regs i) as (sp & E); [lia|]. exists sp. right. left. exists i. repeat split; auto; lia.
  Qed.

  Lemma one_match a b groups :
    valid_regs r ((a, b) :: groups) -> 0 <= a <= b -> Forall group_in groups ->
    exists d t s, regex_dict r (pf_text parsed) ((a, b) :: groups) = Ok d
      /\ expands r (pf_text parsed) ((a, b) :: groups) ps t
      /\ rewriting_find parsed (fun _ => Ok None) [(d, ts)] = Ok [s]
      /\ wf_sub s /\ nonneg_spans s /\ edits_of s = [(t, a, b)] /\ key_span s = None
      /\ matched_spans s <> [] /\ well_oriented s.
  Proof.
    intros Hregs Ha Hgr. set (regs := (a, b) :: groups) in *.
    destruct (regex_dict_spec r (pf_text parsed) regs Hr Hregs) as (d & Ed & Hd & HS).
    destruct (re_fill_expands r (pf_text parsed) regs d ps Hd HS (fun v Hv => var_span regs v Hregs Hv)) as (t & Et & HE).
    assert (Hroot : In (ROOT_LABEL, span_match (pf_text parsed) (a, b)) d).
    { apply HS. exists (a, b). split; [left; split; reflexivity|reflexivity]. }
    assert (Hne : (a, b) <> (-1, -1)) by (intros [= -> _]; lia).
    assert (Ert : rewrite_templates parsed d ts = Ok [(ROOT_LABEL, t)]).
    { cbn [rewrite_templates]. rewrite (In_dget d ROOT_LABEL _ Hd Hroot).
      cbn [span_match m_span no_span]. destruct (span_eqb (a, b) (-1, -1)) eqn:E; [apply span_eqb_eq in E; contradiction|].
      unfold regex_template, t_substitute. rewrite Et. reflexivity. }
    assert (Hloc : dict_ok (located d)) by (apply located_ok; exact Hd).
    assert (HlocR : In (ROOT_LABEL, (a, b)) (located d)).
    { apply located_spec. exists (span_match (pf_text parsed) (a, b)). auto. }
    set (s := Sub (located d) ROOT_LABEL (Some [(ROOT_LABEL, t)]) None None false None None).
    assert (Hval : validate s = Ok tt).
    { apply validate_spec. split; [discriminate|]. split; cbn [primary_label matched_spans replacements s].
      - unfold dkeys. apply in_map_iff. exists (ROOT_LABEL, (a, b)). auto.
      - intros rs E. injection E as <-. intros l [<-|[]]. unfold dkeys. apply in_map_iff. exists (ROOT_LABEL, (a, b)). auto. }
    exists d, t, s. split; [exact Ed|]. split; [exact HE|]. split.
    { cbn [rewriting_find]. rewrite Ert. cbn [bind].
      change (sub_of_match d [(ROOT_LABEL, t)] None) with (do _ <- validate s; Ok s). rewrite Hval. reflexivity. }
    assert (Hspans : forall l sp, In (l, sp) (located d) -> 0 <= fst sp <= snd sp).
    { intros l sp Hin. apply located_spec in Hin. destruct Hin as (m & Hin & Esp & Hn). apply HS in Hin. destruct Hin as (sp' & Hsp & ->).
      cbn in Esp. injection Esp as <-.
      assert (K : forall i, nth_error regs i = Some sp' -> 0 <= fst sp' <= snd sp').
      { intros i Hi. apply nth_error_In in Hi. destruct Hi as [<-|Hi]; [exact Ha|].
        rewrite Forall_forall in Hgr. destruct (Hgr _ Hi) as [->|H]; [congruence|exact H]. }
      destruct Hsp as [(_ & E)|[(i & _ & _ & E)|(i & _ & E)]]; eauto. }
    split; [|split; [|split; [|split; [reflexivity|split]]]].
    - split; [exact Hloc|]. split; [|exact Hval]. intros rs E. injection E as <-. unfold dict_ok. cbn. repeat constructor. intros [].
    - unfold nonneg_spans. apply Forall_forall. intros [l sp] Hin. apply Hspans in Hin. cbn [fst snd]. lia.
    - unfold edits_of. cbn [replacements matched_spans s]. exact (one_replaced (located d) ROOT_LABEL t a b Hloc HlocR).
    - cbn [matched_spans s]. intros E. rewrite E in HlocR. contradiction.
    - intros l x y Hin. apply Hspans in Hin. cbn [fst snd] in Hin. lia.
  Qed.

  Lemma all_matches ms : forall p,
    0 <= p -> Forall (valid_regs r) ms -> left_to_right p ms ->
    exists ds subs es out,
      mapM (fun regs => do d <- regex_dict r (pf_text parsed) regs; Ok (d, ts)) ms = Ok ds
      /\ rewriting_find parsed (fun _ => Ok None) ds = Ok subs
      /\ Forall wf_sub subs /\ Forall nonneg_spans subs
      /\ Forall (fun s => key_span s = None) subs
      /\ Forall (fun s => matched_spans s <> [] /\ well_oriented s) subs /\ (ms <> [] -> subs <> [])
      /\ map group subs = map (fun e => [e]) es /\ in_order p es
      /\ Edited (pf_text parsed) p es out /\ re_sub r ps (pf_text parsed) p ms out.
  Proof.
    induction ms as [|regs ms IH]; intros p Hp Hv Hl.
    - exists [], [], [], (slice_from (pf_text parsed) p). do 6 (split; [constructor|]). split; [now intros []|]. do 2 (split; [constructor|]). split; constructor; assumption.
    - inversion Hv as [|? ? Hv1 Hv2]; subst. destruct Hl as (a & b & groups & -> & Hpa & Hab & Hg & Hl).
      destruct (one_match a b groups Hv1 ltac:(lia) Hg) as (d & t & s & Ed & HE & Ef & Hw & Hn & Hed & Hk & Hc).
      destruct (IH b ltac:(lia) Hv2 Hl) as (ds & subs & es & out & E1 & E2 & W & N & K & C & NE & G & O & ED & RS).
      exists ((d, ts) :: ds), (s :: subs), ((t, a, b) :: es), (slice (pf_text parsed) p a ++ t ++ out).
      split; [cbn [mapM]; rewrite Ed; cbn [bind]; rewrite E1; reflexivity|].
      split; [exact (find_cons_ok _ _ _ _ _ _ Ef E2)|].
      do 4 (split; [now apply Forall_cons|]). split; [discriminate|].
      split. { cbn [map]. f_equal; [|exact G]. unfold group, sorted_edits. rewrite Hed. reflexivity. }
      split; [cbn; auto|]. split; [constructor; auto; lia|]. now constructor.
  Qed.
End One.

Lemma in_order_sorted p es : in_order p es ->
  StronglySorted (fun x y => gleb x y = true) (map (fun e : edit => [e]) es)
  /\ Forall (fun e : edit => p <= edit_start e) es.
Proof.
  revert p; induction es as [|[[t a] b] es IH]; intros p H; cbn [map]; [split; constructor|].
  destruct H as (Hpa & Hab & H). destruct (IH b H) as [I1 I2]. split.
  - constructor; [exact I1|]. apply Forall_map. eapply Forall_impl; [|exact I2].
    intros [[t' a'] b'] Hb. cbn in *. unfold gleb. cbn. lia.
  - constructor; [cbn; lia|]. eapply Forall_impl; [|exact I2]. intros [[t' a'] b'] Hb. cbn in *. lia.
Qed.

Lemma apply_in_order data subs es out :
  Forall wf_sub subs -> Forall nonneg_spans subs -> map group subs = map (fun e => [e]) es -> in_order 0 es ->
  Edited data 0 es out -> apply_substitutions data subs = Ok out.
Proof.
  intros W N G O E.
  assert (Ho : order_of subs = es).
  { unfold order_of. rewrite G. rewrite py_sorted_id by (apply (in_order_sorted 0 es O)).
    clear. induction es as [|e es IH]; [reflexivity|]. cbn. now rewrite IH. }
  destruct (apply_exact data subs (order_of subs) W N (proj2 (is_edit_order_iff _ _) eq_refl)) as [H _].
  rewrite Ho in H. destruct (H O) as (out' & Ea & E'). rewrite Ea. f_equal.
  clear - E E'. revert out' E'. induction E as [p Hp|p t a b es out Hp Hpa Hab E IH]; intros out' E'; inversion E'; subst.
  - reflexivity.
  - f_equal. f_equal. auto.
Qed.

Lemma group_by_none subs : Forall (fun s => key_span s = None) subs ->
  concat (map snd (group_by_key subs)) = subs /\ Forall (fun g => fst g = None) (group_by_key subs).
Proof.
  induction 1 as [|x l Hx H [I1 I2]]; [split; [reflexivity|constructor]|]. cbn [group_by_key].
  destruct (group_by_key l) as [|[k g] gs] eqn:E.
  - cbn [map concat] in I1. subst l. rewrite Hx. split; [reflexivity|]. constructor; [reflexivity|constructor].
  - inversion I2 as [|? ? Hk I2']; subst. cbn in Hk. subst k. rewrite Hx. cbn [key_eqb opt_eqb].
    cbn [map concat snd] in *. split; [cbn; now f_equal|]. constructor; [reflexivity|assumption].
Qed.
Lemma no_iteration parse_ast s parsed n subs : Forall (fun s => key_span s = None) subs ->
  exists outs, mapM (process_group parse_ast s parsed n) (group_by_key subs) = Ok outs /\ concat outs = subs.
Proof.
  intros H. destruct (group_by_none subs H) as [E HF].
  exists (map snd (group_by_key subs)). split; [|exact E]. clear E.
  induction HF as [|[k g] gs Hk HF IH]; [reflexivity|]. cbn in Hk. subst k.
  cbn [mapM process_group fst snd bind]. rewrite IH. reflexivity.
Qed.
Lemma suppress_none subs : Forall wf_sub subs -> suppress_exclude_bytes subs [] = Ok subs.
Proof.
  induction 1 as [|s l (Hd & _ & Hv) H IH]; [reflexivity|]. cbn [suppress_exclude_bytes].
  destruct (sub_matches_ranges_spec s [] Hd Hv (NoDup_nil _)) as (b & E & Hb). rewrite E, IH. cbn [bind].
  destruct b; [|reflexivity]. destruct (proj1 Hb eq_refl) as (c & rs & r & a & b & _ & [] & _).
Qed.

Lemma regex_searcher_labels r src ps s :
  valid_regex r -> regex_searcher r [(ROOT_LABEL, regex_template src ps)] = Ok s ->
  forall v, In v (re_vars ps) -> group_label r v.
Proof.
  intros Hr Hs v Hv. unfold regex_searcher, regex_searcher_check in Hs. cbn [template_variables] in Hs.
  unfold regex_template, t_variables in Hs. cbn [bind] in Hs. rewrite app_nil_r in Hs.
  destruct (forallb _ _) eqn:E in Hs; [|discriminate]. rewrite forallb_forall in E.
  specialize (E v (or_intror Hv)). apply tmem_In in E. apply regex_labels_spec in E; [exact E|apply Hr].
Qed.

Definition maybe_suppressed (force : bool) (s : searcher) : searcher :=
  if force then s else pragma_suppressed s.

Lemma re_sub_find r src ps s parse_ast data path n force :
  valid_regex r -> finditer_ok r data -> ~ In (int_label 0) (re_vars ps) ->
  regex_searcher r [(ROOT_LABEL, regex_template src ps)] = Ok s ->
  exists subs out, find_iter parse_ast (maybe_suppressed force s) data path n = Ok subs
    /\ Forall wf_sub subs /\ Forall nonneg_spans subs
    /\ Forall (fun s => matched_spans s <> [] /\ well_oriented s) subs
    /\ (subs = [] <-> r_finditer r data = [])
    /\ apply_substitutions data subs = Ok out /\ re_sub r ps data 0 (r_finditer r data) out.
Proof.
  intros Hr [Hv Hl] Hz Hs. pose proof (regex_searcher_labels r src ps s Hr Hs) as Hlab.
  unfold regex_searcher in Hs. destruct (regex_searcher_check r _) in Hs; cbn [bind] in Hs; [|discriminate].
  injection Hs as <-.
  set (parsed := PF data path [] None).
  destruct (all_matches r src ps parsed Hr Hlab Hz (r_finditer r data) 0 (Z.le_refl 0) Hv Hl)
    as (ds & subs & es & out & E1 & E2 & W & N & K & C & NE & G & O & ED & RS).
  exists subs, out. split; [|split; [exact W|split; [exact N|split; [exact C|split; [|split; [eapply apply_in_order; eauto|exact RS]]]]]].
  2: { split.
       - intros ->. destruct (r_finditer r data); [reflexivity|]. exfalso. now apply NE.
       - intros E. rewrite E in E1. cbn [mapM] in E1. injection E1 as <-. cbn in E2. now injection E2. }
  unfold find_iter. destruct force; cbn [maybe_suppressed pragma_suppressed s_check s_parse s_find default_check default_parse bind];
    change (PF data path [] None) with parsed;
    match goal with |- context [mapM ?f (r_finditer r (pf_text parsed))] =>
      change (mapM f (r_finditer r (pf_text parsed)))
        with (mapM (fun regs => do d <- regex_dict r (pf_text parsed) regs; Ok (d, [(ROOT_LABEL, regex_template src ps)])) (r_finditer r data)) end;
    rewrite E1; cbn [bind]; rewrite E2; cbn [bind].
  - edestruct no_iteration as (outs & Eo & Ec); [exact K|]. rewrite Eo. cbn [bind]. now rewrite Ec.
  - change (pragma_excluded_ranges (pf_pragmas parsed)) with (@nil (option text * list span)).
    rewrite suppress_none by exact W. cbn [bind].
    edestruct no_iteration as (outs & Eo & Ec); [exact K|]. rewrite Eo. cbn [bind]. now rewrite Ec.
Qed.
