(** The correctness fixers in a search: the defaults of [attr.ib], and all of them; proofs. *)
From Verif Require Import TemplateProofs Py PyFacts Subst ApplySpec Ast Template FromDiff Matcher MatchSpec MatcherProofs FindSpec FindProofs
  NavSpec NavProofs CollSpec CollProofs PatTok PatSpec Pattern PatternSpec EquivProofs PatternProofs PatternApi
  PyTemplate PyTemplateSpec PyTemplateProofs Search SearchSpec Removal OwnSpec
  PropsTemplate ExprSubSpec ExprSubProofs PropsExprSub Fixer FixerSpec FixerProofs PyCode BuiltinFixers BuiltinSpec CodeProofs BuiltinProofs BuiltinApply BuiltinTables BuiltinMain
  CorrectnessFixers CorrectnessSpec CorrectnessProofs CorrectnessMain.
From Coq Require Import Permutation.

(** *** A fixer with templates for labels *)
Lemma labels_apply pass e fs h f d key mb ts sub reps l new :
  fx_replacement f = inr d -> (forall x t, dget d x = Some t -> t_template t <> [] /\ startswith (TX "__") x = false) -> plain_fixer f ->
  by_fixer pass e fs h f mb ts -> describes (e_parsed e) key mb ts sub -> replacements sub = Some reps -> In (l, new) reps ->
  exists t b m sp, dget d l = Some t /\ r_bindings (h_result h) = Ok (Some b) /\ option_map b_value (dget b l) = Some m
    /\ m_span m = Some sp /\ In (l, sp) (matched_spans sub) /\ t_substitute t (e_parsed e) m mb = Ok new.
Proof.
  intros Et Nt Hf ((d0 & Hff) & (Dmb & b & Eb & Hmb) & Hts) (Hsp & _ & (reps' & Er & Hreps) & _) Er' Hin.
  rewrite Er in Er'. injection Er' as ->.
  assert (Tm : forall x t0, dget (fixer_templates f) x = Some t0 -> dget d x = Some t0 \/ In x meta_labels).
  { intros x t0. rewrite fixer_templates_get. unfold fx_base. rewrite Et.
    destruct (text_eqb_spec SIGNIFICANT_LABEL x); [subst; right; cbn; auto|]. destruct (text_eqb_spec CATEGORY_LABEL x); [subst; right; cbn; auto|].
    destruct (text_eqb_spec URL_LABEL x); [subst; right; cbn; auto|]. destruct (text_eqb_spec MESSAGE_LABEL x); [subst; right; cbn; auto|]. auto. }
  apply Hreps in Hin as [(t0 & Ht0 & Hfill) Hl].
  assert (Hd : exists t1, dget (fixer_templates f) l = Some t1 /\ (t0 = t1 \/ t_template t1 = [])).
  { pose proof (fixer_templates_ok f Hf) as D. unfold own_templates in Hts. revert D Hts Ht0. generalize (fixer_templates f). intros d1 D F. clear - D F.
    induction F as [|[x u] [y w] d1 d2 [E1 E2] F IH]; intros Hin; [destruct Hin|]. cbn [fst snd] in *. subst y. cbn [dget].
    unfold dict_ok, dkeys in D. cbn [map fst] in D. inversion D as [|? ? D1 D2]; subst. destruct Hin as [E|Hin].
    - injection E as -> ->. rewrite text_eqb_refl. exists u. split; [reflexivity|]. destruct E2 as [E2|[E2 _]]; auto.
    - destruct (text_eqb_spec x l) as [->|N].
      + exfalso. apply D1. assert (K : In l (map fst d2)) by now apply (in_map fst) in Hin. clear - F K.
        induction F as [|[a u] [b w] d1 d2 [E1 _] F IH]; cbn in *; [exact K|]. destruct K as [<-|K]; auto.
      + now apply IH. }
  destruct Hd as (t1 & Ed & H01). destruct (Tm l t1 Ed) as [K|K]; [|tauto]. destruct (Nt _ _ K) as [N1 N2]. destruct H01 as [->|H01]; [|congruence].
  destruct Hfill as [(mm & Hmm & (sp & Hsp1 & Hsp2) & E)|(_ & K' & _)]; [|congruence].
  exists t1, b, mm, sp. split; [exact K|]. split; [exact Eb|]. apply (In_dget _ _ _ Dmb) in Hmm as Hd.
  split.
  - destruct (Hmb l) as [E1|(v & txt & f1 & l1 & a1 & b1 & f2 & l2 & a2 & b2 & t2 & E1 & E2 & _)]; [congruence|].
    exfalso. rewrite Ed in E1. congruence.
  - split; [exact Hsp1|]. split; [|now symmetry]. apply Hsp. exists mm. auto.
Qed.

(** *** The defaults of [attr.ib] *)
Lemma no_bindings (b : dict bound) : (forall x, option_map b_value (dget b x) = None) -> b = [].
Proof. destruct b as [|[x v] b]; [reflexivity|]. intros H. specialize (H x). cbn [dget] in H. rewrite text_eqb_refl in H. discriminate H. Qed.
Lemma first_hit_inv try l s s' x r : first_hit try l s s' (Ok (Some (x, r))) -> In x l /\ exists s1, try x s1 = (s', Ok (Some r)).
Proof.
  remember (Ok (Some (x, r))) as o eqn:Eo. intros H. induction H as [|y l s s1 s' o H1 H IH|y l s s' r0 H1|y l s s' exn H1]; try discriminate Eo.
  - destruct (IH Eo) as [A B]. split; [now right|exact B].
  - injection Eo as -> ->. split; [now left|eauto].
Qed.
Section Attrib.
  Variables (e : env) (f v : matcher) (Pf Pv : value -> Prop).
  (** Matchers that say yes or no, and bind nothing. *)
  Definition yes (m : matcher) (P : value -> Prop) : Prop :=
    forall d c s s' r, PatternSpec.inside (e_tree e) c -> eval (with_done e d) m c s = (s', Ok (Some r)) -> P c /\ exists rm, r = RInfo rm (Some []) [].
  Hypothesis Hf : yes f Pf.
  Hypothesis Hv : yes v Pv.
  Definition keyword_matcher : matcher := MNode (TX "keyword") [(TX "arg", MEquals (VConst 0 (CStr (TX "default")))); (TX "value", v)].
  Definition call_matcher : matcher :=
    MNode (TX "Call") [(TX "func", f); (TX "args", MAnything); (TX "keywords", MContains (MBind (TX "keyword") keyword_matcher None None))].
  Lemma inside_field i fs x w : PatternSpec.inside (e_tree e) (VNode i fs) -> dget fs x = Some w -> PatternSpec.inside (e_tree e) w.
  Proof. intros I H. apply dget_In in H. eapply inside_child; [exact I|]. cbn [vchildren]. now apply (in_map snd) in H. Qed.
  Lemma inside_item id l w : PatternSpec.inside (e_tree e) (VList id l) -> In w l -> PatternSpec.inside (e_tree e) w.
  Proof. intros I H. eapply inside_child; [exact I|]. exact H. Qed.
  Variable G : grammar.
  Hypothesis HC : call_grammar G.
  Hypothesis PT : parsed_tree G (e_tree e).
  Lemma field_of c ty x b : PatternSpec.inside (e_tree e) c -> vtype c = ty -> ~ In ty builtin_types -> In (x, b) (G ty) ->
    exists i fs, c = VNode i fs /\ n_type i = ty /\ dget fs x = Some (vfield c x) /\ PatternSpec.inside (e_tree e) (vfield c x).
  Proof.
    intros Ic Et Nb Hx. destruct c as [i fs|id l|id k].
    - exists i, fs. split; [reflexivity|]. split; [exact Et|].
      assert (C : conforms G (VNode i fs)) by (eapply conforms_inside; [apply (pt_conforms _ _ PT)|exact Ic]).
      inversion C as [| |? ? _ E _]; subst. cbn [vtype] in Hx. rewrite <- E in Hx. apply in_map_iff in Hx as ([y w] & Ey & Hin). injection Ey as -> _.
      cbn [vfield]. destruct (dget fs x) as [w'|] eqn:Ed; [split; [reflexivity|]; eapply inside_field; eassumption|].
      exfalso. apply dget_None in Ed. apply Ed. now apply (in_map fst) in Hin.
    - exfalso. apply Nb. rewrite <- Et. vm_compute. tauto.
    - exfalso. apply Nb. rewrite <- Et. destruct k as [| |[]| |]; vm_compute; tauto.
  Qed.
  Lemma not_builtin ty : tmem ty builtin_types = false -> ~ In ty builtin_types.
  Proof. intros H K. apply tmem_In in K. congruence. Qed.

  Definition keyword_is (kw : value) : Prop :=
    exists i fs id w, kw = VNode i fs /\ n_type i = TX "keyword" /\ dget fs (TX "arg") = Some (VConst id (CStr (TX "default"))) /\ dget fs (TX "value") = Some w /\ Pv w.
  Lemma keyword_eval d kw s s' r : PatternSpec.inside (e_tree e) kw -> eval (with_done e d) keyword_matcher kw s = (s', Ok (Some r)) ->
    keyword_is kw /\ r = RInfo (create_match (e_parsed e) kw) (Some []) [].
  Proof.
    intros Ik H. unfold keyword_matcher in H. cbn [eval] in H. destruct (text_eqb_spec (vtype kw) (TX "keyword")) as [Et|]; [|discriminate H].
    apply accumulating_iff in H as (b & t & -> & H). cbn [map fst snd] in H.
    destruct (field_of kw _ (TX "arg") false Ik Et) as (i & fs & -> & Ei & Ea & _); [now apply not_builtin|rewrite (proj2 HC); now left|].
    destruct (field_of (VNode i fs) _ (TX "value") false Ik Et) as (i' & fs' & E0 & _ & Ev & Iv); [now apply not_builtin|rewrite (proj2 HC); right; now left|].
    injection E0 as <- <-.
    inversion H as [|? ? ? ? ? s1 rm rb rt b1 t1 ? ? ? E1 E2 E3 H1]; subst. inversion H1 as [|? ? ? ? ? s2 rm2 rb2 rt2 b2 t2 ? ? ? F1 F2 F3 H2]; subst. inversion H2; subst.
    destruct (Hv d _ _ _ _ Iv F1) as [Pw (rm' & Er)]. injection Er as _ -> ->.
    change (eval (with_done e d) (MEquals (VConst 0 (CStr (TX "default")))) (vfield (VNode i fs) (TX "arg")) s = (s1, Ok (Some (RInfo rm (Some rb) rt)))) in E1.
    cbn [eval] in E1. destruct (py_eq (vfield (VNode i fs) (TX "arg")) (VConst 0 (CStr (TX "default")))) eqn:Ep; [|discriminate E1]. injection E1 as _ _ <- <-.
    rewrite OnceProofs.merge_bindings_nil in E2. injection E2 as <-. cbn in E3. injection E3 as <-.
    rewrite OnceProofs.merge_bindings_nil in F2. injection F2 as <-. cbn in F3. injection F3 as <-.
    split; [|reflexivity].
    destruct (vfield (VNode i fs) (TX "arg")) as [j gs|j l|j k] eqn:Ef; try discriminate Ep.
    assert (k = CStr (TX "default")) as ->.
    { cbn [py_eq] in Ep. destruct k; cbn [const_eqb] in Ep; try discriminate Ep. apply text_eqb_eq in Ep. now subst. }
    exists i, fs, j, (vfield (VNode i fs) (TX "value")). auto.
  Qed.
  Lemma call_eval d c s s' r : PatternSpec.inside (e_tree e) c -> eval (with_done e d) call_matcher c s = (s', Ok (Some r)) ->
    exists i fs func id kws kw, c = VNode i fs /\ n_type i = TX "Call" /\ dget fs (TX "func") = Some func /\ Pf func
      /\ dget fs (TX "keywords") = Some (VList id kws) /\ In kw kws /\ keyword_is kw
      /\ r = RInfo (create_match (e_parsed e) c) (Some [(TX "keyword", bound_value (create_match (e_parsed e) kw) None None)]) [].
  Proof.
    intros Ic H. unfold call_matcher in H. cbn [eval] in H. destruct (text_eqb_spec (vtype c) (TX "Call")) as [Et|]; [|discriminate H].
    apply accumulating_iff in H as (b & t & -> & H). cbn [map fst snd] in H.
    destruct (field_of c _ (TX "func") false Ic Et) as (i & fs & -> & Ei & Ea & If); [now apply not_builtin|rewrite (proj1 HC); now left|].
    destruct (field_of (VNode i fs) _ (TX "keywords") true Ic Et) as (i' & fs' & E0 & _ & Ev & Iv); [now apply not_builtin|rewrite (proj1 HC); right; right; now left|].
    injection E0 as <- <-.
    inversion H as [|? ? ? ? ? s1 rm rb rt b1 t1 ? ? ? E1 E2 E3 H1]; subst. inversion H1 as [|? ? ? ? ? s2 rm2 rb2 rt2 b2 t2 ? ? ? F1 F2 F3 H2]; subst.
    inversion H2 as [|? ? ? ? ? s3 rm3 rb3 rt3 b3 t3 ? ? ? G1 G2 G3 H3]; subst. inversion H3; subst. clear H H1 H2 H3.
    destruct (Hf d _ _ _ _ If E1) as [Pw (rm' & Er)]. injection Er as _ -> ->.
    rewrite OnceProofs.merge_bindings_nil in E2. injection E2 as <-. cbn in E3. injection E3 as <-.
    injection F1 as _ _ <- <-. rewrite OnceProofs.merge_bindings_nil in F2. injection F2 as <-. cbn in F3. injection F3 as <-.
    rewrite OnceProofs.merge_bindings_nil in G2. injection G2 as <-.
    change (eval (with_done e d) (MContains (MBind (TX "keyword") keyword_matcher None None)) (vfield (VNode i fs) (TX "keywords")) s2
      = (s', Ok (Some (RInfo rm3 (Some rb3) rt3)))) in G1.
    apply contains_hits in G1. destruct (seq_items (with_done e d) (vfield (VNode i fs) (TX "keywords"))) as [l|] eqn:El; [|destruct G1 as [_ G1]; discriminate G1].
    destruct G1 as (o1 & Hh & Ho). destruct o1 as [[[kw r]|]|]; try discriminate Ho. apply first_hit_inv in Hh as [Hin (s4 & Hb)].
    assert (K : exists id, vfield (VNode i fs) (TX "keywords") = VList id l).
    { assert (T : vtype kw = TX "keyword").
      { cbn [eval] in Hb. apply mbind_Ok in Hb as (s5 & [r5|] & Hk & Hb); [|apply ret_Ok in Hb as [_ Hb]; discriminate Hb].
        unfold keyword_matcher in Hk. cbn [eval] in Hk. destruct (text_eqb_spec (vtype kw) (TX "keyword")) as [Ek|]; [exact Ek|discriminate Hk]. }
      destruct (vfield (VNode i fs) (TX "keywords")) as [j gs|j m|j k]; [discriminate El|exists j; cbn in El; now injection El as ->|].
      exfalso. cbn [seq_items] in El. destruct k; try discriminate El; injection El as <-; apply in_map_iff in Hin as (ch & <- & _); discriminate T. }
    destruct K as (id & K). rewrite K in Ev, Iv. pose proof (inside_item _ _ _ Iv Hin) as Ik.
    cbn [eval] in Hb. apply mbind_Ok in Hb as (s5 & [r5|] & Hk & Hb); [|apply ret_Ok in Hb as [_ Hb]; discriminate Hb].
    destruct (keyword_eval _ _ _ _ _ Ik Hk) as [Kw ->].
    cbn [r_bindings r_match r_reps bind not_none] in Hb. unfold mbind, lift, ret in Hb. rewrite OnceProofs.merge_bindings_nil in Hb. injection Hb as _ <-.
    cbn [by_way_of] in Ho. injection Ho as _ -> ->. cbn in G3. injection G3 as <-.
    exists i, fs, (vfield (VNode i fs) (TX "func")), id, l, kw. auto 12.
  Qed.
End Attrib.

Section Search.
  Variable tokenize : text -> res (list ptok).
  Variable order : list nat -> list nat.
  Variable ast_parse : text -> res value.
  Variable parse_env : text -> res env.
  Variable parse_ast : text -> text -> res parsed_file.
  Variable context : parsed_file -> pyinfo -> env.
  Variable pass_template : template.
  Variable G : grammar.
  Hypothesis HO : forall l, Permutation (order l) l.
  Hypothesis HG : proper G.
  Hypothesis HGp : python_grammar G.
  Hypothesis HGc : call_grammar G.
  Hypothesis HA : python_ast G ast_parse.
  Hypothesis HPa : python_parser G parse_env.

  (** A pattern without variables *)
  Lemma closed_pattern co m e : understood tokenize ast_parse co -> lexed co -> left_open co = [] ->
    pattern tokenize order ast_parse (source co) [] = Ok m -> parsed_tree G (e_tree e) ->
    yes e m (fun v => exists parts, made_of (fill parts co) v).
  Proof.
    intros U L Hl Hm PT.
    destruct (restricted_pattern tokenize order ast_parse G HO HG HGp HA co [] (fun _ _ => True) m U L) as (holes & p & Tr & Hp & Na); [discriminate|auto|exact Hm|].
    destruct (Na e PT) as [N _]. intros d c s s' r Ic Ev. destruct (N d c s s' r Ic Ev) as (b & occ & -> & [F _] & _ & B & _).
    destruct (code_tree _ _ _ _ _ U L Tr) as [Ho So]. pose proof (not_context_pattern e co holes p c occ L Ho So F) as Nc.
    destruct (pt_regular _ _ PT) as (D & _ & Rg). destruct Ic as (q & Hq).
    destruct (PyTemplateProofs.regular_inside _ _ _ _ Rg Hq) as [Rc|[Cc _]]; [|congruence].
    assert (Tc : forall x : code label, tree_of x <> TContext) by (intros []; discriminate).
    destruct (fits_stands holes Ho e D (tree_of co) p c occ (lx_plain co L) So (Tc co) F Rc) as [E1 E2].
    rewrite tree_vars, Hl in E1. destruct occ; [|discriminate E1]. split.
    - destruct (reads_parts (fun x w => In (x, create_match (e_parsed e) w) [] /\ PatternSpec.inside c w) co c) as (parts & _ & M); [rewrite Hl; constructor|exact E2|].
      exists parts. exact M.
    - exists (create_match (e_parsed e) c). now rewrite (no_bindings b B).
  Qed.
  Lemma closed_plain co m : understood tokenize ast_parse co -> lexed co -> left_open co = [] ->
    pattern tokenize order ast_parse (source co) [] = Ok m -> plain_matcher [] m.
  Proof.
    intros U L Hl Hm. destruct (has_tokens_of tokenize ast_parse _ U L) as [T _]. rewrite <- Hl, <- (lx_vars _ L).
    eapply restricted_plain; [exact HO|exact T| |exact Hm|]; [discriminate|].
    rewrite (lx_newline _ L). cbn [negb]. apply (un_tokens _ _ _ U).
  Qed.
  Lemma attrib_lexed : Forall lexed attrib_codes.
  Proof. repeat (apply Forall_cons; [lexed_tac|]). constructor. Qed.

  Definition attrib_implements (value : code Ast.value) (txt : text) (f : fixer) : Prop :=
    plain_fixer f /\ meta_of f = attrib_meta /\ fx_replacement f = inr [(TX "keyword", sh_template txt)]
    /\ exists fm vm, fx_matcher f = call_matcher fm vm
       /\ forall e, parsed_tree G (e_tree e) -> yes e fm (made_of attr_ib) /\ yes e vm (made_of value).
  Hypothesis UA : Forall (understood tokenize ast_parse) attrib_codes.
  Lemma attrib_implement (value : code label) (v : code Ast.value) src txt f : In value attrib_codes -> src = source value -> left_open value = [] -> (forall parts, fill parts value = v) ->
    attrib_fixer tokenize order ast_parse src txt = Ok f -> attrib_implements v txt f.
  Proof.
    intros Hin -> Hl Hfill H. unfold attrib_fixer in H. apply bind_Ok in H as (m & Hm & H). injection H as <-.
    unfold attrib_matcher in Hm. apply bind_Ok in Hm as (fm & Hfm & Hm). apply bind_Ok in Hm as (vm & Hvm & Hm). injection Hm as <-.
    pose proof attrib_lexed as L. rewrite Forall_forall in UA, L.
    assert (Ha : In attr_ib attrib_codes) by now left.
    change (TX "attr.ib") with (source attr_ib) in Hfm.
    pose proof (closed_plain _ _ (UA _ Ha) (L _ Ha) eq_refl Hfm) as (A1 & A2 & A3 & A4).
    pose proof (closed_plain _ _ (UA _ Hin) (L _ Hin) Hl Hvm) as (B1 & B2 & B3 & B4).
    split; [|split; [reflexivity|split; [reflexivity|]]].
    - constructor; cbn [fx_matcher fx_replacement].
      + cbn. tauto.
      + cbn. now rewrite A2, B2.
      + cbn. now rewrite A3, B3.
      + assert (E : forall m, incl (bind_variables m) [] -> bind_variables m = []) by (intros m Hm; destruct (bind_variables m) as [|x l]; [reflexivity|destruct (Hm x (or_introl eq_refl))]).
        cbn [bind_variables flat_map snd app]. rewrite (E fm), (E vm) by (intros x Hx; auto). intros l Hmeta [<-|[]]. vm_compute in Hmeta. decompose [or] Hmeta; congruence.
      + split; [repeat constructor; intros []|]. intros l Hmeta [<-|[]]. vm_compute in Hmeta. decompose [or] Hmeta; congruence.
    - exists fm, vm. split; [reflexivity|]. intros e PT. split.
      + intros d c s s' r Ic Ev. destruct (closed_pattern _ _ e (UA _ Ha) (L _ Ha) eq_refl Hfm PT d c s s' r Ic Ev) as [(parts & M) K]. split; [exact M|exact K].
      + intros d c s s' r Ic Ev. destruct (closed_pattern _ _ e (UA _ Hin) (L _ Hin) Hl Hvm PT d c s s' r Ic Ev) as [(parts & M) K]. split; [|exact K]. now rewrite Hfill in M.
  Qed.
  Lemma attribs_implemented afs : attrib_fixers tokenize order ast_parse = Ok afs ->
    Forall2 (fun vt f => attrib_implements (fst vt) (snd vt) f) factories afs.
  Proof.
    unfold attrib_fixers. intros H. apply mapM_Forall2 in H. unfold attrib_entries in H. cbn [fst snd] in H.
    inversion H as [|? f1 ? l1 H1 K1]; subst. inversion K1 as [|? f2 ? l2 H2 K2]; subst. inversion K2 as [|? f3 ? l3 H3 K3]; subst. inversion K3; subst. cbn [fst snd] in *.
    unfold factories. constructor; [|constructor; [|constructor; [|constructor]]]; cbn [fst snd].
    - eapply (attrib_implement EmptyList); [right; now left|reflexivity|reflexivity|reflexivity|exact H1].
    - eapply (attrib_implement EmptyDict); [right; right; now left|reflexivity|reflexivity|reflexivity|exact H2].
    - eapply (attrib_implement (Call (Name (TX "set")) [])); [right; right; right; now left|reflexivity|reflexivity|reflexivity|exact H3].
  Qed.
  Lemma factory_text (value : code value) txt parsed m ms new : In (value, txt) factories -> t_substitute (sh_template txt) parsed m ms = Ok new -> new = txt.
  Proof.
    intros H E. repeat (destruct H as [H|H]; [apply (f_equal snd) in H; cbn [snd] in H; subst txt; vm_compute in E; injection E as <-; reflexivity|]). destruct H.
  Qed.
  Lemma factory_template (value : code value) txt : In (value, txt) factories -> t_template (sh_template txt) <> [].
  Proof. intros H. repeat (destruct H as [H|H]; [apply (f_equal snd) in H; cbn [snd] in H; subst txt; discriminate|]). destruct H. Qed.

  Hypothesis U : Forall (fun oc => understood tokenize ast_parse (fst oc) /\ understood tokenize ast_parse (snd oc)) entry_codes.
  Notation correctness := (correctness_fixers tokenize order ast_parse parse_env).
  (** Every one of the fixers does what one of the entries says. *)
  Lemma all_implemented cf f : correctness = Ok cf -> In f cf ->
    (exists en, In en entries /\ implements tokenize order ast_parse parse_env G en f)
    \/ (exists value txt, In (value, txt) factories /\ attrib_implements value txt f).
  Proof.
    unfold correctness_fixers. intros H. apply bind_Ok in H as (b & Hb & H). apply bind_Ok in H as (a & Ha & H). apply bind_Ok in H as (c & Hc & H). injection H as <-.
    pose proof (implemented tokenize order ast_parse parse_env G HO HG HGp HA U) as I. unfold fixer_list in I.
    assert (K : forall (ens : list entry) rs fs, Forall2 (fun en r => forall f, r = Ok f -> implements tokenize order ast_parse parse_env G en f) ens rs ->
      mapM (fun r : res fixer => r) rs = Ok fs -> In f fs -> exists en, In en ens /\ implements tokenize order ast_parse parse_env G en f).
    { intros ens rs fs F M. apply mapM_Forall2 in M. revert fs M. induction F as [|en r ens rs Hr F IH]; intros fs M Hin; inversion M; subst; [destruct Hin|].
      destruct Hin as [<-|Hin]; [exists en; split; [now left|auto]|]. destruct (IH _ ltac:(eassumption) Hin) as (en' & A & B). exists en'. split; [now right|exact B]. }
    intros Hin. apply in_app_iff in Hin as [Hin|Hin]; [|apply in_app_iff in Hin as [Hin|Hin]].
    - left. apply (Forall2_app_inv_r [_; _; _; _; _] [_; _]) in I as (e1 & e2 & I1 & _ & Ee). destruct (K _ _ _ I1 Hb Hin) as (en & A & B). exists en. split; [rewrite Ee; apply in_app_iff; now left|exact B].
    - right. apply attribs_implemented in Ha. apply In_nth_error in Hin as (k & Hk). clear - Ha Hk.
      assert (Q : forall vts fs, Forall2 (fun (vt : code value * text) f => attrib_implements (fst vt) (snd vt) f) vts fs -> forall k, nth_error fs k = Some f ->
        exists value txt, In (value, txt) vts /\ attrib_implements value txt f).
      { intros vts fs F. induction F as [|[v t] g vts fs H F IH]; intros [|n] Hn; try discriminate Hn.
        - injection Hn as ->. exists v, t. split; [now left|exact H].
        - destruct (IH n Hn) as (v' & t' & A & B). exists v', t'. split; [now right|exact B]. }
      exact (Q _ _ Ha _ Hk).
    - left. apply (Forall2_app_inv_r [_; _; _; _; _] [_; _]) in I as (e1 & e2 & _ & I2 & Ee). destruct (K _ _ _ I2 Hc Hin) as (en & A & B). exists en. split; [rewrite Ee; apply in_app_iff; now right|exact B].
  Qed.
  Lemma all_plain cf f : correctness = Ok cf -> In f cf -> plain_fixer f.
  Proof. intros H Hin. destruct (all_implemented cf f H Hin) as [(en & _ & K & _)|(v & t & _ & K & _)]; exact K. Qed.

  Lemma corrections fs cf s data path parsed e subs sub :
    correctness = Ok cf -> (forall f, In f fs -> In f cf \/ plain_fixer f) ->
    combining_fixer parse_ast context pass_template fs = Ok s ->
    parsed_source parse_ast context G data path parsed e -> unshared (e_tree e) -> located_exprs (e_tree e) ->
    (forall anc sp c_span, PatternSpec.inside (e_tree e) anc -> m_span (create_match parsed anc) = Some sp ->
      plain_source tokenize (around parsed anc sp (TX "$current_expr") c_span)) ->
    s_find s parsed = Ok subs -> In sub subs ->
    exists f, In f fs /\ carries f sub
      /\ (In f cf -> forall reps l txt, replacements sub = Some reps -> In (l, txt) reps ->
          (exists en, In en entries /\ (message sub, category sub, significant sub) = (Some (en_message en), Some (en_category en), true)
             /\ corrected tokenize order ast_parse parse_env e sub l txt en)
          \/ ((message sub, category sub, significant sub) = attrib_meta /\ factory_instead e sub l txt)).
  Proof.
    intros Hcf Hfs Hs HP Hun Hlx Hctx Hf Hin.
    assert (Hpl : Forall plain_fixer fs) by (apply Forall_forall; intros f H; destruct (Hfs f H); [now apply (all_plain cf)|assumption]).
    destruct (applied_to tokenize order ast_parse parse_env parse_ast context pass_template G HO HG HGp HA HPa fs s data path parsed e subs sub Hs Hpl HP Hun Hctx Hf Hin)
      as (f & Hff & Hca & (h & mb & ts & key & Hat & Hby & Hde) & K).
    exists f. split; [exact Hff|]. split; [exact Hca|]. intros Hfc reps l txt Er Hl.
    assert (Meta : forall m c, meta_of f = (Some m, Some c, true) -> (message sub, category sub, significant sub) = (Some m, Some c, true)).
    { intros m c E. destruct Hca as (C1 & _ & C3 & C4). unfold meta_of in E. now rewrite C1, C3, C4. }
    pose proof (ps_tree _ _ _ _ _ _ _ HP) as PT.
    destruct (all_implemented cf f Hcf Hfc) as [(en & Hen & _ & Em & holes & p & t & Ht & Efr & Tr & Hh & Nar)|(value & fac & Hfac & Pf & Em & Efr & fm & vm & Efm & Hy)].
    - left. exists en. split; [exact Hen|]. split; [now apply Meta|].
      assert (So : spans_ok e).
      { intros v a b Iv Sv. rewrite (ps_env _ _ _ _ _ _ _ HP) in Sv. eapply (ps_offsets _ _ _ _ _ _ _ HP); eassumption. }
      assert (Hc : In (en_old en, en_new en) entry_codes) by (apply (in_map (fun en => (en_old en, en_new en))) in Hen; exact Hen).
      pose proof U as U0. pose proof entry_lexed as L0. pose proof entry_single as S0. pose proof entry_nonempty as N0. rewrite Forall_forall in U0, L0, S0, N0.
      destruct (U0 _ Hc) as [U1 U2], (L0 _ Hc) as [L1 L2], (S0 _ Hc) as (N1 & N2 & N3). specialize (N0 _ Hc). cbn [fst snd] in *.
      destruct (has_tokens_of tokenize ast_parse _ U2 L2) as [T2 _].
      destruct (K KExpr (source (en_old en)) (source (en_new en)) holes p t _ Ht Efr (Nar e PT So) Tr Hh T2 N0 reps l txt Er Hl) as (q & c & occ & ms & holes' & p' & r & safe & W & HC).
      destruct (coded_parts tokenize order ast_parse parse_env parse_ast G HGp HPa e _ _ sub l txt _ _ _ _ _ _ _ _ _ _ _ U1 L1 U2 L2 PT Hlx N1 N2 N3 W)
        as (e1 & c1 & parts & parts' & E1 & E2 & E3 & E4 & E5 & _ & E6).
      destruct W as (W1 & W2 & (sp & W3 & W3') & _ & _ & _ & _ & _ & _ & W4).
      exists q, c, sp, r, e1, c1, parts, parts'. do 10 (split; [assumption|]). apply HC. exact E6.
    - right. split; [now apply Meta|]. destruct (Hy e PT) as [Yf Yv].
      destruct (labels_apply pass_template e fs h f _ key mb ts sub reps l txt Efr) as (t & b & m & sp & Ed & Eb & Em' & Esp & Hsp & Et).
      + intros x t0. cbn [dget]. destruct (text_eqb_spec (TX "keyword") x) as [<-|]; [|discriminate]. intros [= <-]. split; [now apply (factory_template value)|reflexivity].
      + exact Pf.
      + exact Hby.
      + exact Hde.
      + exact Er.
      + exact Hl.
      + cbn [dget] in Ed. destruct (text_eqb_spec (TX "keyword") l) as [<-|]; [|discriminate Ed]. injection Ed as <-.
        apply (factory_text value fac) in Et as ->; [|exact Hfac].
        destruct Hby as ((d & Hff') & _). destruct (first_fixer_matches _ _ _ _ _ _ _ Hff') as [_ (s1 & m0 & Hm0 & He)].
        apply with_meta_shape in Hm0. subst m0. rewrite Efm in He.
        set (e' := with_done e d) in *. cbn [eval] in He.
        apply mbind_Ok in He as (s0 & o0 & He & Hend). destruct o0 as [r0|]; [|apply ret_Ok in Hend as [_ Hend]; discriminate Hend].
        assert (He' : (run o <- eval e' (call_matcher fm vm) (h_value h);
           match o with
           | None => ret None
           | Some r =>
               run rb <- lift (do b <- r_bindings r; not_none b);
               run rm <- lift (r_match r);
               run rt <- lift (r_reps r);
               run mb <- lift (merge_bindings rb [(ROOT_LABEL, bound_value rm None None)]);
               ret (match mb with None => None | Some b => Some (RInfo rm (Some b) rt) end)
           end) s1 = (s0, Ok (Some r0))) by exact He. clear He.
        apply mbind_Ok in He' as (s2 & o & E & He). destruct o as [r1|]; [|apply ret_Ok in He as [_ He]; discriminate He].
        destruct (call_eval e fm vm (made_of attr_ib) (made_of value) Yf Yv G HGc PT d (h_value h) s1 s2 r1 (ex_intro _ _ Hat) E)
          as (i & fs0 & func & id & kws & kw & Ev & Ei & Efu & Pfu & Ek & Hkw & (j & gs & id' & w & Ekw & Ej & Ea & Ew & Pw) & ->).
        cbn [r_bindings r_match r_reps bind not_none] in He. unfold mbind, lift, ret in He.
        assert (M : merge_bindings [(TX "keyword", bound_value (create_match (e_parsed e) kw) None None)] [(ROOT_LABEL, bound_value (create_match (e_parsed e) (h_value h)) None None)]
          = Ok (Some [(TX "keyword", bound_value (create_match (e_parsed e) kw) None None); (ROOT_LABEL, bound_value (create_match (e_parsed e) (h_value h)) None None)])) by reflexivity.
        rewrite M in He. injection He as _ <-.
        cbn [r_bindings r_match r_reps bind not_none] in Hend. unfold mbind, lift, ret in Hend. cbn [merge_replacements] in Hend.
        assert (Em2 : option_map b_value (dget b (TX "keyword")) = Some (create_match (e_parsed e) kw)).
        { destruct (merge_replacements [] (fixer_templates f)); [|discriminate Hend]. injection Hend as _ Hend. rewrite <- Hend in Eb. cbn [r_bindings] in Eb. injection Eb as <-. reflexivity. }
        rewrite Em2 in Em'. injection Em' as <-.
        exists (h_path h), i, fs0, func, id, kws, kw, value, sp. rewrite <- Ev. split; [exact Hat|]. do 5 (split; [assumption|]).
        split; [exists j, gs, id', w; auto 6|]. auto.
  Qed.
End Search.
