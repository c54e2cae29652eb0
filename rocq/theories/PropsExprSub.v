(** C70: searching for a code pattern and replacing it by a template. *)
From Verif Require Import TemplateProofs Py PyFacts Subst Fmt ApplySpec SubstSpec SubstProofs ApplyProofs Ast Template FromDiff Matcher MatchSpec MatcherProofs FindSpec FindProofs
  NavSpec NavProofs PatTok PatSpec PatTokProofs LexProofs Pattern PatternSpec EquivProofs PatternProofs PatternApi RenameProofs
  PyTemplate PyTemplateSpec PyTemplateProofs Search SearchSpec SearchProofs RewriteProofs Removal RemovalSearch ReSubProofs
  PropsPattern PropsTemplate SampleTrees ExprSubSpec ExprSubProofs.
From Coq Require Import Permutation Sorted.

(** The metavariables of the pattern, of which [$__root] must not be one. *)
Definition no_root_metavariable (tokenize : text -> res (list ptok)) (src : text) : Prop :=
  forall toks, tokenize (if negb (endswith [NL] src) then src ++ [NL] else src) = Ok toks -> ~ In (TX "__root") (metavars toks).

(** From the text of the pattern to the tree with holes. *)
Lemma pattern_tree tokenize order ast_parse G k src m :
  (forall l, Permutation (order l) l) -> python_grammar G -> python_ast G ast_parse ->
  plain_source tokenize src -> no_root_metavariable tokenize src ->
  base_ast_pattern tokenize order ast_parse (pull_of k) src [] = Ok m ->
  exists holes p, has_tree tokenize ast_parse k src holes p /\ finds_pattern holes p m /\ conforms G p /\ is_node p = true
    /\ forall n x r, holes n = Some (Named x r) -> r = MAnything /\ x <> ROOT_LABEL.
Proof.
  intros HO HGp HA HT HR Hm.
  assert (exists toks, tokenize (if negb (endswith [NL] src) then src ++ [NL] else src) = Ok toks) as (toks & Ht).
  { unfold base_ast_pattern, remapped_ast, rewrite_submatchers, remap_macro_variables, token_pattern in Hm.
    destruct (tokenize _) as [toks|x]; [eauto|]. exfalso. clear - Hm.
    destruct x as [| | | | | | | | | | | | | |[|[]|]|]; cbn in Hm; discriminate Hm. }
  destruct (HT _ Ht) as (gl & -> & Hs & Hsp).
  destruct (rename_source tokenize order src gl Ht Hs HO) as [_ R].
  destruct (base_pattern_spec tokenize order ast_parse (map snd gl) src Ht (spelled_ends _ _ _ _ _ Hs) HO (pull_of k) [] m Hm)
    as (s & names & anon & module & p & Er & Ep & El & _ & _ & F).
  destruct (R _ _ _ Er) as (news & -> & N). destruct (HA _ _ Ep) as (Pm & _ & Hn).
  exists (metavariables [] names anon), p. split.
  { exists gl, news, names, anon, module. do 5 (split; [assumption|]). split; [assumption|reflexivity]. }
  split; [exact F|]. split.
  { eapply conforms_inside; [apply (pt_conforms _ _ Pm)|]. eapply pull_inside; eauto. apply (pt_conforms _ _ Pm). }
  split; [now apply (Hn k)|]. intros n x q. unfold metavariables. destruct (find _ names) as [[y z]|] eqn:Ef.
  - intros [= -> <-]. split; [reflexivity|]. intros ->. apply find_some in Ef as [Hin _].
    destruct (remap_distinct tokenize order _ _ Ht (spelled_ends _ _ _ _ _ Hs) HO _ _ _ Er) as [_ D].
    apply In_dget in Hin; [|exact D]. destruct N as (_ & _ & _ & N & _). destruct (N _ _ Hin) as (i & Hi & _).
    apply nth_error_In in Hi. exact (HR _ Ht Hi).
  - destruct (tmem n anon); congruence.
Qed.

Section C70.
  Variable tokenize : text -> res (list ptok).
  Variable order : list nat -> list nat.
  Variable ast_parse : text -> res value.
  Variable parse_ast : text -> text -> res parsed_file.
  Variable context : parsed_file -> pyinfo -> env.
  Variable pass_template : template.
  Variable G : grammar.
  Hypothesis HO : forall l, Permutation (order l) l.
  Hypothesis HG : proper G.
  Hypothesis HGp : python_grammar G.
  Hypothesis HA : python_ast G ast_parse.

  (** The parsed file [data], with its tree, in which all positions are offsets
      into the file. *)
  Record parsed_source (data path : text) (parsed : parsed_file) (e : env) : Prop := {
    ps_parsed : parse_ast data path = Ok parsed;
    ps_python : exists info, pf_py parsed = Some info /\ e = context parsed info /\ py_tree info = e_tree e;
    ps_env : e_parsed e = parsed;
    ps_tree : parsed_tree G (e_tree e);
    ps_offsets : forall v a b, PatternSpec.inside (e_tree e) v -> m_span (create_match parsed v) = Some (a, b) -> 0 <= a
  }.

  Lemma from_matcher_shape m t m' : from_matcher m [(ROOT_LABEL, t)] = Ok m' ->
    m' = MWithReplacements (MBind ROOT_LABEL m None None) [(ROOT_LABEL, t)].
  Proof.
    unfold from_matcher, with_replacements. intros H. apply bind_Ok in H as (vars & _ & H).
    match type of H with (if ?b then _ else _) = _ => destruct b; [|discriminate H] end. now injection H as <-.
  Qed.

  Lemma replace_all k src m t m' data path n parsed e out :
    plain_source tokenize src -> no_root_metavariable tokenize src ->
    base_ast_pattern tokenize order ast_parse (pull_of k) src [] = Ok m ->
    t_template t <> [] -> from_matcher m [(ROOT_LABEL, t)] = Ok m' ->
    parsed_source data path parsed e -> n <= 1 ->
    rewrite_string parse_ast (python_searcher parse_ast context pass_template m') data path n = Ok out ->
    exists holes p hits edits ordered,
      has_tree tokenize ast_parse k src holes p
      /\ outermost_occurrences e holes p hits /\ replaced e holes p t hits edits
      /\ Permutation ordered edits /\ Edited data 0 ordered out.
  Proof.
    intros HT HR Hm Ht Hm' HP Hn H. apply from_matcher_shape in Hm'. subst m'.
    destruct (pattern_tree tokenize order ast_parse G k src m HO HGp HA HT HR Hm) as (holes & p & T & F & Cp & Np & Hpl).
    destruct HP as [P1 (info & P2 & P3 & P4) P5 P6 P7].
    unfold rewrite_string in H. apply bind_Ok in H as (subs & H1 & H2).
    apply find_iter_inv in H1 as (parsed' & E1 & E2); [|exact Hn]. cbn [s_parse s_find python_searcher] in E1, E2.
    unfold python_parse in E1. rewrite P1 in E1. injection E1 as <-.
    apply bind_Ok in E2 as (ds & E2 & E3). unfold find_dicts in E2. rewrite P2 in E2, E3. rewrite <- P3 in E2.
    apply bind_Ok in E2 as (fnd & E2 & E4). apply find_iter_found in E2 as (hs & Hf & ->).
    rewrite map_map in E4. cbn [snd] in E4.
    pose proof (hits_outermost e holes p m t G F HG P6 Cp Np Hpl hs Hf) as HH.
    destruct (dicts_good e holes p m t G F HG P6 Cp Np Hpl Ht pass_template (e_tokens e) hs (Removed [] []) Hf) as (outs & E5 & GD).
    assert (outs = ds) as -> by (apply (f_equal (fun r => match r with Ok x => x | Err _ => [] end)) in E4;
      cbn in E4; rewrite <- E4; change (map (fun x : hit => h_result x) hs) with (map h_result hs); now rewrite E5).
    assert (Hat : Forall (fun h => at_path (e_tree e) (h_path h) = Some (h_value h)) hs).
    { eapply Forall_impl; [|exact (hits_good e holes p m t G F HG P6 Cp Np Hpl hs Hf)]. intros h Hh. apply Hh. }
    rewrite <- P5 in E3, P7.
    destruct (all_subs e holes p t Hpl P7 _ hs ds subs Hat GD E3) as (R & W & Nn & _).
    destruct (apply_edits data subs out W Nn H2) as (es & Pe & Ed).
    exists holes, p, (map place hs), (flat_map edits_of subs), es. auto.
  Qed.

  (** The searches that go through. *)
  Record replaceable (e : env) (holes : text -> option hole) (p : value) (t : template) : Prop := {
    rb_laid_out : laid_out (e_tree e) (e_parsed e);
    rb_unshared : unshared (e_tree e);
    rb_module : has_field (e_tree e) (TX "body") = true;
    rb_spans : forall q c occ, at_path (e_tree e) q = Some c -> occurrence e holes p c occ -> m_span (create_match (e_parsed e) c) <> None;
    rb_template : forall c r, PatternSpec.inside (e_tree e) c -> fills_in e holes p t c r -> r = Err RewriteError \/ exists new, r = Ok new
  }.
  Lemma replace_succeeds k src m t m' data path n parsed e :
    plain_source tokenize src -> no_root_metavariable tokenize src ->
    base_ast_pattern tokenize order ast_parse (pull_of k) src [] = Ok m ->
    t_template t <> [] -> from_matcher m [(ROOT_LABEL, t)] = Ok m' ->
    parsed_source data path parsed e -> n <= 1 ->
    exists holes p, has_tree tokenize ast_parse k src holes p
      /\ (replaceable e holes p t -> exists out, rewrite_string parse_ast (python_searcher parse_ast context pass_template m') data path n = Ok out).
  Proof.
    intros HT HR Hm Ht Hm' HP Hn. apply from_matcher_shape in Hm'. subst m'.
    destruct (pattern_tree tokenize order ast_parse G k src m HO HGp HA HT HR Hm) as (holes & p & T & F & Cp & Np & Hpl).
    exists holes, p. split; [exact T|]. intros [L U B S Tm].
    destruct HP as [P1 (info & P2 & P3 & P4) P5 P6 P7].
    set (m' := MWithReplacements (MBind ROOT_LABEL m None None) [(ROOT_LABEL, t)]).
    destruct (find_never_raises e m') as (fnd & E2).
    { intros d c Ic. destruct (attempt_cases e holes p m t G F HG P6 Cp Np Hpl d c Ic) as [(b & occ & E & _)|[E _]]; eauto. }
    pose proof E2 as E2'. apply find_iter_found in E2' as (hs & Hf & ->).
    destruct (dicts_good e holes p m t G F HG P6 Cp Np Hpl Ht pass_template (e_tokens e) hs (Removed [] []) Hf) as (outs & E5 & GD).
    assert (Hat : Forall (fun h => at_path (e_tree e) (h_path h) = Some (h_value h)) hs).
    { eapply Forall_impl; [|exact (hits_good e holes p m t G F HG P6 Cp Np Hpl hs Hf)]. intros h Hh. apply Hh. }
    assert (P7' : forall v a b, PatternSpec.inside (e_tree e) v -> m_span (create_match (e_parsed e) v) = Some (a, b) -> 0 <= a)
      by (rewrite P5; exact P7).
    destruct (all_subs_exist e holes p t Np P7' L U B S Tm hs outs Hat GD) as (subs & Es).
    destruct (all_subs e holes p t Hpl P7' _ hs outs subs Hat GD Es) as (R & W & Nn & X).
    pose proof (hits_outermost e holes p m t G F HG P6 Cp Np Hpl hs Hf) as HH.
    destruct (edits_apart e holes p t Np L B (map place hs) (flat_map edits_of subs) (oo_apart _ _ _ _ HH)) as [A1 A2].
    { apply Forall_forall. intros h Hin. apply in_map_iff in Hin as (h0 & <- & Hin). rewrite Forall_forall in Hat. now apply Hat. }
    { exact R. }
    destruct (apply_separate_ok data subs W Nn) as (out & Eo).
    { intros s Hs. rewrite Forall_forall in X. destruct (X s Hs) as (x & Ex). rewrite Ex. split; [discriminate|]. split.
      - rewrite Forall_forall in A2. constructor; [|constructor]. apply A2. apply in_flat_map. exists s. split; [exact Hs|]. rewrite Ex. now left.
      - constructor; constructor. }
    { now apply subs_pairs. }
    exists out. unfold rewrite_string.
    rewrite (one_pass parse_ast (python_searcher parse_ast context pass_template m') data path n parsed subs Hn eq_refl).
    - exact Eo.
    - cbn. unfold python_parse. now rewrite P1.
    - cbn [s_find python_searcher]. unfold find_dicts. rewrite P2, <- P3. rewrite E2. cbn [bind]. rewrite map_map. cbn [snd].
      change (map (fun x : hit => h_result x) hs) with (map h_result hs). rewrite E5. cbn [bind]. rewrite P4, <- P5. exact Es.
  Qed.
End C70.

(** Searching for a pattern and replacing what is found: the new text is the old
    one with the outermost occurrences of the pattern replaced by the filled-in
    template, except where it gives up; nothing else changes. *)
Theorem C70_replace : forall tokenize order ast_parse parse_ast context pass_template G k src m t m' data path n parsed e out,
  (forall l, Permutation (order l) l) -> proper G -> python_grammar G -> python_ast G ast_parse ->
  plain_source tokenize src -> no_root_metavariable tokenize src ->
  base_ast_pattern tokenize order ast_parse (pull_of k) src [] = Ok m ->
  t_template t <> [] -> from_matcher m [(ROOT_LABEL, t)] = Ok m' ->
  parsed_source parse_ast context G data path parsed e -> n <= 1 ->
  rewrite_string parse_ast (python_searcher parse_ast context pass_template m') data path n = Ok out ->
  exists holes p hits edits ordered,
    has_tree tokenize ast_parse k src holes p
    /\ outermost_occurrences e holes p hits /\ replaced e holes p t hits edits
    /\ Permutation ordered edits /\ Edited data 0 ordered out.
Proof. intros. eapply replace_all; eassumption. Qed.
Print Assumptions C70_replace.

(** And it succeeds, in files whose positions are laid out like those of
    asttokens. *)
Theorem C70_succeeds : forall tokenize order ast_parse parse_ast context pass_template G k src m t m' data path n parsed e,
  (forall l, Permutation (order l) l) -> proper G -> python_grammar G -> python_ast G ast_parse ->
  plain_source tokenize src -> no_root_metavariable tokenize src ->
  base_ast_pattern tokenize order ast_parse (pull_of k) src [] = Ok m ->
  t_template t <> [] -> from_matcher m [(ROOT_LABEL, t)] = Ok m' ->
  parsed_source parse_ast context G data path parsed e -> n <= 1 ->
  exists holes p, has_tree tokenize ast_parse k src holes p
    /\ (replaceable e holes p t ->
        exists out, rewrite_string parse_ast (python_searcher parse_ast context pass_template m') data path n = Ok out).
Proof. intros. eapply replace_succeeds; eassumption. Qed.
Print Assumptions C70_succeeds.

(** How the filled-in template [r] goes into the place [q] of the tree, where [c]
    is: as it is for anything but an expression, for the expression of an
    expression statement and in the header of a compound statement; in parentheses
    unless the innermost expression or statement around it reads the same without. *)
Definition around (parsed : parsed_file) (anc : value) (sp : span) (s : text) (c_span : span) : text :=
  before parsed anc sp c_span ++ s ++ behind parsed anc sp c_span.
Definition put_in (tokenize : text -> res (list ptok)) (order : list nat -> list nat) (ast_parse : text -> res value)
  (parse_env : text -> res env) (parsed : parsed_file) (tree : value) (q : path) (c : value) (r new : text) : Prop :=
  (is_expr c = false \/ exists par rest, ancestors tree q = par :: rest /\ (vtype par = TX "Expr" \/ context parsed (par :: rest) None))
  /\ new = r
  \/ exists par rest anc sp c_span pseudo tree' c' whole holes p,
    is_expr c = true /\ ancestors tree q = par :: rest /\ vtype par <> TX "Expr" /\ context parsed (par :: rest) (Some (anc, sp))
    /\ m_span (create_match parsed c) = Some c_span /\ (new = r \/ new = parens r)
    /\ python_template tokenize order ast_parse (around parsed anc sp (TX "$current_expr") c_span) = Ok pseudo
    /\ has_tree tokenize ast_parse KModule (around parsed anc sp (TX "$current_expr") c_span) holes p
    /\ ast_parse r = Ok tree' /\ is_expression tree' c'
    /\ filled_in parse_env KModule (py_lex pseudo) holes p
         (fun x => if text_eqb x (TX "current_expr") then Some c' else None)
         [(TX "current_expr", r)] whole [(TX "current_expr", new)].

(** What comes of filling in a template in a place of the tree. *)
Lemma filled_at tokenize order ast_parse parse_env G k src t e info q c ms new :
  (forall l, Permutation (order l) l) -> proper G -> python_grammar G -> python_ast G ast_parse -> python_parser G parse_env ->
  plain_source tokenize src -> template_of tokenize order ast_parse k src = Ok t ->
  pf_py (e_parsed e) = Some info -> py_tree info = e_tree e ->
  unshared (e_tree e) -> at_path (e_tree e) q = Some c ->
  m_span (create_match (e_parsed e) c) <> None ->
  (forall anc sp c_span, PatternSpec.inside (e_tree e) anc -> m_span (create_match (e_parsed e) anc) = Some sp ->
     plain_source tokenize (around (e_parsed e) anc sp (TX "$current_expr") c_span)) ->
  dict_ok ms -> parsed_matches G ms ->
  py_substitute tokenize order ast_parse parse_env t (e_parsed e) (create_match (e_parsed e) c) ms = Ok new ->
  exists r safe holes' p', has_tree tokenize ast_parse k src holes' p'
    /\ filled_in parse_env k (py_lex t) holes' p' (bound_expr ms) (stringify_matches ms) r safe
    /\ put_in tokenize order ast_parse parse_env (e_parsed e) (e_tree e) q c r new.
Proof.
  intros HO HG HGp HA HPa HT Ht Hpy Htr Hun Hq Hsp HT' D PM E.
  pose proof E as E0.
  apply (rendering tokenize order ast_parse parse_env G HO HG HGp HA HPa k src t _ _ ms new HT Ht D PM) in E0
    as (r & safe & holes' & p' & Hr & A & B).
  destruct (is_expr c) eqn:Ee.
  2:{ exists r, safe, holes', p'. do 2 (split; [assumption|]). left. split; [now left|].
      enough (py_substitute tokenize order ast_parse parse_env t (e_parsed e) (create_match (e_parsed e) c) ms = Ok r) by congruence.
      eapply substitute_verbatim; [exact Hr|]. right. left. intros v txt f l a b Hm. unfold create_match in Hm.
      destruct (lexical_tokens c) as [[f' l']|]; [|destruct c as [| |? []]; discriminate Hm]. now injection Hm as <-. }
  assert (Hc : is_node c = true) by now apply expr_is_node.
  assert (C : climbable (e_tree e) q c).
  { split; [apply Hun; [exact Hq|now rewrite Hc]|]. intros. left. destruct c; try discriminate Hc. reflexivity. }
  assert (exists f l, create_match (e_parsed e) c = PLex c (pf_text (e_parsed e)) f l true true) as (f & l & Ec).
  { unfold create_match in *. destruct (lexical_tokens c) as [[f l]|]; [eauto|]. destruct c as [| |? []]; try discriminate Hc. now elim Hsp. }
  rewrite Ec in E, Hsp. rewrite <- Htr in *.
  assert (K : exists par rest, ancestors (py_tree info) q = par :: rest
     /\ (vtype par = TX "Expr" \/ vtype par <> TX "Expr" /\ exists o, context (e_parsed e) (par :: rest) o)).
  { pose proof E as E1. unfold py_substitute in E1. rewrite Hr, Hpy in E1. cbn [bind fst] in E1. rewrite Ee in E1. cbn [negb] in E1.
    destruct (climbable_cases _ _ _ Hun C) as [(-> & Hg & _)|(q0 & i & par & -> & Cq & Hg & Ha)]; [rewrite Hg in E1; discriminate E1|].
    exists par, (ancestors (py_tree info) q0). split; [exact Ha|]. rewrite Hg in E1.
    destruct (text_eqb_spec (vtype par) (TX "Expr")) as [|Ne]; [now left|]. right. split; [exact Ne|]. cbn [orb] in E1.
    destruct (compound par) eqn:Eco; [exists None; now constructor|].
    destruct (reparseable _ _ _ _) as [o|] eqn:Ere; [|discriminate E1]. exists o.
    apply (reparseable_iff (e_parsed e) (py_tree info) Hun (2 * Datatypes.S (vsize (py_tree info))) q0 par o Cq Eco); [|exact Ere].
    destruct Cq as [[Cq _] _]. apply vsize_path in Cq. lia. }
  destruct K as (par & rest & Ha & K).
  assert (Verb : vtype par = TX "Expr" \/ context (e_parsed e) (par :: rest) None -> new = r).
  { intros Hx. enough (py_substitute tokenize order ast_parse parse_env t (e_parsed e) (create_match (e_parsed e) c) ms = Ok r) by congruence.
    eapply substitute_verbatim; [exact Hr|]. right. right. exists info, c, (pf_text (e_parsed e)), f, l, true, true, q, par, rest. auto 10. }
  destruct K as [K|[K (o & Ko)]].
  { exists r, safe, holes', p'. do 2 (split; [assumption|]). left. split; [right; exists par, rest; auto|auto]. }
  destruct o as [[anc sp]|].
  2:{ exists r, safe, holes', p'. do 2 (split; [assumption|]). left. split; [right; exists par, rest; auto|auto]. }
  assert (Ianc : forall l o, context (e_parsed e) l o -> (forall y, In y l -> PatternSpec.inside (py_tree info) y) ->
     forall anc sp, o = Some (anc, sp) -> PatternSpec.inside (py_tree info) anc /\ m_span (create_match (e_parsed e) anc) = Some sp).
  { clear. induction 1 as [|a l sp0 H1 H2 H3|a l o H1 H2 H3 IH]; intros Hin anc sp Eo; [discriminate Eo|injection Eo as <- <-|].
    - split; [apply Hin; now left|exact H3].
    - apply IH; [intros y Hy; apply Hin; now right|exact Eo]. }
  destruct (Ianc _ _ Ko) with (anc := anc) (sp := sp) as [I1 I2]; [|reflexivity|].
  { intros y Hy. rewrite <- Ha in Hy. apply (ancestors_above _ _ _ _ Hq) in Hy as (r0 & s0 & _ & _ & Hy). now exists r0. }
  pose proof (HT' anc sp (lex_span f l true true) I1 I2) as HTc.
  destruct (rendering_in_context tokenize order ast_parse parse_env G HO HG HGp HA HPa k src t (e_parsed e) info c (pf_text (e_parsed e)) f l true true ms
              q par rest anc sp new HT HTc Ht D PM Hpy Ee Hun C Ha K Ko E)
    as (r' & safe' & holes2 & p2 & T2 & F2 & pseudo & tree & c' & whole & holes3 & p3 & A1 & A2 & A3 & A4 & A5 & A6).
  exists r', safe', holes2, p2. do 2 (split; [assumption|]). right.
  exists par, rest, anc, sp, (lex_span f l true true), pseudo, tree, c', whole, holes3, p3.
  do 4 (split; [assumption|]). split; [now rewrite Ec|]. auto 10.
Qed.

(** With a syntax-aware template, what is put in is the template's tree with the
    metavariables replaced by the code that they stand for. *)
Theorem C70_filled : forall tokenize order ast_parse parse_env G k src t e info holes p q c new,
  (forall l, Permutation (order l) l) -> proper G -> python_grammar G -> python_ast G ast_parse -> python_parser G parse_env ->
  plain_source tokenize src -> template_of tokenize order ast_parse k src = Ok t ->
  (forall n x r, holes n = Some (Named x r) -> r = MAnything /\ x <> TX "__root") ->
  pf_py (e_parsed e) = Some info -> py_tree info = e_tree e ->
  parsed_tree G (e_tree e) -> unshared (e_tree e) -> at_path (e_tree e) q = Some c ->
  m_span (create_match (e_parsed e) c) <> None ->
  (forall anc sp c_span, PatternSpec.inside (e_tree e) anc -> m_span (create_match (e_parsed e) anc) = Some sp ->
     plain_source tokenize (around (e_parsed e) anc sp (TX "$current_expr") c_span)) ->
  fills_in e holes p (as_template tokenize order ast_parse parse_env t) c (Ok new) ->
  exists occ ms r safe holes' p', occurrence e holes p c occ /\ seen e c occ ms
    /\ has_tree tokenize ast_parse k src holes' p'
    /\ filled_in parse_env k (py_lex t) holes' p' (bound_expr ms) (stringify_matches ms) r safe
    /\ put_in tokenize order ast_parse parse_env (e_parsed e) (e_tree e) q c r new.
Proof.
  intros tokenize order ast_parse parse_env G k src t e info holes p q c new HO HG HGp HA HPa HT Ht Hpl Hpy Htr HP Hun Hq Hsp HT' (occ & ms & O & S & E).
  assert (PM : parsed_matches G ms).
  { intros x v Hx. exists (e_tree e). split; [exact HP|]. unfold bound_expr in Hx.
    destruct (dget ms x) as [w|] eqn:Ed; [|discriminate Hx]. destruct S as (S1 & S2 & S3).
    assert (Hw : exists u, PatternSpec.inside (e_tree e) u /\ w = create_match (e_parsed e) u).
    { destruct (text_eqb_spec (TX "__root") x) as [<-|N].
      - rewrite S2 in Ed. injection Ed as <-. exists c. split; [now exists q|reflexivity].
      - rewrite S3 in Ed by congruence. apply last_occ_In in Ed. destruct O as [F _].
        apply (fits_bound holes Hpl _ _ _ _ F) in Ed as (_ & u & (r & Hr) & ->).
        exists u. split; [|reflexivity]. exists (q ++ r). rewrite at_path_app, Hq. exact Hr. }
    destruct Hw as (u & Iu & ->). unfold create_match in Hx.
    destruct (lexical_tokens u) as [[f l]|]; [|destruct u as [| |? []]; discriminate Hx].
    destruct (is_expr u); [|discriminate Hx]. injection Hx as <-. exact Iu. }
  symmetry in E.
  destruct (filled_at tokenize order ast_parse parse_env G k src t e info q c ms new HO HG HGp HA HPa HT Ht Hpy Htr Hun Hq Hsp HT' (proj1 S) PM E)
    as (r & safe & holes' & p' & A & B & C). exists occ, ms, r, safe, holes', p'. auto.
Qed.
Print Assumptions C70_filled.

(** *** The file [k*z], with [$x*$y] replaced by [$y*$x] *)
(** A checkable condition for [laid_out]. *)
Fixpoint branches_apart (p q : path) : bool :=
  match p, q with
  | i :: p', j :: q' => negb (i =? j)%nat || branches_apart p' q'
  | _, _ => false
  end.
Lemma left_apart p q : FindSpec.left_of p q -> branches_apart p q = true.
Proof.
  intros (c & i & j & p' & q' & -> & -> & L). induction c as [|x c IH]; cbn.
  - assert ((i =? j)%nat = false) as -> by (apply Nat.eqb_neq; lia). reflexivity.
  - rewrite IH. apply orb_true_r.
Qed.
Definition has_tokens (v : value) : bool := match v with VNode i _ => is_some (n_first i) && is_some (n_last i) | _ => false end.
Definition laid_outb (tree : value) (parsed : parsed_file) : bool :=
  let l := places (vsize tree) tree in
  let sp (x : path * value) := m_span (create_match parsed (snd x)) in
  forallb (fun x => match sp x with Some (a, b) => (0 <=? a) && (a <? b) | None => true end) l
  && forallb (fun x => negb (is_node (snd x)) || has_tokens (snd x)
        || forallb (fun y => negb (is_some (sp y))) (places (vsize (snd x)) (snd x))) l
  && forallb (fun x => forallb (fun y => negb (branches_apart (fst x) (fst y)) ||
        match sp x, sp y with Some (a, b), Some (c, d) => (b <=? c) || (d <=? a) | _, _ => true end) l) l.
Lemma laid_out_ok tree parsed : laid_outb tree parsed = true -> laid_out tree parsed.
Proof.
  unfold laid_outb. intros H. apply andb_prop in H as [H H3]. apply andb_prop in H as [H1 H2].
  rewrite forallb_forall in H1, H2, H3. constructor.
  - intros v a b (q & Hq) Hs. specialize (H1 (q, v) (places_all _ _ _ _ (le_n _) Hq)). cbn [snd] in H1. rewrite Hs in H1. lia.
  - intros v w (q & Hq) (r & Hr) Nv Hs. specialize (H2 (q, v) (places_all _ _ _ _ (le_n _) Hq)). cbn [snd] in H2. rewrite Nv in H2.
    destruct (has_tokens v) eqn:E.
    + destruct v as [i fs| |]; try discriminate E. cbn in E. destruct (n_first i) as [f|] eqn:Ef, (n_last i) as [l|] eqn:El; try discriminate E.
      exists i, fs, f, l. auto.
    + exfalso. cbn in H2. rewrite forallb_forall in H2. specialize (H2 (r, w) (places_all _ _ _ _ (le_n _) Hr)). cbn [snd] in H2.
      destruct (m_span (create_match parsed w)); [discriminate H2|congruence].
  - intros q q' v w a b c d Hq Hq' L Hs Hs'. specialize (H3 (q, v) (places_all _ _ _ _ (le_n _) Hq)).
    rewrite forallb_forall in H3. specialize (H3 (q', w) (places_all _ _ _ _ (le_n _) Hq')). cbn [fst snd] in H3.
    rewrite (left_apart _ _ L) in H3. rewrite Hs, Hs' in H3. cbn in H3. lia.
Qed.

Definition kz_module : value :=
  nd 90 (TX "Module") tok_k tok_z
    [(TX "body", VList 91 [nd 92 (TX "Expr") tok_k tok_z [(TX "value", kz_mult)]]); (TX "type_ignores", VList 93 [])].
Definition kz_source : parsed_file := PF (TX "k*z") (TX "x.py") [] (Some (PyInfo [] kz_module)).
Definition kz_context (parsed : parsed_file) (info : pyinfo) : env :=
  Env parsed (py_tree info) (py_tokens info) [] (fun c => 1000 + c) (fun c => 2000 + c) (fun _ _ => []).
Definition kz_env : env := kz_context kz_source (PyInfo [] kz_module).
Definition kz_parse (data path : text) : res parsed_file := Ok kz_source.
Definition swap : template := sh_template (TX "$y*$x").
Definition xy_holes : text -> option hole :=
  metavariables [] [(TX "x", TX "gensym_x"); (TX "y", TX "gensym_y")] [].
Definition xy_pattern : value := t_mult 40 (p_name 10 (TX "gensym_x")) (p_name 20 (TX "gensym_y")).
Definition xy_matcher : matcher :=
  match expr_pattern t_tokenize t_id t_parse (TX "$x*$y") [] with Ok m => m | Err _ => MAnything end.

Lemma xy_plain n x r : xy_holes n = Some (Named x r) -> r = MAnything /\ x <> ROOT_LABEL.
Proof.
  unfold xy_holes, metavariables. cbn [find snd]. destruct (text_eqb _ n); [intros [= <- <-]; split; [reflexivity|discriminate]|].
  destruct (text_eqb _ n); [intros [= <- <-]; split; [reflexivity|discriminate]|discriminate].
Qed.
Definition kz_occ : list (label * pymatch) :=
  [(TX "x", create_match kz_source kz_k); (TX "y", create_match kz_source kz_z)].
Lemma kz_fits : fits kz_env xy_holes xy_pattern kz_mult kz_occ.
Proof.
  apply F_node; [|reflexivity|].
  { intros n Hn. apply name_id_is_name in Hn. discriminate Hn. }
  assert (NC : forall f, ~ name_context (TX "BinOp") f) by (intros f [E _]; discriminate E).
  change kz_occ with ([(TX "x", create_match kz_source kz_k)] ++ [] ++ [(TX "y", create_match kz_source kz_z)] ++ []).
  apply FF_cons; [apply NC| |apply FF_cons; [apply NC| |apply FF_cons; [apply NC| |constructor]]].
  - eapply F_named; [apply name_id_is_name; reflexivity|reflexivity|]. intros s. reflexivity.
  - apply F_node; [|reflexivity|constructor]. intros n Hn. apply name_id_is_name in Hn. discriminate Hn.
  - eapply F_named; [apply name_id_is_name; reflexivity|reflexivity|]. intros s. reflexivity.
Qed.
Lemma kz_only q c occ : at_path kz_module q = Some c -> occurrence kz_env xy_holes xy_pattern c occ -> c = kz_mult /\ occ = kz_occ.
Proof.
  intros Hq [F _]. assert (Hc : vtype c = TX "BinOp").
  { inversion F as [p n y m c0 rm0 Hn Hh Hp E1 E2 E3|p n c0 Hn Hh E1 E2 E3|? ? ? ? E|? ? ? ms ? FI|? ? j gs ? Hn Ht FF]; subst.
    - apply name_id_is_name in Hn. discriminate Hn.
    - apply name_id_is_name in Hn. discriminate Hn.
    - symmetry. exact Ht. }
  assert (c = kz_mult).
  { apply (places_all (vsize kz_module)) in Hq; [|apply le_n].
    assert (A : forallb (fun x : path * value => negb (text_eqb (vtype (snd x)) (TX "BinOp")) || (vid (snd x) =? 40)) (places (vsize kz_module) kz_module) = true)
      by (vm_compute; reflexivity).
    assert (B : forall x, In x (places (vsize kz_module) kz_module) -> vid (snd x) = 40 -> snd x = kz_mult).
    { intros x Hx. revert Hx. vm_compute places. intros Hx. repeat destruct Hx as [<-|Hx]; try (intros E; discriminate E); try (intros _; reflexivity). destruct Hx. }
    rewrite forallb_forall in A. specialize (A _ Hq). cbn [snd] in A. rewrite Hc in A. cbn in A. apply (B _ Hq). cbn [snd]. lia. }
  subst c. split; [reflexivity|]. exact (fits_fun xy_holes kz_env _ _ _ _ F kz_fits).
Qed.

Example C70_nonvacuous :
  proper p_grammar /\ python_grammar p_grammar /\ python_ast p_grammar t_parse /\ plain_source t_tokenize (TX "$x*$y")
  /\ no_root_metavariable t_tokenize (TX "$x*$y")
  /\ base_ast_pattern t_tokenize t_id t_parse (pull_of KExpr) (TX "$x*$y") [] = Ok xy_matcher
  /\ t_template swap <> []
  /\ parsed_source kz_parse kz_context p_grammar (TX "k*z") (TX "x.py") kz_source kz_env
  /\ has_tree t_tokenize t_parse KExpr (TX "$x*$y") xy_holes xy_pattern
  /\ replaceable kz_env xy_holes xy_pattern swap
  /\ exists m', from_matcher xy_matcher [(ROOT_LABEL, swap)] = Ok m'
     /\ rewrite_string kz_parse (python_searcher kz_parse kz_context (literal_template (TX "pass")) m') (TX "k*z") (TX "x.py") 1 = Ok (TX "z*k").
Proof.
  assert (L : laid_out kz_module kz_source) by (apply laid_out_ok; vm_compute; reflexivity).
  split; [exact p_proper|]. split; [split; reflexivity|]. split; [exact t_ast|]. split; [apply t_plain|].
  split. { intros toks H. vm_compute in H. injection H as <-. vm_compute. intros [H|[H|[]]]; discriminate H. }
  split; [vm_compute; reflexivity|]. split; [discriminate|].
  split.
  { constructor.
    - reflexivity.
    - exists (PyInfo [] kz_module). auto.
    - reflexivity.
    - apply sample_tree_ok. vm_compute. reflexivity.
    - intros v a b Hv Hs. apply (lo_start _ _ L _ _ _ Hv) in Hs. lia. }
  split.
  { exists (map (fun t => ([], t)) xy_toks), [TX "gensym_x"; TX "gensym_y"], [(TX "x", TX "gensym_x"); (TX "y", TX "gensym_y")], [],
      (p_module xy_pattern). split; [reflexivity|]. split; [exact xy_spelled|]. split; [reflexivity|].
    split; [|split; [reflexivity|split; [reflexivity|reflexivity]]].
    unfold new_names. change (metavars (map snd (map (fun t => ([], t)) xy_toks))) with [TX "x"; TX "y"].
    split; [repeat (constructor; [reflexivity|]); constructor|]. split; [|split; [|split; [|split]]].
    - intros i j v w n Hi Hj Hv Hw. destruct i as [|[|[|]]], j as [|[|[|]]]; cbn in Hi, Hj, Hv, Hw; try discriminate; auto;
        exfalso; rewrite <- Hv in Hw; discriminate Hw.
    - intros n t Hn Ht. left. intros E. cbn in Ht.
      repeat destruct Ht as [<-|Ht]; try destruct Ht; destruct Hn as [<-|[<-|[]]]; discriminate E.
    - intros x n Hx. apply dget_In in Hx as [E|[E|[]]]; injection E as <- <-; [exists 0%nat|exists 1%nat]; split; reflexivity.
    - intros n [].
    - split; [repeat constructor; eexists; reflexivity|].
      constructor; [intros [H|[]]; discriminate H|constructor; [intros []|constructor]]. }
  split.
  { constructor.
    - exact L.
    - apply unshared_ok. vm_compute. reflexivity.
    - reflexivity.
    - intros q c occ Hq O. destruct (kz_only q c occ Hq O) as [-> _]. discriminate.
    - intros c r (q & Hq) (occ & ms & O & S & ->). destruct (kz_only q c occ Hq O) as [-> ->]. right.
      destruct S as (S1 & S2 & S3). exists (TX "z*k"). change (t_substitute swap) with (fun (_ : parsed_file) (_ : pymatch) ms => sh_fill (sh_pieces (TX "$y*$x")) (stringify_matches ms)).
      cbn beta. change (sh_pieces (TX "$y*$x")) with [ShVar (TX "y"); ShLit (TX "*"); ShVar (TX "x")]. cbn [sh_fill].
      rewrite !TemplateProofs.stringify_dget by exact S1. rewrite (S3 (TX "y")), (S3 (TX "x")) by discriminate. reflexivity. }
  eexists. split; [vm_compute; reflexivity|vm_compute; reflexivity].
Qed.

(** And [z] replaced by [a+b] in it, with a syntax-aware template. *)
Example C70_filled_nonvacuous : exists t,
  template_of t_tokenize t_id t_parse KExpr (TX "a+b") = Ok t
  /\ pf_py (e_parsed kz_env) = Some (PyInfo [] kz_module) /\ unshared (e_tree kz_env)
  /\ at_path (e_tree kz_env) [0; 0; 0; 2]%nat = Some kz_z
  /\ m_span (create_match (e_parsed kz_env) kz_z) = Some (2, 3)
  /\ (forall s, plain_source t_tokenize s)
  /\ fills_in kz_env (fun _ => None) kz_z (as_template t_tokenize t_id t_parse t_parse_ast t) kz_z (Ok (TX "(a+b)")).
Proof.
  eexists. split; [vm_compute; reflexivity|]. split; [reflexivity|]. split; [apply unshared_ok; vm_compute; reflexivity|].
  split; [reflexivity|]. split; [reflexivity|]. split; [exact t_plain|].
  exists [], [(TX "__root", create_match kz_source kz_z)]. split; [|split; [|vm_compute; reflexivity]].
  - split; [|constructor]. apply F_node; [reflexivity|reflexivity|]. change (@nil (label * pymatch)) with (@nil (label * pymatch) ++ []).
    apply FF_cons; [intros [_ E]; discriminate E|apply F_const; reflexivity|]. apply FF_context; [split; reflexivity|constructor].
  - split; [repeat constructor; intros []|]. split; [reflexivity|]. intros x Hx. cbn [dget].
    destruct (text_eqb_spec (TX "__root") x); [congruence|reflexivity].
Qed.
