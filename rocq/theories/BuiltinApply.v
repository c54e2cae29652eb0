(** Fixers made of expression patterns, in a search: proofs. *)
From Verif Require Import TemplateProofs Py PyFacts Subst Fmt ApplySpec SubstSpec SubstProofs ApplyProofs Ast Template FromDiff Matcher MatchSpec MergeSpec MergeProofs MatcherProofs FindSpec FindProofs
  NavSpec NavProofs PatTok PatSpec PatTokProofs LexProofs Pattern PatternSpec EquivProofs PatternProofs PatternApi RenameProofs
  PyTemplate PyTemplateSpec PyTemplateProofs Search SearchSpec SearchProofs RewriteProofs Removal RemovalSearch ReSubProofs OwnSpec
  PropsTemplate ExprSubSpec ExprSubProofs PropsExprSub Fixer FixerSpec FixerProofs PyCode CodeProofs BuiltinFixers BuiltinSpec BuiltinProofs.
From Coq Require Import Permutation Sorted.

(** *** Patterns are plain *)
Definition plain_matcher (L : list label) (m : matcher) : Prop :=
  dicts_ok m /\ rewrite_free m = true /\ no_templates m = true /\ incl (bind_variables m) L.
Lemma plain_list L ms : Forall (plain_matcher L) ms -> plain_matcher L (MItemsAre ms).
Proof.
  unfold plain_matcher. cbn [dicts_ok rewrite_free no_templates bind_variables]. induction 1 as [|m ms (A & B & C & D) H IH].
  - cbn. split; [exact I|]. repeat split. intros x [].
  - destruct IH as (A' & B' & C' & D'). cbn [fold_right forallb flat_map]. rewrite B, B', C, C'. split; [now split|]. repeat split.
    intros x Hx. apply in_app_iff in Hx as [Hx|Hx]; auto.
Qed.
Lemma plain_node L ty fs : Forall (fun kv => plain_matcher L (snd kv)) fs -> plain_matcher L (MNode ty fs).
Proof.
  unfold plain_matcher. cbn [dicts_ok rewrite_free no_templates bind_variables]. induction 1 as [|m ms (A & B & C & D) H IH].
  - cbn. split; [exact I|]. repeat split. intros x [].
  - destruct IH as (A' & B' & C' & D'). cbn [fold_right forallb flat_map]. rewrite B, B', C, C'. split; [now split|]. repeat split.
    intros x Hx. apply in_app_iff in Hx as [Hx|Hx]; auto.
Qed.
Lemma plain_leaf L m : m = MAnything \/ (exists v, m = MEquals v) -> plain_matcher L m.
Proof. intros [->|(v & ->)]; (split; [exact I|]; repeat split; intros x []). Qed.
Lemma pattern_plain L subs : (forall n m, dget subs n = Some m -> plain_matcher L m) -> forall v, plain_matcher L (ast_pattern subs v).
Proof.
  intros Hs. induction v as [i fs IH|i l IH|i c] using value_ind'.
  - cbn [ast_pattern]. assert (K : plain_matcher L (MNode (n_type i) (map (fun kv => (fst kv, if ignored_field (n_type i) (fst kv) then MAnything else ast_pattern subs (snd kv))) fs))).
    { apply plain_node. apply Forall_forall. intros x Hx. apply in_map_iff in Hx as (kv & <- & Hin). cbn [snd].
      destruct (ignored_field _ _); [apply plain_leaf; now left|]. rewrite Forall_forall in IH. now apply IH. }
    destruct (name_id _) as [n|]; [|exact K]. destruct (dget subs n) as [m|] eqn:E; [now apply (Hs n)|exact K].
  - cbn [ast_pattern]. apply plain_list. apply Forall_forall. intros x Hx. apply in_map_iff in Hx as (v & <- & Hin).
    rewrite Forall_forall in IH. now apply IH.
  - apply plain_leaf. right. eexists. reflexivity.
Qed.
(** The labels that a pattern binds are its metavariables. *)
Lemma restricted_plain_as k tokenize order ast_parse src restrictions m : (forall l, Permutation (order l) l) -> plain_source tokenize src ->
  (forall x r, dget restrictions x = Some r -> plain_matcher [] r) ->
  base_ast_pattern tokenize order ast_parse (pull_of k) src restrictions = Ok m ->
  forall toks, tokenize (if negb (endswith [NL] src) then src ++ [NL] else src) = Ok toks -> plain_matcher (metavars toks) m.
Proof.
  intros HO HT HR H toks Ht. destruct (HT _ Ht) as (gl & -> & Hs & Hsp).
  destruct (rename_source tokenize order src gl Ht Hs HO) as [_ R].
  unfold base_ast_pattern, remapped_ast, rewrite_submatchers in H.
  destruct (remap_macro_variables tokenize order src) as [[[s names] anon]|x] eqn:Er; cbn [bind] in H; [|destruct x; discriminate H].
  destruct (forallb _ _); cbn [bind] in H; [|discriminate H].
  destruct (ast_parse s) as [module|x] eqn:Ep; cbn [bind] in H; [|destruct x; discriminate H].
  destruct (verify_variables module names) as [[]|]; cbn [bind] in H; [|discriminate H].
  destruct (pull_of k module) as [p|]; cbn [bind] in H; [|discriminate H]. injection H as <-.
  destruct (R _ _ _ eq_refl) as (news & -> & N).
  destruct (remap_distinct tokenize order _ _ Ht (spelled_ends _ _ _ _ _ Hs) HO _ _ _ Er) as [Nd D].
  assert (K : plain_matcher (metavars (map snd gl)) (ast_pattern (submatchers restrictions names anon) p)).
  { apply pattern_plain. intros n m' E. rewrite submatchers_spec in E by exact Nd. unfold metavariables in E.
    destruct (find _ names) as [[x y]|] eqn:Ef.
    - injection E as <-.
      assert (Pr : plain_matcher [] (match dget restrictions x with Some m => m | None => MAnything end)).
      { destruct (dget restrictions x) as [r|] eqn:Ed; [now apply (HR x)|apply plain_leaf; now left]. }
      destruct Pr as (P1 & P2 & P3 & P4). split; [exact P1|]. split; [exact P2|]. split; [exact P3|]. cbn [bind_variables]. intros z [<-|Hz]; [|destruct (P4 _ Hz)].
      apply find_some in Ef as [Hin _]. apply In_dget in Hin; [|exact D]. destruct N as (_ & _ & _ & N & _).
      destruct (N _ _ Hin) as (i & Hi & _). now apply nth_error_In in Hi.
    - destruct (tmem n anon); [|discriminate E]. injection E as <-. apply plain_leaf. now left. }
  exact K.
Qed.
Lemma restricted_plain tokenize order ast_parse src restrictions m : (forall l, Permutation (order l) l) -> plain_source tokenize src ->
  (forall x r, dget restrictions x = Some r -> plain_matcher [] r) ->
  expr_pattern tokenize order ast_parse src restrictions = Ok m ->
  forall toks, tokenize (if negb (endswith [NL] src) then src ++ [NL] else src) = Ok toks -> plain_matcher (metavars toks) m.
Proof. exact (restricted_plain_as KExpr tokenize order ast_parse src restrictions m). Qed.
Lemma pattern_fixer_plain tokenize order ast_parse src m : (forall l, Permutation (order l) l) -> plain_source tokenize src ->
  expr_pattern tokenize order ast_parse src [] = Ok m ->
  forall toks, tokenize (if negb (endswith [NL] src) then src ++ [NL] else src) = Ok toks -> plain_matcher (metavars toks) m.
Proof. intros HO HT H. eapply restricted_plain; [exact HO|exact HT| |exact H]. discriminate. Qed.

Lemma made_from_In skipped made hs subs sub : made_from skipped made hs subs -> In sub subs -> exists h, In h hs /\ made h sub.
Proof.
  induction 1 as [|h hs subs S H IH|h hs s subs K H IH]; intros Hin; [destruct Hin| |].
  - destruct (IH Hin) as (h' & A & B). exists h'. split; [now right|exact B].
  - destruct Hin as [<-|Hin]; [exists h; split; [now left|exact K]|]. destruct (IH Hin) as (h' & A & B). exists h'. split; [now right|exact B].
Qed.

Section Applied.
  Variable tokenize : text -> res (list ptok).
  Variable order : list nat -> list nat.
  Variable ast_parse : text -> res value.
  Variable parse_env : text -> res env.
  Variable parse_ast : text -> text -> res parsed_file.
  Variable context : parsed_file -> pyinfo -> env.
  Variable pass_template : template.
  Variable G : grammar.
  Hypothesis HO : forall l, Permutation (order l) l.
  Hypothesis HG : proper G.
  Hypothesis HGp : python_grammar G.
  Hypothesis HA : python_ast G ast_parse.
  Hypothesis HPa : python_parser G parse_env.

  Local Notation rewritten := (rewritten tokenize order ast_parse parse_env).
  Local Notation rewritten_as k := (rewritten_as k tokenize order ast_parse parse_env).

  Lemma applied_to fs s data path parsed e subs sub :
    combining_fixer parse_ast context pass_template fs = Ok s -> Forall plain_fixer fs ->
    parsed_source parse_ast context G data path parsed e -> unshared (e_tree e) ->
    (forall anc sp c_span, PatternSpec.inside (e_tree e) anc -> m_span (create_match parsed anc) = Some sp ->
       plain_source tokenize (around parsed anc sp (TX "$current_expr") c_span)) ->
    s_find s parsed = Ok subs -> In sub subs ->
    exists f, In f fs /\ carries f sub
      /\ (exists h mb ts key, at_path (e_tree e) (h_path h) = Some (h_value h) /\ by_fixer pass_template e fs h f mb ts /\ describes (e_parsed e) key mb ts sub)
      /\ forall k old new holes p t Cond,
         template_of tokenize order ast_parse k new = Ok t -> fx_replacement f = inl (as_template tokenize order ast_parse parse_env t) ->
         narrows e holes p Cond (fx_matcher f) -> has_tree tokenize ast_parse k old holes p ->
         (forall n x m, holes n = Some (Named x m) -> m = MAnything /\ x <> ROOT_LABEL) ->
         plain_source tokenize new -> new <> [] ->
         forall reps l txt, replacements sub = Some reps -> In (l, txt) reps ->
         exists q c occ ms holes' p' r safe, rewritten_as k e old new sub l txt holes p q c occ ms holes' p' t r safe /\ Cond c occ.
  Proof.
    intros Hc HP [P1 (info & P2 & P3 & P4) P5 P6 P7] Hun Hctx Hs Hin.
    destruct (combined_finds _ _ _ _ _ _ _ Hc HP Hs) as (info' & ms & hs & Ei & Hms & Hf & Hmade).
    rewrite P2 in Ei. injection Ei as <-. rewrite <- P3 in *.
    destruct (made_from_In _ _ _ _ _ Hmade Hin) as (h & Hh & f & mb & ts & Hby & Hde & Hca).
    pose proof Hby as ((d & Hff) & _). destruct (first_fixer_matches _ _ _ _ _ _ _ Hff) as [Hfin _].
    exists f. split; [exact Hfin|]. split; [exact Hca|]. apply in_split in Hh as (h1 & h2 & Eh). destruct (fd_match _ _ _ Hf h1 h h2 Eh) as [Hat _].
    split; [exists h, mb, ts, (key_span_for_dict (py_tree info)); rewrite P5; auto|].
    intros k old new holes p t Cond Ht Efr F T Hpl Tn Nn reps l txt Er Hl.
    assert (Es : py_source t = new).
    { clear - Ht. destruct k; cbn [template_of] in Ht; unfold python_template, python_stmt_template, python_expr_template, make_template in Ht;
      repeat (apply bind_Ok in Ht as (? & _ & Ht)); now injection Ht as <-. }
    rewrite Forall_forall in HP. specialize (HP _ Hfin). clear P3. subst parsed.
    destruct (fixer_applies e holes p (fx_matcher f) Cond F Hpl pass_template fs h f (as_template tokenize order ast_parse parse_env t) (key_span_for_dict (py_tree info)) mb ts sub reps l txt
      eq_refl Efr) as (occ & sp & O & HC & S & -> & Hsp & Hspan & E); [cbn; rewrite Es; exact Nn|exact HP|exact Hat|exact Hby|exact Hde|exact Er|exact Hl|].
    destruct (C70_filled tokenize order ast_parse parse_env G k new t e info holes p (h_path h) (h_value h) txt HO HG HGp HA HPa Tn Ht Hpl)
      as (occ' & ms' & r & safe & holes' & p' & O' & S' & T' & Fi & Pu); try assumption.
    - rewrite Hsp. discriminate.
    - exists occ, mb. split; [exact O|]. split; [exact S|]. now symmetry.
    - exists (h_path h), (h_value h), occ', ms', holes', p', r, safe. split.
      + unfold BuiltinSpec.rewritten_as. split; [reflexivity|]. split; [exact Hat|]. split; [exists sp; split; assumption|]. auto 10.
      + rewrite (fits_fun holes e p _ _ _ (proj1 O') (proj1 O)). exact HC.
  Qed.
  Lemma applied fs s data path parsed e subs sub :
    combining_fixer parse_ast context pass_template fs = Ok s -> Forall plain_fixer fs ->
    parsed_source parse_ast context G data path parsed e -> unshared (e_tree e) ->
    (forall anc sp c_span, PatternSpec.inside (e_tree e) anc -> m_span (create_match parsed anc) = Some sp ->
       plain_source tokenize (around parsed anc sp (TX "$current_expr") c_span)) ->
    s_find s parsed = Ok subs -> In sub subs ->
    exists f, In f fs /\ carries f sub
      /\ forall old new msg url cat sig, pattern_fixer tokenize order ast_parse parse_env old new msg url cat sig = Ok f ->
         plain_source tokenize old -> no_root_metavariable tokenize old -> plain_source tokenize new -> new <> [] ->
         forall reps l txt, replacements sub = Some reps -> In (l, txt) reps ->
         exists holes p q c occ ms holes' p' t r safe, rewritten e old new sub l txt holes p q c occ ms holes' p' t r safe
           /\ (forall n x m, holes n = Some (Named x m) -> m = MAnything /\ x <> ROOT_LABEL).
  Proof.
    intros Hc HP Hps Hun Hctx Hs Hin.
    destruct (applied_to _ _ _ _ _ _ _ _ Hc HP Hps Hun Hctx Hs Hin) as (f & Hfin & Hca & _ & K).
    exists f. split; [exact Hfin|]. split; [exact Hca|]. intros old new msg url cat sig Hpf To Tr Tn Nn reps l txt Er Hl.
    unfold pattern_fixer in Hpf. apply bind_Ok in Hpf as (m & Hm & Hpf). apply bind_Ok in Hpf as (t & Ht & Hpf). injection Hpf as <-.
    destruct (pattern_tree tokenize order ast_parse G KExpr old m HO HGp HA To Tr Hm) as (holes & p & T & F & Cp & Np & Hpl).
    destruct (K KExpr old new holes p t (fun _ _ => True) Ht eq_refl (pattern_narrows e holes p m G F HG (ps_tree _ _ _ _ _ _ _ Hps) Cp Np Hpl) T Hpl Tn Nn reps l txt Er Hl)
      as (q & c & occ & ms & holes' & p' & r & safe & W & _).
    exists holes, p, q, c, occ, ms, holes', p', t, r, safe. auto.
  Qed.

  (** *** For patterns with known trees *)
  Lemma last_occ_only x w occ : NoDup (map fst occ) -> In (x, w) occ -> last_occ x occ = Some w.
  Proof.
    induction occ as [|[y v] occ IH]; cbn [map fst last_occ]; intros N Hin; [destruct Hin|]. inversion N as [|? ? N1 N2]; subst. destruct Hin as [E|Hin].
    - injection E as -> ->. destruct (last_occ x occ) as [u|] eqn:El; [|now rewrite text_eqb_refl]. exfalso. apply N1.
      apply last_occ_In in El. now apply (in_map fst) in El.
    - now rewrite (IH N2 Hin).
  Qed.
  Lemma located_match parsed w : located_expr w -> exists f l, create_match parsed w = PLex w (pf_text parsed) f l true true /\ is_expr w = true.
  Proof. intros [H1 H2]. unfold create_match. destruct (lexical_tokens w) as [[f l]|]; [eauto|congruence]. Qed.

  Lemma has_tokens_of {k} c : understood_as k tokenize ast_parse c -> lexed c -> plain_source tokenize (source c) /\ no_root_metavariable tokenize (source c).
  Proof.
    intros U L. split.
    - intros toks. rewrite (lx_newline c L). cbn [negb]. rewrite (una_tokens _ _ _ _ U). intros [= <-]. exists (line_tokens (source c)).
      split; [reflexivity|]. split; [apply lineb_spelled; apply (lx_line c L)|apply (lx_text c L)].
    - intros toks. rewrite (lx_newline c L). cbn [negb]. rewrite (una_tokens _ _ _ _ U). intros [= <-]. rewrite (lx_vars c L).
      intros K. apply tmem_In in K. pose proof (lx_root c L). congruence.
  Qed.
  Lemma not_context_pattern e c holes p v occ : lexed c -> (forall n h, holes n = Some h -> gensym n = true) ->
    stands (at_hole holes) (tree_of c) p -> fits e holes p v occ -> is_ctx v = false.
  Proof.
    intros L Hh S F. destruct (lx_node c L) as (ty & fs & Et & Hty). pose proof (lx_plain c L) as Hp. rewrite Et in S, Hp.
    inversion F as [? n x m ? rm Hn Hhn Hpo|? n ? Hn Hhn|? ? ? ? E|? ? ? ms ? FI|? ? j gs ? Hnn Ht FF]; subst.
    - rewrite (node_is_no_hole holes Hh _ _ _ _ _ Hp S Hn) in Hhn. discriminate Hhn.
    - rewrite (node_is_no_hole holes Hh _ _ _ _ _ Hp S Hn) in Hhn. discriminate Hhn.
    - inversion S.
    - inversion S.
    - inversion S; subst. now apply Hty.
  Qed.
  Lemma not_context_instance c holes values p v : lexed c -> (forall n h, holes n = Some h -> gensym n = true) ->
    stands (at_hole holes) (tree_of c) p -> instance holes values p v -> is_ctx v = false.
  Proof.
    intros L Hh S F. destruct (lx_node c L) as (ty & fs & Et & Hty). pose proof (lx_plain c L) as Hp. rewrite Et in S, Hp.
    inversion F as [? n x m ? Hn Hhn Hpo|? n ? Hn Hhn|? ? ? ? E|? ? ? ms FI|? ? j gs Hnn Ht FF]; subst.
    - rewrite (node_is_no_hole holes Hh _ _ _ _ _ Hp S Hn) in Hhn. discriminate Hhn.
    - rewrite (node_is_no_hole holes Hh _ _ _ _ _ Hp S Hn) in Hhn. discriminate Hhn.
    - inversion S.
    - inversion S.
    - inversion S; subst. now apply Hty.
  Qed.

  (** The code that was there, the code that is put in, and what is in the places of
      their variables. *)
  Lemma coded {k} e co cn sub l txt holes p q c occ ms holes' p' t r safe :
    understood_as k tokenize ast_parse co -> lexed co -> understood_as k tokenize ast_parse cn -> lexed cn ->
    parsed_tree G (e_tree e) -> located_exprs (e_tree e) ->
    rewritten_as k e (source co) (source cn) sub l txt holes p q c occ ms holes' p' t r safe ->
    map fst occ = left_open co
    /\ reads (fun x w => In (x, create_match (e_parsed e) w) occ /\ located_expr w /\ PatternSpec.inside (e_tree e) w) co c
    /\ exists e1 c1, parse_env r = Ok e1 /\ consists_of k (e_tree e1) c1
       /\ reads (fun x w => forall v, bound_expr ms x = Some v -> same_code v w) cn c1.
  Proof.
    intros Uo Lo Un Ln PT Lx (_ & Hq & _ & T & O & S & T' & Ht & Fi & _).
    destruct (code_tree _ _ _ _ _ Uo Lo T) as [Ho So]. destruct (code_tree _ _ _ _ _ Un Ln T') as [Hn Sn].
    destruct O as [F Al]. pose proof (not_context_pattern e co holes p c occ Lo Ho So F) as Nc.
    destruct (pt_regular _ _ PT) as (D & _ & Rg).
    destruct (PyTemplateProofs.regular_inside _ _ _ _ Rg Hq) as [Rc|[Cc _]]; [|congruence].
    assert (Tc : forall x : code label, tree_of x <> TContext) by (intros []; discriminate).
    destruct (fits_stands holes Ho e D (tree_of co) p c occ (lx_plain co Lo) So (Tc co) F Rc) as [E1 E2].
    rewrite tree_vars in E1. split; [exact E1|]. split.
    - unfold reads. destruct (lx_node co Lo) as (ty & fs & Et & _).
      assert (K : stands (fun x w => (In (x, create_match (e_parsed e) w) occ /\ PatternSpec.inside c w) /\ located_expr w /\ PatternSpec.inside (e_tree e) w) (tree_of co) c).
      { apply stands_placed with (root := e_tree e); try assumption.
        - apply code_placed.
        - now exists q.
        - rewrite Et. discriminate.
        - rewrite Et. discriminate. }
      eapply stands_mono; [|exact K]. cbn. tauto.
    - destruct Fi as (full & e0 & e1 & c1 & _ & _ & _ & _ & Er & _ & Hc1 & Hi). exists e1, c1. split; [exact Er|]. split; [exact Hc1|].
      destruct (HPa _ _ Er) as [PT1 _]. destruct (pt_regular _ _ PT1) as (D1 & _ & R1).
      pose proof (not_context_instance cn holes' _ p' c1 Ln Hn Sn Hi) as Nc1.
      assert (exists q1, at_path (e_tree e1) q1 = Some c1) as (q1 & Hq1).
      { apply (pull_inside G HGp k (e_tree e1) c1); [|apply (pt_conforms _ _ PT1)]. destruct k; cbn [consists_of pull_of] in *; [now subst|now apply pull_stmt_spec|now apply pull_expr_spec]. }
      destruct (PyTemplateProofs.regular_inside _ _ _ _ R1 Hq1) as [Rc1|[Cc1 _]]; [|congruence].
      eapply (instance_stands holes' Hn _ D1); [apply (lx_plain cn Ln)|exact Sn|apply Tc|exact Hi|exact Rc1].
  Qed.

  Lemma coded_parts {k} e co cn sub l txt holes p q c occ ms holes' p' t r safe :
    understood_as k tokenize ast_parse co -> lexed co -> understood_as k tokenize ast_parse cn -> lexed cn ->
    parsed_tree G (e_tree e) -> located_exprs (e_tree e) ->
    NoDup (left_open co) -> NoDup (left_open cn) -> incl (left_open cn) (left_open co) ->
    rewritten_as k e (source co) (source cn) sub l txt holes p q c occ ms holes' p' t r safe ->
    exists e1 c1 parts parts', parse_env r = Ok e1 /\ consists_of k (e_tree e1) c1
      /\ made_of (fill parts co) c /\ made_of (fill parts' cn) c1
      /\ (forall x, In x (left_open cn) -> same_code (parts x) (parts' x))
      /\ map fst occ = left_open co
      /\ forall x, In x (left_open co) -> In (x, create_match (e_parsed e) (parts x)) occ /\ located_expr (parts x) /\ PatternSpec.inside (e_tree e) (parts x).
  Proof.
    intros Uo Lo Un Ln PT Lx No Nn Hincl W.
    destruct (coded _ _ _ _ _ _ _ _ _ _ _ _ _ _ _ _ _ Uo Lo Un Ln PT Lx W) as (E1 & R1 & e1 & c1 & Er & Hc1 & R2).
    destruct (reads_parts _ _ _ No R1) as (parts & A1 & A2). destruct (reads_parts _ _ _ Nn R2) as (parts' & B1 & B2).
    exists e1, c1, parts, parts'. do 4 (split; [assumption|]). split; [|split; [exact E1|exact A1]].
    intros x Hx. apply (B1 x Hx).
    destruct (A1 x (Hincl x Hx)) as (Hin & Hl & _). destruct W as (_ & _ & _ & _ & _ & (S1 & S2 & S3) & _).
    unfold bound_expr. rewrite S3.
    - rewrite (last_occ_only x (create_match (e_parsed e) (parts x)) occ); [|now rewrite E1|exact Hin]. destruct (located_match (e_parsed e) _ Hl) as (f & l0 & -> & ->). reflexivity.
    - intros ->. apply tmem_In in Hx. pose proof (lx_root cn Ln). congruence.
  Qed.
End Applied.
