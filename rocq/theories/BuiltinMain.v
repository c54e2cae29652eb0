(** The built-in fixers that are made of patterns, in a search: proofs. *)
From Verif Require Import TemplateProofs Py PyFacts Subst ApplySpec Ast Template FromDiff Matcher MatchSpec MatcherProofs FindSpec FindProofs
  NavSpec PatTok PatSpec Pattern PatternSpec EquivProofs PatternProofs PatternApi
  PyTemplate PyTemplateSpec PyTemplateProofs Search SearchSpec Removal OwnSpec
  PropsTemplate ExprSubSpec ExprSubProofs PropsExprSub Fixer FixerSpec FixerProofs PyCode BuiltinFixers BuiltinSpec CodeProofs BuiltinProofs BuiltinApply BuiltinTables.
From Coq Require Import Permutation.

Lemma comprehension_parts (R : label -> value -> Prop) ty a b d c :
  stands R (TNode ty [(TX "elt", TVar a); (TX "generators", TList [comprehension (TVar b) (TVar d)])]) c ->
  exists elt target iter, R a elt /\ R b target /\ R d iter
    /\ stands eq (TNode ty [(TX "elt", TVar elt); (TX "generators", TList [comprehension (TVar target) (TVar iter)])]) c.
Proof.
  intros H. inversion H as [| | | |? ? i gs Ht K]; subst. inversion K as [|? [n1 v1] ? ? [N1 S1] K1]; subst. inversion K1 as [|? [n2 v2] ? ? [N2 S2] K2]; subst.
  inversion K2; subst. cbn [fst snd] in *. subst. inversion S1; subst. inversion S2 as [| | |? id m F|]; subst. inversion F as [|? w ? ? S3 F1]; subst. inversion F1; subst.
  inversion S3 as [| | | |? ? j hs Hj K3]; subst. inversion K3 as [|? [n3 v3] ? ? [N3 S4] K4]; subst. inversion K4 as [|? [n4 v4] ? ? [N4 S5] K5]; subst.
  inversion K5 as [|? [n5 v5] ? ? [N5 S6] K6]; subst. inversion K6 as [|? [n6 v6] ? ? [N6 S7] K7]; subst. inversion K7; subst.
  cbn [fst snd] in *. subst. inversion S4; subst. inversion S5; subst. inversion S6 as [| | |? ? ? F2|]; subst. inversion F2; subst. inversion S7; subst.
  exists v1, v3, v4. do 3 (split; [assumption|]).
  apply ST_node; [reflexivity|]. constructor; [split; [reflexivity|now apply ST_var]|]. constructor; [|constructor]. split; [reflexivity|]. apply ST_list.
  constructor; [|constructor]. apply ST_node; [exact Hj|]. constructor; [split; [reflexivity|now apply ST_var]|]. constructor; [split; [reflexivity|now apply ST_var]|].
  constructor; [split; [reflexivity|apply ST_list; constructor]|]. constructor; [split; [reflexivity|now apply ST_const]|]. constructor.
Qed.
Lemma same_code_name a b n : same_code a b -> is_name a n -> is_name b n.
Proof.
  intros S (i & fs & id & -> & Ht & Hd). inversion S as [? ? C1 C2| | |? ? j gs Hj F]; subst.
  - exfalso. unfold is_ctx, isinst in C1. cbn [vtype] in C1. rewrite Ht in C1. vm_compute in C1. discriminate C1.
  - assert (exists id', dget gs (TX "id") = Some (VConst id' (CStr n))) as (id' & Hd'); [|exists j, gs, id'; split; [reflexivity|]; split; [congruence|exact Hd']].
    clear - F Hd. induction F as [|[x v] [y w] fs gs [E S] F IH]; [discriminate Hd|]. cbn [fst snd] in *. subst y. cbn [dget] in *.
    destruct (text_eqb x (TX "id")); [|now apply IH]. injection Hd as ->. inversion S as [? ? C1 C2|? ? ? d E| |]; subst; [discriminate C1|].
    destruct d; cbn in E; try discriminate E. apply text_eqb_eq in E. subst. eauto.
Qed.

(** *** Messages *)
Definition meta_of (f : fixer) : option text * option text * bool := (fx_message f, fx_category f, fx_significant f).
Lemma pattern_fixer_meta tokenize order ast_parse parse_env old new msg url cat sig f :
  pattern_fixer tokenize order ast_parse parse_env old new msg url cat sig = Ok f -> meta_of f = (Some msg, Some cat, sig).
Proof. unfold pattern_fixer. intros H. apply bind_Ok in H as (m & _ & H). apply bind_Ok in H as (t & _ & H). now injection H as <-. Qed.
Definition dots_ok (old new : text) (oc : code label * code label) : bool :=
  match dotted old, dotted new with Ok o, Ok n => text_eqb o (dots (fst oc)) && text_eqb n (dots (snd oc)) | _, _ => false end.
Lemma dots_are old new oc o n : dots_ok old new oc = true -> dotted old = Ok o -> dotted new = Ok n -> o = dots (fst oc) /\ n = dots (snd oc).
Proof. unfold dots_ok. intros H E1 E2. rewrite E1, E2 in H. apply andb_prop in H as [H1 H2]. apply text_eqb_eq in H1, H2. auto. Qed.
Lemma metas {X} (fix_ : X -> res fixer) (meta : code label * code label -> option text * option text * bool) ok entries codes :
  Forall2 (fun x oc => ok x oc = true) entries codes -> (forall x oc f, ok x oc = true -> fix_ x = Ok f -> meta_of f = meta oc) ->
  forall fs, mapM fix_ entries = Ok fs -> map meta_of fs = map meta codes.
Proof.
  intros F H. induction F as [|x oc entries codes E F IH]; intros fs M; apply mapM_Forall2 in M; inversion M as [|? f ? fs' Hf M']; subst; [reflexivity|].
  cbn [map]. f_equal; [eapply H; eassumption|]. apply IH. clear - M'. induction M' as [|x f xs fs Hx M IH]; [reflexivity|]. cbn [mapM]. rewrite Hx. cbn [bind]. now rewrite IH.
Qed.
Lemma alias_metas tokenize order ast_parse parse_env fs : mapM (assert_alias_fixer tokenize order ast_parse parse_env) alias_entries = Ok fs -> map meta_of fs = map alias_meta alias_codes.
Proof.
  apply (metas _ _ (fun x oc => dots_ok (fst (fst x)) (snd (fst x)) oc)); [repeat (constructor; [vm_compute; reflexivity|]); constructor|].
  intros [[old new] url] oc f E H. cbn [fst snd] in E. unfold assert_alias_fixer in H. apply bind_Ok in H as (o & Ho & H). apply bind_Ok in H as (n & Hn & H).
  destruct (dots_are _ _ _ _ _ E Ho Hn) as [-> ->]. now apply pattern_fixer_meta in H.
Qed.
Lemma message_metas tokenize order ast_parse parse_env fs : mapM (assert_message_fixer tokenize order ast_parse parse_env) message_entries = Ok fs -> map meta_of fs = map message_meta message_codes.
Proof.
  apply (metas _ _ (fun x oc => dots_ok (fst (fst (fst x))) (snd (fst (fst x))) oc)); [repeat (constructor; [vm_compute; reflexivity|]); constructor|].
  intros [[[old new] me] ab] oc f E H. cbn [fst snd] in E. unfold assert_message_fixer in H. apply bind_Ok in H as (n & Hn & H). apply bind_Ok in H as (o & Ho & H).
  destruct (dots_are _ _ _ _ _ E Ho Hn) as [-> ->]. now apply pattern_fixer_meta in H.
Qed.
Lemma idiom_metas tokenize order ast_parse parse_env cat entries codes fs :
  Forall2 (fun x oc => dots_ok (fst (fst x)) (snd (fst x)) oc && text_eqb (snd x) cat = true) entries codes ->
  mapM (idiom_fixer tokenize order ast_parse parse_env) entries = Ok fs -> map meta_of fs = map (idiom_meta cat) codes.
Proof.
  intros F. apply (metas _ _ (fun (x : text * text * text) oc => dots_ok (fst (fst x)) (snd (fst x)) oc && text_eqb (snd x) cat)); [exact F|].
  intros [[old new] c] oc f E H. cbn [fst snd] in E. apply andb_prop in E as [E Ec]. apply text_eqb_eq in Ec. subst c.
  unfold idiom_fixer in H. apply bind_Ok in H as (o & Ho & H). apply bind_Ok in H as (n & Hn & H).
  destruct (dots_are _ _ _ _ _ E Ho Hn) as [-> ->]. now apply pattern_fixer_meta in H.
Qed.
Lemma all_metas tokenize order ast_parse parse_env uf nf cf :
  unittest_fixers tokenize order ast_parse parse_env = Ok uf -> negation_fixers tokenize order ast_parse parse_env = Ok nf ->
  comprehension_fixers tokenize order ast_parse parse_env = Ok cf ->
  map meta_of (uf ++ nf ++ cf) = map alias_meta alias_codes ++ map message_meta message_codes
    ++ map (idiom_meta (TX "pylint.g-comparison-negation")) negation_codes ++ map (idiom_meta (TX "idioms.uncessary-comprehension")) comprehension_codes.
Proof.
  intros Hu Hn Hc. unfold unittest_fixers in Hu. apply bind_Ok in Hu as (a & Ha & Hu). apply bind_Ok in Hu as (m & Hm & Hu). injection Hu as <-.
  rewrite !map_app, <- app_assoc. f_equal; [now apply alias_metas in Ha|]. f_equal; [now apply message_metas in Hm|]. f_equal.
  - eapply idiom_metas; [|exact Hn]. repeat (constructor; [vm_compute; reflexivity|]). constructor.
  - eapply idiom_metas; [|exact Hc]. repeat (constructor; [vm_compute; reflexivity|]). constructor.
Qed.

Section Main.
  Variable tokenize : text -> res (list ptok).
  Variable order : list nat -> list nat.
  Variable ast_parse : text -> res value.
  Variable parse_env : text -> res env.
  Hypothesis HO : forall l, Permutation (order l) l.
  Notation pfixer := (pattern_fixer tokenize order ast_parse parse_env).

  (** The fixers of a table *)
  Definition from_codes (codes : list (code label * code label)) (f : fixer) : Prop :=
    exists oc msg url cat sig, In oc codes /\ pfixer (source (fst oc)) (source (snd oc)) msg url cat sig = Ok f.
  Lemma table_fixers {X} (fix_ : X -> res fixer) (old new : X -> text) entries codes fs :
    (forall x f, fix_ x = Ok f -> exists msg url cat sig, pfixer (old x) (new x) msg url cat sig = Ok f) ->
    Forall2 (fun x oc => written (old x) (new x) oc) entries codes ->
    mapM fix_ entries = Ok fs -> Forall (from_codes codes) fs.
  Proof.
    intros H W M. apply mapM_Forall2 in M. assert (K : forall cs, incl codes cs -> Forall (from_codes cs) fs); [|apply K, incl_refl].
    revert codes W. induction M as [|x f entries fs Hf M IH]; intros codes W cs Hi; [constructor|].
    inversion W as [|? oc ? codes' [W1 W2] W']; subst. constructor.
    - destruct (H x f Hf) as (msg & url & cat & sig & E). rewrite W1, W2 in E. exists oc, msg, url, cat, sig. split; [apply Hi; now left|exact E].
    - apply (IH codes' W'). intros y Hy. apply Hi. now right.
  Qed.
  Lemma from_more codes cs f : incl codes cs -> from_codes codes f -> from_codes cs f.
  Proof. intros H (oc & msg & url & cat & sig & A & B). exists oc, msg, url, cat, sig. auto. Qed.
  Lemma idiom_pattern x f : idiom_fixer tokenize order ast_parse parse_env x = Ok f ->
    exists msg url cat sig, pfixer (fst (fst x)) (snd (fst x)) msg url cat sig = Ok f.
  Proof.
    destruct x as [[old new] cat]. unfold idiom_fixer. intros H. apply bind_Ok in H as (o & _ & H). apply bind_Ok in H as (n & _ & H). cbn [fst snd]. eauto.
  Qed.
  Lemma unittest_from uf : unittest_fixers tokenize order ast_parse parse_env = Ok uf -> Forall (from_codes (alias_codes ++ message_codes)) uf.
  Proof.
    unfold unittest_fixers. intros H. apply bind_Ok in H as (a & Ha & H). apply bind_Ok in H as (m & Hm & H). injection H as <-.
    apply Forall_app. split.
    - eapply Forall_impl; [intros f; apply from_more, incl_appl, incl_refl|].
      eapply table_fixers; [|exact alias_written|exact Ha]. intros [[old new] url] f H. unfold assert_alias_fixer in H.
      apply bind_Ok in H as (o & _ & H). apply bind_Ok in H as (n & _ & H). cbn [fst snd]. eauto.
    - eapply Forall_impl; [intros f; apply from_more, incl_appr, incl_refl|].
      eapply table_fixers; [|exact message_written|exact Hm]. intros [[[old new] mt] ab] f H. unfold assert_message_fixer in H.
      apply bind_Ok in H as (o & _ & H). apply bind_Ok in H as (n & _ & H). cbn [fst snd]. eauto.
  Qed.
  Lemma negation_from nf : negation_fixers tokenize order ast_parse parse_env = Ok nf -> Forall (from_codes negation_codes) nf.
  Proof. intros H. eapply table_fixers; [exact idiom_pattern|exact negation_written|exact H]. Qed.
  Lemma comprehension_from cf : comprehension_fixers tokenize order ast_parse parse_env = Ok cf -> Forall (from_codes comprehension_codes) cf.
  Proof. intros H. eapply table_fixers; [exact idiom_pattern|exact comprehension_written|exact H]. Qed.

  (** They are plain. *)
  Definition understood_all (codes : list (code label * code label)) : Prop :=
    Forall (fun oc => understood tokenize ast_parse (fst oc) /\ understood tokenize ast_parse (snd oc)) codes.
  Lemma from_codes_plain codes f : understood_all codes -> Forall (fun oc => lexed (fst oc) /\ lexed (snd oc)) codes ->
    Forall (fun oc => forall l, In l meta_labels -> ~ In l (left_open (fst oc))) codes ->
    from_codes codes f -> plain_fixer f.
  Proof.
    intros U L M (oc & msg & url & cat & sig & Hin & H). unfold understood_all in U. rewrite Forall_forall in U, L, M.
    destruct (U _ Hin) as [U1 _], (L _ Hin) as [L1 _]. specialize (M _ Hin).
    unfold pattern_fixer in H. apply bind_Ok in H as (m & Hm & H). apply bind_Ok in H as (t & Ht & H). injection H as <-.
    destruct (has_tokens_of tokenize ast_parse _ U1 L1) as [T _].
    assert (K : plain_matcher (left_open (fst oc)) m).
    { rewrite <- (lx_vars _ L1). eapply pattern_fixer_plain; [exact HO|exact T|exact Hm|].
      rewrite (lx_newline _ L1). cbn [negb]. apply (un_tokens _ _ _ U1). }
    destruct K as (K1 & K2 & K3 & K4). constructor; cbn [fx_matcher fx_replacement]; auto. intros l Hl Hb. apply (M l Hl). now apply K4.
  Qed.
  Lemma no_meta_labels : Forall (fun oc : code label * code label => forall l, In l meta_labels -> ~ In l (left_open (fst oc)))
    (alias_codes ++ message_codes ++ negation_codes ++ comprehension_codes).
  Proof.
    apply Forall_forall. intros oc Hin l Hl Hb.
    assert (K : forallb (fun oc : code label * code label => forallb (fun l => negb (tmem l (left_open (fst oc)))) meta_labels)
      (alias_codes ++ message_codes ++ negation_codes ++ comprehension_codes) = true) by (vm_compute; reflexivity).
    rewrite forallb_forall in K. specialize (K _ Hin). rewrite forallb_forall in K. specialize (K _ Hl). apply tmem_In in Hb. now rewrite Hb in K.
  Qed.

  Variable parse_ast : text -> text -> res parsed_file.
  Variable context : parsed_file -> pyinfo -> env.
  Variable pass_template : template.
  Variable G : grammar.
  Hypothesis HG : proper G.
  Hypothesis HGp : python_grammar G.
  Hypothesis HA : python_ast G ast_parse.
  Hypothesis HPa : python_parser G parse_env.

  Definition all_codes := alias_codes ++ message_codes ++ negation_codes ++ comprehension_codes.
  Lemma all_nonempty : Forall (fun oc : code label * code label => source (snd oc) <> []) all_codes.
  Proof. repeat (apply Forall_cons; [vm_compute; discriminate|]). constructor. Qed.
  Lemma all_lexed : Forall (fun oc => lexed (fst oc) /\ lexed (snd oc)) all_codes.
  Proof. unfold all_codes. rewrite !Forall_app. exact (conj alias_lexed (conj message_lexed (conj negation_lexed comprehension_lexed))). Qed.

  Section Search.
    Variables (fs uf nf cf : list fixer) (s : searcher) (data path : text) (parsed : parsed_file) (e : env) (subs : list substitution) (sub : substitution).
    Hypothesis U : understood_all all_codes.
    Hypothesis Huf : unittest_fixers tokenize order ast_parse parse_env = Ok uf.
    Hypothesis Hnf : negation_fixers tokenize order ast_parse parse_env = Ok nf.
    Hypothesis Hcf : comprehension_fixers tokenize order ast_parse parse_env = Ok cf.
    Hypothesis Hfs : forall f, In f fs -> In f (uf ++ nf ++ cf) \/ plain_fixer f.
    Hypothesis Hs : combining_fixer parse_ast context pass_template fs = Ok s.
    Hypothesis HP : parsed_source parse_ast context G data path parsed e.
    Hypothesis Hun : unshared (e_tree e).
    Hypothesis Hlx : located_exprs (e_tree e).
    Hypothesis Hctx : forall anc sp c_span, PatternSpec.inside (e_tree e) anc -> m_span (create_match parsed anc) = Some sp ->
      plain_source tokenize (around parsed anc sp (TX "$current_expr") c_span).
    Hypothesis Hf : s_find s parsed = Ok subs.
    Hypothesis Hin : In sub subs.

    Lemma builtins_from : Forall (from_codes (alias_codes ++ message_codes)) uf /\ Forall (from_codes negation_codes) nf /\ Forall (from_codes comprehension_codes) cf.
    Proof. split; [now apply unittest_from|]. split; [now apply negation_from|now apply comprehension_from]. Qed.
    Lemma builtins_plain f : In f (uf ++ nf ++ cf) -> plain_fixer f.
    Proof.
      intros H. apply (from_codes_plain all_codes f U all_lexed no_meta_labels). destruct builtins_from as (A & B & C).
      rewrite Forall_forall in A, B, C. unfold all_codes. apply in_app_iff in H as [H|H]; [|apply in_app_iff in H as [H|H]].
      - eapply from_more; [|exact (A f H)]. intros x Hx. rewrite !in_app_iff. apply in_app_iff in Hx. tauto.
      - eapply from_more; [|exact (B f H)]. intros x Hx. rewrite !in_app_iff. tauto.
      - eapply from_more; [|exact (C f H)]. intros x Hx. rewrite !in_app_iff. tauto.
    Qed.

    Lemma builtin_rewrites : exists f, In f fs /\ carries f sub
      /\ (In f (uf ++ nf) -> forall reps l txt, replacements sub = Some reps -> In (l, txt) reps ->
          exists old new, In (old, new) (alias_codes ++ message_codes ++ negation_codes)
            /\ equivalent_rewrite tokenize order ast_parse parse_env e sub l txt old new)
      /\ (In f cf -> forall reps l txt, replacements sub = Some reps -> In (l, txt) reps ->
          equivalent_comprehension tokenize order ast_parse parse_env e sub l txt).
    Proof.
      assert (Hpl : Forall plain_fixer fs) by (apply Forall_forall; intros f H; destruct (Hfs f H); [now apply builtins_plain|assumption]).
      destruct (applied tokenize order ast_parse parse_env parse_ast context pass_template G HO HG HGp HA HPa fs s data path parsed e subs sub Hs Hpl HP Hun Hctx Hf Hin)
        as (f & Hff & Hca & K).
      exists f. split; [exact Hff|]. split; [exact Hca|].
      assert (K' : forall codes, incl codes all_codes -> from_codes codes f -> forall reps l txt, replacements sub = Some reps -> In (l, txt) reps ->
        exists oc, In oc codes /\ understood tokenize ast_parse (fst oc) /\ understood tokenize ast_parse (snd oc) /\ lexed (fst oc) /\ lexed (snd oc)
          /\ exists holes p q c occ ms holes' p' t r safe,
            rewritten tokenize order ast_parse parse_env e (source (fst oc)) (source (snd oc)) sub l txt holes p q c occ ms holes' p' t r safe).
      { intros codes Hi (oc & msg & url & cat & sig & Hoc & E) reps l txt Er Hl. pose proof U as U0. unfold understood_all in U0. rewrite Forall_forall in U0.
        destruct (U0 oc (Hi _ Hoc)) as [U1 U2]. pose proof all_lexed as L0. rewrite Forall_forall in L0. destruct (L0 oc (Hi _ Hoc)) as [L1 L2].
        pose proof all_nonempty as N0. rewrite Forall_forall in N0. specialize (N0 oc (Hi _ Hoc)).
        exists oc. do 5 (split; [assumption|]). destruct (has_tokens_of tokenize ast_parse _ U1 L1) as [T1 R1]. destruct (has_tokens_of tokenize ast_parse _ U2 L2) as [T2 _].
        destruct (K _ _ _ _ _ _ E T1 R1 T2 N0 reps l txt Er Hl) as (holes & p & q & c & occ & ms & holes' & p' & t & r & safe & W & _). eauto 20. }
      destruct builtins_from as (A & B & C). rewrite Forall_forall in A, B, C. destruct HP as [_ _ P5 P6 _].
      split.
      - intros Hfu reps l txt Er Hl.
        assert (Hfc : from_codes (alias_codes ++ message_codes ++ negation_codes) f).
        { apply in_app_iff in Hfu as [H|H]; [eapply from_more; [|exact (A f H)]|eapply from_more; [|exact (B f H)]]; intros x Hx; rewrite !in_app_iff; try apply in_app_iff in Hx; tauto. }
        assert (Hi : incl (alias_codes ++ message_codes ++ negation_codes) all_codes).
        { intros x Hx. unfold all_codes. apply in_app_iff in Hx as [Hx|Hx]; [apply in_app_iff; now left|]. apply in_app_iff in Hx as [Hx|Hx].
          - apply in_app_iff. right. apply in_app_iff. now left.
          - apply in_app_iff. right. apply in_app_iff. right. apply in_app_iff. now left. }
        destruct (K' _ Hi Hfc reps l txt Er Hl)
          as ([old new] & Hoc & U1 & U2 & L1 & L2 & holes & p & q & c & occ & ms & holes' & p' & t & r & safe & W). cbn [fst snd] in *.
        exists old, new. split; [exact Hoc|].
        assert (Si : Forall single (alias_codes ++ message_codes ++ negation_codes)) by (rewrite !Forall_app; exact (conj alias_single (conj message_single negation_single))).
        rewrite Forall_forall in Si. destruct (Si _ Hoc) as (N1 & N2 & N3).
        assert (Me : Forall same_meaning (alias_codes ++ message_codes ++ negation_codes)) by (rewrite !Forall_app; exact (conj alias_meaning (conj message_meaning negation_meaning))).
        rewrite Forall_forall in Me. specialize (Me _ Hoc).
        destruct (coded_parts tokenize order ast_parse parse_env parse_ast G HGp HPa e old new sub l txt _ _ _ _ _ _ _ _ _ _ _ U1 L1 U2 L2 P6 Hlx N1 N2 N3 W)
          as (e1 & c1 & parts & parts' & E1 & E2 & E3 & E4 & E5 & _).
        destruct W as (W1 & W2 & (sp & W3 & W3') & _ & _ & _ & _ & _ & _ & W4).
        exists q, c, sp, r, e1, c1, parts, parts'. do 10 (split; [assumption|]). intros. eapply Me; eassumption.
      - intros Hfu reps l txt Er Hl.
        assert (Hi : incl comprehension_codes all_codes) by (unfold all_codes; apply incl_appr, incl_appr, incl_appr, incl_refl).
        destruct (K' comprehension_codes Hi (C f Hfu) reps l txt Er Hl)
          as (oc & Hoc & U1 & U2 & L1 & L2 & holes & p & q & c & occ & ms & holes' & p' & t & r & safe & W).
        destruct (coded tokenize order ast_parse parse_env parse_ast G HGp HPa e (fst oc) (snd oc) sub l txt _ _ _ _ _ _ _ _ _ _ _ U1 L1 U2 L2 P6 Hlx W)
          as (Ek & R1 & e1 & c1 & E1 & E2 & R2).
        destruct W as (W1 & W2 & (sp & W3 & W3') & _ & [_ Al] & (S1 & S2 & S3) & _ & _ & _ & W4).
        assert (Comp : exists (comp : forall A, code A -> code A -> code A -> code A) f, (comp = @ListComp /\ f = TX "list" \/ comp = @SetComp /\ f = TX "set")
          /\ oc = (comp _ (Var (TX "a")) (Var (TX "a")) (Var (TX "b")), Call (Name f) [Var (TX "b")])) by (destruct Hoc as [<-|[<-|[]]]; [exists (@ListComp), (TX "list")|exists (@SetComp), (TX "set")]; auto).
        destruct Comp as (comp & g & Hcomp & ->). cbn [fst snd] in *.
        assert (R1' : exists elt target iter, made_of (comp _ (Var elt) (Var target) (Var iter)) c
          /\ In (TX "a", create_match (e_parsed e) elt) occ /\ In (TX "a", create_match (e_parsed e) target) occ /\ In (TX "b", create_match (e_parsed e) iter) occ
          /\ located_expr elt /\ located_expr target /\ located_expr iter
          /\ PatternSpec.inside (e_tree e) elt /\ PatternSpec.inside (e_tree e) target).
        { assert (Inv : forall R : label -> value -> Prop, stands R (tree_of (comp _ (Var (TX "a")) (Var (TX "a")) (Var (TX "b")))) c ->
            exists elt target iter, R (TX "a") elt /\ R (TX "a") target /\ R (TX "b") iter /\ made_of (comp _ (Var elt) (Var target) (Var iter)) c).
          { intros R H. destruct Hcomp as [[-> _]|[-> _]]; cbn [tree_of] in H; now apply comprehension_parts in H. }
          destruct (Inv _ R1) as (elt & target & iter & (A1 & A2 & A3) & (B1 & B2 & B3) & (C1 & C2 & C3) & M).
          exists elt, target, iter. auto 10. }
        destruct R1' as (elt & target & iter & M & I1 & I2 & I3 & L3 & L4 & L5 & In1 & In2).
        assert (Ek' : map fst occ = [TX "a"; TX "a"; TX "b"]) by (destruct Hcomp as [[-> _]|[-> _]]; exact Ek).
        assert (Si : same_code elt target).
        { assert (Eq : forall x y, located_expr x -> located_expr y -> create_match (e_parsed e) x = create_match (e_parsed e) y -> x = y).
          { intros x y Hx Hy E. destruct (located_match (e_parsed e) x Hx) as (f1 & l1 & Ex & _). destruct (located_match (e_parsed e) y Hy) as (f2 & l2 & Ey & _).
            rewrite Ex, Ey in E. now injection E. }
          assert (Eqv : forall x y, located_expr x -> located_expr y -> PatternSpec.inside (e_tree e) x -> PatternSpec.inside (e_tree e) y ->
            equivalent_code (create_match (e_parsed e) x) (create_match (e_parsed e) y) -> same_code x y).
          { intros x y Hx Hy Ix Iy (x' & y' & Mx & My & E). destruct (located_match (e_parsed e) x Hx) as (f1 & l1 & Ex & _). destruct (located_match (e_parsed e) y Hy) as (f2 & l2 & Ey & _).
            rewrite Ex in Mx. rewrite Ey in My. cbn in Mx, My. injection Mx as <-. injection My as <-.
            apply same_by_id_code. now apply (ast_equivalent_iff G (e_tree e)). }
          destruct occ as [|[k1 m1] [|[k2 m2] [|[k3 m3] [|]]]]; try discriminate Ek'. cbn [map fst] in Ek'. injection Ek' as -> -> ->.
          inversion Al as [|? ? F1 _]; subst. inversion F1 as [|? ? F2 _]; subst. specialize (F2 eq_refl). cbn [snd] in F2.
          assert (Na : TX "b" <> TX "a") by discriminate.
          destruct I1 as [I1|[I1|[I1|[]]]], I2 as [I2|[I2|[I2|[]]]]; try (exfalso; exact (Na (f_equal fst I1))); try (exfalso; exact (Na (f_equal fst I2)));
            apply (f_equal snd) in I1, I2; cbn [snd] in I1, I2; subst.
          - rewrite (Eq target elt L4 L3) by congruence. apply same_code_refl.
          - now apply Eqv.
          - apply same_code_sym. now apply Eqv.
          - rewrite (Eq target elt L4 L3) by congruence. apply same_code_refl. }
        assert (R2' : exists iter', made_of (Call (Name g) [Var iter']) c1 /\ same_code iter iter').
        { assert (Hb : bound_expr ms (TX "b") = Some iter).
          { unfold bound_expr. rewrite (S3 (TX "b")) by discriminate. destruct (located_match (e_parsed e) iter L5) as (f1 & l1 & Ei & Ee).
            destruct occ as [|[k1 m1] [|[k2 m2] [|[k3 m3] [|]]]]; try discriminate Ek'. cbn [map fst] in Ek'. injection Ek' as -> -> ->.
            destruct I3 as [I3|[I3|[I3|[]]]]; try discriminate I3. injection I3 as ->. change (last_occ (TX "b") _) with (Some (create_match (e_parsed e) iter)).
            rewrite Ei, Ee. reflexivity. }
          destruct (reads_parts _ (Call (Name g) [Var (TX "b")]) _ ltac:(constructor; [intros []|constructor]) R2) as (parts & Q1 & Q2).
          exists (parts (TX "b")). split; [exact Q2|]. apply Q1; [now left|exact Hb]. }
        destruct R2' as (iter' & M' & Si').
        exists q, c, sp, r, e1, c1, elt, target, iter, iter', (comp value), g. do 7 (split; [assumption|]). split; [destruct Hcomp as [[-> ->]|[-> ->]]; auto|]. do 3 (split; [assumption|]). split; [exact Si'|].
        intros n St Exn Val P L Ht Hsame s0.
        assert (Hn : is_name elt n) by (eapply same_code_name; [apply same_code_sym; exact Si|exact Ht]).
        enough (E : exec P c s0 = exec P c1 s0) by (rewrite E; split; [reflexivity|now left]).
        destruct Hcomp as [[-> ->]|[-> ->]].
        + rewrite (law_list_comp P L n elt target iter c Hn Ht M s0), (law_list P L iter' c1 M' s0). unfold next. now rewrite Hsame.
        + rewrite (law_set_comp P L n elt target iter c Hn Ht M s0), (law_set P L iter' c1 M' s0). unfold next. now rewrite Hsame.
    Qed.
  End Search.
End Main.
