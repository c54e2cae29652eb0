(** The built-in fixers miss no place: proofs. *)
From Verif Require Import TemplateProofs Py PyFacts Subst ApplySpec Ast Template FromDiff Matcher MatchSpec MergeSpec MergeProofs MatcherProofs BindProofs OnceProofs FindSpec FindProofs
  FilterSpec NavSpec NavProofs CollSpec CollProofs PatTok PatSpec Pattern PatternSpec EquivProofs PatternProofs PatternApi
  PyTemplate PyTemplateSpec PyTemplateProofs Search SearchSpec Removal OwnSpec
  PropsTemplate ExprSubSpec ExprSubProofs PropsExprSub Fixer FixerSpec FixerProofs PyCode BuiltinFixers BuiltinSpec CodeProofs BuiltinProofs BuiltinApply BuiltinTables BuiltinMain
  CorrectnessFixers CorrectnessSpec CorrectnessProofs CorrectnessMain CorrectnessSearch ThoroughSpec ThoroughCode ThoroughProofs ThoroughSearch.
From Coq Require Import Permutation.

(** *** The matchers around a pattern *)
Lemma answers_import e m module name : answers e m -> answers e (MWithTopLevelImport m module name).
Proof.
  intros H d c s Ic. cbn [eval]. destruct (dget _ module) as [n|]; [|now left]. destruct (text_eqb n name); [now apply H|now left].
Qed.
Lemma answers_closed e m : answers e m -> answers e (MAllOf [m; MMatchesRegex (dollar unopened) MAnything]).
Proof.
  intros H d c s Ic.
  change (eval (with_done e d) (MAllOf [m; MMatchesRegex (dollar unopened) MAnything]) c s) with (accumulating (with_done e d) c [eval (with_done e d) m c; eval (with_done e d) (MMatchesRegex (dollar unopened) MAnything) c] s).
  destruct (H d c s Ic) as [E|(b & E & Db)].
  - left. unfold accumulating. cbn [accumulate]. unfold mbind at 1 2. rewrite E. reflexivity.
  - assert (K : accumulating (with_done e d) c [eval (with_done e d) m c; eval (with_done e d) (MMatchesRegex (dollar unopened) MAnything) c] s
      = (s, Ok (match m_span (create_match (e_parsed e) c) with
                | Some (a, z) => match cr_match (dollar unopened) (pf_text (e_parsed e)) a z with
                                 | Some _ => Some (RInfo (create_match (e_parsed e) c) (Some b) [])
                                 | None => None end
                | None => None end))).
    { unfold accumulating. cbn [accumulate]. unfold mbind at 1 2. rewrite E.
      unfold mbind at 1 2 3 4 5, lift at 1 2 3 4 5. cbn [r_bindings r_reps bind not_none]. rewrite merge_bindings_nil.
      change (merge_replacements [] []) with (@Ok (dict template) []). cbn iota beta.
      unfold mbind at 1. rewrite regex_on_code by reflexivity. change (e_parsed (with_done e d)) with (e_parsed e).
      destruct (m_span _) as [[a z]|]; [|reflexivity]. destruct (cr_match _ _ a z); [|reflexivity].
      unfold mbind, lift, ret. cbn [r_bindings r_reps bind not_none]. rewrite merge_bindings_nil_r. reflexivity. }
    rewrite K. destruct (m_span _) as [[a z]|]; [|now left]. destruct (cr_match _ _ a z); [|now left]. right. exists b. auto.
Qed.

Section Main.
  Variable tokenize : text -> res (list ptok).
  Variable order : list nat -> list nat.
  Variable ast_parse : text -> res value.
  Variable parse_env : text -> res env.
  Variable G : grammar.
  Hypothesis HO : forall l, Permutation (order l) l.
  Hypothesis HG : proper G.
  Hypothesis HGp : python_grammar G.
  Hypothesis HGc : call_grammar G.
  Hypothesis HA : python_ast G ast_parse.
  Hypothesis HE : parses_evaluated ast_parse.

  Variable e : env.
  Hypothesis PT : parsed_tree G (e_tree e).
  Hypothesis HW : well_positioned e.

  Definition sure (f : fixer) (Q : value -> Prop) : Prop := reliable e f /\ spots e f Q.

  (** What reads as the pattern, in these circumstances. *)
  Definition stands_out (co : code label) (P : label -> value -> Prop) (W : value -> Prop) (c : value) : Prop :=
    W c /\ (exposed (tree_of co) = true -> evaluated c)
    /\ exists R : label -> value -> Prop, stands R (tree_of co) c /\ (forall x w, R x w -> PatternSpec.inside (e_tree e) w -> P x w)
       /\ (forall occ, map fst occ = left_open co -> Forall (found_part e R) occ -> alike occ).

  Lemma catch co restrictions (P : label -> value -> Prop) (wrap : matcher -> matcher) (W : value -> Prop) m new t msg url cat sig :
    understood tokenize ast_parse co -> lexed co -> exposed_ok (tree_of co) = true ->
    (forall l, In l meta_labels -> ~ In l (left_open co)) -> ~ In [] [new; msg; url; cat] ->
    expr_pattern tokenize order ast_parse (source co) restrictions = Ok m ->
    python_expr_template tokenize order ast_parse new = Ok t ->
    (forall x r, dget restrictions x = Some r -> decides r (P x) /\ plain_matcher [] r) -> (forall x v, dget restrictions x = None -> P x v) ->
    (forall L m, plain_matcher L m -> plain_matcher L (wrap m)) -> (forall m, answers e m -> answers e (wrap m)) ->
    (forall holes p Cond m, accepts e holes p Cond m -> accepts e holes p (fun c occ => Cond c occ /\ W c) (wrap m)) ->
    sure (Fixer (wrap m) (inl (as_template tokenize order ast_parse parse_env t)) (Some msg) (Some url) (Some cat) sig) (stands_out co P W).
  Proof.
    intros U L Hx Nm Ne Hm Ht HR HN Hpl Han Hac.
    destruct (has_tokens_of tokenize ast_parse _ U L) as [T _].
    destruct (restricted_pattern tokenize order ast_parse G HO HG HGp HA co restrictions P m U L (fun x r Hx => proj1 (HR x r Hx)) HN Hm) as (holes & p & Tr & Hp & Na).
    destruct (Na e PT) as (_ & Ac & An). clear Na.
    assert (Es : py_source t = new).
    { unfold python_expr_template, make_template in Ht. clear - Ht. repeat (apply bind_Ok in Ht as (? & _ & Ht)). now injection Ht as <-. }
    assert (K : plain_matcher (left_open co) (wrap m)).
    { apply Hpl. rewrite <- (lx_vars _ L). eapply restricted_plain; [exact HO|exact T|intros x r Hxr; exact (proj2 (HR x r Hxr))|exact Hm|].
      rewrite (lx_newline _ L). cbn [negb]. apply (un_tokens _ _ _ U). }
    destruct K as (K1 & K2 & K3 & K4).
    assert (Rl : reliable e (Fixer (wrap m) (inl (as_template tokenize order ast_parse parse_env t)) (Some msg) (Some url) (Some cat) sig)).
    { constructor; cbn [fx_matcher fx_replacement fx_message fx_url fx_category].
      - constructor; cbn [fx_matcher fx_replacement]; auto. intros l Hl Hb. apply (Nm l Hl). now apply K4.
      - intros Hr. apply K4 in Hr. apply tmem_In in Hr. pose proof (lx_root co L) as Lr. change ROOT_LABEL with (TX "__root") in Hr. congruence.
      - auto.
      - cbn [as_template t_template]. rewrite Es. intros ->. apply Ne. now left.
      - intros x Hin ->. apply Ne. destruct Hin as [E|[E|[E|[]]]]; injection E as ->; cbn; auto. }
    split; [exact Rl|]. intros mm d c s Hmm Ic (HWc & Hev & R & Hst & HRP & Hal).
    destruct (pattern_occurs tokenize ast_parse G HGp HA HE co P R holes p e c U L Hx Tr (wp_located _ HW) (wp_evaluated _ HW) Ic Hev Hst HRP Hal) as (occ & O & Sa).
    destruct (Hac _ _ _ _ Ac d c s occ Ic O (conj Sa HWc)) as (b & E).
    destruct (rl_answers _ _ Rl d c s Ic) as [E'|(b' & E' & Db)]; cbn [fx_matcher] in E'; [congruence|].
    destruct (with_root (with_done e d) _ mm c s _ b' (rl_plain _ _ Rl) (rl_root _ _ Rl) Hmm E' Db) as (b'' & E'' & _). eauto.
  Qed.
  Lemma sure_of f (Q Q' : value -> Prop) : (forall c, PatternSpec.inside (e_tree e) c -> Q' c -> Q c) -> sure f Q -> sure f Q'.
  Proof. intros H [A B]. split; [exact A|]. intros m d c s Hm Ic HQ. apply (B m d c s Hm Ic). auto. Qed.

  (** *** The correctness fixers made of one pattern *)
  Lemma catch_entry en restrictions (P : label -> value -> Prop) (wrap : matcher -> matcher) (W : value -> Prop) mm url f :
    understood tokenize ast_parse (en_old en) -> lexed (en_old en) -> NoDup (left_open (en_old en)) ->
    (forall l, In l meta_labels -> ~ In l (left_open (en_old en))) ->
    exposed_ok (tree_of (en_old en)) = true -> exposed (tree_of (en_old en)) = false -> ~ In [] [source (en_new en); en_message en; url; en_category en] ->
    mm = (do m <- pattern tokenize order ast_parse (source (en_old en)) restrictions; Ok (wrap m)) ->
    (forall x r, dget restrictions x = Some r -> decides r (P x) /\ plain_matcher [] r) -> (forall x v, dget restrictions x = None -> P x v) ->
    (forall L m, plain_matcher L m -> plain_matcher L (wrap m)) -> (forall m, answers e m -> answers e (wrap m)) ->
    (forall holes p Cond m, accepts e holes p Cond m -> accepts e holes p (fun c occ => Cond c occ /\ W c) (wrap m)) ->
    (forall c parts, en_when en e c parts -> W c /\ forall x, PatternSpec.inside (e_tree e) (parts x) -> P x (parts x)) ->
    python_fixer tokenize order ast_parse parse_env mm (source (en_new en)) (en_message en) url (en_category en) = Ok f -> sure f (bug en e).
  Proof.
    intros U L Nd Nm Hx Hx' Ne -> HR HN Hpl Han Hac Hwhen H. unfold python_fixer in H. apply bind_Ok in H as (m' & Hm & H). apply bind_Ok in H as (t & Ht & H). injection H as <-.
    apply bind_Ok in Hm as (m & Hm & Ew). injection Ew as <-.
    eapply sure_of; [|eapply (catch _ _ P wrap W); eassumption].
    intros c Ic (parts & M & Hw). destruct (Hwhen c parts Hw) as [W1 W2]. split; [exact W1|]. split; [congruence|].
    exists (fun x w => parts x = w). split; [now apply filled_reads|]. split; [intros x w <-; auto|]. intros occ. now apply distinct_alike.
  Qed.
  Hypothesis U : Forall (fun oc => understood tokenize ast_parse (fst oc) /\ understood tokenize ast_parse (snd oc)) entry_codes.
  Lemma entry_caught : Forall2 (fun en r => forall f, r = Ok f -> sure f (bug en e)) entries (fixer_list tokenize order ast_parse parse_env).
  Proof.
    assert (F : forall en, In en entries -> understood tokenize ast_parse (en_old en) /\ lexed (en_old en) /\ NoDup (left_open (en_old en)) /\ (forall l, In l meta_labels -> ~ In l (left_open (en_old en)))).
    { intros en Hin. destruct (entry_facts tokenize ast_parse U en Hin) as (A & B & C). do 2 (split; [assumption|]). split; [|exact C].
      apply (in_map (fun en => (en_old en, en_new en))) in Hin. pose proof entry_single as S0. rewrite Forall_forall in S0. apply (S0 _ Hin). }
    unfold entries at 1 in F. cbn [In] in F.
    unfold entries, fixer_list.
    assert (Lit : forall c parts, with_literal e c parts -> True /\ forall x, PatternSpec.inside (e_tree e) (parts x) -> x = TX "rhs" -> literally (parts x)).
    { intros c parts H. split; [exact I|]. intros x Ix ->. apply (literally_literal G); [|exact H]. eapply conforms_inside; [apply (pt_conforms _ _ PT)|exact Ix]. }
    assert (Lr : forall x r, dget [(TX "rhs", literal)] x = Some r -> decides r (fun v => x = TX "rhs" -> literally v) /\ plain_matcher [] r).
    { intros x r. cbn [dget]. destruct (text_eqb_spec (TX "rhs") x) as [<-|]; [|discriminate]. intros [= <-]. split; [|exact plain_literal].
      eapply decides_more; [|exact decides_literal]. intros c. tauto. }
    assert (Ln : forall x v, dget [(TX "rhs", literal)] x = None -> x = TX "rhs" -> literally v).
    { intros x v H ->. discriminate H. }
    assert (Tr : forall holes p Cond m, accepts e holes p Cond m -> accepts e holes p (fun c occ => Cond c occ /\ True) m).
    { intros holes p Cond m H d c s occ Ic O [HC _]. now apply (H d c s occ). }
    assert (Yi : forall holes p Cond m, accepts e holes p Cond m ->
      accepts e holes p (fun c occ => Cond c occ /\ imports e (TX "yaml") (TX "yaml")) (MWithTopLevelImport m (TX "yaml") (TX "yaml"))).
    { intros holes p Cond m H d c s occ Ic O [HC Hi]. apply (accepts_import e holes p Cond m _ _ H d c s occ Ic O). split; [exact HC|]. split; [exact Hi|]. exact (wp_imports _ HW). }
    constructor; [|constructor; [|constructor; [|constructor; [|constructor; [|constructor; [|constructor; [|constructor]]]]]]]; intros f Hf;
      match goal with |- sure _ (bug ?en _) => destruct (F en) as (F1 & F2 & F3 & F4); [tauto|] end.
    - eapply (catch_entry _ [(TX "rhs", literal)] (fun x v => x = TX "rhs" -> literally v) (fun m => m) (fun _ => True)); try eassumption; try reflexivity; auto.
      + intros H. repeat (destruct H as [H|H]; [discriminate H|]). destruct H.
      + apply with_id.
    - eapply (catch_entry _ [(TX "rhs", literal)] (fun x v => x = TX "rhs" -> literally v) (fun m => m) (fun _ => True)); try eassumption; try reflexivity; auto.
      + intros H. repeat (destruct H as [H|H]; [discriminate H|]). destruct H.
      + apply with_id.
    - eapply (catch_entry _ [] (fun x v => True) (fun m => MWithTopLevelImport m (TX "yaml") (TX "yaml")) (fun _ => imports e (TX "yaml") (TX "yaml"))); try eassumption; try reflexivity; auto.
      + intros H. repeat (destruct H as [H|H]; [discriminate H|]). destruct H.
      + discriminate.
      + intros m. apply answers_import.
    - eapply (catch_entry _ [] (fun x v => True) (fun m => MWithTopLevelImport m (TX "yaml") (TX "yaml")) (fun _ => imports e (TX "yaml") (TX "yaml"))); try eassumption; try reflexivity; auto.
      + intros H. repeat (destruct H as [H|H]; [discriminate H|]). destruct H.
      + discriminate.
      + intros m. apply answers_import.
    - eapply (catch_entry _ [(TX "a", string_literal); (TX "b", MAllOf [MAnyOf [any_attribute; any_name]])]
        (fun x v => (x = TX "a" -> stringy v) /\ (x = TX "b" -> is_variable_or_attribute v))
        (fun m => MAllOf [m; MMatchesRegex (dollar unopened) MAnything]) (fun c => looks_closed_only e c)); try eassumption; try reflexivity; auto.
      + intros H. repeat (destruct H as [H|H]; [discriminate H|]). destruct H.
      + intros x r. cbn [dget]. destruct (text_eqb_spec (TX "a") x) as [<-|Na].
        * intros [= <-]. split; [|exact plain_string]. eapply decides_more; [|exact decides_string]. intros c. split; [intros H; split; [tauto|discriminate]|tauto].
        * destruct (text_eqb_spec (TX "b") x) as [<-|Nb]; [|discriminate]. intros [= <-]. split; [|exact plain_variable].
          eapply decides_more; [|exact decides_variable]. intros c. split; [intros H; split; [discriminate|tauto]|tauto].
      + intros x v H. split; intros ->; discriminate H.
      + intros L m. apply plain_closed.
      + intros m. apply answers_closed.
      + intros holes p Cond m H. apply accepts_closed; [exact (wp_spans _ HW)|exact H].
      + cbn [en_when]. unfold superfluous_parentheses. intros c parts (H1 & H2 & H3). split; [exact H3|]. intros x Ix. split; intros ->; [|exact H2].
        apply (stringy_literal G); [|exact H1]. eapply conforms_inside; [apply (pt_conforms _ _ PT)|exact Ix].
    - eapply (catch_entry _ [] (fun x v => True) (fun m => m) (fun _ => True)); try eassumption; try reflexivity; auto.
      + intros H. repeat (destruct H as [H|H]; [discriminate H|]). destruct H.
      + apply with_id.
      + discriminate.
    - eapply (catch_entry _ [] (fun x v => True) (fun m => m) (fun _ => True)); try eassumption; try reflexivity; auto.
      + intros H. repeat (destruct H as [H|H]; [discriminate H|]). destruct H.
      + apply with_id.
      + discriminate.
  Qed.
End Main.
