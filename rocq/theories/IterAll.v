(** Proofs for C80: the default fixers, iterated. *)
From Verif Require Import TemplateProofs Py PyFacts Regex Subst ApplySpec Ast Template FromDiff Matcher MatchSpec MatcherProofs FindSpec FindProofs
  FilterSpec NavSpec NavProofs PatTok PatSpec Pattern PatternSpec EquivProofs PatternProofs PatternApi
  PyTemplate PyTemplateSpec PyTemplateProofs Search SearchSpec Removal OwnSpec SampleTrees PropsPattern
  PropsTemplate ExprSubSpec ExprSubProofs PropsExprSub Fixer FixerSpec FixerProofs PyCode BuiltinFixers BuiltinSpec
  CorrectnessFixers CorrectnessSpec ThoroughSpec ThoroughSearch ThoroughTables IdiomFixers IdiomSpec LoggingSpec LoggingExcSpec AllSpec AllProofs
  PragmaProofs IterSpec IterProofs.
From Coq Require Import Permutation.

(** *** The simple node is in the file *)
Lemma parent_inside tree v p : get_parent tree v = Some p -> PatternSpec.inside tree p.
Proof.
  unfold get_parent, get_breadcrumb. intros H.
  assert (K : forall m k b, crumb_get m k = Some b -> In (k, Some b) m).
  { clear. induction m as [|[k' b'] m IH]; intros k b H; [discriminate H|]. cbn in H. destruct (Z.eqb_spec k' k) as [->|N]; [subst b'; now left|right; auto]. }
  destruct (crumb_get _ _) as [[p' c]|] eqn:E; [|discriminate H]. injection H as ->. apply K in E. apply (proj1 (breadcrumb_In _ _)) in E as [E|(q & par & i & x & c' & H1 & _ & _ & _ & E)]; [discriminate E|].
  injection E as _ -> _. now exists q.
Qed.
Lemma simple_inside tree n : forall v last r, simple_loop n tree last v = Ok (Some r) -> PatternSpec.inside tree v ->
  (forall x, last = Some x -> PatternSpec.inside tree x) -> PatternSpec.inside tree r.
Proof.
  induction n as [|n IH]; intros v last r H Hv Hl; [discriminate H|]. cbn [simple_loop] in H. destruct (has_field v (TX "body")); [injection H as ->; auto|].
  destruct (get_parent tree v) as [p|] eqn:Ep; [|discriminate H]. apply parent_inside in Ep. apply IH in H; auto. destruct (is_list v); [exact Hl|]. intros x [= <-]. exact Hv.
Qed.
Lemma create_match_lex parsed v w t f l a b : create_match parsed v = PLex w t f l a b -> w = v.
Proof.
  unfold create_match. destruct (lexical_tokens v) as [[f' l']|]; [now intros [= -> _]|]. destruct v as [| |i [| | | |]]; discriminate.
Qed.
(** The tokens of the nodes are counted from the start of the file. *)
Definition counted (e : env) : Prop := forall n f, PatternSpec.inside (e_tree e) n -> first_token n = Ok f -> 0 <= tk_start f.
Lemma key_counted tree parsed v mb k a : counted k -> e_tree k = tree -> PatternSpec.inside tree v -> dget mb ROOT_LABEL = Some (create_match parsed v) ->
  key_span_for_dict tree mb = Ok (Some a) -> 0 <= fst a.
Proof.
  intros HC <- Hv Hr H. unfold key_span_for_dict in H. rewrite Hr in H. destruct (create_match parsed v) as [| | | |w t f l x y] eqn:E; try discriminate H.
  apply create_match_lex in E as ->. apply bind_Ok in H as (simple & H1 & H). destruct simple as [n|]; [|discriminate H].
  apply bind_Ok in H as (f' & H2 & H). apply bind_Ok in H as (l' & H3 & H). injection H as <-. cbn [fst]. apply (HC n); [|exact H2].
  unfold get_simple_node in H1. eapply simple_inside; [exact H1|exact Hv|discriminate].
Qed.
(** The keys of what is found. *)
Lemma keys_counted parse_ast context pass_template fs s parsed info e subs sub a b :
  combining_fixer parse_ast context pass_template fs = Ok s -> Forall plain_fixer fs -> (forall g, In g fs -> decisive e g) ->
  pf_py parsed = Some info -> e = context parsed info -> e_parsed e = parsed -> py_tree info = e_tree e -> counted e ->
  s_find s parsed = Ok subs -> In sub subs -> key_span sub = Some (a, b) -> 0 <= a.
Proof.
  intros Hc HP HD P2 P3 P5 PT HC Hs Hin Hk. destruct (combined_finds _ _ _ _ _ _ _ Hc HP Hs) as (info' & ms & hs & Ei & Hms & Hfd & Hmade).
  rewrite P2 in Ei. injection Ei as <-. rewrite <- P3 in *.
  assert (K : exists h g mb ts, In h hs /\ by_fixer pass_template e fs h g mb ts /\ describes parsed (key_span_for_dict (py_tree info)) mb ts sub).
  { clear - Hmade Hin. induction Hmade as [|h0 hs subs Hs H IH|h0 hs sub0 subs Hm H IH]; [destruct Hin| |].
    - destruct (IH Hin) as (h & g & mb & ts & A & B). exists h, g, mb, ts. split; [now right|exact B].
    - destruct Hin as [->|Hin]; [|destruct (IH Hin) as (h & g & mb & ts & A & B); exists h, g, mb, ts; split; [now right|exact B] ].
      destruct Hm as (g & mb & ts & A & B & _). exists h0, g, mb, ts. split; [now left|auto]. }
  destruct K as (h & g & mb & ts & Hh & ((d & Hff) & (Dmb & bd & Eb & Hmb) & Hts) & Hde).
  pose proof Hh as Hh'. apply in_split in Hh' as (h1 & h2 & Eh). destruct (fd_match _ _ _ Hfd h1 h h2 Eh) as [Hat' _].
  destruct (first_fixer_matches _ _ _ _ _ _ _ Hff) as [Hg (s1 & m0 & Hm0 & He)]. destruct (HD g Hg) as [Hd Hn].
  assert (Rt : dget mb (TX "__root") = Some (create_match (e_parsed e) (h_value h))).
  { destruct (Hd m0 d (h_value h) s1 Hm0 (ex_intro _ _ Hat')) as (s' & o & E & Rt). rewrite He in E. injection E as <- <-.
    destruct (Hmb (TX "__root")) as [E|(v & txt & f1 & l1 & a1 & b1 & f2 & l2 & a2 & b2 & t & E1 & E2 & _)]; [|exfalso; exact (Hn _ _ E1 E2)].
    rewrite E. apply (Rt (h_result h)); auto. }
  destruct Hde as (_ & _ & _ & _ & _ & _ & _ & Hkey). rewrite Hk in Hkey.
  exact (key_counted (py_tree info) (e_parsed e) (h_value h) mb e (a, b) HC (eq_sym PT) ltac:(rewrite PT; now exists (h_path h)) Rt Hkey).
Qed.

(** A searcher that leaves some of the findings out. *)
Lemma justified_fewer ok parse_ast s s' path : s_parse s' = s_parse s ->
  (forall parsed subs', s_find s' parsed = Ok subs' -> exists subs, s_find s parsed = Ok subs /\ (Forall wf_sub subs -> incl subs' subs)) ->
  justified ok parse_ast s path -> justified ok parse_ast s' path.
Proof.
  intros Ep Hf J t parsed subs' Hp Hs. rewrite Ep in Hp. destruct (Hf _ _ Hs) as (subs & Hs0 & Hi). destruct (J t parsed subs Hp Hs0) as (J1 & J2 & J3 & J4 & J5). specialize (Hi J3).
  split; [exact J1|]. split; [exact J2|]. split; [rewrite Forall_forall in *; auto|]. split; [intros x a b Hx; apply J4; auto|intros x e Hx; apply J5; auto].
Qed.
Lemma justified_suppressed ok parse_ast s path : justified ok parse_ast s path -> justified ok parse_ast (pragma_suppressed s) path.
Proof.
  apply justified_fewer; [reflexivity|]. intros parsed subs' H. pose proof H as H0. cbn [s_find pragma_suppressed] in H. apply bind_Ok in H as (subs & Hs & _). exists subs. split; [exact Hs|].
  intros W. destruct (pragma_suppressed_spec s parsed subs Hs) as (keep & E & _).
  - eapply Forall_impl; [|exact W]. intros x (D & _ & V). now split.
  - rewrite H0 in E. injection E as ->. apply incl_filter.
Qed.

(** An edit that one of the default fixers proposes for the text [t]. *)
Definition proposed tokenize order ast_parse parse_env decimal G parse_ast context (s : searcher) (path : text) (t : text) (ed : edit) : Prop :=
  let '(txt, a, b) := ed in
  exists parsed e subs sub l, python_file tokenize G parse_ast context t path parsed e /\ s_find s parsed = Ok subs /\ In sub subs
    /\ In (l, (a, b)) (matched_spans sub) /\ explained tokenize order ast_parse parse_env decimal e sub l txt.
(** A parser of Python files. *)
Definition file_parser tokenize G (parse_ast : text -> text -> res parsed_file) context (path : text) : Prop :=
  forall t parsed, parse_ast t path = Ok parsed -> exists e, python_file tokenize G parse_ast context t path parsed e /\ counted e
    /\ pf_text parsed = t /\ pf_path parsed = path.

Section All.
  Variable tokenize : text -> res (list ptok).
  Variable order : list nat -> list nat.
  Variable ast_parse : text -> res value.
  Variable parse_env : text -> res env.
  Variable decimal : Z -> bool.
  Variable G : grammar.
  Hypothesis I : interpreter tokenize order ast_parse parse_env G.
  Variable cf idf uf : list fixer.
  Hypothesis Hcf : correctness_fixers tokenize order ast_parse parse_env = Ok cf.
  Hypothesis Hid : idiom_fixers tokenize order ast_parse parse_env decimal = Ok idf.
  Hypothesis Huf : unittest_fixers tokenize order ast_parse parse_env = Ok uf.
  Variable parse_ast : text -> text -> res parsed_file.
  Variable context : parsed_file -> pyinfo -> env.
  Variable pass_template : template.
  Variable path : text.
  Hypothesis HP : file_parser tokenize G parse_ast context path.
  Lemma all_justified fs s : incl fs (cf ++ idf ++ uf) -> combining_fixer parse_ast context pass_template fs = Ok s ->
    justified (proposed tokenize order ast_parse parse_env decimal G parse_ast context s path) parse_ast s path.
  Proof.
    intros Hi Hc t parsed subs Hp Hf.
    destruct (idioms_split tokenize order ast_parse parse_env decimal idf Hid) as (nf & mf & kf & fe & fx & Hn & Hm & Hk & He & Hx & Eid).
    rewrite Eid in Hi.
    assert (Hp' : parse_ast t path = Ok parsed).
    { destruct Hp as [Hp|Hp]; [|exact Hp]. pose proof Hc as Hc'. unfold combining_fixer in Hc'. apply bind_Ok in Hc' as (ms & _ & Hc').
      match type of Hc' with (if ?c then _ else _) = _ => destruct c; [|discriminate Hc'] end. injection Hc' as <-.
      cbn [s_parse file_regex_filtered python_searcher] in Hp. unfold python_parse in Hp. destruct (parse_ast t path) as [p|[]]; try discriminate Hp. exact Hp. }
    destruct (HP t parsed Hp') as (e & HF & HC & Et & Epath). split; [exact Et|]. split; [exact Epath|].
    assert (Hd : forall f, In f fs -> plain_fixer f /\ decisive e f).
    { intros f Hin. apply (everyone_decisive tokenize order ast_parse parse_env decimal G I cf uf Hcf Huf nf mf kf fe fx Hn Hm Hk He Hx parse_ast context t path parsed e HF). exact (Hi f Hin). }
    assert (Pl : Forall plain_fixer fs) by (apply Forall_forall; intros f Hin; now apply Hd).
    pose proof (combined_wf _ _ _ _ _ _ _ Hc Pl Hf) as W. split; [exact W|].
    pose proof HF as [F1 F2 F3 F4 F5]. destruct (ps_python _ _ _ _ _ _ _ F1) as (info & P1 & P2 & P3).
    split.
    - intros x a b Hx0 Hk0. apply (keys_counted parse_ast context pass_template fs s parsed info e subs x a b); auto; [intros g Hg; now apply Hd|exact (ps_env _ _ _ _ _ _ _ F1)].
    - intros sub [[txt a] b] Hin Hed. unfold edits_of in Hed. apply in_flat_map in Hed as ([l [a' b'] ] & Hl & Hed). destruct (replacements sub) as [r|] eqn:Er; [|destruct Hed].
      destruct (dget r l) as [t'|] eqn:El; [|destruct Hed]. destruct Hed as [[= -> -> ->]|[]].
      pose proof (all_sound tokenize order ast_parse parse_env decimal G I cf uf Hcf Huf nf mf kf fe fx Hn Hm Hk He Hx parse_ast context pass_template t path parsed e HF fs Hi s Hc subs Hf
        sub r l txt Hin Er (dget_In _ _ _ El)) as S.
      destruct (explained_at _ _ _ _ _ _ _ _ _ S) as (c & sp & I1 & I2 & I3).
      rewrite Forall_forall in W. destruct (W _ Hin) as (D1 & _ & _).
      assert (E : sp = (a, b)) by (pose proof (In_dget _ _ _ D1 Hl) as K1; pose proof (In_dget _ _ _ D1 I3) as K2; rewrite K1 in K2; now injection K2).
      subst sp. split; [exact (proj1 (wp_spans _ F4 _ _ _ I1 I2))|]. cbn [proposed]. exists parsed, e, subs, sub, l. auto 6.
  Qed.
End All.
