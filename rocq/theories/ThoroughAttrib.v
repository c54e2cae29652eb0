(** The defaults of [attr.ib]: no call is missed; proofs. *)
From Verif Require Import TemplateProofs Py PyFacts Subst ApplySpec Ast Template FromDiff Matcher MatchSpec MergeSpec MergeProofs MatcherProofs BindProofs OnceProofs FindSpec FindProofs
  FilterSpec NavSpec NavProofs CollSpec CollProofs PatTok PatSpec Pattern PatternSpec EquivProofs PatternProofs PatternApi
  PyTemplate PyTemplateSpec PyTemplateProofs Search SearchSpec Removal OwnSpec
  PropsTemplate ExprSubSpec ExprSubProofs PropsExprSub Fixer FixerSpec FixerProofs PyCode BuiltinFixers BuiltinSpec CodeProofs BuiltinProofs BuiltinApply BuiltinTables BuiltinMain
  CorrectnessFixers CorrectnessSpec CorrectnessProofs CorrectnessMain CorrectnessSearch ThoroughSpec ThoroughCode ThoroughProofs ThoroughSearch ThoroughMain.
From Coq Require Import Permutation.

Lemma accumulate_stops a acts b t s : a s = (s, Ok None) -> accumulate (a :: acts) b t s = (s, Ok None).
Proof. intros E. cbn [accumulate]. unfold mbind at 1. rewrite E. reflexivity. Qed.
Lemma accumulate_goes_on a acts b s rm : a s = (s, Ok (Some (RInfo rm (Some []) []))) -> accumulate (a :: acts) b [] s = accumulate acts b [] s.
Proof.
  intros E. cbn [accumulate]. unfold mbind at 1. rewrite E. unfold mbind at 1 2 3, lift at 1 2 3. cbn [r_bindings bind not_none]. rewrite merge_bindings_nil_r.
  reflexivity.
Qed.
Lemma accumulate_last (a : outcome) s rm b : a s = (s, Ok (Some (RInfo rm (Some b) []))) -> accumulate [a] [] [] s = (s, Ok (Some (b, []))).
Proof.
  intros E. cbn [accumulate]. unfold mbind at 1. rewrite E. unfold mbind at 1 2 3, lift at 1 2 3. cbn [r_bindings bind not_none]. rewrite merge_bindings_nil.
  reflexivity.
Qed.

Section Attrib.
  Variables (e : env) (f v : matcher) (Pf Pv : value -> Prop).
  Definition quiet (m : matcher) : Prop :=
    forall d c s, PatternSpec.inside (e_tree e) c -> eval (with_done e d) m c s = (s, Ok None) \/ exists rm, eval (with_done e d) m c s = (s, Ok (Some (RInfo rm (Some []) []))).
  Definition hits (m : matcher) (Q : value -> Prop) : Prop :=
    forall d c s, PatternSpec.inside (e_tree e) c -> Q c -> exists rm, eval (with_done e d) m c s = (s, Ok (Some (RInfo rm (Some []) []))).
  Hypothesis Hf : quiet f.
  Hypothesis Hv : quiet v.
  Hypothesis Kf : hits f Pf.
  Hypothesis Kv : hits v Pv.
  Variable G : grammar.
  Hypothesis HC : call_grammar G.
  Hypothesis PT : parsed_tree G (e_tree e).

  Lemma keyword_unfold d kw s : eval (with_done e d) (keyword_matcher v) kw s
    = if text_eqb (vtype kw) (TX "keyword")
      then accumulating (with_done e d) kw [eval (with_done e d) (MEquals (VConst 0 (CStr (TX "default")))) (vfield kw (TX "arg")); eval (with_done e d) v (vfield kw (TX "value"))] s
      else (s, Ok None).
  Proof. unfold keyword_matcher. cbn [eval]. destruct (text_eqb (vtype kw) (TX "keyword")); reflexivity. Qed.
  Lemma equals_calm d k w s : eval (with_done e d) (MEquals k) w s = (s, Ok None) \/ exists rm, eval (with_done e d) (MEquals k) w s = (s, Ok (Some (RInfo rm (Some []) []))).
  Proof. cbn [eval]. destruct (py_eq w k); [right; eexists; reflexivity|now left]. Qed.
  Lemma keyword_quiet d kw s : (vtype kw = TX "keyword" -> PatternSpec.inside (e_tree e) kw) ->
    eval (with_done e d) (keyword_matcher v) kw s = (s, Ok None)
    \/ eval (with_done e d) (keyword_matcher v) kw s = (s, Ok (Some (RInfo (create_match (e_parsed e) kw) (Some []) []))).
  Proof.
    intros Ik. rewrite keyword_unfold. destruct (text_eqb_spec (vtype kw) (TX "keyword")) as [Et|]; [|now left]. specialize (Ik Et).
    destruct (field_of e G PT kw _ (TX "value") false Ik Et) as (i & fs & _ & _ & _ & Iv); [now apply not_builtin|rewrite (proj2 HC); right; now left|].
    unfold accumulating, mbind. destruct (equals_calm d (VConst 0 (CStr (TX "default"))) (vfield kw (TX "arg")) s) as [E|(rm & E)].
    - left. now rewrite (accumulate_stops _ _ _ _ _ E).
    - rewrite (accumulate_goes_on _ _ _ _ _ E). destruct (Hv d _ s Iv) as [E2|(rm2 & E2)].
      + left. now rewrite (accumulate_stops _ _ _ _ _ E2).
      + right. now rewrite (accumulate_goes_on _ _ _ _ _ E2).
  Qed.
  Lemma keyword_hits d kw s : PatternSpec.inside (e_tree e) kw -> keyword_is Pv kw ->
    eval (with_done e d) (keyword_matcher v) kw s = (s, Ok (Some (RInfo (create_match (e_parsed e) kw) (Some []) []))).
  Proof.
    intros Ik (i & fs & id & w & -> & Et & Ea & Ev & Pw). rewrite keyword_unfold. cbn [vtype]. rewrite Et, text_eqb_refl. cbn [vfield]. rewrite Ea, Ev.
    pose proof (inside_field e _ _ _ _ Ik Ev) as Iw. destruct (Kv d w s Iw Pw) as (rm & E).
    unfold accumulating, mbind. erewrite (accumulate_goes_on _ _ _ _ _ (eq_refl : eval (with_done e d) (MEquals (VConst 0 (CStr (TX "default")))) (VConst id (CStr (TX "default"))) s = _)).
    now rewrite (accumulate_goes_on _ _ _ _ _ E).
  Qed.

  Definition bind_keyword : matcher := MBind (TX "keyword") (keyword_matcher v) None None.
  Definition keyword_result (kw : value) : result := RInfo (create_match (e_parsed e) kw) (Some [(TX "keyword", bound_value (create_match (e_parsed e) kw) None None)]) [].
  Lemma bind_none d kw s : eval (with_done e d) (keyword_matcher v) kw s = (s, Ok None) -> eval (with_done e d) bind_keyword kw s = (s, Ok None).
  Proof. intros E. unfold bind_keyword. cbn [eval]. unfold mbind at 1. replace (eval (with_done e d) (keyword_matcher v) kw s) with (s, @Ok (option result) None). reflexivity. Qed.
  Lemma bind_some d kw s : eval (with_done e d) (keyword_matcher v) kw s = (s, Ok (Some (RInfo (create_match (e_parsed e) kw) (Some []) []))) ->
    eval (with_done e d) bind_keyword kw s = (s, Ok (Some (keyword_result kw))).
  Proof.
    intros E. unfold bind_keyword. cbn [eval]. unfold mbind at 1. replace (eval (with_done e d) (keyword_matcher v) kw s) with (s, @Ok (option result) (Some (RInfo (create_match (e_parsed e) kw) (Some []) []))).
    unfold mbind, lift, ret. cbn [r_bindings r_match r_reps bind not_none]. rewrite merge_bindings_nil. reflexivity.
  Qed.
  Lemma first_quiet d l s : (forall kw, In kw l -> vtype kw = TX "keyword" -> PatternSpec.inside (e_tree e) kw) ->
    first_of (map (eval (with_done e d) bind_keyword) l) s = (s, Ok None) \/ exists kw, In kw l /\ first_of (map (eval (with_done e d) bind_keyword) l) s = (s, Ok (Some (keyword_result kw))).
  Proof.
    induction l as [|kw l IH]; intros H; [now left|]. cbn [map first_of]. unfold mbind.
    destruct (keyword_quiet d kw s (H kw (or_introl eq_refl))) as [E|E].
    - rewrite (bind_none _ _ _ E). destruct IH as [K|(kw' & K1 & K2)]; [intros; apply H; [now right|assumption]|now left|]. right. exists kw'. split; [now right|exact K2].
    - rewrite (bind_some _ _ _ E). right. exists kw. split; [now left|reflexivity].
  Qed.
  Lemma first_hits d l s kw : (forall kw, In kw l -> vtype kw = TX "keyword" -> PatternSpec.inside (e_tree e) kw) -> In kw l -> PatternSpec.inside (e_tree e) kw -> keyword_is Pv kw ->
    first_of (map (eval (with_done e d) bind_keyword) l) s <> (s, Ok None).
  Proof.
    intros H Hin Ik Hk. induction l as [|kw' l IH]; [destruct Hin|]. cbn [map first_of]. unfold mbind. destruct Hin as [->|Hin].
    - rewrite (bind_some _ _ _ (keyword_hits d kw s Ik Hk)). discriminate.
    - destruct (keyword_quiet d kw' s (H kw' (or_introl eq_refl))) as [E|E].
      + rewrite (bind_none _ _ _ E). apply IH; [intros; apply H; [now right|assumption]|exact Hin].
      + rewrite (bind_some _ _ _ E). discriminate.
  Qed.
  Lemma items_inside d w l kw : PatternSpec.inside (e_tree e) w -> seq_items (with_done e d) w = Some l -> In kw l -> vtype kw = TX "keyword" -> PatternSpec.inside (e_tree e) kw.
  Proof.
    intros Iw El Hin T. destruct w as [j gs|j m|j k]; [discriminate El|injection El as ->; eapply inside_item; eassumption|].
    exfalso. cbn [seq_items] in El. destruct k; try discriminate El; injection El as <-; apply in_map_iff in Hin as (ch & <- & _); discriminate T.
  Qed.
  Lemma contains_unfold d w s : eval (with_done e d) (MContains bind_keyword) w s
    = match seq_items (with_done e d) w with
      | None => (s, Ok None)
      | Some l => (run o <- first_of (map (eval (with_done e d) bind_keyword) l); rewrap (with_done e d) w o) s
      end.
  Proof. cbn [eval]. destruct (seq_items (with_done e d) w); reflexivity. Qed.
  Lemma contains_quiet d w s : PatternSpec.inside (e_tree e) w ->
    eval (with_done e d) (MContains bind_keyword) w s = (s, Ok None)
    \/ exists rm b, eval (with_done e d) (MContains bind_keyword) w s = (s, Ok (Some (RInfo rm (Some b) []))) /\ dict_ok b.
  Proof.
    intros Iw. rewrite contains_unfold. destruct (seq_items (with_done e d) w) as [l|] eqn:El; [|now left]. unfold mbind.
    destruct (first_quiet d l s) as [E|(kw & Hin & E)]; [intros kw; now apply (items_inside d w)| |]; rewrite E; [now left|right].
    eexists _, _. split; [reflexivity|]. repeat constructor. intros [].
  Qed.
  Lemma contains_hits d id l kw s : PatternSpec.inside (e_tree e) (VList id l) -> In kw l -> keyword_is Pv kw ->
    exists rm b, eval (with_done e d) (MContains bind_keyword) (VList id l) s = (s, Ok (Some (RInfo rm (Some b) []))).
  Proof.
    intros Iw Hin Hk. rewrite contains_unfold. cbn [seq_items]. unfold mbind.
    assert (H : forall kw, In kw l -> vtype kw = TX "keyword" -> PatternSpec.inside (e_tree e) kw) by (intros; eapply inside_item; eassumption).
    destruct (first_quiet d l s H) as [E|(kw' & _ & E)].
    - exfalso. eapply (first_hits d l s kw); eauto. eapply inside_item; eassumption.
    - rewrite E. eexists _, _. reflexivity.
  Qed.

  Lemma call_unfold d c s : eval (with_done e d) (call_matcher f v) c s
    = if text_eqb (vtype c) (TX "Call")
      then accumulating (with_done e d) c [eval (with_done e d) f (vfield c (TX "func")); eval (with_done e d) MAnything (vfield c (TX "args"));
             eval (with_done e d) (MContains bind_keyword) (vfield c (TX "keywords"))] s
      else (s, Ok None).
  Proof. unfold call_matcher. cbn [eval]. destruct (text_eqb (vtype c) (TX "Call")); reflexivity. Qed.
  Lemma anything_goes d w s : exists rm, eval (with_done e d) MAnything w s = (s, Ok (Some (RInfo rm (Some []) []))).
  Proof. eexists. reflexivity. Qed.
  Lemma call_answers : answers e (call_matcher f v).
  Proof.
    intros d c s Ic. rewrite call_unfold. destruct (text_eqb_spec (vtype c) (TX "Call")) as [Et|]; [|now left].
    destruct (field_of e G PT c _ (TX "func") false Ic Et) as (i & fs & _ & _ & _ & If); [now apply not_builtin|rewrite (proj1 HC); now left|].
    destruct (field_of e G PT c _ (TX "keywords") true Ic Et) as (i' & fs' & _ & _ & _ & Iv); [now apply not_builtin|rewrite (proj1 HC); right; right; now left|].
    unfold accumulating, mbind. destruct (Hf d _ s If) as [E|(rm & E)].
    - left. now rewrite (accumulate_stops _ _ _ _ _ E).
    - rewrite (accumulate_goes_on _ _ _ _ _ E). destruct (anything_goes d (vfield c (TX "args")) s) as (rm2 & E2). rewrite (accumulate_goes_on _ _ _ _ _ E2).
      destruct (contains_quiet d _ s Iv) as [E3|(rm3 & b & E3 & Db)].
      + left. now rewrite (accumulate_stops _ _ _ _ _ E3).
      + right. rewrite (accumulate_last _ _ _ _ E3). exists b. split; [reflexivity|exact Db].
  Qed.
  Lemma call_hits d i fs func id kws kw s : PatternSpec.inside (e_tree e) (VNode i fs) -> n_type i = TX "Call" -> dget fs (TX "func") = Some func -> Pf func ->
    dget fs (TX "keywords") = Some (VList id kws) -> In kw kws -> keyword_is Pv kw ->
    exists b, eval (with_done e d) (call_matcher f v) (VNode i fs) s = (s, Ok (Some (RInfo (create_match (e_parsed e) (VNode i fs)) (Some b) []))).
  Proof.
    intros Ic Et Ef Hfu Ek Hin Hk. rewrite call_unfold. cbn [vtype]. rewrite Et, text_eqb_refl. cbn [vfield]. rewrite Ef, Ek.
    pose proof (inside_field e _ _ _ _ Ic Ef) as If. pose proof (inside_field e _ _ _ _ Ic Ek) as Il.
    destruct (Kf d func s If Hfu) as (rm & E). unfold accumulating, mbind. rewrite (accumulate_goes_on _ _ _ _ _ E).
    destruct (anything_goes d (match dget fs (TX "args") with Some x => x | None => VNone end) s) as (rm2 & E2). 
    erewrite (accumulate_goes_on (eval (with_done e d) MAnything _)); [|exact E2].
    destruct (contains_hits d id kws kw s Il Hin Hk) as (rm3 & b & E3). rewrite (accumulate_last _ _ _ _ E3). exists b. reflexivity.
  Qed.
End Attrib.

Section Fixers.
  Variable tokenize : text -> res (list ptok).
  Variable order : list nat -> list nat.
  Variable ast_parse : text -> res value.
  Variable parse_env : text -> res env.
  Variable G : grammar.
  Hypothesis HO : forall l, Permutation (order l) l.
  Hypothesis HG : proper G.
  Hypothesis HGp : python_grammar G.
  Hypothesis HGc : call_grammar G.
  Hypothesis HA : python_ast G ast_parse.
  Hypothesis HE : parses_evaluated ast_parse.
  Variable e : env.
  Hypothesis PT : parsed_tree G (e_tree e).
  Hypothesis HW : well_positioned e.

  Lemma closed_quiet co m : understood tokenize ast_parse co -> lexed co -> left_open co = [] -> exposed_ok (tree_of co) = true ->
    pattern tokenize order ast_parse (source co) [] = Ok m -> quiet e m /\ hits e m (fun c => (exists parts, made_of (fill parts co) c) /\ evaluated c).
  Proof.
    intros U L Hl Hx Hm. pose proof (closed_pattern tokenize order ast_parse G HO HG HGp HA co m e U L Hl Hm PT) as Y.
    destruct (restricted_pattern tokenize order ast_parse G HO HG HGp HA co [] (fun _ _ => True) m U L) as (holes & p & Tr & Hp & Na); [discriminate|auto|exact Hm|].
    destruct (Na e PT) as (_ & Ac & An).
    assert (Q : quiet e m).
    { intros d c s Ic. destruct (An d c s Ic) as [E|(b & E & _)]; [now left|right]. destruct (Y d c s _ _ Ic E) as [_ (rm & Er)]. rewrite E, Er. eauto. }
    split; [exact Q|]. intros d c s Ic [(parts & M) Ev].
    destruct (pattern_occurs tokenize ast_parse G HGp HA HE co (fun _ _ => True) (fun x w => parts x = w) holes p e c U L Hx Tr (wp_located _ HW) (wp_evaluated _ HW) Ic) as (occ & O & Sa).
    - auto.
    - now apply filled_reads.
    - auto.
    - intros occ. apply distinct_alike. rewrite Hl. constructor.
    - destruct (Ac d c s occ Ic O Sa) as (b & E). destruct (Q d c s Ic) as [E'|E']; [congruence|exact E'].
  Qed.

  Definition shared (value : code Ast.value) (c : Ast.value) : Prop :=
    exists i fs func id kws kw, c = VNode i fs /\ n_type i = TX "Call"
      /\ dget fs (TX "func") = Some func /\ made_of attr_ib func
      /\ dget fs (TX "keywords") = Some (VList id kws) /\ In kw kws /\ default_is value kw.
  Hypothesis UA : Forall (understood tokenize ast_parse) attrib_codes.
  Lemma attrib_sure (value : code label) (v : code Ast.value) src txt f : In value attrib_codes -> In (v, txt) factories -> src = source value -> left_open value = [] -> (forall parts, fill parts value = v) ->
    exposed_ok (tree_of value) = true ->
    attrib_fixer tokenize order ast_parse src txt = Ok f -> sure e f (shared v).
  Proof.
    intros Hin Hfac Hsrc Hl Hfill Hx Hf.
    destruct (attrib_implement tokenize order ast_parse (fun _ _ => Err ValueError) G HO HG HGp HA UA value v src txt f Hin Hsrc Hl Hfill Hf) as (Pf & Em & Er & _).
    subst src. unfold attrib_fixer in Hf. apply bind_Ok in Hf as (m & Hm & H). injection H as <-.
    unfold attrib_matcher in Hm. apply bind_Ok in Hm as (fm & Hfm & Hm). apply bind_Ok in Hm as (vm & Hvm & Hm). injection Hm as <-.
    pose proof attrib_lexed as L. pose proof UA as UA'. rewrite Forall_forall in UA', L.
    assert (Ha : In attr_ib attrib_codes) by now left.
    change (TX "attr.ib") with (source attr_ib) in Hfm.
    pose proof (closed_plain tokenize order ast_parse HO _ _ (UA' _ Ha) (L _ Ha) eq_refl Hfm) as (_ & _ & _ & A4).
    pose proof (closed_plain tokenize order ast_parse HO _ _ (UA' _ Hin) (L _ Hin) Hl Hvm) as (_ & _ & _ & B4).
    destruct (closed_quiet _ _ (UA' _ Ha) (L _ Ha) eq_refl eq_refl Hfm) as [Qf Hif].
    destruct (closed_quiet _ _ (UA' _ Hin) (L _ Hin) Hl Hx Hvm) as [Qv Hiv].
    match goal with |- sure e ?g _ => assert (Rl : reliable e g) end.
    { constructor.
      - exact Pf.
      - assert (E : forall m, incl (bind_variables m) [] -> bind_variables m = []) by (intros m Hm; destruct (bind_variables m) as [|x l]; [reflexivity|destruct (Hm x (or_introl eq_refl))]).
        cbn [fx_matcher bind_variables flat_map snd app]. rewrite (E fm), (E vm) by (intros x Hx'; auto). intros [K|[]]. discriminate K.
      - exact (call_answers e fm vm Qf Qv G HGc PT).
      - cbn [fx_replacement]. intros l t H. apply dget_In in H. destruct H as [H|[]]. apply (f_equal snd) in H. cbn [snd] in H. rewrite <- H. exact (factory_template v txt Hfac).
      - cbn [fx_message fx_url fx_category]. intros x K ->. destruct K as [K|[K|[K|[]]]]; discriminate K. }
    split; [exact Rl|]. intros mm d c s Hmm Ic (i & fs & func & id & kws & kw & -> & Et & Ef & Mf & Ek & Hkw & (j & gs & id' & w & -> & Ej & Ea & Ew & Mw)).
    pose proof (wp_evaluated _ HW) as Hev.
    assert (Ik : PatternSpec.inside (e_tree e) (VNode j gs)) by (eapply inside_item; [eapply inside_field; [exact Ic|exact Ek]|exact Hkw]).
    destruct (call_hits e fm vm (fun c => (exists parts, made_of (fill parts attr_ib) c) /\ evaluated c) (fun c => (exists parts, made_of (fill parts value) c) /\ evaluated c)
      Qv Hif Hiv G HGc PT d i fs func id kws (VNode j gs) s Ic Et Ef) as (b & E).
    - split; [exists (fun _ => VNone); exact Mf|]. refine (proj1 (Hev i fs (TX "func") func Ic (dget_In _ _ _ Ef)) _). rewrite Et. unfold evaluated_fields. cbn [In]. tauto.
    - exact Ek.
    - exact Hkw.
    - exists j, gs, id', w. do 4 (split; [assumption||reflexivity|]). split.
      + exists (fun _ => VNone). now rewrite Hfill.
      + refine (proj1 (Hev j gs (TX "value") w Ik (dget_In _ _ _ Ew)) _). rewrite Ej. unfold evaluated_fields. cbn [In]. tauto.
    - destruct (rl_answers _ _ Rl d _ s Ic) as [E'|(b' & E' & Db)]; [exfalso; pose proof (eq_trans (eq_sym E) E') as X; discriminate X|].
      destruct (with_root (with_done e d) _ mm _ s _ b' (rl_plain _ _ Rl) (rl_root _ _ Rl) Hmm E' Db) as (b'' & E'' & _). eauto.
  Qed.
End Fixers.
