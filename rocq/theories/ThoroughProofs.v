(** Every place of a pattern is found: proofs. *)
From Verif Require Import TemplateProofs Py PyFacts Subst ApplySpec Ast Template FromDiff Matcher MatchSpec MergeSpec MergeProofs MatcherProofs BindProofs OnceProofs FindSpec FindProofs
  FilterSpec NavSpec NavProofs CollSpec CollProofs PatTok PatSpec Pattern PatternSpec EquivProofs PatternProofs PatternApi
  PyTemplate PyTemplateSpec PyTemplateProofs Search SearchSpec Removal OwnSpec
  PropsTemplate ExprSubSpec ExprSubProofs PropsExprSub Fixer FixerSpec FixerProofs PyCode BuiltinFixers BuiltinSpec CodeProofs BuiltinProofs BuiltinApply BuiltinTables BuiltinMain
  CorrectnessFixers CorrectnessSpec CorrectnessProofs CorrectnessMain CorrectnessSearch ThoroughSpec ThoroughCode.
From Coq Require Import Permutation.

Section Patterns.
  Variable tokenize : text -> res (list ptok).
  Variable order : list nat -> list nat.
  Variable ast_parse : text -> res value.
  Variable G : grammar.
  Hypothesis HO : forall l, Permutation (order l) l.
  Hypothesis HG : proper G.
  Hypothesis HGp : python_grammar G.
  Hypothesis HA : python_ast G ast_parse.
  Hypothesis HE : parses_evaluated ast_parse.

  Lemma pattern_evaluated k src holes p : has_tree tokenize ast_parse k src holes p ->
    exists module, evaluated_exprs module /\ PatternSpec.inside module p /\ (k = KExpr -> evaluated p).
  Proof.
    intros (gl & news & names & anon & module & _ & _ & _ & _ & Ep & El & _). exists module.
    pose proof (HE _ _ Ep) as He. destruct (HA _ _ Ep) as (Pm & _ & _). pose proof (pt_conforms _ _ Pm) as C.
    split; [exact He|]. split; [eapply (pull_inside G HGp k); eassumption|]. intros ->.
    cbn [pull_of] in El. apply pull_expr_spec in El as (Ht & id & stmt & Eb & Es & Ev). destruct (typed_node G module _ C Ht not_builtin_Module) as (i & fs & -> & Hi).
    destruct (module_fields G i fs HGp C Hi) as (bd & t & -> & Hl). change (bd = VList id [stmt]) in Eb. subst bd.
    assert (Is : PatternSpec.inside (VNode i [(TX "body", VList id [stmt]); (TX "type_ignores", t)]) stmt) by now exists [0; 0]%nat.
    pose proof (conforms_inside _ _ _ C Is) as Cs.
    destruct (typed_node G stmt _ Cs Es not_builtin_Expr) as (j & gs & -> & Hj).
    destruct (PyTemplateProofs.expr_fields G j gs HGp Cs Hj) as (v & ->). change (v = p) in Ev. subst v.
    refine (proj1 (He j _ (TX "value") p Is (or_introl eq_refl)) _). rewrite Hj. unfold evaluated_fields. cbn [In]. tauto.
  Qed.

  Definition found_part (e : env) (R : label -> value -> Prop) (xm : label * pymatch) : Prop :=
    exists w, R (fst xm) w /\ located_expr w /\ PatternSpec.inside (e_tree e) w /\ snd xm = create_match (e_parsed e) w.
  Lemma pattern_occurs_as k co (P : label -> parsed_file -> value -> Prop) (R : label -> value -> Prop) holes p e c :
    understood_as k tokenize ast_parse co -> lexed co -> exposed_ok (tree_of co) = true -> (exposed (tree_of co) = true -> k = KExpr) ->
    has_tree tokenize ast_parse k (source co) holes p ->
    located_exprs (e_tree e) -> evaluated_exprs (e_tree e) ->
    PatternSpec.inside (e_tree e) c -> (exposed (tree_of co) = true -> evaluated c) ->
    stands R (tree_of co) c -> (forall x w, R x w -> PatternSpec.inside (e_tree e) w -> P x (e_parsed e) w) ->
    (forall occ, map fst occ = left_open co -> Forall (found_part e R) occ -> alike occ) ->
    exists occ, occurrence e holes p c occ /\ Forall (satisfied' P e) occ.
  Proof.
    intros U L Hx Hk T Hl Hev Ic Hec Sc HP Hal. destruct (code_tree _ _ _ _ _ U L T) as [Ho So]. destruct (pattern_evaluated _ _ _ _ T) as (module & He & Ip & Hep).
    assert (Tc : tree_of co <> TContext) by (destruct co; discriminate). destruct (lx_node co L) as (ty & fs & Et & _).
    assert (Sc' : stands (fun x w => R x w /\ located_expr w /\ PatternSpec.inside (e_tree e) w) (tree_of co) c).
    { apply stands_placed; auto.
      - apply code_placed.
      - rewrite Et. discriminate.
      - rewrite Et. discriminate. }
    destruct (stands_fits e holes Ho _ module (e_tree e) He Hev (tree_of co) p c (lx_plain co L) Hx Tc So Sc' Ip Ic) as (occ & F & M & Q).
    - intros Ex. auto.
    - rewrite Et. discriminate.
    - rewrite tree_vars in M. assert (Q' : Forall (found_part e R) occ).
      { eapply Forall_impl; [|exact Q]. intros xm (w & (A & B & C) & _ & E). exists w. auto. }
      exists occ. split; [split; [exact F|now apply Hal]|]. eapply Forall_impl; [|exact Q']. intros xm (w & A & B & C & E) v Ev.
      rewrite E in Ev. rewrite (created_located _ _ _ B Ev). now apply HP.
  Qed.
  Lemma pattern_occurs co (P R : label -> value -> Prop) holes p e c :
    understood tokenize ast_parse co -> lexed co -> exposed_ok (tree_of co) = true ->
    has_tree tokenize ast_parse KExpr (source co) holes p ->
    located_exprs (e_tree e) -> evaluated_exprs (e_tree e) ->
    PatternSpec.inside (e_tree e) c -> (exposed (tree_of co) = true -> evaluated c) ->
    stands R (tree_of co) c -> (forall x w, R x w -> PatternSpec.inside (e_tree e) w -> P x w) ->
    (forall occ, map fst occ = left_open co -> Forall (found_part e R) occ -> alike occ) ->
    exists occ, occurrence e holes p c occ /\ Forall (satisfied' (fun x _ => P x) e) occ.
  Proof. intros U L Hx. apply (pattern_occurs_as KExpr co (fun x _ => P x) R holes p e c U L Hx). reflexivity. Qed.
  Lemma distinct_alike e R (co : code label) occ : NoDup (left_open co) -> map fst occ = left_open co -> Forall (found_part e R) occ -> alike occ.
  Proof. intros N M _. apply alike_distinct. now rewrite M. Qed.
  Lemma filled_reads parts (co : code label) c : made_of (fill parts co) c -> stands (fun x w => parts x = w) (tree_of co) c.
  Proof. unfold made_of, reads. rewrite tree_fill. apply (stands_unmap eq parts). Qed.
End Patterns.

(** *** Fixers *)
(** The matcher of a fixer, from its matcher without the metadata. *)
Lemma with_root e f m c s rm b : plain_fixer f -> ~ In ROOT_LABEL (bind_variables (fx_matcher f)) ->
  matcher_with_meta f = Ok m -> eval e (fx_matcher f) c s = (s, Ok (Some (RInfo rm (Some b) []))) -> dict_ok b ->
  exists b', eval e m c s = (s, Ok (Some (RInfo rm (Some b') (fixer_templates f)))) /\ option_map b_value (dget b' ROOT_LABEL) = Some rm.
Proof.
  intros Hf Nr Hm He Db. apply with_meta_shape in Hm. subst m.
  assert (Nb : dget b ROOT_LABEL = None).
  { destruct (dget b ROOT_LABEL) as [x|] eqn:E; [|reflexivity]. exfalso. apply Nr. apply dget_In in E. apply (in_map fst) in E. cbn [fst] in E.
    apply (bind_variables_cover e (fx_matcher f) c s s (RInfo rm (Some b) []) ROOT_LABEL (pf_rewrite_free _ Hf) He). exact E. }
  assert (M : exists b', merge_bindings b [(ROOT_LABEL, bound_value rm None None)] = Ok (Some b') /\ option_map b_value (dget b' ROOT_LABEL) = Some rm).
  { assert (K : forall k a b0, both b [(ROOT_LABEL, bound_value rm None None)] k a b0 -> False).
    { intros k a b0 [K1 K2]. cbn [dget] in K2. destruct (text_eqb_spec ROOT_LABEL k) as [<-|]; [|discriminate K2]. congruence. }
    pose proof (merge_bindings_spec b [(ROOT_LABEL, bound_value rm None None)] Db) as HM.
    destruct (merge_bindings b _) as [[b'|]|x].
    - exists b'. split; [reflexivity|]. destruct HM as (_ & _ & HM); [repeat constructor; intros []|]. rewrite (HM ROOT_LABEL), Nb. reflexivity.
    - destruct HM as (_ & k & a & b0 & HB & _); [repeat constructor; intros []|]. destruct (K _ _ _ HB).
    - destruct HM as (_ & k & a & b0 & HB & _); [repeat constructor; intros []|]. destruct (K _ _ _ HB). }
  destruct M as (b' & M & Rb). exists b'. split; [|exact Rb].
  change (eval e (MWithReplacements (MBind ROOT_LABEL (fx_matcher f) None None) (fixer_templates f)) c s)
    with ((run o <- (run o <- eval e (fx_matcher f) c;
      match o with
      | None => ret None
      | Some r =>
          run rb <- lift (do b <- r_bindings r; not_none b);
          run rm <- lift (r_match r);
          run rt <- lift (r_reps r);
          run mb <- lift (merge_bindings rb [(ROOT_LABEL, bound_value rm None None)]);
          ret (match mb with None => None | Some b => Some (RInfo rm (Some b) rt) end)
      end);
      match o with
      | None => ret None
      | Some r =>
          run rt <- lift (r_reps r);
          run rb <- lift (r_bindings r);
          run rm <- lift (r_match r);
          run t <- lift (merge_replacements rt (fixer_templates f));
          ret (Some (RInfo rm rb t))
      end) s).
  unfold mbind, lift, ret. rewrite He. cbn [r_bindings r_match r_reps bind not_none]. rewrite M. cbn [r_bindings r_match r_reps]. reflexivity.
Qed.
Lemma with_root_none e f m c s : matcher_with_meta f = Ok m -> eval e (fx_matcher f) c s = (s, Ok None) -> eval e m c s = (s, Ok None).
Proof. intros Hm He. apply with_meta_shape in Hm. subst m. cbn [eval]. unfold mbind, lift, ret. rewrite He. reflexivity. Qed.

(** The fixer says yes or no everywhere in the file, and changes nothing but what it
    finds. *)
Record reliable (e : env) (f : fixer) : Prop := {
  rl_plain : plain_fixer f;
  rl_root : ~ In ROOT_LABEL (bind_variables (fx_matcher f));
  rl_answers : answers e (fx_matcher f);
  rl_template : match fx_replacement f with inl t => t_template t <> [] | inr d => forall l t, dget d l = Some t -> t_template t <> [] end;
  rl_metadata : forall x, In x [fx_message f; fx_url f; fx_category f] -> x <> Some []
}.
Lemma reliable_decisive e f : reliable e f -> decisive e f.
Proof.
  intros [A B C D H]. split.
  - intros m d v s Hm Iv. destruct (C d v s Iv) as [E|(b & E & Db)].
    + exists s, None. split; [now apply (with_root_none _ f)|discriminate].
    + destruct (with_root _ _ _ _ _ _ _ A B Hm E Db) as (b' & E' & R). eexists _, _. split; [exact E'|]. intros r b0 [= <-] [= <-]. exact R.
  - intros l t. rewrite fixer_templates_get.
    assert (Kb : dget (fx_base f) l = Some t -> t_template t <> []).
    { unfold fx_base. destruct (fx_replacement f) as [u|d]; [|apply D]. cbn [dget]. destruct (text_eqb ROOT_LABEL l); [|discriminate]. intros [= <-]. exact D. }
    match goal with |- match ?o with Some _ => _ | None => _ end = _ -> _ => assert (Ko : o <> Some []); [|destruct o as [x|]; [intros E K; apply Ko; injection E as <-; cbn [literal_template t_template] in K; now rewrite K|exact Kb]] end.
    destruct (text_eqb SIGNIFICANT_LABEL l); [destruct (fx_significant f); discriminate|]. destruct (text_eqb CATEGORY_LABEL l); [apply H; cbn; auto|].
    destruct (text_eqb URL_LABEL l); [apply H; cbn; auto|]. destruct (text_eqb MESSAGE_LABEL l); [apply H; cbn; auto|discriminate].
Qed.
