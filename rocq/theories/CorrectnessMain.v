(** The correctness fixers in a search: proofs. *)
From Verif Require Import TemplateProofs Py PyFacts Subst ApplySpec Ast Template FromDiff Matcher MatchSpec MatcherProofs FindSpec FindProofs
  NavSpec PatTok PatSpec Pattern PatternSpec EquivProofs PatternProofs PatternApi
  PyTemplate PyTemplateSpec PyTemplateProofs Search SearchSpec Removal OwnSpec
  PropsTemplate ExprSubSpec ExprSubProofs PropsExprSub Fixer FixerSpec FixerProofs PyCode BuiltinFixers BuiltinSpec CodeProofs BuiltinProofs BuiltinApply BuiltinTables BuiltinMain
  CorrectnessFixers CorrectnessSpec CorrectnessProofs.
From Coq Require Import Permutation.

Lemma created_located parsed v w : located_expr w -> create_match parsed w = create_match parsed v -> v = w.
Proof.
  intros [_ Hl] E. unfold create_match in E. destruct (lexical_tokens w) as [[f l]|]; [|congruence].
  destruct (lexical_tokens v) as [[f' l']|]; [now injection E|]. destruct v as [| |? []]; discriminate E.
Qed.

(** *** Their texts *)
Lemma entry_lexed : Forall (fun oc => lexed (fst oc) /\ lexed (snd oc)) entry_codes.
Proof. repeat (apply Forall_cons; [split; cbn [fst snd en_old en_new]; lexed_tac|]). constructor. Qed.
Lemma entry_single : Forall single entry_codes.
Proof. repeat (apply Forall_cons; [split; [nodup_tac|split; [nodup_tac|intros x Hx; exact Hx]]|]). constructor. Qed.
Lemma entry_nonempty : Forall (fun oc : code label * code label => source (snd oc) <> []) entry_codes.
Proof. repeat (apply Forall_cons; [vm_compute; discriminate|]). constructor. Qed.
Lemma entry_no_meta : Forall (fun oc : code label * code label => forall l, In l meta_labels -> ~ In l (left_open (fst oc))) entry_codes.
Proof.
  apply Forall_forall. intros oc Hin l Hl Hb.
  assert (K : forallb (fun oc : code label * code label => forallb (fun l => negb (tmem l (left_open (fst oc)))) meta_labels) entry_codes = true) by (vm_compute; reflexivity).
  rewrite forallb_forall in K. specialize (K _ Hin). rewrite forallb_forall in K. specialize (K _ Hl). apply tmem_In in Hb. now rewrite Hb in K.
Qed.

Section Main.
  Variable tokenize : text -> res (list ptok).
  Variable order : list nat -> list nat.
  Variable ast_parse : text -> res value.
  Variable parse_env : text -> res env.
  Variable G : grammar.
  Hypothesis HO : forall l, Permutation (order l) l.
  Hypothesis HG : proper G.
  Hypothesis HGp : python_grammar G.
  Hypothesis HA : python_ast G ast_parse.

  Definition spans_ok (e : env) : Prop := forall v a b, PatternSpec.inside (e_tree e) v -> m_span (create_match (e_parsed e) v) = Some (a, b) -> 0 <= a.
  Definition places_of (e : env) (co : code label) (occ : list (label * pymatch)) (parts : label -> value) : Prop :=
    forall x, In x (left_open co) -> In (x, create_match (e_parsed e) (parts x)) occ /\ located_expr (parts x) /\ PatternSpec.inside (e_tree e) (parts x).
  (** The fixer does what the entry says. *)
  Definition implements (en : entry) (f : fixer) : Prop :=
    plain_fixer f /\ meta_of f = (Some (en_message en), Some (en_category en), true)
    /\ exists holes p t, python_expr_template tokenize order ast_parse (source (en_new en)) = Ok t
       /\ fx_replacement f = inl (as_template tokenize order ast_parse parse_env t)
       /\ has_tree tokenize ast_parse KExpr (source (en_old en)) holes p
       /\ (forall n x r, holes n = Some (Named x r) -> r = MAnything /\ x <> ROOT_LABEL)
       /\ forall e, parsed_tree G (e_tree e) -> spans_ok e ->
          narrows e holes p (fun c occ => forall parts, places_of e (en_old en) occ parts -> en_when en e c parts) (fx_matcher f).

  Lemma implement en restrictions (P : label -> value -> Prop) (wrap : matcher -> matcher) (W : env -> value -> Prop) mm url f :
    understood tokenize ast_parse (en_old en) -> lexed (en_old en) ->
    (forall l, In l meta_labels -> ~ In l (left_open (en_old en))) ->
    mm = (do m <- pattern tokenize order ast_parse (source (en_old en)) restrictions; Ok (wrap m)) ->
    (forall x r, dget restrictions x = Some r -> decides r (P x) /\ plain_matcher [] r) -> (forall x v, dget restrictions x = None -> P x v) ->
    (forall L m, plain_matcher L m -> plain_matcher L (wrap m)) ->
    (forall e holes p Cond m, spans_ok e -> narrows e holes p Cond m -> narrows e holes p (fun c occ => Cond c occ /\ W e c) (wrap m)) ->
    (forall e c parts, parsed_tree G (e_tree e) -> (forall x, In x (left_open (en_old en)) -> PatternSpec.inside (e_tree e) (parts x)) ->
       (forall x, In x (left_open (en_old en)) -> P x (parts x)) -> W e c -> en_when en e c parts) ->
    python_fixer tokenize order ast_parse parse_env mm (source (en_new en)) (en_message en) url (en_category en) = Ok f -> implements en f.
  Proof.
    intros U L Nm -> HR HN Hpl Hnw Hwhen H. unfold python_fixer in H. apply bind_Ok in H as (m' & Hm & H). apply bind_Ok in H as (t & Ht & H). injection H as <-.
    apply bind_Ok in Hm as (m & Hm & Ew). injection Ew as <-.
    destruct (has_tokens_of tokenize ast_parse _ U L) as [T _].
    destruct (restricted_pattern tokenize order ast_parse G HO HG HGp HA (en_old en) restrictions P m U L (fun x r Hx => proj1 (HR x r Hx)) HN Hm) as (holes & p & Tr & Hp & Na).
    split; [|split].
    - assert (K : plain_matcher (left_open (en_old en)) (wrap m)).
      { apply Hpl. rewrite <- (lx_vars _ L). eapply restricted_plain; [exact HO|exact T|intros x r Hx; exact (proj2 (HR x r Hx))|exact Hm|].
        rewrite (lx_newline _ L). cbn [negb]. apply (un_tokens _ _ _ U). }
      destruct K as (K1 & K2 & K3 & K4). constructor; cbn [fx_matcher fx_replacement]; auto. intros l Hl Hb. apply (Nm l Hl). now apply K4.
    - reflexivity.
    - exists holes, p, t. split; [exact Ht|]. split; [reflexivity|]. split; [exact Tr|]. split; [exact Hp|]. intros e PT Hs. cbn [fx_matcher].
      destruct (Na e PT) as [N _]. apply (Hnw _ _ _ _ _ Hs) in N. eapply narrows_weaken; [|exact N]. cbn beta.
      intros c occ [Sa HW] parts Hpa. apply Hwhen; [exact PT|intros x Hx; apply (Hpa x Hx)| |exact HW].
      intros x Hx. destruct (Hpa x Hx) as (Hin & Hl & _). rewrite Forall_forall in Sa. destruct (Sa _ Hin) as (v & Ev & Pv). cbn [fst snd] in *.
      now rewrite (created_located _ _ _ Hl Ev) in Pv.
  Qed.
  Lemma with_id {X} (r : res X) : r = (do m <- r; Ok m).
  Proof. now destruct r. Qed.
  Lemma plain_string : plain_matcher [] string_literal.
  Proof. split; [cbn; tauto|]. split; [reflexivity|]. split; [reflexivity|]. intros x []. Qed.
  Lemma plain_literal : plain_matcher [] literal.
  Proof. split; [cbn; tauto|]. split; [reflexivity|]. split; [reflexivity|]. intros x []. Qed.
  Lemma plain_variable : plain_matcher [] (MAllOf [MAnyOf [any_attribute; any_name]]).
  Proof. split; [cbn; tauto|]. split; [reflexivity|]. split; [reflexivity|]. intros x []. Qed.
  Lemma narrows_and_true e holes p Cond m : narrows e holes p Cond m -> narrows e holes p (fun c occ => Cond c occ /\ True) m.
  Proof. apply narrows_weaken. auto. Qed.
  Lemma plain_import L m module name : plain_matcher L m -> plain_matcher L (MWithTopLevelImport m module name).
  Proof. intros H. exact H. Qed.
  Lemma plain_closed L m : plain_matcher L m -> plain_matcher L (MAllOf [m; MMatchesRegex (dollar unopened) MAnything]).
  Proof.
    intros (A & B & C & D). split; [|split; [|split]].
    - cbn. split; [exact A|]. split; [|exact I]. split; [constructor|exact I].
    - cbn. now rewrite B.
    - cbn. now rewrite C.
    - cbn. now rewrite app_nil_r.
  Qed.

  Hypothesis U : Forall (fun oc => understood tokenize ast_parse (fst oc) /\ understood tokenize ast_parse (snd oc)) entry_codes.
  Definition fixer_list : list (res fixer) :=
    [is_fixer tokenize order ast_parse parse_env; is_not_fixer tokenize order ast_parse parse_env;
     yaml_load_fixer tokenize order ast_parse parse_env; yaml_load_all_fixer tokenize order ast_parse parse_env;
     percent_fixer tokenize order ast_parse parse_env;
     utcfromtimestamp_fixer tokenize order ast_parse parse_env; utcnow_fixer tokenize order ast_parse parse_env].
  Lemma entry_facts en : In en entries -> understood tokenize ast_parse (en_old en) /\ lexed (en_old en) /\ (forall l, In l meta_labels -> ~ In l (left_open (en_old en))).
  Proof.
    intros H. apply (in_map (fun en => (en_old en, en_new en))) in H. pose proof entry_lexed as L. pose proof entry_no_meta as M. rewrite Forall_forall in U, L, M.
    destruct (U _ H) as [U1 _], (L _ H) as [L1 _]. split; [exact U1|]. split; [exact L1|]. exact (M _ H).
  Qed.
  Lemma implemented : Forall2 (fun en r => forall f, r = Ok f -> implements en f) entries fixer_list.
  Proof.
    pose proof entry_facts as F. unfold entries at 1 in F. cbn [In] in F.
    unfold entries, fixer_list.
    assert (Lit : forall (old : code label) e c parts, parsed_tree G (e_tree e) -> In (TX "rhs") (left_open old) ->
      (forall x, In x (left_open old) -> PatternSpec.inside (e_tree e) (parts x)) ->
      (forall x, In x (left_open old) -> (fun x v => x = TX "rhs" -> literally v) x (parts x)) -> True -> with_literal e c parts).
    { intros old e c parts PT Hr Hi HP _. unfold with_literal. apply (literally_literal G); [|apply (HP _ Hr eq_refl)].
      destruct (Hi _ Hr) as (q & Hq). eapply conforms_inside; [apply (pt_conforms _ _ PT)|exists q; exact Hq]. }
    assert (Lr : forall x r, dget [(TX "rhs", literal)] x = Some r -> decides r (fun v => x = TX "rhs" -> literally v) /\ plain_matcher [] r).
    { intros x r. cbn [dget]. destruct (text_eqb_spec (TX "rhs") x) as [<-|]; [|discriminate]. intros [= <-]. split; [|exact plain_literal].
      eapply decides_more; [|exact decides_literal]. intros c. tauto. }
    assert (Ln : forall x v, dget [(TX "rhs", literal)] x = None -> x = TX "rhs" -> literally v).
    { intros x v H ->. discriminate H. }
    constructor; [|constructor; [|constructor; [|constructor; [|constructor; [|constructor; [|constructor; [|constructor]]]]]]]; intros f Hf.
    - match goal with |- implements ?en _ => destruct (F en) as (F1 & F2 & F3); [tauto|] end.
      eapply (implement _ [(TX "rhs", literal)] (fun x v => x = TX "rhs" -> literally v) (fun m => m) (fun _ _ => True)); try eassumption.
      + apply with_id.
      + auto.
      + intros. now apply narrows_and_true.
      + intros e c parts PT Hi HP HW. refine (Lit _ e c parts PT _ Hi HP I). right. now left.
    - match goal with |- implements ?en _ => destruct (F en) as (F1 & F2 & F3); [tauto|] end.
      eapply (implement _ [(TX "rhs", literal)] (fun x v => x = TX "rhs" -> literally v) (fun m => m) (fun _ _ => True)); try eassumption.
      + apply with_id.
      + auto.
      + intros. now apply narrows_and_true.
      + intros e c parts PT Hi HP HW. refine (Lit _ e c parts PT _ Hi HP I). right. now left.
    - match goal with |- implements ?en _ => destruct (F en) as (F1 & F2 & F3); [tauto|] end.
      eapply (implement _ [] (fun x v => True) (fun m => MWithTopLevelImport m (TX "yaml") (TX "yaml")) (fun e _ => imports e (TX "yaml") (TX "yaml"))); try eassumption.
      + reflexivity.
      + discriminate.
      + auto.
      + intros L m. apply plain_import.
      + intros e holes p Cond m _ N. now apply narrows_import.
      + intros e c parts _ _ _ H. exact H.
    - match goal with |- implements ?en _ => destruct (F en) as (F1 & F2 & F3); [tauto|] end.
      eapply (implement _ [] (fun x v => True) (fun m => MWithTopLevelImport m (TX "yaml") (TX "yaml")) (fun e _ => imports e (TX "yaml") (TX "yaml"))); try eassumption.
      + reflexivity.
      + discriminate.
      + auto.
      + intros L m. apply plain_import.
      + intros e holes p Cond m _ N. now apply narrows_import.
      + intros e c parts _ _ _ H. exact H.
    - match goal with |- implements ?en _ => destruct (F en) as (F1 & F2 & F3); [tauto|] end.
      eapply (implement _ [(TX "a", string_literal); (TX "b", MAllOf [MAnyOf [any_attribute; any_name]])]
        (fun x v => (x = TX "a" -> stringy v) /\ (x = TX "b" -> is_variable_or_attribute v))
        (fun m => MAllOf [m; MMatchesRegex (dollar unopened) MAnything]) (fun e c => looks_closed_only e c)); try eassumption.
      + reflexivity.
      + intros x r. cbn [dget]. destruct (text_eqb_spec (TX "a") x) as [<-|Na].
        * intros [= <-]. split; [|exact plain_string]. eapply decides_more; [|exact decides_string]. intros c. split; [intros H; split; [tauto|discriminate]|tauto].
        * destruct (text_eqb_spec (TX "b") x) as [<-|Nb]; [|discriminate]. intros [= <-]. split; [|exact plain_variable].
          eapply decides_more; [|exact decides_variable]. intros c. split; [intros H; split; [discriminate|tauto]|tauto].
      + intros x v H. split; intros ->; discriminate H.
      + intros L m. apply plain_closed.
      + intros e holes p Cond m Hs N. now apply narrows_closed.
      + intros e c parts PT Hi HP HW. cbn [en_when en_old left_open] in *. unfold superfluous_parentheses.
        assert (Ha : In (TX "a") ([TX "a"] ++ [TX "b"])) by now left. assert (Hb : In (TX "b") ([TX "a"] ++ [TX "b"])) by (right; now left).
        split; [|split; [exact (proj2 (HP _ Hb) eq_refl)|exact HW]]. apply (stringy_literal G); [|exact (proj1 (HP _ Ha) eq_refl)].
        destruct (Hi _ Ha) as (q & Hq). eapply conforms_inside; [apply (pt_conforms _ _ PT)|exists q; exact Hq].
    - match goal with |- implements ?en _ => destruct (F en) as (F1 & F2 & F3); [tauto|] end.
      eapply (implement _ [] (fun x v => True) (fun m => m) (fun _ _ => True)); try eassumption.
      + apply with_id.
      + discriminate.
      + auto.
      + auto.
      + intros. now apply narrows_and_true.
      + intros e c parts _ _ _ H. exact H.
    - match goal with |- implements ?en _ => destruct (F en) as (F1 & F2 & F3); [tauto|] end.
      eapply (implement _ [] (fun x v => True) (fun m => m) (fun _ _ => True)); try eassumption.
      + apply with_id.
      + discriminate.
      + auto.
      + auto.
      + intros. now apply narrows_and_true.
      + intros e c parts _ _ _ H. exact H.
  Qed.
End Main.
