(** C87: matcher expressions (--mode=py) mean the matchers that they spell.  Theorems only. *)
From Verif Require Import Py PyFacts Regex Subst Ast Template Matcher MatchSpec MatcherProofs PatTok Pattern Pragmas Eval EvalSpec EvalProofs PropsEval OwnSpec PiecesSpec Search ApplySpec
  Fixer Fmt Codec Runner RunnerSpec Cli CliSpec Main MainSpec WrittenSpec PropsWritten
  Compile CompileSpec CompileProofs CompileTable CompileExpr.
From Coq Require Import Permutation.

(** C87, calls: the names that can be called are those of the classes, alone or behind
    the name of the module; what a call makes is what it means. *)
Theorem C87_calls : forall uni_word full_regex file_regex hashable key_code ast_classes tokenize order ast_parse,
  ast_module ast_classes ->
  exists t, class_table uni_word full_regex file_regex hashable key_code ast_classes tokenize order ast_parse = Ok t
  /\ forall n h args kwargs o,
     (exists c, dget t n = Some c /\ instantiate c h args kwargs = Ok o)
     <-> exists k m, named ast_classes n k /\ o = OMatcher m
         /\ calls uni_word full_regex file_regex hashable key_code ast_classes tokenize order ast_parse (length h) k args kwargs m.
Proof. intros. now apply table_calls. Qed.
Print Assumptions C87_calls.

(** C87: the matcher that [--mode=py] searches for. *)
Theorem C87_expressions : forall uni_word full_regex file_regex hashable key_code ast_classes tokenize order ast_parse negate_other dedent parse src m,
  ast_module ast_classes ->
  py_matcher uni_word full_regex file_regex hashable key_code ast_classes tokenize order ast_parse negate_other dedent parse src = Ok m
  <-> exists e n o, parse (dedent src) = Ok e
      /\ spells uni_word full_regex file_regex hashable key_code ast_classes tokenize order ast_parse negate_other 0 e n o
      /\ stands o m.
Proof.
  intros uni_word full_regex file_regex hashable key_code ast_classes tokenize order ast_parse negate_other dedent parse src m HA.
  destruct (table_calls uni_word full_regex file_regex hashable key_code ast_classes tokenize order ast_parse HA) as (t & Ht & T).
  unfold py_matcher, evaluated. rewrite Ht. cbn [bind].
  split.
  - match goal with |- context[compile_matcher ?a ?b ?c ?d ?e ?f ?g ?h ?i ?j ?k ?l ?m ?n] => destruct (compile_matcher a b c d e f g h i j k l m n) as [h' r] eqn:E end.
    apply C41_compile_matcher in E as [_ E]. cbn [snd]. intros H. apply bind_Ok in H as (o & -> & H). injection H as <-. destruct (proj1 (E o) eq_refl) as (e & h1 & Hp & -> & M).
    apply (means_spells uni_word full_regex file_regex hashable key_code ast_classes tokenize order ast_parse negate_other t T) in M.
    exists e, (length h'), o. split; [exact Hp|]. split; [exact M|]. apply stands_iff. reflexivity.
  - intros (e & n & o & Hp & S & St). apply stands_iff in St. subst m.
    destruct (proj1 (spells_means uni_word full_regex file_regex hashable key_code ast_classes tokenize order ast_parse negate_other t T) 0%nat e n o S [] eq_refl) as (h1 & _ & M).
    apply (proj2 (convert_means _ _ _ _ _ _ _ _ _ _ e _ _ _)) in M. unfold compile_matcher. rewrite Hp.
    match goal with |- context[convert ?a ?b ?c ?d ?e ?f ?g ?h ?i ?j ?k ?l] => replace (convert a b c d e f g h i j k l) with (h1, @Ok obj o) by (symmetry; exact M) end. reflexivity.
Qed.
Print Assumptions C87_expressions.

(** C87, what cannot be written: no expression makes a matcher that replaces something
    (only --sub does), or whose dictionaries and regexes are not what the other
    properties need. *)
Theorem C87_only_searches : forall uni_word full_regex file_regex hashable key_code ast_classes tokenize order ast_parse negate_other dedent parse src m,
  ast_module ast_classes ->
  (forall p r, full_regex p = Ok r \/ file_regex p = Ok r -> dict_ok (cr_groups r) /\ forall t, engine_ok t r) ->
  py_matcher uni_word full_regex file_regex hashable key_code ast_classes tokenize order ast_parse negate_other dedent parse src = Ok m ->
  no_templates m = true /\ rewrite_free m = true /\ dicts_ok m /\ forall t, engines_ok t m.
Proof.
  intros uni_word full_regex file_regex hashable key_code ast_classes tokenize order ast_parse negate_other dedent parse src m HA HR H.
  apply C87_expressions in H; [|exact HA]. destruct H as (e & n & o & _ & S & St).
  assert (F : forall P : matcher -> Prop,
    (forall v, P (MEquals v) /\ P MAnything /\ P MRaise /\ P (MAnyOf []) /\ (forall s, P (MStringMatch s)) /\ forall ns, P (MInLines ns)) ->
    (forall ms, Forall P ms -> P (MAllOf ms) /\ P (MAnyOf ms) /\ P (MItemsAre ms)) ->
    (forall ty fs, Forall (fun fm => P (snd fm)) fs -> P (MNode ty fs)) ->
    (forall m, P m -> (forall k f, In (k, f) one_submatcher -> P (f m)) /\ (forall k, P (MOnce k m)) /\ (forall n c g, P (MBind n m c g)) /\ (forall c g, P (MRebind m c g))
      /\ (forall i, P (MHasItem i m)) /\ (forall p a, P (MWithTopLevelImport m p a)) /\ (forall k field f, In (k, field, f) constant_classes -> P (f m)) /\ forall ts, P (MConst ts m)) ->
    (forall a b, P a -> P b -> P (MNamedFunctionDefinition a b)) ->
    (forall p r m, full_regex p = Ok r -> P m -> P (MMatchesRegex r m)) -> (forall p r, file_regex p = Ok r -> P (MFileMatchesRegex r)) -> P m).
  { intros P A1 A2 A3 A4 A5 A6 A7. refine (stands_fair P A1 A4 o m _ St).
    refine (proj1 (spells_fair uni_word full_regex file_regex hashable key_code ast_classes tokenize order ast_parse negate_other P A1 A2 A3 A4 A5 A6 A7) _ _ _ _ S). }
  assert (fold_all : forall (P : matcher -> Prop) ms, Forall P ms -> fold_right (fun m' Q => P m' /\ Q) True ms) by (induction 1; cbn [fold_right]; auto).
  assert (fold_fields : forall (P : matcher -> Prop) fs, Forall (fun fm : text * matcher => P (snd fm)) fs -> fold_right (fun (fm : text * matcher) Q => P (snd fm) /\ Q) True fs) by (induction 1; cbn [fold_right]; auto).
  assert (all_true : forall A (f : A -> bool) l, Forall (fun x => f x = true) l -> forallb f l = true) by (intros A f l K; apply forallb_forall; now apply Forall_forall).
  split; [|split; [|split] ].
  - apply (F (fun m => no_templates m = true)).
    + intros v. repeat split.
    + intros ms K. cbn. rewrite (all_true _ no_templates ms K). repeat split.
    + intros ty fs K. cbn. now apply all_true.
    + intros m' K. repeat split; try (intros; exact K).
      * intros k f Hf. cbn in Hf. repeat (destruct Hf as [[= <- <-]|Hf]; [cbn; rewrite ?K; reflexivity|]). destruct Hf.
      * intros k field f Hf. cbn in Hf. repeat (destruct Hf as [[= <- <- <-]|Hf]; [cbn; rewrite ?K; reflexivity|]). destruct Hf.
    + intros a b Ka Kb. cbn. rewrite Ka, Kb. reflexivity.
    + intros p r m' _ K. exact K.
    + reflexivity.
  - apply (F (fun m => rewrite_free m = true)).
    + intros v. repeat split.
    + intros ms K. cbn. rewrite (all_true _ rewrite_free ms K). repeat split.
    + intros ty fs K. cbn. now apply all_true.
    + intros m' K. repeat split; try (intros; exact K).
      * intros k f Hf. cbn in Hf. repeat (destruct Hf as [[= <- <-]|Hf]; [cbn; rewrite ?K; reflexivity|]). destruct Hf.
      * intros k field f Hf. cbn in Hf. repeat (destruct Hf as [[= <- <- <-]|Hf]; [cbn; rewrite ?K; reflexivity|]). destruct Hf.
    + intros a b Ka Kb. cbn. rewrite Ka, Kb. reflexivity.
    + intros p r m' _ K. exact K.
    + reflexivity.
  - apply (F dicts_ok).
    + intros v. repeat split.
    + intros ms K. apply fold_all in K. repeat split; exact K.
    + intros ty fs K. apply fold_fields in K. exact K.
    + intros m' K. repeat split; try (intros; exact K).
      * intros k f Hf. cbn in Hf. repeat (destruct Hf as [[= <- <-]|Hf]; [cbn; tauto|]). destruct Hf.
      * intros k field f Hf. cbn in Hf. repeat (destruct Hf as [[= <- <- <-]|Hf]; [cbn; tauto|]). destruct Hf.
    + intros a b Ka Kb. cbn. tauto.
    + intros p r m' Hr K. cbn. split; [|exact K]. exact (proj1 (HR p r (or_introl Hr))).
    + intros p r Hr. exact (proj1 (HR p r (or_intror Hr))).
  - intros t. apply (F (engines_ok t)).
    + intros v. repeat split.
    + intros ms K. apply fold_all in K. repeat split; exact K.
    + intros ty fs K. apply fold_fields in K. exact K.
    + intros m' K. repeat split; try (intros; exact K).
      * intros k f Hf. cbn in Hf. repeat (destruct Hf as [[= <- <-]|Hf]; [cbn; tauto|]). destruct Hf.
      * intros k field f Hf. cbn in Hf. repeat (destruct Hf as [[= <- <- <-]|Hf]; [cbn; tauto|]). destruct Hf.
    + intros a b Ka Kb. cbn. tauto.
    + intros p r m' Hr K. cbn. split; [|exact K]. exact (proj2 (HR p r (or_introl Hr)) t).
    + intros p r Hr. exact (proj2 (HR p r (or_intror Hr)) t).
Qed.
Print Assumptions C87_only_searches.

(** C87, the whole program: [refex --mode=py -i] with any matcher expressions, templates,
    options and files: the only thing that is asked of the regexes in the expressions is
    that the engine reports places in the text (C86 asks it of the matcher). *)
Theorem C87_program : forall uni_word full_regex file_regex hashable key_code ast_classes negate_other dedent parse
    re_compile re_template fixers tokenize order ast_parse parse_env parse_ast context pass_template w dirs display f sty c ru files,
  let py_matcher_of := py_matcher uni_word full_regex file_regex hashable key_code ast_classes tokenize order ast_parse negate_other dedent parse in
  ast_module ast_classes ->
  (forall p r, full_regex p = Ok r \/ file_regex p = Ok r -> dict_ok (cr_groups r) /\ forall t, engine_ok t r) ->
  cm_mode c = ModePy -> co_in_place (cm_options c) = true ->
  (forall p, w_writable w p = true) -> (forall p b, w_device w p b = (b, false)) ->
  (forall p d, dirs p = Some d -> tidy d) ->
  prepare re_compile re_template py_matcher_of fixers tokenize order ast_parse parse_env parse_ast context pass_template dirs c = Ready (ru, files) ->
  NoDup (map fst files) ->
  (forall p t, In p (map fst files) -> file_text w f p t -> written_source parse_ast context t (display p)) ->
  let r := refex re_compile re_template py_matcher_of fixers tokenize order ast_parse parse_env parse_ast context pass_template w dirs display f sty c in
  d_end r = Ready tt ->
  (forall p, In p (map fst files) ->
     d_fs r p = f p
     \/ exists t ms es out b, finds w ru display f p p t ms /\ codec_write out = Some b /\ d_fs r p = Some b
        /\ Permutation es (flat_map edits_of ms) /\ Edited t 0 es out
        /\ forall new i j, In (new, i, j) es -> 0 <= i <= j /\ j <= tlen t)
  /\ (forall q, ~ In q (map fst files) -> d_fs r q = f q).
Proof.
  intros uni_word full_regex file_regex hashable key_code ast_classes negate_other dedent parse
    re_compile re_template fixers tokenize order ast_parse parse_env parse_ast context pass_template w dirs display f sty c ru files py_matcher_of HA HR Hm Hi Hw Hd T HS Hn HW.
  refine (C86_program re_compile re_template py_matcher_of fixers tokenize order ast_parse parse_env parse_ast context pass_template w dirs display f sty c ru files _ Hi Hw Hd T HS Hn HW).
  right. right. split; [exact Hm|]. intros q m Hq.
  destruct (C87_only_searches uni_word full_regex file_regex hashable key_code ast_classes tokenize order ast_parse negate_other dedent parse q m HA HR Hq) as (_ & _ & D & E). split; [exact D|exact E].
Qed.
Print Assumptions C87_program.

(** C87, what is not so.  Everywhere a matcher is expected, other values stand for
    equality with them (base_matchers, [ImplicitEquals]) -- except in AllOf and AnyOf. *)
Theorem C87_coerced_refuted : forall uni_word full_regex file_regex hashable key_code ast_classes tokenize order ast_parse fresh k args kwargs m,
  ast_module ast_classes -> k = TX "AllOf" \/ k = TX "AnyOf" ->
  calls uni_word full_regex file_regex hashable key_code ast_classes tokenize order ast_parse fresh k args kwargs m -> Forall is_matcher args.
Proof.
  intros uni_word full_regex file_regex hashable key_code ast_classes tokenize order ast_parse fresh k args kwargs m HA Hk H.
  pose (h := repeat (Event (TX "") ([] : list obj) []) fresh). assert (Hh : length h = fresh) by apply repeat_length. rewrite <- Hh in H.
  apply (class_complete uni_word full_regex file_regex hashable key_code ast_classes tokenize order ast_parse HA) in H as (module & c & Hc & E & Ho).
  assert (K : exists g, c = nary k g).
  { destruct Hk as [->| ->].
    - exists MAllOf. refine (same_class uni_word full_regex file_regex hashable key_code ast_classes tokenize order ast_parse HA module c (TX "base_matchers") (nary (TX "AllOf") MAllOf) Hc _ E).
      apply (in_base uni_word full_regex file_regex hashable key_code ast_classes tokenize order ast_parse 0); reflexivity.
    - exists MAnyOf. refine (same_class uni_word full_regex file_regex hashable key_code ast_classes tokenize order ast_parse HA module c (TX "base_matchers") (nary (TX "AnyOf") MAnyOf) Hc _ E).
      apply (in_base uni_word full_regex file_regex hashable key_code ast_classes tokenize order ast_parse 1); reflexivity. }
  destruct K as (g & ->). apply via_nary in Ho as (ms & _ & _ & ->). apply Forall_forall. intros x Hx. apply in_map_iff in Hx as (m' & <- & _). now exists m'.
Qed.
Print Assumptions C87_coerced_refuted.
(** MaybeWrapped and RecursivelyWrapped have names in these expressions, but no call of them
    can be written. *)
Theorem C87_wrapped_refuted : forall uni_word full_regex file_regex hashable key_code ast_classes tokenize order ast_parse fresh k args kwargs m,
  ast_module ast_classes -> k = TX "MaybeWrapped" \/ k = TX "RecursivelyWrapped" ->
  named ast_classes k k /\ ~ calls uni_word full_regex file_regex hashable key_code ast_classes tokenize order ast_parse fresh k args kwargs m.
Proof.
  intros uni_word full_regex file_regex hashable key_code ast_classes tokenize order ast_parse fresh k args kwargs m HA Hk. split.
  - exists (TX "base_matchers"). split; [|now left]. left. eexists. split; [now left|]. apply tmem_In. destruct Hk as [->| ->]; vm_compute; reflexivity.
  - intros H. pose (h := repeat (Event (TX "") ([] : list obj) []) fresh). assert (Hh : length h = fresh) by apply repeat_length. rewrite <- Hh in H.
    apply (class_complete uni_word full_regex file_regex hashable key_code ast_classes tokenize order ast_parse HA) in H as (module & c & Hc & E & Ho).
    assert (K : c_build c = fun _ _ => Err TypeError).
    { destruct Hk as [->| ->].
      - rewrite (same_class uni_word full_regex file_regex hashable key_code ast_classes tokenize order ast_parse HA module c (TX "base_matchers")
          (Cls (TX "MaybeWrapped") true (Some [(TX "inner", true); (TX "wrapper", true)]) false (fun _ _ => Err TypeError)) Hc
          (in_base uni_word full_regex file_regex hashable key_code ast_classes tokenize order ast_parse 14 _ eq_refl eq_refl) E). reflexivity.
      - rewrite (same_class uni_word full_regex file_regex hashable key_code ast_classes tokenize order ast_parse HA module c (TX "base_matchers")
          (Cls (TX "RecursivelyWrapped") true (Some [(TX "inner", true); (TX "wrapper", true)]) false (fun _ _ => Err TypeError)) Hc
          (in_base uni_word full_regex file_regex hashable key_code ast_classes tokenize order ast_parse 17 _ eq_refl eq_refl) E). reflexivity. }
    unfold instantiate in Ho. apply bind_Ok in Ho as (os & _ & Ho). rewrite K in Ho. discriminate Ho.
Qed.
Print Assumptions C87_wrapped_refuted.

(** *** A concrete case: [AllOf(Name(id='k'), base_matchers.Bind('x', on_conflict=BindConflict.MERGE), ItemsAre([1, _]))] *)
Definition q_classes : list (text * list text) := [(TX "BinOp", [TX "left"; TX "op"; TX "right"]); (TX "Name", [TX "id"; TX "ctx"]); (TX "Num", [TX "n"])].
Definition q_expr : pexpr :=
  ECall (EName (TX "AllOf"))
    [ ECall (EName (TX "Name")) [] [(Some (TX "id"), EConst (CStr (TX "k")))];
      ECall (EAttribute (EName (TX "base_matchers")) (TX "Bind")) [EConst (CStr (TX "x"))]
        [(Some (TX "on_conflict"), EAttribute (EName (TX "BindConflict")) (TX "MERGE"))];
      ECall (EName (TX "ItemsAre")) [EList [EConst (CNum KInt 2); EName (TX "_")]] [];
      ECall (EName (TX "Once")) [ECall (EName (TX "Num")) [] [(Some (TX "n"), EUnary (TX "USub") (EConst (CNum KInt 2)))]] [] ] [].
Definition q_parse (src : text) : res pexpr :=
  if text_eqb src (TX "q") then Ok q_expr
  else if text_eqb src (TX "AllOf(1)") then Ok (ECall (EName (TX "AllOf")) [EConst (CNum KInt 2)] [])
  else if text_eqb src (TX "Unless(1)") then Ok (ECall (EName (TX "Unless")) [EConst (CNum KInt 2)] [])
  else Err SyntaxError.
Definition q_matcher (src : text) : res matcher :=
  py_matcher (fun _ => false) (fun _ => Err ValueError) (fun _ => Err ValueError) (fun _ => true) (fun _ => 0) q_classes
    (fun _ => Err ValueError) (fun l => l) (fun _ => Err ValueError) (fun c => c) (fun s => s) q_parse src.
Example C87_nonvacuous :
  ast_module q_classes
  /\ q_matcher (TX "q") = Ok (MAllOf
       [ MNode (TX "Name") [(TX "id", MEquals (VConst (-1) (CStr (TX "k")))); (TX "ctx", MAnything)];
         MBind (TX "x") MAnything (Some MERGE) None;
         MItemsAre [MEquals (VConst (-1) (CNum KInt 2)); MAnything];
         MOnce (- 5) (MNum (MEquals (VConst (-1) (CNum KInt (- 2))))) ])
  /\ q_matcher (TX "AllOf(1)") = Err AttributeError
  /\ q_matcher (TX "Unless(1)") = Ok (MUnless (MEquals (VConst (-1) (CNum KInt 2)))).
Proof.
  split; [|vm_compute; repeat split]. split; [apply distinct_ok; vm_compute; reflexivity|]. split.
  - repeat constructor; try (apply distinct_ok; vm_compute; reflexivity); cbn; intros K; repeat (destruct K as [K|K]; [vm_compute in K; discriminate K|]); exact K.
  - intros module ks k H1 H2 H3. assert (E : forallb (fun mk => forallb (fun k => negb (tmem k (map fst q_classes))) (snd mk)) module_names = true) by (vm_compute; reflexivity).
    rewrite forallb_forall in E. specialize (E _ H1). rewrite forallb_forall in E. specialize (E _ H2). apply tmem_In in H3. rewrite H3 in E. discriminate E.
Qed.
