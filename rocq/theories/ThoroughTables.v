(** No place is missed: all the fixers together; proofs. *)
From Verif Require Import TemplateProofs Py PyFacts Subst ApplySpec Ast Template FromDiff Matcher MatchSpec MergeSpec MergeProofs MatcherProofs BindProofs OnceProofs FindSpec FindProofs
  FilterSpec NavSpec NavProofs CollSpec CollProofs PatTok PatSpec Pattern PatternSpec EquivProofs PatternProofs PatternApi
  PyTemplate PyTemplateSpec PyTemplateProofs Search SearchSpec Removal OwnSpec
  PropsTemplate ExprSubSpec ExprSubProofs PropsExprSub Fixer FixerSpec FixerProofs PyCode BuiltinFixers BuiltinSpec CodeProofs BuiltinProofs BuiltinApply BuiltinTables BuiltinMain
  CorrectnessFixers CorrectnessSpec CorrectnessProofs CorrectnessMain CorrectnessSearch ThoroughSpec ThoroughCode ThoroughProofs ThoroughSearch ThoroughMain ThoroughAttrib.
From Coq Require Import Permutation.

Lemma app_nonempty {X} (a : list X) x b : a ++ x :: b <> [].
Proof. destruct a; discriminate. Qed.
Lemma all_exposed_ok : Forall (fun oc : code label * code label => exposed_ok (tree_of (fst oc)) = true) all_codes.
Proof. repeat (apply Forall_cons; [vm_compute; reflexivity|]). constructor. Qed.
Lemma simple_single : Forall (fun oc : code label * code label => NoDup (left_open (fst oc))) (alias_codes ++ message_codes ++ negation_codes).
Proof. repeat (apply Forall_cons; [nodup_tac|]). constructor. Qed.

Section Main.
  Variable tokenize : text -> res (list ptok).
  Variable order : list nat -> list nat.
  Variable ast_parse : text -> res value.
  Variable parse_env : text -> res env.
  Variable G : grammar.
  Hypothesis HO : forall l, Permutation (order l) l.
  Hypothesis HG : proper G.
  Hypothesis HGp : python_grammar G.
  Hypothesis HGc : call_grammar G.
  Hypothesis HA : python_ast G ast_parse.
  Hypothesis HE : parses_evaluated ast_parse.
  Variable e : env.
  Hypothesis PT : parsed_tree G (e_tree e).
  Hypothesis HW : well_positioned e.
  Notation pfixer := (pattern_fixer tokenize order ast_parse parse_env).
  Notation Understood codes := (understood_all tokenize ast_parse codes).

  (** *** The unittest and idiom fixers *)
  Definition table_row (oc : code label * code label) (f : fixer) : Prop :=
    exists msg url cat sig, ~ In [] [msg; url; cat] /\ pfixer (source (fst oc)) (source (snd oc)) msg url cat sig = Ok f.
  Lemma table_rows {X} (fix_ : X -> res fixer) (old new : X -> text) entries codes fs :
    (forall x f, In x entries -> fix_ x = Ok f -> exists msg url cat sig, ~ In [] [msg; url; cat] /\ pfixer (old x) (new x) msg url cat sig = Ok f) ->
    Forall2 (fun x oc => written (old x) (new x) oc) entries codes ->
    mapM fix_ entries = Ok fs -> Forall2 table_row codes fs.
  Proof.
    intros H W M. apply mapM_Forall2 in M. revert codes W. induction M as [|x f entries fs Hf M IH]; intros codes W; inversion W as [|? oc ? codes' [W1 W2] W']; subst; constructor.
    - destruct (H x f (or_introl eq_refl) Hf) as (msg & url & cat & sig & N & E). rewrite W1, W2 in E. exists msg, url, cat, sig. auto.
    - apply IH; [|exact W']. intros y g Hy. apply H. now right.
  Qed.
  Lemma unittest_rows uf : unittest_fixers tokenize order ast_parse parse_env = Ok uf -> Forall2 table_row (alias_codes ++ message_codes) uf.
  Proof.
    unfold unittest_fixers. intros H. apply bind_Ok in H as (a & Ha & H). apply bind_Ok in H as (m & Hm & H). injection H as <-.
    apply Forall2_app.
    - eapply table_rows; [|exact alias_written|exact Ha]. intros [[old new] url] f Hin H. unfold assert_alias_fixer in H.
      apply bind_Ok in H as (o & _ & H). apply bind_Ok in H as (n & _ & H). cbn [fst snd]. eexists _, _, _, _. split; [|exact H].
      intros [K|[K|[K|[]]]]; [exact (app_nonempty _ _ _ K)| |discriminate K]. destruct Hin as [E|[]]. apply (f_equal snd) in E. cbn [snd] in E. rewrite K in E. discriminate E.
    - eapply table_rows; [|exact message_written|exact Hm]. intros [[[old new] mt] ab] f _ H. unfold assert_message_fixer in H.
      apply bind_Ok in H as (o & _ & H). apply bind_Ok in H as (n & _ & H). cbn [fst snd]. eexists _, _, _, _. split; [|exact H].
      intros [K|[K|[K|[]]]]; [exact (app_nonempty _ _ _ K)|destruct ab; discriminate K|discriminate K].
  Qed.
  Lemma idiom_rows entries codes fs : Forall (fun x : text * text * text => snd x <> []) entries ->
    Forall2 (fun (x : text * text * text) oc => written (fst (fst x)) (snd (fst x)) oc) entries codes ->
    mapM (idiom_fixer tokenize order ast_parse parse_env) entries = Ok fs -> Forall2 table_row codes fs.
  Proof.
    intros Nc. eapply table_rows. intros [[old new] cat] f Hin H. unfold idiom_fixer in H. apply bind_Ok in H as (o & _ & H). apply bind_Ok in H as (n & _ & H). cbn [fst snd].
    rewrite Forall_forall in Nc. specialize (Nc _ Hin). cbn [snd] in Nc. eexists _, _, _, _. split; [|exact H]. intros [K|[K|[K|[]]]]; [discriminate K|discriminate K|congruence].
  Qed.
  Lemma negation_rows nf : negation_fixers tokenize order ast_parse parse_env = Ok nf -> Forall2 table_row negation_codes nf.
  Proof. apply idiom_rows; [repeat constructor; discriminate|exact negation_written]. Qed.
  Lemma comprehension_rows cf : comprehension_fixers tokenize order ast_parse parse_env = Ok cf -> Forall2 table_row comprehension_codes cf.
  Proof. apply idiom_rows; [repeat constructor; discriminate|exact comprehension_written]. Qed.

  Hypothesis U : Understood all_codes.
  Lemma row_sure oc f : In oc all_codes -> table_row oc f -> sure e f (stands_out e (fst oc) (fun _ _ => True) (fun _ => True)).
  Proof.
    intros Hin (msg & url & cat & sig & N & H). unfold pattern_fixer in H. apply bind_Ok in H as (m & Hm & H). apply bind_Ok in H as (t & Ht & H). injection H as <-.
    pose proof all_exposed_ok as X. pose proof all_nonempty as Ne. pose proof all_lexed as L. pose proof no_meta_labels as Nm. pose proof U as U0. unfold understood_all in U0. unfold all_codes in *. rewrite Forall_forall in X, Ne, L, Nm, U0.
    destruct (U0 _ Hin) as [U1 _], (L _ Hin) as [L1 _].
    apply (catch tokenize order ast_parse parse_env G HO HG HGp HA HE e PT HW (fst oc) [] (fun _ _ => True) (fun m => m) (fun _ => True) m (source (snd oc)) t msg url cat sig); auto.
    - intros [K|K]; [exact (Ne _ Hin K)|exact (N K)].
    - discriminate.
    - intros holes p Cond m0 H d c s occ Ic O [HC _]. now apply (H d c s occ).
  Qed.
  Lemma comprehension_out (comp : forall A, code A -> code A -> code A -> code A) elt target iter c :
    comp = @ListComp \/ comp = @SetComp -> same_code_by_id elt target -> made_of (comp _ (Var elt) (Var target) (Var iter)) c ->
    stands_out e (comp _ (Var (TX "a")) (Var (TX "a")) (Var (TX "b"))) (fun _ _ => True) (fun _ => True) c.
  Proof.
    intros Hc Si M. split; [exact I|]. split; [destruct Hc as [-> | ->]; discriminate|].
    set (R := fun (x : label) (w : value) => x = TX "a" /\ (w = elt \/ w = target) \/ x = TX "b" /\ w = iter).
    exists R. split; [|split; [auto|]].
    - assert (K : forall ty, stands eq (TNode ty [(TX "elt", TVar elt); (TX "generators", TList [comprehension (TVar target) (TVar iter)])]) c ->
        stands R (TNode ty [(TX "elt", TVar (TX "a")); (TX "generators", TList [comprehension (TVar (TX "a")) (TVar (TX "b"))])]) c).
      { intros ty H.
        inversion H as [| | | |? ? i gs Ht K]; subst. apply ST_node; [reflexivity|]. inversion K as [|? [n1 v1] ? ? [N1 S1] K1]; subst. inversion K1 as [|? [n2 v2] ? ? [N2 S2] K2]; subst.
        inversion K2; subst. cbn [fst snd] in *. subst. inversion S1; subst. inversion S2 as [| | |? id m F|]; subst. inversion F as [|? w ? ? S3 F1]; subst. inversion F1; subst.
        inversion S3 as [| | | |? ? j hs Hj K3]; subst. inversion K3 as [|? [n3 v3] ? ? [N3 S4] K4]; subst. inversion K4 as [|? [n4 v4] ? ? [N4 S5] K5]; subst.
        inversion K5 as [|? [n5 v5] ? ? [N5 S6] K6]; subst. inversion K6 as [|? [n6 v6] ? ? [N6 S7] K7]; subst. inversion K7; subst.
        cbn [fst snd] in *. subst. inversion S4; subst. inversion S5; subst. inversion S6 as [| | |? ? ? F2|]; subst. inversion F2; subst. inversion S7; subst.
        constructor; [split; [reflexivity|apply ST_var; left; auto]|]. constructor; [|constructor]. split; [reflexivity|]. apply ST_list.
        constructor; [|constructor]. apply ST_node; [exact Hj|]. constructor; [split; [reflexivity|apply ST_var; left; auto]|]. constructor; [split; [reflexivity|apply ST_var; right; auto]|].
        constructor; [split; [reflexivity|apply ST_list; constructor]|]. constructor; [split; [reflexivity|now apply ST_const]|]. constructor. }
      destruct Hc as [-> | ->]; now apply K.
    - intros occ Eo F. assert (Eo' : map fst occ = [TX "a"; TX "a"; TX "b"]) by (destruct Hc as [-> | ->]; exact Eo).
      assert (Eqv : forall x y, found_part e R x -> found_part e R y -> fst x = TX "a" -> fst y = TX "a" -> equivalent_code (snd x) (snd y)).
      { intros [x mx] [y my] (w & Rw & Lw & Iw & ->) (w' & Rw' & Lw' & Iw' & ->). cbn [fst snd]. intros -> ->. exists w, w'.
        destruct (located_match (e_parsed e) w Lw) as (f1 & l1 & -> & _). destruct (located_match (e_parsed e) w' Lw') as (f2 & l2 & -> & _).
        split; [reflexivity|]. split; [reflexivity|]. apply (ast_equivalent_iff G (e_tree e)); auto. cbn [fst] in *.
        destruct Rw as [[_ Rw]|[Rw _]]; [|discriminate Rw]. destruct Rw' as [[_ Rw']|[Rw' _]]; [|discriminate Rw'].
        destruct Rw as [-> | ->], Rw' as [-> | ->]; auto using same_by_id_refl, same_by_id_sym. }
      destruct occ as [|x [|y [|z [|]]]]; try discriminate Eo'. cbn [map] in Eo'. injection Eo' as Ex Ey Ez.
      inversion F as [|? ? F1 Fr]; subst. inversion Fr as [|? ? F2 Fr']; subst. inversion Fr' as [|? ? F3 _]; subst.
      assert (Nab : TX "a" <> TX "b") by discriminate.
      constructor; [constructor; [auto|constructor; [congruence|constructor]]|]. constructor; [constructor; [congruence|constructor]|]. constructor; constructor.
  Qed.

  Lemma rows_find codes fs oc : Forall2 table_row codes fs -> In oc codes -> exists f, In f fs /\ table_row oc f.
  Proof.
    induction 1 as [|x f codes fs H F IH]; intros Hin; [destruct Hin|]. destruct Hin as [->|Hin]; [exists f; split; [now left|exact H]|].
    destruct (IH Hin) as (g & A & B). exists g. split; [now right|exact B].
  Qed.
  Lemma rows_back codes fs f : Forall2 table_row codes fs -> In f fs -> exists oc, In oc codes /\ table_row oc f.
  Proof.
    induction 1 as [|x g codes fs H F IH]; intros Hin; [destruct Hin|]. destruct Hin as [->|Hin]; [exists x; split; [now left|exact H]|].
    destruct (IH Hin) as (oc & A & B). exists oc. split; [now right|exact B].
  Qed.
  Lemma all_rows uf nf mf : unittest_fixers tokenize order ast_parse parse_env = Ok uf -> negation_fixers tokenize order ast_parse parse_env = Ok nf ->
    comprehension_fixers tokenize order ast_parse parse_env = Ok mf -> Forall2 table_row all_codes (uf ++ nf ++ mf).
  Proof.
    intros Hu Hn Hc. unfold all_codes. apply unittest_rows in Hu. apply negation_rows in Hn. apply comprehension_rows in Hc.
    rewrite app_assoc. apply Forall2_app; [exact Hu|]. now apply Forall2_app.
  Qed.
  Lemma unidiomatic_sure uf nf mf c : unittest_fixers tokenize order ast_parse parse_env = Ok uf -> negation_fixers tokenize order ast_parse parse_env = Ok nf ->
    comprehension_fixers tokenize order ast_parse parse_env = Ok mf -> unidiomatic c ->
    exists f Q, In f (uf ++ nf ++ mf) /\ sure e f Q /\ Q c.
  Proof.
    intros Hu Hn Hc H. pose proof (all_rows uf nf mf Hu Hn Hc) as R.
    assert (K : exists oc, In oc all_codes /\ stands_out e (fst oc) (fun _ _ => True) (fun _ => True) c).
    { destruct H as [(Ev & old & new & parts & Hin & M)|(elt & target & iter & Si & M)].
      - exists (old, new). split; [unfold all_codes; rewrite !in_app_iff in *; tauto|]. cbn [fst]. split; [exact I|]. split; [auto|].
        exists (fun x w => parts x = w). split; [now apply filled_reads|]. split; [auto|]. intros occ. apply distinct_alike.
        pose proof simple_single as S. rewrite Forall_forall in S. exact (S _ Hin).
      - destruct M as [M|M].
        + exists (ListComp (Var (TX "a")) (Var (TX "a")) (Var (TX "b")), Call (Name (TX "list")) [Var (TX "b")]). split; [unfold all_codes; rewrite !in_app_iff; right; right; right; now left|].
          cbn [fst]. apply (comprehension_out (@ListComp) elt target iter); auto.
        + exists (SetComp (Var (TX "a")) (Var (TX "a")) (Var (TX "b")), Call (Name (TX "set")) [Var (TX "b")]). split; [unfold all_codes; rewrite !in_app_iff; right; right; right; right; now left|].
          cbn [fst]. apply (comprehension_out (@SetComp) elt target iter); auto. }
    destruct K as (oc & Hin & So). destruct (rows_find _ _ _ R Hin) as (f & Hf & Row). exists f. eexists. split; [exact Hf|]. split; [apply (row_sure oc); assumption|exact So].
  Qed.
  Lemma unidiomatic_reliable uf nf mf f : unittest_fixers tokenize order ast_parse parse_env = Ok uf -> negation_fixers tokenize order ast_parse parse_env = Ok nf ->
    comprehension_fixers tokenize order ast_parse parse_env = Ok mf -> In f (uf ++ nf ++ mf) -> reliable e f.
  Proof.
    intros Hu Hn Hc Hf. destruct (rows_back _ _ _ (all_rows uf nf mf Hu Hn Hc) Hf) as (oc & Hin & Row). apply (row_sure oc f Hin Row).
  Qed.

  (** *** The correctness fixers *)
  Hypothesis UE : Understood entry_codes.
  Hypothesis UA : Forall (understood tokenize ast_parse) attrib_codes.
  Lemma correctness_sure cf : correctness_fixers tokenize order ast_parse parse_env = Ok cf ->
    (forall en, In en entries -> exists f, In f cf /\ sure e f (bug en e))
    /\ (forall value txt, In (value, txt) factories -> exists f, In f cf /\ sure e f (shared value))
    /\ forall f, In f cf -> reliable e f.
  Proof.
    unfold correctness_fixers. intros H. apply bind_Ok in H as (b & Hb & H). apply bind_Ok in H as (a & Ha & H). apply bind_Ok in H as (c & Hc & H). injection H as <-.
    pose proof (entry_caught tokenize order ast_parse parse_env G HO HG HGp HA HE e PT HW UE) as I. unfold fixer_list in I.
    apply mapM_Forall2 in Hb, Hc.
    assert (A : Forall2 (fun vt f => sure e f (shared (fst vt))) factories a).
    { unfold attrib_fixers in Ha. apply mapM_Forall2 in Ha. unfold attrib_entries in Ha. cbn [fst snd] in Ha.
      inversion Ha as [|? f1 ? l1 H1 K1]; subst. inversion K1 as [|? f2 ? l2 H2 K2]; subst. inversion K2 as [|? f3 ? l3 H3 K3]; subst. inversion K3; subst. cbn [fst snd] in *.
      unfold factories. constructor; [|constructor; [|constructor; [|constructor]]]; cbn [fst snd].
      - eapply (attrib_sure tokenize order ast_parse parse_env G HO HG HGp HGc HA HE e PT HW UA EmptyList); [right; now left|now left|reflexivity|reflexivity|reflexivity|reflexivity|exact H1].
      - eapply (attrib_sure tokenize order ast_parse parse_env G HO HG HGp HGc HA HE e PT HW UA EmptyDict); [right; right; now left|right; now left|reflexivity|reflexivity|reflexivity|reflexivity|exact H2].
      - eapply (attrib_sure tokenize order ast_parse parse_env G HO HG HGp HGc HA HE e PT HW UA (Call (Name (TX "set")) [])); [right; right; right; now left|right; right; now left|reflexivity|reflexivity|reflexivity|reflexivity|exact H3]. }
    assert (B : Forall2 (fun en f => sure e f (bug en e)) entries (b ++ c)).
    { revert I. generalize entries. intros ens I. pose proof (Forall2_app Hb Hc) as M. cbn [app] in M. clear - I M.
      revert M. generalize (b ++ c). intros fs M. revert ens I. induction M as [|r f rs fs Hr M IH]; intros ens I; inversion I; subst; constructor; auto. }
    assert (F : forall {X} (R : X -> fixer -> Prop) xs fs, Forall2 R xs fs -> (forall x, In x xs -> exists f, In f fs /\ R x f) /\ forall f, In f fs -> exists x, R x f).
    { intros X R xs fs F. induction F as [|x f xs fs Hx F [IH1 IH2]]; [split; intros ? []|]. split.
      - intros y [->|Hy]; [exists f; split; [now left|exact Hx]|]. destruct (IH1 y Hy) as (g & G1 & G2). exists g. split; [now right|exact G2].
      - intros g [->|Hg]; eauto. }
    destruct (F _ _ _ _ A) as [A1 A2]. destruct (F _ _ _ _ B) as [B1 B2]. clear F. split; [|split].
    - intros en Hen. destruct (B1 en Hen) as (f & Hf & Hs). exists f. split; [rewrite !in_app_iff in *; tauto|exact Hs].
    - intros value txt Hv. destruct (A1 _ Hv) as (f & Hf & Hs). exists f. split; [rewrite !in_app_iff; tauto|exact Hs].
    - intros f Hf. rewrite !in_app_iff in Hf. assert (K : In f (b ++ c) \/ In f a) by (rewrite in_app_iff; tauto). destruct K as [K|K].
      + destruct (B2 f K) as (en & Rl & _). exact Rl.
      + destruct (A2 f K) as (vt & Rl & _). exact Rl.
  Qed.
  Lemma bugs_sure cf c : correctness_fixers tokenize order ast_parse parse_env = Ok cf -> (exists en, In en entries /\ bug en e c) \/ shared_default c ->
    exists f Q, In f cf /\ sure e f Q /\ Q c.
  Proof.
    intros Hcf. destruct (correctness_sure cf Hcf) as (A & B & _). intros [(en & Hen & Hb)|(i & fs & func & id & kws & kw & value & txt & -> & H1 & H2 & H3 & H4 & H5 & H6 & H7)].
    - destruct (A en Hen) as (f & Hf & Hs). eauto.
    - destruct (B value txt H7) as (f & Hf & Hs). exists f. eexists. split; [exact Hf|]. split; [exact Hs|]. exists i, fs, func, id, kws, kw. auto 10.
  Qed.
End Main.
