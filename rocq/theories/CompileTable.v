(** Proofs for C87, continued: each class, and the table. *)
From Verif Require Import Py PyFacts Regex Ast Matcher MatcherProofs PatTok Pattern Pragmas Eval EvalSpec EvalProofs Compile CompileSpec CompileProofs.
From Verif Require FixerProofs.

(** *** The table *)
Section Table.
  Variable is_type : cls -> bool.
  Definition entry (mods : list (text * list (text * cls))) (n : text) (c : cls) : Prop :=
    exists module attrs a, In (module, attrs) mods /\ In (a, c) attrs /\ is_type c = true /\ c_safe c = true /\ (n = a \/ n = module ++ TX "." ++ a).
  Lemma add_module_total module attrs : forall table, exists t, add_module cls is_type c_safe true module attrs table = Ok t
    /\ (forall n c, dget t n = Some c -> dget table n = Some c \/ exists a, In (a, c) attrs /\ is_type c = true /\ c_safe c = true /\ (n = a \/ n = module ++ TX "." ++ a))
    /\ (forall n, dget table n <> None -> dget t n <> None)
    /\ (forall a c n, In (a, c) attrs -> is_type c = true -> c_safe c = true -> n = a \/ n = module ++ TX "." ++ a -> dget t n <> None).
  Proof.
    induction attrs as [|[a c] attrs IH]; intros table; cbn [add_module].
    - exists table. split; [reflexivity|]. split; [now left|]. split; [auto|]. intros ? ? ? [].
    - destruct (negb (is_type c) || negb (c_safe c)) eqn:E.
      + destruct (IH table) as (t & Ht & S & M & C). exists t. split; [exact Ht|]. split; [|split; [exact M|] ].
        * intros n c' H. destruct (S n c' H) as [K|(a' & K & R)]; [now left|right]. exists a'. split; [now right|exact R].
        * intros a' c' n [[= -> ->]|K] T Sf; [rewrite T, Sf in E; discriminate E|]. exact (C a' c' n K T Sf).
      + apply orb_false_iff in E as [E1 E2]. apply negb_false_iff in E1, E2. cbn [add_names fold_left fst orb].
        set (table' := dset (dset table a c) (module ++ TX "." ++ a) c). destruct (IH table') as (t & Ht & S & M & C). exists t. split; [exact Ht|].
        assert (G : forall n, n = a \/ n = module ++ TX "." ++ a -> dget table' n = Some c).
        { intros n H. unfold table'. rewrite !dget_dset. destruct (text_eqb_spec (module ++ TX "." ++ a) n) as [|N]; [reflexivity|]. destruct H as [->|H]; [|now destruct N]. now rewrite text_eqb_refl. }
        assert (G' : forall n, dget table n <> None -> dget table' n <> None).
        { intros n H. unfold table'. rewrite !dget_dset. destruct (text_eqb _ _); [discriminate|]. destruct (text_eqb _ _); [discriminate|exact H]. }
        split; [|split].
        * intros n c' H. destruct (S n c' H) as [K|(a' & K & R)]; [|right; exists a'; split; [now right|exact R] ]. unfold table' in K. rewrite !dget_dset in K.
          destruct (text_eqb_spec (module ++ TX "." ++ a) n) as [<-|_]; [injection K as <-; right; exists a; split; [now left|]; auto|].
          destruct (text_eqb_spec a n) as [<-|_]; [injection K as <-; right; exists a; split; [now left|]; auto|]. now left.
        * intros n H. apply M. now apply G'.
        * intros a' c' n [[= -> ->]|K] T Sf Hn; [apply M; rewrite (G n Hn); discriminate|]. exact (C a' c' n K T Sf Hn).
  Qed.
  Lemma add_modules_total mods : forall table, exists t, add_modules cls is_type c_safe mods table = Ok t
    /\ (forall n c, dget t n = Some c -> dget table n = Some c \/ entry mods n c)
    /\ (forall n, dget table n <> None -> dget t n <> None)
    /\ (forall n c, entry mods n c -> dget t n <> None).
  Proof.
    induction mods as [|[m attrs] mods IH]; intros table; cbn [add_modules].
    - exists table. split; [reflexivity|]. split; [now left|]. split; [auto|]. intros n c (? & ? & ? & [] & _).
    - destruct (add_module_total m attrs table) as (t1 & H1 & S1 & M1 & C1). rewrite H1. cbn [bind].
      destruct (IH t1) as (t & H2 & S2 & M2 & C2). exists t. split; [exact H2|]. split; [|split].
      + intros n c H. destruct (S2 n c H) as [K|(m' & at' & a & K & R)]; [|right; exists m', at', a; split; [now right|exact R] ].
        destruct (S1 n c K) as [K'|(a & R)]; [now left|right]. exists m, attrs, a. split; [now left|exact R].
      + intros n H. auto.
      + intros n c (m' & at' & a & [[= -> ->]|K] & R1 & R2 & R3 & R4).
        * apply M2. exact (C1 a c n R1 R2 R3 R4).
        * apply (C2 n c). exists m', at', a. auto.
  Qed.
End Table.

Section Classes.
  Variable uni_word : char -> bool.
  Variable full_regex file_regex : text -> res crx.
  Variable hashable : obj -> bool.
  Variable key_code : obj -> Z.
  Variable ast_classes : list (text * list text).
  Variable tokenize : text -> res (list ptok).
  Variable order : list nat -> list nat.
  Variable ast_parse : text -> res value.
  Notation base := (base_classes uni_word full_regex file_regex hashable key_code).
  Notation asts := (ast_matcher_classes ast_classes).
  Notation synt := (syntax_classes tokenize order ast_parse).
  Notation mods := (modules uni_word full_regex file_regex hashable key_code ast_classes tokenize order ast_parse).
  Notation table := (class_table uni_word full_regex file_regex hashable key_code ast_classes tokenize order ast_parse).
  Notation builds := (builds uni_word full_regex file_regex hashable key_code ast_classes tokenize order ast_parse).
  Notation calls := (calls uni_word full_regex file_regex hashable key_code ast_classes tokenize order ast_parse).

  Definition module_classes : list (text * list cls) :=
    [ (TX "ast_matchers", asts); (TX "base_matchers", base); (TX "lexical_matchers", lexical_classes); (TX "syntax_matchers", synt) ].
  Definition is_class (module : text) (c : cls) : Prop := exists cs, In (module, cs) module_classes /\ In c cs /\ c_safe c = true.
  Lemma entry_iff n c : entry (fun _ => true) mods n c <-> exists module, is_class module c /\ (n = c_name c \/ n = module ++ TX "." ++ c_name c).
  Proof.
    unfold entry, modules, is_class. fold module_classes. split.
    - intros (module & attrs & a & H1 & H2 & _ & H3 & H4). apply in_map_iff in H1 as ([m cs] & [= <- <-] & H1). cbn [fst snd] in *.
      apply in_map_iff in H2 as (c' & [= <- <-] & H2). exists m. split; [exists cs; auto|exact H4].
    - intros (module & (cs & H1 & H2 & H3) & H4). exists module, (map (fun c => (c_name c, c)) cs), (c_name c). split; [|split; [|split; [reflexivity|auto] ] ].
      + apply in_map_iff. exists (module, cs). auto.
      + apply in_map_iff. exists c. auto.
  Qed.

  (** Bound names. *)
  Lemma good_name_iff s : good_name uni_word s <-> bind_name uni_word s = true.
  Proof.
    unfold good_name, bind_name. split.
    - intros (H1 & c & r & -> & H2 & H3). apply andb_true_intro. split.
      + apply negb_true_iff. destruct (startswith (TX "__") (c :: r)) eqn:E; [|reflexivity]. exfalso. apply FixerProofs.startswith_app in E as (u & E). now apply (H1 u).
      + apply andb_true_intro. split; [lia|]. rewrite Forall_forall in H3. now apply forallb_forall.
    - intros H. apply andb_prop in H as [H1 H2]. apply negb_true_iff in H1. split.
      + intros r ->. assert (startswith (TX "__") (TX "__" ++ r) = true); [|congruence]. apply FixerProofs.startswith_app. now exists r.
      + destruct s as [|c r]; [discriminate H2|]. exists c, r. split; [reflexivity|]. apply andb_prop in H2 as [H2 H3]. split; [lia|]. rewrite forallb_forall in H3. now apply Forall_forall.
  Qed.
  Lemma restricts_iff l : forall d d', restricts d l d' <-> restrictions_of l d = Ok d'.
  Proof.
    induction l as [|[k v] l IH]; intros d d'; cbn [restrictions_of].
    - split; [intros H; inversion H; reflexivity|intros [= <-]; constructor].
    - split.
      + intros H. inversion H as [|? k' ? m ? ? S R]; subst. apply stands_iff in S. subst m. now apply IH.
      + destruct k as [[]| | | | | | |]; try discriminate. intros H. econstructor; [now apply stands_iff|]. now apply IH.
  Qed.
  Lemma restrictions_iff o d : restrictions o d <-> match o with None => Ok [] | Some (ODict l) => restrictions_of l [] | _ => Err TypeError end = Ok d.
  Proof.
    split.
    - intros [[-> ->]|(l & -> & R)]; [reflexivity|]. now apply restricts_iff.
    - destruct o as [[]|]; try discriminate; intros H; [right|left].
      + eexists. split; [reflexivity|]. now apply restricts_iff.
      + injection H as <-. auto.
  Qed.

  (** What a class makes is what its name says. *)
  Ltac member := cbn [In]; repeat (first [left; reflexivity | right]).
  Ltac binds H := repeat (let x := fresh "x" in let K := fresh "K" in apply bind_Ok in H as (x & K & H)).
  Ltac uniq := cbn [map fst]; repeat constructor; cbn; intros K; repeat (destruct K as [K|K]; [vm_compute in K; discriminate K|]); exact K.
  Lemma in_list {A} (x y : A) l : In x (y :: l) -> x = y \/ In x l.
  Proof. intros [->|H]; auto. Qed.
  Lemma via_params h c ps args kw o : c_params c = Some ps -> NoDup (map fst ps) ->
    instantiate c h args kw = Ok o <-> exists a m, o = OMatcher m /\ passes ps (c_by_name c) args kw a /\ c_build c (length h) (map a (map fst ps)) = Ok m.
  Proof.
    intros Hp Hn. unfold instantiate. rewrite Hp. split.
    - intros H. apply bind_Ok in H as (os & H1 & H). apply bind_Ok in H as (m & H2 & [= <-]). apply (passing ps (c_by_name c) args kw os Hn) in H1 as (a & Ha & ->). now exists a, m.
    - intros (a & m & -> & Ha & Hb). replace (pass_all ps (c_by_name c) args kw) with (Ok (map a (map fst ps))).
      + cbn [bind]. now rewrite Hb.
      + symmetry. apply passing; [exact Hn|]. now exists a.
  Qed.
  Lemma via_none h c args kw o : c_params c = None -> instantiate c h args kw = Ok o <-> exists m, o = OMatcher m /\ kw = [] /\ c_build c (length h) (map Some args) = Ok m.
  Proof.
    intros Hp. unfold instantiate. rewrite Hp. split.
    - destruct kw; [|discriminate]. cbn [bind]. intros H. apply bind_Ok in H as (m & H2 & [= <-]). now exists m.
    - intros (m & -> & -> & Hb). cbn [bind]. now rewrite Hb.
  Qed.
  Lemma via_nary h n f args kw o : instantiate (nary n f) h args kw = Ok o <-> exists ms, o = OMatcher (f ms) /\ kw = [] /\ args = map OMatcher ms.
  Proof.
    rewrite via_none by reflexivity. cbn [nary c_build]. split.
    - intros (m & -> & -> & H). apply bind_Ok in H as (ms & H & [= <-]). apply matchers_iff in H. exists ms. split; [reflexivity|]. split; [reflexivity|].
      clear -H. revert ms H. induction args as [|x args IH]; intros [|m ms] H; try discriminate H; [reflexivity|]. injection H as -> H. cbn [map]. f_equal. now apply IH.
    - intros (ms & -> & -> & ->). exists (f ms). split; [reflexivity|]. split; [reflexivity|].
      replace (only_matchers (map Some (map OMatcher ms))) with (Ok ms); [reflexivity|]. symmetry. now apply matchers_iff.
  Qed.
  Lemma one_param {A} (x : A) : NoDup (map fst [(x, true)]).
  Proof. constructor; [intros []|constructor]. Qed.
  Lemma via_simple h n f args kw o : instantiate (simple n f) h args kw = Ok o <->
    exists a m, o = OMatcher (f m) /\ passes [(TX "submatcher", true)] false args kw a /\ submatcher (a (TX "submatcher")) m.
  Proof.
    rewrite (via_params h (simple n f) [(TX "submatcher", true)] args kw o eq_refl (one_param _)). cbn [simple c_by_name c_build map fst]. split.
    - intros (a & m & -> & Ha & [= <-]). exists a, (sub (a (TX "submatcher"))). split; [reflexivity|]. split; [exact Ha|]. now apply sub_iff.
    - intros (a & m & -> & Ha & Hs). apply sub_iff in Hs. subst m. exists a, (f (sub (a (TX "submatcher")))). auto.
  Qed.

  Lemma base_sound h c args kw o : In c base -> c_safe c = true -> instantiate c h args kw = Ok o -> exists m, o = OMatcher m /\ calls (length h) (c_name c) args kw m.
  Proof.
    intros Hc Hs H. unfold base_classes in Hc.
    repeat (apply in_list in Hc as [->|Hc]; [try discriminate Hs; clear Hs|]); [..|destruct Hc].
    - apply via_nary in H as (ms & -> & -> & ->). exists (MAllOf ms). split; [reflexivity|]. apply C_all.
    - apply via_nary in H as (ms & -> & -> & ->). exists (MAnyOf ms). split; [reflexivity|]. apply C_any.
    - eapply (via_params h _ []) in H; [|reflexivity|uniq]. destruct H as (a & m & -> & Ha & H). cbn in H. injection H as <-. eexists. split; [reflexivity|].
      eapply C_class; [apply (B_anything _ _ _ _ _ _ _ _ _ (length h) a)|exact Ha].
    - eapply (via_params h _ [(TX "name", true); (TX "submatcher", false); (TX "on_conflict", false); (TX "on_merge", false)]) in H; [|reflexivity|uniq].
      destruct H as (a & m & -> & Ha & H). cbn [c_build map fst] in H. apply bind_Ok in H as (name & H1 & H). destruct (negb (bind_name uni_word name)) eqn:E; [discriminate H|].
      apply negb_false_iff in E. apply bind_Ok in H as (c & H2 & H). apply bind_Ok in H as (g & H3 & [= <-]). eexists. split; [reflexivity|].
      eapply C_class; [apply (B_bind _ _ _ _ _ _ _ _ _ (length h) a name (sub (a (TX "submatcher"))) c g)|exact Ha];
        [now apply string_iff|now apply good_name_iff|now apply sub_iff|now apply conflict_iff|now apply merge_iff].
    - apply via_simple in H as (a & m & -> & Ha & Hm). eexists. split; [reflexivity|]. eapply C_class; [eapply (B_one _ _ _ _ _ _ _ _ _ (length h) (TX "Contains") MContains a m); [member|exact Hm]|exact Ha].
    - eapply (via_params h _ [(TX "value", true)]) in H; [|reflexivity|uniq]. destruct H as (a & m & -> & Ha & H). cbn [c_build map fst] in H.
      destruct (a (TX "value")) as [o|] eqn:E; [|discriminate H]. injection H as <-. eexists. split; [reflexivity|].
      eapply C_class; [apply (B_equals _ _ _ _ _ _ _ _ _ (length h) a o); [exact E|now apply equal_to_iff]|exact Ha].
    - eapply (via_params h _ [(TX "regex", true)]) in H; [|reflexivity|uniq]. destruct H as (a & m & -> & Ha & H). cbn [c_build map fst] in H.
      apply bind_Ok in H as (p & H1 & H). apply bind_Ok in H as (r & H2 & [= <-]). eexists. split; [reflexivity|].
      eapply C_class; [apply (B_file_regex _ _ _ _ _ _ _ _ _ (length h) a p r); [now apply string_iff|exact H2]|exact Ha].
    - eapply (via_params h _ [(TX "index", true); (TX "submatcher", false)]) in H; [|reflexivity|uniq]. destruct H as (a & m & -> & Ha & H). cbn [c_build map fst] in H.
      destruct (a (TX "index")) as [o|] eqn:E; [|discriminate H]. apply bind_Ok in H as (n & H1 & [= <-]). eexists. split; [reflexivity|].
      eapply C_class; [apply (B_item _ _ _ _ _ _ _ _ _ (length h) a o n); [exact E|now apply integer_iff|now apply sub_iff]|exact Ha].
    - eapply (via_params h _ [(TX "lines", true)]) in H; [|reflexivity|uniq]. destruct H as (a & m & -> & Ha & H). cbn [c_build map fst] in H.
      destruct (a (TX "lines")) as [[c|l|l|l|l|m'|c|g]|] eqn:E; try discriminate H; apply bind_Ok in H as (ns & H1 & [= <-]); eexists; (split; [reflexivity|]);
        (eapply C_class; [apply (B_lines _ _ _ _ _ _ _ _ _ (length h) a l ns); [tauto|now apply integers_iff]|exact Ha]).
    - eapply (via_params h _ [(TX "matchers", true)]) in H; [|reflexivity|uniq]. destruct H as (a & m & -> & Ha & H). cbn [c_build map fst] in H.
      destruct (a (TX "matchers")) as [o|] eqn:E; [|discriminate H]. apply bind_Ok in H as (ms & H1 & [= <-]). eexists. split; [reflexivity|].
      eapply C_class; [apply (B_items _ _ _ _ _ _ _ _ _ (length h) a ms); rewrite E; now apply items_iff|exact Ha].
    - eapply (via_params h _ [(TX "regex", true); (TX "subpattern", false)]) in H; [|reflexivity|uniq]. destruct H as (a & m & -> & Ha & H). cbn [c_build map fst] in H.
      apply bind_Ok in H as (p & H1 & H). apply bind_Ok in H as (r & H2 & [= <-]). eexists. split; [reflexivity|].
      eapply C_class; [apply (B_regex _ _ _ _ _ _ _ _ _ (length h) a p r); [now apply string_iff|exact H2|now apply sub_iff]|exact Ha].
    - eapply (via_params h _ [(TX "inner", true); (TX "wrapper", true)]) in H; [|reflexivity|uniq]. destruct H as (a & m & -> & Ha & H). discriminate H.
    - eapply (via_params h _ [(TX "submatcher", true); (TX "key", false)]) in H; [|reflexivity|uniq]. destruct H as (a & m & -> & Ha & H). cbn [c_build map fst] in H.
      destruct (a (TX "key")) as [k|] eqn:E; [destruct (hashable k) eqn:Hk; [|discriminate H]|]; injection H as <-; eexists; (split; [reflexivity|]).
      + eapply C_class; [apply (B_once_key _ _ _ _ _ _ _ _ _ (length h) a k); [exact E|exact Hk|now apply sub_iff]|exact Ha].
      + eapply C_class; [apply (B_once_own _ _ _ _ _ _ _ _ _ (length h) a); [exact E|now apply sub_iff]|exact Ha].
    - eapply (via_params h _ [(TX "submatcher", false); (TX "on_conflict", false); (TX "on_merge", false)]) in H; [|reflexivity|uniq].
      destruct H as (a & m & -> & Ha & H). cbn [c_build map fst] in H. apply bind_Ok in H as (c & H2 & H). apply bind_Ok in H as (g & H3 & [= <-]). eexists. split; [reflexivity|].
      eapply C_class; [apply (B_rebind _ _ _ _ _ _ _ _ _ (length h) a (sub (a (TX "submatcher"))) c g)|exact Ha]; [now apply sub_iff|now apply conflict_iff|now apply merge_iff].
    - eapply (via_params h _ [(TX "inner", true); (TX "wrapper", true)]) in H; [|reflexivity|uniq]. destruct H as (a & m & -> & Ha & H). discriminate H.
    - eapply (via_params h _ [(TX "string", true)]) in H; [|reflexivity|uniq]. destruct H as (a & m & -> & Ha & H). cbn [c_build map fst] in H.
      apply bind_Ok in H as (p & H1 & [= <-]). eexists. split; [reflexivity|]. eapply C_class; [apply (B_string _ _ _ _ _ _ _ _ _ (length h) a p); now apply string_iff|exact Ha].
    - eapply (via_params h _ [(TX "message", true)]) in H; [|reflexivity|uniq]. destruct H as (a & m & -> & Ha & H). cbn [c_build map fst] in H. injection H as <-.
      eexists. split; [reflexivity|]. eapply C_class; [apply (B_raise _ _ _ _ _ _ _ _ _ (length h) a)|exact Ha].
    - eapply (via_params h _ [(TX "type", true)]) in H; [|reflexivity|uniq]. destruct H as (a & m & -> & Ha & H). cbn [c_build map fst] in H.
      destruct (a (TX "type")) as [o|] eqn:E; [|discriminate H]. destruct (hashable o) eqn:Ho; [|discriminate H]. injection H as <-. eexists. split; [reflexivity|].
      eapply C_class; [apply (B_type_is _ _ _ _ _ _ _ _ _ (length h) a o); [exact E|exact Ho]|exact Ha].
    - apply via_simple in H as (a & m & -> & Ha & Hm). eexists. split; [reflexivity|]. eapply C_class; [eapply (B_one _ _ _ _ _ _ _ _ _ (length h) (TX "Unless") MUnless a m); [member|exact Hm]|exact Ha].
  Qed.

  Lemma const_iff n field f h args kw o : instantiate (const_class n field f) h args kw = Ok o <->
    exists a m, o = OMatcher (f m) /\ passes [(field, false)] true args kw a /\ submatcher (a field) m.
  Proof.
    rewrite (via_params h (const_class n field f) [(field, false)] args kw o eq_refl); [|constructor; [intros []|constructor] ]. cbn [const_class c_by_name c_build map fst]. split.
    - intros (a & m & -> & Ha & [= <-]). exists a, (sub (a field)). split; [reflexivity|]. split; [exact Ha|]. now apply sub_iff.
    - intros (a & m & -> & Ha & Hs). apply sub_iff in Hs. subst m. exists a, (f (sub (a field))). auto.
  Qed.
  Lemma ellipsis_iff h args kw o : instantiate (Cls (TX "Ellipsis") true (Some []) false (fun _ _ => Ok (MConst [TX "ellipsis"] (MEquals (VConst (-1) CEllipsis))))) h args kw = Ok o <->
    exists a, o = OMatcher (MConst [TX "ellipsis"] (MEquals (VConst (-1) CEllipsis))) /\ passes [] false args kw a.
  Proof.
    match goal with |- instantiate ?c _ _ _ = _ <-> _ => rewrite (via_params h c [] args kw o eq_refl (NoDup_nil _)) end. cbn [c_by_name c_build map fst]. split.
    - intros (a & m & -> & Ha & [= <-]). now exists a.
    - intros (a & -> & Ha). exists a. eexists. auto.
  Qed.
  Lemma names_of_fields fields : map fst (map (fun f : text => (f, false)) fields) = fields.
  Proof. rewrite map_map. cbn [fst]. apply map_id. Qed.
  Lemma node_iff ty fields h args kw o : NoDup fields -> instantiate (node_class (ty, fields)) h args kw = Ok o <->
    exists a ms, o = OMatcher (MNode ty (combine fields ms)) /\ passes (map (fun f => (f, false)) fields) true args kw a /\ Forall2 (fun f m => submatcher (a f) m) fields ms.
  Proof.
    intros Hn. rewrite (via_params h (node_class (ty, fields)) (map (fun f => (f, false)) fields) args kw o eq_refl); rewrite names_of_fields; [|exact Hn].
    cbn [node_class c_by_name c_build fst snd].
    assert (K : forall a ms, Forall2 (fun f m => submatcher (a f) m) fields ms <-> ms = map sub (map a fields)).
    { intros a ms. clear. revert ms. induction fields as [|f fields IH]; intros ms; cbn [map].
      - split; [intros H; inversion H; reflexivity|intros ->; constructor].
      - split.
        + intros H. inversion H as [|? m ? ms' H1 H2]; subst. apply sub_iff in H1. apply IH in H2. now rewrite <- H1, <- H2.
        + intros ->. constructor; [now apply sub_iff|now apply IH]. }
    split.
    - intros (a & m & -> & Ha & [= <-]). exists a, (map sub (map a fields)). split; [reflexivity|]. split; [exact Ha|]. now apply K.
    - intros (a & ms & -> & Ha & Hs). apply K in Hs. subst ms. exists a. eexists. auto.
  Qed.
  Notation const_names := (TX "Ellipsis" :: map (fun x => fst (fst x)) constant_classes).
  Lemma same_names x : In x (map c_name const_classes) <-> In x const_names.
  Proof. cbn. tauto. Qed.
  Hypothesis module_ok : ast_module ast_classes.
  Lemma fields_differ ty fields : In (ty, fields) ast_classes -> NoDup fields.
  Proof. intros H. destruct module_ok as (_ & F & _). rewrite Forall_forall in F. exact (proj1 (F _ H)). Qed.

  Lemma ast_sound h c args kw o : In c asts -> c_safe c = true -> instantiate c h args kw = Ok o -> exists m, o = OMatcher m /\ calls (length h) (c_name c) args kw m.
  Proof.
    intros Hc Hs H. unfold ast_matcher_classes in Hc. apply in_app_iff in Hc as [Hc|Hc].
    - unfold const_classes in Hc. repeat (apply in_list in Hc as [->|Hc]; [clear Hs|]); [..|destruct Hc].
      1, 3, 4, 5: apply const_iff in H as (a & m & -> & Ha & Hm); eexists; (split; [reflexivity|]); (eapply C_class; [|exact Ha]); eapply (B_const _ _ _ _ _ _ _ _ _ (length h)); [|exact Hm]; member.
      apply ellipsis_iff in H as (a & -> & Ha). eexists. split; [reflexivity|]. eapply C_class; [|exact Ha]. apply (B_ellipsis _ _ _ _ _ _ _ _ _ (length h)).
    - apply in_list in Hc as [->|Hc]; [discriminate Hs|]. apply in_map_iff in Hc as ([ty fields] & <- & Hc). apply filter_In in Hc as [Hc Hf]. cbn [fst] in Hf.
      apply node_iff in H as (a & ms & -> & Ha & Hm); [|now apply (fields_differ ty)]. eexists. split; [reflexivity|]. eapply C_class; [|exact Ha].
      apply (B_node _ _ _ _ _ _ _ _ _ (length h)); [exact Hc| |exact Hm]. intros K. apply same_names in K. apply tmem_In in K. cbn [node_class c_name fst] in K. rewrite K in Hf. discriminate Hf.
  Qed.
  Lemma lexical_sound h c args kw o : In c lexical_classes -> c_safe c = true -> instantiate c h args kw = Ok o -> exists m, o = OMatcher m /\ calls (length h) (c_name c) args kw m.
  Proof.
    intros Hc Hs H. unfold lexical_classes in Hc. repeat (apply in_list in Hc as [->|Hc]; [clear Hs|]); [..|destruct Hc].
    all: apply via_simple in H as (a & m & -> & Ha & Hm); eexists; (split; [reflexivity|]); (eapply C_class; [eapply (B_one _ _ _ _ _ _ _ _ _ (length h)); [|exact Hm]; member|exact Ha]).
  Qed.
  Lemma pattern_iff n compile h args kw o : instantiate (pattern_class n compile) h args kw = Ok o <->
    exists a src d m, o = OMatcher m /\ passes [(TX "pattern", true); (TX "restrictions", false)] false args kw a
      /\ string (a (TX "pattern")) src /\ restrictions (a (TX "restrictions")) d /\ compile src d = Ok m.
  Proof.
    assert (Hn : NoDup (map fst [(TX "pattern", true); (TX "restrictions", false)])) by uniq.
    rewrite (via_params h (pattern_class n compile) _ args kw o eq_refl Hn). cbn [pattern_class c_by_name c_build map fst]. split.
    - intros (a & m & -> & Ha & H). apply bind_Ok in H as (src & H1 & H). apply bind_Ok in H as (d & H2 & H). exists a, src, d, m. split; [reflexivity|]. split; [exact Ha|].
      split; [now apply string_iff|]. split; [now apply restrictions_iff|exact H].
    - intros (a & src & d & m & -> & Ha & H1 & H2 & H3). apply string_iff in H1. apply restrictions_iff in H2. exists a, m. split; [reflexivity|]. split; [exact Ha|].
      rewrite H1. cbn [bind]. rewrite H2. exact H3.
  Qed.
  Lemma syntax_sound h c args kw o : In c synt -> c_safe c = true -> instantiate c h args kw = Ok o -> exists m, o = OMatcher m /\ calls (length h) (c_name c) args kw m.
  Proof.
    intros Hc Hs H. unfold syntax_classes in Hc. repeat (apply in_list in Hc as [->|Hc]; [try discriminate Hs; clear Hs|]); [..|destruct Hc].
    2-10: apply via_simple in H as (a & m & -> & Ha & Hm); eexists; (split; [reflexivity|]); (eapply C_class; [eapply (B_one _ _ _ _ _ _ _ _ _ (length h)); [|exact Hm]; member|exact Ha]).
    - apply pattern_iff in H as (a & src & d & m & -> & Ha & H1 & H2 & H3). eexists. split; [reflexivity|]. eapply C_class; [eapply (B_expr _ _ _ _ _ _ _ _ _ (length h)); eassumption|exact Ha].
    - eapply (via_params h _ [(TX "body", false); (TX "returns", false)]) in H; [|reflexivity|uniq]. destruct H as (a & m & -> & Ha & H). cbn [c_build map fst] in H. injection H as <-.
      eexists. split; [reflexivity|]. eapply C_class; [apply (B_function _ _ _ _ _ _ _ _ _ (length h) a); now apply sub_iff|exact Ha].
    - apply pattern_iff in H as (a & src & d & m & -> & Ha & H1 & H2 & H3). eexists. split; [reflexivity|]. eapply C_class; [eapply (B_stmt _ _ _ _ _ _ _ _ _ (length h)); eassumption|exact Ha].
    - eapply (via_params h _ [(TX "submatcher", true); (TX "module_name", true); (TX "as_name", false)]) in H; [|reflexivity|uniq]. destruct H as (a & m & -> & Ha & H).
      cbn [c_build map fst] in H. apply bind_Ok in H as (md & H1 & H). apply bind_Ok in H as (an & H2 & [= <-]). eexists. split; [reflexivity|].
      eapply C_class; [apply (B_import _ _ _ _ _ _ _ _ _ (length h) a); [now apply sub_iff|now apply string_iff|]|exact Ha].
      destruct (a (TX "as_name")) as [x|]; [left; now apply string_iff|right]. split; [reflexivity|]. injection H2 as <-. now apply last_part_iff.
  Qed.
  Theorem class_sound module h c args kw o : is_class module c -> instantiate c h args kw = Ok o -> exists m, o = OMatcher m /\ calls (length h) (c_name c) args kw m.
  Proof.
    intros (cs & Hc & Hin & Hs) H. unfold module_classes in Hc. repeat (apply in_list in Hc as [Hc|Hc]; [injection Hc as -> ->|]); [..|destruct Hc].
    - now apply (ast_sound h c).
    - now apply (base_sound h c).
    - now apply (lexical_sound h c).
    - now apply (syntax_sound h c).
  Qed.

  (** Every call that means something is a call of some class. *)
  Lemma in_base i c : nth_error base i = Some c -> c_safe c = true -> is_class (TX "base_matchers") c.
  Proof. intros H S. exists base. split; [member|]. split; [exact (nth_error_In _ _ H)|exact S]. Qed.
  Lemma in_syntax i c : nth_error synt i = Some c -> c_safe c = true -> is_class (TX "syntax_matchers") c.
  Proof. intros H S. exists synt. split; [member|]. split; [exact (nth_error_In _ _ H)|exact S]. Qed.
  Lemma in_lexical i c : nth_error lexical_classes i = Some c -> c_safe c = true -> is_class (TX "lexical_matchers") c.
  Proof. intros H S. exists lexical_classes. split; [member|]. split; [exact (nth_error_In _ _ H)|exact S]. Qed.
  Lemma in_const i c : nth_error const_classes i = Some c -> c_safe c = true -> is_class (TX "ast_matchers") c.
  Proof. intros H S. exists asts. split; [member|]. split; [|exact S]. unfold ast_matcher_classes. apply in_app_iff. left. exact (nth_error_In _ _ H). Qed.
  Lemma in_nodes ty fields : In (ty, fields) ast_classes -> ~ In ty const_names -> is_class (TX "ast_matchers") (node_class (ty, fields)).
  Proof.
    intros H N. exists asts. split; [member|]. split; [|reflexivity]. unfold ast_matcher_classes. apply in_app_iff. right. right. apply in_map. apply filter_In. split; [exact H|].
    cbn [fst]. destruct (tmem ty (map c_name const_classes)) eqn:E; [|reflexivity]. apply tmem_In in E. now apply same_names in E.
  Qed.
  Definition known (h : list (event obj)) (k : text) (args : list obj) (kw : dict obj) (m : matcher) : Prop :=
    exists module c, is_class module c /\ c_name c = k /\ instantiate c h args kw = Ok (OMatcher m).
  Ltac base_at i := exists (TX "base_matchers"); eexists; split; [apply (in_base i); reflexivity|]; split; [reflexivity|].
  Ltac syntax_at i := exists (TX "syntax_matchers"); eexists; split; [apply (in_syntax i); reflexivity|]; split; [reflexivity|].
  Ltac lexical_at i := exists (TX "lexical_matchers"); eexists; split; [apply (in_lexical i); reflexivity|]; split; [reflexivity|].
  Ltac const_at i := exists (TX "ast_matchers"); eexists; split; [apply (in_const i); reflexivity|]; split; [reflexivity|].
  Ltac params a Ha := match goal with |- instantiate ?c ?h ?args ?kw = Ok ?o =>
      match eval cbv [c_params simple] in (c_params c) with Some ?ps => apply (via_params h c ps args kw o eq_refl); [uniq|]; exists a; eexists; split; [reflexivity|]; split; [exact Ha|]; cbn [c_build map fst] end end.
  Theorem class_complete h k args kw m : calls (length h) k args kw m -> known h k args kw m.
  Proof.
    intros H. inversion H as [ms|ms|k0 ps bn args0 kw0 a m0 B P]; subst.
    - base_at 0%nat. apply via_nary. now exists ms.
    - base_at 1%nat. apply via_nary. now exists ms.
    - clear H. unfold known. destruct B.
      + base_at 2%nat. params a P. reflexivity.
      + base_at 20%nat. params a P. reflexivity.
      + assert (K : forall c, c = simple k f -> instantiate c h args kw = Ok (OMatcher (f m))).
        { intros c ->. apply via_simple. now exists a, m. }
        match goal with H : In (k, f) one_submatcher |- _ => unfold one_submatcher in H; repeat (apply in_list in H as [[= -> ->]|H]); [..|destruct H] end.
        * base_at 4%nat. now apply K.
        * base_at 22%nat. now apply K.
        * lexical_at 0%nat. now apply K.
        * lexical_at 1%nat. now apply K.
        * syntax_at 6%nat. now apply K.
        * syntax_at 2%nat. now apply K.
        * syntax_at 9%nat. now apply K.
        * syntax_at 10%nat. now apply K.
        * syntax_at 1%nat. now apply K.
        * syntax_at 3%nat. now apply K.
        * syntax_at 7%nat. now apply K.
        * syntax_at 5%nat. now apply K.
        * syntax_at 8%nat. now apply K.
      + base_at 15%nat. params a P. match goal with H : submatcher _ _ |- _ => apply sub_iff in H; subst m end. match goal with H : a (TX "key") = _ |- _ => rewrite H end. reflexivity.
      + base_at 15%nat. params a P. match goal with H : submatcher _ _ |- _ => apply sub_iff in H; subst m end. match goal with H : a (TX "key") = _ |- _ => rewrite H end.
        match goal with H : hashable _ = true |- _ => rewrite H end. reflexivity.
      + base_at 3%nat. params a P.
        match goal with H : string _ _ |- _ => apply string_iff in H; rewrite H end. cbn [bind].
        match goal with H : good_name _ _ |- _ => apply good_name_iff in H; rewrite H end. cbn [negb].
        match goal with H : optional OConflict _ _ |- _ => apply conflict_iff in H; rewrite H end. cbn [bind].
        match goal with H : optional OMerge _ _ |- _ => apply merge_iff in H; rewrite H end. cbn [bind].
        match goal with H : submatcher _ _ |- _ => apply sub_iff in H; subst m end. reflexivity.
      + base_at 16%nat. params a P.
        match goal with H : optional OConflict _ _ |- _ => apply conflict_iff in H; rewrite H end. cbn [bind].
        match goal with H : optional OMerge _ _ |- _ => apply merge_iff in H; rewrite H end. cbn [bind].
        match goal with H : submatcher _ _ |- _ => apply sub_iff in H; subst m end. reflexivity.
      + base_at 18%nat. params a P. match goal with H : string _ _ |- _ => apply string_iff in H; rewrite H end. reflexivity.
      + base_at 6%nat. params a P. match goal with H : a _ = _ |- _ => rewrite H end. match goal with H : equal_to _ _ |- _ => apply equal_to_iff in H; subst m end. reflexivity.
      + base_at 21%nat. params a P. match goal with H : a _ = _ |- _ => rewrite H end. match goal with H : hashable _ = true |- _ => rewrite H end. reflexivity.
      + base_at 13%nat. params a P. match goal with H : string _ _ |- _ => apply string_iff in H; rewrite H end. cbn [bind]. match goal with H : full_regex _ = _ |- _ => rewrite H end.
        match goal with H : submatcher _ _ |- _ => apply sub_iff in H; subst m end. reflexivity.
      + base_at 7%nat. params a P. match goal with H : string _ _ |- _ => apply string_iff in H; rewrite H end. cbn [bind]. match goal with H : file_regex _ = _ |- _ => rewrite H end. reflexivity.
      + base_at 10%nat. params a P. match goal with H : a _ = _ |- _ => rewrite H end. match goal with H : integer _ _ |- _ => apply integer_iff in H; rewrite H end. cbn [bind].
        match goal with H : submatcher _ _ |- _ => apply sub_iff in H; subst m end. reflexivity.
      + base_at 12%nat. params a P. match goal with H : items _ _ |- _ => rename H into I end. destruct (a (TX "matchers")) as [o|] eqn:E.
        * apply items_iff in I. rewrite I. reflexivity.
        * exfalso. destruct I as (l & _ & [I|[I|[(vs & I & _)|(s & I & _)]]]); discriminate I.
      + base_at 11%nat. params a P. match goal with H : Forall2 integer _ _ |- _ => apply integers_iff in H; rename H into I end.
        match goal with H : _ \/ _ |- _ => destruct H as [E|[E|E]]; rewrite E, I; reflexivity end.
      + syntax_at 0%nat. apply pattern_iff. now exists a, src, d, m.
      + syntax_at 14%nat. apply pattern_iff. now exists a, src, d, m.
      + syntax_at 12%nat. params a P. repeat match goal with H : submatcher _ _ |- _ => apply sub_iff in H; subst end. reflexivity.
      + syntax_at 15%nat. params a P. match goal with H : string (a (TX "module_name")) _ |- _ => apply string_iff in H; rewrite H end. cbn [bind].
        match goal with H : submatcher _ _ |- _ => apply sub_iff in H; subst m end.
        match goal with H : _ \/ _ |- _ => destruct H as [S|[E L]] end.
        * pose proof S as S'. unfold string in S'. apply string_iff in S. rewrite S' in S |- *. rewrite S. reflexivity.
        * rewrite E. apply last_part_iff in L. subst as_name. reflexivity.
      + assert (K : forall c, c = const_class k field f -> instantiate c h args kw = Ok (OMatcher (f m))).
        { intros c ->. apply const_iff. now exists a, m. }
        match goal with H : In (k, field, f) constant_classes |- _ => unfold constant_classes in H; repeat (apply in_list in H as [[= -> -> ->]|H]); [..|destruct H] end.
        * const_at 3%nat. now apply K.
        * const_at 4%nat. now apply K.
        * const_at 0%nat. now apply K.
        * const_at 2%nat. now apply K.
      + const_at 1%nat. apply ellipsis_iff. now exists a.
      + exists (TX "ast_matchers"), (node_class (ty, fields)). split; [now apply in_nodes|]. split; [reflexivity|]. apply node_iff; [now apply (fields_differ ty)|]. now exists a, ms.
  Qed.

  (** *** Names *)
  Fixpoint distinct (l : list text) : bool := match l with [] => true | x :: r => negb (tmem x r) && distinct r end.
  Lemma distinct_ok l : distinct l = true -> NoDup l.
  Proof.
    induction l as [|x l IH]; intros H; constructor; cbn [distinct] in H; apply andb_prop in H as [H1 H2]; [|auto]. intros K. apply tmem_In in K. rewrite K in H1. discriminate H1.
  Qed.
  Definition fixed : list cls := filter c_safe (base ++ lexical_classes ++ synt).
  Definition nodes : list cls := map node_class (filter (fun nf => negb (tmem (fst nf) (map c_name const_classes))) ast_classes).
  Lemma class_in module c : is_class module c -> In c (fixed ++ const_classes ++ nodes).
  Proof.
    intros (cs & Hc & Hin & Hs). unfold module_classes in Hc. repeat (apply in_list in Hc as [Hc|Hc]; [injection Hc as -> ->|]); [..|destruct Hc].
    - unfold ast_matcher_classes in Hin. apply in_app_iff. right. apply in_app_iff. apply in_app_iff in Hin as [Hin|Hin]; [now left|right]. apply in_list in Hin as [->|Hin]; [discriminate Hs|exact Hin].
    - apply in_app_iff. left. apply filter_In. split; [apply in_app_iff; now left|exact Hs].
    - apply in_app_iff. left. apply filter_In. split; [apply in_app_iff; right; apply in_app_iff; now left|exact Hs].
    - apply in_app_iff. left. apply filter_In. split; [apply in_app_iff; right; apply in_app_iff; now right|exact Hs].
  Qed.
  Lemma fixed_names : map c_name fixed = flat_map snd module_names.
  Proof. reflexivity. Qed.
  Lemma node_names : map c_name nodes = map fst (filter (fun nf => negb (tmem (fst nf) (map c_name const_classes))) ast_classes).
  Proof. unfold nodes. rewrite map_map. reflexivity. Qed.
  Lemma nodup_app {A} (l l' : list A) : NoDup l -> NoDup l' -> (forall x, In x l -> ~ In x l') -> NoDup (l ++ l').
  Proof.
    induction 1 as [|x l N H IH]; intros H' D; [exact H'|]. cbn [app]. constructor.
    - intros K. apply in_app_iff in K as [K|K]; [contradiction|]. apply (D x); [now left|exact K].
    - apply IH; [exact H'|]. intros y Hy. apply D. now right.
  Qed.
  Lemma nodup_filter {A} (f : A -> bool) (g : A -> text) l : NoDup (map g l) -> NoDup (map g (filter f l)).
  Proof.
    induction l as [|x l IH]; intros H; [constructor|]. cbn [map] in H. inversion H as [|? ? H1 H2]; subst. cbn [filter]. destruct (f x); [|auto]. cbn [map]. constructor; [|auto].
    intros K. apply H1. apply in_map_iff in K as (y & <- & K). apply filter_In in K as [K _]. now apply in_map.
  Qed.
  Lemma names_differ : NoDup (map c_name (fixed ++ const_classes ++ nodes)).
  Proof.
    rewrite !map_app. destruct module_ok as (N1 & _ & N3). apply nodup_app; [|apply nodup_app|].
    - apply distinct_ok. rewrite fixed_names. vm_compute. reflexivity.
    - apply distinct_ok. vm_compute. reflexivity.
    - rewrite node_names. now apply nodup_filter.
    - intros x Hx K. rewrite node_names in K. apply in_map_iff in K as (nf & <- & K). apply filter_In in K as [_ K]. apply tmem_In in Hx. rewrite Hx in K. discriminate K.
    - intros x Hx K. apply in_app_iff in K as [K|K].
      + rewrite fixed_names in Hx. assert (E : forallb (fun x => negb (tmem x (flat_map snd module_names))) (map c_name const_classes) = true) by (vm_compute; reflexivity).
        rewrite forallb_forall in E. specialize (E x K). apply tmem_In in Hx. rewrite Hx in E. discriminate E.
      + rewrite fixed_names in Hx. apply in_flat_map in Hx as ([module ks] & H1 & H2). apply (N3 module ks x H1 H2). rewrite node_names in K.
        apply in_map_iff in K as (nf & <- & K). apply filter_In in K as [K _]. now apply in_map.
  Qed.
  Lemma same_class m c m' c' : is_class m c -> is_class m' c' -> c_name c = c_name c' -> c = c'.
  Proof.
    intros H H' E. apply class_in in H, H'. pose proof names_differ as N. revert N H H' E. generalize (fixed ++ const_classes ++ nodes). intros l. induction l as [|x l IH]; intros N H H' E; [destruct H|].
    cbn [map] in N. inversion N as [|? ? N1 N2]; subst. destruct H as [->|H], H' as [->|H']; [reflexivity| | |auto].
    - exfalso. apply N1. rewrite E. now apply in_map.
    - exfalso. apply N1. rewrite <- E. now apply in_map.
  Qed.
  Lemma no_dots m c : is_class m c -> ~ In 46 (c_name c).
  Proof.
    intros H K. apply class_in in H. assert (G : forall l, forallb (fun x => negb (existsb (Z.eqb 46) x)) l = true -> forall x, In x l -> ~ In 46 x).
    { intros l Hl x Hx Kx. rewrite forallb_forall in Hl. specialize (Hl x Hx). assert (E : existsb (Z.eqb 46) x = true) by (apply existsb_exists; exists 46; split; [exact Kx|reflexivity]). rewrite E in Hl. discriminate Hl. }
    apply in_app_iff in H as [H|H]; [|apply in_app_iff in H as [H|H] ].
    - apply (G (map c_name fixed)) in K; [exact K|rewrite fixed_names; vm_compute; reflexivity|now apply in_map].
    - apply (G (map c_name const_classes)) in K; [exact K|vm_compute; reflexivity|now apply in_map].
    - unfold nodes in H. apply in_map_iff in H as ([ty fields] & <- & H). apply filter_In in H as [H _]. destruct module_ok as (_ & F & _). rewrite Forall_forall in F. exact (proj2 (F _ H) K).
  Qed.
  Lemma last_of m c module n : is_class m c -> n = c_name c \/ n = module ++ TX "." ++ c_name c -> c_name c = last_part n.
  Proof.
    intros H Hn. apply last_part_iff. split; [exact (no_dots m c H)|]. destruct Hn as [->| ->]; [now left|right; now exists module].
  Qed.
  Lemma names_iff module k : names_of_module ast_classes module k <-> exists c, is_class module c /\ (c_name c = k).
  Proof.
    assert (G : forall cs, In (module, cs) module_classes -> In k (map c_name (filter c_safe cs)) -> exists c, is_class module c /\ c_name c = k).
    { intros cs H K. apply in_map_iff in K as (c & <- & K). apply filter_In in K as [K S]. exists c. split; [|reflexivity]. exists cs. auto. }
    assert (AN : map c_name (filter c_safe asts) = map c_name const_classes ++ map fst (filter (fun nf => negb (tmem (fst nf) (map c_name const_classes))) ast_classes)).
    { unfold ast_matcher_classes. rewrite filter_app, map_app. f_equal. cbn [filter unsafe c_safe]. rewrite <- node_names. unfold nodes.
      generalize (filter (fun nf : text * list text => negb (tmem (fst nf) (map c_name const_classes))) ast_classes).
      intros l. induction l as [|x l IH]; [reflexivity|]. cbn [map filter node_class c_safe]. cbn [map]. f_equal. exact IH. }
    split.
    - intros [(ks & H & K)|[-> H]].
      + unfold module_names in H. repeat (apply in_list in H as [H|H]; [injection H as -> ->|]); [..|destruct H].
        * apply (G base); [member|]. exact K.
        * apply (G lexical_classes); [member|]. exact K.
        * apply (G synt); [member|]. exact K.
      + apply (G asts); [member|]. rewrite AN. apply in_app_iff. destruct (tmem k (map c_name const_classes)) eqn:E; [left; now apply tmem_In|right].
        destruct H as [H|H]; [apply same_names, tmem_In in H; congruence|]. apply in_map_iff in H as (nf & <- & H). apply in_map. apply filter_In. split; [exact H|now rewrite E].
    - intros (c & (cs & Hc & Hin & Hs) & <-).
      assert (Hn : In (c_name c) (map c_name (filter c_safe cs))) by (apply in_map; apply filter_In; auto).
      unfold module_classes in Hc. repeat (apply in_list in Hc as [Hc|Hc]; [injection Hc as -> ->|]); [..|destruct Hc].
      + right. split; [reflexivity|]. rewrite AN in Hn. apply in_app_iff in Hn as [Hn|Hn]; [left; now apply same_names|right]. apply in_map_iff in Hn as (nf & <- & K). apply filter_In in K as [K _]. now apply in_map.
      + left. exists (map c_name (filter c_safe base)). split; [member|exact Hn].
      + left. exists (map c_name (filter c_safe lexical_classes)). split; [member|exact Hn].
      + left. exists (map c_name (filter c_safe synt)). split; [member|exact Hn].
  Qed.

  (** The table has exactly these names, and what they call is what they mean. *)
  Theorem table_calls : exists t, table = Ok t /\ forall n h args kw o,
    (exists c, dget t n = Some c /\ instantiate c h args kw = Ok o) <-> exists k m, named ast_classes n k /\ o = OMatcher m /\ calls (length h) k args kw m.
  Proof.
    destruct (add_modules_total (fun _ => true) mods []) as (t & Ht & S & _ & C). exists t. split; [exact Ht|]. intros n h args kw o. split.
    - intros (c & Hc & H). destruct (S n c Hc) as [E|E]; [discriminate E|]. apply entry_iff in E as (module & Hm & Hn). destruct (class_sound module h c args kw o Hm H) as (m & -> & K).
      exists (c_name c), m. split; [|split; [reflexivity|exact K] ]. exists module. split; [|exact Hn]. apply names_iff. exists c. split; [exact Hm|exact (eq_refl (c_name c))].
    - intros (k & m & (module & Hm & Hn) & -> & K). apply class_complete in K as (module' & c' & Hc' & Ek & H). apply names_iff in Hm as (c & Hc & E).
      assert (c = c') by (apply (same_class module c module' c' Hc Hc'); congruence). subst c'. exists c. split; [|exact H].
      assert (En : entry (fun _ => true) mods n c) by (apply entry_iff; exists module; split; [exact Hc|rewrite E; exact Hn]).
      specialize (C n c En). destruct (dget t n) as [c1|] eqn:E1; [|destruct (C eq_refl)]. apply f_equal. destruct (S n c1 E1) as [E2|E2]; [discriminate E2|]. apply entry_iff in E2 as (m1 & Hm1 & Hn1).
      apply (same_class m1 c1 module c Hm1 Hc). rewrite (last_of m1 c1 m1 n Hm1 Hn1). symmetry. apply (last_of module c module n Hc). rewrite E. exact Hn.
  Qed.
End Classes.
