(** Patterns with restrictions, and the matchers of the correctness fixers: proofs. *)
From Verif Require Import TemplateProofs OnceProofs Py PyFacts Regex RegexProofs Subst Fmt ApplySpec SubstSpec SubstProofs ApplyProofs Ast Template FromDiff Matcher MatchSpec MergeSpec MergeProofs MatcherProofs FindSpec FindProofs
  FilterSpec FilterProofs
  NavSpec NavProofs PatTok PatSpec PatTokProofs LexProofs Pattern PatternSpec EquivProofs PatternProofs PatternApi RenameProofs
  PyTemplate PyTemplateSpec PyTemplateProofs Search SearchSpec Removal OwnSpec
  PropsTemplate ExprSubSpec ExprSubProofs PropsExprSub Fixer FixerSpec FixerProofs PyCode CodeProofs BuiltinFixers BuiltinSpec BuiltinProofs BuiltinApply BuiltinTables
  CorrectnessFixers CorrectnessSpec.
From Coq Require Import Permutation.

(** *** Restrictions that say yes or no *)
Definition decides (r : matcher) (P : value -> Prop) : Prop :=
  forall e c, (P c /\ pure_on e c r (Some (RInfo (create_match (e_parsed e) c) (Some []) []))) \/ (~ P c /\ pure_on e c r None).
(** ... with a look at the file. *)
Definition decides_in (r : matcher) (P : parsed_file -> value -> Prop) : Prop :=
  forall e c, (P (e_parsed e) c /\ pure_on e c r (Some (RInfo (create_match (e_parsed e) c) (Some []) []))) \/ (~ P (e_parsed e) c /\ pure_on e c r None).
Lemma decides_always r P : decides r P -> decides_in r (fun _ => P).
Proof. intros H e c. exact (H e c). Qed.
Lemma decides_anything : decides MAnything (fun _ => True).
Proof. intros e c. left. split; [exact I|]. intros s. reflexivity. Qed.
Lemma matched_created parsed c a : m_matched (create_match parsed c) = Some a -> a = c.
Proof.
  unfold create_match. destruct (lexical_tokens c) as [[f l]|]; cbn; [congruence|]. destruct c as [| |? []]; cbn; congruence.
Qed.
Lemma decides_ok r P : decides_in r P -> forall e, restriction_ok e r.
Proof.
  intros D e c. destruct (D e c) as [[_ H]|[_ H]]; [right|now left]. exists (create_match (e_parsed e) c). split; [exact H|]. apply matched_created.
Qed.
Lemma decides_yes r P : decides_in r P -> forall e c rm, pure_on e c r (Some (RInfo rm (Some []) [])) -> rm = create_match (e_parsed e) c /\ P (e_parsed e) c.
Proof.
  intros D e c rm H. specialize (H []). destruct (D e c) as [[Hp K]|[_ K]]; specialize (K []); rewrite H in K; [|discriminate K].
  injection K as ->. auto.
Qed.

Lemma decides_const tys (P : value -> Prop) : (forall v, P v <-> vtype v = TX "Constant" /\ tmem (vtype (vfield v (TX "value"))) tys = true) ->
  decides (MConst tys MAnything) P.
Proof.
  intros H e c. destruct (text_eqb_spec (vtype c) (TX "Constant")) as [E|E].
  - destruct (tmem (vtype (vfield c (TX "value"))) tys) eqn:Et; [left|right].
    + split; [now apply H|]. intros s. cbn [eval]. rewrite E, Et. reflexivity.
    + split; [intros K; apply H in K as [_ K]; congruence|]. intros s. cbn [eval]. rewrite E, Et. reflexivity.
  - right. split; [intros K; apply H in K as [K _]; congruence|]. intros s. cbn [eval]. rewrite (proj2 (text_eqb_neq _ _) E). reflexivity.
Qed.
(** One of two, each of which is for the types [t1] and [t2] only. *)
Lemma decides_either m1 m2 t1 t2 P1 P2 : decides m1 P1 -> decides m2 P2 -> type_filter m1 = Some t1 -> type_filter m2 = Some t2 ->
  (forall c, P1 c -> tmem (vtype c) t1 = true) -> (forall c, P2 c -> tmem (vtype c) t2 = true) ->
  decides (MAnyOf [m1; m2]) (fun c => P1 c \/ P2 c).
Proof.
  intros D1 D2 T1 T2 H1 H2 e c.
  assert (E : forall s, eval e (MAnyOf [m1; m2]) c s
    = first_of ((if tmem (vtype c) t1 then [eval e m1 c] else []) ++ (if tmem (vtype c) t2 then [eval e m2 c] else [])) s).
  { intros s. cbn [eval flat_map map]. rewrite T1, T2. unfold tried, typed. cbn [existsb admits is_some negb].
    destruct (tmem (vtype c) t1), (tmem (vtype c) t2); reflexivity. }
  destruct (D1 e c) as [[Y1 E1]|[N1 E1]].
  - left. split; [now left|]. intros s. rewrite E, (H1 _ Y1). cbn [app first_of]. unfold mbind. rewrite E1. reflexivity.
  - destruct (D2 e c) as [[Y2 E2]|[N2 E2]].
    + left. split; [now right|]. intros s. rewrite E, (H2 _ Y2). destruct (tmem (vtype c) t1); cbn [app first_of]; unfold mbind; rewrite ?E1, E2; reflexivity.
    + right. split; [tauto|]. intros s. rewrite E. destruct (tmem (vtype c) t1), (tmem (vtype c) t2); cbn [app first_of]; unfold mbind; rewrite ?E1, ?E2; reflexivity.
Qed.
Lemma decides_all_of m P : decides m P -> decides (MAllOf [m]) P.
Proof.
  intros D e c. destruct (D e c) as [[Y E]|[N E]]; [left|right]; (split; [assumption|]); intros s; cbn [eval map]; unfold accumulating; cbn [accumulate]; unfold mbind; rewrite E; reflexivity.
Qed.
Lemma decides_more m (P Q : value -> Prop) : (forall c, P c <-> Q c) -> decides m P -> decides m Q.
Proof. intros H D e c. destruct (D e c) as [[Y E]|[N E]]; [left|right]; (split; [|assumption]); rewrite <- H; assumption. Qed.
Lemma decides_class ty fs : Forall (fun kv => snd kv = MAnything) fs -> decides (MNode ty fs) (fun v => vtype v = ty).
Proof.
  intros F e c. destruct (text_eqb_spec (vtype c) ty) as [E|E]; [left|right]; (split; [assumption|]); intros s; cbn [eval].
  - rewrite E, text_eqb_refl. unfold accumulating.
    assert (K : accumulate (map (fun fm => eval e (snd fm) (vfield c (fst fm))) fs) [] [] s = (s, Ok (Some ([], [])))).
    { induction F as [|kv fs E' F IH]; [reflexivity|]. cbn [map accumulate]. rewrite E'. cbn [eval]. unfold anything, mbind, ret, lift. cbn [r_bindings r_reps info bind not_none]. exact IH. }
    unfold mbind. rewrite K. reflexivity.
  - now rewrite (proj2 (text_eqb_neq _ _) E).
Qed.

(** *** Those of the correctness fixers *)
Definition const_typed (tys : list text) (v : value) : Prop := vtype v = TX "Constant" /\ tmem (vtype (vfield v (TX "value"))) tys = true.
Definition stringy : value -> Prop := const_typed [TX "str"; TX "bytes"].
Definition literally : value -> Prop := const_typed [TX "int"; TX "float"; TX "complex"; TX "str"; TX "bytes"].
Lemma decides_string : decides string_literal stringy.
Proof.
  apply decides_more with (P := fun c => const_typed [TX "str"] c \/ const_typed [TX "bytes"] c).
  - intros c. unfold stringy, const_typed. cbn [tmem existsb]. rewrite !orb_true_iff. tauto.
  - apply decides_either with (t1 := [TX "Constant"]) (t2 := [TX "Constant"]).
    + now apply decides_const.
    + now apply decides_const.
    + reflexivity.
    + reflexivity.
    + intros c [-> _]. reflexivity.
    + intros c [-> _]. reflexivity.
Qed.
Lemma decides_literal : decides literal literally.
Proof.
  apply decides_more with (P := fun c => const_typed [TX "int"; TX "float"; TX "complex"] c \/ stringy c).
  - intros c. unfold literally, stringy, const_typed. cbn [tmem existsb]. rewrite !orb_true_iff. tauto.
  - eapply decides_either.
    + now apply decides_const.
    + exact decides_string.
    + reflexivity.
    + reflexivity.
    + intros c [-> _]. reflexivity.
    + intros c [-> _]. reflexivity.
Qed.
Lemma decides_variable : decides (MAllOf [MAnyOf [any_attribute; any_name]]) is_variable_or_attribute.
Proof.
  apply decides_all_of. apply decides_more with (P := fun c => vtype c = TX "Attribute" \/ vtype c = TX "Name"); [unfold is_variable_or_attribute; tauto|].
  eapply decides_either; try reflexivity.
  - apply decides_class. repeat constructor.
  - apply decides_class. repeat constructor.
  - intros c ->. reflexivity.
  - intros c ->. reflexivity.
Qed.
Lemma typed_literal G v tys : conforms G v -> const_typed tys v -> incl tys builtin_types -> ~ In (TX "list") tys -> ~ In (TX "NoneType") tys ->
  exists k, literal_of v k /\ forall id, In (vtype (VConst id k)) tys.
Proof.
  intros C [Hv Ht] Hi Hl Hn. apply tmem_In in Ht. destruct v as [i fs|id l|id k].
  - cbn [vtype vfield] in *. destruct (dget fs (TX "value")) as [w|] eqn:Ew; [|contradiction].
    destruct w as [j gs|id l|id k]; cbn [vtype] in Ht.
    + exfalso. inversion C as [| |? ? _ _ F]; subst. rewrite Forall_forall in F. apply dget_In in Ew. apply F in Ew. cbn [snd] in Ew.
      inversion Ew as [| |? ? N _ _]; subst. apply N. now apply Hi.
    + contradiction.
    + exists k. split; [exists i, fs, id; auto|]. intros id'. exact Ht.
  - discriminate Hv.
  - exfalso. destruct k as [| |[]| |]; discriminate Hv.
Qed.
Lemma stringy_literal G v : conforms G v -> stringy v <-> is_string_literal v.
Proof.
  intros C. split.
  - intros H. destruct (typed_literal G v _ C H) as (k & L & Ht).
    + intros x [<-|[<-|[]]]; vm_compute; tauto.
    + intros [K|[K|[]]]; discriminate K.
    + intros [K|[K|[]]]; discriminate K.
    + exists k. split; [exact L|]. specialize (Ht 0). destruct k as [| |[]| |]; cbn in *; try exact I; destruct Ht as [K|[K|[]]]; discriminate K.
  - intros (k & (i & fs & id & -> & Ht & Hd) & Hk). split; [exact Ht|]. cbn [vfield]. rewrite Hd. destruct k; try destruct Hk; reflexivity.
Qed.
Lemma literally_literal G v : conforms G v -> literally v <-> is_literal v.
Proof.
  intros C. split.
  - intros H. destruct (typed_literal G v _ C H) as (k & L & Ht).
    + intros x [<-|[<-|[<-|[<-|[<-|[]]]]]]; vm_compute; tauto.
    + intros K. apply tmem_In in K. discriminate K.
    + intros K. apply tmem_In in K. discriminate K.
    + exists k. split; [exact L|]. specialize (Ht 0). apply tmem_In in Ht. destruct k as [| |[]| |]; cbn in *; try discriminate Ht; tauto.
  - intros (k & (i & fs & id & -> & Ht & Hd) & Hk). split; [exact Ht|]. cbn [vfield]. rewrite Hd. destruct k as [| |[]| |]; cbn in Hk; try tauto; reflexivity.
Qed.

(** *** Patterns with restrictions *)
Section Restricted.
  Variables (restrictions : dict matcher) (P : label -> parsed_file -> value -> Prop).
  Hypothesis HD : forall x m, dget restrictions x = Some m -> decides_in m (P x).
  Hypothesis HT : forall x parsed v, dget restrictions x = None -> P x parsed v.
  Variables (names : dict text) (anon : list text).
  Notation restricted := (metavariables restrictions names anon).
  Notation free := (metavariables [] names anon).
  Lemma restricted_named n x m : restricted n = Some (Named x m) -> free n = Some (Named x MAnything) /\ decides_in m (P x).
  Proof.
    unfold metavariables. destruct (find _ names) as [[y z]|]; [|destruct (tmem n anon); discriminate].
    intros [= -> <-]. split; [reflexivity|]. destruct (dget restrictions x) as [m|] eqn:E; [now apply HD|].
    intros e c. left. split; [now apply HT|]. intros s. reflexivity.
  Qed.
  Lemma restricted_other n h : (forall x m, h <> Some (Named x m)) -> restricted n = h <-> free n = h.
  Proof.
    intros H. unfold metavariables. destruct (find _ names) as [[y z]|]; [|reflexivity]. split; intros E; exfalso; eapply H; symmetry; exact E.
  Qed.
  Definition satisfied (e : env) (xr : label * pymatch) : Prop := exists v, snd xr = create_match (e_parsed e) v /\ P (fst xr) (e_parsed e) v.
  Lemma restricted_fits e e' : e_parsed e' = e_parsed e -> forall p c occ, fits e' restricted p c occ -> fits e free p c occ /\ Forall (satisfied e) occ.
  Proof.
    intros Ee. induction p as [i fs IH|id l IH|id k] using value_ind'; intros c occ F;
      inversion F as [p n y m c0 rm0 Hn Hh Hp|p n c0 Hn Hh|? ? ? ? E|? ? ? ms ? FI|? ? j gs ? Hn Ht FF]; subst.
    all: try (apply restricted_named in Hh as [Hh D]; apply (decides_yes _ _ D) in Hp as [-> Hp]; split;
      [eapply F_named; [eassumption|exact Hh|]; intros s; rewrite Ee; reflexivity
      |constructor; [|constructor]; exists c; cbn [fst snd]; rewrite Ee in *; auto]).
    all: try (apply restricted_other in Hh; [|discriminate]; split; [eapply F_anonymous; eassumption|constructor]).
    - assert (K : fits_fields e free (n_type i) fs gs occ /\ Forall (satisfied e) occ).
      { clear Hn Ht F. revert FF. generalize (n_type i). intros ty FF. revert IH.
        induction FF as [|? f u w fs' gs' os Hcx FF IHF|? f u w fs' gs' o os Hcx FU FF IHF]; intros IH.
        + split; constructor.
        + inversion IH; subst. destruct IHF as [A B]; [assumption|]. split; [now apply FF_context|exact B].
        + inversion IH as [|? ? H1 H2]; subst. destruct (IHF H2) as [A B]. destruct (H1 _ _ FU) as [A' B']. split; [now apply FF_cons|]. apply Forall_app. auto. }
      destruct K as [A B]. split; [|exact B]. apply F_node; [|assumption|assumption]. intros n Hi. apply restricted_other; [discriminate|auto].
    - assert (K : fits_items e free l ms occ /\ Forall (satisfied e) occ).
      { clear F. revert IH. induction FI as [|x y l ms o os FU FI IHF]; intros IH; [split; constructor|]. inversion IH as [|? ? H1 H2]; subst.
        destruct (IHF H2) as [A B]. destruct (H1 _ _ FU) as [A' B']. split; [now constructor|]. apply Forall_app. auto. }
      destruct K as [A B]. split; [|exact B]. now constructor.
    - split; [now constructor|constructor].
  Qed.
  (** The other way around; [satisfied'] says it of everything that looks like that. *)
  Definition satisfied' (e : env) (xr : label * pymatch) : Prop := forall v, snd xr = create_match (e_parsed e) v -> P (fst xr) (e_parsed e) v.
  Lemma fits_restricted e e' : e_parsed e' = e_parsed e -> forall p c occ, fits e free p c occ -> Forall (satisfied' e) occ -> fits e' restricted p c occ.
  Proof.
    intros Ee. induction p as [i fs IH|id l IH|id k] using value_ind'; intros c occ F S;
      inversion F as [p n y m c0 rm0 Hn Hh Hp|p n c0 Hn Hh|? ? ? ? E|? ? ? ms ? FI|? ? j gs ? Hn Ht FF]; subst.
    all: try (eapply F_anonymous; [eassumption|]; apply restricted_other; [discriminate|assumption]).
    all: try (assert (exists m', restricted n = Some (Named y m')) as (m' & Hr) by
        (unfold metavariables in *; destruct (find _ names) as [[y0 z]|]; [injection Hh as -> <-; eauto|destruct (tmem n anon); discriminate Hh]);
      destruct (restricted_named _ _ _ Hr) as [Hh' D]; rewrite Hh' in Hh; injection Hh as <-; apply plain_named in Hp; [|reflexivity]; subst rm0;
      rewrite Forall_forall in S; specialize (S _ (or_introl eq_refl) c eq_refl); cbn [fst] in S;
      eapply F_named; [eassumption|exact Hr|]; destruct (D e' c) as [[_ K]|[K _]]; rewrite Ee in K; [exact K|contradiction]).
    - apply F_node; [|assumption|].
      { intros n Hi. apply restricted_other; [discriminate|auto]. }
      clear Hn Ht F. revert FF. generalize (n_type i). intros ty FF. revert IH S.
      induction FF as [|? f u w fs' gs' os Hcx FF IHF|? f u w fs' gs' o os Hcx FU FF IHF]; intros IH S.
      + constructor.
      + inversion IH; subst. apply FF_context; auto.
      + inversion IH as [|? ? H1 H2]; subst. apply Forall_app in S as [S1 S2]. apply FF_cons; auto.
    - constructor. clear F. revert IH S. induction FI as [|x y l ms o os FU FI IHF]; intros IH S; [constructor|]. inversion IH as [|? ? H1 H2]; subst.
      apply Forall_app in S as [S1 S2]. constructor; auto.
    - now constructor.
  Qed.
End Restricted.

(** The matcher [m] matches every such occurrence of [p]. *)
Definition accepts (e : env) (holes : text -> option hole) (p : value) (Cond : value -> list (label * pymatch) -> Prop) (m : matcher) : Prop :=
  forall d c s occ, PatternSpec.inside (e_tree e) c -> occurrence e holes p c occ -> Cond c occ ->
  exists b, eval (with_done e d) m c s = (s, Ok (Some (RInfo (create_match (e_parsed e) c) (Some b) []))).

(** The matcher [m] says yes or no everywhere; it raises nothing. *)
Definition answers (e : env) (m : matcher) : Prop :=
  forall d c s, PatternSpec.inside (e_tree e) c ->
  eval (with_done e d) m c s = (s, Ok None) \/ exists b, eval (with_done e d) m c s = (s, Ok (Some (RInfo (create_match (e_parsed e) c) (Some b) []))) /\ dict_ok b.

Section Patterns.
  Variable tokenize : text -> res (list ptok).
  Variable order : list nat -> list nat.
  Variable ast_parse : text -> res value.
  Variable G : grammar.
  Hypothesis HO : forall l, Permutation (order l) l.
  Hypothesis HG : proper G.
  Hypothesis HGp : python_grammar G.
  Hypothesis HA : python_ast G ast_parse.

  Lemma restricted_pattern_as k co restrictions (P : label -> parsed_file -> value -> Prop) m :
    understood_as k tokenize ast_parse co -> lexed co ->
    (forall x r, dget restrictions x = Some r -> decides_in r (P x)) -> (forall x parsed v, dget restrictions x = None -> P x parsed v) ->
    base_ast_pattern tokenize order ast_parse (pull_of k) (source co) restrictions = Ok m ->
    exists holes p, has_tree tokenize ast_parse k (source co) holes p
      /\ (forall n x r, holes n = Some (Named x r) -> r = MAnything /\ x <> ROOT_LABEL)
      /\ forall e, parsed_tree G (e_tree e) ->
         narrows e holes p (fun _ occ => Forall (satisfied P e) occ) m /\ accepts e holes p (fun _ occ => Forall (satisfied' P e) occ) m /\ answers e m.
  Proof.
    intros U L HD HF Hm. destruct (has_tokens_of tokenize ast_parse co U L) as [HT HR].
    assert (Ht : tokenize (if negb (endswith [NL] (source co)) then source co ++ [NL] else source co) = Ok (map snd (line_tokens (source co)))).
    { rewrite (lx_newline co L). apply (una_tokens _ _ _ _ U). }
    destruct (HT _ Ht) as (gl & Egl & Hs & Hsp). rewrite Egl in Ht.
    destruct (rename_source tokenize order (source co) gl Ht Hs HO) as [_ R].
    destruct (base_pattern_spec tokenize order ast_parse (map snd gl) (source co) Ht (spelled_ends _ _ _ _ _ Hs) HO (pull_of k) restrictions m Hm)
      as (s & names & anon & module & p & Er & Ep & El & _ & _ & F).
    destruct (R _ _ _ Er) as (news & -> & N). destruct (HA _ _ Ep) as (Pm & _ & Hn).
    assert (T : has_tree tokenize ast_parse k (source co) (metavariables [] names anon) p).
    { exists gl, news, names, anon, module. do 5 (split; [assumption|]). split; [assumption|reflexivity]. }
    exists (metavariables [] names anon), p. split; [exact T|].
    assert (Hplain : forall n x r, metavariables [] names anon n = Some (Named x r) -> r = MAnything /\ x <> ROOT_LABEL).
    { intros n x q. unfold metavariables. destruct (find _ names) as [[y z]|] eqn:Ef.
      - intros [= -> <-]. split; [reflexivity|]. intros ->. apply find_some in Ef as [Hin _].
        destruct (remap_distinct tokenize order _ _ Ht (spelled_ends _ _ _ _ _ Hs) HO _ _ _ Er) as [_ D].
        apply In_dget in Hin; [|exact D]. destruct N as (_ & _ & _ & N & _). destruct (N _ _ Hin) as (i & Hi & _).
        apply nth_error_In in Hi. exact (HR _ Ht Hi).
      - destruct (tmem n anon); congruence. }
    split; [exact Hplain|]. intros e PT.
    assert (Cp : conforms G p) by (eapply conforms_inside; [apply (pt_conforms _ _ Pm)|]; eapply (pull_inside G HGp k); eauto; apply (pt_conforms _ _ Pm)).
    assert (Np : is_node p = true) by now apply (Hn k).
    assert (Nh : forall n h, is_name p n -> metavariables restrictions names anon n = Some h -> False).
    { intros n h Hi Hh. destruct (code_tree _ _ _ _ _ U L T) as [Ho So]. destruct (lx_node co L) as (ty & fs & Et & _). pose proof (lx_plain co L) as Hp.
      rewrite Et in So, Hp. destruct p as [i gs|? ?|? ?]; try (inversion So; fail).
      pose proof (node_is_no_hole _ Ho _ _ _ _ _ Hp So Hi) as Nn. apply (restricted_other restrictions names anon n None) in Nn; [congruence|discriminate]. }
    assert (K : forall d c s, PatternSpec.inside (e_tree e) c ->
      (exists rm occ b, eval (with_done e d) m c s = (s, Ok (Some (RInfo rm (Some b) [])))
         /\ fits (with_done e d) (metavariables restrictions names anon) p c occ /\ alike occ /\ binds_last MERGE occ b /\ rm = create_match (e_parsed e) c)
      \/ (eval (with_done e d) m c s = (s, Ok None) /\ forall occ, fits (with_done e d) (metavariables restrictions names anon) p c occ -> ~ alike occ)).
    { intros d c s Ic. destruct (F (with_done e d) G (e_tree e) c s HG PT Cp Np Ic) as [(rm & occ & b & A1 & A2 & A3 & A4 & A5)|K].
      - intros n x r Hh. apply (restricted_named restrictions P HD HF) in Hh as [_ Hh]. eapply decides_ok, Hh.
      - left. exists rm, occ, b. do 4 (split; [assumption|]). apply A5. intros n x m' Hi Hh. destruct (Nh _ _ Hi Hh).
      - now right. }
    split; [|split].
    - intros d c s s' r Ic Ev. destruct (K d c s Ic) as [(rm & occ & b & E & Fi & A & [Bd Bg] & ->)|[E _]]; rewrite E in Ev; [|discriminate Ev].
      injection Ev as _ <-. destruct (restricted_fits restrictions P HD HF names anon e (with_done e d) eq_refl _ _ _ Fi) as [Fi' Sa].
      exists b, occ. split; [reflexivity|]. split; [now split|]. split; [exact Bd|]. split; [|exact Sa].
      intros x. rewrite Bg. now destruct (last_occ x occ).
    - intros d c s occ Ic [Fi A] Sa. apply (fits_restricted restrictions P HD HF names anon e (with_done e d) eq_refl) in Fi; [|exact Sa].
      destruct (K d c s Ic) as [(rm & occ' & b & E & _ & _ & _ & ->)|[E Nf]]; [|destruct (Nf _ Fi A)].
      eexists. exact E.
    - intros d c s Ic. destruct (K d c s Ic) as [(rm & occ & b & E & _ & _ & [Bd _] & ->)|[E _]]; [right|now left]. exists b. auto.
  Qed.
  Lemma restricted_pattern co restrictions (P : label -> value -> Prop) m :
    understood tokenize ast_parse co -> lexed co ->
    (forall x r, dget restrictions x = Some r -> decides r (P x)) -> (forall x v, dget restrictions x = None -> P x v) ->
    expr_pattern tokenize order ast_parse (source co) restrictions = Ok m ->
    exists holes p, has_tree tokenize ast_parse KExpr (source co) holes p
      /\ (forall n x r, holes n = Some (Named x r) -> r = MAnything /\ x <> ROOT_LABEL)
      /\ forall e, parsed_tree G (e_tree e) ->
         narrows e holes p (fun _ occ => Forall (satisfied (fun x _ => P x) e) occ) m /\ accepts e holes p (fun _ occ => Forall (satisfied' (fun x _ => P x) e) occ) m /\ answers e m.
  Proof.
    intros U L HD HF Hm. apply (restricted_pattern_as KExpr co restrictions (fun x _ => P x) m U L); [|intros x parsed v; apply HF|exact Hm].
    intros x r Hx. apply decides_always. now apply HD.
  Qed.
End Patterns.

(** *** The regular expression *)
Definition read_by (r : re) : readings := fun txt endp a b regs => 0 <= a /\ a <= b /\ b <= endp /\ matches r (slice txt a b) /\ regs = [(a, b)].
Lemma dollar_compiled r : compiled_dollar (read_by r) (dollar r).
Proof.
  intros txt a b. cbn [cr_match cr_groups dollar].
  destruct ((0 <=? a) && (a <=? b) && re_match r (slice txt a b)) eqn:E1.
  - split; [|constructor]. apply andb_prop in E1 as [E1 E3]. apply andb_prop in E1 as [E1 E2]. apply re_match_ok in E3. exists b. split; [|now left].
    unfold read_by. do 2 (split; [lia|]). split; [lia|]. auto.
  - assert (N1 : forall e regs, read_by r txt b a e regs -> e <> b).
    { intros e regs (A1 & A2 & A3 & A4 & A5) ->. apply re_match_ok in A4. rewrite A4 in E1. lia. }
    destruct (_ && re_match r (slice txt a (b - 1))) eqn:E2.
    + apply andb_prop in E2 as [E2 E3]. apply andb_prop in E2 as [E2 E4]. apply re_match_ok in E3. apply text_eqb_eq in E4. split; [|constructor].
      exists (b - 1). split; [|right; split; [lia|exact E4]]. unfold read_by. do 2 (split; [lia|]). split; [lia|]. auto.
    + intros e regs H [->|[Hb Hs]]; [exact (N1 _ _ H eq_refl)|]. destruct H as (A1 & A2 & A3 & A4 & A5).
      replace e with (b - 1) in * by lia. apply re_match_ok in A4. rewrite A4, (proj2 (text_eqb_eq _ _) Hs) in E2. lia.
Qed.
Lemma star_dot s : matches (Star (Cls (fun c => negb (c =? 10)))) s <-> ~ In 10 s.
Proof.
  split.
  - remember (Star _) as r eqn:Er. induction 1 as [|p c H|a b s t H IH H' IH'|a b s H IH|a b s H IH|a|a s t H IH H' IH']; try discriminate Er; [intros []|].
    injection Er as ->. inversion H as [|? c Hc| | | | |]; subst. intros K. apply in_app_iff in K as [[->|[]]|K]; [discriminate Hc|]. now apply IH'.
  - induction s as [|c s IH]; intros H; [constructor|]. apply (m_star_cons _ [c] s).
    + constructor. destruct (Z.eqb_spec c 10) as [->|]; [destruct H; now left|reflexivity].
    + apply IH. intros K. apply H. now right.
Qed.
Lemma unopened_iff s : matches unopened s <-> exists first middle, s = first :: middle ++ [41] /\ first <> 40 /\ middle <> [] /\ ~ In 10 middle.
Proof.
  unfold unopened. split.
  - intros H. inversion H as [| |a b s1 s2 H1 H2 E1 E2| | | |]; subst. inversion H1 as [|? c Hc| | | | |]; subst. inversion H2 as [| |a b s3 s4 H3 H4 E1 E2| | | |]; subst.
    inversion H4 as [|? c' Hc'| | | | |]; subst. inversion H3 as [| |a b s5 s6 H5 H6 E1 E2| | | |]; subst. inversion H5 as [|? c'' Hc''| | | | |]; subst. apply star_dot in H6.
    apply Z.eqb_eq in Hc'. subst c'. exists c, ([c''] ++ s6). split; [reflexivity|]. split; [intros ->; discriminate Hc|]. split; [discriminate|].
    intros [->|K]; [discriminate Hc''|auto].
  - intros (first & middle & -> & Hf & Hm & Hn). apply (m_seq _ _ [first] (middle ++ [41])).
    + constructor. destruct (Z.eqb_spec first 40); [contradiction|reflexivity].
    + apply m_seq; [|now constructor]. destruct middle as [|c middle]; [congruence|]. apply (m_seq _ _ [c] middle).
      * constructor. destruct (Z.eqb_spec c 10) as [->|]; [destruct Hn; now left|reflexivity].
      * apply star_dot. intros K. apply Hn. now right.
Qed.
Lemma dollar_closed txt a b : 0 <= a -> (exists regs, cr_match (dollar unopened) txt a b = Some regs) -> closed_only (slice txt a b).
Proof.
  intros Ha (regs & H). pose proof (dollar_compiled unopened txt a b) as K. rewrite H in K. destruct K as [(e & (_ & A2 & A3 & A4 & _) & D) _].
  apply unopened_iff in A4 as (first & middle & E & N). exists first, middle. split; [|exact N]. destruct D as [->|[D1 D2]]; [left; exact E|right].
  rewrite <- (slice_app txt a e b) by lia. rewrite E, D2. cbn [app]. now rewrite <- app_assoc.
Qed.
Lemma closed_dollar txt a b : 0 <= a -> 0 <= b -> b <= tlen txt -> closed_only (slice txt a b) -> exists regs, cr_match (dollar unopened) txt a b = Some regs.
Proof.
  intros Ha H0 Hb (first & middle & E & N).
  assert (Hab : a < b).
  { destruct (Z_lt_le_dec a b) as [|L]; [assumption|]. exfalso. rewrite (slice_inv txt a b H0 L) in E. destruct E as [E|E]; discriminate E. }
  pose proof (dollar_compiled unopened txt a b) as K. destruct (cr_match (dollar unopened) txt a b) as [regs|]; [eauto|]. exfalso.
  destruct E as [E|E].
  - apply (K b [(a, b)]); [|now left]. do 3 (split; [lia|]). split; [|reflexivity]. apply unopened_iff. eauto.
  - assert (Es : slice txt a (b - 1) = first :: middle ++ [41] /\ slice txt (b - 1) b = [10]).
    { pose proof (slice_app txt a (b - 1) b ltac:(lia) ltac:(lia) ltac:(lia)) as S. rewrite E in S.
      change (first :: middle ++ [41; 10]) with ((first :: middle) ++ [41; 10]) in S. replace ((first :: middle) ++ [41; 10]) with ((first :: middle ++ [41]) ++ [10]) in S by (cbn [app]; now rewrite <- app_assoc).
      pose proof (slice_len txt (b - 1) b ltac:(lia) ltac:(lia) ltac:(lia)) as Sl. destruct (slice txt (b - 1) b) as [|x [|y l]]; try (unfold tlen in Sl; cbn [length] in Sl; lia).
      apply app_inj_tail in S. exact (conj (proj1 S) (f_equal (fun x => [x]) (proj2 S))). }
    destruct Es as [E1 E2]. apply (K (b - 1) [(a, b - 1)]); [|right; split; [lia|exact E2]]. do 3 (split; [lia|]). split; [|reflexivity]. apply unopened_iff. eauto.
Qed.

(** *** The other matchers around the pattern *)
Lemma narrows_import e holes p Cond m module name : narrows e holes p Cond m ->
  narrows e holes p (fun c occ => Cond c occ /\ imports e module name) (MWithTopLevelImport m module name).
Proof.
  intros N d c s s' r Ic Ev. cbn [eval] in Ev. change (e_tree (with_done e d)) with (e_tree e) in Ev.
  destruct (dget (top_level_imports (e_tree e)) module) as [n|] eqn:Ed; [|discriminate Ev].
  destruct (text_eqb_spec n name) as [->|]; [|discriminate Ev].
  destruct (N d c s s' r Ic Ev) as (b & occ & A & B & C & D & E). exists b, occ. do 4 (split; [assumption|]). split; [exact E|].
  intros mvs Hg. apply dget_puts. now rewrite <- (top_level_imports_gives _ _ Hg).
Qed.
Lemma accepts_import e holes p Cond m module name : accepts e holes p Cond m ->
  accepts e holes p (fun c occ => Cond c occ /\ imports e module name /\ exists mvs, file_gives (e_tree e) mvs) (MWithTopLevelImport m module name).
Proof.
  intros N d c s occ Ic O (HC & Hi & mvs & Hg). destruct (N d c s occ Ic O HC) as (b & E). exists b.
  cbn [eval]. change (e_tree (with_done e d)) with (e_tree e). rewrite (top_level_imports_gives _ _ Hg).
  rewrite (proj2 (dget_puts mvs module name) (Hi mvs Hg)), text_eqb_refl. exact E.
Qed.
Lemma regex_on_code rx e c s : cr_groups rx = [] ->
  eval e (MMatchesRegex rx MAnything) c s
  = (s, Ok (match m_span (create_match (e_parsed e) c) with
            | Some (a, b) => match cr_match rx (pf_text (e_parsed e)) a b with
                             | Some _ => Some (RInfo (create_match (e_parsed e) c) (Some []) [])
                             | None => None
                             end
            | None => None
            end)).
Proof.
  intros Hg. cbn [eval]. unfold anything, info, mbind, lift, ret. cbn [r_match].
  destruct (m_span (create_match (e_parsed e) c)) as [[a b]|]; [|reflexivity]. destruct (cr_match rx _ a b) as [regs|]; [|reflexivity].
  cbn [r_bindings r_reps bind not_none]. unfold re_bindings. rewrite Hg. reflexivity.
Qed.
Lemma narrows_closed e holes p Cond m : (forall v a b, PatternSpec.inside (e_tree e) v -> m_span (create_match (e_parsed e) v) = Some (a, b) -> 0 <= a) ->
  narrows e holes p Cond m ->
  narrows e holes p (fun c occ => Cond c occ /\ looks_closed_only e c) (MAllOf [m; MMatchesRegex (dollar unopened) MAnything]).
Proof.
  intros Hs N d c s s' r Ic Ev. change (eval (with_done e d) (MAllOf [m; MMatchesRegex (dollar unopened) MAnything]) c s) with (accumulating (with_done e d) c [eval (with_done e d) m c; eval (with_done e d) (MMatchesRegex (dollar unopened) MAnything) c] s) in Ev.
  unfold accumulating in Ev. apply mbind_Ok in Ev as (s1 & o & Ev & Hr).
  destruct o as [[b t]|]; [|apply ret_Ok in Hr as [_ Hr]; discriminate Hr]. apply ret_Ok in Hr as [-> Hr]. injection Hr as <-.
  cbn [accumulate] in Ev. apply mbind_Ok in Ev as (s2 & o & E & Ev). destruct o as [r0|]; [|apply ret_Ok in Ev as [_ Ev]; discriminate Ev].
  destruct (N d c s s2 r0 Ic E) as (b0 & occ & -> & O & Bd & Bg & HC).
  unfold mbind at 1 2 3 4 5, lift at 1 2 3 4 5 in Ev. cbn [r_bindings r_reps bind not_none] in Ev. rewrite merge_bindings_nil in Ev.
  change (merge_replacements [] []) with (@Ok (dict template) []) in Ev. cbn iota beta in Ev.
  unfold mbind at 1 in Ev. rewrite regex_on_code in Ev by reflexivity. change (e_parsed (with_done e d)) with (e_parsed e) in Ev.
  destruct (m_span (create_match (e_parsed e) c)) as [[a z]|] eqn:Em; [|discriminate Ev].
  destruct (cr_match (dollar unopened) (pf_text (e_parsed e)) a z) as [regs|] eqn:Er; [|discriminate Ev].
  unfold mbind, lift, ret in Ev. cbn [r_bindings r_reps bind not_none] in Ev. rewrite merge_bindings_nil_r in Ev.
  change (merge_replacements [] []) with (@Ok (dict template) []) in Ev. cbn iota beta in Ev. injection Ev as _ <- <-.
  exists b0, occ. split; [reflexivity|]. do 3 (split; [assumption|]). split; [exact HC|]. exists a, z. split; [exact Em|]. apply dollar_closed; [eapply Hs; eassumption|eauto].
Qed.
Lemma accepts_closed e holes p Cond m :
  (forall v a b, PatternSpec.inside (e_tree e) v -> m_span (create_match (e_parsed e) v) = Some (a, b) -> 0 <= a /\ 0 <= b <= tlen (pf_text (e_parsed e))) ->
  accepts e holes p Cond m -> accepts e holes p (fun c occ => Cond c occ /\ looks_closed_only e c) (MAllOf [m; MMatchesRegex (dollar unopened) MAnything]).
Proof.
  intros Hs N d c s occ Ic O (HC & a & z & Em & Hc). destruct (N d c s occ Ic O HC) as (b & E). exists b.
  change (eval (with_done e d) (MAllOf [m; MMatchesRegex (dollar unopened) MAnything]) c s) with (accumulating (with_done e d) c [eval (with_done e d) m c; eval (with_done e d) (MMatchesRegex (dollar unopened) MAnything) c] s).
  unfold accumulating. cbn [accumulate]. unfold mbind at 1 2. rewrite E.
  unfold mbind at 1 2 3 4 5, lift at 1 2 3 4 5. cbn [r_bindings r_reps bind not_none]. rewrite merge_bindings_nil.
  change (merge_replacements [] []) with (@Ok (dict template) []). cbn iota beta.
  unfold mbind at 1. rewrite regex_on_code by reflexivity. change (e_parsed (with_done e d)) with (e_parsed e).
  rewrite Em. destruct (Hs c a z Ic Em) as (H1 & H2 & H3). destruct (closed_dollar _ _ _ H1 H2 H3 Hc) as (regs & ->).
  unfold mbind, lift, ret. cbn [r_bindings r_reps bind not_none]. rewrite merge_bindings_nil_r. reflexivity.
Qed.
