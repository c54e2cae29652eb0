(** The fixers for mutable constants in a search: proofs. *)
From Verif Require Import TemplateProofs Py PyFacts Regex RegexProofs Subst ApplySpec ApplyProofs Ast Template FromDiff Matcher MatchSpec MatcherProofs FilterSpec FindSpec FindProofs
  NavSpec PatTok PatSpec Pattern PatternSpec EquivProofs PatternProofs PatternApi
  PyTemplate PyTemplateSpec PyTemplateProofs Search SearchSpec Removal OwnSpec
  PropsTemplate ExprSubSpec ExprSubProofs PropsExprSub Fixer FixerSpec FixerProofs PyCode BuiltinFixers BuiltinSpec CodeProofs BuiltinProofs BuiltinApply BuiltinTables BuiltinMain
  CorrectnessFixers CorrectnessSpec CorrectnessProofs CorrectnessMain IdiomFixers IdiomSpec.
From Coq Require Import Permutation.

(** *** The regular expression *)
Lemma star_cls p s : matches (Star (Cls p)) s <-> Forall (fun c => p c = true) s.
Proof.
  split.
  - remember (Star (Cls p)) as r eqn:Er. induction 1 as [|? c H|a b s t H IH H' IH'|a b s H IH|a b s H IH|a|a s t H IH H' IH']; try discriminate Er; [constructor|].
    injection Er as ->. inversion H as [|? c Hc| | | | |]; subst. apply Forall_cons; [exact Hc|]. now apply IH'.
  - induction s as [|c s IH]; intros H; [constructor|]. inversion H; subst. apply (m_star_cons _ [c] s); [now constructor|auto].
Qed.
Lemma constant_char_iff decimal c : constant_char decimal c = true <-> 65 <= c <= 90 \/ c = 95 \/ decimal c = true.
Proof. unfold constant_char. rewrite !orb_true_iff, andb_true_iff. lia. Qed.
Lemma constant_iff decimal s : matches (constant_re decimal) s <-> s <> [] /\ Forall (fun c => 65 <= c <= 90 \/ c = 95 \/ decimal c = true) s.
Proof.
  unfold constant_re. split.
  - intros H. inversion H as [| |a b s1 s2 H1 H2 E1 E2| | | |]; subst. inversion H1 as [|? c Hc| | | | |]; subst. apply star_cls in H2. split; [discriminate|].
    apply Forall_cons; [now apply constant_char_iff|]. eapply Forall_impl; [|exact H2]. intros x. apply constant_char_iff.
  - intros [N F]. destruct s as [|c s]; [congruence|]. inversion F as [|? ? Hc Fs]; subst. apply (m_seq _ _ [c] s); [constructor; now apply constant_char_iff|].
    apply star_cls. eapply Forall_impl; [|exact Fs]. intros x. apply constant_char_iff.
Qed.
Lemma dollar_constant decimal txt a b : 0 <= a -> (exists regs, cr_match (dollar (constant_re decimal)) txt a b = Some regs) -> constant_name decimal (slice txt a b).
Proof.
  intros Ha (regs & H). pose proof (dollar_compiled (constant_re decimal) txt a b) as K. rewrite H in K. destruct K as [(e & (_ & A2 & A3 & A4 & _) & D) _].
  apply constant_iff in A4 as [N F]. exists (slice txt a e). split; [|auto]. destruct D as [->|[D1 D2]]; [now left|right].
  rewrite <- (slice_app txt a e b) by lia. now rewrite D2.
Qed.
Lemma constant_dollar decimal txt a b : 0 <= a -> 0 <= b -> b <= tlen txt -> constant_name decimal (slice txt a b) ->
  exists regs, cr_match (dollar (constant_re decimal)) txt a b = Some regs.
Proof.
  intros Ha H0 Hb (w & E & N & F).
  assert (Hab : a < b).
  { destruct (Z_lt_le_dec a b) as [|L]; [assumption|]. exfalso. rewrite (slice_inv txt a b H0 L) in E. destruct E as [E|E]; [congruence|]. destruct w; discriminate E. }
  pose proof (dollar_compiled (constant_re decimal) txt a b) as K. destruct (cr_match _ txt a b) as [regs|]; [eauto|]. exfalso.
  destruct E as [E|E].
  - apply (K b [(a, b)]); [|now left]. do 3 (split; [lia|]). split; [|reflexivity]. apply constant_iff. rewrite E. auto.
  - assert (Es : slice txt a (b - 1) = w /\ slice txt (b - 1) b = [10]).
    { pose proof (slice_app txt a (b - 1) b ltac:(lia) ltac:(lia) ltac:(lia)) as S. rewrite E in S.
      pose proof (slice_len txt (b - 1) b ltac:(lia) ltac:(lia) ltac:(lia)) as Sl. destruct (slice txt (b - 1) b) as [|x [|y l]]; try (unfold tlen in Sl; cbn [length] in Sl; lia).
      apply app_inj_tail in S. exact (conj (proj1 S) (f_equal (fun x => [x]) (proj2 S))). }
    destruct Es as [E1 E2]. apply (K (b - 1) [(a, b - 1)]); [|right; split; [lia|exact E2]]. do 3 (split; [lia|]). split; [|reflexivity]. apply constant_iff. rewrite E1. auto.
Qed.

(** What a regular expression without groups decides. *)
Definition regex_accepts (rx : crx) (parsed : parsed_file) (v : value) : Prop :=
  exists a b regs, m_span (create_match parsed v) = Some (a, b) /\ cr_match rx (pf_text parsed) a b = Some regs.
Lemma decides_regex rx : cr_groups rx = [] -> decides_in (MMatchesRegex rx MAnything) (regex_accepts rx).
Proof.
  intros Hg e c. destruct (m_span (create_match (e_parsed e) c)) as [[a b]|] eqn:Es.
  - destruct (cr_match rx (pf_text (e_parsed e)) a b) as [regs|] eqn:Er.
    + left. split; [exists a, b, regs; auto|]. intros s. rewrite regex_on_code by exact Hg. now rewrite Es, Er.
    + right. split; [intros (a' & b' & regs & E1 & E2); rewrite Es in E1; injection E1 as <- <-; congruence|]. intros s. rewrite regex_on_code by exact Hg. now rewrite Es, Er.
  - right. split; [intros (a & b & regs & E1 & _); congruence|]. intros s. rewrite regex_on_code by exact Hg. now rewrite Es.
Qed.
Lemma plain_regex rx : cr_groups rx = [] -> plain_matcher [] (MMatchesRegex rx MAnything).
Proof.
  intros Hg. split; [|split; [reflexivity|split; [reflexivity|]]].
  - cbn. split; [rewrite Hg; constructor|exact I].
  - cbn. rewrite Hg. intros x [].
Qed.
Lemma decides_in_more m (P Q : parsed_file -> value -> Prop) : (forall parsed c, P parsed c <-> Q parsed c) -> decides_in m P -> decides_in m Q.
Proof. intros H D e c. destruct (D e c) as [[Y E]|[N E]]; [left|right]; (split; [|assumption]); rewrite <- H; assumption. Qed.

(** *** Their texts *)
Lemma constant_lexed : Forall (fun oc => lexed (fst oc) /\ lexed (snd oc)) constant_codes.
Proof. repeat (apply Forall_cons; [split; cbn [fst snd en_old en_new]; lexed_tac|]). constructor. Qed.
Lemma constant_single : Forall single constant_codes.
Proof. repeat (apply Forall_cons; [split; [nodup_tac|split; [nodup_tac|intros x Hx; exact Hx]]|]). constructor. Qed.
Lemma constant_nonempty : Forall (fun oc : code label * code label => source (snd oc) <> []) constant_codes.
Proof. repeat (apply Forall_cons; [vm_compute; discriminate|]). constructor. Qed.
Lemma constant_no_meta : Forall (fun oc : code label * code label => forall l, In l meta_labels -> ~ In l (left_open (fst oc))) constant_codes.
Proof.
  apply Forall_forall. intros oc Hin l Hl Hb.
  assert (K : forallb (fun oc : code label * code label => forallb (fun l => negb (tmem l (left_open (fst oc)))) meta_labels) constant_codes = true) by (vm_compute; reflexivity).
  rewrite forallb_forall in K. specialize (K _ Hin). rewrite forallb_forall in K. specialize (K _ Hl). apply tmem_In in Hb. now rewrite Hb in K.
Qed.
Lemma table_codes decimal en : In en (constant_table decimal) -> In (en_old en, en_new en) constant_codes.
Proof. intros H. apply (in_map (fun en => (en_old en, en_new en))) in H. exact H. Qed.

Section Constants.
  Variable tokenize : text -> res (list ptok).
  Variable order : list nat -> list nat.
  Variable ast_parse : text -> res value.
  Variable parse_env : text -> res env.
  Variable decimal : Z -> bool.
  Variable G : grammar.
  Hypothesis HO : forall l, Permutation (order l) l.
  Hypothesis HG : proper G.
  Hypothesis HGp : python_grammar G.
  Hypothesis HA : python_ast G ast_parse.
  Hypothesis U : Forall (fun oc => understood_as KStmt tokenize ast_parse (fst oc) /\ understood_as KStmt tokenize ast_parse (snd oc)) constant_codes.

  Definition implements_stmt (en : entry) (f : fixer) : Prop :=
    plain_fixer f /\ meta_of f = (Some (en_message en), Some (en_category en), false)
    /\ exists holes p t, python_stmt_template tokenize order ast_parse (source (en_new en)) = Ok t
       /\ fx_replacement f = inl (as_template tokenize order ast_parse parse_env t)
       /\ has_tree tokenize ast_parse KStmt (source (en_old en)) holes p
       /\ (forall n x r, holes n = Some (Named x r) -> r = MAnything /\ x <> ROOT_LABEL)
       /\ forall e, parsed_tree G (e_tree e) -> spans_ok e ->
          narrows e holes p (fun c occ => forall parts, places_of e (en_old en) occ parts -> en_when en e c parts) (fx_matcher f).

  Lemma implement_stmt en restrictions (P : label -> parsed_file -> value -> Prop) f :
    In (en_old en, en_new en) constant_codes -> en_message en = constant_says -> en_category en = constant_category ->
    (forall x r, dget restrictions x = Some r -> decides_in r (P x) /\ plain_matcher [] r) -> (forall x parsed v, dget restrictions x = None -> P x parsed v) ->
    (forall e c parts, parsed_tree G (e_tree e) -> spans_ok e -> (forall x, In x (left_open (en_old en)) -> PatternSpec.inside (e_tree e) (parts x)) ->
       (forall x, In x (left_open (en_old en)) -> P x (e_parsed e) (parts x)) -> en_when en e c parts) ->
    mutable_constant_fixer tokenize order ast_parse parse_env (source (en_old en), restrictions, source (en_new en)) = Ok f -> implements_stmt en f.
  Proof.
    intros Hin Em Ec HR HN Hwhen H. unfold mutable_constant_fixer in H. apply bind_Ok in H as (m & Hm & H). apply bind_Ok in H as (t & Ht & H). injection H as <-.
    pose proof constant_lexed as L0. pose proof constant_no_meta as M0. rewrite Forall_forall in U, L0, M0.
    destruct (U _ Hin) as [U1 _], (L0 _ Hin) as [L _]. specialize (M0 _ Hin). cbn [fst snd] in *.
    destruct (has_tokens_of tokenize ast_parse _ U1 L) as [T _].
    destruct (restricted_pattern_as tokenize order ast_parse G HO HG HGp HA KStmt (en_old en) restrictions P m U1 L (fun x r Hx => proj1 (HR x r Hx)) HN Hm) as (holes & p & Tr & Hp & Na).
    split; [|split].
    - assert (K : plain_matcher (left_open (en_old en)) m).
      { rewrite <- (lx_vars _ L). eapply (restricted_plain_as KStmt); [exact HO|exact T|intros x r Hx; exact (proj2 (HR x r Hx))|exact Hm|].
        rewrite (lx_newline _ L). cbn [negb]. apply (una_tokens _ _ _ _ U1). }
      destruct K as (K1 & K2 & K3 & K4). constructor; cbn [fx_matcher fx_replacement]; auto. intros l Hl Hb. apply (M0 l Hl). now apply K4.
    - rewrite Em, Ec. reflexivity.
    - exists holes, p, t. split; [exact Ht|]. split; [reflexivity|]. split; [exact Tr|]. split; [exact Hp|]. intros e PT Hs. cbn [fx_matcher].
      destruct (Na e PT) as [N _]. eapply narrows_weaken; [|exact N]. cbn beta.
      intros c occ Sa parts Hpa. apply Hwhen; [exact PT|exact Hs|intros x Hx; apply (Hpa x Hx)|].
      intros x Hx. destruct (Hpa x Hx) as (Hino & Hl & _). rewrite Forall_forall in Sa. destruct (Sa _ Hino) as (v & Ev & Pv). cbn [fst snd] in *.
      now rewrite (created_located _ _ _ Hl Ev) in Pv.
  Qed.

  Lemma accepted_constant e v : spans_ok e -> PatternSpec.inside (e_tree e) v ->
    regex_accepts (dollar (constant_re decimal)) (e_parsed e) v -> looks_constant decimal e v.
  Proof.
    intros Hs Hi (a & b & regs & E1 & E2). exists a, b. split; [exact E1|]. apply dollar_constant; [eapply Hs; eassumption|eauto].
  Qed.
  (** Restricting the second variable to a class. *)
  Definition of_class (x ty : text) (y : label) (parsed : parsed_file) (v : value) : Prop :=
    (y = TX "constant" -> regex_accepts (dollar (constant_re decimal)) parsed v) /\ (y = x -> vtype v = ty).
  Lemma class_restrictions x ty fs : x <> TX "constant" -> Forall (fun kv => snd kv = MAnything) fs -> plain_matcher [] (MNode ty fs) ->
    forall y r, dget [(TX "constant", constant_matcher decimal); (x, MNode ty fs)] y = Some r -> decides_in r (of_class x ty y) /\ plain_matcher [] r.
  Proof.
    intros Nx F Pl y r. cbn [dget]. destruct (text_eqb_spec (TX "constant") y) as [<-|Ny].
    - intros [= <-]. split; [|now apply plain_regex]. eapply decides_in_more; [|apply decides_regex; reflexivity]. intros parsed c. unfold of_class.
      split; [intros H; split; [auto|congruence]|intros [H _]; now apply H].
    - destruct (text_eqb_spec x y) as [<-|Nz]; [|discriminate]. intros [= <-]. split; [|exact Pl].
      eapply decides_in_more; [|apply decides_always, decides_class; exact F]. intros parsed c. unfold of_class. split; [intros H; split; [congruence|auto]|intros [_ H]; now apply H].
  Qed.
  Lemma class_unrestricted x ty m : forall y parsed v, dget [(TX "constant", constant_matcher decimal); (x, m)] y = None -> of_class x ty y parsed v.
  Proof.
    intros y parsed v. cbn [dget]. destruct (text_eqb_spec (TX "constant") y) as [<-|Ny]; [discriminate|].
    destruct (text_eqb_spec x y) as [<-|Nz]; [discriminate|]. intros _. split; congruence.
  Qed.
  Lemma constants_implemented cf : constant_fixers tokenize order ast_parse parse_env decimal = Ok cf -> Forall2 implements_stmt (constant_table decimal) cf.
  Proof.
    unfold constant_fixers. intros H. apply mapM_Forall2 in H. unfold constant_entries in H.
    inversion H as [|? f1 ? l1 H1 K1]; subst. inversion K1 as [|? f2 ? l2 H2 K2]; subst. inversion K2 as [|? f3 ? l3 H3 K3]; subst. inversion K3; subst. clear H K1 K2 K3.
    pose proof (table_codes decimal) as C. unfold constant_table in *. cbn [In] in C.
    constructor; [|constructor; [|constructor; [|constructor]]].
    - apply (implement_stmt _ [(TX "constant", constant_matcher decimal); (TX "set", any_set)] (of_class (TX "set") (TX "Set"))).
      + apply C. now left.
      + reflexivity.
      + reflexivity.
      + apply class_restrictions; [discriminate|repeat constructor|]. split; [cbn; tauto|]. split; [reflexivity|]. split; [reflexivity|]. intros x [].
      + apply class_unrestricted.
      + intros e c parts PT Hs Hi HP. cbn [en_when en_old]. split.
        * apply accepted_constant; [exact Hs|apply Hi; now left|]. apply (HP (TX "constant")); [now left|reflexivity].
        * apply (HP (TX "set")); [right; now left|reflexivity].
      + exact H1.
    - apply (implement_stmt _ [(TX "constant", constant_matcher decimal); (TX "setcomp", any_set_comp)] (of_class (TX "setcomp") (TX "SetComp"))).
      + apply C. right. now left.
      + reflexivity.
      + reflexivity.
      + apply class_restrictions; [discriminate|repeat constructor|]. split; [cbn; tauto|]. split; [reflexivity|]. split; [reflexivity|]. intros x [].
      + apply class_unrestricted.
      + intros e c parts PT Hs Hi HP. cbn [en_when en_old]. split.
        * apply accepted_constant; [exact Hs|apply Hi; now left|]. apply (HP (TX "constant")); [now left|reflexivity].
        * apply (HP (TX "setcomp")); [right; now left|reflexivity].
      + exact H2.
    - apply (implement_stmt _ [(TX "constant", constant_matcher decimal)] (fun y parsed v => y = TX "constant" -> regex_accepts (dollar (constant_re decimal)) parsed v)).
      + apply C. right. right. now left.
      + reflexivity.
      + reflexivity.
      + intros y r. cbn [dget]. destruct (text_eqb_spec (TX "constant") y) as [<-|Ny]; [|discriminate]. intros [= <-]. split; [|now apply plain_regex].
        eapply decides_in_more; [|apply decides_regex; reflexivity]. intros parsed c. tauto.
      + intros y parsed v. cbn [dget]. destruct (text_eqb_spec (TX "constant") y) as [<-|Ny]; [discriminate|]. congruence.
      + intros e c parts PT Hs Hi HP. cbn [en_when en_old]. apply accepted_constant; [exact Hs|apply Hi; now left|]. apply (HP (TX "constant")); [now left|reflexivity].
      + exact H3.
  Qed.
  Lemma constant_implemented cf f : constant_fixers tokenize order ast_parse parse_env decimal = Ok cf -> In f cf ->
    exists en, In en (constant_table decimal) /\ implements_stmt en f.
  Proof.
    intros H Hin. apply constants_implemented in H. revert H Hin. generalize (constant_table decimal). intros ens F. induction F as [|en g ens fs K F IH]; intros Hin; [destruct Hin|].
    destruct Hin as [<-|Hin]; [exists en; split; [now left|exact K]|]. destruct (IH Hin) as (en' & A & B). exists en'. split; [now right|exact B].
  Qed.

  Variable parse_ast : text -> text -> res parsed_file.
  Variable context : parsed_file -> pyinfo -> env.
  Variable pass_template : template.
  Hypothesis HPa : python_parser G parse_env.
  Lemma constants_made_immutable fs cf s data path parsed e subs sub :
    constant_fixers tokenize order ast_parse parse_env decimal = Ok cf -> (forall f, In f fs -> In f cf \/ plain_fixer f) ->
    combining_fixer parse_ast context pass_template fs = Ok s ->
    parsed_source parse_ast context G data path parsed e -> unshared (e_tree e) -> located_exprs (e_tree e) ->
    (forall anc sp c_span, PatternSpec.inside (e_tree e) anc -> m_span (create_match parsed anc) = Some sp ->
      plain_source tokenize (around parsed anc sp (TX "$current_expr") c_span)) ->
    s_find s parsed = Ok subs -> In sub subs ->
    exists f, In f fs /\ carries f sub
      /\ (In f cf -> forall reps l txt, replacements sub = Some reps -> In (l, txt) reps ->
          exists en, In en (constant_table decimal) /\ (message sub, category sub, significant sub) = (Some (en_message en), Some (en_category en), false)
             /\ statement_corrected parse_env e sub l txt en).
  Proof.
    intros Hcf Hfs Hs HP Hun Hlx Hctx Hf Hin.
    assert (Hpl : Forall plain_fixer fs).
    { apply Forall_forall. intros f H. destruct (Hfs f H) as [K|K]; [|exact K]. destruct (constant_implemented cf f Hcf K) as (en & _ & P & _). exact P. }
    destruct (applied_to tokenize order ast_parse parse_env parse_ast context pass_template G HO HG HGp HA HPa fs s data path parsed e subs sub Hs Hpl HP Hun Hctx Hf Hin)
      as (f & Hff & Hca & _ & K).
    exists f. split; [exact Hff|]. split; [exact Hca|]. intros Hfc reps l txt Er Hl.
    pose proof (ps_tree _ _ _ _ _ _ _ HP) as PT.
    destruct (constant_implemented cf f Hcf Hfc) as (en & Hen & _ & Em & holes & p & t & Ht & Efr & Tr & Hh & Nar).
    exists en. split; [exact Hen|]. split; [destruct Hca as (C1 & _ & C3 & C4); unfold meta_of in Em; now rewrite C1, C3, C4|].
    assert (So : spans_ok e).
    { intros v a b Iv Sv. rewrite (ps_env _ _ _ _ _ _ _ HP) in Sv. eapply (ps_offsets _ _ _ _ _ _ _ HP); eassumption. }
    pose proof (table_codes _ _ Hen) as Hc.
    pose proof U as U0. pose proof constant_lexed as L0. pose proof constant_single as S0. pose proof constant_nonempty as N0. rewrite Forall_forall in U0, L0, S0, N0.
    destruct (U0 _ Hc) as [U1 U2], (L0 _ Hc) as [L1 L2], (S0 _ Hc) as (N1 & N2 & N3). specialize (N0 _ Hc). cbn [fst snd] in *.
    destruct (has_tokens_of tokenize ast_parse _ U2 L2) as [T2 _].
    destruct (K KStmt (source (en_old en)) (source (en_new en)) holes p t _ Ht Efr (Nar e PT So) Tr Hh T2 N0 reps l txt Er Hl) as (q & c & occ & ms & holes' & p' & r & safe & W & HC).
    destruct (coded_parts tokenize order ast_parse parse_env parse_ast G HGp HPa e _ _ sub l txt _ _ _ _ _ _ _ _ _ _ _ U1 L1 U2 L2 PT Hlx N1 N2 N3 W)
      as (e1 & c1 & parts & parts' & E1 & E2 & E3 & E4 & E5 & _ & E6).
    destruct W as (W1 & W2 & (sp & W3 & W3') & _ & _ & _ & _ & _ & _ & W4).
    assert (Ec : is_expr c = false).
    { clear - E3 Hen. unfold made_of, reads in E3.
      assert (exists i fs, c = VNode i fs /\ n_type i = TX "Assign") as (i & fs & -> & Et).
      { destruct Hen as [<-|[<-|[<-|[]]]]; cbn [en_old fill tree_of constant_is] in E3; inversion E3; subst; eauto. }
      unfold is_expr, isinst. change (vtype (VNode i fs)) with (n_type i). rewrite Et. reflexivity. }
    assert (txt = r) as -> by (destruct W4 as [[_ E]|(? & ? & ? & ? & ? & ? & ? & ? & ? & ? & ? & E & _)]; [exact E|congruence]).
    exists q, c, sp, e1, c1, parts, parts'. do 9 (split; [assumption|]). apply HC. exact E6.
  Qed.
End Constants.
