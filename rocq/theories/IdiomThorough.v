(** The fixers for mutable constants miss no place: proofs. *)
From Verif Require Import TemplateProofs Py PyFacts Regex Subst ApplySpec Ast Template FromDiff Matcher MatchSpec MatcherProofs FindSpec FindProofs
  FilterSpec NavSpec NavProofs PatTok PatSpec Pattern PatternSpec EquivProofs PatternProofs PatternApi
  PyTemplate PyTemplateSpec PyTemplateProofs Search SearchSpec Removal OwnSpec
  PropsTemplate ExprSubSpec ExprSubProofs PropsExprSub Fixer FixerSpec FixerProofs PyCode BuiltinFixers BuiltinSpec CodeProofs BuiltinProofs BuiltinApply BuiltinTables BuiltinMain
  CorrectnessFixers CorrectnessSpec CorrectnessProofs CorrectnessMain CorrectnessSearch ThoroughSpec ThoroughCode ThoroughProofs ThoroughSearch ThoroughMain
  IdiomFixers IdiomSpec IdiomProofs.
From Coq Require Import Permutation.

Section Thorough.
  Variable tokenize : text -> res (list ptok).
  Variable order : list nat -> list nat.
  Variable ast_parse : text -> res value.
  Variable parse_env : text -> res env.
  Variable decimal : Z -> bool.
  Variable G : grammar.
  Hypothesis HO : forall l, Permutation (order l) l.
  Hypothesis HG : proper G.
  Hypothesis HGp : python_grammar G.
  Hypothesis HA : python_ast G ast_parse.
  Hypothesis HE : parses_evaluated ast_parse.
  Hypothesis U : Forall (fun oc => understood_as KStmt tokenize ast_parse (fst oc) /\ understood_as KStmt tokenize ast_parse (snd oc)) constant_codes.
  Variable e : env.
  Hypothesis PT : parsed_tree G (e_tree e).
  Hypothesis HW : well_positioned e.

  Lemma catch_constant en restrictions (P : label -> parsed_file -> value -> Prop) f :
    In (en_old en, en_new en) constant_codes -> exposed_ok (tree_of (en_old en)) = true -> exposed (tree_of (en_old en)) = false ->
    (forall x r, dget restrictions x = Some r -> decides_in r (P x) /\ plain_matcher [] r) -> (forall x parsed v, dget restrictions x = None -> P x parsed v) ->
    (forall c parts, en_when en e c parts -> forall x, PatternSpec.inside (e_tree e) (parts x) -> P x (e_parsed e) (parts x)) ->
    mutable_constant_fixer tokenize order ast_parse parse_env (source (en_old en), restrictions, source (en_new en)) = Ok f -> sure e f (bug en e).
  Proof.
    intros Hin Hx Hx' HR HN Hwhen H. unfold mutable_constant_fixer in H. apply bind_Ok in H as (m & Hm & H). apply bind_Ok in H as (t & Ht & H). injection H as <-.
    pose proof constant_lexed as L0. pose proof constant_no_meta as M0. pose proof constant_single as S0. pose proof constant_nonempty as N0. pose proof U as U0.
    rewrite Forall_forall in U0, L0, M0, S0, N0.
    destruct (U0 _ Hin) as [U1 _], (L0 _ Hin) as [L _], (S0 _ Hin) as [Nd _]. specialize (M0 _ Hin). specialize (N0 _ Hin). cbn [fst snd] in *.
    destruct (has_tokens_of tokenize ast_parse _ U1 L) as [T _].
    destruct (restricted_pattern_as tokenize order ast_parse G HO HG HGp HA KStmt (en_old en) restrictions P m U1 L (fun x r Hx => proj1 (HR x r Hx)) HN Hm) as (holes & p & Tr & Hp & Na).
    destruct (Na e PT) as (_ & Ac & An). clear Na.
    assert (Es : py_source t = source (en_new en)).
    { unfold python_stmt_template, make_template in Ht. clear - Ht. repeat (apply bind_Ok in Ht as (? & _ & Ht)). now injection Ht as <-. }
    assert (K : plain_matcher (left_open (en_old en)) m).
    { rewrite <- (lx_vars _ L). eapply (restricted_plain_as KStmt); [exact HO|exact T|intros x r Hxr; exact (proj2 (HR x r Hxr))|exact Hm|].
      rewrite (lx_newline _ L). cbn [negb]. apply (una_tokens _ _ _ _ U1). }
    destruct K as (K1 & K2 & K3 & K4).
    match goal with |- sure _ ?f _ => assert (Rl : reliable e f) end.
    { constructor; cbn [fx_matcher fx_replacement fx_message fx_url fx_category].
      - constructor; cbn [fx_matcher fx_replacement]; auto. intros l Hl Hb. apply (M0 l Hl). now apply K4.
      - intros Hr. apply K4 in Hr. apply tmem_In in Hr. pose proof (lx_root _ L) as Lr. change ROOT_LABEL with (TX "__root") in Hr. congruence.
      - exact An.
      - cbn [as_template t_template]. rewrite Es. exact N0.
      - intros x Hin' ->. destruct Hin' as [E|[E|[E|[]]]]; discriminate E. }
    split; [exact Rl|]. intros mm d c s Hmm Ic (parts & M & Hw).
    destruct (pattern_occurs_as tokenize ast_parse G HGp HA HE KStmt (en_old en) P (fun x w => parts x = w) holes p e c U1 L Hx) as (occ & O & Sa).
    - congruence.
    - exact Tr.
    - exact (wp_located _ HW).
    - exact (wp_evaluated _ HW).
    - exact Ic.
    - congruence.
    - now apply filled_reads.
    - intros x w <- Iw. now apply (Hwhen c parts Hw).
    - intros occ. now apply distinct_alike.
    - destruct (Ac d c s occ Ic O Sa) as (b & E).
      destruct (rl_answers _ _ Rl d c s Ic) as [E'|(b' & E' & Db)]; cbn [fx_matcher] in E'; [congruence|].
      destruct (with_root (with_done e d) _ mm c s _ b' (rl_plain _ _ Rl) (rl_root _ _ Rl) Hmm E' Db) as (b'' & E'' & _). eauto.
  Qed.
  Lemma constant_accepted v : PatternSpec.inside (e_tree e) v ->
    looks_constant decimal e v -> regex_accepts (dollar (constant_re decimal)) (e_parsed e) v.
  Proof.
    intros Iv (a & b & Es & Hc). destruct (wp_spans _ HW v a b Iv Es) as (A & B & C).
    destruct (constant_dollar decimal (pf_text (e_parsed e)) a b A B C Hc) as (regs & R). exists a, b, regs. auto.
  Qed.
  Lemma constants_caught cf : constant_fixers tokenize order ast_parse parse_env decimal = Ok cf -> Forall2 (fun en f => sure e f (bug en e)) (constant_table decimal) cf.
  Proof.
    unfold constant_fixers. intros H. apply mapM_Forall2 in H. unfold constant_entries in H.
    inversion H as [|? f1 ? l1 H1 K1]; subst. inversion K1 as [|? f2 ? l2 H2 K2]; subst. inversion K2 as [|? f3 ? l3 H3 K3]; subst. inversion K3; subst. clear H K1 K2 K3.
    pose proof (table_codes decimal) as C. unfold constant_table in *. cbn [In] in C.
    constructor; [|constructor; [|constructor; [|constructor]]].
    - apply (catch_constant _ [(TX "constant", constant_matcher decimal); (TX "set", any_set)] (of_class decimal (TX "set") (TX "Set"))).
      + apply C. now left.
      + vm_compute. reflexivity.
      + vm_compute. reflexivity.
      + apply class_restrictions; [discriminate|repeat constructor|]. split; [cbn; tauto|]. split; [reflexivity|]. split; [reflexivity|]. intros x [].
      + apply class_unrestricted.
      + cbn [en_when]. intros c parts [W1 W2] x Ix. split; intros ->; [now apply constant_accepted|exact W2].
      + exact H1.
    - apply (catch_constant _ [(TX "constant", constant_matcher decimal); (TX "setcomp", any_set_comp)] (of_class decimal (TX "setcomp") (TX "SetComp"))).
      + apply C. right. now left.
      + vm_compute. reflexivity.
      + vm_compute. reflexivity.
      + apply class_restrictions; [discriminate|repeat constructor|]. split; [cbn; tauto|]. split; [reflexivity|]. split; [reflexivity|]. intros x [].
      + apply class_unrestricted.
      + cbn [en_when]. intros c parts [W1 W2] x Ix. split; intros ->; [now apply constant_accepted|exact W2].
      + exact H2.
    - apply (catch_constant _ [(TX "constant", constant_matcher decimal)] (fun y parsed v => y = TX "constant" -> regex_accepts (dollar (constant_re decimal)) parsed v)).
      + apply C. right. right. now left.
      + vm_compute. reflexivity.
      + vm_compute. reflexivity.
      + intros y r. cbn [dget]. destruct (text_eqb_spec (TX "constant") y) as [<-|Ny]; [|discriminate]. intros [= <-]. split; [|now apply plain_regex].
        eapply decides_in_more; [|apply decides_regex; reflexivity]. intros parsed c. tauto.
      + intros y parsed v. cbn [dget]. destruct (text_eqb_spec (TX "constant") y) as [<-|Ny]; [discriminate|]. congruence.
      + cbn [en_when]. intros c parts W1 x Ix ->. now apply constant_accepted.
      + exact H3.
  Qed.
  Lemma constant_caught cf en : constant_fixers tokenize order ast_parse parse_env decimal = Ok cf -> In en (constant_table decimal) -> exists f, In f cf /\ sure e f (bug en e).
  Proof.
    intros H Hin. apply constants_caught in H. revert H Hin. generalize (constant_table decimal). intros ens F. induction F as [|en' g ens fs K F IH]; intros Hin; [destruct Hin|].
    destruct Hin as [->|Hin]; [exists g; split; [now left|exact K]|]. destruct (IH Hin) as (f & A & B). exists f. split; [now right|exact B].
  Qed.
  Lemma constants_reliable cf f : constant_fixers tokenize order ast_parse parse_env decimal = Ok cf -> In f cf -> reliable e f.
  Proof.
    intros H Hin. apply constants_caught in H. revert H Hin. generalize (constant_table decimal). intros ens F. induction F as [|en' g ens fs K F IH]; intros Hin; [destruct Hin|].
    destruct Hin as [->|Hin]; [exact (proj1 K)|auto].
  Qed.
End Thorough.
