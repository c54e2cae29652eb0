(** C80: rewriting in several rounds. *)
From Verif Require Import TemplateProofs Py PyFacts Regex Subst ApplySpec Ast Template FromDiff Matcher MatchSpec MatcherProofs FindSpec FindProofs
  FilterSpec NavSpec NavProofs PatTok PatSpec Pattern PatternSpec EquivProofs PatternProofs PatternApi
  PyTemplate PyTemplateSpec PyTemplateProofs Search SearchSpec PropsSearch Removal OwnSpec SampleTrees PropsPattern
  PropsTemplate ExprSubSpec ExprSubProofs PropsExprSub Fixer FixerSpec FixerProofs PropsFixer PyCode BuiltinFixers BuiltinSpec BuiltinSample
  CorrectnessFixers CorrectnessSpec ThoroughSpec ThoroughTables IdiomFixers IdiomSpec IdiomSample LoggingSpec LoggingSample LoggingExcSpec
  AllSpec AllProofs AllSample PropsAll IterSpec IterProofs IterAll IterSample.
From Coq Require Import Permutation.

(** C80.  However many rounds are made: the new text comes from the old one only by
    edits that the searcher has proposed for the text (or for the part of it that
    was searched again) as it was then. *)
Theorem C80_rounds : forall parse_ast s ok data path n out,
  (forall t parsed subs, s_parse s t path = Ok parsed \/ parse_ast t path = Ok parsed -> s_find s parsed = Ok subs ->
     pf_text parsed = t /\ pf_path parsed = path /\ Forall wf_sub subs
     /\ (forall x a b, In x subs -> key_span x = Some (a, b) -> 0 <= a)
     /\ forall x e, In x subs -> In e (edits_of x) -> 0 <= edit_start e /\ ok t e) ->
  rewrite_string parse_ast s data path n = Ok out -> improves ok data out.
Proof. intros parse_ast s ok data path n out J. exact (rewrite_improves ok parse_ast s path J data n out). Qed.
Print Assumptions C80_rounds.

(** The searcher that makes a [b] of the first [a]. *)
Definition ab_ok (t : text) (ed : edit) : Prop :=
  let '(txt, a, b) := ed in txt = TX "b" /\ b = a + 1 /\ 0 <= a /\ nth_error t (Z.to_nat a) = Some 97.
Example C80_nonvacuous :
  (forall t parsed subs, s_parse ab_searcher t [] = Ok parsed \/ default_parse t [] = Ok parsed -> s_find ab_searcher parsed = Ok subs ->
     pf_text parsed = t /\ pf_path parsed = [] /\ Forall wf_sub subs
     /\ (forall x a b, In x subs -> key_span x = Some (a, b) -> 0 <= a)
     /\ forall x e, In x subs -> In e (edits_of x) -> 0 <= edit_start e /\ ab_ok t e)
  /\ rewrite_string default_parse ab_searcher (TX "xaay") [] 5 = Ok (TX "xbby") /\ improves ab_ok (TX "xaay") (TX "xbby")
  /\ ~ improves ab_ok (TX "xaay") (TX "xbcy").
Proof.
  assert (J : forall t parsed subs, s_parse ab_searcher t [] = Ok parsed \/ default_parse t [] = Ok parsed -> s_find ab_searcher parsed = Ok subs ->
     pf_text parsed = t /\ pf_path parsed = [] /\ Forall wf_sub subs
     /\ (forall x a b, In x subs -> key_span x = Some (a, b) -> 0 <= a)
     /\ forall x e, In x subs -> In e (edits_of x) -> 0 <= edit_start e /\ ab_ok t e).
  { intros t parsed subs Hp Hf. assert (E : parsed = PF t [] [] None \/ pf_text parsed = t /\ pf_path parsed = []).
    { right. destruct Hp as [Hp|Hp]; cbn in Hp; injection Hp as <-; split; reflexivity. }
    assert (Et : pf_text parsed = t /\ pf_path parsed = []) by (destruct E as [->|E]; [split; reflexivity|exact E]). clear E Hp. destruct Et as [<- Ep].
    split; [reflexivity|]. split; [exact Ep|]. cbn [s_find ab_searcher] in Hf. destruct (index_a (pf_text parsed) 0) as [i|] eqn:Ei.
    2:{ injection Hf as <-. split; [constructor|]. split; [intros x a b []|intros x e []]. }
    assert (Hi : 0 <= i /\ nth_error (pf_text parsed) (Z.to_nat i) = Some 97).
    { assert (K : forall t k j, index_a t k = Some j -> k <= j /\ nth_error t (Z.to_nat (j - k)) = Some 97).
      { clear. induction t as [|c t IH]; intros k j H; [discriminate H|]. cbn [index_a] in H. destruct (Z.eqb_spec c 97) as [->|N].
        - injection H as ->. split; [lia|]. replace (j - j) with 0 by lia. reflexivity.
        - apply IH in H as [H1 H2]. split; [lia|]. replace (Z.to_nat (j - k)) with (S (Z.to_nat (j - (k + 1)))) by lia. exact H2. }
      apply K in Ei. replace (i - 0) with i in Ei by lia. exact Ei. }
    injection Hf as <-. destruct Hi as [Hi1 Hi2]. split; [|split].
    - constructor; [|constructor]. split; [repeat constructor; intros []|]. split; [|reflexivity]. intros r [= <-]. repeat constructor. intros [].
    - intros x a b [<-|[]] [= <- _]. lia.
    - intros x e [<-|[]]. cbn. intros [<-|[]]. cbn. auto. }
  split; [exact J|]. assert (R : rewrite_string default_parse ab_searcher (TX "xaay") [] 5 = Ok (TX "xbby")) by (vm_compute; reflexivity).
  split; [exact R|]. split; [exact (C80_rounds _ _ _ _ _ _ _ J R)|].
  (* each character stays as it is, or an [a] becomes a [b] *)
  assert (K : forall t t', improves ab_ok t t' -> Forall2 (fun c c' => c' = c \/ (c = 97 \/ c = 98) /\ c' = 98) t t').
  { assert (Rf : forall t : text, Forall2 (fun c c' => c' = c \/ (c = 97 \/ c = 98) /\ c' = 98) t t) by (induction t; constructor; auto).
    assert (Spl : forall (t : text) p a, 0 <= p -> p <= a -> nth_error t (Z.to_nat a) = Some 97 -> slice_from t p = slice t p a ++ [97] ++ slice_from t (a + 1)).
    { intros t p a Hp Ha Hn. assert (La : a < tlen t) by (assert (Z.to_nat a < length t)%nat by (apply nth_error_Some; congruence); unfold tlen; lia).
      assert (E1 : slice t a (a + 1) = [97]).
      { unfold slice, norm_idx. cbv zeta. replace (a <? 0) with false by lia. replace (a + 1 <? 0) with false by lia. unfold tlen in *. rewrite !Z.min_l by lia. replace (Z.to_nat (a + 1 - a)) with 1%nat by lia.
        apply nth_error_split in Hn as (t1 & t2 & -> & Hl). rewrite skipn_app, skipn_all2 by lia. rewrite Hl, Nat.sub_diag. reflexivity. }
      rewrite <- E1. unfold slice_from. rewrite slice_app by lia. rewrite slice_app by lia. reflexivity. }
    assert (Ed : forall t p es out, Edited t p es out -> Forall (ab_ok t) es -> Forall2 (fun c c' => c' = c \/ (c = 97 \/ c = 98) /\ c' = 98) (slice_from t p) out).
    { induction 1 as [p Hp|p x a b es out Hp Ha Hab H IH]; intros HF; [apply Rf|]. inversion HF as [|? ? Hok HF']; subst. destruct Hok as (-> & -> & H0 & Hn).
      rewrite (Spl t p a) by auto. apply Forall2_app; [apply Rf|]. apply Forall2_app; [|now apply IH]. constructor; [right; split; [now left|reflexivity]|constructor]. }
    induction 1 as [t|t es t' HE HF|a m m' b H IH|t t' t'' H1 IH1 H2 IH2].
    - apply Rf.
    - apply (Ed _ _ _ _ HE) in HF. unfold slice_from in HF. rewrite slice_full in HF. exact HF.
    - apply Forall2_app; [apply Rf|]. apply Forall2_app; [exact IH|apply Rf].
    - clear - IH1 IH2. revert t'' IH2. induction IH1 as [|c c' t t' Hc HF IH]; intros t'' H2; inversion H2 as [|? c2 ? t2 H3 H4]; subst; constructor; [|now apply IH].
      destruct Hc as [->|[Hc ->] ]; [exact H3|]. right. split; [exact Hc|]. destruct H3 as [->|[_ ->] ]; reflexivity. }
  clear J R. intros H. apply K in H. clear K. vm_compute in H. repeat match goal with H : Forall2 _ (_ :: _) _ |- _ => inversion H; clear H; subst end.
  repeat match goal with H : _ \/ _ |- _ => destruct H as [H|H] | H : _ /\ _ |- _ => destruct H end; lia.
Qed.

(** The default fixers, with as many rounds as asked for ([--iterate], ten unless
    given): every edit that is made in any of the rounds is one of the rewrites,
    corrections and suggestions of C72 to C77. *)
Theorem C80_default_fixers : forall tokenize order ast_parse parse_env decimal G parse_ast context pass_template cf idf uf r pat s data path n out,
  interpreter tokenize order ast_parse parse_env G ->
  correctness_fixers tokenize order ast_parse parse_env = Ok cf -> idiom_fixers tokenize order ast_parse parse_env decimal = Ok idf ->
  unittest_fixers tokenize order ast_parse parse_env = Ok uf -> register_builtins (Registry [] []) cf idf uf = Ok r ->
  fixers_from_pattern parse_ast context pass_template r pat = Ok s ->
  file_parser tokenize G parse_ast context path ->
  rewrite_string parse_ast (pragma_suppressed s) data path n = Ok out \/ rewrite_string parse_ast s data path n = Ok out ->
  improves (proposed tokenize order ast_parse parse_env decimal G parse_ast context s path) data out.
Proof.
  intros tokenize order ast_parse parse_env decimal G parse_ast context pass_template cf idf uf r pat s data path n out I Hcf Hid Huf Hr Hs HP H.
  destruct (named_fixers _ _ _ _ _ _ _ _ _ Hr Hs) as (fs & Hc & Hi & _).
  pose proof (all_justified tokenize order ast_parse parse_env decimal G I cf idf uf Hcf Hid Huf parse_ast context pass_template path HP fs s Hi Hc) as J.
  destruct H as [H|H]; [|exact (rewrite_improves _ _ _ _ J _ _ _ H)].
  exact (rewrite_improves _ _ _ _ (justified_suppressed _ _ _ _ J) _ _ _ H).
Qed.
Print Assumptions C80_default_fixers.

(** [self.assertTrue(not a in b)] becomes [self.assertTrue(a not in b)] in the first
    round, and that becomes [self.assertNotIn(a, b)] in the second. *)
Example C80_default_nonvacuous :
  interpreter q_tokenize q_order l_parse j_parse_env q_grammar /\ file_parser q_tokenize q_grammar j_parse_file q_env (TX "x.py")
  /\ exists cf idf uf r s,
     correctness_fixers q_tokenize q_order l_parse j_parse_env = Ok cf /\ idiom_fixers q_tokenize q_order l_parse j_parse_env i_digit = Ok idf
     /\ unittest_fixers q_tokenize q_order l_parse j_parse_env = Ok uf /\ register_builtins (Registry [] []) cf idf uf = Ok r
     /\ fixers_from_pattern j_parse_file q_env (literal_template (TX "pass")) r (TX "*") = Ok s
     /\ rewrite_string j_parse_file (pragma_suppressed s) (TX "self.assertTrue(not a in b)") (TX "x.py") 1 = Ok (TX "self.assertTrue(a not in b)")
     /\ rewrite_string j_parse_file (pragma_suppressed s) (TX "self.assertTrue(not a in b)") (TX "x.py") 10 = Ok (TX "self.assertNotIn(a, b)").
Proof.
  split; [exact j_interpreter|]. split; [exact j_file_parser|].
  pose proof j_rewrites as W. unfold j_rewrite, j_search, j_registry, j_correctness, j_idiom, j_unittest in W.
  destruct (correctness_fixers q_tokenize q_order l_parse j_parse_env) as [cf|] eqn:E1; [|discriminate W].
  destruct (idiom_fixers q_tokenize q_order l_parse j_parse_env i_digit) as [idf|] eqn:E2; [|discriminate W].
  destruct (unittest_fixers q_tokenize q_order l_parse j_parse_env) as [uf|] eqn:E3; [|discriminate W]. cbn [bind] in W.
  destruct (register_builtins (Registry [] []) cf idf uf) as [r|] eqn:E4; [|discriminate W]. cbn [bind] in W.
  destruct (fixers_from_pattern j_parse_file q_env (literal_template (TX "pass")) r (TX "*")) as [s|] eqn:E5; [|discriminate W]. cbn [bind] in W.
  exists cf, idf, uf, r, s. do 5 (split; [first [assumption|reflexivity]|]).
  destruct (rewrite_string j_parse_file (pragma_suppressed s) j_text1 (TX "x.py") 1) as [t2|] eqn:R1; [|discriminate W].
  destruct (rewrite_string j_parse_file (pragma_suppressed s) j_text1 (TX "x.py") 10) as [t3|] eqn:R2; [|discriminate W].
  apply andb_prop in W as [W1 W2]. apply text_eqb_eq in W1, W2. subst. split; [exact R1|exact R2].
Qed.
