(** The fixer for [logging.error]: what its matcher finds.  Proofs. *)
From Verif Require Import TemplateProofs Py PyFacts Regex Subst ApplySpec Ast Template FromDiff Matcher MatchSpec MergeSpec MergeProofs MatcherProofs BindProofs OnceProofs FindSpec FindProofs
  NavSpec NavProofs CollSpec CollProofs PatTok PatSpec Pattern PatternSpec EquivProofs PatternProofs PatternApi
  PyTemplate PyTemplateSpec PyTemplateProofs Search SearchSpec Removal OwnSpec
  PropsTemplate ExprSubSpec ExprSubProofs PropsExprSub Fixer FixerSpec FixerProofs PyCode BuiltinFixers BuiltinSpec CodeProofs BuiltinProofs BuiltinApply BuiltinTables BuiltinMain
  CorrectnessFixers CorrectnessSpec CorrectnessProofs CorrectnessMain CorrectnessSearch ThoroughSpec ThoroughCode ThoroughProofs ThoroughSearch ThoroughMain
  IdiomFixers IdiomSpec LoggingSpec LoggingEval LoggingProofs.
From Coq Require Import Permutation.

Lemma inside_of root p v : at_path root p = Some v -> PatternSpec.inside root v.
Proof. intros H. now exists p. Qed.
(** The place of a field. *)
Lemma field_place root p i fs x w : at_path root p = Some (VNode i fs) -> dget fs x = Some w -> exists k, at_path root (p ++ [k]) = Some w.
Proof.
  intros Hp Hx. apply dget_In in Hx. apply (in_map snd) in Hx. apply In_nth_error in Hx as (k & Hk). exists k.
  assert (Q : nth_error (vchildren (VNode i fs)) k = Some w) by exact Hk. rewrite at_path_app, Hp. cbn [at_path]. now rewrite Q.
Qed.
Lemma item_place root p id l w : at_path root p = Some (VList id l) -> In w l -> exists k, at_path root (p ++ [k]) = Some w.
Proof. intros Hp Hw. apply In_nth_error in Hw as (k & Hk). exists k. rewrite at_path_app, Hp. cbn [at_path vchildren]. now rewrite Hk. Qed.

Section Error.
  Variable tokenize : text -> res (list ptok).
  Variable order : list nat -> list nat.
  Variable ast_parse : text -> res value.
  Variable G : grammar.
  Hypothesis HO : forall l, Permutation (order l) l.
  Hypothesis HG : proper G.
  Hypothesis HGp : python_grammar G.
  Hypothesis HGc : call_grammar G.
  Hypothesis HA : python_ast G ast_parse.
  Variable e : env.
  Hypothesis PT : parsed_tree G (e_tree e).

  (** A pattern without variables: does it match what the code looks like? *)
  Lemma closed_gives co m : understood tokenize ast_parse co -> lexed co -> left_open co = [] -> exposed_ok (tree_of co) = true ->
    expr_pattern tokenize order ast_parse (source co) [] = Ok m ->
    forall v, PatternSpec.inside (e_tree e) v ->
    ((exists parts, made_of (fill parts co) v) /\ gives e v m (Some []))
    \/ (gives e v m None /\ (parses_evaluated ast_parse -> well_positioned e -> evaluated v -> forall parts, ~ made_of (fill parts co) v)).
  Proof.
    intros U L Hl Hx Hm v Iv. pose proof (closed_pattern tokenize order ast_parse G HO HG HGp HA co m e U L Hl Hm PT) as Y.
    destruct (restricted_pattern tokenize order ast_parse G HO HG HGp HA co [] (fun _ _ => True) m U L) as (holes & p & Tr & Hp & Na); [discriminate|auto|exact Hm|].
    destruct (Na e PT) as (N & Ac & An).
    assert (T : forall occ, Forall (satisfied' (fun (_ : label) (_ : parsed_file) (_ : value) => True) e) occ) by (intros occ; apply Forall_forall; intros x _ w _; exact I).
    destruct (An [] v [] Iv) as [E|(b & E & Db)].
    - right.
      assert (NO : forall occ, ~ occurrence e holes p v occ).
      { intros occ O. destruct (Ac [] v [] occ Iv O (T occ)) as (b & E'). congruence. }
      split.
      + intros d s. destruct (An d v s Iv) as [E'|(b & E' & _)]; [exact E'|]. exfalso. destruct (N d v s _ _ Iv E') as (b' & occ & _ & O & _). now apply (NO occ).
      + intros HE HW Ev parts M.
        destruct (pattern_occurs tokenize ast_parse G HGp HA HE co (fun _ _ => True) (fun x w => parts x = w) holes p e v U L Hx Tr (wp_located _ HW) (wp_evaluated _ HW) Iv) as (occ & O & _); auto.
        * now apply filled_reads.
        * intros occ. apply distinct_alike. rewrite Hl. constructor.
        * now apply (NO occ).
    - left. destruct (Y [] v [] _ _ Iv E) as [M _]. split; [exact M|]. destruct (N [] v [] _ _ Iv E) as (b' & occ & _ & O & _).
      intros d s. destruct (Ac d v s occ Iv O (T occ)) as (b2 & E2). rewrite E2. destruct (Y d v s _ _ Iv E2) as [_ (rm & Er)]. now injection Er as _ ->.
  Qed.

  Hypothesis Un : unshared (e_tree e).
  Hypothesis PN : python_nodes (e_tree e).
  Variable fm : matcher.
  Hypothesis UE : understood tokenize ast_parse logging_error.
  Hypothesis Hfm : expr_pattern tokenize order ast_parse (TX "logging.error") [] = Ok fm.
  Definition exc_info_keyword : matcher := MNode (TX "keyword") [(TX "arg", MEquals (VConst 0 (CStr (TX "exc_info")))); (TX "value", MAnything)].
  Definition error_call : matcher := call_of (MBind (TX "logging_error") fm None None) (MContains argument_matcher) (MUnless (MContains exc_info_keyword)).

  Lemma error_lexed : lexed logging_error.
  Proof. lexed_tac. Qed.
  Lemma caught_deeper p k y p' x v c : at_path (e_tree e) p = Some v -> at_path (e_tree e) (p ++ [k]) = Some c -> vtype v <> TX "ExceptHandler" ->
    p' = p ++ [k] -> (y = x) -> caught_as (e_tree e) p' y <-> caught_as (e_tree e) p x.
  Proof.
    intros Hv Hc N -> ->. rewrite (caught_nearest e (p ++ [k]) c x PN Hc), (caught_nearest e p v x PN Hv).
    now rewrite (nearest_step _ _ _ _ _ _ Hv Hc N).
  Qed.

  Definition error_result (func : value) (x : text) : dict bound :=
    [(TX "logging_error", bound_value (create_match (e_parsed e) func) None None); (TX "e", EB (PString x))].
  Lemma error_gives p c : at_path (e_tree e) p = Some c ->
    (exists func x k, logs_error (e_tree e) p func /\ at_path (e_tree e) (p ++ [k]) = Some func /\ gives e c (MAllOf [error_call]) (Some (error_result func x)))
    \/ (gives e c (MAllOf [error_call]) None /\ (parses_evaluated ast_parse -> well_positioned e -> forall func, ~ logs_error (e_tree e) p func)).
  Proof.
    intros Hp. pose proof (inside_of _ _ _ Hp) as Ic.
    assert (All : forall o, gives e c error_call o -> gives e c (MAllOf [error_call]) o).
    { intros o H. apply (gives_all e c _ [o]); [now repeat constructor|]. cbn [joined]. destruct o as [b|]; [|reflexivity]. rewrite merge_bindings_nil. reflexivity. }
    destruct (text_eqb_spec (vtype c) (TX "Call")) as [Et|Nt].
    2:{ right. split; [apply All, gives_other, Nt|]. intros _ _ func (i & fs & ida & args & arg & x & idk & kws & Hp' & Ei & _). rewrite Hp in Hp'. injection Hp' as ->. contradiction. }
    destruct (field_of e G PT c _ (TX "func") false Ic Et) as (i & fs & -> & Ei & Ef & If); [now apply not_builtin|rewrite (proj1 HGc); now left|].
    destruct (field_of e G PT (VNode i fs) _ (TX "args") true Ic Et) as (i' & fs' & E0 & _ & Ea & Ia); [now apply not_builtin|rewrite (proj1 HGc); right; now left|].
    injection E0 as <- <-.
    destruct (field_of e G PT (VNode i fs) _ (TX "keywords") true Ic Et) as (i' & fs' & E0 & _ & Ek & Ik); [now apply not_builtin|rewrite (proj1 HGc); right; right; now left|].
    injection E0 as <- <-.
    set (func := vfield (VNode i fs) (TX "func")) in *.
    assert (Ls : forall x w, In (x, true) (G (TX "Call")) -> dget fs x = Some w -> exists id l, w = VList id l).
    { intros x w Hx Hw. assert (C : conforms G (VNode i fs)) by (eapply conforms_inside; [apply (pt_conforms _ _ PT)|exact Ic]).
      inversion C as [| |? ? _ E _]; subst. rewrite Ei in E. rewrite <- E in Hx. apply in_map_iff in Hx as ([y u] & Ey & Hin).
      injection Ey as <- Hu. assert (ND : NoDup (map fst fs)).
      { replace (map fst fs) with (map fst (G (TX "Call"))); [|rewrite <- E, map_map; reflexivity]. apply HG. }
      apply (In_dget fs y u) in Hin; [|exact ND]. rewrite Hw in Hin. injection Hin as ->. destruct u as [| id l|]; try discriminate Hu. eauto. }
    destruct (Ls (TX "args") _ (ltac:(rewrite (proj1 HGc); right; now left)) Ea) as (ida & args & Eargs). rewrite Eargs in Ea, Ia.
    destruct (Ls (TX "keywords") _ (ltac:(rewrite (proj1 HGc); right; right; now left)) Ek) as (idk & kws & Ekws). rewrite Ekws in Ek, Ik.
    destruct (field_place _ _ _ _ _ _ Hp Ef) as (kf & Hkf). destruct (field_place _ _ _ _ _ _ Hp Ea) as (ka & Hka).
    (* the arguments *)
    assert (Ga : exists os, Forall2 (fun a o => gives e a argument_matcher o) args os
       /\ match first_some os with
          | Some b => exists arg x, b = [(TX "e", EB (PString x))] /\ In arg args /\ variable_is arg x /\ caught_as (e_tree e) p x
          | None => forall arg x, In arg args -> variable_is arg x -> ~ caught_as (e_tree e) p x
          end).
    { assert (One : forall a, In a args ->
         (exists x, variable_is a x /\ caught_as (e_tree e) p x /\ gives e a argument_matcher (Some [(TX "e", EB (PString x))]))
         \/ (gives e a argument_matcher None /\ forall x, variable_is a x -> ~ caught_as (e_tree e) p x)).
      { intros a Hin. destruct (item_place _ _ _ _ _ Hka Hin) as (j & Hj). pose proof (pn_args _ PN i fs ida args a Ic Ei Ea Hin) as Na.
        assert (Q : forall x, caught_as (e_tree e) ((p ++ [ka]) ++ [j]) x <-> caught_as (e_tree e) p x).
        { intros x. rewrite (caught_deeper (p ++ [ka]) j x _ x (VList ida args) a Hka Hj); [|discriminate|reflexivity|reflexivity].
          apply (caught_deeper p ka x _ x (VNode i fs) (VList ida args) Hp Hka); [|reflexivity|reflexivity]. rewrite Et. discriminate. }
        destruct (gives_argument e _ a Un PN Hj Na) as [(x & Vx & Cx & Gx)|[Nx Gx]].
        - left. exists x. split; [exact Vx|]. split; [now apply Q|exact Gx].
        - right. split; [exact Gx|]. intros x Vx Cx. apply Nx. exists x. split; [exact Vx|now apply Q]. }
      clear - One. induction args as [|a args IH].
      - exists []. split; [constructor|]. cbn. intros arg x [].
      - destruct IH as (os & F & H); [intros a0 H; apply One; now right|]. destruct (One a (or_introl eq_refl)) as [(x & Vx & Cx & Gx)|[Gx Nx]].
        + exists (Some [(TX "e", EB (PString x))] :: os). split; [now constructor|]. cbn [first_some]. exists a, x. split; [reflexivity|]. split; [now left|auto].
        + exists (None :: os). split; [now constructor|]. cbn [first_some]. destruct (first_some os) as [b|].
          * destruct H as (arg & x & E & Hin & K). exists arg, x. split; [exact E|]. split; [now right|exact K].
          * intros arg x [<-|Hin]; [apply Nx|now apply H]. }
    destruct Ga as (os & Fa & Ha). pose proof (gives_contains e ida args argument_matcher os Fa) as Ga.
    (* the keywords *)
    assert (Gk : exists os, Forall2 (fun a o => gives e a exc_info_keyword o) kws os /\ (first_some os = None <-> Forall (fun kw => ~ keyword_named (TX "exc_info") kw) kws)).
    { clear. induction kws as [|a kws IH]; [exists []; split; [constructor|]; split; constructor|]. destruct IH as (os & F & H).
      destruct (gives_decided e _ _ a (decides_always _ _ (decides_keyword (TX "exc_info")))) as [[Y Gy]|[N Gn]].
      - exists (Some [] :: os). split; [now constructor|]. cbn [first_some]. split; [discriminate|]. intros K. inversion K. contradiction.
      - exists (None :: os). split; [now constructor|]. cbn [first_some]. rewrite H. split; [now constructor|]. intros K. now inversion K. }
    destruct Gk as (ok & Fk & Hk). pose proof (gives_unless e _ _ _ (gives_contains e idk kws exc_info_keyword ok Fk)) as Gk.
    (* together *)
    assert (Node : forall o o1, gives e func (MBind (TX "logging_error") fm None None) o1 ->
       joined [] [o1; first_some os; match first_some ok with Some _ => None | None => Some [] end] = Ok o -> gives e (VNode i fs) error_call o).
    { intros o o1 H1 J. apply (gives_node e (VNode i fs) _ _ [o1; first_some os; match first_some ok with Some _ => None | None => Some [] end]); [exact Et| |exact J].
      constructor; [exact H1|]. constructor; [cbn [fst snd]; rewrite Eargs; exact Ga|]. constructor; [cbn [fst snd]; rewrite Ekws; exact Gk|constructor]. }
    assert (Uniq : forall func0, logs_error (e_tree e) p func0 -> func0 = func /\ made_of logging_error func /\ (exists arg x, In arg args /\ variable_is arg x /\ caught_as (e_tree e) p x)
       /\ Forall (fun kw => ~ keyword_named (TX "exc_info") kw) kws).
    { intros func0 (i0 & fs0 & ida0 & args0 & arg & x & idk0 & kws0 & Hp' & _ & Ef' & Mf & Ea' & Hin & Vx & Cx & Ek' & Fkw). rewrite Hp in Hp'. injection Hp' as <- <-.
      rewrite Ef in Ef'. injection Ef' as <-. rewrite Ea in Ea'. injection Ea' as <- <-. rewrite Ek in Ek'. injection Ek' as <- <-. split; [reflexivity|]. split; [exact Mf|].
      split; [exists arg, x; auto|exact Fkw]. }
    assert (Fl : forall parts : label -> value, fill parts (logging_error : code label) = logging_error) by reflexivity.
    destruct (closed_gives logging_error fm UE error_lexed eq_refl eq_refl Hfm func If) as [[(parts & Mf) Gf]|[Gf Nf]].
    - rewrite Fl in Mf.
      assert (H1 : gives e func (MBind (TX "logging_error") fm None None) (Some [(TX "logging_error", bound_value (create_match (e_parsed e) func) None None)])).
      { apply (gives_bind e func fm (Some []) (TX "logging_error") None None Gf). intros b [= <-]. split; [reflexivity|constructor]. }
      destruct (first_some os) as [b|] eqn:Eo.
      + destruct Ha as (arg & x & -> & Hin & Vx & Cx). destruct (first_some ok) as [bk|] eqn:Eok.
        * right. split; [apply All, (Node None _ H1); reflexivity|]. intros _ _ func0 Lg. apply Uniq in Lg as (_ & _ & _ & Fkw). apply Hk in Fkw. discriminate Fkw.
        * left. exists func, x, kf. split; [|split; [exact Hkf|]].
          -- exists i, fs, ida, args, arg, x, idk, kws. do 8 (split; [assumption|]). split; [exact Ek|]. now apply Hk.
          -- apply All, (Node _ _ H1). reflexivity.
      + right. split; [apply All, (Node None _ H1); reflexivity|]. intros _ _ func0 Lg. apply Uniq in Lg as (_ & _ & (arg & x & Hin & Vx & Cx) & _). now apply (Ha arg x).
    - right. split.
      + assert (H1 : gives e func (MBind (TX "logging_error") fm None None) None).
        { apply (gives_bind e func fm None (TX "logging_error") None None Gf). discriminate. }
        apply All, (Node None _ H1). reflexivity.
      + intros HE HW func0 Lg. apply Uniq in Lg as (_ & Mf & _ & _). apply (Nf HE HW) with (parts := fun _ => VNone); [|exact Mf].
        refine (proj1 (wp_evaluated _ HW i fs (TX "func") func Ic (dget_In _ _ _ Ef)) _). rewrite Ei. unfold evaluated_fields. cbn [In]. tauto.
  Qed.
End Error.
