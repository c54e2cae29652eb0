(** The fixer for [logging.exception]: what its matcher finds.  Proofs. *)
From Verif Require Import TemplateProofs Py PyFacts Regex RegexProofs Subst ApplySpec Ast Template FromDiff Matcher MatchSpec MergeSpec MergeProofs MatcherProofs BindProofs OnceProofs FindSpec FindProofs
  NavSpec NavProofs CollSpec CollProofs PatTok PatSpec Pattern PatternSpec EquivProofs PatternProofs PatternApi LexProofs RenameProofs
  PyTemplate PyTemplateSpec PyTemplateProofs Search SearchSpec Removal OwnSpec
  PropsTemplate ExprSubSpec ExprSubProofs PropsExprSub Fixer FixerSpec FixerProofs PyCode BuiltinFixers BuiltinSpec CodeProofs BuiltinProofs BuiltinApply BuiltinTables BuiltinMain
  CorrectnessFixers CorrectnessSpec CorrectnessProofs CorrectnessMain CorrectnessSearch ThoroughSpec ThoroughCode ThoroughProofs ThoroughSearch ThoroughMain
  IdiomFixers IdiomSpec IdiomProofs LoggingSpec LoggingEval LoggingProofs LoggingError LoggingExcSpec LoggingExc.
From Coq Require Import Permutation.

Section Pattern.
  Variable tokenize : text -> res (list ptok).
  Variable order : list nat -> list nat.
  Variable ast_parse : text -> res value.
  Variable G : grammar.
  Hypothesis HO : forall l, Permutation (order l) l.
  Hypothesis HG : proper G.
  Hypothesis HGp : python_grammar G.
  Hypothesis HGc : call_grammar G.
  Hypothesis HA : python_ast G ast_parse.
  Hypothesis UL : understood_as KStmt tokenize ast_parse (logs_exception (TX "arg")).
  Lemma logs_lexed : lexed (logs_exception (TX "arg")).
  Proof. lexed_tac. Qed.

  Definition logs_pattern (r : matcher) (pf : value) : matcher :=
    rebound (MNode (TX "Expr") [(TX "value", call_of (ast_matchers_matcher pf) (MItemsAre [MBind (TX "arg") r (Some MERGE_EQUIVALENT_AST) None]) (MItemsAre []))]).
  Lemma pattern_node vars i fs ty : n_type i = ty -> text_eqb ty (TX "Name") = false ->
    ast_pattern vars (VNode i fs) = MNode ty (map (fun kv => (fst kv, ast_pattern vars (snd kv))) fs).
  Proof.
    intros E N. cbn [ast_pattern name_id]. rewrite E, N. f_equal. apply map_ext. intros kv. unfold ignored_field. now rewrite N, andb_false_r.
  Qed.
  Lemma pattern_empty vars i ty : n_type i = ty -> ast_pattern vars (VNode i []) = MNode ty [].
  Proof. intros <-. cbn [ast_pattern name_id map vfield dget str_of]. now destruct (text_eqb _ _). Qed.
  Lemma logs_shape r m : stmt_pattern tokenize order ast_parse (TX "logging.exception($arg)") [(TX "arg", r)] = Ok m ->
    exists module pf, m = logs_pattern r pf /\ conforms G pf /\ is_node pf = true /\ stands (fun (_ : label) _ => False) (tree_of logging_exception) pf
      /\ PatternSpec.inside module pf /\ (parses_evaluated ast_parse -> evaluated_exprs module /\ evaluated pf).
  Proof.
    intros Hm. pose proof logs_lexed as L. pose proof UL as U. destruct (has_tokens_of tokenize ast_parse _ U L) as [HT HR].
    assert (Ht : tokenize (if negb (endswith [NL] (source (logs_exception (TX "arg")))) then source (logs_exception (TX "arg")) ++ [NL] else source (logs_exception (TX "arg"))) = Ok (map snd (line_tokens (source (logs_exception (TX "arg")))))).
    { rewrite (lx_newline _ L). apply (una_tokens _ _ _ _ U). }
    destruct (HT _ Ht) as (gl & Egl & Hs & Hsp). rewrite Egl in Ht.
    destruct (rename_source tokenize order (source (logs_exception (TX "arg"))) gl Ht Hs HO) as [_ R].
    change (TX "logging.exception($arg)") with (source (logs_exception (TX "arg"))) in Hm.
    unfold stmt_pattern, base_ast_pattern, remapped_ast, rewrite_submatchers in Hm.
    destruct (remap_macro_variables tokenize order (source (logs_exception (TX "arg")))) as [[[src names] anon]|x] eqn:Er; [|destruct x; discriminate Hm]. cbn [bind] in Hm.
    destruct (forallb _ _) eqn:Ek; [|discriminate Hm]. cbn [bind] in Hm. destruct (ast_parse src) as [module|x] eqn:Ep; [|destruct x; discriminate Hm]. cbn [bind] in Hm.
    apply bind_Ok in Hm as (u & _ & Hm). apply bind_Ok in Hm as (p & El & Hm). injection Hm as <-.
    destruct (R _ _ _ eq_refl) as (news & -> & N).
    destruct (remap_distinct tokenize order (map snd gl) (source (logs_exception (TX "arg"))) Ht (spelled_ends _ _ _ _ _ Hs) HO _ _ _ Er) as [ND D].
    assert (T : has_tree tokenize ast_parse KStmt (source (logs_exception (TX "arg"))) (metavariables [] names anon) p).
    { exists gl, news, names, anon, module. do 5 (split; [assumption|]). split; [exact El|reflexivity]. }
    destruct (code_tree _ _ _ _ _ U L T) as [Ho So]. destruct (HA _ _ Ep) as (Pm & _ & _).
    assert (Ip : PatternSpec.inside module p) by (eapply (pull_inside G HGp KStmt); eauto; apply (pt_conforms _ _ Pm)).
    pose proof (conforms_inside _ _ _ (pt_conforms _ _ Pm) Ip) as Cp.
    (* the tree *)
    cbn [tree_of logs_exception logging_exception map] in So.
    inversion So as [| | | |? ? i1 g1 E1 F1]; subst. inversion F1 as [|? [? w1] ? g1' [K1 S1] F1']; subst. inversion F1'; subst. cbn [fst snd] in *. subst. clear F1 F1'.
    inversion S1 as [| | | |? ? i2 g2 E2 F2]; subst. inversion F2 as [|? [? pf] ? g2' [K2 Sf] F2']; subst. inversion F2' as [|? [? wa] ? g2'' [K3 Sa] F2'']; subst.
    inversion F2'' as [|? [? wk] ? g2''' [K4 Sk] F2''']; subst. inversion F2'''; subst. cbn [fst snd] in *. subst. clear F2 F2' F2'' F2'''.
    inversion Sa as [| | |? ida la Fa|]; subst. inversion Fa as [|? va ? la' Sv Fa']; subst. inversion Fa'; subst. clear Fa Fa'.
    inversion Sk as [| | |? idk lk Fk|]; subst. inversion Fk; subst. clear Fk.
    inversion Sv as [? ? (n & Hn & Eh)| | | |]; subst.
    pose proof Sf as Sf0.
    inversion Sf as [| | | |? ? i3 g3 E3 F3]; subst. inversion F3 as [|? [? wv] ? g3x [K5 Sn] F3x]; subst. inversion F3x as [|? [? wt] ? g3y [K6 St] F3y]; subst. inversion F3y as [|? [? wx] ? g3z [K9 Sx] F3z]; subst. inversion F3z; subst. cbn [fst snd] in *. subst. clear F3 F3x F3y F3z.
    inversion Sn as [| | | |? ? i4 g4 E4 F4]; subst. inversion F4 as [|? [? wi] ? g4x [K7 Si] F4x]; subst. inversion F4x as [|? [? wc] ? g4y [K8 Sc] F4y]; subst. inversion F4y; subst. cbn [fst snd] in *. subst. clear F4 F4x F4y.
    inversion Si as [|? idc dc Ec| | |]; subst. inversion St as [|? idt dt Ect| | |]; subst. inversion Sc as [| |i5 Ec5| |]; subst.
    inversion Sx as [| |i6 Ec6| |]; subst.
    destruct dc; try discriminate Ec. cbn [const_eqb] in Ec. apply text_eqb_eq in Ec. subst.
    set (pf := VNode i3 _) in *.
    match type of Ip with PatternSpec.inside _ (VNode _ [(_, ?w)]) => assert (Ic2 : PatternSpec.inside module w) end.
    { refine (EquivProofs.inside_child _ _ _ Ip _). left. reflexivity. }
    assert (If : PatternSpec.inside module pf).
    { refine (EquivProofs.inside_child _ _ _ Ic2 _). left. reflexivity. }
    exists module, pf. split; [|split; [|split; [reflexivity|split; [|split; [exact If|]]]]].
    - assert (V1 : dget (submatchers [(TX "arg", r)] names anon) (TX "logging") = None).
      { rewrite submatchers_spec by exact ND. destruct (metavariables [(TX "arg", r)] names anon (TX "logging")) as [h|] eqn:Em; [|reflexivity]. exfalso.
        assert (exists h', metavariables [] names anon (TX "logging") = Some h') as (h' & Em').
        { revert Em. unfold metavariables. destruct (find _ names) as [[x y]|]; [eauto|]. destruct (tmem _ anon); [eauto|discriminate]. }
        specialize (Ho _ _ Em'). vm_compute in Ho. discriminate Ho. }
      assert (V2 : dget (submatchers [(TX "arg", r)] names anon) n = Some (MBind (TX "arg") r (Some MERGE_EQUIVALENT_AST) None)).
      { rewrite submatchers_spec by exact ND. clear - Eh. revert Eh. unfold metavariables. destruct (find _ names) as [[x y]|]; [|destruct (tmem _ anon); discriminate].
        intros Eh. assert (Ex : x = TX "arg") by (injection Eh as K; exact K). rewrite Ex. reflexivity. }
      assert (Va : ast_pattern (submatchers [(TX "arg", r)] names anon) va = MBind (TX "arg") r (Some MERGE_EQUIVALENT_AST) None).
      { destruct Hn as (iv & fv & idv & -> & Tv & Dv). cbn [ast_pattern name_id]. rewrite Tv, text_eqb_refl. cbn [vfield]. rewrite Dv. cbn [str_of]. rewrite V2. reflexivity. }
      assert (Vf : ast_pattern (submatchers [(TX "arg", r)] names anon) pf = ast_matchers_matcher pf).
      { unfold pf, ast_matchers_matcher. rewrite !(pattern_node _ i3 _ _ E3) by reflexivity. cbn [map fst snd]. f_equal.
        rewrite !(pattern_empty _ i6 _ eq_refl). f_equal. f_equal. cbn [ast_pattern name_id vfield]. rewrite E4.
        change (str_of _) with (Some (TX "logging")). change (text_eqb [78; 97; 109; 101] (TX "Name")) with true. cbn iota. rewrite V1. cbn [dget map fst snd].
        rewrite !(pattern_empty _ i5 _ eq_refl). reflexivity. }
      unfold logs_pattern, call_of. f_equal. rewrite (pattern_node _ i1 _ _ E1) by reflexivity. cbn [map fst snd]. rewrite (pattern_node _ i2 _ _ E2) by reflexivity.
      cbn [map fst snd]. match goal with |- context [ast_pattern ?v pf] => replace (ast_pattern v pf) with (ast_matchers_matcher pf) by (symmetry; exact Vf) end.
      cbn [ast_pattern map]. match goal with |- context [ast_pattern ?v va] => replace (ast_pattern v va) with (MBind (TX "arg") r (Some MERGE_EQUIVALENT_AST) None) by (symmetry; exact Va) end. reflexivity.
    - eapply conforms_inside; [apply (pt_conforms _ _ Pm)|exact If].
    - unfold pf. apply ST_node; [exact E3|]. constructor; [split; [reflexivity|]|constructor; [split; [reflexivity|now apply ST_const]|constructor; [split; [reflexivity|now apply ST_context]|constructor]]].
      apply ST_node; [exact E4|]. constructor; [split; [reflexivity|apply ST_const; apply text_eqb_refl]|constructor; [split; [reflexivity|now apply ST_context]|constructor]].
    - intros HE. pose proof (HE _ _ Ep) as Ev. split; [exact Ev|]. 
      refine (proj1 (Ev i2 _ (TX "func") pf Ic2 (or_introl eq_refl)) _). rewrite E2. cbn [evaluated_fields In]. tauto.
  Qed.
End Pattern.

Lemma gives_all_none e c m ms : gives e c m None -> gives e c (MAllOf (m :: ms)) None.
Proof. intros H d s. cbn [eval map]. unfold accumulating, mbind at 1. cbn [accumulate]. unfold mbind at 1. rewrite H. reflexivity. Qed.

Section Find.
  Variable G : grammar.
  Hypothesis HG : proper G.
  Hypothesis HGp : python_grammar G.
  Hypothesis HGc : call_grammar G.
  Variable e : env.
  Hypothesis PT : parsed_tree G (e_tree e).

  (** The fields of a call, and of an expression that is a statement. *)
  Lemma call_fields i fs : PatternSpec.inside (e_tree e) (VNode i fs) -> n_type i = TX "Call" ->
    exists f ida args idk kws, fs = [(TX "func", f); (TX "args", VList ida args); (TX "keywords", VList idk kws)].
  Proof.
    intros Ic Ei. assert (C : conforms G (VNode i fs)) by (eapply conforms_inside; [apply (pt_conforms _ _ PT)|exact Ic]).
    inversion C as [| |? ? _ E _]; subst. rewrite Ei, (proj1 HGc) in E.
    destruct fs as [|[x f] [|[y a] [|[z k] [|]]]]; try discriminate E.
    assert (Q : x = TX "func" /\ y = TX "args" /\ z = TX "keywords" /\ is_list a = true /\ is_list k = true).
    { cbn [map fst snd] in E. pose proof (f_equal (map fst) E) as E1. pose proof (f_equal (map snd) E) as E2. cbn [map fst snd] in E1, E2. repeat split; congruence. }
    destruct Q as (-> & -> & -> & La & Lk). destruct a as [| ida args|]; try discriminate La. destruct k as [| idk kws|]; try discriminate Lk. eauto 10.
  Qed.
  Lemma expr_stmt_fields i fs : PatternSpec.inside (e_tree e) (VNode i fs) -> n_type i = TX "Expr" -> exists v, fs = [(TX "value", v)].
  Proof.
    intros Ic Ei. assert (C : conforms G (VNode i fs)) by (eapply conforms_inside; [apply (pt_conforms _ _ PT)|exact Ic]).
    inversion C as [| |? ? _ E _]; subst. rewrite Ei, (proj2 HGp) in E.
    destruct fs as [|[x v] [|]]; try discriminate E. exists v. cbn [map fst snd] in E. pose proof (f_equal (map fst) E) as E1. cbn [map fst] in E1. now injection E1 as ->.
  Qed.

  Variable module pf : value.
  Hypothesis Cf : conforms G pf.
  Hypothesis Nf : is_node pf = true.
  Hypothesis Sf : stands (fun (_ : label) _ => False) (tree_of logging_exception) pf.
  Hypothesis If : PatternSpec.inside module pf.
  Let none (n : text) : option hole := None.
  Lemma func_gives v : PatternSpec.inside (e_tree e) v ->
    (made_of logging_exception v /\ gives e v (ast_matchers_matcher pf) (Some []))
    \/ (gives e v (ast_matchers_matcher pf) None
        /\ (evaluated_exprs module -> evaluated pf -> evaluated_exprs (e_tree e) -> evaluated v -> ~ made_of logging_exception v)).
  Proof.
    intros Iv. assert (Cv : conforms G v) by (eapply conforms_inside; [apply (pt_conforms _ _ PT)|exact Iv]).
    assert (Hh : forall n h, none n = Some h -> gensym n = true) by discriminate.
    assert (S' : stands (at_hole none) (tree_of logging_exception) pf) by (revert Sf; apply stands_mono; intros ? ? []).
    assert (D : (same_syntax pf v /\ gives e v (rebound (ast_matchers_matcher pf)) (Some [])) \/ (~ same_syntax pf v /\ gives e v (rebound (ast_matchers_matcher pf)) None)).
    { destruct (literal_matches (with_done e []) G pf v [] HG Cf Cv Nf) as [[Y _]|[N _]]; [left|right]; (split; [assumption|]); intros d s.
      - destruct (literal_matches (with_done e d) G pf v s HG Cf Cv Nf) as [[_ E]|[N _]]; [exact E|contradiction].
      - destruct (literal_matches (with_done e d) G pf v s HG Cf Cv Nf) as [[Y _]|[_ E]]; [contradiction|exact E]. }
    destruct D as [[Y Gv]|[N Gv]]; [left|right]; (split; [|]).
    - destruct (pt_regular _ _ PT) as (D & _ & R). destruct (EquivProofs.regular_inside D _ _ R (pt_root _ _ PT) Iv) as [[Kc _]|[_ Rv]].
      { exfalso. clear - Y Kc Sf. inversion Sf as [| | | |? ? i3 g3 E3 F3]; subst. inversion Y as [| |? ? j gs Hj _]; subst.
        unfold is_ctx, isinst in Kc. change (vtype (VNode j gs)) with (n_type j) in Kc. rewrite <- Hj, E3 in Kc. vm_compute in Kc. discriminate Kc. }
      destruct (fits_stands none Hh e D (tree_of logging_exception) pf v [] eq_refl S') as [_ K]; [discriminate|now apply fits_no_holes|exact Rv|].
      destruct (reads_parts _ (logging_exception : code label) v (NoDup_nil _) K) as (parts & _ & M). exact M.
    - now apply gives_unrebound in Gv; [|now right].
    - now apply gives_unrebound in Gv; [|now left].
    - intros E1 E2 E3 E4 M. apply N.
      pose proof (filled_reads (fun _ => VNone) (logging_exception : code label) v M) as S2.
      destruct (stands_fits e none Hh (fun _ w => VNone = w) module (e_tree e) E1 E3 (tree_of logging_exception) pf v eq_refl eq_refl ltac:(discriminate) S' S2) as (occ & F & _); try assumption; try discriminate.
      + auto.
      + now apply fits_no_holes in F.
  Qed.

  Hypothesis PN : python_nodes (e_tree e).
  Notation the_name := (name_with (MBind (TX "e") MAnything None None)).
  Lemma logs_made arg c : made_of (logs_exception arg) c <-> exists i j f ida idk, c = VNode i [(TX "value", VNode j [(TX "func", f); (TX "args", VList ida [arg]); (TX "keywords", VList idk [])])]
    /\ n_type i = TX "Expr" /\ n_type j = TX "Call" /\ made_of logging_exception f.
  Proof.
    unfold made_of at 1, reads, logs_exception. cbn [tree_of map]. split.
    - intros So. inversion So as [| | | |? ? i1 g1 E1 F1]; subst. inversion F1 as [|? [? w1] ? g1' [K1 S1] F1']; subst. inversion F1'; subst. cbn [fst snd] in *. subst. clear F1 F1'.
      inversion S1 as [| | | |? ? i2 g2 E2 F2]; subst. inversion F2 as [|? [? f] ? g2' [K2 S2] F2']; subst. inversion F2' as [|? [? wa] ? g2x [K3 Sa] F2x]; subst.
      inversion F2x as [|? [? wk] ? g2y [K4 Sk] F2y]; subst. inversion F2y; subst. cbn [fst snd] in *. subst. clear F2 F2' F2x F2y.
      inversion Sa as [| | |? ida la Fa|]; subst. inversion Fa as [|? va ? la' Sv Fa']; subst. inversion Fa'; subst. clear Fa Fa'.
      inversion Sk as [| | |? idk lk Fk|]; subst. inversion Fk; subst. clear Fk. inversion Sv; subst. exists i1, i2, f, ida, idk. auto.
    - intros (i & j & f & ida & idk & -> & Ei & Ej & M). apply ST_node; [exact Ei|]. constructor; [|constructor]. split; [reflexivity|]. cbn [snd].
      apply ST_node; [exact Ej|]. constructor; [split; [reflexivity|exact M]|]. constructor; [split; [reflexivity|]|constructor; [split; [reflexivity|]|constructor]]; cbn [snd].
      + apply ST_list. constructor; [now apply ST_var|constructor].
      + apply ST_list. constructor.
  Qed.
  Definition arg_bound (arg : value) (x : text) : dict bound :=
    [(TX "e", Bound (PString x) MERGE KEEP_LAST); (TX "arg", Bound (create_match (e_parsed e) arg) MERGE KEEP_LAST)].
  Lemma gives_arg arg : PatternSpec.inside (e_tree e) arg ->
    (exists x, variable_is arg x /\ gives e arg (MBind (TX "arg") the_name (Some MERGE_EQUIVALENT_AST) None)
        (Some [(TX "e", Bound (PString x) MERGE KEEP_LAST); (TX "arg", Bound (create_match (e_parsed e) arg) MERGE_EQUIVALENT_AST KEEP_LAST)]))
    \/ ((forall x, ~ variable_is arg x) /\ gives e arg (MBind (TX "arg") the_name (Some MERGE_EQUIVALENT_AST) None) None).
  Proof.
    intros Ia. destruct (text_eqb_spec (vtype arg) (TX "Name")) as [Et|Nt].
    - left. destruct (node_of_type arg (TX "Name") eq_refl Et) as (i & fs & ->). change (vtype (VNode i fs)) with (n_type i) in Et.
      destruct (pn_names _ PN i fs Ia Et) as (id & x & Ex). exists x. split; [exists i, fs, (VConst id (CStr x)); do 3 (split; [assumption || reflexivity|]); eexists; reflexivity|].
      refine (gives_bind e _ the_name (Some [(TX "e", Bound (PString x) MERGE KEEP_LAST)]) (TX "arg") (Some MERGE_EQUIVALENT_AST) None _ _).
      + apply gives_name_with; [exact Et|]. cbn [vfield]. rewrite Ex.
        refine (gives_bind e _ MAnything (Some []) (TX "e") None None (gives_anything e _) _). intros b [= <-]. split; [reflexivity|constructor].
      + intros b [= <-]. split; [reflexivity|]. repeat constructor. intros [].
    - right. split; [intros x (i & fs & w & -> & Et & _); contradiction|].
      refine (gives_bind e _ the_name None (TX "arg") (Some MERGE_EQUIVALENT_AST) None _ _); [now apply gives_other|discriminate].
  Qed.
  Lemma logs_gives c : PatternSpec.inside (e_tree e) c ->
    (exists arg x, made_of (logs_exception arg) c /\ variable_is arg x /\ gives e c (logs_pattern the_name pf) (Some (arg_bound arg x)))
    \/ (gives e c (logs_pattern the_name pf) None
        /\ (evaluated_exprs module -> evaluated pf -> evaluated_exprs (e_tree e) -> forall arg x, made_of (logs_exception arg) c -> ~ variable_is arg x)).
  Proof.
    intros Ic. unfold logs_pattern. set (call := call_of _ _ _).
    assert (Re : forall o, gives e c (MNode (TX "Expr") [(TX "value", call)]) o -> gives e c (rebound (MNode (TX "Expr") [(TX "value", call)])) (option_map (map (fun kv => (fst kv, rebind (Some MERGE) (Some KEEP_LAST) (snd kv)))) o)).
    { intros o H. now apply gives_rebind. }
    destruct (text_eqb_spec (vtype c) (TX "Expr")) as [Et|Nt].
    2:{ right. split; [exact (Re None (gives_other _ _ _ _ Nt))|]. intros _ _ _ arg x M _. apply logs_made in M as (i & j & f & ida & idk & -> & Ei & _). contradiction. }
    destruct (node_of_type c (TX "Expr") eq_refl Et) as (i & fs & ->). change (vtype (VNode i fs)) with (n_type i) in Et.
    destruct (expr_stmt_fields i fs Ic Et) as (v & ->).
    assert (Iv : PatternSpec.inside (e_tree e) v) by (refine (EquivProofs.inside_child _ _ _ Ic _); now left).
    assert (Ex : forall o, gives e v call o -> gives e (VNode i [(TX "value", v)]) (MNode (TX "Expr") [(TX "value", call)]) o).
    { intros o H. apply (gives_node e _ _ _ [o]); [exact Et| |].
      - constructor; [exact H|constructor].
      - cbn [joined]. destruct o as [b|]; [|reflexivity]. rewrite merge_bindings_nil. reflexivity. }
    destruct (text_eqb_spec (vtype v) (TX "Call")) as [Ec|Nc].
    2:{ right. split; [exact (Re None (Ex None (gives_other _ _ _ _ Nc)))|]. intros _ _ _ arg x M _. apply logs_made in M as (i' & j & f & ida & idk & E & _ & Ej & _).
        injection E as _ ->. contradiction. }
    destruct (node_of_type v (TX "Call") eq_refl Ec) as (j & gs & ->). change (vtype (VNode j gs)) with (n_type j) in Ec.
    destruct (call_fields j gs Iv Ec) as (f & ida & args & idk & kws & ->).
    assert (Child : forall w, In w [f; VList ida args; VList idk kws] -> PatternSpec.inside (e_tree e) w) by (intros w Hw; exact (EquivProofs.inside_child _ _ _ Iv Hw)).
    set (cl := VNode j _) in *.
    assert (Ca : forall o1 o2 o3 o, gives e f (ast_matchers_matcher pf) o1 -> gives e (VList ida args) (MItemsAre [MBind (TX "arg") the_name (Some MERGE_EQUIVALENT_AST) None]) o2 ->
      gives e (VList idk kws) (MItemsAre []) o3 -> joined [] [o1; o2; o3] = Ok o -> gives e cl call o).
    { intros o1 o2 o3 o H1 H2 H3 J. apply (gives_node e cl _ _ [o1; o2; o3]); [exact Ec| |exact J]. constructor; [exact H1|constructor; [exact H2|constructor; [exact H3|constructor]]]. }
    assert (Hk : exists o3, gives e (VList idk kws) (MItemsAre []) o3 /\ o3 = (match kws with [] => Some [] | _ => None end)).
    { eexists. split; [|reflexivity]. destruct kws as [|kw kws]; [exact (gives_no_items e _ (or_introl (ex_intro _ idk eq_refl)))|].
      refine (gives_no_items e _ (or_intror _)). eauto. }
    destruct Hk as (o3 & H3 & E3).
    assert (Ha : (exists arg x, args = [arg] /\ variable_is arg x /\ gives e (VList ida args) (MItemsAre [MBind (TX "arg") the_name (Some MERGE_EQUIVALENT_AST) None])
        (Some [(TX "e", Bound (PString x) MERGE KEEP_LAST); (TX "arg", Bound (create_match (e_parsed e) arg) MERGE_EQUIVALENT_AST KEEP_LAST)]))
      \/ ((forall arg x, args = [arg] -> ~ variable_is arg x) /\ gives e (VList ida args) (MItemsAre [MBind (TX "arg") the_name (Some MERGE_EQUIVALENT_AST) None]) None)).
    { destruct args as [|arg [|arg' args]].
      - right. split; [discriminate|]. apply gives_no_item. discriminate.
      - assert (Ia : PatternSpec.inside (e_tree e) arg) by (refine (EquivProofs.inside_child _ _ _ (Child _ (or_intror (or_introl eq_refl))) _); now left).
        destruct (gives_arg arg Ia) as [(x & Vx & H)|[N H]]; [left; exists arg, x; split; [reflexivity|]; split; [exact Vx|now apply gives_item]|].
        right. split; [|now apply gives_item]. intros arg' x [= <-]. apply N.
      - right. split; [discriminate|]. apply gives_no_item. discriminate. }
    assert (U : forall arg x, made_of (logs_exception arg) (VNode i [(TX "value", cl)]) -> variable_is arg x -> made_of logging_exception f /\ args = [arg] /\ kws = []).
    { intros arg x M Vx. apply logs_made in M as (i' & j' & f' & ida' & idk' & E & _ & _ & M). injection E as _ _ E1 _ E2 _ E3'. subst. auto. }
    destruct (func_gives f (Child _ (or_introl eq_refl))) as [[M Gf]|[Gf Nm]].
    - destruct Ha as [(arg & x & -> & Vx & H2)|[Na H2]].
      + destruct kws as [|kw kws]; subst o3.
        * left. exists arg, x. split; [apply logs_made; exists i, j, f, ida, idk; auto|]. split; [exact Vx|].
          match type of H2 with gives _ _ _ ?o => assert (Gc : gives e cl call o) end.
          { apply (Ca _ _ _ _ Gf H2 H3). cbn [joined]. rewrite merge_bindings_nil. cbn [bind]. rewrite merge_bindings_nil. cbn [bind]. rewrite merge_bindings_nil_r. reflexivity. }
          exact (Re _ (Ex _ Gc)).
        * right. split.
          -- refine (Re None (Ex _ (Ca _ _ _ _ Gf H2 H3 _))). cbn [joined]. rewrite merge_bindings_nil. cbn [bind]. rewrite merge_bindings_nil. reflexivity.
          -- intros _ _ _ arg' x' M' V'. destruct (U _ _ M' V') as (_ & _ & K). discriminate K.
      + right. split.
        * refine (Re None (Ex _ (Ca _ _ _ _ Gf H2 H3 _))). cbn [joined]. rewrite merge_bindings_nil. reflexivity.
        * intros _ _ _ arg' x' M' V'. destruct (U _ _ M' V') as (_ & K & _). exact (Na _ _ K V').
    - right. assert (exists o2, gives e (VList ida args) (MItemsAre [MBind (TX "arg") the_name (Some MERGE_EQUIVALENT_AST) None]) o2) as (o2 & H2) by (destruct Ha as [(? & ? & _ & _ & H2)|[_ H2]]; eauto).
      split; [refine (Re None (Ex _ (Ca _ _ _ _ Gf H2 H3 _))); reflexivity|].
      intros E1 E2 E4 arg x M V. destruct (U _ _ M V) as (Mf & _ & _). refine (Nm E1 E2 E4 _ Mf).
      refine (proj1 (E4 j _ (TX "func") f Iv (or_introl eq_refl)) _). rewrite Ec. cbn [evaluated_fields In]. tauto.
  Qed.

  Hypothesis HGt : try_grammar G.
  Hypothesis Un : unshared (e_tree e).
  Hypothesis Sp : spans_fine e.
  Definition exception_matcher (m : matcher) : matcher :=
    MAllOf [MBind (TX "logging_exception") (MRebind m (Some MERGE_IDENTICAL) None) None None; in_exception_handler; in_try].
  Definition exc_result (arg : value) (x : text) (c func : value) : dict bound :=
    [(TX "e", EB (PString x)); (TX "arg", EB (create_match (e_parsed e) arg)); (TX "logging_exception", bound_value (create_match (e_parsed e) c) None None);
     (TX "func", bound_value (create_match (e_parsed e) func) None None)].
  Lemma merge_handler arg x c m : merge_bindings [(TX "e", EB (PString x)); (TX "arg", EB arg); (TX "logging_exception", c)] [(TX "e", EB m)]
    = Ok (if pymatch_eqb (PString x) m then Some [(TX "e", EB m); (TX "arg", EB arg); (TX "logging_exception", c)] else None).
  Proof.
    unfold merge_bindings, merge_bindings_in.
    change (shared_keys [(TX "e", EB (PString x)); (TX "arg", EB arg); (TX "logging_exception", c)] [(TX "e", EB m)]) with [TX "e"]. cbn [merge_shared].
    change (dget [(TX "e", EB (PString x)); (TX "arg", EB arg); (TX "logging_exception", c)] (TX "e")) with (Some (EB (PString x))). change (dget [(TX "e", EB m)] (TX "e")) with (Some (EB m)). cbn iota.
    cbn [b_conflict b_merge conflict_eqb merge_eqb negb resolve]. unfold bound_eqb. cbn [b_value b_conflict b_merge conflict_eqb merge_eqb]. rewrite !andb_true_r.
    cbn [bind]. destruct (pymatch_eqb (PString x) m); reflexivity.
  Qed.
  Lemma exc_gives p c : at_path (e_tree e) p = Some c ->
    (exists arg x func, logs_caught (e_parsed e) (e_tree e) p func /\ gives e c (exception_matcher (logs_pattern the_name pf)) (Some (exc_result arg x c func)))
    \/ (gives e c (exception_matcher (logs_pattern the_name pf)) None
        /\ (evaluated_exprs module -> evaluated pf -> evaluated_exprs (e_tree e) -> forall func, ~ logs_caught (e_parsed e) (e_tree e) p func)).
  Proof.
    intros Hp. pose proof (inside_of _ _ _ Hp) as Ic. unfold exception_matcher.
    destruct (logs_gives c Ic) as [(arg & x & M & Vx & Gl)|[Gl N]].
    2:{ right. split.
        - apply gives_all_none. apply (gives_bind e c _ None _ None None); [exact (gives_rebind _ _ _ _ _ _ Gl)|discriminate].
        - intros E1 E2 E3 func (c' & arg & x & Hp' & M & Vx & _). rewrite Hp in Hp'. injection Hp' as <-. exact (N E1 E2 E3 arg x M Vx). }
    assert (G1 : gives e c (MBind (TX "logging_exception") (MRebind (logs_pattern the_name pf) (Some MERGE_IDENTICAL) None) None None)
      (Some [(TX "e", EB (PString x)); (TX "arg", EB (create_match (e_parsed e) arg)); (TX "logging_exception", bound_value (create_match (e_parsed e) c) None None)])).
    { refine (gives_bind e c _ (Some [(TX "e", EB (PString x)); (TX "arg", EB (create_match (e_parsed e) arg))]) _ None None (gives_rebind e c _ _ (Some MERGE_IDENTICAL) None Gl) _).
      intros b [= <-]. split; [reflexivity|]. unfold dict_ok, dkeys. cbn [map fst]. nodup_tac. }
    assert (Nc : is_node c = true) by (apply logs_made in M as (i & j & f & ida & idk & -> & _); reflexivity).
    assert (Cl : climbable (e_tree e) p c).
    { split; [apply Un; [exact Hp|now rewrite Nc]|]. intros. left. destruct c; try discriminate Nc. reflexivity. }
    assert (Uniq : forall arg' x', made_of (logs_exception arg') c -> variable_is arg' x' -> x' = x).
    { intros arg' x' M' V'. apply logs_made in M as (i & j & f & ida & idk & -> & _). apply logs_made in M' as (i' & j' & f' & ida' & idk' & E & _).
      injection E as _ _ _ _ E _. subst arg'. destruct Vx as (i1 & fs1 & w1 & -> & _ & D1 & id1 & ->), V' as (i2 & fs2 & w2 & E & _ & D2 & id2 & ->).
      injection E as <- <-. rewrite D1 in D2. now injection D2. }
    pose proof (gives_in_handler e p c Un Cl) as G2.
    destruct (gives_in_try e Sp G HG HGc HGt PT Un p c Hp Nc) as [(func & Ot & G3)|[Nt G3]].
    - destruct (nearest (TX "ExceptHandler") (e_tree e) p) as [h|] eqn:Eh.
      + destruct (pymatch_eqb (PString x) (name_match (e_parsed e) h)) eqn:Em.
        * assert (Enm : name_match (e_parsed e) h = PString x).
          { destruct (name_match (e_parsed e) h); try discriminate Em. cbn [pymatch_eqb] in Em. apply text_eqb_eq in Em. now subst. }
          left. exists arg, x, func. split.
          -- exists c, arg, x. split; [exact Hp|]. split; [exact M|]. split; [exact Vx|]. split; [|exact Ot]. apply (caught_nearest e p _ x PN Hp). eauto.
          -- eapply gives_all; [constructor; [exact G1|constructor; [exact G2|constructor; [exact G3|constructor]]]|].
             cbn [joined]. rewrite merge_bindings_nil. cbn [bind]. rewrite merge_handler, Em. cbn [bind]. rewrite Enm. reflexivity.
        * right. split.
          -- eapply gives_all; [constructor; [exact G1|constructor; [exact G2|constructor; [exact G3|constructor]]]|].
             cbn [joined]. rewrite merge_bindings_nil. cbn [bind]. rewrite merge_handler, Em. reflexivity.
          -- intros _ _ _ func' (c' & arg' & x' & Hp' & M' & V' & C' & _). rewrite Hp in Hp'. injection Hp' as <-. rewrite (Uniq _ _ M' V') in C'.
             apply (caught_nearest e p _ x PN Hp) in C' as (h' & Eh' & Hm). rewrite Eh in Eh'. injection Eh' as <-. rewrite Hm in Em. cbn [pymatch_eqb] in Em. now rewrite text_eqb_refl in Em.
      + right. split.
        * eapply gives_all; [constructor; [exact G1|constructor; [exact G2|constructor; [exact G3|constructor]]]|].
          cbn [joined]. rewrite merge_bindings_nil. reflexivity.
        * intros _ _ _ func' (c' & arg' & x' & _ & _ & _ & C' & _). apply (caught_nearest e p _ x' PN Hp) in C' as (h' & Eh' & _). congruence.
    - right. split.
      + eapply gives_all; [constructor; [exact G1|constructor; [exact G2|constructor; [exact G3|constructor]]]|].
        cbn [joined]. rewrite merge_bindings_nil. cbn [bind]. destruct (nearest (TX "ExceptHandler") (e_tree e) p) as [h|]; [|reflexivity].
        rewrite merge_handler. destruct (pymatch_eqb _ _); reflexivity.
      + intros _ _ _ func (c' & arg' & x' & _ & _ & _ & _ & Ot). exact (Nt func Ot).
  Qed.
End Find.
