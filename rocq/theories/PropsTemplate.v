(** C31: syntax-aware templates. *)
From Verif Require Import Py PyFacts Ast Template FromDiff Matcher MatchSpec FindSpec MatcherProofs FindProofs
  PatTok PatSpec PatTokProofs LexProofs Pattern PatternSpec EquivProofs PatternProofs PatternApi RenameProofs
  NavSpec NavProofs PyTemplate PyTemplateSpec PyTemplateProofs PropsPattern SampleTrees.
From Coq Require Import Permutation Lia.

(** What [ast.parse] gives. *)
Definition python_ast (G : grammar) (ast_parse : text -> res value) : Prop :=
  forall s m, ast_parse s = Ok m -> parsed_tree G m /\ vtype m = TX "Module" /\ forall k p, pull_of k m = Ok p -> is_node p = true.
(** The tokens of [src] are at the positions that they have in it (no tabs, no
    backslash continuations). *)
Definition plain_source (tokenize : text -> res (list ptok)) (src : text) : Prop :=
  forall toks, tokenize (if negb (endswith [NL] src) then src ++ [NL] else src) = Ok toks ->
    exists gl, toks = map snd gl /\ spelled 0 (1, 0) Start [] gl
      /\ spelling gl = (if negb (endswith [NL] src) then src ++ [NL] else src).

(** The template [t] of the text [src]: its syntax tree is [p], which has the
    [holes] in the places of the metavariables of [src]. *)
Definition has_tree (tokenize : text -> res (list ptok)) (ast_parse : text -> res value) (k : template_kind)
  (src : text) (holes : text -> option hole) (p : value) : Prop :=
  let added := negb (endswith [NL] src) in
  exists gl news names anonymous module,
    tokenize (if added then src ++ [NL] else src) = Ok (map snd gl)
    /\ spelled 0 (1, 0) Start [] gl /\ spelling gl = (if added then src ++ [NL] else src)
    /\ new_names (map snd gl) (metavars (map snd gl)) news names anonymous
    /\ ast_parse (expand_each news (if added then without_newline gl else gl)) = Ok module
    /\ pull_of k module = Ok p /\ holes = metavariables [] names anonymous.

(** [r] is the template filled in with [strings]: it reads as the template with
    everything in parentheses, which are dropped from left to right where they
    can be, and it is the tree [p] with the metavariables replaced by the code
    that they stand for. *)
Definition filled_in (parse_ast : text -> res env) (k : template_kind) (lt : lex_template)
  (holes : text -> option hole) (p : value) (values : label -> option value) (strings : dict text)
  (r : text) (safe : dict text) : Prop :=
  exists full e0 e1 c1,
    lex_substitute lt (all_parens (fun _ => true) strings) = Ok full /\ parse_ast full = Ok e0
    /\ pruned (reads_as parse_ast lt (e_tree e0)) (fun _ => true) [] strings safe
    /\ lex_substitute lt safe = Ok r /\ parse_ast r = Ok e1
    /\ same_syntax (e_tree e0) (e_tree e1)
    /\ consists_of k (e_tree e1) c1 /\ instance holes values p c1.

Section C31.
  Variable tokenize : text -> res (list ptok).
  Variable order : list nat -> list nat.
  Variable ast_parse : text -> res value.
  Variable parse_ast : text -> res env.
  Variable G : grammar.
  Hypothesis HO : forall l, Permutation (order l) l.
  Hypothesis HG : proper G.
  Hypothesis HGp : python_grammar G.
  Hypothesis HA : python_ast G ast_parse.
  Hypothesis HP : python_parser G parse_ast.

  Lemma pull_inside k module p : pull_of k module = Ok p -> conforms G module -> inside module p.
  Proof.
    intros H C. destruct k; cbn [pull_of] in H.
    - injection H as ->. apply inside_refl.
    - apply pull_stmt_spec in H as (Ht & id & Eb). destruct (typed_node G module _ C Ht not_builtin_Module) as (i & fs & -> & Hi).
      destruct (module_fields G i fs HGp C Hi) as (bd & t & -> & Hl). change (bd = VList id [p]) in Eb. subst bd. now exists [0; 0]%nat.
    - apply pull_expr_spec in H as (Ht & id & stmt & Eb & Es & Ev). destruct (typed_node G module _ C Ht not_builtin_Module) as (i & fs & -> & Hi).
      destruct (module_fields G i fs HGp C Hi) as (bd & t & -> & Hl). change (bd = VList id [stmt]) in Eb. subst bd.
      assert (Is : inside (VNode i [(TX "body", VList id [stmt]); (TX "type_ignores", t)]) stmt) by now exists [0; 0]%nat.
      pose proof (conforms_inside _ _ _ C Is) as Cs.
      destruct (typed_node G stmt _ Cs Es not_builtin_Expr) as (j & gs & -> & Hj).
      destruct (expr_fields G j gs HGp Cs Hj) as (v & ->). change (v = p) in Ev. subst v. now exists [0; 0; 0]%nat.
  Qed.

  Lemma template_tree k src t : plain_source tokenize src -> template_of tokenize order ast_parse k src = Ok t ->
    exists holes p m, has_tree tokenize ast_parse k src holes p
      /\ py_matcher t = wrap k m /\ finds_pattern holes p m /\ conforms G p /\ is_node p = true
      /\ (forall n x q, holes n = Some (Named x q) -> q = MAnything).
  Proof.
    intros HT H. apply template_parts in H as (Hlt & m & Hm & Ew).
    assert (exists toks, tokenize (if negb (endswith [NL] src) then src ++ [NL] else src) = Ok toks) as (toks & Ht).
    { unfold lexical_template, token_pattern in Hlt. destruct (tokenize _) as [toks|x]; [eauto|]. exfalso. clear - Hlt.
      destruct x as [| | | | | | | | | | | | | |[|[]|]|]; cbn in Hlt; discriminate Hlt. }
    destruct (HT _ Ht) as (gl & -> & Hs & Hsp).
    destruct (rename_source tokenize order src gl Ht Hs HO) as [_ R].
    destruct (base_pattern_spec tokenize order ast_parse (map snd gl) src Ht (spelled_ends _ _ _ _ _ Hs) HO (pull_of k) [] m Hm)
      as (s & names & anon & module & p & Er & Ep & El & _ & _ & F).
    destruct (R _ _ _ Er) as (news & -> & N). destruct (HA _ _ Ep) as (Pm & _ & Hn).
    exists (metavariables [] names anon), p, m. split.
    { exists gl, news, names, anon, module. do 5 (split; [assumption|]). split; [assumption|reflexivity]. }
    split; [exact Ew|]. split; [exact F|]. split.
    { eapply conforms_inside; [apply (pt_conforms _ _ Pm)|]. eapply pull_inside; eauto. apply (pt_conforms _ _ Pm). }
    split; [now apply (Hn k)|]. intros n x q. unfold metavariables. destruct (find _ names) as [[y z]|].
    - cbn. congruence.
    - destruct (tmem n anon); congruence.
  Qed.

  (** Filling in a template. *)
  Theorem rendering k src t parsed m matches out :
    plain_source tokenize src -> template_of tokenize order ast_parse k src = Ok t -> dict_ok matches -> parsed_matches G matches ->
    py_substitute tokenize order ast_parse parse_ast t parsed m matches = Ok out ->
    exists r safe holes p,
      parenthesized parse_ast t (matchers_for_matches matches) (stringify_matches matches) = Ok (r, safe)
      /\ has_tree tokenize ast_parse k src holes p
      /\ filled_in parse_ast k (py_lex t) holes p (bound_expr matches) (stringify_matches matches) r safe.
  Proof.
    intros HT Ht D Hm H. destruct (template_tree k src t HT Ht) as (holes & p & mm & T & Ew & F & Cp & Np & Hany).
    unfold py_substitute in H.
    destruct (parenthesized parse_ast t (matchers_for_matches matches) (stringify_matches matches)) as [[r safe]|] eqn:Ep;
      cbn [bind] in H; [|discriminate H]. clear H.
    exists r, safe, holes, p. split; [reflexivity|]. split; [exact T|].
    assert (K : forall k0, In k0 (dkeys (stringify_matches matches)) -> dmem (matchers_for_matches matches) k0 = true).
    { intros k0 Hk. apply stringify_keys in Hk. apply dmem_keys. unfold matchers_for_matches, dkeys. rewrite map_map. exact Hk. }
    destruct (rendered parse_ast G HG HGp HP holes p k t mm (matchers_for_matches matches) (stringify_matches matches)
                (bound_expr matches) r safe Ew F Hany Cp Np (stringify_dict_ok _ D)) as (full & e0 & e1 & c1 & A1 & A2 & A3 & A4); auto.
    { intros x v Hx. split; [|split].
      - unfold bound_expr in Hx. unfold matchers_for_matches.
        rewrite (ApplyProofs.dget_map (fun m0 => match m0 with PLex v0 _ _ _ _ _ => if is_expr v0 then ast_matchers_matcher v0 else MAnything | _ => MAnything end)).
        destruct (dget matches x) as [[| | | |w]|]; cbn in Hx |- *; try discriminate Hx.
        destruct (is_expr w); [|discriminate Hx]. now injection Hx as ->.
      - apply expr_is_node. unfold bound_expr in Hx. destruct (dget matches x) as [[| | | |w]|]; try discriminate Hx.
        destruct (is_expr w) eqn:E; [|discriminate Hx]. now injection Hx as <-.
      - apply (Hm x v Hx). }
    exists full, e0, e1, c1. rewrite <- (all_parens_ext (dmem (matchers_for_matches matches))) by exact K.
    split; [exact A1|]. split; [exact A2|]. split; [|exact A4]. eapply pruned_ext; [|exact A3]. exact K.
  Qed.

  (** In the context of the match. *)
  Definition is_expression (tree c : value) : Prop :=
    exists id stmt, vfield tree (TX "body") = VList id [stmt] /\ vtype stmt = TX "Expr" /\ vfield stmt (TX "value") = c.
  Theorem rendering_in_context k src t parsed info v txt f l a b matches p par rest q sp out :
    plain_source tokenize src ->
    plain_source tokenize (before parsed q sp (lex_span f l a b) ++ TX "$current_expr" ++ behind parsed q sp (lex_span f l a b)) ->
    template_of tokenize order ast_parse k src = Ok t -> dict_ok matches -> parsed_matches G matches ->
    pf_py parsed = Some info -> is_expr v = true -> unshared (py_tree info) -> climbable (py_tree info) p v ->
    ancestors (py_tree info) p = par :: rest -> vtype par <> TX "Expr" -> context parsed (par :: rest) (Some (q, sp)) ->
    py_substitute tokenize order ast_parse parse_ast t parsed (PLex v txt f l a b) matches = Ok out ->
    exists r safe holes p, has_tree tokenize ast_parse k src holes p
      /\ filled_in parse_ast k (py_lex t) holes p (bound_expr matches) (stringify_matches matches) r safe
      /\ exists pseudo tree c whole holes' p',
        python_template tokenize order ast_parse
          (before parsed q sp (lex_span f l a b) ++ TX "$current_expr" ++ behind parsed q sp (lex_span f l a b)) = Ok pseudo
        /\ has_tree tokenize ast_parse KModule
             (before parsed q sp (lex_span f l a b) ++ TX "$current_expr" ++ behind parsed q sp (lex_span f l a b)) holes' p'
        /\ ast_parse r = Ok tree /\ is_expression tree c
        /\ filled_in parse_ast KModule (py_lex pseudo) holes' p'
             (fun x => if text_eqb x (TX "current_expr") then Some c else None)
             [(TX "current_expr", r)] whole [(TX "current_expr", out)]
        /\ (out = r \/ out = parens r).
  Proof.
    intros HT HT' Ht D Hm Hpy He U C A Ne Hc H.
    destruct (rendering k src t parsed _ matches out HT Ht D Hm H) as (r & safe & holes & p0 & Hr & T & F).
    exists r, safe, holes, p0. split; [exact T|]. split; [exact F|].
    destruct (substitute_in_context tokenize order ast_parse parse_ast t parsed info v txt f l a b matches p par rest q sp r safe out
                Hr Hpy He U C A Ne Hc H) as (pseudo & tree & c & safe' & Hps & Htr & (id & stmt & E1 & E2 & E3) & (whole & Hw) & Ho).
    assert (Hps' : template_of tokenize order ast_parse KModule
       (before parsed q sp (lex_span f l a b) ++ TX "$current_expr" ++ behind parsed q sp (lex_span f l a b)) = Ok pseudo) by exact Hps.
    destruct (template_tree KModule _ _ HT' Hps') as (holes' & p' & mm & T' & Ew & F' & Cp & Np & Hany).
    destruct (HA _ _ Htr) as (Pt & Htm & Hn).
    assert (Hpull : pull_of KExpr tree = Ok c).
    { cbn [pull_of]. apply pull_expr_spec. split; [exact Htm|exists id, stmt; auto]. }
    set (src' := before parsed q sp (lex_span f l a b) ++ TX "$current_expr" ++ behind parsed q sp (lex_span f l a b)) in *.
    destruct (rendered parse_ast G HG HGp HP holes' p' KModule pseudo mm [(TX "current_expr", ast_matchers_matcher c)] [(TX "current_expr", r)]
                (fun x => if text_eqb x (TX "current_expr") then Some c else None) whole safe' Ew F' Hany Cp Np)
      as (full & e0 & e1 & c1 & A1 & A2 & A3 & A4); auto.
    { constructor; [intros []|constructor]. }
    { intros x v0 Hx. destruct (text_eqb_spec x (TX "current_expr")) as [->|]; [|discriminate Hx]. injection Hx as <-.
      split; [reflexivity|]. split; [now apply (Hn KExpr)|]. exists tree. split; [exact Pt|].
      eapply pull_inside; [exact Hpull|apply (pt_conforms _ _ Pt)]. }
    assert (Es : safe' = [(TX "current_expr", out)] /\ (out = r \/ out = parens r)).
    { clear - A3 Ho. inversion A3 as [|? ? ? ? ? K|? ? ? ? ? K W P|? ? ? ? ? K W P]; subst; [discriminate K|..];
        inversion P; subst; cbn in Ho; injection Ho as <-; auto. }
    destruct Es as [-> Es].
    exists pseudo, tree, c, whole, holes', p'. split; [exact Hps|]. split; [exact T'|]. split; [exact Htr|].
    split; [exists id, stmt; auto|]. split; [|exact Es].
    exists full, e0, e1, c1. split; [exact A1|]. split; [exact A2|]. split; [|exact A4].
    eapply pruned_ext; [|exact A3]. intros k0 [<-|[]]. reflexivity.
  Qed.
End C31.

(** *** C31 *)

(** A template filled in reads as the template tree with the matched code in the
    places of the metavariables; parentheses are only dropped where that does not
    change how it is read. *)
Theorem C31_rendering : forall tokenize order ast_parse parse_ast G k src t parsed m matches out,
  (forall l, Permutation (order l) l) -> proper G -> python_grammar G -> python_ast G ast_parse -> python_parser G parse_ast ->
  plain_source tokenize src -> dict_ok matches -> parsed_matches G matches ->
  template_of tokenize order ast_parse k src = Ok t ->
  py_substitute tokenize order ast_parse parse_ast t parsed m matches = Ok out ->
  exists r safe holes p, has_tree tokenize ast_parse k src holes p
    /\ filled_in parse_ast k (py_lex t) holes p (bound_expr matches) (stringify_matches matches) r safe
    (* used as it is for matches that are no expressions, and in these contexts *)
    /\ ((pf_py parsed = None
         \/ (forall v txt f l a b, m = PLex v txt f l a b -> is_expr v = false)
         \/ exists info v txt f l a b p par rest, pf_py parsed = Some info /\ m = PLex v txt f l a b
              /\ unshared (py_tree info) /\ climbable (py_tree info) p v /\ ancestors (py_tree info) p = par :: rest
              /\ (vtype par = TX "Expr" \/ context parsed (par :: rest) None))
        -> out = r).
Proof.
  intros tokenize order ast_parse parse_ast G k src t parsed m matches out HO HG HGp HA HP HT D Hm Ht H.
  destruct (rendering tokenize order ast_parse parse_ast G HO HG HGp HA HP k src t parsed m matches out HT Ht D Hm H)
    as (r & safe & holes & p & Hr & T & F).
  exists r, safe, holes, p. split; [exact T|]. split; [exact F|]. intros Hc.
  pose proof (substitute_verbatim tokenize order ast_parse parse_ast t parsed m matches r safe Hr Hc) as E.
  rewrite H in E. now injection E.
Qed.
Print Assumptions C31_rendering.

(** The replacement of an expression inside of another expression, or of a simple
    statement: in parentheses unless the context reads the same without. *)
Theorem C31_in_context : forall tokenize order ast_parse parse_ast G k src t parsed info v txt f l a b matches p par rest q sp out,
  let src' := before parsed q sp (lex_span f l a b) ++ TX "$current_expr" ++ behind parsed q sp (lex_span f l a b) in
  (forall l, Permutation (order l) l) -> proper G -> python_grammar G -> python_ast G ast_parse -> python_parser G parse_ast ->
  plain_source tokenize src -> plain_source tokenize src' -> dict_ok matches -> parsed_matches G matches ->
  template_of tokenize order ast_parse k src = Ok t ->
  pf_py parsed = Some info -> is_expr v = true -> unshared (py_tree info) -> climbable (py_tree info) p v ->
  ancestors (py_tree info) p = par :: rest -> vtype par <> TX "Expr" -> context parsed (par :: rest) (Some (q, sp)) ->
  py_substitute tokenize order ast_parse parse_ast t parsed (PLex v txt f l a b) matches = Ok out ->
  exists r safe holes p, has_tree tokenize ast_parse k src holes p
    /\ filled_in parse_ast k (py_lex t) holes p (bound_expr matches) (stringify_matches matches) r safe
    /\ (out = r \/ out = parens r)
    /\ exists pseudo tree c whole holes' p',
      python_template tokenize order ast_parse src' = Ok pseudo
      /\ has_tree tokenize ast_parse KModule src' holes' p'
      /\ ast_parse r = Ok tree /\ is_expression tree c
      /\ filled_in parse_ast KModule (py_lex pseudo) holes' p'
           (fun x => if text_eqb x (TX "current_expr") then Some c else None)
           [(TX "current_expr", r)] whole [(TX "current_expr", out)].
Proof.
  intros tokenize order ast_parse parse_ast G k src t parsed info v txt f l a b matches p par rest q sp out src'
    HO HG HGp HA HP HT HT' D Hm Ht Hpy He U C A Ne Hc H.
  destruct (rendering_in_context tokenize order ast_parse parse_ast G HO HG HGp HA HP k src t parsed info v txt f l a b matches
              p par rest q sp out HT HT' Ht D Hm Hpy He U C A Ne Hc H)
    as (r & safe & holes & p0 & T & F & pseudo & tree & c & whole & holes' & p' & A1 & A2 & A3 & A4 & A5 & A6).
  exists r, safe, holes, p0. split; [exact T|]. split; [exact F|]. split; [exact A6|].
  exists pseudo, tree, c, whole, holes', p'. auto.
Qed.
Print Assumptions C31_in_context.

(** With one variable: the parentheses are only there because it would read
    differently without. *)
Theorem C31_one_variable : forall works s out x, pruned works (fun _ => true) [] [(x, s)] [(x, out)] ->
  (works [(x, s)] /\ out = s) \/ (~ works [(x, s)] /\ out = parens s).
Proof.
  intros works s out x H.
  inversion H as [|? ? ? ? ? K|? ? ? ? ? K W P|? ? ? ? ? K W P]; subst; [discriminate K|..]; inversion P; subst; auto.
Qed.
Print Assumptions C31_one_variable.

(** *** [$x*$y] for [x] = [a+b] and [y] = [a] *)
Definition t_mult (id : Z) (a b : value) : value :=
  nd id (TX "BinOp") pt0 pt0 [(TX "left", a); (TX "op", VNode (NI (id + 1) (TX "Mult") None None None) []); (TX "right", b)].
Definition word (s : text) (c : Z) : ptok := PTok 1 s (1, c) (1, c + Z.of_nat (length s)).
Definition op (s : text) (c : Z) : ptok := PTok 54 s (1, c) (1, c + Z.of_nat (length s)).
Definition dollar (c : Z) : ptok := PTok 60 (TX "$") (1, c) (1, c + 1).
Definition finish (c : Z) : list ptok := [PTok 4 [NL] (1, c) (1, c + 1); PTok 0 [] (2, 0) (2, 0)].
Definition xy_toks := [dollar 0; word (TX "x") 1; op (TX "*") 2; dollar 3; word (TX "y") 4] ++ finish 5.
Definition kc_toks := [op (TX "(") 0; word (TX "k") 1; op (TX "*") 2; dollar 3; word (TX "current_expr") 4; op (TX ")") 16] ++ finish 17.
Definition t_tokenize (s : text) : res (list ptok) :=
  if text_eqb s (TX "$x*$y" ++ [NL]) then Ok xy_toks
  else if text_eqb s (TX "$x+$x" ++ [NL]) then Ok xx_toks
  else if text_eqb s (TX "a+b" ++ [NL]) then Ok ([word (TX "a") 0; op (TX "+") 1; word (TX "b") 2] ++ finish 3)
  else if text_eqb s (TX "(k*$current_expr)" ++ [NL]) then Ok kc_toks
  else Err SyntaxError.
Definition t_sum (id : Z) := p_binop id (p_name (id + 2) (TX "a")) (p_name (id + 5) (TX "b")).
Definition t_trees : list (text * value) :=
  [(TX "gensym_x*gensym_y", t_mult 40 (p_name 10 (TX "gensym_x")) (p_name 20 (TX "gensym_y")));
   (TX "gensym_x+gensym_x", p_binop 40 (p_name 10 (TX "gensym_x")) (p_name 20 (TX "gensym_x")));
   (TX "(a+b)*(a)", t_mult 40 (t_sum 10) (p_name 30 (TX "a")));
   (TX "(a+b)*a", t_mult 40 (t_sum 10) (p_name 30 (TX "a")));
   (TX "a+b*(a)", p_binop 40 (p_name 10 (TX "a")) (t_mult 20 (p_name 22 (TX "b")) (p_name 25 (TX "a"))));
   (TX "a+b", t_sum 10);
   (TX "k*z", t_mult 40 (p_name 10 (TX "k")) (p_name 20 (TX "z")));
   (TX "(k*gensym_current_expr)", t_mult 40 (p_name 10 (TX "k")) (p_name 20 (TX "gensym_current_expr")));
   (TX "(k*(a+b))", t_mult 40 (p_name 10 (TX "k")) (t_sum 20));
   (TX "(k*a+b)", p_binop 40 (t_mult 10 (p_name 12 (TX "k")) (p_name 15 (TX "a"))) (p_name 20 (TX "b")));
   (TX "(f(a))+(f(a))", p_ff)].
Definition t_parse (src : text) : res value :=
  match dget t_trees src with Some e => Ok (p_module e) | None => Err SyntaxError end.
Definition t_parse_ast (src : text) : res env :=
  match t_parse src with
  | Ok m => Ok (Env (PF src (TX "x.py") [] (Some (PyInfo [] m))) m [] [] (fun c => c) (fun c => c) (fun _ _ => []))
  | Err _ => Err ParseError
  end.
Fixpoint distinct (l : list Z) : bool :=
  match l with [] => true | x :: r => negb (existsb (Z.eqb x) r) && distinct r end.
Lemma nodup_dec (l : list Z) : distinct l = true -> NoDup l.
Proof.
  induction l as [|x l IH]; intros H; constructor; cbn [distinct] in H; apply andb_prop in H as [H1 H2]; auto.
  intros K. apply negb_true_iff in H1. assert (existsb (Z.eqb x) l = true); [|congruence].
  apply existsb_exists. exists x. split; [exact K|apply Z.eqb_refl].
Qed.
Definition shape_eqb (a b : list (text * bool)) : bool :=
  (length a =? length b)%nat && forallb (fun xy => text_eqb (fst (fst xy)) (fst (snd xy)) && Bool.eqb (snd (fst xy)) (snd (snd xy))) (combine a b).
Lemma shape_eqb_eq : forall a b, shape_eqb a b = true -> a = b.
Proof.
  unfold shape_eqb. induction a as [|[f x] a IH]; intros [|[g y] b] H; cbn in H; try discriminate H; [reflexivity|].
  apply andb_prop in H as [H1 H2]. apply andb_prop in H2 as [H2 H3]. apply andb_prop in H2 as [H2 H4].
  apply text_eqb_eq in H2. apply Bool.eqb_prop in H4. subst. f_equal. apply IH. now rewrite H1, H3.
Qed.
Fixpoint conformsb (G : grammar) (v : value) : bool :=
  match v with
  | VConst _ _ => true
  | VList _ l => forallb (fun x => negb (is_list x)) l && forallb (fun b => b) (map (conformsb G) l)
  | VNode i fs => negb (tmem (n_type i) builtin_types)
                  && shape_eqb (map (fun kv => (fst kv, is_list (snd kv))) fs) (G (n_type i))
                  && forallb (fun b => b) (map (fun kv => conformsb G (snd kv)) fs)
  end.
Lemma conformsb_ok G v : conformsb G v = true -> conforms G v.
Proof.
  induction v as [i fs IH|id l IH|id k] using value_ind'; intros H; cbn [conformsb] in H.
  - apply andb_prop in H as [H H3]. apply andb_prop in H as [H1 H2]. apply CF_node.
    + intros K. apply tmem_In in K. rewrite K in H1. discriminate H1.
    + now apply shape_eqb_eq.
    + rewrite Forall_forall in *. intros kv Hk. apply IH; [exact Hk|]. rewrite forallb_forall in H3. apply H3.
      now apply (in_map (fun kv => conformsb G (snd kv))).
  - apply andb_prop in H as [H1 H2]. apply CF_list. rewrite Forall_forall in *. rewrite forallb_forall in *. intros x Hx. split.
    + now apply negb_true_iff, H1.
    + apply IH; [exact Hx|]. apply H2. now apply in_map.
  - apply CF_const.
Qed.
(** Everything is loaded. *)
Fixpoint loadsb (v : value) : bool :=
  match v with
  | VConst _ _ => true
  | VList _ l => forallb (fun x => negb (is_ctx x)) l && forallb (fun b => b) (map loadsb l)
  | VNode i fs =>
      forallb (fun b => b) (map (fun kv =>
        if text_eqb (fst kv) (TX "ctx") then is_ctx (snd kv) && (length (vchildren (snd kv)) =? 0)%nat
        else negb (is_ctx (snd kv)) && loadsb (snd kv)
             && match context_of (snd kv) with None => true | Some c => text_eqb c (TX "Load") end) fs)
  end.
Lemma loadsb_ok v : loadsb v = true -> regular p_context v.
Proof.
  induction v as [i fs IH|id l IH|id k] using value_ind'; intros H; cbn [loadsb] in H.
  - apply RG_node. rewrite Forall_forall in *. rewrite forallb_forall in H. intros kv Hk.
    specialize (H _ (in_map _ _ _ Hk)). cbn beta in H. destruct (text_eqb_spec (fst kv) (TX "ctx")) as [E|E].
    + left. apply andb_prop in H as [H1 H2]. split; [exact E|]. split; [exact H1|].
      apply Nat.eqb_eq in H2. now destruct (vchildren (snd kv)).
    + right. apply andb_prop in H as [H H3]. apply andb_prop in H as [H1 H2]. apply negb_true_iff in H1.
      split; [exact E|]. split; [exact H1|]. split; [now apply IH|].
      destruct (context_of (snd kv)) as [c|]; [right|now left]. apply text_eqb_eq in H3. now subst c.
  - apply andb_prop in H as [H1 H2]. apply RG_list. rewrite Forall_forall in *. rewrite forallb_forall in *. intros x Hx. split.
    + now apply negb_true_iff, H1.
    + apply IH; [exact Hx|]. apply H2. now apply in_map.
  - apply RG_const.
Qed.
Definition sample_tree (root : value) : bool :=
  conformsb p_grammar root && distinct (map vid (everything root)) && negb (is_ctx root) && loadsb root.
Lemma sample_tree_ok root : sample_tree root = true -> parsed_tree p_grammar root.
Proof.
  unfold sample_tree. intros H. apply andb_prop in H as [H H4]. apply andb_prop in H as [H H3]. apply andb_prop in H as [H1 H2]. split.
  - now apply conformsb_ok.
  - now apply coherent_distinct, nodup_dec.
  - now apply negb_true_iff.
  - exists p_context. split; [apply p_context_ok|now apply loadsb_ok].
Qed.
Lemma t_parsed s m : t_parse s = Ok m -> parsed_tree p_grammar m /\ exists e, m = p_module e /\ is_node e = true.
Proof.
  assert (A : forallb (fun kv => sample_tree (p_module (snd kv)) && is_node (snd kv)) t_trees = true) by (vm_compute; reflexivity).
  unfold t_parse. destruct (dget t_trees s) as [e|] eqn:E; [|discriminate]. intros [= <-]. apply dget_In in E.
  rewrite forallb_forall in A. specialize (A _ E). cbn [snd] in A. apply andb_prop in A as [A1 A2].
  split; [now apply sample_tree_ok|]. now exists e.
Qed.
Lemma t_ast : python_ast p_grammar t_parse.
Proof.
  intros s m H. destruct (t_parsed s m H) as (P & e & -> & N). split; [exact P|]. split; [reflexivity|].
  intros [] p Hp; cbn in Hp; injection Hp as <-; auto.
Qed.
Lemma t_parser : python_parser p_grammar t_parse_ast.
Proof.
  intros s e. unfold t_parse_ast. destruct (t_parse s) as [m|] eqn:E; [|discriminate]. intros [= <-].
  destruct (t_parsed s m E) as (P & e & -> & N). split; [exact P|reflexivity].
Qed.
Lemma t_plain s : plain_source t_tokenize s.
Proof.
  enough (K : forall s' toks, t_tokenize s' = Ok toks ->
    exists gl, toks = map snd gl /\ spelled 0 (1, 0) Start [] gl /\ spelling gl = s') by (intros toks; apply K).
  intros s' toks. unfold t_tokenize.
  repeat match goal with |- (if text_eqb s' ?b then _ else _) = _ -> _ => destruct (text_eqb_spec s' b) as [->|_] end;
    intros H; try discriminate H; injection H as <-.
  2:{ exists xx_gl. split; [reflexivity|]. split; [exact xx_spelled|reflexivity]. }
  all: match goal with |- exists gl, ?l = _ /\ _ => exists (map (fun t => ([], t)) l) end;
    split; [reflexivity|]; (split; [|reflexivity]); cbn [map app xy_toks kc_toks finish].
  all: repeat (apply SL_word;
        [unfold is_word; cbn; unfold T_ENCODING, T_ENDMARKER, T_INDENT, T_DEDENT, T_NEWLINE, T_NL; lia
        |exists 0%nat, 0%nat; split; [reflexivity|auto]|reflexivity|reflexivity|now left|intros _; cbn; unfold NL; lia|cbn [pt_end]]).
  all: apply (fun r c a i => SL_newline r c a i 0%nat); [now left|reflexivity|reflexivity|reflexivity|]; now constructor.
Qed.
Lemma xy_spelled : spelled 0 (1, 0) Start [] (map (fun t => ([], t)) xy_toks).
Proof.
  cbn [map app xy_toks finish].
  repeat (apply SL_word;
        [unfold is_word; cbn; unfold T_ENCODING, T_ENDMARKER, T_INDENT, T_DEDENT, T_NEWLINE, T_NL; lia
        |exists 0%nat, 0%nat; split; [reflexivity|auto]|reflexivity|reflexivity|now left|intros _; cbn; unfold NL; lia|cbn [pt_end]]).
  apply (fun r c a i => SL_newline r c a i 0%nat); [now left|reflexivity|reflexivity|reflexivity|]; now constructor.
Qed.

Definition tx (v : value) (s : text) : pymatch := let t := tk 0 0 (Z.of_nat (length s)) s in PLex v s t t true true.
Definition xy_matches : dict pymatch := [(TX "x", tx (t_sum 10) (TX "a+b")); (TX "y", tx (p_name 30 (TX "a")) (TX "a"))].
Definition t_id : list nat -> list nat := fun l => l.
Definition t_fill (src : text) (parsed : parsed_file) (m : pymatch) (matches : dict pymatch) : res text :=
  match template_of t_tokenize t_id t_parse KExpr src with
  | Ok t => py_substitute t_tokenize t_id t_parse t_parse_ast t parsed m matches
  | Err x => Err x
  end.
Definition no_python : parsed_file := PF [] [] [] None.
Example C31_nonvacuous :
  proper p_grammar /\ python_grammar p_grammar /\ python_ast p_grammar t_parse /\ python_parser p_grammar t_parse_ast
  /\ (forall s, plain_source t_tokenize s) /\ dict_ok xy_matches /\ parsed_matches p_grammar xy_matches
  /\ t_fill (TX "$x*$y") no_python (PString []) xy_matches = Ok (TX "(a+b)*a").
Proof.
  split; [exact p_proper|]. split; [split; reflexivity|]. split; [exact t_ast|]. split; [exact t_parser|]. split; [exact t_plain|].
  split; [nodup|]. split; [|vm_compute; reflexivity].
  intros x v H. exists (p_module (t_mult 40 (t_sum 10) (p_name 30 (TX "a")))).
  split; [apply (t_parsed (TX "(a+b)*a")); reflexivity|].
  unfold bound_expr, xy_matches in H. cbn [dget] in H.
  destruct (text_eqb (TX "x") x); [injection H as <-; now exists [0; 0; 0; 0]%nat|].
  destruct (text_eqb (TX "y") x); [injection H as <-; now exists [0; 0; 0; 2]%nat|discriminate H].
Qed.
(** The file [k*z], where [z] is to be replaced by [a+b]. *)
Definition tok_k := tk 0 0 1 (TX "k").
Definition tok_z := tk 2 2 3 (TX "z").
Definition kz_z : value := nd 20 (TX "Name") tok_z tok_z [(TX "id", ident 21 (TX "z")); (TX "ctx", load 22)].
Definition kz_k : value := nd 10 (TX "Name") tok_k tok_k [(TX "id", ident 11 (TX "k")); (TX "ctx", load 12)].
Definition kz_mult : value :=
  nd 40 (TX "BinOp") tok_k tok_z [(TX "left", kz_k); (TX "op", VNode (NI 41 (TX "Mult") None None None) []); (TX "right", kz_z)].
Definition kz_file : parsed_file := PF (TX "k*z") (TX "x.py") [] (Some (PyInfo [] (p_module kz_mult))).
Example C31_context_nonvacuous :
  t_fill (TX "a+b") kz_file (PLex kz_z (TX "z") tok_z tok_z true true) [] = Ok (TX "(a+b)")
  /\ unshared (p_module kz_mult) /\ climbable (p_module kz_mult) [0; 0; 0; 2]%nat kz_z
  /\ exists rest, ancestors (p_module kz_mult) [0; 0; 0; 2]%nat = kz_mult :: rest
     /\ context kz_file (kz_mult :: rest) (Some (kz_mult, (0, 3)))
     /\ before kz_file kz_mult (0, 3) (2, 3) = TX "(k*" /\ behind kz_file kz_mult (0, 3) (2, 3) = TX ")".
Proof.
  split; [vm_compute; reflexivity|].
  assert (U : unshared (p_module kz_mult)) by (apply unshared_ok; vm_compute; reflexivity).
  split; [exact U|]. split; [split; [now apply U|intros; left; reflexivity]|].
  eexists. split; [reflexivity|]. split; [|split; reflexivity].
  apply CX_found; reflexivity.
Qed.
(** FINDING: a template that repeats a metavariable raises RewriteError for code
    with node lists, such as [f(a)] (by C24). *)
Example C31_repeated_refuted :
  t_fill (TX "$x+$x") no_python (PString []) [(TX "x", tx (p_call 10) (TX "f(a)"))] = Err RewriteError.
Proof. vm_compute. reflexivity. Qed.
