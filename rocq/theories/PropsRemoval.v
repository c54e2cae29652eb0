(** C33: removing statements; C55: files that are no Python; C56, C57: what a
    match is about.  Theorems only. *)
From Verif Require Import Py PyFacts Subst Fmt ApplySpec SubstSpec Ast Template FromDiff Matcher MatchSpec FindSpec NavSpec NavProofs
  OwnSpec OwnProofs Search SearchSpec PatTok Pattern PatternSpec PyTemplate PyTemplateSpec Removal RemovalSpec RemovalProofs RemovalApi RemovalSearch
  RemovalLayout ConstTemplate SampleTrees PropsPattern PropsTemplate.

(** *** C33 *)

(** Any templates: statements are removed as described if those of each suite
    come in their order. *)
Theorem C33_removed_in_order : forall pass_template tree tokens results pairs outs,
  unshared tree -> is_node tree = true ->
  Forall2 dicts_of results pairs -> (forall mt, In mt pairs -> NoDup (dkeys (snd mt))) ->
  in_order tree (steps pairs) -> placed tree (steps pairs) ->
  sanitize_all pass_template tree tokens results (Removed [] []) = Ok outs ->
  Forall2 (fun mt out => tidied pass_template tree tokens (gone tree (steps pairs)) (fst mt) (snd mt) (fst out) (snd out)) pairs outs.
Proof.
  intros pass_template tree tokens results pairs outs Hu Hr HF Hn Ho Hp H.
  exact (sanitize_all_ok pass_template tree tokens Hu Hr (steps pairs) results pairs [] (Removed [] []) outs HF Hn eq_refl (remembers_nil tree) Ho Hp H).
Qed.
Print Assumptions C33_removed_in_order.

(** Replacing what a matcher finds by nothing. *)
Theorem C33_replace_by_nothing : forall parse_ast context pass_template m t parsed info subs,
  let e := context parsed info in
  let m' := MWithReplacements (MBind ROOT_LABEL m None None) [(ROOT_LABEL, t)] in
  pf_py parsed = Some info -> unshared (e_tree e) -> is_node (e_tree e) = true ->
  own_head m = true -> no_templates m = true -> rewrite_free m = true -> dicts_ok m -> ~ In ROOT_LABEL (bind_variables m) ->
  t_template t = [] -> always_gives parsed t [] -> always_gives parsed pass_template (TX "pass") ->
  s_find (python_searcher parse_ast context pass_template m') parsed = Ok subs ->
  exists hs, found e m' hs
    /\ ((forall h, In h hs -> is_expr (h_value h) = false) -> Forall2 (deletion_sub (e_tree e) (e_tokens e) hs) hs subs).
Proof.
  intros parse_ast context pass_template m t parsed info subs e m' H1 H2 H3 H4 H5 H6 H7 H8 H9 H10 H11 H12.
  exact (delete_finds parse_ast context pass_template m t parsed info H1 H2 H3 H4 H5 H6 H7 H8 H9 H10 H11 subs H12).
Qed.
Print Assumptions C33_replace_by_nothing.

(** What is removed does not overlap, in one suite or in different ones ... *)
Theorem C33_removals_are_disjoint : forall tree tokens (rem : path -> Prop) q i l mo v si fi sp pass q' j l' mo' v' sj fj sp' pass',
  source_order tree ->
  suite tree q l mo -> all_stmts l -> nth_error l i = Some v -> extent v (si, fi) ->
  suite tree q' l' mo' -> all_stmts l' -> nth_error l' j = Some v' -> extent v' (sj, fj) ->
  left_of (q ++ [i]) (q' ++ [j]) -> rem (q ++ [i]) -> no_semicolon tokens v ->
  removal tokens l mo (fun k => rem (q ++ [k])) i si fi sp pass ->
  removal tokens l' mo' (fun k => rem (q' ++ [k])) j sj fj sp' pass' ->
  snd sp <= fst sp'.
Proof. intros tree tokens rem q i l mo v si fi sp pass q' j l' mo' v' sj fj sp' pass' HS. apply removals_disjoint. exact HS. Qed.
Print Assumptions C33_removals_are_disjoint.

(** ... in one suite also if there are semicolons. *)
Theorem C33_disjoint_in_a_suite : forall tokens l mo (rem : nat -> Prop) i j vi vj si fi sj fj spi spj pi pj,
  (i < j)%nat -> laid_out l -> rem i ->
  nth_error l i = Some vi -> extent vi (si, fi) -> removal tokens l mo rem i si fi spi pi ->
  nth_error l j = Some vj -> extent vj (sj, fj) -> removal tokens l mo rem j sj fj spj pj ->
  snd spi <= fst spj.
Proof. exact removals_apart. Qed.
Print Assumptions C33_disjoint_in_a_suite.

(** Statements before and after what is removed stay as they are. *)
Theorem C33_spares_the_others : forall tree tokens (rem : nat -> Prop) q i l mo v si fi sp pass r w spw,
  source_order tree ->
  suite tree q l mo -> all_stmts l -> nth_error l i = Some v -> extent v (si, fi) -> no_semicolon tokens v ->
  removal tokens l mo rem i si fi sp pass ->
  at_path tree r = Some w -> is_stmt w = true -> extent w spw ->
  (left_of (q ++ [i]) r -> snd sp <= fst spw) /\ (left_of r (q ++ [i]) -> snd spw <= fst sp).
Proof. intros tree tokens rem q i l mo v si fi sp pass r w spw HS. apply removal_spares. exact HS. Qed.
Print Assumptions C33_spares_the_others.
Theorem C33_keeps_the_rest_of_the_suite : forall tokens l mo (rem : nat -> Prop) i k v w si fi spi pi spw,
  laid_out l -> i <> k ->
  nth_error l i = Some v -> extent v (si, fi) -> removal tokens l mo rem i si fi spi pi ->
  nth_error l k = Some w -> extent w spw -> ~ rem k ->
  apart spi spw.
Proof. exact removal_keeps. Qed.
Print Assumptions C33_keeps_the_rest_of_the_suite.

(** Templates without metavariables always give the same text for statements;
    such is the template of [pass]. *)
Theorem C33_constant_template : forall tokenize order ast_parse parse_ast G t txt e rm reps parsed,
  proper G -> python_parser G parse_ast -> lex_variables (py_lex t) = [] -> lex_substitute (py_lex t) [] = Ok txt ->
  parse_ast txt = Ok e -> snd (eval e (py_matcher t) (e_tree e) []) = Ok (Some (RInfo rm (Some []) reps)) ->
  always_gives parsed (as_template tokenize order ast_parse parse_ast t) txt.
Proof.
  intros tokenize order ast_parse parse_ast G t txt e rm reps parsed HG HP Hv Ht Hp Hm m matches He.
  now apply (constant_template tokenize order ast_parse parse_ast G t txt e rm reps).
Qed.
Print Assumptions C33_constant_template.

(** The key span of a match: the outermost object around it below the nearest
    one that has a body. *)
Theorem C33_key_span : forall tree ms p v txt f l a b before body rest, unshared tree -> climbable tree p v ->
  dget ms ROOT_LABEL = Some (PLex v txt f l a b) ->
  v :: ancestors tree p = before ++ body :: rest ->
  Forall (fun y => has_field y (TX "body") = false) before -> has_field body (TX "body") = true ->
  key_span_for_dict tree ms =
    match outermost before with
    | None => Ok None
    | Some n => do f' <- first_token n; do l' <- last_token n; Ok (Some (tk_start f', tk_end l'))
    end.
Proof. exact key_span_ok. Qed.
Print Assumptions C33_key_span.

(** The substitutions of a Python searcher: those of the matches, as in C32. *)
Theorem C33_searcher : forall parse_ast context pass_template m parsed subs, dicts_ok m ->
  s_find (python_searcher parse_ast context pass_template m) parsed = Ok subs ->
  exists info outs, pf_py parsed = Some info /\ find_dicts context pass_template m parsed = Ok outs
    /\ described parsed (key_span_for_dict (py_tree info)) outs subs.
Proof. exact searcher_finds. Qed.
Print Assumptions C33_searcher.

(** The module
<<
if x:
  a
  b
c
>>
    with all expression statements removed. *)
Definition r_if := tk 0 0 2 (TX "if").
Definition r_x := tk 1 3 4 (TX "x").
Definition r_a := tk 5 8 9 (TX "a").
Definition r_b := tk 7 12 13 (TX "b").
Definition r_c := tk 10 14 15 (TX "c").
Definition r_nl (i a : Z) := Tok 4 [NL] a (a + 1) i.
Definition r_tokens := [r_if; r_x; tk 2 4 5 (TX ":"); r_nl 3 5; Tok 5 (TX "  ") 6 8 4; r_a; r_nl 6 9; r_b; r_nl 8 13; Tok 6 [] 14 14 9; r_c;
  r_nl 11 15; Tok 0 [] 16 16 12].
Definition r_stmt (id : Z) (t : token) := nd id (TX "Expr") t t [(TX "value", name (id + 1) t (id + 2))].
Definition r_cond := nd 50 (TX "If") r_if r_b
  [(TX "test", name 40 r_x 41); (TX "body", VList 51 [r_stmt 10 r_a; r_stmt 20 r_b]); (TX "orelse", VList 52 [])].
Definition r_module := nd 60 (TX "Module") r_if r_c
  [(TX "body", VList 61 [r_cond; r_stmt 30 r_c]); (TX "type_ignores", VList 62 [])].
Definition r_text := TX "if x:" ++ [NL] ++ TX "  a" ++ [NL] ++ TX "  b" ++ [NL] ++ TX "c".
Definition r_file : parsed_file := PF r_text (TX "x.py") [] (Some (PyInfo r_tokens r_module)).
Definition r_context (p : parsed_file) (i : pyinfo) : env :=
  Env p (py_tree i) (py_tokens i) [] (fun c => 1000 + c) (fun c => 2000 + c) (fun _ _ => []).
Definition r_searcher (t : template) (m : matcher) : searcher :=
  python_searcher (fun _ _ => Ok r_file) r_context (literal_template (TX "pass"))
    (MWithReplacements (MBind ROOT_LABEL m None None) [(ROOT_LABEL, t)]).
Definition any_stmt := MNode (TX "Expr") [(TX "value", MAnything)].
Definition del (sp : span) (s : text) (key : span) : substitution :=
  Sub [(TX "__root", sp)] (TX "__root") (Some [(TX "__root", s)]) None None false None (Some key).

Example C33_nonvacuous :
  let subs := [del (8, 12) [] (8, 9); del (12, 13) (TX "pass") (12, 13); del (13, 15) [] (14, 15)] in
  unshared r_module /\ own_head any_stmt = true /\ no_templates any_stmt = true /\ rewrite_free any_stmt = true /\ dicts_ok any_stmt
  /\ always_gives r_file (literal_template []) []
  /\ s_find (r_searcher (literal_template []) any_stmt) r_file = Ok subs
  /\ apply_substitutions r_text subs = Ok (TX "if x:" ++ [NL] ++ TX "  pass").
Proof.
  cbn zeta. split; [apply unshared_ok; vm_compute; reflexivity|]. repeat (split; [reflexivity|]).
  split; [repeat split|]. split; [now intros rm ms _|]. split; vm_compute; reflexivity.
Qed.
Definition r_outs : list (dict pymatch * dict template) :=
  match find_dicts r_context (literal_template (TX "pass"))
          (MWithReplacements (MBind ROOT_LABEL any_stmt None None) [(ROOT_LABEL, literal_template [])]) r_file with
  | Ok o => o
  | Err _ => []
  end.
Example C33_key_span_nonvacuous :
  climbable r_module [0; 0; 1; 0]%nat (r_stmt 10 r_a)
  /\ ancestors r_module [0; 0; 1; 0]%nat = [VList 51 [r_stmt 10 r_a; r_stmt 20 r_b]] ++ r_cond :: [VList 61 [r_cond; r_stmt 30 r_c]; r_module]
  /\ outermost [r_stmt 10 r_a; VList 51 [r_stmt 10 r_a; r_stmt 20 r_b]] = Some (r_stmt 10 r_a)
  /\ length r_outs = 3%nat
  /\ map (fun mt : dict pymatch * dict template => key_span_for_dict r_module (fst mt)) r_outs
     = [Ok (Some (8, 9)); Ok (Some (12, 13)); Ok (Some (14, 15))].
Proof.
  split; [|split; [vm_compute; reflexivity|split; [vm_compute; reflexivity|split; vm_compute; reflexivity]]].
  split; [|intros; now left]. apply unshared_ok; vm_compute; reflexivity.
Qed.

(** FINDING: with a semicolon after the last statement of an inner suite the
    ranges overlap.  [if x: a; b;] and [c] in the next line, [b] and [c] removed: *)
Definition o_if := tk 0 0 2 (TX "if").
Definition o_x := tk 1 3 4 (TX "x").
Definition o_a := tk 3 6 7 (TX "a").
Definition o_b := tk 5 9 10 (TX "b").
Definition o_semi := tk 6 10 11 (TX ";").
Definition o_c := tk 8 12 13 (TX "c").
Definition o_tokens := [o_if; o_x; tk 2 4 5 (TX ":"); o_a; tk 4 7 8 (TX ";"); o_b; o_semi; r_nl 7 11; o_c; r_nl 9 13; Tok 0 [] 14 14 10].
Definition o_cond := nd 50 (TX "If") o_if o_b
  [(TX "test", name 40 o_x 41); (TX "body", VList 51 [r_stmt 10 o_a; r_stmt 20 o_b]); (TX "orelse", VList 52 [])].
Definition o_module := nd 60 (TX "Module") o_if o_c
  [(TX "body", VList 61 [o_cond; r_stmt 30 o_c]); (TX "type_ignores", VList 62 [])].
Definition o_file : parsed_file := PF (TX "if x: a; b;" ++ [NL] ++ TX "c") (TX "x.py") [] (Some (PyInfo o_tokens o_module)).
Example C33_semicolon_overlap :
  s_find (r_searcher (literal_template [])
            (MNode (TX "Expr") [(TX "value", MAnyOf [m_name (TX "b"); m_name (TX "c")])])) o_file
  = Ok [del (7, 11) [] (9, 10); del (10, 13) [] (12, 13)].
Proof. vm_compute. reflexivity. Qed.

(** The template of [pass]. *)
Definition pass_toks := [word (TX "pass") 0] ++ finish 4.
Definition pass_node (id : Z) := nd id (TX "Pass") (tk 0 0 4 (TX "pass")) (tk 0 0 4 (TX "pass")) [].
Definition pass_module := nd 1 (TX "Module") (tk 0 0 4 (TX "pass")) (tk 0 0 4 (TX "pass"))
  [(TX "body", VList 2 [pass_node 3]); (TX "type_ignores", VList 4 [])].
Definition pass_tokenize (s : text) : res (list ptok) := if text_eqb s (TX "pass" ++ [NL]) then Ok pass_toks else Err SyntaxError.
Definition pass_parse (s : text) : res value := if text_eqb s (TX "pass") then Ok pass_module else Err SyntaxError.
Definition pass_parse_ast (s : text) : res env :=
  if text_eqb s (TX "pass")
  then Ok (Env (PF s (TX "x.py") [] (Some (PyInfo [] pass_module))) pass_module [] [] (fun c => c) (fun c => c) (fun _ _ => []))
  else Err ParseError.
Example C33_constant_template_nonvacuous : exists t e rm reps,
  python_stmt_template pass_tokenize (fun l => l) pass_parse (TX "pass") = Ok t
  /\ lex_variables (py_lex t) = [] /\ lex_substitute (py_lex t) [] = Ok (TX "pass")
  /\ pass_parse_ast (TX "pass") = Ok e
  /\ snd (eval e (py_matcher t) (e_tree e) []) = Ok (Some (RInfo rm (Some []) reps))
  /\ py_substitute pass_tokenize (fun l => l) pass_parse pass_parse_ast t r_file (create_match r_file (r_stmt 20 r_b))
       [(TX "__root", create_match r_file (r_stmt 20 r_b))] = Ok (TX "pass").
Proof.
  do 4 eexists. split; [vm_compute; reflexivity|]. split; [vm_compute; reflexivity|]. split; [vm_compute; reflexivity|].
  split; [unfold pass_parse_ast; cbn; reflexivity|]. split; vm_compute; reflexivity.
Qed.

(** *** C55 *)
Theorem C55_unparsable_is_skipped : forall parse_ast data path,
  (parse_ast data path = Err ParseError -> python_parse parse_ast data path = Err SkipFileError)
  /\ (parse_ast data path <> Err ParseError -> python_parse parse_ast data path = parse_ast data path).
Proof. exact python_parse_fails. Qed.
Print Assumptions C55_unparsable_is_skipped.
Theorem C55_searching_unparsable : forall parse_ast parse_ast' context pass_template m data path n,
  parse_ast' data path = Err ParseError ->
  find_iter parse_ast (python_searcher parse_ast' context pass_template m) data path n = Err SkipFileError.
Proof.
  intros parse_ast parse_ast' context pass_template m data path n H. unfold find_iter. cbn [python_searcher s_check s_parse].
  unfold python_parse. rewrite H. reflexivity.
Qed.
Print Assumptions C55_searching_unparsable.
Example C55_nonvacuous :
  find_iter (fun _ _ => Err ParseError) (python_searcher (fun _ _ => Err ParseError) r_context (literal_template []) any_stmt) (TX "f(") (TX "x.py") 1
  = Err SkipFileError.
Proof. vm_compute. reflexivity. Qed.

(** *** C56 *)
(** A match is about the object that was tried. *)
Theorem C56_match_is_about_the_candidate : forall e m v s s' r rm,
  own_head m = true -> eval e m v s = (s', Ok (Some r)) -> r_match r = Ok rm ->
  rm = create_match (e_parsed e) v \/ about_nothing rm.
Proof. exact own_match. Qed.
Print Assumptions C56_match_is_about_the_candidate.
(** FINDING: except with the sibling matchers: in [f(a, b)], [HasPrevSibling]
    applied to [b] gives the match of [a]. *)
Example C56_siblings :
  (exists r, eval s_env (MHasPrevSibling MAnything) s_b [] = ([], Ok (Some r)) /\ r_match r = Ok (create_match s_file s_a))
  /\ create_match s_file s_a <> create_match s_file s_b.
Proof. split; [eexists; split; vm_compute; reflexivity|]. discriminate. Qed.
Example C56_nonvacuous : exists r,
  eval s_env (MAnyOf [m_name (TX "z"); m_bind (TX "x") (m_name (TX "a"))]) s_a [] = ([], Ok (Some r))
  /\ own_head (MAnyOf [m_name (TX "z"); m_bind (TX "x") (m_name (TX "a"))]) = true
  /\ r_match r = Ok (create_match s_file s_a).
Proof. eexists. split; [vm_compute; reflexivity|]. split; vm_compute; reflexivity. Qed.

(** *** C57 *)
Theorem C57_bindings_and_replacements_have_distinct_keys : forall e m v s s' r,
  dicts_ok m -> eval e m v s = (s', Ok (Some r)) -> result_ok r.
Proof. exact results_are_dicts. Qed.
Print Assumptions C57_bindings_and_replacements_have_distinct_keys.
Theorem C57_no_replacements_of_their_own : forall e m v s s' r t,
  no_templates m = true -> eval e m v s = (s', Ok (Some r)) -> r_reps r = Ok t -> t = [].
Proof. exact no_replacements. Qed.
Print Assumptions C57_no_replacements_of_their_own.
Example C57_nonvacuous :
  let m := MWithReplacements (m_bind (TX "x") (m_name (TX "a"))) [(TX "x", literal_template (TX "z"))] in
  dicts_ok m /\ no_templates m = false /\ no_templates (m_bind (TX "x") (m_name (TX "a"))) = true
  /\ exists r, eval s_env m s_a [] = ([], Ok (Some r)) /\ r_reps r = Ok [(TX "x", literal_template (TX "z"))].
Proof.
  cbn zeta. split; [cbn; repeat split; repeat constructor; intros []|]. do 2 (split; [reflexivity|]).
  eexists. split; vm_compute; reflexivity.
Qed.
