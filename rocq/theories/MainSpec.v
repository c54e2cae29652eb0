(** Which files a command line is about, and when it is a usage error. *)
From Verif Require Import Py Subst Fmt Ast Template FromDiff Matcher Search Removal Fixer PatTok Pattern PyTemplate
  Codec Runner RunnerSpec Cli Main.

(** There is a file below the directory, reached by these names. *)
Inductive below : list (text * entry) -> list text -> Prop :=
  | Below_file d n : In (n, EFile) d -> below d [n]
  | Below_dir d n d' ns : In (n, EDir d') d -> below d' ns -> below d (n :: ns).
(** The names in a directory are distinct, not empty and have no slashes. *)
Inductive tidy : list (text * entry) -> Prop :=
  Tidy d : NoDup (map fst d) ->
    Forall (fun n => n <> [] /\ ~ In SLASH n) (map fst d) ->
    (forall n d', In (n, EDir d') d -> tidy d') -> tidy d.
(** [top/n1/n2/...] *)
Definition with_slash (top : path) : path :=
  match top with [] => [] | _ => if last top 0 =? SLASH then top else top ++ [SLASH] end.
Definition full_path (top : path) (ns : list text) : path := with_slash top ++ join [SLASH] ns.

(** The files that an argument stands for. *)
Definition stands_for (dirs : path -> option (list (text * entry))) (recursive : bool) (p : path) (l : list path) : Prop :=
  match dirs p with
  | Some d => if recursive then NoDup l /\ forall q, In q l <-> exists ns, below d ns /\ q = full_path p ns
              else l = [p]
  | None => l = [p]
  end.

(** The templates and the pattern of a search-replace pair are accepted. *)
Definition accepted (template_of : text -> res template) (searcher_of : option text -> dict template -> res searcher)
  (sr : search_replace) (s : searcher) : Prop :=
  exists ts, map fst ts = map fst (sr_sub sr)
    /\ Forall2 (fun src t => template_of src = Ok t) (map snd (sr_sub sr)) (map snd ts)
    /\ searcher_of (sr_match sr) ts = Ok s.
(** Setting up the pair fails: a template is not accepted, or the pattern with
    the templates is not. *)
Definition refused (template_of : text -> res template) (searcher_of : option text -> dict template -> res searcher)
  (sr : search_replace) : option exn -> Prop :=
  fun why =>
    match why with
    | None => exists src x, In src (map snd (sr_sub sr)) /\ template_of src = Err x
    | Some x => exists ts, map fst ts = map fst (sr_sub sr)
        /\ Forall2 (fun src t => template_of src = Ok t) (map snd (sr_sub sr)) (map snd ts)
        /\ searcher_of (sr_match sr) ts = Err x
    end.

(** The language of the templates: the one asked for, or else that of the patterns
    (shell style if the mode has none). *)
Inductive language : search_mode -> option sub_mode -> sub_mode -> Prop :=
  | Lang_given m s : language m (Some s) s
  | Lang_re : language ModeRe None SubRe
  | Lang_py : language ModePy None SubPy
  | Lang_expr : language ModeExpr None SubExpr
  | Lang_stmt : language ModeStmt None SubStmt
  | Lang_fix : language ModeFix None SubSh.

Section Modes.
  Variable re_compile : text -> option regex.
  Variable py_matcher_of : text -> res matcher.
  Variable fixers : registry.
  Variable tokenize : text -> res (list ptok).
  Variable order : list nat -> list nat.
  Variable ast_parse : text -> res value.
  Variable parse_ast : text -> text -> res parsed_file.
  Variable context : parsed_file -> pyinfo -> env.
  Variable pass_template : template.
  (** What a pattern means in each of the modes, with the given templates. *)
  Inductive searches_for : search_mode -> text -> dict template -> searcher -> Prop :=
    | For_regex p ts r s : re_compile p = Some r -> regex_searcher r ts = Ok s -> searches_for ModeRe p ts s
    | For_matcher p ts m m' : py_matcher_of p = Ok m -> from_matcher m ts = Ok m' ->
        searches_for ModePy p ts (python_searcher parse_ast context pass_template m')
    | For_expr p ts m m' : expr_pattern tokenize order ast_parse p [] = Ok m -> from_matcher m ts = Ok m' ->
        searches_for ModeExpr p ts (python_searcher parse_ast context pass_template m')
    | For_stmt p ts m m' : stmt_pattern tokenize order ast_parse p [] = Ok m -> from_matcher m ts = Ok m' ->
        searches_for ModeStmt p ts (python_searcher parse_ast context pass_template m')
    | For_fixers p s fs :
        (p = TX "*" /\ fs = rg_default fixers) \/ (p <> TX "*" /\ dget (rg_extra fixers) p = Some fs) ->
        combining_fixer parse_ast context pass_template fs = Ok s -> searches_for ModeFix p [] s.
End Modes.

(** How often a result is searched again: as asked for, or else up to ten times
    with --mode=fix and not at all otherwise. *)
Definition iterations (m : search_mode) (asked : option Z) (n : Z) : Prop :=
  match asked with
  | Some k => n = k
  | None => (m = ModeFix -> n = 10) /\ (m <> ModeFix -> n = 0)
  end.

Section Languages.
  Variable re_template : text -> res (list re_piece).
  Variable tokenize : text -> res (list ptok).
  Variable order : list nat -> list nat.
  Variable ast_parse : text -> res value.
  Variable parse_env : text -> res env.
  (** What a template means in each of the languages. *)
  Inductive template_means : sub_mode -> text -> template -> Prop :=
    | Means_re src ps : re_template src = Ok ps -> template_means SubRe src (regex_template src ps)
    | Means_sh src : template_means SubSh src (sh_template src)
    | Means_py src t : python_template tokenize order ast_parse src = Ok t ->
        template_means SubPy src (as_template tokenize order ast_parse parse_env t)
    | Means_expr src t : python_expr_template tokenize order ast_parse src = Ok t ->
        template_means SubExpr src (as_template tokenize order ast_parse parse_env t)
    | Means_stmt src t : python_stmt_template tokenize order ast_parse src = Ok t ->
        template_means SubStmt src (as_template tokenize order ast_parse parse_env t).
End Languages.
