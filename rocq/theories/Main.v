(** The command line as a whole: cli.py:57-59, 338-542, 855-940.
    Definitions only. *)
From Verif Require Import Py Subst Fmt Ast Template FromDiff Matcher Search Removal Fixer PatTok Pattern PyTemplate
  Codec Runner Cli.

(** *** Which files *)

(** What is below a directory, by name, in the order of [os.scandir]: a file (or
    a link to one, or something special), a directory, or a directory that
    [os.walk] does not enter (it is a link, or cannot be read). *)
Inductive entry := EFile | EDir (l : list (text * entry)) | EClosed.
Definition SLASH : char := 47.
(** [os.path.join(a, b)], for a [b] that does not start with a slash. *)
Definition path_join (a b : text) : text :=
  match a with
  | [] => b
  | _ => if endswith [SLASH] a then a ++ b else a ++ [SLASH] ++ b
  end.
(** [os.walk(top)], top down: each directory with its files. *)
Definition files_in (d : list (text * entry)) : list text :=
  map fst (filter (fun ne : text * entry => match snd ne with EFile => true | _ => false end) d).
Fixpoint walk (top : path) (e : entry) : list (path * list text) :=
  match e with
  | EDir d =>
      (top, files_in d)
      :: (fix go (l : list (text * entry)) : list (path * list text) :=
            match l with
            | [] => []
            | (n, x) :: rest => walk (path_join top n) x ++ go rest
            end) d
  | _ => []
  end.
(** cli.py:903-917 [files_from_options].  [dirs p] is what is below [p] if
    [os.path.isdir(p)].  The options --includefile and --excludefile
    (cli.py:563-574) are read by nothing. *)
Record file_options := FileOptions {
  fo_files : list path;
  fo_recursive : bool;
  fo_includefile : option regex_test;
  fo_excludefile : option regex_test
}.
Definition files_from_options (dirs : path -> option (list (text * entry))) (o : file_options)
  : list (path * path) :=
  flat_map (fun p =>
    match (if fo_recursive o then dirs p else None) with
    | None => [(p, p)]
    | Some d =>
        flat_map (fun pf : path * list text =>
          map (fun n => let q := path_join (fst pf) n in (q, q)) (snd pf)) (walk p (EDir d))
    end) (fo_files o).

(** cli.py:57-59 [_shorten_path]; Python's [min] takes the first of several. *)
Definition shorten_path (abspath relpath : path -> path) (p : path) : path :=
  let shorter a b := if tlen b <? tlen a then b else a in
  shorter (shorter p (abspath p)) (relpath p).

(** *** What to search for *)

(** cli.py:468-490 [_SEARCH_MODES], [_SUB_MODES], [_DEFAULT_SUB_MODES] *)
Inductive search_mode := ModeRe | ModePy | ModeExpr | ModeStmt | ModeFix.
Inductive sub_mode := SubRe | SubSh | SubPy | SubExpr | SubStmt.
Definition default_sub_mode (m : search_mode) : option sub_mode :=
  match m with
  | ModeRe => Some SubRe
  | ModePy => Some SubPy
  | ModeExpr => Some SubExpr
  | ModeStmt => Some SubStmt
  | ModeFix => None
  end.
(** cli.py:520-528: [_get_sub_parser]; [None] is --sub-mode=auto. *)
Definition get_sub_parser (m : search_mode) (given : option sub_mode) : sub_mode :=
  match given with
  | Some s => s
  | None => match default_sub_mode m with Some s => s | None => SubSh end
  end.

(** How setting up ends: with a runner, with a usage message (exit status 2), or
    with an exception that nobody catches. *)
Inductive setup (A : Type) := Ready (a : A) | Usage | Crash (x : exn).
Arguments Ready {A} a. Arguments Usage {A}. Arguments Crash {A} x.

Section Main.
  (** [re.compile(_, re.M)] (None: re.error), the parts of a regex template
      (formatting.py:583-611), [compile_matcher] with [coerce], the built-in fixers;
      the others are as in Pattern.v, PyTemplate.v, Search.v and Removal.v. *)
  Variable re_compile : text -> option regex.
  Variable re_template : text -> res (list re_piece).
  Variable py_matcher_of : text -> res matcher.
  Variable fixers : registry.
  Variable tokenize : text -> res (list ptok).
  Variable order : list nat -> list nat.
  Variable ast_parse : text -> res value.
  Variable parse_env : text -> res env.
  Variable parse_ast : text -> text -> res parsed_file.
  Variable context : parsed_file -> pyinfo -> env.
  Variable pass_template : template.

  (** search.py:136-141 [default_compile_regex] *)
  Definition default_compile_regex (r : text) : res regex :=
    match re_compile r with Some x => Ok x | None => Err ValueError end.
  (** search.py:686-688, 890-914 (the [from_pattern]s) and cli.py:459-465
      [_fixer_from_pattern].  The pattern is None if none was given: [re.compile]
      and [textwrap.dedent] then raise TypeError, [pattern.endswith] (in
      python_pattern.py:47) AttributeError. *)
  Definition from_matcher_searcher (m : res matcher) (ts : dict template) : res searcher :=
    do m' <- m; do r <- from_matcher m' ts; Ok (python_searcher parse_ast context pass_template r).
  Definition make_searcher (mode : search_mode) (pattern : option text) (ts : dict template) : res searcher :=
    match mode, pattern with
    | ModeRe, Some p => do r <- default_compile_regex p; regex_searcher r ts
    | ModeRe, None => Err TypeError
    | ModePy, Some p => from_matcher_searcher (py_matcher_of p) ts
    | ModePy, None => Err TypeError
    | ModeExpr, Some p => from_matcher_searcher (expr_pattern tokenize order ast_parse p []) ts
    | ModeStmt, Some p => from_matcher_searcher (stmt_pattern tokenize order ast_parse p []) ts
    | ModeExpr, None | ModeStmt, None => Err AttributeError
    | ModeFix, _ =>
        match ts with
        | [] => match pattern with
                | Some p => fixers_from_pattern parse_ast context pass_template fixers p
                | None => Err ValueError
                end
        | _ => Err ValueError
        end
    end.
  (** formatting.py:574-642, syntactic_template.py:373-393 *)
  Definition make_template_of (s : sub_mode) (src : text) : res template :=
    match s with
    | SubRe => do ps <- re_template src; Ok (regex_template src ps)
    | SubSh => Ok (sh_template src)
    | SubPy => do t <- python_template tokenize order ast_parse src; Ok (as_template tokenize order ast_parse parse_env t)
    | SubExpr => do t <- python_expr_template tokenize order ast_parse src; Ok (as_template tokenize order ast_parse parse_env t)
    | SubStmt => do t <- python_stmt_template tokenize order ast_parse src; Ok (as_template tokenize order ast_parse parse_env t)
    end.
  (** cli.py:531-540 [_parse_templates]: any exception is a usage error. *)
  Definition parse_templates (s : sub_mode) (subs : dict text) : option (dict template) :=
    match mapM (fun kv : label * text => do t <- make_template_of s (snd kv); Ok (fst kv, t)) subs with
    | Ok ts => Some ts
    | Err _ => None
    end.
  (** cli.py:858-867: the loop of [runner_from_options].  (UnicodeError is a
      subclass of ValueError.) *)
  Definition is_value_error (x : exn) : bool :=
    match x with ValueError | UnicodeError => true | _ => false end.
  Fixpoint make_searchers (mode : search_mode) (s : sub_mode) (srs : list search_replace)
    : setup (list searcher) :=
    match srs with
    | [] => Ready []
    | sr :: rest =>
        match parse_templates s (sr_sub sr) with
        | None => Usage
        | Some ts =>
            match make_searcher mode (sr_match sr) ts with
            | Err x => if is_value_error x then Usage else Crash x
            | Ok x =>
                match make_searchers mode s rest with
                | Ready l => Ready (x :: l)
                | Usage => Usage
                | Crash y => Crash y
                end
            end
        end
    end.

  (** The command line: the --match/--sub/--named-sub options in order, the first
      positional argument and what argparse did not recognise, and the others. *)
  Record command := Command {
    cm_mode : search_mode;
    cm_sub_mode : option sub_mode;
    cm_opts : list opt;
    cm_positional : option text;
    cm_unknown : list text;
    cm_options : cli_options;
    cm_recursive : bool;
    cm_includefile : option regex_test;
    cm_excludefile : option regex_test
  }.
  Definition is_fix (m : search_mode) : bool := match m with ModeFix => true | _ => false end.
  (** cli.py:492: [_NONZERO_ITERATION_MODES] *)
  Definition options_of (c : command) : cli_options :=
    let o := cm_options c in
    CliOptions (co_also o) (co_noalso o) (co_force_enable o) (co_iterate o) (is_fix (cm_mode c))
      (co_in_place o) (co_list_files o) (co_print_filename o) (co_color o) (co_format o).
  (** cli.py:855-900 with 717-742: the runner and the files. *)
  Definition prepare (dirs : path -> option (list (text * entry))) (c : command)
    : setup (runner * list (path * path)) :=
    match parse_options (cm_opts c) (cm_positional c) (cm_unknown c) with
    | None => Usage
    | Some (srs, files) =>
        match make_searchers (cm_mode c) (get_sub_parser (cm_mode c) (cm_sub_mode c)) srs with
        | Usage => Usage
        | Crash x => Crash x
        | Ready ss =>
            match runner_from_options parse_ast (options_of c) ss with
            | None => Crash AssertionError
            | Some ru =>
                Ready (ru, files_from_options dirs
                             (FileOptions files (cm_recursive c) (cm_includefile c) (cm_excludefile c)))
            end
        end
    end.

  (** What happened.  [d_reported]: the number of errors announced on stderr and
      the failures written to the debug log (cli.py:422-456 [report_failures]). *)
  Record done := Done {
    d_fs : fs;
    d_stdout : list text;
    d_skipped : list (path * exn);
    d_reported : option (Z * dict text);
    d_end : setup unit
  }.
  Definition report_failures (failures : dict text) : option (Z * dict text) :=
    match failures with [] => None | _ => Some (tlen failures, failures) end.
  (** cli.py:338-419, 920-940 [main].  (Profiling and logging are left out; the
      list of files is computed while they are processed.) *)
  Definition refex (w : world) (dirs : path -> option (list (text * entry))) (display : path -> path)
             (f : fs) (styles : rstate) (c : command) : done :=
    match prepare dirs c with
    | Usage => Done f [] [] None Usage
    | Crash x => Done f [] [] None (Crash x)
    | Ready (ru, files) =>
        match rewrite_files w ru display f styles files with
        | (st, None) => Done (x_fs st) (x_stdout st) (x_skipped st) (report_failures (x_failures st)) (Ready tt)
        | (st, Some x) => Done (x_fs st) (x_stdout st) (x_skipped st) None (Crash x)
        end
    end.
End Main.
Arguments cm_mode c : assert. Arguments cm_opts c : assert.
