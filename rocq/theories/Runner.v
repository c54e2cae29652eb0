(** [RefexRunner] (cli.py:102-258): which files are read, searched and written.
    Definitions only. *)
From Verif Require Import Py Subst Fmt Ast Search Codec.

Definition path := text.
(** The file system: the contents of each file. *)
Definition fs := path -> option bytes.
Definition fs_set (f : fs) (p : path) (b : bytes) : fs :=
  fun q => if text_eqb q p then Some b else f q.

(** The world outside: which existing files may be opened for reading, which
    may be opened for writing, and what happens to bytes written to a file:
    what ends up in the file, and whether IOError is raised (disk full ...). *)
Record world := World {
  w_readable : path -> bool;
  w_writable : path -> bool;
  w_device : path -> bytes -> bytes * bool
}.

(** The attributes of the runner; [ru_find contents path] is
    [search.find_iter(self.searcher, contents, path, max_iterations=...)]. *)
Record runner := Runner {
  ru_find : text -> text -> res (list substitution);
  ru_color : bool;
  ru_fmt : text -> text -> text -> text;
  ru_dry_run : bool;
  ru_show_diff : bool;
  ru_show_files : bool
}.

(** What a run has done so far. [x_skipped]: the "skipped ..." lines on stderr. *)
Record rw_state := RW {
  x_fs : fs;
  x_failures : dict text;        (* read path -> contents *)
  x_has_changes : bool;
  x_stdout : list text;
  x_skipped : list (path * exn);
  x_styles : rstate
}.

(** cli.py:132-153 [read].  None: the file is skipped. *)
Definition run_read (w : world) (st : rw_state) (p : path) : rw_state * option text :=
  let skip e := RW (x_fs st) (x_failures st) (x_has_changes st) (x_stdout st)
                   (x_skipped st ++ [(p, e)]) (x_styles st) in
  match x_fs st p with
  | None => (st, None)                           (* ENOENT / EISDIR: silent *)
  | Some b =>
      if w_readable w p then
        match codec_read b with
        | Some t => (st, Some t)
        | None => (skip UnicodeError, None)
        end
      else (skip IOError, None)
  end.

(** cli.py:155-174 [get_matches]; the flag says that "skipped" was printed. *)
Definition run_get_matches (ru : runner) (contents : text) (p : path)
  : res (list substitution * bool) :=
  match ru_find ru contents p with
  | Ok l => Ok (l, false)
  | Err SkipFileNoResultsError => Ok ([], false)
  | Err SkipFileError => Ok ([], true)
  | Err e => Err e
  end.

(** cli.py:176-183 [write].  The file is opened (and truncated) before the
    substitutions are applied; only IOError is caught. *)
Definition run_write (w : world) (st : rw_state) (p : path) (contents : text)
           (matches : list substitution) : rw_state * option exn :=
  let with_fs f sk := RW f (x_failures st) (x_has_changes st) (x_stdout st) sk (x_styles st) in
  if negb (w_writable w p) then (with_fs (x_fs st) (x_skipped st ++ [(p, IOError)]), None)
  else
    let truncated := fs_set (x_fs st) p [] in
    match apply_substitutions contents matches with
    | Err IOError => (with_fs truncated (x_skipped st ++ [(p, IOError)]), None)
    | Err e => (with_fs truncated (x_skipped st), Some e)
    | Ok new =>
        match codec_write new with
        | None => (with_fs truncated (x_skipped st), Some UnicodeError)
        | Some b =>
            let '(written, failed) := w_device w p b in
            (with_fs (fs_set (x_fs st) p written)
                     (if failed then x_skipped st ++ [(p, IOError)] else x_skipped st), None)
        end
    end.

(** cli.py:185-209 [log_changes]. Returns has_any_changes, the output, the styles. *)
Definition run_log (ru : runner) (contents : text) (matches : list substitution) (name : path)
           (st : rstate) : res (bool * list text * rstate) :=
  match matches with
  | [] => Ok (false, [], st)
  | _ =>
      if negb (ru_show_diff ru) && negb (ru_show_files ru) then Ok (false, [], st)
      else if negb (ru_show_diff ru) && ru_show_files ru then Ok (false, [name ++ [NL]], st)
      else
        let header := if ru_show_files ru then [RESET_ALL ++ ansi (TX "35") ++ name ++ RESET_ALL ++ [NL]]
                      else [] in
        do r <- diff_substitutions (ru_color ru) (ru_fmt ru) contents matches st;
        let '(st', parts) := r in
        Ok (existsb fst parts, header ++ map snd parts, st')
  end.

(** cli.py:222-245: one iteration of the loop of [rewrite_files], for the pair
    (read, write) whose displayed name is [display]. *)
Definition run_file (w : world) (ru : runner) (display : path -> path) (st : rw_state)
           (read write : path) : rw_state * option exn :=
  let '(st, contents) := run_read w st read in
  match contents with
  | None => (st, None)
  | Some data =>
      match run_get_matches ru data (display write) with
      | Err e =>
          (RW (x_fs st) (dset (x_failures st) read data) (x_has_changes st) (x_stdout st)
              (x_skipped st ++ [(read, e)]) (x_styles st), None)
      | Ok (matches, skipped) =>
          let sk := if skipped then x_skipped st ++ [(display write, SkipFileError)] else x_skipped st in
          match run_log ru data matches (display write) (x_styles st) with
          | Err e => (RW (x_fs st) (x_failures st) (x_has_changes st) (x_stdout st) sk (x_styles st), Some e)
          | Ok (changed, out, styles) =>
              let st := RW (x_fs st) (x_failures st) (x_has_changes st || changed)
                           (x_stdout st ++ out) sk styles in
              if negb (ru_dry_run ru) && (match matches with [] => false | _ => true end)
              then run_write w st write data matches
              else (st, None)
          end
      end
  end.

(** cli.py:211-250 [rewrite_files].  An uncaught exception ends the run. *)
Fixpoint run_loop (w : world) (ru : runner) (display : path -> path) (st : rw_state)
         (pairs : list (path * path)) : rw_state * option exn :=
  match pairs with
  | [] => (st, None)
  | (read, write) :: rest =>
      match run_file w ru display st read write with
      | (st', None) => run_loop w ru display st' rest
      | (st', Some e) => (st', Some e)
      end
  end.
Definition dry_run_note : text :=
  TX "This was a dry run. To write out changes, pass -i or --in-place." ++ [NL].
Definition rewrite_files (w : world) (ru : runner) (display : path -> path) (f : fs)
           (styles : rstate) (pairs : list (path * path)) : rw_state * option exn :=
  match run_loop w ru display (RW f [] false [] [] styles) pairs with
  | (st, None) =>
      (if x_has_changes st && ru_dry_run ru
       then RW (x_fs st) (x_failures st) (x_has_changes st) (x_stdout st ++ [dry_run_note])
               (x_skipped st) (x_styles st)
       else st, None)
  | r => r
  end.
