(** What a run does to the disk, one operation at a time: the states in which an
    interruption (Ctrl-C, a crash, power loss) can leave the files.
    Definitions only. *)
From Verif Require Import Py Subst Fmt Ast Search Codec Runner.

Inductive event :=
  | Truncate (p : path)                      (* open(p, 'wb') *)
  | Append (p : path) (b : bytes).           (* one write system call *)
Definition do_event (f : fs) (e : event) : fs :=
  match e with
  | Truncate p => fs_set f p []
  | Append p b => fs_set f p (match f p with Some c => c ++ b | None => b end)
  end.
Definition play (f : fs) (es : list event) : fs := fold_left do_event es f.

Section Trace.
  Variables (w : world) (ru : runner) (display : path -> path).
  (** How the buffers split what is written into system calls (io.TextIOWrapper
      and io.BufferedWriter). *)
  Variable chunks : bytes -> list bytes.

  (** cli.py:176-183 [write]: the file is opened first; the new contents are
      computed, encoded and written after that. *)
  Definition write_events (p : path) (contents : text) (matches : list substitution) : list event :=
    if negb (w_writable w p) then []
    else Truncate p ::
      match apply_substitutions contents matches with
      | Err _ => []
      | Ok new =>
          match codec_write new with
          | None => []
          | Some b => map (Append p) (chunks (fst (w_device w p b)))
          end
      end.
  (** cli.py:222-245: one iteration of the loop of [rewrite_files] (reading,
      searching and showing the changes do not change any file). *)
  Definition file_events (st : rw_state) (read write : path) : list event :=
    let '(st, contents) := run_read w st read in
    match contents with
    | None => []
    | Some data =>
        match run_get_matches ru data (display write) with
        | Err _ => []
        | Ok (matches, _) =>
            match run_log ru data matches (display write) (x_styles st) with
            | Err _ => []
            | Ok _ =>
                if negb (ru_dry_run ru) && (match matches with [] => false | _ => true end)
                then write_events write data matches
                else []
            end
        end
    end.
  (** cli.py:211-250 [rewrite_files]: one file after the other, until an uncaught
      exception. *)
  Fixpoint run_events (st : rw_state) (pairs : list (path * path)) : list event :=
    match pairs with
    | [] => []
    | (read, write) :: rest =>
        file_events st read write ++
        match run_file w ru display st read write with
        | (st', None) => run_events st' rest
        | (_, Some _) => []
        end
    end.
End Trace.
