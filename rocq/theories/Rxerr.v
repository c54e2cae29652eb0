(** Model of refex/rxerr_debug.py, which prints the report of a run in which
    searches have crashed (cli.py:422-456 [report_failures] writes it). *)
From Verif Require Import Py Codec.

(** *** Python's [shlex.quote] *)
(** The complement of [[^\w@%+=:,./-]] with the flag ASCII. *)
Definition shlex_safe (c : char) : bool :=
  ((48 <=? c) && (c <=? 57)) || ((65 <=? c) && (c <=? 90)) || ((97 <=? c) && (c <=? 122)) || (c =? 95)
  || existsb (fun d => c =? d) (TX "@%+=:,./-").
Definition SQ : char := 39.
Definition shlex_quote (s : text) : text :=
  match s with
  | [] => [SQ; SQ]
  | _ => if forallb shlex_safe s then s
         else [SQ] ++ concat (map (fun c => if c =? SQ then [SQ; 34; SQ; 34; SQ] else [c]) s) ++ [SQ]
  end.

(** What the report says about a file, and the report (cli.py:232-235, 443;
    json.dump followed by json.load is taken to be the identity on it). *)
Record failure := Failure { fl_content : option text; fl_traceback : option text }.
Record report := Report { rp_argv : option (list text); rp_failures : option (list (text * failure)) }.

Section Debug.
  (** pygments.highlight with the lexer for tracebacks *)
  Variable highlight : text -> text.
  (** the names of the temporary files *)
  Variable temp_name : nat -> text.

  (** rxerr_debug.py:38-63: the loop.  [k] temporary files have been made.
      ([is_first] is never true, so each file is preceded by blank lines.)
      Writing is modelled as encoding all of the text at the end. *)
  Fixpoint debug_failures (k : nat) (l : list (text * failure)) : res (text * list (text * bytes)) :=
    match l with
    | [] => Ok ([], [])
    | (f, fl) :: rest =>
        do (shown, files) <-
          match fl_content fl with
          | None => Ok ([], [])
          | Some source =>
              match codec_write source with
              | None => Err UnicodeError
              | Some b => Ok (TX "Content: " ++ temp_name k ++ [NL], [(temp_name k, b)])
              end
          end;
        let trace := match fl_traceback fl with None => [] | Some tb => highlight tb ++ [NL] end in
        do (out, more) <- debug_failures (k + length files) rest;
        Ok ([NL; NL] ++ TX "File: " ++ f ++ [NL] ++ shown ++ trace ++ out, files ++ more)
    end.
  (** rxerr_debug.py:27-63 [main], after the file has been loaded. *)
  Definition debug (r : report) : res (text * list (text * bytes)) :=
    let command := match rp_argv r with
                   | Some ((_ :: _) as argv) => TX "Command: " ++ join (TX " ") (map shlex_quote argv) ++ TX " " ++ [NL; NL]
                   | _ => []
                   end in
    do (out, files) <- debug_failures 0 (match rp_failures r with Some l => l | None => [] end);
    Ok (command ++ out, files).
End Debug.

(** cli.py:232-235, 443: the report of a run with the given failures (the name of
    the file and what was read from it) *)
Definition report_of (argv : list text) (traceback : text -> text) (failures : dict text) : report :=
  Report (Some argv) (Some (map (fun fc => (fst fc, Failure (Some (snd fc)) (Some (traceback (fst fc))))) failures)).
