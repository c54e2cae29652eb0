(** Model of [ExternalCommand] (refex/python/matchers/extern_matchers.py 63-90).
    Definitions only. *)
From Verif Require Import Py Codec Subst Fmt Ast Template FromDiff Matcher Search PatTok Removal.

(** What a command does: from what it reads on its standard input to its exit
    status and what it prints (an oracle; whether the shell runs it or not). *)
Definition command := bytes -> Z * bytes.
(** [subprocess.CalledProcessError] *)
Definition CalledProcessError : exn := OtherError 701.
(** extern_matchers.py:74-83 [ExternalCommand.rewrite]: [subprocess.run] with
    [check=True], [input=text], [encoding='utf-8'].  The input is encoded, newlines
    as they are (POSIX); the output is decoded with universal newlines, and only
    then the exit status is looked at. *)
Definition run_command (cmd : command) (input : text) : res text :=
  match codec_write input with
  | None => Err UnicodeError
  | Some stdin =>
      let '(status, out) := cmd stdin in
      match codec_read out with
      | None => Err UnicodeError
      | Some t => if status =? 0 then Ok t else Err CalledProcessError
      end
  end.
(** extern_matchers.py:63-72: the matcher ([RewriteFile] with that [rewrite]). *)
Definition external_command (prefix : text) (cmd : command) : matcher :=
  MRewriteFile prefix (fun txt _ => do t <- run_command cmd txt; Ok (Some t)).
