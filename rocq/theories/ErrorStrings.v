(** Model of refex/python/error_strings.py: messages about syntax errors in
    patterns and templates. *)
From Verif Require Import Py.

(** The attributes of a [SyntaxError] that are used.  [se_msg] is [None] or a text
    ([''] is as good as None), [se_offset] is 1-based. *)
Record syntax_error := SyntaxErr { se_msg : option text; se_text : option text; se_offset : option Z }.

(** error_strings.py:18-19 [_indent]. *)
Definition indent (s : text) : text := concat (map (fun line => TX "    " ++ line) (splitlines_keep s)).
(** Python's [s.rstrip('\r\n')]. *)
Fixpoint rstrip_newlines (s : text) : text :=
  match s with
  | [] => []
  | c :: r => match rstrip_newlines r with
              | [] => if (c =? 13) || (c =? 10) then [] else [c]
              | r' => c :: r'
              end
  end.
(** Python's [' ' * n], empty unless n > 0. *)
Definition spaces (n : Z) : text := repeat 32 (Z.to_nat n).
(** error_strings.py:36-37: [e.msg or '<unknown reason>']. *)
Definition reason (e : syntax_error) : text :=
  match se_msg e with Some ((_ :: _) as m) => m | _ => TX "<unknown reason>" end.
(** error_strings.py:22-66 [user_syntax_error].  [None - 1] is a TypeError. *)
Definition user_syntax_error (e : syntax_error) (source : text) : res text :=
  let summary := TX "Failed to parse Python-like source code (" ++ reason e ++ TX ")." in
  match se_text e with
  | None => Ok (join [NL] [summary; indent source])
  | Some t =>
      match se_offset e with
      | None => Err TypeError
      | Some offset =>
          let error_information := join [NL] [rstrip_newlines t; spaces (offset - 1) ++ TX "^"] in
          if existsb (fun c => c =? NL) source then
            Ok (join [NL] [summary; []; TX "Source:"; indent source; []; TX "Location:"; indent error_information])
          else Ok (join [NL] [summary; indent error_information])
      end
  end.
