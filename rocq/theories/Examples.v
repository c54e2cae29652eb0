(** Model of the examples of fixers: refex/fix/fixer.py 98-100, 133-178, and
    refex/fix/generate_example.py. *)
From Verif Require Import Py Codec Template.

(** What the examples are made of (fixer.py:98-107): [em_pattern] is the source of
    the matcher and whether it has restrictions, if it is an [ExprPattern] or a
    [StmtPattern]; [em_template] is the source of the replacement, if it is one
    template for the whole match; the other two are the examples that were given. *)
Record example_of := ExampleOf {
  em_pattern : option (text * bool);
  em_template : option text;
  em_fragment : option text;
  em_replacement : option text
}.

(** fixer.py:164-178 [ImmutableDefaultDict(lambda k: k)] in
    [string.Template(...).substitute(...)]: each variable becomes its name. *)
Fixpoint fill_names (ps : list sh_piece) : res text :=
  match ps with
  | [] => Ok []
  | ShLit s :: rest => do t <- fill_names rest; Ok (s ++ t)
  | ShVar v :: rest => do t <- fill_names rest; Ok (v ++ t)
  | ShBad :: _ => Err ValueError
  end.
(** fixer.py:133-143 [example_fragment] *)
Definition example_fragment (e : example_of) : res (option text) :=
  match em_fragment e with
  | Some f => Ok (Some f)
  | None =>
      match em_pattern e with
      | None => Ok None
      | Some (pattern, restrictions) =>
          if restrictions then Ok None else do t <- fill_names (sh_pieces pattern); Ok (Some t)
      end
  end.
(** fixer.py:145-156 [example_replacement] *)
Definition example_replacement (e : example_of) : res (option text) :=
  match em_fragment e with
  | Some _ => Ok (em_replacement e)
  | None =>
      match em_replacement e, em_template e with
      | Some _, _ => Err TypeError
      | None, None => Err TypeError
      | None, Some template => do t <- fill_names (sh_pieces template); Ok (Some t)
      end
  end.
(** Python's [sep.join(lines)], in which None is a TypeError. *)
Fixpoint all_texts (l : list (option text)) : res (list text) :=
  match l with
  | [] => Ok []
  | Some t :: r => do ts <- all_texts r; Ok (t :: ts)
  | None :: _ => Err TypeError
  end.
(** generate_example.py:22-29 [example_source] *)
Definition example_source (fixers : list example_of) : res bytes :=
  do examples <- mapM example_fragment fixers;
  do lines <- all_texts ([Some (TX "# coding: utf-8"); Some (TX "# Only enable refex warnings: pylint: skip-file")] ++ examples ++ [Some []]);
  match utf8_encode (join [NL] lines) with Some b => Ok b | None => Err UnicodeError end.
