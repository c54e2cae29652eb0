(** Model of the command line handling in refex/cli.py.  [argparse] itself is not
    modelled: the model starts from the sequence of its actions, the value of the
    optional positional, and the list of unknown arguments.  Definitions only. *)
From Verif Require Import Py Subst Fmt Ast Template Search Codec Runner.

(** cli.py:263-269 [_SearchReplaceArgument] *)
Record search_replace := SR { sr_match : option text; sr_sub : dict text }.

(** The options that have a custom action. *)
Inductive opt := OMatch (v : text) | OSub (v : text) | ONamed (v : text).

Fixpoint update_last (f : search_replace -> option search_replace) (l : list search_replace)
  : option (list search_replace) :=
  match l with
  | [] => None
  | [x] => match f x with Some y => Some [y] | None => None end
  | x :: rest => match update_last f rest with Some r => Some (x :: r) | None => None end
  end.
Definition last_match (l : list search_replace) : option text :=
  match rev l with x :: _ => sr_match x | [] => None end.

Definition EQUALS : char := 61.

(** cli.py:291-293 and 304-311, 322-341: what the actions do to the last
    search-replace pair; None stands for [parser.error] (exit with usage). *)
Definition set_sub (v : text) (sr : search_replace) : option search_replace :=
  match sr_sub sr with
  | [] => Some (SR (sr_match sr) [(ROOT_LABEL, v)])
  | _ => None
  end.
Definition add_named (v : text) (sr : search_replace) : option search_replace :=
  if dmem (sr_sub sr) ROOT_LABEL then None
  else
    let '(name, sep, pattern) := partition_char EQUALS v in
    if negb sep then None
    else if dmem (sr_sub sr) name then None
    else Some (SR (sr_match sr) (dset (sr_sub sr) name pattern)).

(** cli.py:280-341: one action.  The list is never empty (cli.py:272-277, 846-847). *)
Definition action (o : opt) (l : list search_replace) : option (list search_replace) :=
  match o with
  | OMatch v =>
      match last_match l with
      | Some _ => Some (l ++ [SR (Some v) []])
      | None => update_last (fun sr => Some (SR (Some v) (sr_sub sr))) l
      end
  | OSub v => update_last (set_sub v) l
  | ONamed v => update_last (add_named v) l
  end.
Fixpoint actions (os : list opt) (l : list search_replace) : option (list search_replace) :=
  match os with
  | [] => Some l
  | o :: rest => match action o l with Some l' => actions rest l' | None => None end
  end.
(** cli.py:846-847: the default. *)
Definition no_search_replace : list search_replace := [SR None []].

(** cli.py:694-717: the two loops of [_parse_args_leftovers]; leftovers and
    unrecognized flags. *)
Definition DASH : char := 45.
Fixpoint split_leftovers (unknown : list text) : list text * list text :=
  match unknown with
  | [] => ([], [])
  | arg :: rest =>
      if text_eqb arg (TX "--") then (rest, [])
      else
        let '(kept, flags) := split_leftovers rest in
        if startswith [DASH] arg then (kept, arg :: flags) else (arg :: kept, flags)
  end.
Definition parse_leftovers (unknown : list text) : option (list text) :=
  match split_leftovers unknown with (kept, []) => Some kept | _ => None end.

(** cli.py:717-742 [_parse_options] (search-replace pairs and files only). *)
Definition parse_options (os : list opt) (pattern_or_file : option text) (unknown : list text)
  : option (list search_replace * list text) :=
  match actions os no_search_replace with
  | None => None
  | Some srs =>
      match parse_leftovers unknown with
      | None => None
      | Some args =>
          match pattern_or_file with
          | None => Some (srs, args)
          | Some p =>
              match srs with
              | [SR None d] => Some ([SR (Some p) d], args)
              | _ => Some (srs, p :: args)
              end
          end
      end
  end.

(** The other options used by [runner_from_options]. *)
Record cli_options := CliOptions {
  co_also : list regex_test;
  co_noalso : list regex_test;
  co_force_enable : bool;
  co_iterate : option Z;
  co_fix_mode : bool;                (* options.mode in _NONZERO_ITERATION_MODES *)
  co_in_place : bool;
  co_list_files : bool;
  co_print_filename : bool;
  co_color : bool;
  co_format : text -> text -> text -> text
}.
(** cli.py:64 *)
Definition DEFAULT_ITERATION_COUNT : Z := 10.

(** cli.py:869-883: the searcher, from those of the search-replace pairs. *)
Definition build_searcher (o : cli_options) (searchers : list searcher) : option searcher :=
  match searchers with
  | [] => None                                          (* AssertionError *)
  | s :: rest =>
      let s1 := match rest with [] => s | _ => combined searchers end in
      let s2 := match co_also o, co_noalso o with
                | [], [] => s1
                | also, noalso => also_regexp also noalso s1
                end in
      Some (if co_force_enable o then s2 else pragma_suppressed s2)
  end.
(** cli.py:885-890 *)
Definition iteration_count (o : cli_options) : Z :=
  match co_iterate o with
  | Some n => n
  | None => if co_fix_mode o then DEFAULT_ITERATION_COUNT else 0
  end.
(** cli.py:855-900 [runner_from_options].  [parse_ast] as in Search.v. *)
Definition runner_from_options (parse_ast : text -> text -> res parsed_file)
           (o : cli_options) (searchers : list searcher) : option runner :=
  match build_searcher o searchers with
  | None => None
  | Some s =>
      Some (Runner (fun contents path => find_iter parse_ast s contents path (iteration_count o))
              (co_color o) (co_format o) (negb (co_in_place o))
              (negb (co_list_files o)) (co_list_files o || co_print_filename o))
  end.
