(** Fixers: refex/fix/fixer.py and refex/fix/find_fixer.py. *)
From Verif Require Import Py Subst Ast Template Matcher Search Removal.

(** fixer.py:77-117 [SimplePythonFixer].  The replacement is one template or one
    per label.  (The examples are in Examples.v; not modelled: [matcher_with_meta] adds
    the metadata to the mapping that was passed in, which would be visible if one
    mapping object were passed to several fixers.) *)
Record fixer := Fixer {
  fx_matcher : matcher;
  fx_replacement : template + dict template;
  fx_message : option text;
  fx_url : option text;
  fx_category : option text;
  fx_significant : bool
}.
Definition set_literal (d : dict template) (l : label) (o : option text) : dict template :=
  match o with Some s => dset d l (literal_template s) | None => d end.
(** fixer.py:112-127: the templates of [matcher_with_meta]. *)
Definition fixer_templates (f : fixer) : dict template :=
  let d0 := match fx_replacement f with inl t => [(ROOT_LABEL, t)] | inr d => d end in
  let d1 := set_literal d0 MESSAGE_LABEL (fx_message f) in
  let d2 := set_literal d1 URL_LABEL (fx_url f) in
  let d3 := set_literal d2 CATEGORY_LABEL (fx_category f) in
  set_literal d3 SIGNIFICANT_LABEL (if fx_significant f then Some (TX "HACK_TRUE") else None).
(** fixer.py:110-131 [matcher_with_meta] *)
Definition matcher_with_meta (f : fixer) : res matcher :=
  with_replacements (MBind ROOT_LABEL (fx_matcher f) None None) (fixer_templates f).

(** fixer.py:57: [.*[.]py$], used with [search]: a [$] also matches before a
    final newline. *)
Definition py_path (path : text) : bool :=
  endswith (TX ".py") path || endswith (TX ".py" ++ [NL]) path.

Section Combining.
  Variable parse_ast : text -> text -> res parsed_file.
  Variable context : parsed_file -> pyinfo -> env.
  Variable pass_template : template.
  (** fixer.py:48-74 [CombiningPythonFixer].  (The defaults are computed before
      the validators run.) *)
  Definition combining_fixer (fs : list fixer) : res searcher :=
    do ms <- mapM matcher_with_meta fs;
    if forallb (fun m => match type_filter m with Some _ => true | None => false end) ms
    then Ok (file_regex_filtered py_path (python_searcher parse_ast context pass_template (MAnyOf ms)))
    else Err ValueError.

  (** find_fixer.py:26-29: [_default_fixers], which is the entry of ['*'], and the
      other entries of [_extra_fixers]. *)
  Record registry := Registry { rg_default : list fixer; rg_extra : dict (list fixer) }.
  Definition star : label := TX "*".
  (** 31-33 [register_default_fixers] *)
  Definition register_default_fixers (r : registry) (fs : list fixer) : registry :=
    Registry (rg_default r ++ fs) (rg_extra r).
  (** 35-39 [register_fixers] *)
  Definition register_fixers (r : registry) (name : label) (fs : list fixer) : res registry :=
    if text_eqb name star || dmem (rg_extra r) name then Err ValueError
    else Ok (Registry (rg_default r) (dset (rg_extra r) name fs)).
  (** 42-49 [_register_builtins]; the loop starts with the list of ['*'] itself. *)
  Definition register_builtins (r : registry) (correctness idiom unittest : list fixer) : res registry :=
    do r1 <- register_fixers r (TX "correctness") correctness;
    do r2 <- register_fixers r1 (TX "idiom") idiom;
    do r3 <- register_fixers r2 (TX "unittest") unittest;
    let r4 := register_default_fixers r3 (rg_default r3) in
    Ok (fold_left register_default_fixers (map snd (rg_extra r4)) r4).
  (** 54-76 [from_pattern] *)
  Definition fixers_from_pattern (r : registry) (pat : label) : res searcher :=
    match (if text_eqb pat star then Some (rg_default r) else dget (rg_extra r) pat) with
    | Some fs => combining_fixer fs
    | None => Err ValueError
    end.
End Combining.
