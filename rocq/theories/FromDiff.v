(** Model of [MatchInfo.from_diff] (refex/python/matcher.py:773-830) and of what a
    searcher makes of its result.  Definitions only. *)
From Verif Require Import Py Subst Ast Template Search.
From Coq Require Import DecimalString.

(** [str(i)] for a non-negative int. *)
Definition dec (i : nat) : text := s2t (NilEmpty.string_of_uint (Nat.to_uint i)).

Definition pre_same : text := TX "  ".
Definition pre_add : text := TX "+ ".
Definition pre_del : text := TX "- ".
Definition pre_hint : text := TX "? ".

(** A group of changed lines: (start, end, added_strings). *)
Definition hunk := (Z * Z * list text)%type.

(** matcher.py:803-821: the loop over the lines of the diff.  [Err] for the
    AssertionError on an unknown prefix. *)
Fixpoint diff_loop (lines : list text) (start_offset end_offset : Z)
         (replacement : list text) (replacements : list hunk) : res (list hunk * list text) :=
  match lines with
  | [] => Ok (replacements, replacement)
  | raw :: rest =>
      let prefix := slice_to raw 2 in
      let line := slice_from raw 2 in
      if text_eqb prefix pre_same then
        let e := end_offset + tlen line in
        if (match replacement with [] => false | _ => true end) || negb (start_offset =? end_offset)
        then diff_loop rest e e [] (replacements ++ [(start_offset, end_offset, replacement)])
        else diff_loop rest e e replacement replacements
      else if text_eqb prefix pre_add then
        diff_loop rest start_offset end_offset (replacement ++ [line]) replacements
      else if text_eqb prefix pre_del then
        diff_loop rest start_offset (end_offset + tlen line) replacement replacements
      else if text_eqb prefix pre_hint then
        diff_loop rest start_offset end_offset replacement replacements
      else Err AssertionError
  end.

(** matcher.py:825-830: [f'{metavariable_prefix}.{i}'] and the two dictionaries. *)
Definition hunk_label (prefix : text) (i : nat) : label := prefix ++ TX "." ++ dec i.
Fixpoint hunk_dicts (prefix before : text) (i : nat) (hs : list hunk)
  : dict pymatch * dict template :=
  match hs with
  | [] => ([], [])
  | (s, e, added) :: rest =>
      let '(bs, rs) := hunk_dicts prefix before (S i) rest in
      ((hunk_label prefix i, span_match before (s, e)) :: bs,
       (hunk_label prefix i, literal_template (concat added)) :: rs)
  end.

(** matcher.py:773-831 [from_diff]: bindings and replacements.  [differ] is
    [difflib.Differ().compare], whose contract is in FromDiffSpec.v. *)
Definition from_diff (differ : list text -> list text -> list text)
           (prefix before after : text) : res (dict pymatch * dict template) :=
  let diffs := differ (splitlines_keep before) (splitlines_keep after) ++ [TX "  "] in
  do r <- diff_loop diffs 0 0 [] [];
  let '(hs, replacement) := r in
  match replacement with
  | [] => Ok (hunk_dicts prefix before 0 hs)
  | _ => Err AssertionError
  end.
