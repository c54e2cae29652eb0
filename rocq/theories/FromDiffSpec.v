(** The contract of [difflib.Differ().compare(a, b)]: each line of the diff is a
    line of [a] only, of [b] only, of both, or of neither ("? " hints), after a
    two-letter code; leaving out the lines of one side gives the other. *)
From Verif Require Import Py FromDiff.

Inductive dline := Both (l : text) | Old (l : text) | New (l : text) | Hint (l : text).
Definition shown (d : dline) : text :=
  match d with
  | Both l => TX "  " ++ l | Old l => TX "- " ++ l | New l => TX "+ " ++ l | Hint l => TX "? " ++ l
  end.
Definition old_lines (ds : list dline) : list text :=
  flat_map (fun d => match d with Both l | Old l => [l] | _ => [] end) ds.
Definition new_lines (ds : list dline) : list text :=
  flat_map (fun d => match d with Both l | New l => [l] | _ => [] end) ds.
Definition is_differ (differ : list text -> list text -> list text) : Prop :=
  forall a b, exists ds, differ a b = map shown ds /\ old_lines ds = a /\ new_lines ds = b.
