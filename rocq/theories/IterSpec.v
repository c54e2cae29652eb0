(** Specification for C80: rewriting in several rounds. *)
From Verif Require Import Py Subst ApplySpec.

Section Rounds.
  (** [ok t e]: the edit [e] of the text [t] is justified. *)
  Variable ok : text -> edit -> Prop.
  (** [t'] comes from [t] by justified edits only: made in one round, side by side;
      or in one round after the other; or in a part of the text, read on its own. *)
  Inductive improves : text -> text -> Prop :=
    | Imp_nothing t : improves t t
    | Imp_round t edits t' : Edited t 0 edits t' -> Forall (ok t) edits -> improves t t'
    | Imp_part a m m' b : improves m m' -> improves (a ++ m ++ b) (a ++ m' ++ b)
    | Imp_then t t' t'' : improves t t' -> improves t' t'' -> improves t t''.
End Rounds.
