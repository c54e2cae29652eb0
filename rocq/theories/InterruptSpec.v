(** What an interruption may leave behind. *)
From Verif Require Import Py Subst Fmt Ast Search Codec Runner RunnerSpec.

Section Spec.
  Variables (w : world) (ru : runner) (display : path -> path) (f g : fs).
  (** The pair has been dealt with: the new contents, or nothing was found. *)
  Definition finished (r p : path) : Prop :=
    (exists b, new_contents w ru display f r p b /\ g p = Some b)
    \/ ((forall t ms, ~ finds w ru display f r p t ms) /\ g p = f p).
  (** The pair that is being dealt with: as before, or the beginning of the new
      contents, or empty if there are no new contents because computing or
      encoding them fails. *)
  Definition halfway (r p : path) : Prop :=
    g p = f p
    \/ (exists c rest, new_contents w ru display f r p (c ++ rest) /\ g p = Some c)
    \/ ((exists t ms, finds w ru display f r p t ms) /\ (forall b, ~ new_contents w ru display f r p b)
        /\ g p = Some []).
  (** The first pairs are finished, at most one is halfway, the others are untouched. *)
  Definition interrupted (pairs : list (path * path)) : Prop :=
    exists before current later, pairs = before ++ current ++ later /\ (length current <= 1)%nat
      /\ (forall r p, In (r, p) before -> finished r p)
      /\ (forall r p, In (r, p) current -> halfway r p)
      /\ (forall r p, In (r, p) later -> g p = f p)
      /\ (forall q, ~ In q (map snd pairs) -> g q = f q).
End Spec.
