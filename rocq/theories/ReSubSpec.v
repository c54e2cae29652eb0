(** What [re.sub] does (library reference, "re.sub" and "Match.expand"), given the
    matches that [finditer] reports. *)
From Verif Require Import Py Subst Ast Template Search SearchSpec.

(** What a group matched; the empty string if it did not take part. *)
Definition captured (txt : text) (sp : span) : text :=
  if span_eqb sp (-1, -1) then [] else slice txt (fst sp) (snd sp).

(** The template filled in for one match. *)
Inductive expands (r : regex) (txt : text) (regs : list span) : list re_piece -> text -> Prop :=
  | Expands_end : expands r txt regs [] []
  | Expands_literal s ps t : expands r txt regs ps t -> expands r txt regs (ReLit s :: ps) (s ++ t)
  | Expands_group l sp ps t : group_span r regs l sp -> expands r txt regs ps t ->
      expands r txt regs (ReGroup l :: ps) (captured txt sp ++ t).

(** From offset [p] on: what lies before a match is kept, the match is replaced
    by the filled-in template. *)
Inductive re_sub (r : regex) (ps : list re_piece) (txt : text) : Z -> list (list span) -> text -> Prop :=
  | Re_sub_end p : re_sub r ps txt p [] (slice_from txt p)
  | Re_sub_match p a b groups t rest out :
      expands r txt ((a, b) :: groups) ps t -> re_sub r ps txt b rest out ->
      re_sub r ps txt p (((a, b) :: groups) :: rest) (slice txt p a ++ t ++ out).

(** What [finditer] guarantees: one span per group, groups are within the text or
    did not take part, matches are found from left to right and do not overlap. *)
Definition group_in (sp : span) : Prop := sp = (-1, -1) \/ 0 <= fst sp <= snd sp.
Fixpoint left_to_right (p : Z) (ms : list (list span)) : Prop :=
  match ms with
  | [] => True
  | regs :: rest => exists a b groups, regs = (a, b) :: groups /\ p <= a /\ a <= b
      /\ Forall group_in groups /\ left_to_right b rest
  end.
Definition finditer_ok (r : regex) (txt : text) : Prop :=
  Forall (valid_regs r) (r_finditer r txt) /\ left_to_right 0 (r_finditer r txt).
