(** Specification vocabulary for C05-C08, C11, C12. *)
From Verif Require Import Py Subst.

(** *** C05, C06 *)
Definition has_primary (s : substitution) (a b : Z) : Prop :=
  In (primary_label s, (a, b)) (matched_spans s).
Definition wf_primary (s : substitution) : Prop :=
  dict_ok (matched_spans s) /\ exists a b, has_primary s a b /\ a <= b.

(** [s] is finished before [t] begins. *)
Definition before (s t : substitution) : Prop :=
  forall a b c d, has_primary s a b -> has_primary t c d -> b <= c.

(** [t] begins inside [s] (or at the same place, [s] being non-empty). *)
Definition begins_inside (t s : substitution) : Prop :=
  exists a b c d, has_primary s a b /\ has_primary t c d /\ a <= c < b.
Definition collide (s t : substitution) : Prop := begins_inside s t \/ begins_inside t s.
Definition not_larger (t s : substitution) : Prop :=
  forall a b c d, has_primary s a b -> has_primary t c d -> d - c <= b - a.

(** *** C07 *)
Definition spans_of (s : substitution) (l : label) (a b : Z) : Prop := In (l, (a, b)) (matched_spans s).
Definition is_start (s : substitution) (p : Z) : Prop := exists l b, spans_of s l p b.
Definition is_end (s : substitution) (p : Z) : Prop := exists l a, spans_of s l a p.
Definition well_oriented (s : substitution) : Prop := forall l a b, spans_of s l a b -> a <= b.

(** The pieces tile [lo, hi] from left to right without gap. *)
Fixpoint tiles (lo : Z) (ps : list piece) (hi : Z) : Prop :=
  match ps with
  | [] => lo = hi
  | p :: rest => fst (piece_span p) = lo /\ lo <= snd (piece_span p) /\ tiles (snd (piece_span p)) rest hi
  end.

(** The labels on a piece are exactly those whose span covers it. *)
Definition labels_exact (s : substitution) (p : piece) : Prop :=
  match p with
  | LabeledSpan (a, b) ls =>
      NoDup ls /\ forall l, In l ls <-> exists c d, spans_of s l c d /\ c <= a /\ b <= d
  | DiffSpan _ _ _ => False
  end.
(** No label begins or ends strictly inside a piece. *)
Definition no_boundary_inside (s : substitution) (p : piece) : Prop :=
  forall x, fst (piece_span p) < x < snd (piece_span p) -> ~ is_start s x /\ ~ is_end s x.

Definition is_hull (s : substitution) (lo hi : Z) : Prop :=
  is_start s lo /\ is_end s hi /\ forall l a b, spans_of s l a b -> lo <= a /\ b <= hi.

(** *** C08 *)
(** [l] has span [a, b) and replacement [t]. *)
Definition replaced (s : substitution) (l : label) (a b : Z) (t : text) : Prop :=
  spans_of s l a b /\ exists r, replacements s = Some r /\ In (l, t) r.

Definition piece_before (data : text) (p : piece) : text :=
  slice data (fst (piece_span p)) (snd (piece_span p)).
Definition piece_after (data : text) (p : piece) : text :=
  match p with
  | LabeledSpan (a, b) _ => slice data a b
  | DiffSpan _ _ after => after
  end.

(** Replaced spans do not overlap; an empty one does not even touch another. *)
Definition apart (a b c d : Z) : Prop :=
  (b <= c \/ d <= a) /\ (a = b \/ c = d -> b < c \/ d < a).
Definition replaced_apart (s : substitution) : Prop :=
  forall l m a b c d t u, replaced s l a b t -> replaced s m c d u -> l <> m -> apart a b c d.

(** Wherever a non-empty replaced span ends and some label starts, a non-empty
    replaced span starts too. *)
Definition no_dangling_start (s : substitution) : Prop :=
  forall l a b t, replaced s l a b t -> a < b -> is_start s b ->
    exists m d u, replaced s m b d u /\ b < d.

(** *** C11 *)
Definition in_category (s : substitution) (c : option text) : Prop :=
  match c with
  | None => True                                  (* the root category *)
  | Some name => exists full, category s = Some full
                 /\ (full = name \/ exists rest, full = name ++ [46] ++ rest)   (* 46 = '.' *)
  end.
Definition intersects (x y : span) : Prop := fst y < snd x /\ fst x < snd y.
Definition excluded (s : substitution) (t : range_table) : Prop :=
  exists c rs r a b, in_category s c /\ In (c, rs) t /\ In r rs /\ has_primary s a b
                     /\ intersects (a, b) r.

(** *** C12 *)
Definition good_char (c : char) : Prop := c <> 46 /\ is_space c = false.
Definition good_component (w : text) : Prop := w <> [] /\ Forall good_char w.
Definition good_category (c : text) : Prop :=
  exists w ws, c = join [46] (w :: ws) /\ Forall good_component (w :: ws)
               /\ hd_error w <> Some 45.          (* 45 = '-' *)
Definition good_sub (s : substitution) : Prop :=
  (forall c, category s = Some c -> good_category c)
  /\ In (primary_label s) (dkeys (matched_spans s))
  /\ (forall r, replacements s = Some r -> incl (dkeys r) (dkeys (matched_spans s))).
