(** Specification vocabulary for applying substitutions (C01-C04, C46).
    Independent of Fmt.v: only the data types of Py.v and Subst.v are used. *)
From Verif Require Import Py Subst.

(** A substitution asks that the span [a, b) hold the text [t]. *)
Notation edit := (text * Z * Z)%type.        (* (t, a, b) *)

(** The edits a substitution asks for: one per label that has a replacement. *)
Definition wants (s : substitution) (l : label) (e : edit) : Prop :=
  exists r a b t, replacements s = Some r /\ In (l, (a, b)) (matched_spans s)
                  /\ In (l, t) r /\ e = (t, a, b).

(** Computed form, in the order of the span dictionary. *)
Definition edits_of (s : substitution) : list edit :=
  flat_map (fun kv : label * span =>
     let '(l, (a, b)) := kv in
     match replacements s with
     | Some r => match dget r l with Some t => [(t, a, b)] | None => [] end
     | None => []
     end) (matched_spans s).

(** [Edited s p es out]: [out] is [s] from offset [p] on, with the edits [es]
    performed from left to right and everything between them kept. *)
Inductive Edited (s : text) : Z -> list edit -> text -> Prop :=
  | Ed_nil p : 0 <= p -> Edited s p [] (slice_from s p)
  | Ed_cons p t a b es out :
      0 <= p -> p <= a -> a <= b ->
      Edited s b es out ->
      Edited s p ((t, a, b) :: es) (slice s p a ++ t ++ out).

(** The edits, in this order, are well-formed and do not overlap. *)
Fixpoint in_order (p : Z) (es : list edit) : Prop :=
  match es with
  | [] => True
  | (_, a, b) :: rest => p <= a /\ a <= b /\ in_order b rest
  end.

(** [l'] is [l] sorted by the order [le], elements with equal keys staying in
    their original order: for every key class the sublist is unchanged. *)
Definition StableSorted {A} (le : A -> A -> bool) (l l' : list A) : Prop :=
  Permutation l l'
  /\ StronglySorted (fun x y => le x y = true) l'
  /\ forall x, filter (fun y => le x y && le y x) l' = filter (fun y => le x y && le y x) l.

Definition edit_span_leb (x y : edit) : bool :=
  let '(_, a, b) := x in let '(_, c, d) := y in span_leb (a, b) (c, d).

(** What one substitution contributes to the global order: its edits in
    (start, end) order; a substitution without edits counts as an empty edit at
    offset 0. *)
Definition is_group (s : substitution) (g : list edit) : Prop :=
  exists es, StableSorted edit_span_leb (edits_of s) es
             /\ g = match es with [] => [([], 0, 0)] | _ => es end.

Definition group_start (g : list edit) : Z := match g with (_, a, _) :: _ => a | [] => 0 end.
Definition group_leb (x y : list edit) : bool := group_start x <=? group_start y.

(** [order] is the order in which all edits are performed. *)
Definition is_edit_order (subs : list substitution) (order : list edit) : Prop :=
  exists gs gs', Forall2 is_group subs gs /\ StableSorted group_leb gs gs' /\ order = concat gs'.

(** Spans are offsets from the start of the text. *)
Definition nonneg_spans (s : substitution) : Prop :=
  Forall (fun kv : label * span => 0 <= fst (snd kv)) (matched_spans s).
Definition wf_sub (s : substitution) : Prop :=
  dict_ok (matched_spans s)
  /\ (forall r, replacements s = Some r -> dict_ok r)
  /\ validate s = Ok tt.

(** Two edits do not touch a common character. *)
Definition no_common_char (x y : edit) : Prop :=
  let '(_, a, b) := x in let '(_, c, d) := y in
  forall i, ~ (a <= i < b /\ c <= i < d).
Definition edit_ends_before (x y : edit) : Prop :=
  let '(_, _, b) := x in let '(_, c, _) := y in b <= c.
Definition edit_starts_before (x y : edit) : Prop :=
  let '(_, a, _) := x in let '(_, c, _) := y in a < c.
Definition edit_wf (x : edit) : Prop := let '(_, a, b) := x in a <= b.
Definition edit_start (x : edit) : Z := let '(_, a, _) := x in a.
Definition edit_end (x : edit) : Z := let '(_, _, b) := x in b.

(** All edits of [s] lie to the left of all edits of [t]. *)
Definition left_of (s t : substitution) : Prop :=
  forall x y, In x (edits_of s) -> In y (edits_of t) ->
    edit_ends_before x y /\ edit_starts_before x y.

(** Everything [s] matches lies inside [a, b]. *)
Definition inside (a b : Z) (s : substitution) : Prop :=
  forall l sp, In (l, sp) (matched_spans s) -> a <= fst sp /\ snd sp <= b.

(** [r] is [s] with all offsets counted from [a]. *)
Definition is_shifted (a : Z) (s r : substitution) : Prop :=
  matched_spans r = map (fun kv : label * span => let '(l, (x, y)) := kv in (l, (x - a, y - a)))
                        (matched_spans s)
  /\ primary_label r = primary_label s /\ replacements r = replacements s
  /\ message r = message s /\ url r = url s /\ significant r = significant s
  /\ category r = category s /\ key_span r = key_span s.

(** [s] starts replacing at offset 0 and its replaced region is not just the
    empty span at offset 0. *)
Definition reaches_from_zero (s : substitution) : Prop :=
  (exists e, In e (edits_of s) /\ edit_start e = 0) /\ (exists e, In e (edits_of s) /\ edit_end e <> 0).

