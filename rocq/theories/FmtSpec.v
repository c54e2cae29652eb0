(** Specification vocabulary for C09, C10, C43, C44. *)
From Verif Require Import Py Subst Fmt SubstSpec.

(** [s[p]], for an offset from the start. *)
Definition char_at (s : text) (p : Z) : option char :=
  if p <? 0 then None else nth_error s (Z.to_nat p).

(** *** C09 *)
Definition at_line_start (s : text) (p : Z) : Prop := p = 0 \/ char_at s (p - 1) = Some NL.
Definition at_line_end (s : text) (p : Z) : Prop := p = tlen s \/ char_at s p = Some NL.

(** *** C10 *)
Definition is_diff_piece (p : piece) : bool :=
  match p with DiffSpan _ _ _ => true | LabeledSpan _ _ => false end.
Definition read_before (data : text) (ps : list piece) : text := concat (map (piece_before data) ps).
Definition read_after (data : text) (ps : list piece) : text := concat (map (piece_after data) ps).
(** All unchanged pieces are slices of the text. *)
Definition in_text (data : text) (p : piece) : Prop :=
  match p with
  | LabeledSpan (a, b) _ => 0 <= a /\ a <= b /\ b <= tlen data
  | DiffSpan _ _ _ => True
  end.
(** [q] is an unchanged part of [p] with the same labels, or is [p]. *)
Definition part_of (q p : piece) : Prop :=
  match q, p with
  | LabeledSpan (a, b) ls, LabeledSpan (c, d) ls' => ls = ls' /\ c <= a /\ a <= b /\ b <= d
  | DiffSpan _ _ _, DiffSpan _ _ _ => q = p
  | _, _ => False
  end.
Definition ends_with_newline (t : text) : Prop := exists u, t = u ++ [NL].
Definition no_newline (t : text) : Prop := ~ In NL t.

(** *** C44 *)
(** A line: some text without line break, then one line break ([\r\n] is one). *)
Definition no_linebreak (t : text) : Prop := Forall (fun c => is_linebreak c = false) t.
Definition is_line (t : text) : Prop :=
  exists u br, t = u ++ br /\ no_linebreak u
    /\ ((exists c, br = [c] /\ is_linebreak c = true) \/ br = [13; 10]).
Inductive tag := Kept | Removed | Added.
Definition tag_char (t : tag) : char := match t with Kept => 32 | Removed => 45 | Added => 43 end.
Definition diff_line := (tag * text)%type.
Definition print_lines (ls : list diff_line) : text :=
  concat (map (fun l => tag_char (fst l) :: snd l) ls).
Definition not_added (l : diff_line) : bool := match fst l with Added => false | _ => true end.
Definition not_removed (l : diff_line) : bool := match fst l with Removed => false | _ => true end.
Definition old_text (ls : list diff_line) : text := concat (map snd (filter not_added ls)).
Definition new_text (ls : list diff_line) : text := concat (map snd (filter not_removed ls)).
(** A final newline is supplied if it is missing. *)
Definition with_final_newline (t out : text) : Prop :=
  (t = [] /\ out = []) \/ (ends_with_newline t /\ out = t)
  \/ (t <> [] /\ ~ ends_with_newline t /\ out = t ++ [NL]).

(** *** C43 *)
Definition same_labels (a b : list label) : Prop := forall l, In l a <-> In l b.
(** The documented exception: only the primary label, but the match has others. *)
Definition primary_only (s : substitution) (ls : list label) : Prop :=
  (1 < length (matched_spans s))%nat /\ same_labels ls [primary_label s].
(** [later st st']: [st'] is the renderer's state after some more calls. *)
Inductive later : rstate -> rstate -> Prop :=
  | later_refl st : later st st
  | later_style st s ls st' : later (fst (style_for st s ls)) st' -> later st st'
  | later_render st color fmt contents s st' out st'' :
      render color fmt contents s st = Ok (st', out) -> later st' st'' -> later st st''.
