(** Specification vocabulary for C58: what a terminal shows. *)
From Verif Require Import Py Subst Fmt FmtSpec.

(** The attributes in force: the codes received since the last reset. *)
Notation style := (list text).
(** What the terminal is waiting for. *)
Inductive mode := Ready | AfterEscape | InSequence (received : text).
(** One character: what is shown, and the new mode and style.  [ESC [ code m]
    adds an attribute; code 0 removes them all. *)
Definition receive (m : mode) (st : style) (c : char) : list (char * style) * mode * style :=
  match m with
  | Ready => if c =? ESC then ([], AfterEscape, st) else ([(c, st)], Ready, st)
  | AfterEscape => ([], if c =? 91 then InSequence [] else Ready, st)
  | InSequence r =>
      if c =? 109 then ([], Ready, if text_eqb r (TX "0") then [] else st ++ [r])
      else ([], InSequence (r ++ [c]), st)
  end.
Fixpoint receive_all (m : mode) (st : style) (s : text) : list (char * style) * mode * style :=
  match s with
  | [] => ([], m, st)
  | c :: rest =>
      let '(o1, m1, st1) := receive m st c in
      let '(o2, m2, st2) := receive_all m1 st1 rest in
      (o1 ++ o2, m2, st2)
  end.
(** What is shown, each character with its style, on a terminal in its normal state. *)
Definition screen (s : text) : list (char * style) := fst (fst (receive_all Ready [] s)).
(** Afterwards the terminal is in its normal state again. *)
Definition leaves_terminal_normal (s : text) : Prop :=
  snd (fst (receive_all Ready [] s)) = Ready /\ snd (receive_all Ready [] s) = [].

(** Text without escape and carriage return characters (refex reads files with
    universal newlines, C37). *)
Definition plain_text (s : text) : Prop := ~ In ESC s /\ ~ In 13 s.
Definition plain_sub (s : substitution) : Prop :=
  forall r, replacements s = Some r -> Forall (fun kv : label * text => plain_text (snd kv)) r.

(** A match format: literal text and the three variables. *)
Inductive segment := Literal (s : text) | Head | Match | Tail.
Definition fill (segs : list segment) (head m tail : text) : text :=
  concat (map (fun x => match x with Literal s => s | Head => head | Match => m | Tail => tail end) segs).
Definition plain_format (segs : list segment) : Prop :=
  Forall (fun x => match x with Literal s => plain_text s | _ => True end) segs.

(** The text that is removed or added by the pieces of a diff. *)
Definition removed_text (data : text) (ps : list piece) : text :=
  flat_map (fun p => match p with DiffSpan (a, b) _ _ => slice data a b | LabeledSpan _ _ => [] end) ps.
Definition added_text (ps : list piece) : text :=
  flat_map (fun p => match p with DiffSpan _ _ after => after | LabeledSpan _ _ => [] end) ps.
Definition without_newlines (s : text) : text := filter (fun c => negb (c =? NL)) s.
(** What is shown in a given style. *)
Definition style_eqb (a b : style) : bool :=
  Nat.eqb (length a) (length b) && forallb (fun p => text_eqb (fst p) (snd p)) (combine a b).
Definition shown_as (st : style) (out : list (char * style)) : text :=
  map fst (filter (fun p => style_eqb (snd p) st) out).
Definition red_bright : style := [TX "31"; TX "1"].
Definition green_bright : style := [TX "32"; TX "1"].
