(** What a run over files should do (C36). *)
From Verif Require Import Py Subst Fmt Ast Search Codec Runner ApplySpec SubstSpec.

Section Spec.
  Variables (w : world) (ru : runner) (display : path -> path) (f : fs).

  (** The text of an input file, if it can be read and is valid UTF-8. *)
  Definition file_text (p : path) (t : text) : Prop :=
    exists b, f p = Some b /\ w_readable w p = true /\ codec_read b = Some t.

  (** The search of the pair (r, p) finds something in the text of [r]. *)
  Definition finds (r p : path) (t : text) (ms : list substitution) : Prop :=
    file_text r t /\ ru_find ru t (display p) = Ok ms /\ ms <> [].

  (** The search raised something else than the exceptions that skip a file. *)
  Definition search_crashes (r p : path) (t : text) : Prop :=
    file_text r t /\ exists e, ru_find ru t (display p) = Err e
                               /\ e <> SkipFileError /\ e <> SkipFileNoResultsError.

  (** The rewritten contents. *)
  Definition new_contents (r p : path) (b : bytes) : Prop :=
    exists t ms out, finds r p t ms /\ apply_substitutions t ms = Ok out /\ codec_write out = Some b.

  (** No file is read after it has been written, none is written twice. *)
  Fixpoint no_clash (pairs : list (path * path)) : Prop :=
    match pairs with
    | [] => True
    | (_, p) :: rest => (forall r' p', In (r', p') rest -> r' <> p /\ p' <> p) /\ no_clash rest
    end.
  (** Everything that is found can be shown, applied and encoded. *)
  Definition presentable (t : text) (ms : list substitution) : Prop :=
    Forall (fun s => dict_ok (matched_spans s) /\ matched_spans s <> [] /\ well_oriented s) ms
    /\ (ru_dry_run ru = false ->
        exists out b, apply_substitutions t ms = Ok out /\ codec_write out = Some b).

  (** The "skipped" notes for the pair (r, p), when files can be written. *)
  Definition skip_notes (rp : path * path) : list (path * exn) :=
    let (r, p) := rp in
    match f r with
    | None => []
    | Some b =>
        if negb (w_readable w r) then [(r, IOError)]
        else match codec_read b with
             | None => [(r, UnicodeError)]
             | Some t =>
                 match ru_find ru t (display p) with
                 | Ok _ | Err SkipFileNoResultsError => []
                 | Err SkipFileError => [(display p, SkipFileError)]
                 | Err e => [(r, e)]
                 end
             end
    end.
  (** The name of the output of the pair (r, p), if something is found. *)
  Definition match_name (rp : path * path) : list text :=
    let (r, p) := rp in
    match f r with
    | None => []
    | Some b =>
        if negb (w_readable w r) then []
        else match codec_read b with
             | None => []
             | Some t => match ru_find ru t (display p) with
                         | Ok (_ :: _) => [display p ++ [NL]]
                         | _ => []
                         end
             end
    end.
End Spec.

(** UTF-8 of a string, [] if it has none. *)
Definition enc (t : text) : bytes := match utf8_encode t with Some b => b | None => [] end.
(** The byte offset of a code point offset, and an edit in terms of bytes. *)
Definition byte_offset (t : text) (i : Z) : Z := tlen (enc (slice_to t i)).
Definition byte_edit (t : text) (e : edit) : edit :=
  let '(r, a, b) := e in (enc r, byte_offset t a, byte_offset t b).
