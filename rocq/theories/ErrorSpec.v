(** Specification for C82: what a reader of a syntax error message relies on. *)
From Verif Require Import Py.

(** No character ends a line. *)
Definition one_line (s : text) : Prop := Forall (fun c => is_linebreak c = false) s.
(** [block] shows [code], each line moved to the right by four columns: without
    the first four characters of each of its lines, which are spaces, it is the
    code itself. *)
Definition shows (block code : text) : Prop :=
  Forall (fun l => exists r, l = TX "    " ++ r) (splitlines_keep block)
  /\ concat (map (skipn 4) (splitlines_keep block)) = code.
(** The line [marks] has a caret under the [o]-th (from 1) character of [code], or
    behind its end, where the line above it, [shown], shows the code. *)
Definition points_at (shown marks code : text) (o : Z) : Prop :=
  exists i, nth_error marks i = Some 94 /\ (forall j, (j < i)%nat -> nth_error marks j = Some 32)
    /\ nth_error shown i = nth_error code (Z.to_nat (o - 1))
    /\ shown = TX "    " ++ code /\ length marks = S i.
