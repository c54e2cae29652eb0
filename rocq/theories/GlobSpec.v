(** When submatchers bind: which places a Glob chooses. *)
From Verif Require Import Py Ast Template Matcher MatchSpec CollSpec.

(** The pattern between its stars: what comes before the first star, and what
    comes after each star. *)
Fixpoint parts (ms : list matcher) : list matcher * list (list matcher) :=
  match ms with
  | [] => ([], [])
  | m :: rest =>
      let (p, ps) := parts rest in
      if is_star m then ([], p :: ps) else (m :: p, ps)
  end.
(** The matchers match the items one by one, all of them, and bind [b]. *)
Definition fits_items (e : env) (ms : list matcher) (l : list value) (b : dict bound) : Prop :=
  length l = length ms /\ forall s, in_turn (one_by_one e ms l) [] s s b.
(** They match the items from number [a] on. *)
Definition fits_at (e : env) (ms : list matcher) (l : list value) (a : nat) (b : dict bound) : Prop :=
  fits_items e ms (firstn (length ms) (skipn a l)) b.
(** [a] is the first such place from [from] on.  What is bound by other parts of
    the pattern plays no role. *)
Definition first_place (e : env) (ms : list matcher) (l : list value) (from a : nat) (b : dict bound) : Prop :=
  (from <= a <= length l)%nat /\ fits_at e ms l a b
  /\ forall a' b', (from <= a' < a)%nat -> ~ fits_at e ms l a' b'.
(** The parts after the stars: every one but the last is at its first place after
    the part before it, the last one at the very end.  All they bind goes
    together. *)
Inductive stars_placed (e : env) (l : list value) : nat -> dict bound -> list (list matcher) -> dict bound -> Prop :=
  | ST_last from b p pre suf b1 b' :
      l = pre ++ suf -> fits_items e p suf b1 -> merge_bindings b b1 = Ok (Some b') ->
      stars_placed e l from b [p] b'
  | ST_more from b p q ps a b1 b2 b' :
      first_place e p l from a b1 -> merge_bindings b b1 = Ok (Some b2) ->
      stars_placed e l (a + length p) b2 (q :: ps) b' ->
      stars_placed e l from b (p :: q :: ps) b'.
(** The part before the first star is at the start; without a star it is all. *)
Definition glob_placed (e : env) (ms : list matcher) (l : list value) (b : dict bound) : Prop :=
  let (p, ps) := parts ms in
  exists b1, fits_at e p l 0 b1
    /\ match ps with [] => length l = length p /\ b = b1 | _ => stars_placed e l (length p) b1 ps b end.
(** [m] on [x] always does the same, and does not use [Once]. *)
Definition steady_on (e : env) (m : matcher) (x : value) : Prop := exists o, forall s, eval e m x s = (s, o).
