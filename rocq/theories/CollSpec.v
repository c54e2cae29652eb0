(** What matchers of several parts, and of sequences, should do. *)
From Verif Require Import Py Ast Template Matcher MatchSpec.

(** All match, one after the other; the bindings are merged from left to right
    into [b]. *)
Inductive in_turn : list outcome -> dict bound -> list Z -> list Z -> dict bound -> Prop :=
  | IT_nil b s : in_turn [] b s s b
  | IT_cons a acts b s s1 rm rb t b1 s' b' :
      a s = (s1, Ok (Some (RInfo rm (Some rb) t))) ->
      merge_bindings b rb = Ok (Some b1) ->
      in_turn acts b1 s1 s' b' -> in_turn (a :: acts) b s s' b'.
(** ... and so are the replacements. *)
Inductive in_turn_reps : list outcome -> dict bound -> dict template -> list Z ->
                         list Z -> dict bound -> dict template -> Prop :=
  | IR_nil b t s : in_turn_reps [] b t s s b t
  | IR_cons a acts b t s s1 rm rb rt b1 t1 s' b' t' :
      a s = (s1, Ok (Some (RInfo rm (Some rb) rt))) ->
      merge_bindings b rb = Ok (Some b1) -> merge_replacements t rt = Ok t1 ->
      in_turn_reps acts b1 t1 s1 s' b' t' -> in_turn_reps (a :: acts) b t s s' b' t'.

(** The i-th matcher on the i-th item. *)
Definition one_by_one (e : env) (ms : list matcher) (l : list value) : list outcome :=
  map (fun mx => eval e (fst mx) (snd mx)) (combine ms l).

(** The item that [l[i]] gives: counted from the end if [i] is negative. *)
Definition item_at (l : list value) (i : Z) (x : value) : Prop :=
  (0 <= i /\ nth_error l (Z.to_nat i) = Some x)
  \/ (i < 0 /\ 0 <= i + tlen l /\ nth_error l (Z.to_nat (i + tlen l)) = Some x).

(** *** Globs *)

(** A pattern of stars (None) and of things that fit one item; what a shell glob
    means. *)
Inductive split {A} (fits : A -> value -> Prop) : list (option A) -> list value -> Prop :=
  | SP_nil : split fits [] []
  | SP_one a p x l : fits a x -> split fits p l -> split fits (Some a :: p) (x :: l)
  | SP_stop p l : split fits p l -> split fits (None :: p) l
  | SP_skip p x l : split fits (None :: p) l -> split fits (None :: p) (x :: l).
Definition glob_pattern (ms : list matcher) : list (option matcher) :=
  map (fun m => if is_star m then None else Some m) ms.
(** [m] can match [x]. *)
Definition may_fit (e : env) (m : matcher) (x : value) : Prop :=
  exists s s' r, eval e m x s = (s', Ok (Some r)).
(** The part after the last star fits the end of the sequence, and the pattern
    without it splits the whole sequence. *)
Definition overlapping {A} (fits : A -> value -> Prop) (p : list (option A)) (l : list value) : Prop :=
  exists front last pre suf,
    p = front ++ None :: map Some last /\ last <> [] /\ l = pre ++ suf
    /\ split fits (front ++ [None]) l /\ Forall2 fits last suf.
(** [m] on [x] neither raises, nor depends on [Once], nor binds anything. *)
Definition plain_on (e : env) (m : matcher) (x : value) : Prop :=
  pure_on e x m None \/ exists rm t, pure_on e x m (Some (RInfo rm (Some []) t)).
