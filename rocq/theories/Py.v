(** Python prelude: the fragment of Python's data model that the modelled code
    uses.  Definitions only; lemmas are in PyFacts.v. *)
From Coq Require Export Ascii String.
From Coq Require Export List ZArith Bool Lia Permutation Sorted.
Export ListNotations.
Global Open Scope Z_scope.

(** A Python [str] is a sequence of Unicode code points. *)
Definition char := Z.
Definition text := list char.

(** Only for writing examples: an ASCII Coq string as a [text]. *)
Fixpoint s2t (s : string) : text :=
  match s with
  | EmptyString => []
  | String c rest => Z.of_nat (nat_of_ascii c) :: s2t rest
  end.
Notation "'TX' s" := (s2t s%string) (at level 9, s at level 0, only parsing).

Definition NL : char := 10.

(** [len(s)] *)
Definition tlen {A} (s : list A) : Z := Z.of_nat (length s).

(** Slice index normalisation: CPython [PySlice_AdjustIndices] with step 1. *)
Definition norm_idx (len i : Z) : Z :=
  if i <? 0 then Z.max 0 (i + len) else Z.min i len.

(** [s[i:j]] *)
Definition slice {A} (s : list A) (i j : Z) : list A :=
  let a := norm_idx (tlen s) i in
  let b := norm_idx (tlen s) j in
  firstn (Z.to_nat (b - a)) (skipn (Z.to_nat a) s).

(** [s[i:]] and [s[:j]] *)
Definition slice_from {A} (s : list A) (i : Z) : list A := slice s i (tlen s).
Definition slice_to {A} (s : list A) (j : Z) : list A := slice s 0 j.

(** Position of the first [c] in [s], counting from [k]. *)
Fixpoint index_from (c : char) (s : text) (k : Z) : option Z :=
  match s with
  | [] => None
  | x :: rest => if x =? c then Some k else index_from c rest (k + 1)
  end.

(** Position of the last [c] in [s], counting from [k]. *)
Fixpoint rindex_from (c : char) (s : text) (k : Z) : option Z :=
  match s with
  | [] => None
  | x :: rest =>
      match rindex_from c rest (k + 1) with
      | Some p => Some p
      | None => if x =? c then Some k else None
      end
  end.

(** [s.find(c, i, j)] for a one-character [c]; [None] stands for -1
    (or for the ValueError of [s.index]). *)
Definition find_char (c : char) (s : text) (i j : Z) : option Z :=
  index_from c (slice s i j) (norm_idx (tlen s) i).

(** [s.rfind(c, i, j)] for a one-character [c]; [None] stands for -1
    (or for the ValueError of [s.rindex]). *)
Definition rfind_char (c : char) (s : text) (i j : Z) : option Z :=
  rindex_from c (slice s i j) (norm_idx (tlen s) i).

(** [str.__eq__] *)
Fixpoint text_eqb (a b : text) : bool :=
  match a, b with
  | [], [] => true
  | x :: a', y :: b' => (x =? y) && text_eqb a' b'
  | _, _ => false
  end.

(** [str.__le__]: lexicographic order by code point. *)
Fixpoint text_leb (a b : text) : bool :=
  match a, b with
  | [], _ => true
  | _ :: _, [] => false
  | x :: a', y :: b' => if x =? y then text_leb a' b' else x <? y
  end.

(** [s.split(c)] for a one-character separator: always at least one piece. *)
Fixpoint split_char (c : char) (s : text) : list text :=
  match s with
  | [] => [[]]
  | x :: rest =>
      if x =? c then [] :: split_char c rest
      else match split_char c rest with
           | [] => [[x]]
           | w :: ws => (x :: w) :: ws
           end
  end.

(** [sep.join(pieces)] *)
Fixpoint join (sep : text) (l : list text) : text :=
  match l with
  | [] => []
  | [w] => w
  | w :: rest => w ++ sep ++ join sep rest
  end.

(** [str.isspace] on one code point, also what [\s] matches in a [str] regex. *)
Definition is_space (c : char) : bool :=
  ((9 <=? c) && (c <=? 13)) || ((28 <=? c) && (c <=? 32)) || (c =? 133) || (c =? 160)
  || (c =? 5760) || ((8192 <=? c) && (c <=? 8202)) || (c =? 8232) || (c =? 8233)
  || (c =? 8239) || (c =? 8287) || (c =? 12288).

Fixpoint lstrip (s : text) : text :=
  match s with
  | [] => []
  | x :: rest => if is_space x then lstrip rest else s
  end.
(** [s.strip()] *)
Definition strip (s : text) : text := rev (lstrip (rev (lstrip s))).

(** [s.partition(c)] for a one-character separator: (head, found, tail). *)
Fixpoint partition_char (c : char) (s : text) : text * bool * text :=
  match s with
  | [] => ([], false, [])
  | x :: rest =>
      if x =? c then ([], true, rest)
      else let '(h, f, t) := partition_char c rest in (x :: h, f, t)
  end.

Fixpoint startswith (p s : text) : bool :=
  match p, s with
  | [], _ => true
  | _ :: _, [] => false
  | x :: p', y :: s' => (x =? y) && startswith p' s'
  end.

Definition endswith (p s : text) : bool := startswith (rev p) (rev s).

(** Line boundaries recognised by [str.splitlines]:
    LF, VT, FF, CR, FS, GS, RS, NEL, LS, PS (and CR LF as one boundary). *)
Definition is_linebreak (c : char) : bool :=
  ((10 <=? c) && (c <=? 13)) || ((28 <=? c) && (c <=? 30)) || (c =? 133)
  || (c =? 8232) || (c =? 8233).

(** [s.splitlines(True)] *)
Fixpoint splitlines_keep (s : text) : list text :=
  match s with
  | [] => []
  | x :: rest =>
      if is_linebreak x then
        match rest with
        | y :: rest' =>
            if (x =? 13) && (y =? 10) then [x; y] :: splitlines_keep rest'
            else [x] :: splitlines_keep rest
        | [] => [[x]]
        end
      else match splitlines_keep rest with
           | [] => [[x]]
           | l :: ls => (x :: l) :: ls
           end
  end.

(** Exceptions as values. *)
Inductive exn :=
  | ValueError | TypeError | KeyError | AssertionError | AttributeError | IndexError
  | MatchError | RewriteError | ParseError | SyntaxError | UnicodeError | IOError
  | SkipFileError | SkipFileNoResultsError | OtherError (n : Z) | OutOfFuel.
Inductive res (A : Type) :=
  | Ok (a : A)
  | Err (e : exn).
Arguments Ok {A} a.
Arguments Err {A} e.

Definition bind {A B} (r : res A) (f : A -> res B) : res B :=
  match r with Ok a => f a | Err e => Err e end.
Notation "'do' x <- r ; k" := (bind r (fun x => k))
  (at level 200, x pattern, r at level 100, k at level 200, right associativity).

(** Evaluate left to right, stop at the first exception. *)
Fixpoint mapM {A B} (f : A -> res B) (l : list A) : res (list B) :=
  match l with
  | [] => Ok []
  | x :: rest => do y <- f x; do ys <- mapM f rest; Ok (y :: ys)
  end.

(** Dictionaries with string keys, in insertion order. *)
Definition label := text.
Definition dict (V : Type) := list (label * V).

Fixpoint dget {V} (d : dict V) (k : label) : option V :=
  match d with
  | [] => None
  | (k', v) :: rest => if text_eqb k' k then Some v else dget rest k
  end.
Definition dmem {V} (d : dict V) (k : label) : bool :=
  match dget d k with Some _ => true | None => false end.
(** [d[k] = v]: in place if present, else appended. *)
Fixpoint dset {V} (d : dict V) (k : label) (v : V) : dict V :=
  match d with
  | [] => [(k, v)]
  | (k', v') :: rest => if text_eqb k' k then (k', v) :: rest else (k', v') :: dset rest k v
  end.
(** [d.pop(k, None)], the dictionary part. *)
Fixpoint ddel {V} (d : dict V) (k : label) : dict V :=
  match d with
  | [] => []
  | (k', v') :: rest => if text_eqb k' k then rest else (k', v') :: ddel rest k
  end.
Definition dkeys {V} (d : dict V) : list label := map fst d.
(** What a Python dict satisfies by construction. *)
Definition dict_ok {V} (d : dict V) : Prop := NoDup (dkeys d).

(** [x in l] for a list of strings. *)
Fixpoint tmem (x : text) (l : list text) : bool :=
  match l with
  | [] => false
  | y :: rest => text_eqb y x || tmem x rest
  end.

(** [sorted(l, key=...)]: stable; [le x y] compares the keys. *)
Section Sort.
  Context {A : Type} (le : A -> A -> bool).
  Fixpoint sort_insert (x : A) (l : list A) : list A :=
    match l with
    | [] => [x]
    | y :: rest => if le x y then x :: l else y :: sort_insert x rest
    end.
  Fixpoint py_sorted (l : list A) : list A :=
    match l with
    | [] => []
    | x :: rest => sort_insert x (py_sorted rest)
    end.
End Sort.

(** (start, end) code point offsets; tuple comparison. *)
Definition span := (Z * Z)%type.
Definition span_leb (a b : span) : bool :=
  (fst a <? fst b) || ((fst a =? fst b) && (snd a <=? snd b)).
Definition span_eqb (a b : span) : bool := (fst a =? fst b) && (snd a =? snd b).

Definition opt_eqb {A} (eqb : A -> A -> bool) (a b : option A) : bool :=
  match a, b with
  | None, None => true
  | Some x, Some y => eqb x y
  | _, _ => false
  end.
Definition is_some {A} (o : option A) : bool := match o with Some _ => true | None => false end.
