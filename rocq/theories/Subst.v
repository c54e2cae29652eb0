(** Model of refex/substitution.py. *)
From Verif Require Import Py Regex.

(** substitution.py:53-58: [_CATEGORY_NAME_REGEX = \A[^-.\s][^.\s]*([.][^.\s]+)*\Z].
    [\A...\Z] with [match]: the whole string must match. *)
Definition dot : char := 46.
Definition dash : char := 45.
Definition re_cat_first : re := Cls (fun c => negb ((c =? dash) || (c =? dot) || is_space c)).
Definition re_cat_char : re := Cls (fun c => negb ((c =? dot) || is_space c)).
Definition category_name_regex : re :=
  Seq re_cat_first
    (Seq (Star re_cat_char)
       (Star (Seq (Cls (fun c => c =? dot)) (Seq re_cat_char (Star re_cat_char))))).

(** substitution.py:61-100: the attributes of [Substitution].  [replacements]
    may be [None] (substitution.py:131, 139, 272).  Replacement values are
    strings by typing, so the TypeError of substitution.py:139-149 is not
    reachable in the model.  Labels are strings; integer regex group labels are
    represented by strings (simplification: comparing an int label with a str
    label, which raises TypeError in as_diff's tie-break, is not modelled). *)
Record substitution := Sub {
  matched_spans : dict span;
  primary_label : label;
  replacements : option (dict text);
  message : option text;
  url : option text;
  significant : bool;
  category : option text;
  key_span : option span
}.

(** substitution.py:110-149 [_validate], run by the constructor (107-108). *)
Definition validate (s : substitution) : res unit :=
  if match category s with
     | None => false
     | Some c => negb (re_match category_name_regex c)
     end then Err ValueError
  else if negb (dmem (matched_spans s) (primary_label s)) then Err ValueError
  else match replacements s with
       | None => Ok tt
       | Some r =>
           if forallb (fun k => dmem (matched_spans s) k) (dkeys r) then Ok tt
           else Err ValueError
       end.

(** The constructor: attrs' [__init__] then [_validate]. *)
Definition make_sub (s : substitution) : res substitution :=
  do _ <- validate s; Ok s.

(** substitution.py:102-105; KeyError cannot happen on a validated object, the
    model returns it as a value. *)
Definition primary_span (s : substitution) : res span :=
  match dget (matched_spans s) (primary_label s) with
  | Some sp => Ok sp
  | None => Err KeyError
  end.

(** substitution.py:166-171: the loop building [new_spans]. *)
Fixpoint relative_spans (start fin : Z) (d : dict span) : option (dict span) :=
  match d with
  | [] => Some []
  | (k, (os, oe)) :: rest =>
      if (start <=? os) && (oe <=? fin) then
        match relative_spans start fin rest with
        | Some ns => Some ((k, (os - start, oe - start)) :: ns)
        | None => None
        end
      else None
  end.

Definition with_spans (s : substitution) (d : dict span) : substitution :=
  Sub d (primary_label s) (replacements s) (message s) (url s) (significant s)
      (category s) (key_span s).

(** substitution.py:151-172 [relative_to_span].  [attr.evolve] re-runs
    [_validate], hence the [res]. *)
Definition relative_to_span (s : substitution) (start fin : Z) : res (option substitution) :=
  match relative_spans start fin (matched_spans s) with
  | None => Ok None
  | Some ns => do s' <- make_sub (with_spans s ns); Ok (Some s')
  end.

(** substitution.py:185-187: ['.'.join(split_category[:i + 1])] for each i. *)
Fixpoint prefixes_from (acc : list text) (l : list text) : list (list text) :=
  match l with
  | [] => []
  | w :: rest => (acc ++ [w]) :: prefixes_from (acc ++ [w]) rest
  end.

(** substitution.py:174-187 [all_categories]. *)
Definition all_categories (s : substitution) : list (option text) :=
  None :: match category s with
          | None => []
          | Some c => map (fun p => Some (join [dot] p)) (prefixes_from [] (split_char dot c))
          end.

(** Mapping from category (or [None]) to ranges. *)
Definition range_table := list (option text * list span).
Fixpoint rt_get (t : range_table) (k : option text) : list span :=
  match t with
  | [] => []
  | (k', v) :: rest => if opt_eqb text_eqb k' k then v else rt_get rest k
  end.

(** substitution.py:207-214 [_sub_matches_ranges]. *)
Definition sub_matches_ranges (s : substitution) (t : range_table) : res bool :=
  do sp <- primary_span s;
  Ok (existsb (fun c =>
        existsb (fun r => (snd sp >? fst r) && (fst sp <? snd r)) (rt_get t c))
      (all_categories s)).

(** substitution.py:190-204 [suppress_exclude_bytes]. *)
Fixpoint suppress_exclude_bytes (subs : list substitution) (t : range_table)
  : res (list substitution) :=
  match subs with
  | [] => Ok []
  | s :: rest =>
      do b <- sub_matches_ranges s t;
      do out <- suppress_exclude_bytes rest t;
      Ok (if b then out else s :: out)
  end.

(** substitution.py:217-245: [LabeledSpan] and [DiffSpan].  A frozenset of
    labels is a list up to order; all uses are membership or set equality. *)
Inductive piece :=
  | LabeledSpan (sp : span) (labels : list label)
  | DiffSpan (sp : span) (lbl : label) (after : text).
Definition piece_span (p : piece) : span :=
  match p with LabeledSpan sp _ => sp | DiffSpan sp _ _ => sp end.

(** substitution.py:313-317: [start_to_labels] / [end_to_labels]. *)
Definition labels_at (pos : span -> Z) (p : Z) (d : dict span) : list label :=
  map fst (filter (fun kv => pos (snd kv) =? p) d).

(** Distinct integers in increasing order: [sorted(start_to_labels)].  The code
    sorts in reverse and pops from the end, i.e. consumes in this order
    (substitution.py:319-320, 329-345). *)
Fixpoint insert_uniq (x : Z) (l : list Z) : list Z :=
  match l with
  | [] => [x]
  | y :: rest => if x <? y then x :: l else if x =? y then l else y :: insert_uniq x rest
  end.
Definition sorted_keys (l : list Z) : list Z := fold_right insert_uniq [] l.

(** [(current | to_add)] and [current - to_remove] on label sets. *)
Definition set_add (cur add : list label) : list label :=
  cur ++ filter (fun l => negb (tmem l cur)) add.
Definition set_remove (cur rm : list label) : list label :=
  filter (fun l => negb (tmem l rm)) cur.

(** substitution.py:324-350: the sweep.  [fuel] bounds the number of loop
    iterations; each iteration pops one element of [starts] or [ends]. *)
Fixpoint sweep (fuel : nat) (d : dict span) (starts ends : list Z)
         (cur : list label) (range_start : option Z) : res (list piece) :=
  match fuel with
  | O => match starts, ends with [], [] => Ok [] | _, _ => Err OutOfFuel end
  | S fuel' =>
      let step pos starts' ends' cur' :=
        do rest <- sweep fuel' d starts' ends' cur' (Some pos);
        Ok (match range_start with
            | Some rs => LabeledSpan (rs, pos) cur :: rest
            | None => rest
            end) in
      match starts, ends with
      | [], [] => Ok []
      | s :: starts', e :: ends' =>
          if s <=? e then step s starts' ends (set_add cur (labels_at fst s d))
          else step e starts ends' (set_remove cur (labels_at snd e d))
      | _ :: _, [] => Err AssertionError
      | [], e :: ends' => step e [] ends' (set_remove cur (labels_at snd e d))
      end
  end.

(** substitution.py:303-350 [labeled_spans].  (The generator may yield some
    pieces before the AssertionError; the model only reports the error.) *)
Definition labeled_spans (s : substitution) : res (list piece) :=
  let d := matched_spans s in
  let starts := sorted_keys (map (fun kv => fst (snd kv)) d) in
  let ends := sorted_keys (map (fun kv => snd (snd kv)) d) in
  sweep (length starts + length ends) d starts ends [] None.

(** substitution.py:291-293: [max(..., key=lambda l: (matched_spans[l][1], l))]. *)
Definition label_end (d : dict span) (l : label) : Z :=
  match dget d l with Some sp => snd sp | None => 0 end.
Definition better (d : dict span) (a b : label) : label :=
  (* keep [a] unless [b]'s key is strictly greater *)
  if label_end d a <? label_end d b then b
  else if (label_end d a =? label_end d b) && negb (text_leb b a) then b else a.
Definition max_label (d : dict span) (l : list label) : option label :=
  match l with
  | [] => None
  | x :: rest => Some (fold_left (better d) rest x)
  end.

(** substitution.py:276-300: the loop of [as_diff]. *)
Fixpoint as_diff_loop (d : dict span) (r : dict text) (last_diff_end : Z) (l : list piece)
  : list piece :=
  match l with
  | [] => []
  | LabeledSpan (a, b) labels :: rest =>
      if a <? last_diff_end then as_diff_loop d r last_diff_end rest
      else match max_label d (filter (dmem r) labels) with
           | None => LabeledSpan (a, b) labels :: as_diff_loop d r last_diff_end rest
           | Some m =>
               match dget d m, dget r m with
               | Some sp, Some after => DiffSpan sp m after :: as_diff_loop d r (snd sp) rest
               | _, _ => as_diff_loop d r last_diff_end rest (* unreachable: m is a key of both *)
               end
           end
  | DiffSpan _ _ _ :: rest => as_diff_loop d r last_diff_end rest (* not produced by labeled_spans *)
  end.

(** substitution.py:248-300 [as_diff]. *)
Definition as_diff (s : substitution) : res (list piece) :=
  do l <- labeled_spans s;
  Ok (as_diff_loop (matched_spans s)
        (match replacements s with Some r => r | None => [] end) 0 l).

(** substitution.py:370-387: the loop of [disjoint_substitutions].
    [last] is ((last_start, last_end), last_sub), or [None] at first. *)
Fixpoint disjoint_loop (last : option (span * substitution)) (l : list (span * substitution))
  : list substitution :=
  match l with
  | [] => match last with Some (_, s) => [s] | None => [] end
  | ((start, fin), sub) :: rest =>
      match last with
      | None => disjoint_loop (Some ((start, fin), sub)) rest
      | Some ((last_start, last_end), last_sub) =>
          if start >=? last_end then
            last_sub :: disjoint_loop (Some ((start, fin), sub)) rest
          else if (fin - start >? last_end - last_start) then disjoint_loop last rest
          else disjoint_loop (Some ((start, fin), sub)) rest
      end
  end.

(** substitution.py:353-387 [disjoint_substitutions]. *)
Definition disjoint_substitutions (subs : list substitution) : res (list substitution) :=
  do span_subs <- mapM (fun s => do sp <- primary_span s; Ok (sp, s)) subs;
  Ok (disjoint_loop None (py_sorted (fun x y => span_leb (fst x) (fst y)) span_subs)).
