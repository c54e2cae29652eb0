(** What merging two sets of bindings or replacements should do.  No model
    function other than the comparison of values is used. *)
From Verif Require Import Py Ast Template Matcher.

(** Two bindings of one name hold values that are equal for Python. *)
Definition identical (a b : bound) : Prop := bound_eqb a b = true.
(** ... hold AST objects (or other objects) that are equivalent. *)
Definition equivalent (a b : bound) : Prop :=
  exists x y, m_matched (b_value a) = Some x /\ m_matched (b_value b) = Some y
              /\ ast_equivalent x y = Ok true.

(** The conflict strategy that both sides agree on accepts the pair. *)
Definition accepted (a b : bound) : Prop :=
  match b_conflict a with
  | MERGE => True
  | SKIP | ERROR => False
  | MERGE_IDENTICAL | MERGE_IDENTICAL_OR_ERROR => identical a b
  | MERGE_EQUIVALENT_AST | MERGE_EQUIVALENT_AST_OR_ERROR => equivalent a b
  end.
(** Having to merge the pair is an error. *)
Definition erroneous (a b : bound) : Prop :=
  b_conflict a <> b_conflict b \/ b_merge a <> b_merge b \/
  (~ accepted a b /\
   (b_conflict a = ERROR \/ b_conflict a = MERGE_IDENTICAL_OR_ERROR
    \/ b_conflict a = MERGE_EQUIVALENT_AST_OR_ERROR)).

(** Both sides bind [k]. *)
Definition both (lhs rhs : dict bound) (k : label) (a b : bound) : Prop :=
  dget lhs k = Some a /\ dget rhs k = Some b.

(** The merged binding of one name. *)
Definition merged_value (l r : option bound) : option bound :=
  match l, r with
  | Some a, Some b => Some (match b_merge a with KEEP_FIRST => a | KEEP_LAST => b end)
  | Some a, None => Some a
  | None, o => o
  end.

(** The outcome of merging. *)
Definition merge_outcome (lhs rhs : dict bound) (out : res (option (dict bound))) : Prop :=
  match out with
  | Err x => x = MatchError /\ exists k a b, both lhs rhs k a b /\ erroneous a b
  | Ok None =>
      (forall k a b, both lhs rhs k a b -> ~ erroneous a b) /\
      (exists k a b, both lhs rhs k a b /\ ~ accepted a b)
  | Ok (Some d) =>
      dict_ok d /\
      (forall k a b, both lhs rhs k a b -> ~ erroneous a b /\ accepted a b) /\
      (forall k, dget d k = merged_value (dget lhs k) (dget rhs k))
  end.

(** Two outcomes that no caller can tell apart, except by listing a dictionary. *)
Definition same_outcome (x y : res (option (dict bound))) : Prop :=
  match x, y with
  | Err e, Err e' => e = e'
  | Ok None, Ok None => True
  | Ok (Some d), Ok (Some d') => forall k, dget d k = dget d' k
  | _, _ => False
  end.
