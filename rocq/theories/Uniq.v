(** Model of matcher.py:1177-1203 [_uniqueify_distinct_ast].  Definitions only. *)
From Verif Require Import Py Ast Template FromDiff Matcher.

Definition with_id (i : ninfo) (id : Z) : ninfo := NI id (n_type i) (n_line i) (n_first i) (n_last i).

(** [seen_ids], and the identity of the next object to be created. *)
Definition ustate := (list Z * Z)%type.

(** matcher.py:1193-1201 [CopyTransformer.visit] with [ast.NodeTransformer.generic_visit]:
    first the fields, in order; in a list the items that are AST nodes; then the
    node itself is replaced by a shallow copy if it was seen before.
    Simplification: a shared node is one Python object, updated in place, here it
    is several equal trees; so this is only the code's effect if shared nodes have
    no fields ([ast.parse] shares only the operator and context objects). *)
Fixpoint uniq (v : value) (st : ustate) : value * ustate :=
  match v with
  | VNode i fs =>
      let '(fs', (seen, next)) :=
        (fix go (l : list (text * value)) (st : ustate) : list (text * value) * ustate :=
           match l with
           | [] => ([], st)
           | (f, x) :: r =>
               let '(x', st1) := uniq x st in
               let '(r', st2) := go r st1 in
               ((f, x') :: r', st2)
           end) fs st in
      if zmem (n_id i) seen then (VNode (with_id i next) fs', (seen, next + 1))
      else (VNode i fs', (n_id i :: seen, next))
  | VList id l =>
      let '(l', st') :=
        (fix go (l : list value) (st : ustate) : list value * ustate :=
           match l with
           | [] => ([], st)
           | x :: r =>
               let '(x', st1) := if is_list x then (x, st) else uniq x st in
               let '(r', st2) := go r st1 in
               (x' :: r', st2)
           end) l st in
      (VList id l', st')
  | VConst id c => (v, st)
  end.
Definition uniqueify (tree : value) (next : Z) : value := fst (uniq tree ([], next)).
