(** Where things are in a tree, independently of the navigator. *)
From Verif Require Import Py Ast Template Matcher MatchSpec FindSpec.

(** [x] is at [p], and no other place of the tree holds an object with its
    identity. *)
Definition only_at (tree : value) (p : path) (x : value) : Prop :=
  at_path tree p = Some x /\ forall q y, at_path tree q = Some y -> vid y = vid x -> q = p.
(** AST nodes and lists do not occur twice (constants may). *)
Definition unshared (tree : value) : Prop :=
  forall p x, at_path tree p = Some x -> is_node x || is_list x = true -> only_at tree p x.

(** The objects strictly above [p], the root first. *)
Fixpoint above (tree : value) (p : path) : list value :=
  match p with
  | [] => []
  | i :: p' => tree :: match nth_error (vchildren tree) i with Some x => above x p' | None => [] end
  end.
(** ... from the parent up. *)
Definition ancestors (tree : value) (p : path) : list value := rev (above tree p).
(** An object and all below it, in source order, each before those below it. *)
Fixpoint preorder (v : value) : list value :=
  v :: match v with
       | VNode _ fs => flat_map (fun kv => preorder (snd kv)) fs
       | VList _ l => flat_map preorder l
       | VConst _ _ => []
       end.
Definition descendants (v : value) : list value := flat_map preorder (vchildren v).

(** A matcher is not even tried on an object whose type it excludes. *)
Definition attempted (e : env) (m : matcher) (x : value) : outcome :=
  match type_filter m with
  | Some ts => if tmem (vtype x) ts then eval e m x else ret None
  | None => eval e m x
  end.

(** Objects are tried in order until one matches or raises; what was run on the
    way (of [Once]) goes from one to the next. *)
Inductive first_hit (try : value -> outcome)
  : list value -> list Z -> list Z -> res (option (value * result)) -> Prop :=
  | FH_none s : first_hit try [] s s (Ok None)
  | FH_fails x l s s1 s' o :
      try x s = (s1, Ok None) ->
      first_hit try l s1 s' o -> first_hit try (x :: l) s s' o
  | FH_hit x l s s' r :
      try x s = (s', Ok (Some r)) -> first_hit try (x :: l) s s' (Ok (Some (x, r)))
  | FH_raises x l s s' exn :
      try x s = (s', Err exn) -> first_hit try (x :: l) s s' (Err exn).

(** The match of [v] because of the match [r] of another object: only the
    bindings are taken over. *)
Definition by_way_of (e : env) (v : value) (o : res (option (value * result))) : res (option result) :=
  match o with
  | Err x => Err x
  | Ok None => Ok None
  | Ok (Some (_, RInfo _ b _)) => Ok (Some (RInfo (create_match (e_parsed e) v) b []))
  | Ok (Some (_, RFalse)) => Err AttributeError
  end.

(** [v] itself, with its own match, or else [others], by way of which [v] matches. *)
Definition self_or (e : env) (try : value -> outcome) (v : value) (others : list value)
           (s s' : list Z) (o : res (option result)) : Prop :=
  (exists r, try v s = (s', Ok (Some r)) /\ o = Ok (Some r))
  \/ (exists exn, try v s = (s', Err exn) /\ o = Err exn)
  \/ (exists s1 o1, try v s = (s1, Ok None) /\ first_hit try others s1 s' o1 /\ o = by_way_of e v o1).

(** The outermost of some objects, innermost first, that is not a list. *)
Definition outermost (l : list value) : option value := find (fun x => negb (is_list x)) (rev l).
