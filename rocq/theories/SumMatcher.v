(** The documented example of a matcher of one's own
    (examples/example_custom_matcher.py). *)
From Verif Require Import Py Ast Template FromDiff Matcher.

(** [ast.iter_child_nodes] (Python's ast.py): the nodes among the fields, and in
    the lists among the fields. *)
Definition child_nodes (v : value) : list value :=
  match v with
  | VNode _ fs => flat_map (fun kv : text * value =>
                              match snd kv with
                              | VNode i f => [VNode i f]
                              | VList _ l => filter is_node l
                              | VConst _ _ => []
                              end) fs
  | _ => []
  end.
(** [ast.walk] (Python's ast.py): a queue; every node taken from it is yielded, and
    its children go to the end.  There are at most [fuel] nodes. *)
Fixpoint walk_from (fuel : nat) (todo : list value) : list value :=
  match fuel, todo with
  | S fuel', x :: rest => x :: walk_from fuel' (rest ++ child_nodes x)
  | _, _ => []
  end.
Definition ast_walk (v : value) : list value := walk_from (vsize v) [v].

(** example_custom_matcher.py:38-50: the values of the constants; None as soon as
    there is something else than a sum.  ([ast.Num] is only asked for the others;
    since Python 3.8 that is [False] for a node that is no constant.) *)
Fixpoint collect_values (nodes : list value) : option (list value) :=
  match nodes with
  | [] => Some []
  | x :: rest =>
      if text_eqb (vtype x) (TX "Constant") then
        match collect_values rest with Some vs => Some (vfield x (TX "value") :: vs) | None => None end
      else if text_eqb (vtype x) (TX "BinOp") || text_eqb (vtype x) (TX "Add") then collect_values rest
      else None
  end.
(** example_custom_matcher.py:33-74 [SumMatcher._match]; [str_sum vs] is
    [str(sum(vs))], which may raise. *)
Definition sum_matcher (str_sum : list value -> res text) (e : env) (v : value) : outcome :=
  if negb (is_node v) then ret None
  else match collect_values (ast_walk v) with
       | None => ret None
       | Some vs =>
           if (length vs <=? 1)%nat then ret None
           else run result <- lift (str_sum vs);
                eval e (MAllOf [MBind (TX "sum") (MStringMatch result) None None]) v
       end.
