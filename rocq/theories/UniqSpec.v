(** What [ast.parse] may share, and equality up to the identity of such objects. *)
From Verif Require Import Py Ast Template Matcher MatchSpec FindSpec NavSpec.

Definition childless (v : value) : bool :=
  match v with VNode _ [] => true | _ => false end.
Definition is_const (v : value) : bool := negb (is_node v || is_list v).

(** Two places with the same object: both hold a node without fields, or both a
    constant; no list is directly in a list. *)
Record parser_tree (tree : value) : Prop := {
  pt_shared : forall p q x y, at_path tree p = Some x -> at_path tree q = Some y -> vid x = vid y -> p <> q ->
    (childless x = true /\ childless y = true) \/ (is_const x = true /\ is_const y = true);
  pt_lists : forall p id l y, at_path tree p = Some (VList id l) -> In y l -> is_list y = false
}.

(** Equal but for the identities of nodes without fields. *)
Fixpoint anon (v : value) : value :=
  match v with
  | VNode i [] => VNode (NI 0 (n_type i) (n_line i) (n_first i) (n_last i)) []
  | VNode i fs => VNode i (map (fun kv => (fst kv, anon (snd kv))) fs)
  | VList id l => VList id (map anon l)
  | VConst id c => VConst id c
  end.
