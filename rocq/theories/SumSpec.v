(** What the example matcher is about. *)
From Verif Require Import Py Ast Template FromDiff Matcher.

(** The integer [n], as a value of the tree; [1], [2] of the source. *)
Definition int_value (x : value) (n : Z) : Prop := exists id, x = VConst id (CNum KInt (2 * n)).
(** [v] is made of [+] and integers only, and these are [ns] from left to right. *)
Inductive sum_of : value -> list Z -> Prop :=
  | SO_int i fs x n : n_type i = TX "Constant" -> dget fs (TX "value") = Some x -> int_value x n ->
      (forall f y, In (f, y) fs -> exists id c, y = VConst id c) ->
      sum_of (VNode i fs) [n]
  | SO_plus i l j r ls rs : n_type i = TX "BinOp" -> n_type j = TX "Add" -> sum_of l ls -> sum_of r rs ->
      sum_of (VNode i [(TX "left", l); (TX "op", VNode j []); (TX "right", r)]) (ls ++ rs).
Definition total (ns : list Z) : Z := fold_right Z.add 0 ns.
(** The nodes of a tree: itself, and those of its fields and of lists in them. *)
Inductive node_of : value -> value -> Prop :=
  | NO_self v : node_of v v
  | NO_field i fs f c x : In (f, c) fs -> is_node c = true -> node_of c x -> node_of (VNode i fs) x
  | NO_list i fs f id l c x : In (f, VList id l) fs -> In c l -> is_node c = true -> node_of c x ->
      node_of (VNode i fs) x.
Definition part_of_sum (x : value) : Prop := In (vtype x) [TX "Constant"; TX "BinOp"; TX "Add"].
