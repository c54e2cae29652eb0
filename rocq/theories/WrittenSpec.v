(** Specification for C86: how the pieces of a Python file are written. *)
From Verif Require Import Py Subst Ast Template FromDiff Matcher FindSpec NavSpec PatternSpec Removal PiecesSpec.

Record written (e : env) : Prop := {
  (* objects do not occur twice in the tree *)
  wr_unshared : unshared (e_tree e);
  (* the tokens of nodes are places in the text *)
  wr_tokens : forall v f l, PatternSpec.inside (e_tree e) v -> first_token v = Ok f -> last_token v = Ok l ->
    in_text (pf_text (e_parsed e)) (tk_start f, tk_end l);
  (* a statement ends before the next one in the same list begins *)
  wr_suites : forall id stmts i v w l f, PatternSpec.inside (e_tree e) (VList id stmts) ->
    nth_error stmts i = Some v -> nth_error stmts (S i) = Some w -> is_stmt v = true \/ is_stmt w = true ->
    last_token v = Ok l -> first_token w = Ok f -> 0 <= tk_end l <= tk_start f /\ tk_start f <= tlen (pf_text (e_parsed e));
  (* a semicolon after a statement comes after it *)
  wr_next : forall v l u, PatternSpec.inside (e_tree e) v -> is_stmt v = true -> last_token v = Ok l ->
    next_token (e_tokens e) l = Ok u -> tk_string u = TX ";" -> tk_end l <= tk_end u <= tlen (pf_text (e_parsed e))
}.
(** If the text is a Python file, it is written in this way. *)
Definition written_source (parse_ast : text -> text -> res parsed_file) (context : parsed_file -> pyinfo -> env) (data path : text) : Prop :=
  forall parsed, parse_ast data path = Ok parsed -> exists info, pf_py parsed = Some info /\ pf_text parsed = data
    /\ e_parsed (context parsed info) = parsed /\ e_tree (context parsed info) = py_tree info /\ written (context parsed info).
