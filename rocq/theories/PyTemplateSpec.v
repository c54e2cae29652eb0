(** What syntax-aware templates should do. *)
From Verif Require Import Py Ast Template FromDiff Matcher PatTok Pattern PatternSpec PyTemplate.

(** [instance holes value p t]: [t] is the syntax tree [p] with the metavariable
    [x] replaced by the code [value x] (anything, if there is none). *)
Section Instance.
  Variable holes : text -> option hole.
  Variable value_of : label -> option value.
  Inductive instance : value -> value -> Prop :=
    | IN_named p n x m t : is_name p n -> holes n = Some (Named x m) ->
        (forall v, value_of x = Some v -> same_code v t) -> instance p t
    | IN_anonymous p n t : is_name p n -> holes n = Some Anonymous -> instance p t
    | IN_const id c id' d : const_eqb c d = true -> instance (VConst id c) (VConst id' d)
    | IN_list id l id' m : Forall2 instance l m -> instance (VList id l) (VList id' m)
    | IN_node i fs j gs : (forall n, is_name (VNode i fs) n -> holes n = None) ->
        n_type i = n_type j ->
        Forall2 (fun kv kw => fst kv = fst kw
                              /\ (name_context (n_type i) (fst kv) \/ instance (snd kv) (snd kw))) fs gs ->
        instance (VNode i fs) (VNode j gs).
End Instance.

(** The expression that a label is bound to. *)
Definition bound_expr (matches : dict pymatch) (x : label) : option value :=
  match dget matches x with
  | Some (PLex v _ _ _ _ _) => if is_expr v then Some v else None
  | _ => None
  end.

(** All of the strings, in parentheses where that [can] be. *)
Definition all_parens (can : label -> bool) (strings : dict text) : dict text :=
  map (fun kv => (fst kv, if can (fst kv) then parens (snd kv) else snd kv)) strings.
(** [pruned works can pre strings out]: from left to right, the parentheses of
    every string are dropped if that works (with the ones to the right of it in
    parentheses). *)
Inductive pruned (works : dict text -> Prop) (can : label -> bool)
  : dict text -> dict text -> dict text -> Prop :=
  | PN_nil pre : pruned works can pre [] pre
  | PN_verbatim pre k s post out : can k = false ->
      pruned works can (pre ++ [(k, s)]) post out -> pruned works can pre ((k, s) :: post) out
  | PN_dropped pre k s post out : can k = true -> works (pre ++ (k, s) :: all_parens can post) ->
      pruned works can (pre ++ [(k, s)]) post out -> pruned works can pre ((k, s) :: post) out
  | PN_kept pre k s post out : can k = true -> ~ works (pre ++ (k, s) :: all_parens can post) ->
      pruned works can (pre ++ [(k, parens s)]) post out -> pruned works can pre ((k, s) :: post) out.
(** The template filled in with [mapping] has the same syntax as [tree]. *)
Definition reads_as (parse_ast : text -> res env) (lt : lex_template) (tree : value) (mapping : dict text) : Prop :=
  exists txt e, lex_substitute lt mapping = Ok txt /\ parse_ast txt = Ok e /\ same_syntax tree (e_tree e).

(** What the parser of Python gives. *)
Definition python_parser (G : grammar) (parse_ast : text -> res env) : Prop :=
  forall s e, parse_ast s = Ok e -> parsed_tree G (e_tree e) /\ is_node (e_tree e) = true.
(** Expressions of parsed files. *)
Definition parsed_matches (G : grammar) (matches : dict pymatch) : Prop :=
  forall x v, bound_expr matches x = Some v -> exists root, parsed_tree G root /\ inside root v.

(** The tree of a template: the whole module; or [p] is the one statement of the
    module; or [p] is the one expression of it. *)
Inductive template_kind := KModule | KStmt | KExpr.
Definition pull_of (k : template_kind) : value -> res value :=
  match k with KModule => fun t => Ok t | KStmt => pull_stmt | KExpr => pull_expr end.
Definition template_of (tokenize : text -> res (list ptok)) (order : list nat -> list nat)
  (ast_parse : text -> res value) (k : template_kind) : text -> res py_template :=
  match k with
  | KModule => python_template tokenize order ast_parse
  | KStmt => python_stmt_template tokenize order ast_parse
  | KExpr => python_expr_template tokenize order ast_parse
  end.
Definition consists_of (k : template_kind) (tree t : value) : Prop :=
  match k with
  | KModule => t = tree
  | KStmt => vtype tree = TX "Module" /\ exists id, vfield tree (TX "body") = VList id [t]
  | KExpr => vtype tree = TX "Module" /\ exists id stmt, vfield tree (TX "body") = VList id [stmt]
               /\ vtype stmt = TX "Expr" /\ vfield stmt (TX "value") = t
  end.
(** The two classes around an expression. *)
Definition python_grammar (G : grammar) : Prop :=
  G (TX "Module") = [(TX "body", true); (TX "type_ignores", true)] /\ G (TX "Expr") = [(TX "value", false)].

(** The context that a replacement is checked in: the innermost enclosing
    expression or statement with a position, unless a compound statement comes
    first ([None]). *)
Inductive context (parsed : parsed_file) : list value -> option (value * span) -> Prop :=
  | CX_compound a l : compound a = true -> context parsed (a :: l) None
  | CX_found a l sp : compound a = false -> is_expr a || is_stmt a = true ->
      m_span (create_match parsed a) = Some sp -> context parsed (a :: l) (Some (a, sp))
  | CX_outer a l o : compound a = false ->
      is_expr a || is_stmt a = false \/ m_span (create_match parsed a) = None ->
      context parsed l o -> context parsed (a :: l) o.
(** The source around a match: from the start of the context to the match, and
    from the match to the end of the context; in parentheses for an expression. *)
Definition before (parsed : parsed_file) (p : value) (ctx sp : span) : text :=
  (if is_expr p then TX "(" else []) ++ slice (pf_text parsed) (fst ctx) (fst sp).
Definition behind (parsed : parsed_file) (p : value) (ctx sp : span) : text :=
  slice (pf_text parsed) (snd sp) (snd ctx) ++ (if is_expr p then TX ")" else []).
