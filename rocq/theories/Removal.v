(** Model of the Python searchers, and of what they do when statements are
    removed: refex/search.py 708-914.  Definitions only. *)
From Verif Require Import Py Subst Fmt Ast Template FromDiff Matcher Search PatTok.

(** asttokens' [next_token]: the next token that is no comment and no blank line
    (its types: NL, COMMENT, ENCODING). *)
Definition non_coding (t : token) : bool :=
  (tk_type t =? T_NL) || (tk_type t =? T_COMMENT) || (tk_type t =? T_ENCODING).
Definition next_token (tokens : list token) (t : token) : res token :=
  match find (fun u => negb (non_coding u)) (skipn (Z.to_nat (tk_index t + 1)) tokens) with
  | Some u => Ok u
  | None => Err IndexError
  end.
(** [node.first_token], [node.last_token] *)
Definition first_token (v : value) : res token :=
  match v with
  | VNode i _ => match n_first i with Some t => Ok t | None => Err AttributeError end
  | _ => Err AttributeError
  end.
Definition last_token (v : value) : res token :=
  match v with
  | VNode i _ => match n_last i with Some t => Ok t | None => Err AttributeError end
  | _ => Err AttributeError
  end.

(** search.py:747-751: [removed_nodes] and [removed_suite_prefix_nodes]. *)
Record removed := Removed { rm_nodes : list Z; rm_prefix : list Z }.

(** search.py:778-798: is this the removal of a statement? *)
Definition removes_stmt (m : option pymatch) (t : template) : option (value * text * token * token * bool * bool) :=
  match m with
  | Some (PLex v txt f l a b) =>
      match t_template t with
      | [] => if is_stmt v then Some (v, txt, f, l, a, b) else None
      | _ :: _ => None
      end
  | _ => None
  end.

Section Sanitize.
  Variable pass_template : template.                (* 728: PythonStmtTemplate('pass') *)
  Variable tree : value.
  Variable tokens : list token.

  (** 791-854: one turn of the loop.  The new match and template of the metavariable. *)
  Definition sanitize_one (m : option pymatch) (t : template) (st : removed)
    : res (option pymatch * template * removed) :=
    match removes_stmt m t with
    | None => Ok (m, t, st)
    | Some (v, txt, f, l, a, b) =>
        match get_parent tree v with
        | Some (VList id items) =>
            let st := Removed (vid v :: rm_nodes st) (rm_prefix st) in
            let at_module_level := match get_parent tree (VList id items) with
                                   | Some p => text_eqb (vtype p) (TX "Module")
                                   | None => false
                                   end in
            let new := if at_module_level then t else pass_template in
            match get_next_sibling tree v, get_prev_sibling tree v with
            | None, None => Ok (m, new, st)
            | Some next, prev =>
                let st := if match prev with None => true | Some p => zmem (vid p) (rm_prefix st) end
                          then Removed (rm_nodes st) (vid v :: rm_prefix st) else st in
                do ft <- first_token next;
                Ok (Some (PLex v txt f ft a false), t, st)
            | None, Some prev =>
                do own <- last_token v;
                do start <- (if zmem (vid prev) (rm_prefix st) || zmem (vid prev) (rm_nodes st)
                             then Ok (f, a) else do lt <- last_token prev; Ok (lt, false));
                let t' := if zmem (vid prev) (rm_prefix st) then new else t in
                do semi <- next_token tokens own;
                let fin := if text_eqb (tk_string semi) (TX ";") then (semi, true) else (l, b) in
                Ok (Some (PLex v txt (fst start) (fst fin) (snd start) (snd fin)), t', st)
            end
        | _ => Err RewriteError
        end
    end.
  (** 767-854 [_sanitize_removed_stmt]: the loop over the templates; [done] are
      those of the turns before. *)
  Fixpoint sanitize (ms : dict pymatch) (todo : dict template) (done : dict template) (st : removed)
    : res (dict pymatch * dict template * removed) :=
    match todo with
    | [] => Ok (ms, done, st)
    | (x, t) :: rest =>
        do r <- sanitize_one (dget ms x) t st;
        let '(m', t', st') := r in
        let ms' := match m' with Some m => dset ms x m | None => ms end in
        sanitize ms' rest (done ++ [(x, t')]) st'
    end.
  (** 742-765 [find_dicts_parsed], from the results of [find_iter]. *)
  Fixpoint sanitize_all (results : list result) (st : removed) : res (list (dict pymatch * dict template)) :=
    match results with
    | [] => Ok []
    | r :: rest =>
        do ob <- r_bindings r;
        do b <- not_none ob;
        do reps <- r_reps r;
        do s <- sanitize (map (fun kv => (fst kv, b_value (snd kv))) b) reps [] st;
        let '(ms, ts, st') := s in
        do out <- sanitize_all rest st';
        Ok ((ms, ts) :: out)
    end.
End Sanitize.

(** 856-885 [key_span_for_dict] *)
Definition key_span_for_dict (tree : value) (ms : dict pymatch) : res (option span) :=
  match dget ms ROOT_LABEL with
  | None => Err KeyError
  | Some (PLex v _ _ _ _ _) =>
      do simple <- get_simple_node tree v;
      match simple with
      | None => Ok None
      | Some n => do f <- first_token n; do l <- last_token n; Ok (Some (tk_start f, tk_end l))
      end
  | Some _ => Ok None
  end.

(** base_matchers.py:411-428 [WithReplacements.__attrs_post_init__]: the check of
    the labels. *)
Definition with_replacements (m : matcher) (templates : dict template) : res matcher :=
  do vars <- template_variables templates;
  if forallb (fun x => tmem x (bind_variables m) || startswith (TX "__") x) vars
  then Ok (MWithReplacements m templates) else Err ValueError.
(** 732-740 [from_matcher] *)
Definition from_matcher (m : matcher) (templates : dict template) : res matcher :=
  with_replacements (MBind ROOT_LABEL m None None) templates.

(** 708-885: a searcher for a matcher.  [context] gives the context of [find_iter]
    for a parsed file; every Python file has a tree. *)
Section Searcher.
  Variable parse_ast : text -> text -> res parsed_file.
  Variable context : parsed_file -> pyinfo -> env.
  Variable pass_template : template.

  (** 742-765 [find_dicts_parsed] *)
  Definition find_dicts (m : matcher) (parsed : parsed_file) : res (list (dict pymatch * dict template)) :=
    match pf_py parsed with
    | None => Err AttributeError
    | Some info =>
        let e := context parsed info in
        do found <- matcher_find_iter e m;
        sanitize_all pass_template (e_tree e) (e_tokens e) (map snd found) (Removed [] [])
    end.
  Definition python_searcher (m : matcher) : searcher :=
    Searcher (python_parse parse_ast)
      (fun parsed =>
         do ds <- find_dicts m parsed;
         rewriting_find parsed
           (fun ms => match pf_py parsed with Some info => key_span_for_dict (py_tree info) ms | None => Err AttributeError end) ds)
      default_check None.
End Searcher.
