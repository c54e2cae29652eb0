(** Model of the syntax-aware templates: refex/python/syntactic_template.py
    117-400 (with [_LexicalTemplate] of 56-115 from PatTok.v).  Definitions only. *)
From Verif Require Import Py Ast Template FromDiff Matcher PatTok Pattern.

(** syntactic_template.py:117-145: [template], [_lexical_template], [_ast_matcher] *)
Record py_template := PyT {
  py_source : text;
  py_lex : lex_template;
  py_matcher : matcher
}.

(** syntactic_template.py:350-370 [_matchers_for_matches] *)
Definition matchers_for_matches (matches : dict pymatch) : dict matcher :=
  map (fun kv => (fst kv,
         match snd kv with
         | PLex v _ _ _ _ _ => if is_expr v then ast_matchers_matcher v else MAnything
         | _ => MAnything
         end)) matches.
Definition parens (s : text) : text := TX "(" ++ s ++ TX ")".

(** [tokenize] and [order] are as in PatTok.v, [ast_parse] is [ast.parse],
    [parse_ast] is [matcher.parse_ast] (with its context: tree, tokens, ...). *)
Section Templates.
  Variable tokenize : text -> res (list ptok).
  Variable order : list nat -> list nat.
  Variable ast_parse : text -> res value.
  Variable parse_ast : text -> res env.

  (** 373-400: the three kinds of templates; the lexical template is made first. *)
  Definition make_template (factory : text -> res matcher) (src : text) : res py_template :=
    do lt <- lexical_template tokenize order src;
    do m <- factory src;
    Ok (PyT src lt m).
  (** [ast_matchers.Module(body=ItemsAre([m]))] *)
  Definition module_of (m : matcher) : matcher :=
    MNode (TX "Module") [(TX "body", MItemsAre [m]); (TX "type_ignores", MAnything)].
  Definition python_template : text -> res py_template :=
    make_template (fun src => module_pattern tokenize order ast_parse src []).
  Definition python_expr_template : text -> res py_template :=
    make_template (fun src =>
      do m <- expr_pattern tokenize order ast_parse src [];
      Ok (module_of (MNode (TX "Expr") [(TX "value", m)]))).
  Definition python_stmt_template : text -> res py_template :=
    make_template (fun src =>
      do m <- stmt_pattern tokenize order ast_parse src [];
      Ok (module_of m)).

  (** syntactic_template.py:304-315: the check of the bindings. *)
  Fixpoint check_bindings (e : env) (matchers : dict matcher) (b : dict bound) : res unit :=
    match b with
    | [] => Ok tt
    | (k, x) :: rest =>
        match dget matchers k with
        | None => Err KeyError
        | Some m =>
            match m_matched (b_value x) with
            | None => Err AttributeError
            | Some v =>
                match snd (eval e m v []) with
                | Err x => Err x
                | Ok None => Err RewriteError
                | Ok (Some RFalse) => Err RewriteError
                | Ok (Some _) => check_bindings e matchers rest
                end
            end
        end
    end.
  (** 320-341: try to drop the parentheses of one variable after the other. *)
  Fixpoint drop_parens (lt : lex_template) (candidate : matcher) (todo : dict text)
    (safe : dict text) (replacement : text) : res (text * dict text) :=
    match todo with
    | [] => Ok (replacement, safe)
    | (k, raw) :: rest =>
        let safe' := dset safe k raw in
        match (do alt <- lex_substitute lt safe'; do e <- parse_ast alt; Ok (alt, e)) with
        | Err ParseError => drop_parens lt candidate rest safe replacement
        | Err x => Err x
        | Ok (alt, e) =>
            match snd (eval e candidate (e_tree e) []) with
            | Err x => Err x
            | Ok None | Ok (Some RFalse) => drop_parens lt candidate rest safe replacement
            | Ok (Some _) => drop_parens lt candidate rest safe' alt
            end
        end
    end.
  (** 259-343 [_parenthesized] *)
  Definition parenthesized (t : py_template) (matchers : dict matcher) (strings : dict text)
    : res (text * dict text) :=
    let safe := map (fun kv => (fst kv, if dmem matchers (fst kv) then parens (snd kv) else snd kv)) strings in
    let todo := filter (fun kv => dmem matchers (fst kv)) strings in
    do replacement <- lex_substitute (py_lex t) safe;
    match parse_ast replacement with
    | Err ParseError => Err RewriteError
    | Err x => Err x
    | Ok e =>
        match snd (eval e (py_matcher t) (e_tree e) []) with
        | Err x => Err x
        | Ok None => Err RewriteError
        | Ok (Some r) =>
            do ob <- r_bindings r;
            do b <- not_none ob;
            do _ <- check_bindings e matchers b;
            drop_parens (py_lex t) (ast_matchers_matcher (e_tree e)) todo safe replacement
        end
    end.

  (** 203-219: up to something that can be parsed on its own.  [None]: the
      replacement is returned as it is.  (Without a parent Python would go on
      with the parent of None; expressions in a tree do not get there.) *)
  Definition compound (v : value) : bool := is_stmt v && has_field v (TX "body").
  Fixpoint reparseable (fuel : nat) (parsed : parsed_file) (tree parent : value) : res (option (value * span)) :=
    match fuel with
    | O => Err OutOfFuel
    | S n =>
        match m_span (create_match parsed parent) with
        | Some sp => if is_expr parent || is_stmt parent then Ok (Some (parent, sp))
                     else climb n parsed tree parent
        | None => climb n parsed tree parent
        end
    end
  with climb (fuel : nat) (parsed : parsed_file) (tree parent : value) : res (option (value * span)) :=
    match fuel with
    | O => Err OutOfFuel
    | S n =>
        match get_parent tree parent with
        | None => Err OutOfFuel
        | Some next => if compound next then Ok None else reparseable n parsed tree next
        end
    end.
  (** 224-250: the replacement in its context. *)
  Definition in_context (txt replacement : text) (parent : value) (context sp : span) : res text :=
    let prefix := slice txt (fst context) (fst sp) in
    let suffix := slice txt (snd sp) (snd context) in
    let prefix := if is_expr parent then TX "(" ++ prefix else prefix in
    let suffix := if is_expr parent then suffix ++ TX ")" else suffix in
    do pseudo <- python_template (prefix ++ TX "$current_expr" ++ suffix);
    do tree <- ast_parse replacement;
    match list_of (vfield tree (TX "body")) with
    | [stmt] =>
        if text_eqb (vtype stmt) (TX "Expr") then
          do r <- parenthesized pseudo
                    [(TX "current_expr", ast_matchers_matcher (vfield stmt (TX "value")))]
                    [(TX "current_expr", replacement)];
          match dget (snd r) (TX "current_expr") with
          | Some s => Ok s
          | None => Err KeyError
          end
        else Err RewriteError
    | _ => Err RewriteError
    end.
  (** 147-257 [substitute_match] *)
  Definition py_substitute (t : py_template) (parsed : parsed_file) (match_ : pymatch)
    (matches : dict pymatch) : res text :=
    do r <- parenthesized t (matchers_for_matches matches) (stringify_matches matches);
    let replacement := fst r in
    match pf_py parsed, match_ with
    | Some info, PLex v _ f l a b =>
        if negb (is_expr v) then Ok replacement
        else
          match get_parent (py_tree info) v with
          | None => Err OutOfFuel
          | Some parent =>
              if text_eqb (vtype parent) (TX "Expr") || compound parent then Ok replacement
              else
                do c <- reparseable (2 * S (vsize (py_tree info))) parsed (py_tree info) parent;
                match c with
                | None => Ok replacement
                | Some (p, sp) => in_context (pf_text parsed) replacement p sp (lex_span f l a b)
                end
          end
    | _, _ => Ok replacement
    end.
  (** As a [Template] object; [variables] are those of the lexical template. *)
  Definition as_template (t : py_template) : template :=
    Template (py_source t) (Ok (lex_variables (py_lex t))) (py_substitute t).
End Templates.
