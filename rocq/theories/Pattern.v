(** Model of the AST patterns: refex/python/matchers/syntax_matchers.py 188-540
    (with the renaming of 128-185 from PatTok.v).  Definitions only. *)
From Verif Require Import Py Ast Template FromDiff Matcher PatTok.

(** [tree.id] of a [Name] *)
Definition name_id (v : value) : option text :=
  match v with
  | VNode i _ => if text_eqb (n_type i) (TX "Name") then str_of (vfield v (TX "id")) else None
  | _ => None
  end.
(** 300-301: the field is left out, which makes it [Anything()]. *)
Definition ignored_field (ty f : text) : bool := text_eqb f (TX "ctx") && text_eqb ty (TX "Name").

(** syntax_matchers.py:274-303 [_ast_pattern] *)
Fixpoint ast_pattern (variables : dict matcher) (tree : value) : matcher :=
  match tree with
  | VList _ l => MItemsAre (map (ast_pattern variables) l)
  | VConst _ _ => MEquals tree
  | VNode i fs =>
      let node := MNode (n_type i)
                    (map (fun kv => (fst kv, if ignored_field (n_type i) (fst kv) then MAnything
                                             else ast_pattern variables (snd kv))) fs) in
      match name_id tree with
      | Some n => match dget variables n with Some m => m | None => node end
      | None => node
      end
  end.
(** syntax_matchers.py:269-271 [ast_matchers_matcher] *)
Definition ast_matchers_matcher (tree : value) : matcher := ast_pattern [] tree.

(** syntax_matchers.py:313-319: the ids that [VariableVisitor] sees: it does not go
    below a Name.  (Lists inside of lists, which the visitor would skip, do not
    occur.) *)
Fixpoint name_ids (v : value) : list text :=
  match v with
  | VNode i fs =>
      if text_eqb (n_type i) (TX "Name")
      then match name_id v with Some n => [n] | None => [] end
      else flat_map (fun kv => name_ids (snd kv)) fs
  | VList _ l => flat_map name_ids l
  | VConst _ _ => []
  end.
(** syntax_matchers.py:306-332 [_verify_variables] *)
Definition verify_variables (tree : value) (variables : dict text) : res unit :=
  let remapped_to_original := fold_left (fun d kv => dset d (snd kv) (fst kv)) variables [] in
  let found := flat_map (fun n => match dget remapped_to_original n with Some x => [x] | None => [] end)
                        (name_ids tree) in
  if forallb (fun x => tmem x found) (dkeys variables) then Ok tt else Err ValueError.

(** syntax_matchers.py:238-247 [_pull_stmt] *)
Definition pull_stmt (tree : value) : res value :=
  if negb (text_eqb (vtype tree) (TX "Module")) then Err ValueError
  else match list_of (vfield tree (TX "body")) with
       | [stmt] => Ok stmt
       | _ => Err ValueError
       end.
(** syntax_matchers.py:250-266 [_pull_expr] *)
Definition pull_expr (tree : value) : res value :=
  do stmt <- pull_stmt tree;
  if negb (text_eqb (vtype stmt) (TX "Expr")) then Err ValueError
  else Ok (vfield stmt (TX "value")).

(** syntax_matchers.py:211-226: the new submatchers. *)
Definition submatchers (restrictions : dict matcher) (variables : dict text) (anonymous : list text)
  : dict matcher :=
  fold_left (fun d kv =>
               dset d (snd kv)
                 (MBind (fst kv) (or_default (dget restrictions (fst kv)) MAnything)
                        (Some MERGE_EQUIVALENT_AST) None))
            variables
            (fold_left (fun d n => dset d n MAnything) anonymous []).
(** [Rebind(..., on_conflict=MERGE, on_merge=KEEP_LAST)] *)
Definition rebound (m : matcher) : matcher := MRebind m (Some MERGE) (Some KEEP_LAST).

(** syntax_matchers.py:188-226 [_rewrite_submatchers] and 357-370 [_get_matcher]
    with a subclass's [_pull_ast].  [parse] is [ast.parse]. *)
Section Patterns.
  Variable tokenize : text -> res (list ptok).
  Variable order : list nat -> list nat.
  Variable parse : text -> res value.

  Definition rewrite_submatchers (pattern : text) (restrictions : dict matcher)
    : res (text * dict text * dict matcher) :=
    do r <- remap_macro_variables tokenize order pattern;
    let '(src, variables, anonymous) := r in
    if forallb (dmem variables) (dkeys restrictions)
    then Ok (src, variables, submatchers restrictions variables anonymous)
    else Err KeyError.
  Definition remapped_ast (pattern : text) (restrictions : dict matcher)
    : res (value * dict text * dict matcher) :=
    do r <- rewrite_submatchers pattern restrictions;
    let '(src, variables, subs) := r in
    do tree <- parse src;
    Ok (tree, variables, subs).
  Definition base_ast_pattern (pull : value -> res value) (pattern : text) (restrictions : dict matcher)
    : res matcher :=
    match remapped_ast pattern restrictions with
    | Err SyntaxError => Err ValueError
    | Err x => Err x
    | Ok (tree, variables, subs) =>
        do _ <- verify_variables tree variables;
        do t <- pull tree;
        Ok (rebound (ast_pattern subs t))
    end.
  (** syntax_matchers.py:386-409, 412-434, 530-540.  Their [_match] and
      [type_filter] are those of the matcher. *)
  Definition expr_pattern := base_ast_pattern pull_expr.
  Definition stmt_pattern := base_ast_pattern pull_stmt.
  Definition module_pattern := base_ast_pattern (fun t => Ok t).
End Patterns.

(** syntax_matchers.py:478-524: [StmtFromFunctionPattern._get_matcher], for the
    names of the parameters and the parsed source of the function.  (Its
    [type_filter] is None, not the matcher's.) *)
Definition is_str_expr (v : value) : bool :=
  text_eqb (vtype v) (TX "Expr") && text_eqb (vtype (vfield v (TX "value"))) (TX "Constant")
  && is_some (str_of (vfield (vfield v (TX "value")) (TX "value"))).
Definition function_pattern (args : list text) (parsed : res value) : res matcher :=
  match parsed with
  | Err SyntaxError => Err ValueError
  | Err x => Err x
  | Ok tree =>
      match list_of (vfield tree (TX "body")) with
      | [] => Err IndexError
      | fn :: _ =>
          match list_of (vfield fn (TX "body")) with
          | [] => Err IndexError
          | s :: rest =>
              match (if is_str_expr s then rest else s :: rest) with
              | [] => Err ValueError
              | stmt :: _ =>
                  if text_eqb (vtype stmt) (TX "Pass") then Err ValueError
                  else Ok (rebound (ast_pattern
                         (fold_left (fun d x => dset d x (MBind x MAnything (Some MERGE_EQUIVALENT_AST) None))
                                    args []) stmt))
              end
          end
      end
  end.
