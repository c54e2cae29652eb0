(** Model of the rest of refex/fix/fixers/idiom_fixers.py: the fixers for mutable
    constants and for logging, and the list of all of them.  (Not modelled: the
    ones for [return None], 85-186, which are not in that list.)  Definitions
    only.  The fields are those of the classes in Python 3.11. *)
From Verif Require Import Py Regex Ast Template FromDiff Matcher PatTok Pattern PyTemplate Fixer BuiltinFixers CorrectnessFixers.

(** 38 [_CONSTANT_MATCHER]: the regular expression [[A-Z_\d]+], where [decimal] are
    the characters that [\d] matches. *)
Definition constant_char (decimal : Z -> bool) (c : Z) : bool := ((65 <=? c) && (c <=? 90)) || (c =? 95) || decimal c.
Definition constant_re (decimal : Z -> bool) : re := Seq (Cls (constant_char decimal)) (Star (Cls (constant_char decimal))).
Definition constant_matcher (decimal : Z -> bool) : matcher := MMatchesRegex (dollar (constant_re decimal)) MAnything.
(** [ast_matchers.Set()], [ast_matchers.SetComp()] *)
Definition any_set : matcher := MNode (TX "Set") [(TX "elts", MAnything)].
Definition any_set_comp : matcher := MNode (TX "SetComp") [(TX "elt", MAnything); (TX "generators", MAnything)].
(** The regular expression of 358: something, a double quote, something (without newlines). *)
Definition quoted_re : re :=
  let dot := Cls (fun c => negb (c =? 10)) in
  Seq (Seq dot (Star dot)) (Seq (Cls (fun c => c =? 34)) (Seq dot (Star dot))).

(** 246-267 [_in_exception_handler]; both uses have [MERGE_IDENTICAL] and the
    identifier [e]. *)
Definition bind_e : matcher := MBind (TX "e") MAnything (Some MERGE_IDENTICAL) None.
Definition handler (name : matcher) : matcher :=
  MNode (TX "ExceptHandler") [(TX "type", MAnything); (TX "name", name); (TX "body", MAnything)].
Definition name_with (id : matcher) : matcher := MNode (TX "Name") [(TX "id", id); (TX "ctx", MAnything)].
Definition in_exception_handler : matcher :=
  MHasFirstAncestor (handler MAnything) (handler (MAnyOf [name_with bind_e; bind_e])).
(** 243 [_Try]: [ast_matchers.Try] *)
Definition try_ (body : matcher) : matcher :=
  MNode (TX "Try") [(TX "body", body); (TX "handlers", MAnything); (TX "orelse", MAnything); (TX "finalbody", MAnything)].
Definition call_of (func args keywords : matcher) : matcher :=
  MNode (TX "Call") [(TX "func", func); (TX "args", args); (TX "keywords", keywords)].

Section Idioms.
  Variable tokenize : text -> res (list ptok).
  Variable order : list nat -> list nat.
  Variable ast_parse : text -> res value.
  Variable parse_env : text -> res env.
  Variable decimal : Z -> bool.

  (** 73-82 [_mutable_constant_fixer], with a StmtPattern and a PythonStmtTemplate *)
  Definition mutable_constant_fixer (x : text * dict matcher * text) : res fixer :=
    let '(old, restrictions, new) := x in
    do m <- stmt_pattern tokenize order ast_parse old restrictions;
    do t <- python_stmt_template tokenize order ast_parse new;
    Ok (Fixer m (inl (as_template tokenize order ast_parse parse_env t))
          (Some (TX "For constants, prefer immutable collections (like frozensets or tuples) to mutable collections (like sets or lists)."))
          (Some (TX "https://refex.readthedocs.io/en/latest/guide/fixers/mutable_constants.html"))
          (Some (TX "idioms.mutable-constant")) false).
  (** 188-238 [_MUTABLE_CONSTANT_FIXERS]: pattern, restrictions, replacement *)
  Definition constant_entries : list (text * dict matcher * text) :=
    [(TX "$constant = $set", [(TX "constant", constant_matcher decimal); (TX "set", any_set)], TX "$constant = frozenset($set)");
     (TX "$constant = $setcomp", [(TX "constant", constant_matcher decimal); (TX "setcomp", any_set_comp)], TX "$constant = frozenset($setcomp)");
     (TX "$constant = set($iterable)", [(TX "constant", constant_matcher decimal)], TX "$constant = frozenset($iterable)")].
  Definition constant_fixers : res (list fixer) := mapM mutable_constant_fixer constant_entries.

  (** 270-309: the first of [_LOGGING_FIXERS].  (The identity of the constant is
      arbitrary.) *)
  Definition logging_error_matcher : res matcher :=
    do f <- expr_pattern tokenize order ast_parse (TX "logging.error") [];
    Ok (MAllOf [call_of (MBind (TX "logging_error") f None None)
                  (MContains (MAllOf [in_exception_handler; name_with bind_e]))
                  (MUnless (MContains (MNode (TX "keyword") [(TX "arg", MEquals (VConst 0 (CStr (TX "exc_info")))); (TX "value", MAnything)])))]).
  Definition logging_error_fixer : res fixer :=
    do m <- logging_error_matcher;
    do t <- python_stmt_template tokenize order ast_parse (TX "logging.exception");
    Ok (Fixer m (inr [(TX "logging_error", as_template tokenize order ast_parse parse_env t)])
          (Some (TX "Use logging.exception inside an except handler to automatically log the full stack trace of the error"))
          (Some (TX "https://refex.readthedocs.io/en/latest/guide/fixers/logging_exceptions.html"))
          (Some (TX "idioms.logging.exception")) true).
  (** 310-383: the second *)
  Definition call_func : matcher := call_of (MBind (TX "func") MAnything None None) MAnything MAnything.
  Definition only_call : matcher :=
    MAllOf [MAnyOf [MNode (TX "Return") [(TX "value", call_func)];
                    MNode (TX "Expr") [(TX "value", call_func)];
                    MNode (TX "Assign") [(TX "targets", MAnything); (TX "value", call_func); (TX "type_comment", MAnything)]];
            MUnless (MMatchesRegex (dollar quoted_re) MAnything)].
  Definition logging_exception_matcher : res matcher :=
    do m <- stmt_pattern tokenize order ast_parse (TX "logging.exception($arg)") [(TX "arg", name_with (MBind (TX "e") MAnything None None))];
    Ok (MAllOf [MBind (TX "logging_exception") (MRebind m (Some MERGE_IDENTICAL) None) None None;
                in_exception_handler;
                MHasFirstAncestor (try_ MAnything) (try_ (MAllOf [MItemsAre [only_call]]))]).
  Definition logging_exception_fixer : res fixer :=
    do m <- logging_exception_matcher;
    Ok (Fixer m (inr [(TX "logging_exception", sh_template (TX "logging.exception('Call to """ ++ TX "$func"" resulted in an error')"))])
          (Some (TX "logging.exception automatically records the message and full stack trace of the current exception, so it is redundant to pass the exception as the logging message. Instead, prefer to describe what action triggered the exception."))
          (Some (TX "https://refex.readthedocs.io/en/latest/guide/fixers/logging_exceptions.html"))
          (Some (TX "idioms.logging.exception")) false).

  (** 386-402 [SIMPLE_PYTHON_FIXERS] *)
  Definition idiom_fixers : res (list fixer) :=
    do n <- negation_fixers tokenize order ast_parse parse_env;
    do c <- comprehension_fixers tokenize order ast_parse parse_env;
    do k <- constant_fixers;
    do e <- logging_error_fixer;
    do x <- logging_exception_fixer;
    Ok (n ++ c ++ k ++ [e; x]).
End Idioms.
