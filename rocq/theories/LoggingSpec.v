(** What the fixers for logging should do. *)
From Verif Require Import Py Subst ApplySpec Ast Template FromDiff Matcher PatTok PatSpec Pattern PatternSpec PyTemplate PyTemplateSpec FindSpec
  Search PropsExprSub PyCode CorrectnessSpec IdiomSpec.

(** The innermost object of the class [ty] around the place [p]. *)
Definition innermost (tree : value) (ty : text) (p : path) (v : value) : Prop :=
  exists q r, p = q ++ r /\ r <> [] /\ at_path tree q = Some v /\ vtype v = ty
    /\ forall r1 r2 w, r = r1 ++ r2 -> r1 <> [] -> r2 <> [] -> at_path tree (q ++ r1) = Some w -> vtype w <> ty.
Definition string_is (v : value) (x : text) : Prop := exists id, v = VConst id (CStr x).
(** The variable [x]. *)
Definition variable_is (v : value) (x : text) : Prop :=
  exists i fs w, v = VNode i fs /\ n_type i = TX "Name" /\ dget fs (TX "id") = Some w /\ string_is w x.
(** [except ... as x:].  (The name is a string; it used to be a variable.) *)
Definition handler_as (h : value) (x : text) : Prop :=
  exists i fs w, h = VNode i fs /\ n_type i = TX "ExceptHandler" /\ dget fs (TX "name") = Some w /\ (string_is w x \/ variable_is w x).
(** The innermost [except] around [p] gives the exception the name [x]. *)
Definition caught_as (tree : value) (p : path) (x : text) : Prop := exists h, innermost tree (TX "ExceptHandler") p h /\ handler_as h x.
(** An argument [x=...]. *)
Definition keyword_named (x : text) (kw : value) : Prop :=
  exists i fs w, kw = VNode i fs /\ n_type i = TX "keyword" /\ dget fs (TX "arg") = Some w /\ string_is w x.

(** At [p] there is a call [logging.error(..., x, ...)] without [exc_info=], in an
    [except ... as x]; [func] is its [logging.error]. *)
Definition logs_error (tree : value) (p : path) (func : value) : Prop :=
  exists i fs ida args arg x idk kws, at_path tree p = Some (VNode i fs) /\ n_type i = TX "Call"
    /\ dget fs (TX "func") = Some func /\ made_of logging_error func
    /\ dget fs (TX "args") = Some (VList ida args) /\ In arg args /\ variable_is arg x /\ caught_as tree p x
    /\ dget fs (TX "keywords") = Some (VList idk kws) /\ Forall (fun kw => ~ keyword_named (TX "exc_info") kw) kws.
(** The substitution [sub] replaces the [logging.error] of such a call, and nothing
    else of it, by [logging.exception] (in parentheses, if its place asks for them). *)
Definition exception_instead (tokenize : text -> res (list ptok)) (order : list nat -> list nat) (ast_parse : text -> res value)
  (parse_env : text -> res env) (e : env) (sub : substitution) (l : label) (txt : text) : Prop :=
  exists p func q sp, logs_error (e_tree e) p func /\ at_path (e_tree e) q = Some func
    /\ l = TX "logging_error" /\ m_span (create_match (e_parsed e) func) = Some sp /\ In (l, sp) (matched_spans sub)
    /\ put_in tokenize order ast_parse parse_env (e_parsed e) (e_tree e) q func (TX "logging.exception") txt.

(** What is known of the names and arguments in a tree. *)
Record python_nodes (root : value) : Prop := {
  pn_names : forall i fs, PatternSpec.inside root (VNode i fs) -> n_type i = TX "Name" -> exists id x, dget fs (TX "id") = Some (VConst id (CStr x));
  pn_args : forall i fs id l a, PatternSpec.inside root (VNode i fs) -> n_type i = TX "Call" -> dget fs (TX "args") = Some (VList id l) -> In a l -> is_node a = true
}.
Definition error_meta : option text * option text * bool :=
  (Some (TX "Use logging.exception inside an except handler to automatically log the full stack trace of the error"), Some (TX "idioms.logging.exception"), true).
