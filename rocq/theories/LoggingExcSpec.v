(** What the second fixer for logging should do. *)
From Verif Require Import Py Subst ApplySpec Ast Template FromDiff Matcher PatTok PatSpec Pattern PatternSpec PyTemplate PyTemplateSpec FindSpec
  Search PropsExprSub PyCode CorrectnessSpec IdiomSpec LoggingSpec.

(** Something, a double quote, something, all on one line (and perhaps the end of it). *)
Definition quoted (s : text) : Prop :=
  exists w a b, (s = w \/ s = w ++ [10]) /\ w = a ++ [34] ++ b /\ a <> [] /\ b <> [] /\ ~ In 10 w.
(** [return f(...)], [f(...)] or [... = f(...)]; [func] is its [f]. *)
Definition just_calls (st func : value) : Prop :=
  exists i fs j gs, st = VNode i fs /\ In (n_type i) [TX "Return"; TX "Expr"; TX "Assign"]
    /\ dget fs (TX "value") = Some (VNode j gs) /\ n_type j = TX "Call" /\ dget gs (TX "func") = Some func.
(** The innermost [try] around [p] has one such statement in its body, which is
    not [quoted]. *)
Definition only_tries (parsed : parsed_file) (tree : value) (p : path) (func : value) : Prop :=
  exists i fs id st, innermost tree (TX "Try") p (VNode i fs) /\ dget fs (TX "body") = Some (VList id [st]) /\ just_calls st func
    /\ forall a b, m_span (create_match parsed st) = Some (a, b) -> ~ quoted (slice (pf_text parsed) a b).
(** At [p] there is a statement [logging.exception(x)], and the innermost [except]
    around it catches the exception as [x]. *)
Definition logs_caught (parsed : parsed_file) (tree : value) (p : path) (func : value) : Prop :=
  exists c arg x, at_path tree p = Some c /\ made_of (logs_exception arg) c /\ variable_is arg x /\ caught_as tree p x
    /\ only_tries parsed tree p func.
(** What is logged instead. *)
Definition call_failed (f : text) : text := TX "logging.exception('Call to """ ++ f ++ TX """ resulted in an error')".
(** The substitution [sub] replaces such a statement by one that logs the text of the call. *)
Definition described_instead (e : env) (sub : substitution) (l : label) (txt : text) : Prop :=
  exists p c func sp a b, at_path (e_tree e) p = Some c /\ logs_caught (e_parsed e) (e_tree e) p func
    /\ l = TX "logging_exception" /\ m_span (create_match (e_parsed e) c) = Some sp /\ In (l, sp) (matched_spans sub)
    /\ m_span (create_match (e_parsed e) func) = Some (a, b) /\ txt = call_failed (slice (pf_text (e_parsed e)) a b).

(** The fields of [try]. *)
Definition try_grammar (G : grammar) : Prop :=
  G (TX "Try") = [(TX "body", true); (TX "handlers", true); (TX "orelse", true); (TX "finalbody", true)].
Definition described_meta : option text * option text * bool :=
  (Some (TX "logging.exception automatically records the message and full stack trace of the current exception, so it is redundant to pass the exception as the logging message. Instead, prefer to describe what action triggered the exception."),
   Some (TX "idioms.logging.exception"), false).

(** Every position is in the file. *)
Definition spans_in_file (e : env) : Prop :=
  forall v a b, PatternSpec.inside (e_tree e) v -> m_span (create_match (e_parsed e) v) = Some (a, b) -> 0 <= a /\ 0 <= b <= tlen (pf_text (e_parsed e)).

(** *** What one would like to have *)
(** What may be between single quotes. *)
Inductive string_body : text -> Prop :=
  | SB_end : string_body []
  | SB_char c s : c <> 39 -> c <> 92 -> c <> 10 -> string_body s -> string_body (c :: s)
  | SB_escape c s : string_body s -> string_body (92 :: c :: s).
(** The text is a call of [logging.exception] with a string literal. *)
Definition logs_a_string (txt : text) : Prop := exists b, txt = TX "logging.exception('" ++ b ++ TX "')" /\ string_body b.
(** The [try] whose [except] is the innermost around [p]. *)
Definition handled_try (tree : value) (p : path) (i : ninfo) (fs : list (text * value)) : Prop :=
  exists q a b r id hs h, p = q ++ a :: b :: r /\ at_path tree q = Some (VNode i fs) /\ n_type i = TX "Try"
    /\ dget fs (TX "handlers") = Some (VList id hs) /\ at_path tree (q ++ [a]) = Some (VList id hs)
    /\ at_path tree (q ++ [a; b]) = Some h /\ innermost tree (TX "ExceptHandler") p h.
(** All it does is to call [func]. *)
Definition handled_call (tree : value) (p : path) (func : value) : Prop :=
  exists i fs id st, handled_try tree p i fs /\ dget fs (TX "body") = Some (VList id [st]) /\ just_calls st func.
