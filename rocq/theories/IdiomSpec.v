(** What the fixers for mutable constants and for logging should do. *)
From Verif Require Import Py Subst ApplySpec Ast Template FromDiff Matcher FilterSpec PatTok PatSpec Pattern PatternSpec PyTemplate PyTemplateSpec FindSpec ExprSubSpec
  Search PropsTemplate PropsExprSub PyCode BuiltinSpec CorrectnessSpec.

(** *** Mutable constants *)
(** The name of a constant: capital letters, underscores and digits only; at least
    one of them.  (There may be a newline behind it.) *)
Definition constant_name (decimal : Z -> bool) (s : text) : Prop :=
  exists w, (s = w \/ s = w ++ [10]) /\ w <> [] /\ Forall (fun c => 65 <= c <= 90 \/ c = 95 \/ decimal c = true) w.
Definition looks_constant (decimal : Z -> bool) (e : env) (v : value) : Prop :=
  exists a b, m_span (create_match (e_parsed e) v) = Some (a, b) /\ constant_name decimal (slice (pf_text (e_parsed e)) a b).
(** [C = {...}], [C = {... for ...}], [C = set(x)] *)
Definition constant_is {A} (c v : A) : code A := Assign (Var c) (Var v).
Definition frozen_is {A} (c v : A) : code A := Assign (Var c) (Call (Name (TX "frozenset")) [Var v]).
Definition constant_says : text :=
  TX "For constants, prefer immutable collections (like frozensets or tuples) to mutable collections (like sets or lists).".
Definition constant_category : text := TX "idioms.mutable-constant".
Definition constant_table (decimal : Z -> bool) : list entry :=
  let k := TX "constant" in
  [Entry (constant_is k (TX "set")) (frozen_is k (TX "set"))
     (fun e c parts => looks_constant decimal e (parts k) /\ vtype (parts (TX "set")) = TX "Set") constant_says constant_category;
   Entry (constant_is k (TX "setcomp")) (frozen_is k (TX "setcomp"))
     (fun e c parts => looks_constant decimal e (parts k) /\ vtype (parts (TX "setcomp")) = TX "SetComp") constant_says constant_category;
   Entry (Assign (Var k) (Call (Name (TX "set")) [Var (TX "iterable")])) (frozen_is k (TX "iterable"))
     (fun e c parts => looks_constant decimal e (parts k)) constant_says constant_category].
Definition constant_codes : list (code label * code label) := map (fun en => (en_old en, en_new en)) (constant_table (fun _ => false)).

(** The substitution [sub] replaces the statement [c] at [q] by the text [txt], which is
    the statement [c1].  [c] reads as the old code of the entry and [c1] as the
    new one, with the same code in the places of the variables, and the condition
    of the entry holds. *)
Definition statement_corrected (parse_env : text -> res env) (e : env) (sub : substitution) (l : label) (txt : text) (en : entry) : Prop :=
  exists q c sp e1 c1 parts parts',
    l = TX "__root" /\ at_path (e_tree e) q = Some c
    /\ m_span (create_match (e_parsed e) c) = Some sp /\ In (l, sp) (matched_spans sub)
    /\ parse_env txt = Ok e1 /\ consists_of KStmt (e_tree e1) c1
    /\ made_of (fill parts (en_old en)) c /\ made_of (fill parts' (en_new en)) c1
    /\ (forall x, In x (left_open (en_new en)) -> same_code (parts x) (parts' x))
    /\ en_when en e c parts.

(** *** Logging *)
Definition logging_error {A} : code A := Attr (Name (TX "logging")) (TX "error").
Definition logging_exception {A} : code A := Attr (Name (TX "logging")) (TX "exception").
(** [logging.exception(e)], as a statement. *)
Definition logs_exception {A} (a : A) : code A := Do (Call logging_exception [Var a]).
