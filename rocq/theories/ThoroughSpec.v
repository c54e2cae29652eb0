(** That no place is missed: what the fixers should find. *)
From Verif Require Import Py Subst ApplySpec Ast Template FromDiff Matcher FilterSpec PatTok PatSpec Pattern PatternSpec FindSpec SearchSpec
  Search Fixer FixerSpec PyCode BuiltinSpec CorrectnessSpec.

(** *** Expressions that are evaluated *)
(** The context of [v] is [Load], if it has one. *)
Definition evaluated (v : value) : Prop := forall i fs w, v = VNode i fs -> In (TX "ctx", w) fs -> vtype w = TX "Load".
(** The fields whose value is an expression that is evaluated (and not assigned to),
    or a list of such expressions. *)
Definition evaluated_fields : list (text * text) :=
  [(TX "Attribute", TX "value"); (TX "Call", TX "func"); (TX "Compare", TX "left"); (TX "UnaryOp", TX "operand"); (TX "ListComp", TX "elt");
   (TX "SetComp", TX "elt"); (TX "comprehension", TX "iter"); (TX "BinOp", TX "left"); (TX "BinOp", TX "right"); (TX "keyword", TX "value"); (TX "Expr", TX "value")].
Definition evaluated_lists : list (text * text) := [(TX "Call", TX "args"); (TX "Compare", TX "comparators")].
Definition evaluated_exprs (root : value) : Prop :=
  forall i fs f v, PatternSpec.inside root (VNode i fs) -> In (f, v) fs ->
    (In (n_type i, f) evaluated_fields -> evaluated v)
    /\ (In (n_type i, f) evaluated_lists -> forall w, In w (vchildren v) -> evaluated w).
(** Python's parser sees to that. *)
Definition parses_evaluated (ast_parse : text -> res value) : Prop :=
  forall s module, ast_parse s = Ok module -> evaluated_exprs module.

(** *** Places that should be found *)
(** The code reads as the old code of the entry, in the circumstances given there. *)
Definition bug (en : entry) (e : env) (c : value) : Prop :=
  exists parts, made_of (fill parts (en_old en)) c /\ en_when en e c parts.
(** The code is a call of [attr.ib] with a mutable default. *)
Definition shared_default (c : value) : Prop :=
  exists i fs func id kws kw value txt, c = VNode i fs /\ n_type i = TX "Call"
    /\ dget fs (TX "func") = Some func /\ made_of attr_ib func
    /\ dget fs (TX "keywords") = Some (VList id kws) /\ In kw kws /\ default_is value kw /\ In (value, txt) factories.
(** The code reads as the old code of one of the unittest fixers or of the idiom
    fixers for negations, and is evaluated; or it is a comprehension [[a for a in b]]
    or [{a for a in b}]. *)
Definition unidiomatic (c : value) : Prop :=
  (evaluated c /\ exists old new parts, In (old, new) (alias_codes ++ message_codes ++ negation_codes) /\ made_of (fill parts old) c)
  \/ exists elt target iter, same_code_by_id elt target
     /\ (made_of (ListComp (Var elt) (Var target) (Var iter)) c \/ made_of (SetComp (Var elt) (Var target) (Var iter)) c).

(** A fixer that says yes or no everywhere in the file (its matcher raises no
    exception), whose matches are matches of code, and that does not remove
    anything. *)
Definition decisive (e : env) (f : fixer) : Prop :=
  (forall m d v s, matcher_with_meta f = Ok m -> PatternSpec.inside (e_tree e) v ->
     exists s' o, eval (with_done e d) m v s = (s', Ok o)
       /\ forall r b, o = Some r -> r_bindings r = Ok (Some b) -> option_map b_value (dget b (TX "__root")) = Some (create_match (e_parsed e) v))
  /\ forall l t, dget (fixer_templates f) l = Some t -> t_template t <> [].

(** What is known of the positions in a file. *)
Record well_positioned (e : env) : Prop := {
  wp_located : located_exprs (e_tree e);
  wp_evaluated : evaluated_exprs (e_tree e);
  wp_spans : forall v a b, PatternSpec.inside (e_tree e) v -> m_span (create_match (e_parsed e) v) = Some (a, b) ->
    0 <= a /\ 0 <= b <= tlen (pf_text (e_parsed e));
  wp_imports : exists mvs, file_gives (e_tree e) mvs
}.

(** The fixer [f] matches the code [c], with these matches for the labels. *)
Definition matches_here (e : env) (f : fixer) (c : value) (ms : dict pymatch) : Prop :=
  exists m d s s' r b, matcher_with_meta f = Ok m /\ eval (with_done e d) m c s = (s', Ok (Some r)) /\ r_bindings r = Ok (Some b)
    /\ dict_ok ms /\ forall l, dget ms l = option_map b_value (dget b l).
(** The place [q] is dealt with: one of the fixers matches the code there or some
    code around it; there is a substitution of this code, with the metadata of
    that fixer, or else one of the templates of that fixer has raised RewriteError
    for this match. *)
Definition dealt_with (e : env) (fs : list fixer) (subs : list substitution) (q : path) : Prop :=
  exists q' c f ms, under q' q /\ at_path (e_tree e) q' = Some c /\ In f fs /\ matches_here e f c ms
    /\ ((exists sub, In sub subs /\ carries f sub
           /\ forall sp, m_span (create_match (e_parsed e) c) = Some sp -> In (TX "__root", sp) (matched_spans sub))
        \/ (exists l, fills (e_parsed e) ms (fixer_templates f) l (Err RewriteError))).
