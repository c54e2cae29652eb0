(** What the built-in fixers should do. *)
From Verif Require Import Py Subst ApplySpec Ast Template FromDiff Matcher PatTok PatSpec Pattern PatternSpec PyTemplate PyTemplateSpec FindSpec ExprSubSpec Search PropsTemplate PropsExprSub
  PyCode BuiltinFixers.

(** *** The tables, as expressions *)
Definition lhs : code label := Var (TX "lhs").
Definition rhs : code label := Var (TX "rhs").
Definition self_call (m : text) (args : list (code label)) : code label := Call (Attr (Name (TX "self")) m) args.
Definition isinstance_ : code label := Call (Name (TX "isinstance")) [lhs; rhs].
Definition alias_codes : list (code label * code label) :=
  [(Attr (Name (TX "self")) (TX "assertItemsEqual"), Attr (Name (TX "self")) (TX "assertCountEqual"))].
Definition message_codes : list (code label * code label) :=
  let t op := self_call (TX "assertTrue") [Compare op lhs rhs] in
  let f op := self_call (TX "assertFalse") [Compare op lhs rhs] in
  let n m := self_call m [lhs; rhs] in
  [(t Eq, n (TX "assertEqual")); (t NotEq, n (TX "assertNotEqual")); (t Eq, n (TX "assertEqual")); (t NotEq, n (TX "assertNotEqual"));
   (t Is, n (TX "assertIs")); (t IsNot, n (TX "assertIsNot")); (f Is, n (TX "assertIsNot")); (f IsNot, n (TX "assertIs"));
   (t In_, n (TX "assertIn")); (t NotIn, n (TX "assertNotIn")); (f In_, n (TX "assertNotIn")); (f NotIn, n (TX "assertIn"));
   (t Gt, n (TX "assertGreater")); (t GtE, n (TX "assertGreaterEqual")); (t Lt, n (TX "assertLess")); (t LtE, n (TX "assertLessEqual"));
   (self_call (TX "assertTrue") [isinstance_], n (TX "assertIsInstance"));
   (self_call (TX "assertTrue") [Not isinstance_], n (TX "assertNotIsInstance"));
   (self_call (TX "assertFalse") [isinstance_], n (TX "assertNotIsInstance"));
   (self_call (TX "assertFalse") [Not isinstance_], n (TX "assertIsInstance"));
   (self_call (TX "assertLen") [Var (TX "x"); Int 0], self_call (TX "assertEmpty") [Var (TX "x")])].
Definition negation_codes : list (code label * code label) :=
  let a := Var (TX "a") in let b := Var (TX "b") in
  [(Not (Compare Is a b), Compare IsNot a b); (Not (Compare In_ a b), Compare NotIn a b)].
Definition comprehension_codes : list (code label * code label) :=
  let a := Var (TX "a") in let b := Var (TX "b") in
  [(ListComp a a b, Call (Name (TX "list")) [b]); (SetComp a a b, Call (Name (TX "set")) [b])].

(** What is said about them: message, category, and whether it is significant.  The
    messages show dots in the places of the variables. *)
Definition dots (c : code label) : text := show (fun _ => TX "...") c.
Definition alias_meta (oc : code label * code label) : option text * option text * bool :=
  (Some (dots (fst oc) ++ TX " is a deprecated alias for " ++ dots (snd oc) ++ TX " in the unittest module."), Some (TX "pylint.g-deprecated-assert"), false).
Definition message_meta (oc : code label * code label) : option text * option text * bool :=
  (Some (dots (snd oc) ++ TX " is a more specific assertion, and may give more detailed error information than " ++ dots (fst oc) ++ TX "."),
   Some (TX "pylint.g-generic-assert"), true).
Definition idiom_meta (category : text) (oc : code label * code label) : option text * option text * bool :=
  (Some (TX "This could be more Pythonic: " ++ dots (fst oc) ++ TX " -> " ++ dots (snd oc) ++ TX "."), Some category, false).

Definition written (old new : text) (oc : code label * code label) : Prop := old = source (fst oc) /\ new = source (snd oc).
(** The code [old] with these parts does the same as [new] with parts that do the
    same as them. *)
Definition same_meaning (oc : code label * code label) : Prop :=
  forall parts parts' c c1, made_of (fill parts (fst oc)) c -> made_of (fill parts' (snd oc)) c1 ->
  forall St Exn Val (P : python St Exn Val), laws P ->
    (forall x, In x (left_open (snd oc)) -> same (exec P (parts x)) (exec P (parts' x))) -> same_behaviour P c c1.


(** The substitution [sub] replaces the code [c] at [q], which is an occurrence of the
  pattern [old], by the template [new] filled in with what the metavariables
  stand for: the text [r], which goes into its place as [txt]. *)
Definition rewritten_as (k : template_kind) (tokenize : text -> res (list ptok)) (order : list nat -> list nat) (ast_parse : text -> res value)
  (parse_env : text -> res env) (e : env) (old new : text) (sub : substitution) (l : label) (txt : text)
  (holes : text -> option hole) (p : value) (q : path) (c : value) (occ : list (label * pymatch)) (ms : dict pymatch)
  (holes' : text -> option hole) (p' : value) (t : py_template) (r : text) (safe : dict text) : Prop :=
  l = TX "__root" /\ at_path (e_tree e) q = Some c
  /\ (exists sp, m_span (create_match (e_parsed e) c) = Some sp /\ In (l, sp) (matched_spans sub))
  /\ has_tree tokenize ast_parse k old holes p /\ occurrence e holes p c occ /\ seen e c occ ms
  /\ has_tree tokenize ast_parse k new holes' p'
  /\ template_of tokenize order ast_parse k new = Ok t
  /\ filled_in parse_env k (py_lex t) holes' p' (bound_expr ms) (stringify_matches ms) r safe
  /\ put_in tokenize order ast_parse parse_env (e_parsed e) (e_tree e) q c r txt.
(** For expressions. *)
Definition rewritten := rewritten_as KExpr.

(** Before and after: with these expressions as the texts of a fixer, the
    substitution [sub] replaces the code [c] at [q] by the text [txt]; the text
    that the template makes, without the parentheses that may be needed in this
    place, is the expression [c1].  [c] reads as [old] and [c1] as [new], with the
    same code in the places of the variables, and they do the same. *)
Definition equivalent_rewrite (tokenize : text -> res (list ptok)) (order : list nat -> list nat) (ast_parse : text -> res value)
  (parse_env : text -> res env) (e : env) (sub : substitution) (l : label) (txt : text) (old new : code label) : Prop :=
  exists q c sp r e1 c1 parts parts',
    l = TX "__root" /\ at_path (e_tree e) q = Some c
    /\ m_span (create_match (e_parsed e) c) = Some sp /\ In (l, sp) (matched_spans sub)
    /\ put_in tokenize order ast_parse parse_env (e_parsed e) (e_tree e) q c r txt
    /\ parse_env r = Ok e1 /\ consists_of KExpr (e_tree e1) c1
    /\ made_of (fill parts old) c /\ made_of (fill parts' new) c1
    /\ (forall x, In x (left_open new) -> same_code (parts x) (parts' x))
    /\ forall St Exn Val (P : python St Exn Val), laws P ->
       (forall x, In x (left_open new) -> same (exec P (parts x)) (exec P (parts' x))) -> same_behaviour P c c1.
(** The same for [[$a for $a in $b]] and [list($b)] or [set($b)], where [$a] is a
    name. *)
Definition equivalent_comprehension (tokenize : text -> res (list ptok)) (order : list nat -> list nat) (ast_parse : text -> res value)
  (parse_env : text -> res env) (e : env) (sub : substitution) (l : label) (txt : text) : Prop :=
  exists q c sp r e1 c1 elt target iter iter' (comp : code value -> code value -> code value -> code value) (f : text),
    l = TX "__root" /\ at_path (e_tree e) q = Some c
    /\ m_span (create_match (e_parsed e) c) = Some sp /\ In (l, sp) (matched_spans sub)
    /\ put_in tokenize order ast_parse parse_env (e_parsed e) (e_tree e) q c r txt
    /\ parse_env r = Ok e1 /\ consists_of KExpr (e_tree e1) c1
    /\ (comp = ListComp /\ f = TX "list" \/ comp = SetComp /\ f = TX "set")
    /\ made_of (comp (Var elt) (Var target) (Var iter)) c /\ made_of (Call (Name f) [Var iter']) c1
    /\ same_code elt target /\ same_code iter iter'
    /\ forall n St Exn Val (P : python St Exn Val), laws P -> is_name target n -> same (exec P iter) (exec P iter') -> same_behaviour P c c1.
