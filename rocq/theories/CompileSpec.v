(** What the calls in a matcher expression mean (C87). *)
From Verif Require Import Py Regex Ast Matcher PatTok Pattern Pragmas Eval EvalSpec Compile.

(** Passing arguments: [a] gives the argument of each parameter, if there is one.
    Positional ones come first, in the order of the parameters; the others are given by
    name; none is given twice, none is unknown, and those that are required are there. *)
Definition passes (ps : list (text * bool)) (by_name : bool) (args : list obj) (kwargs : dict obj) (a : text -> option obj) : Prop :=
  (by_name = true -> args = []) /\ (length args <= length ps)%nat
  /\ (forall k, In k (dkeys kwargs) -> In k (map fst ps))
  /\ forall i n required, nth_error ps i = Some (n, required) ->
       match nth_error args i with
       | Some o => a n = Some o /\ dget kwargs n = None
       | None => a n = dget kwargs n /\ (required = true -> a n <> None)
       end.

(** The constants and lists of constants that an object is. *)
Inductive written_as : obj -> value -> Prop :=
  | W_const c : written_as (OConst c) (VConst (-1) c)
  | W_list l vs : Forall2 written_as l vs -> written_as (OList l) (VList (-1) vs).
(** What a submatcher that is given (or not) stands for: anything, the matcher itself,
    or equality with the value. *)
Definition is_matcher (o : obj) : Prop := exists m, o = OMatcher m.
Inductive equal_to : obj -> matcher -> Prop :=
  | E_value o v : written_as o v -> equal_to o (MEquals v)
  | E_never o : (forall v, ~ written_as o v) -> equal_to o (MUnless MAnything).
Inductive stands : obj -> matcher -> Prop :=
  | S_matcher m : stands (OMatcher m) m
  | S_equals o m : ~ is_matcher o -> equal_to o m -> stands o m.
Definition submatcher (o : option obj) (m : matcher) : Prop :=
  match o with Some x => stands x m | None => m = MAnything end.

Definition optional {A} (inj : A -> obj) (o : option obj) (x : option A) : Prop :=
  match x with
  | Some c => o = Some (inj c)
  | None => o = None \/ o = Some (OConst CNone)
  end.
Definition string (o : option obj) (s : text) : Prop := o = Some (OConst (CStr s)).
Definition integer (o : obj) (n : Z) : Prop := exists k, (k = KInt \/ k = KBool) /\ exists c, o = OConst (CNum k c) /\ n = c / 2.
(** A list of submatchers. *)
Definition items (o : option obj) (ms : list matcher) : Prop :=
  exists l, Forall2 stands l ms
    /\ (o = Some (OList l) \/ o = Some (OTuple l) \/ (exists vs, o = Some (ODict (combine l vs)) /\ length l = length vs)
        \/ exists s, o = Some (OConst (CStr s)) /\ l = map (fun c => OConst (CStr [c])) s).

Section Spec.
  Variable uni_word : char -> bool.
  Variable full_regex file_regex : text -> res crx.
  Variable hashable : obj -> bool.
  Variable key_code : obj -> Z.
  Variable ast_classes : list (text * list text).
  Variable tokenize : text -> res (list ptok).
  Variable order : list nat -> list nat.
  Variable ast_parse : text -> res value.

  (** Names that can be bound: words that do not begin with two underscores or a digit. *)
  Definition good_name (s : text) : Prop :=
    (forall r, s <> TX "__" ++ r)
    /\ exists c r, s = c :: r /\ (97 <= c <= 122 \/ 65 <= c <= 90 \/ c = 95) /\ Forall (fun x => is_word uni_word x = true) r.

  (** The dictionary of restrictions: later entries replace earlier ones. *)
  Inductive restricts : dict matcher -> list (obj * obj) -> dict matcher -> Prop :=
    | R_nil d : restricts d [] d
    | R_cons d k v m rest d' : stands v m -> restricts (dset d k m) rest d' -> restricts d ((OConst (CStr k), v) :: rest) d'.
  Definition restrictions (o : option obj) (d : dict matcher) : Prop :=
    (o = None /\ d = []) \/ exists l, o = Some (ODict l) /\ restricts [] l d.
  (** The part of a dotted name behind the last dot. *)
  Definition last_name (s r : text) : Prop := ~ In 46 r /\ (s = r \/ exists q, s = q ++ TX "." ++ r).

  (** The classes that take one submatcher. *)
  Definition one_submatcher : list (text * (matcher -> matcher)) :=
    [ (TX "Contains", MContains); (TX "Unless", MUnless); (TX "HasComments", MHasComments); (TX "NoComments", MNoComments);
      (TX "HasParent", MHasParent); (TX "HasChild", MHasChild); (TX "IsOrHasAncestor", MIsOrHasAncestor); (TX "IsOrHasDescendant", MIsOrHasDescendant);
      (TX "HasAncestor", fun m => MHasParent (MIsOrHasAncestor m)); (TX "HasDescendant", fun m => MHasChild (MIsOrHasDescendant m));
      (TX "HasPrevSibling", MHasPrevSibling); (TX "HasNextSibling", MHasNextSibling); (TX "InNamedFunction", MInNamedFunction) ].
  (** Classes for constants; their field can only be given by name. *)
  Definition constant_classes : list (text * text * (matcher -> matcher)) :=
    [ (TX "Num", TX "n", MNum); (TX "Str", TX "s", MStr); (TX "Bytes", TX "s", MBytes); (TX "NameConstant", TX "value", MNameConstant) ].

  (** [builds fresh k ps by_name a m]: the class [k] has the parameters [ps]; with the
      arguments [a], it makes the matcher [m].  [fresh] is a number for the object. *)
  Inductive builds (fresh : nat) : text -> list (text * bool) -> bool -> (text -> option obj) -> matcher -> Prop :=
    | B_anything a : builds fresh (TX "Anything") [] false a MAnything
    | B_raise a : builds fresh (TX "TestOnlyRaise") [(TX "message", true)] false a MRaise
    | B_one k f a m : In (k, f) one_submatcher -> submatcher (a (TX "submatcher")) m ->
        builds fresh k [(TX "submatcher", true)] false a (f m)
    | B_once_own a m : a (TX "key") = None -> submatcher (a (TX "submatcher")) m ->
        builds fresh (TX "Once") [(TX "submatcher", true); (TX "key", false)] false a (MOnce (- 1 - Z.of_nat fresh) m)
    | B_once_key a k m : a (TX "key") = Some k -> hashable k = true -> submatcher (a (TX "submatcher")) m ->
        builds fresh (TX "Once") [(TX "submatcher", true); (TX "key", false)] false a (MOnce (key_code k) m)
    | B_bind a name m c g : string (a (TX "name")) name -> good_name name -> submatcher (a (TX "submatcher")) m ->
        optional OConflict (a (TX "on_conflict")) c -> optional OMerge (a (TX "on_merge")) g ->
        builds fresh (TX "Bind") [(TX "name", true); (TX "submatcher", false); (TX "on_conflict", false); (TX "on_merge", false)] false a (MBind name m c g)
    | B_rebind a m c g : submatcher (a (TX "submatcher")) m ->
        optional OConflict (a (TX "on_conflict")) c -> optional OMerge (a (TX "on_merge")) g ->
        builds fresh (TX "Rebind") [(TX "submatcher", false); (TX "on_conflict", false); (TX "on_merge", false)] false a (MRebind m c g)
    | B_string a s : string (a (TX "string")) s -> builds fresh (TX "StringMatch") [(TX "string", true)] false a (MStringMatch s)
    | B_equals a o m : a (TX "value") = Some o -> equal_to o m -> builds fresh (TX "Equals") [(TX "value", true)] false a m
    | B_type_is a o : a (TX "type") = Some o -> hashable o = true -> builds fresh (TX "TypeIs") [(TX "type", true)] false a (MAnyOf [])
    | B_regex a p r m : string (a (TX "regex")) p -> full_regex p = Ok r -> submatcher (a (TX "subpattern")) m ->
        builds fresh (TX "MatchesRegex") [(TX "regex", true); (TX "subpattern", false)] false a (MMatchesRegex r m)
    | B_file_regex a p r : string (a (TX "regex")) p -> file_regex p = Ok r ->
        builds fresh (TX "FileMatchesRegex") [(TX "regex", true)] false a (MFileMatchesRegex r)
    | B_item a o n m : a (TX "index") = Some o -> integer o n -> submatcher (a (TX "submatcher")) m ->
        builds fresh (TX "HasItem") [(TX "index", true); (TX "submatcher", false)] false a (MHasItem n m)
    | B_items a ms : items (a (TX "matchers")) ms -> builds fresh (TX "ItemsAre") [(TX "matchers", true)] false a (MItemsAre ms)
    | B_lines a l ns : (a (TX "lines") = Some (OList l) \/ a (TX "lines") = Some (OTuple l) \/ a (TX "lines") = Some (OSet l)) -> Forall2 integer l ns ->
        builds fresh (TX "InLines") [(TX "lines", true)] false a (MInLines ns)
    | B_expr a src d m : string (a (TX "pattern")) src -> restrictions (a (TX "restrictions")) d -> expr_pattern tokenize order ast_parse src d = Ok m ->
        builds fresh (TX "ExprPattern") [(TX "pattern", true); (TX "restrictions", false)] false a m
    | B_stmt a src d m : string (a (TX "pattern")) src -> restrictions (a (TX "restrictions")) d -> stmt_pattern tokenize order ast_parse src d = Ok m ->
        builds fresh (TX "StmtPattern") [(TX "pattern", true); (TX "restrictions", false)] false a m
    | B_function a b r : submatcher (a (TX "body")) b -> submatcher (a (TX "returns")) r ->
        builds fresh (TX "NamedFunctionDefinition") [(TX "body", false); (TX "returns", false)] false a (MNamedFunctionDefinition b r)
    | B_import a m module as_name : submatcher (a (TX "submatcher")) m -> string (a (TX "module_name")) module ->
        (string (a (TX "as_name")) as_name \/ a (TX "as_name") = None /\ last_name module as_name) ->
        builds fresh (TX "WithTopLevelImport") [(TX "submatcher", true); (TX "module_name", true); (TX "as_name", false)] false a (MWithTopLevelImport m module as_name)
    | B_const k field f a m : In (k, field, f) constant_classes -> submatcher (a field) m ->
        builds fresh k [(field, false)] true a (f m)
    | B_ellipsis a : builds fresh (TX "Ellipsis") [] false a (MConst [TX "ellipsis"] (MEquals (VConst (-1) CEllipsis)))
    | B_node ty fields a ms : In (ty, fields) ast_classes -> ~ In ty (TX "Ellipsis" :: map (fun x => fst (fst x)) constant_classes) ->
        Forall2 (fun f m => submatcher (a f) m) fields ms ->
        builds fresh ty (map (fun f => (f, false)) fields) true a (MNode ty (combine fields ms)).

  (** A call of the class [k] makes the matcher [m]. *)
  Inductive calls (fresh : nat) : text -> list obj -> dict obj -> matcher -> Prop :=
    | C_all ms : calls fresh (TX "AllOf") (map OMatcher ms) [] (MAllOf ms)
    | C_any ms : calls fresh (TX "AnyOf") (map OMatcher ms) [] (MAnyOf ms)
    | C_class k ps by_name args kwargs a m : builds fresh k ps by_name a m -> passes ps by_name args kwargs a -> calls fresh k args kwargs m.

  (** The names of a class: its own, or behind the name of its module. *)
  Definition module_names : list (text * list text) :=
    [ (TX "base_matchers", [ TX "AllOf"; TX "AnyOf"; TX "Anything"; TX "Bind"; TX "Contains"; TX "Equals"; TX "FileMatchesRegex"; TX "HasItem"; TX "InLines";
         TX "ItemsAre"; TX "MatchesRegex"; TX "MaybeWrapped"; TX "Once"; TX "Rebind"; TX "RecursivelyWrapped"; TX "StringMatch"; TX "TestOnlyRaise"; TX "TypeIs"; TX "Unless" ]);
      (TX "lexical_matchers", [ TX "HasComments"; TX "NoComments" ]);
      (TX "syntax_matchers", [ TX "ExprPattern"; TX "HasAncestor"; TX "HasChild"; TX "HasDescendant"; TX "HasNextSibling"; TX "HasParent"; TX "HasPrevSibling";
         TX "InNamedFunction"; TX "IsOrHasAncestor"; TX "IsOrHasDescendant"; TX "NamedFunctionDefinition"; TX "StmtPattern"; TX "WithTopLevelImport" ]) ].
  Definition names_of_module (module : text) (k : text) : Prop :=
    (exists ks, In (module, ks) module_names /\ In k ks)
    \/ module = TX "ast_matchers" /\ (In k (TX "Ellipsis" :: map (fun x => fst (fst x)) constant_classes) \/ In k (map fst ast_classes)).
  Definition named (n k : text) : Prop := exists module, names_of_module module k /\ (n = k \/ n = module ++ TX "." ++ k).

  (** Python's ast module: classes and fields have different names, without dots, and no
      class has the name of one in the other modules. *)
  Definition ast_module : Prop :=
    NoDup (map fst ast_classes) /\ Forall (fun nf => NoDup (snd nf) /\ ~ In 46 (fst nf)) ast_classes
    /\ forall module ks k, In (module, ks) module_names -> In k ks -> ~ In k (map fst ast_classes).

  Definition conflict_names : list (text * conflict) :=
    [ (TX "MERGE", MERGE); (TX "SKIP", SKIP); (TX "ERROR", ERROR); (TX "MERGE_IDENTICAL", MERGE_IDENTICAL); (TX "MERGE_IDENTICAL_OR_ERROR", MERGE_IDENTICAL_OR_ERROR);
      (TX "MERGE_EQUIVALENT_AST", MERGE_EQUIVALENT_AST); (TX "MERGE_EQUIVALENT_AST_OR_ERROR", MERGE_EQUIVALENT_AST_OR_ERROR) ].
  Definition merge_names : list (text * merge) := [ (TX "KEEP_FIRST", KEEP_FIRST); (TX "KEEP_LAST", KEEP_LAST) ].

  (** The whole expression: constants, displays, names of constants, and calls.  The
      numbers count the calls, from left to right. *)
  Variable negate_other : const -> const.     (* 0 - x, for floats and complex numbers x *)
  Inductive spells : nat -> pexpr -> nat -> obj -> Prop :=
    | P_const i c : spells i (EConst c) i (OConst c)
    | P_minus_int i c : spells i (EUnary (TX "USub") (EConst (CNum KInt c))) i (OConst (CNum KInt (- c)))
    | P_minus_other i k c : k <> KBool -> k <> KInt -> spells i (EUnary (TX "USub") (EConst (CNum k c))) i (OConst (negate_other (CNum k c)))
    | P_tuple i l j os : spells_all i l j os -> spells i (ETuple l) j (OTuple os)
    | P_list i l j os : spells_all i l j os -> spells i (EList l) j (OList os)
    | P_set i l j os : spells_all i l j os -> Forall (fun o => hashable o = true) os -> spells i (ESet l) j (OSet os)
    | P_dict i l j os : spells_pairs i l j os -> Forall (fun ab => hashable (fst ab) = true) os -> spells i (EDict l) j (ODict os)
    | P_anything i e : dotted e (TX "_") -> spells i e i (OMatcher MAnything)
    | P_conflict i e name c : dotted e (TX "BindConflict." ++ name) -> In (name, c) conflict_names -> spells i e i (OConflict c)
    | P_merge i e name g : dotted e (TX "BindMerge." ++ name) -> In (name, g) merge_names -> spells i e i (OMerge g)
    | P_call i f n k args kws j os l ks m :
        dotted f n -> named n k -> starless args kws -> spells_all i args j os -> spells_kws j kws l ks ->
        calls l k os (fold_left (fun d kv => dset d (fst kv) (snd kv)) ks []) m ->
        spells i (ECall f args kws) (S l) (OMatcher m)
  with spells_all : nat -> list pexpr -> nat -> list obj -> Prop :=
    | PA_nil i : spells_all i [] i []
    | PA_cons i x j o l k os : spells i x j o -> spells_all j l k os -> spells_all i (x :: l) k (o :: os)
  with spells_kws : nat -> list (option text * pexpr) -> nat -> dict obj -> Prop :=
    | PK_nil i : spells_kws i [] i []
    | PK_cons i n x j o l k os : spells i x j o -> spells_kws j l k os -> spells_kws i ((Some n, x) :: l) k ((n, o) :: os)
  with spells_pairs : nat -> list (option pexpr * pexpr) -> nat -> list (obj * obj) -> Prop :=
    | PP_nil i : spells_pairs i [] i []
    | PP_cons i y x j a k b l n os : spells i y j a -> spells j x k b -> spells_pairs k l n os -> spells_pairs i ((Some y, x) :: l) n ((a, b) :: os).
End Spec.
