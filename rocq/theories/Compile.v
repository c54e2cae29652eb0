(** Model of the classes that a matcher expression can call (--mode=py): their
    constructors, [coerce], and the table of refex/python/evaluate.py.  Definitions only.

    A constructor that is given something of a type that it is not made for (an index
    that is no int, a module name that is no string, ...) raises a TypeError here; in
    the program, that happens when the matcher is first used, or it never matches. *)
From Verif Require Import Py Regex Ast Matcher PatTok Pattern Pragmas Eval.

(** Python objects: what the expressions can evaluate to. *)
Inductive obj :=
  | OConst (c : const)
  | OTuple (l : list obj)
  | OList (l : list obj)
  | OSet (l : list obj)
  | ODict (l : list (obj * obj))
  | OMatcher (m : matcher)
  | OConflict (c : conflict)
  | OMerge (g : merge).

(** The objects that can be equal to something in a syntax tree.  (Tuples, sets,
    dictionaries, matchers and enum constants never are.  Identities of the items of a
    list do not occur in trees.) *)
Fixpoint as_value (o : obj) : option value :=
  match o with
  | OConst c => Some (VConst (-1) c)
  | OList l =>
      match (fix go (l : list obj) : option (list value) :=
               match l with
               | [] => Some []
               | x :: rest => match as_value x, go rest with Some v, Some vs => Some (v :: vs) | _, _ => None end
               end) l with
      | Some vs => Some (VList (-1) vs)
      | None => None
      end
  | _ => None
  end.
Definition never : matcher := MUnless MAnything.
(** matcher.py:993-1013 [ImplicitEquals] *)
Definition implicit_equals (o : obj) : matcher := match as_value o with Some v => MEquals v | None => never end.
(** matcher.py:204-217 [coerce] *)
Definition coerce (o : obj) : matcher := match o with OMatcher m => m | _ => implicit_equals o end.
(** 220-221 [_coerce_list], for the iterables that can be written (not bytes and sets). *)
Definition coerce_list (o : obj) : res (list matcher) :=
  match o with
  | OList l | OTuple l => Ok (map coerce l)
  | ODict l => Ok (map (fun kv => coerce (fst kv)) l)
  | OConst (CStr s) => Ok (map (fun c => coerce (OConst (CStr [c]))) s)
  | _ => Err TypeError
  end.

(** A class: its name, whether it was registered with [safe_to_eval], the parameters
    of its constructor (name, whether it must be given), whether they can only be given
    by name, and what the constructor does with the arguments in this order (None: not
    given), and the calls before.  [c_params] is None for [*matchers]. *)
Record cls := Cls {
  c_name : text;
  c_safe : bool;
  c_params : option (list (text * bool));
  c_by_name : bool;
  c_build : nat -> list (option obj) -> res matcher
}.

(** How Python passes arguments to parameters. *)
Fixpoint pass (ps : list (text * bool)) (args : list obj) (kwargs : dict obj) : res (list (option obj)) :=
  match ps with
  | [] => match args with [] => Ok [] | _ :: _ => Err TypeError end
  | (n, required) :: ps' =>
      match args with
      | a :: args' =>
          if dmem kwargs n then Err TypeError
          else do rest <- pass ps' args' kwargs; Ok (Some a :: rest)
      | [] =>
          match dget kwargs n with
          | Some o => do rest <- pass ps' [] kwargs; Ok (Some o :: rest)
          | None => if required then Err TypeError else do rest <- pass ps' [] kwargs; Ok (None :: rest)
          end
      end
  end.
Definition pass_all (ps : list (text * bool)) (by_name : bool) (args : list obj) (kwargs : dict obj) : res (list (option obj)) :=
  if by_name && negb (match args with [] => true | _ => false end) then Err TypeError
  else if forallb (fun n => tmem n (map fst ps)) (dkeys kwargs) then pass ps args kwargs
  else Err TypeError.
(** A call of the class.  With [*matchers], there are no parameters with names. *)
Definition instantiate (c : cls) : callable obj := fun h args kwargs =>
  do os <- match c_params c with
           | Some ps => pass_all ps (c_by_name c) args kwargs
           | None => match kwargs with [] => Ok (map Some args) | _ :: _ => Err TypeError end
           end;
  do m <- c_build c (length h) os; Ok (OMatcher m).

(** *** The constructors *)
(** A submatcher; the default is Anything(). *)
Definition sub (o : option obj) : matcher := match o with Some x => coerce x | None => MAnything end.
(** base_matchers.py:128-137 [_NAryMatcher.__init__]: the submatchers are NOT coerced; other
    objects have no [match] (an AttributeError, once they are used). *)
Fixpoint only_matchers (l : list (option obj)) : res (list matcher) :=
  match l with
  | [] => Ok []
  | Some (OMatcher m) :: rest => do ms <- only_matchers rest; Ok (m :: ms)
  | _ => Err AttributeError
  end.
(** [attr.validators.in_(frozenset(BindConflict) | {None})] *)
Definition conflict_of (o : option obj) : res (option conflict) :=
  match o with
  | None | Some (OConst CNone) => Ok None
  | Some (OConflict c) => Ok (Some c)
  | _ => Err ValueError
  end.
Definition merge_of (o : option obj) : res (option merge) :=
  match o with
  | None | Some (OConst CNone) => Ok None
  | Some (OMerge g) => Ok (Some g)
  | _ => Err ValueError
  end.
Definition str_arg (o : option obj) : res text := match o with Some (OConst (CStr s)) => Ok s | _ => Err TypeError end.
(** [rsplit('.', 1)[-1]] *)
Definition last_part (s : text) : text :=
  rev ((fix go (l : text) : text := match l with [] => [] | c :: r => if c =? 46 then [] else c :: go r end) (rev s)).
(** Integers, bool being a subclass of int (Ast.v: the integer n has the code 2n). *)
Definition int_of (o : obj) : res Z :=
  match o with
  | OConst (CNum KInt c) | OConst (CNum KBool c) => Ok (c / 2)
  | _ => Err TypeError
  end.

Section Classes.
  (** base_matchers.py:283: [\w] beyond ASCII. *)
  Variable uni_word : char -> bool.
  (** [re.compile('(?:%s)$' % regex)], [re.compile(regex)] *)
  Variable full_regex file_regex : text -> res crx.
  (** Hashable objects as keys of [Once]: equal keys have the same code (>= 0). *)
  Variable hashable : obj -> bool.
  Variable key_code : obj -> Z.
  (** The classes of Python's ast module with their fields. *)
  Variable ast_classes : list (text * list text).
  Variable tokenize : text -> res (list ptok).
  Variable order : list nat -> list nat.
  Variable ast_parse : text -> res value.

  (** base_matchers.py:283 [\A(?!__)[a-zA-Z_]\w*\Z] *)
  Definition bind_name (s : text) : bool :=
    negb (startswith (TX "__") s)
    && match s with
       | [] => false
       | c :: rest => (((97 <=? c) && (c <=? 122)) || ((65 <=? c) && (c <=? 90)) || (c =? 95)) && forallb (is_word uni_word) rest
       end.

  Definition simple (n : text) (f : matcher -> matcher) : cls :=
    Cls n true (Some [(TX "submatcher", true)]) false (fun _ os => match os with [o] => Ok (f (sub o)) | _ => Err TypeError end).
  Definition unsafe (n : text) : cls := Cls n false None false (fun _ _ => Err TypeError).
  Definition nary (n : text) (f : list matcher -> matcher) : cls :=
    Cls n true None false (fun _ os => do ms <- only_matchers os; Ok (f ms)).

  (** base_matchers.py, sorted *)
  Definition base_classes : list cls :=
    [ nary (TX "AllOf") MAllOf; nary (TX "AnyOf") MAnyOf;
      Cls (TX "Anything") true (Some []) false (fun _ _ => Ok MAnything);
      (* 262-346 *)
      Cls (TX "Bind") true (Some [(TX "name", true); (TX "submatcher", false); (TX "on_conflict", false); (TX "on_merge", false)]) false
        (fun _ os => match os with
                     | [n; s; c; g] => do name <- str_arg n;
                         if negb (bind_name name) then Err ValueError
                         else do c' <- conflict_of c; do g' <- merge_of g; Ok (MBind name (sub s) c' g')
                     | _ => Err TypeError end);
      simple (TX "Contains") MContains;
      unsafe (TX "DebugLabeledMatcher");
      (* 540-543 *)
      Cls (TX "Equals") true (Some [(TX "value", true)]) false
        (fun _ os => match os with [Some o] => Ok (implicit_equals o) | _ => Err TypeError end);
      (* 644-670 *)
      Cls (TX "FileMatchesRegex") true (Some [(TX "regex", true)]) false
        (fun _ os => match os with [r] => do s <- str_arg r; do x <- file_regex s; Ok (MFileMatchesRegex x) | _ => Err TypeError end);
      unsafe (TX "Glob"); unsafe (TX "GlobStar");
      (* 673-695 *)
      Cls (TX "HasItem") true (Some [(TX "index", true); (TX "submatcher", false)]) false
        (fun _ os => match os with [Some i; s] => do n <- int_of i; Ok (MHasItem n (sub s)) | _ => Err TypeError end);
      (* 747-776 *)
      Cls (TX "InLines") true (Some [(TX "lines", true)]) false
        (fun _ os => match os with
                     | [Some (OList l)] | [Some (OTuple l)] | [Some (OSet l)] => do ns <- mapM int_of l; Ok (MInLines ns)
                     | _ => Err TypeError end);
      (* 698-720 *)
      Cls (TX "ItemsAre") true (Some [(TX "matchers", true)]) false
        (fun _ os => match os with [Some o] => do ms <- coerce_list o; Ok (MItemsAre ms) | _ => Err TypeError end);
      (* 580-638 *)
      Cls (TX "MatchesRegex") true (Some [(TX "regex", true); (TX "subpattern", false)]) false
        (fun _ os => match os with [r; s] => do p <- str_arg r; do x <- full_regex p; Ok (MMatchesRegex x (sub s)) | _ => Err TypeError end);
      (* 496-506: the wrapper would have to be callable *)
      Cls (TX "MaybeWrapped") true (Some [(TX "inner", true); (TX "wrapper", true)]) false (fun _ _ => Err TypeError);
      (* 231-259: the default key is the matcher itself *)
      Cls (TX "Once") true (Some [(TX "submatcher", true); (TX "key", false)]) false
        (fun h os => match os with
                     | [s; None] => Ok (MOnce (- 1 - Z.of_nat h) (sub s))
                     | [s; Some k] => if hashable k then Ok (MOnce (key_code k) (sub s)) else Err TypeError
                     | _ => Err TypeError end);
      (* 348-389 *)
      Cls (TX "Rebind") true (Some [(TX "submatcher", false); (TX "on_conflict", false); (TX "on_merge", false)]) false
        (fun _ os => match os with [s; c; g] => do c' <- conflict_of c; do g' <- merge_of g; Ok (MRebind (sub s) c' g') | _ => Err TypeError end);
      (* 509-532 *)
      Cls (TX "RecursivelyWrapped") true (Some [(TX "inner", true); (TX "wrapper", true)]) false (fun _ _ => Err TypeError);
      (* 392-409 *)
      Cls (TX "StringMatch") true (Some [(TX "string", true)]) false
        (fun _ os => match os with [s] => do x <- str_arg s; Ok (MStringMatch x) | _ => Err TypeError end);
      unsafe (TX "SystemBind");
      (* 114-124 *)
      Cls (TX "TestOnlyRaise") true (Some [(TX "message", true)]) false (fun _ _ => Ok MRaise);
      (* 546-568: no type can be written, and no type is equal to another object *)
      Cls (TX "TypeIs") true (Some [(TX "type", true)]) false
        (fun _ os => match os with [Some o] => if hashable o then Ok (MAnyOf []) else Err TypeError | _ => Err TypeError end);
      (* 213-228 *)
      simple (TX "Unless") MUnless;
      unsafe (TX "WithReplacements"); unsafe (TX "_NAryMatcher"); unsafe (TX "_Recurse") ].

  (** ast_matchers.py:56-104: a class for each class of Python's ast module, except those
      that are defined by hand (163-208) *)
  Definition node_class (nf : text * list text) : cls :=
    Cls (fst nf) true (Some (map (fun f => (f, false)) (snd nf))) true
      (fun _ os => Ok (MNode (fst nf) (combine (snd nf) (map sub os)))).
  Definition const_class (n field : text) (f : matcher -> matcher) : cls :=
    Cls n true (Some [(field, false)]) true (fun _ os => match os with [o] => Ok (f (sub o)) | _ => Err TypeError end).
  Definition const_classes : list cls :=
    [ const_class (TX "Bytes") (TX "s") MBytes;
      Cls (TX "Ellipsis") true (Some []) false (fun _ _ => Ok (MConst [TX "ellipsis"] (MEquals (VConst (-1) CEllipsis))));
      const_class (TX "NameConstant") (TX "value") MNameConstant;
      const_class (TX "Num") (TX "n") MNum;
      const_class (TX "Str") (TX "s") MStr ].
  Definition ast_matcher_classes : list cls :=
    const_classes ++ unsafe (TX "_AstNodeMatcher")
    :: map node_class (filter (fun nf => negb (tmem (fst nf) (map c_name const_classes))) ast_classes).

  (** lexical_matchers.py *)
  Definition lexical_classes : list cls := [simple (TX "HasComments") MHasComments; simple (TX "NoComments") MNoComments].

  (** syntax_matchers.py:334-434: the values of [restrictions] are coerced by [Bind] *)
  Fixpoint restrictions_of (l : list (obj * obj)) (d : dict matcher) : res (dict matcher) :=
    match l with
    | [] => Ok d
    | (OConst (CStr k), v) :: rest => restrictions_of rest (dset d k (coerce v))
    | _ => Err KeyError
    end.
  Definition pattern_class (n : text) (compile : text -> dict matcher -> res matcher) : cls :=
    Cls n true (Some [(TX "pattern", true); (TX "restrictions", false)]) false
      (fun _ os => match os with
                   | [p; r] => do src <- str_arg p;
                       do d <- match r with None => Ok [] | Some (ODict l) => restrictions_of l [] | _ => Err TypeError end;
                       compile src d
                   | _ => Err TypeError end).
  Definition syntax_classes : list cls :=
    [ pattern_class (TX "ExprPattern") (expr_pattern tokenize order ast_parse);
      simple (TX "HasAncestor") MHasAncestor; simple (TX "HasChild") MHasChild; simple (TX "HasDescendant") MHasDescendant;
      unsafe (TX "HasFirstAncestor");
      simple (TX "HasNextSibling") MHasNextSibling; simple (TX "HasParent") MHasParent; simple (TX "HasPrevSibling") MHasPrevSibling;
      simple (TX "InNamedFunction") MInNamedFunction;
      simple (TX "IsOrHasAncestor") MIsOrHasAncestor; simple (TX "IsOrHasDescendant") MIsOrHasDescendant;
      unsafe (TX "ModulePattern");
      (* 751-780 *)
      Cls (TX "NamedFunctionDefinition") true (Some [(TX "body", false); (TX "returns", false)]) false
        (fun _ os => match os with [b; r] => Ok (MNamedFunctionDefinition (sub b) (sub r)) | _ => Err TypeError end);
      unsafe (TX "StmtFromFunctionPattern");
      pattern_class (TX "StmtPattern") (stmt_pattern tokenize order ast_parse);
      (* 797-820 *)
      Cls (TX "WithTopLevelImport") true (Some [(TX "submatcher", true); (TX "module_name", true); (TX "as_name", false)]) false
        (fun _ os => match os with
                     | [s; m; a] => do module <- str_arg m;
                         do as_name <- match a with None => Ok (last_part module) | Some _ => str_arg a end;
                         Ok (MWithTopLevelImport (sub s) module as_name)
                     | _ => Err TypeError end);
      unsafe (TX "_BaseAstPattern") ].

  (** evaluate.py:67-71 *)
  Definition modules : list (text * list (text * cls)) :=
    map (fun mc => (fst mc, map (fun c => (c_name c, c)) (snd mc)))
      [ (TX "ast_matchers", ast_matcher_classes); (TX "base_matchers", base_classes);
        (TX "lexical_matchers", lexical_classes); (TX "syntax_matchers", syntax_classes) ].
  Definition class_table : res (dict cls) := add_modules cls (fun _ => true) c_safe modules [].
  (** base_matchers.py:108; matcher.py:512-640 [register_enum] *)
  Definition constant_table : dict obj :=
    (TX "_", OMatcher MAnything)
    :: map (fun nc => (TX "BindConflict." ++ fst nc, OConflict (snd nc)))
         [ (TX "MERGE", MERGE); (TX "SKIP", SKIP); (TX "ERROR", ERROR); (TX "MERGE_IDENTICAL", MERGE_IDENTICAL);
           (TX "MERGE_IDENTICAL_OR_ERROR", MERGE_IDENTICAL_OR_ERROR); (TX "MERGE_EQUIVALENT_AST", MERGE_EQUIVALENT_AST);
           (TX "MERGE_EQUIVALENT_AST_OR_ERROR", MERGE_EQUIVALENT_AST_OR_ERROR) ]
    ++ map (fun ng => (TX "BindMerge." ++ fst ng, OMerge (snd ng))) [ (TX "KEEP_FIRST", KEEP_FIRST); (TX "KEEP_LAST", KEEP_LAST) ].

  (** [0 - x] (semiliteral_eval.py:96-98) *)
  Variable negate_other : const -> const.
  Definition negate (o : obj) : obj :=
    match o with
    | OConst (CNum KInt c) => OConst (CNum KInt (- c))
    | OConst c => OConst (negate_other c)
    | o => o
    end.

  Variable dedent : text -> text.
  Variable parse : text -> res pexpr.
  Definition evaluated (table : dict cls) (src : text) : res obj :=
    snd (compile_matcher obj OConst negate OTuple OList OSet ODict hashable (map (fun nc => (fst nc, instantiate (snd nc))) table) constant_table
           dedent parse src []).
  (** search.py:887-895 [PyMatcherRewritingSearcher.from_pattern] (--mode=py): what [from_matcher] is given is coerced there (by [SystemBind]). *)
  Definition py_matcher (src : text) : res matcher :=
    do table <- class_table; do o <- evaluated table src; Ok (coerce o).
End Classes.
