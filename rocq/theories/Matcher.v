(** Model of the matchers: refex/python/matcher.py 289-333, 504-766, 850-1013,
    1348-1388, refex/python/matchers/base_matchers.py, ast_matchers.py,
    lexical_matchers.py, extern_matchers.py and syntax_matchers.py 545-874.
    Definitions only. *)
From Verif Require Import Py Ast Template FromDiff.

(** *** Bound values *)

(** matcher.py:513-605 [BindConflict], 609-635 [BindMerge] *)
Inductive conflict :=
  | MERGE | SKIP | ERROR | MERGE_IDENTICAL | MERGE_IDENTICAL_OR_ERROR
  | MERGE_EQUIVALENT_AST | MERGE_EQUIVALENT_AST_OR_ERROR.
Inductive merge := KEEP_FIRST | KEEP_LAST.

Definition conflict_eqb (a b : conflict) : bool :=
  match a, b with
  | MERGE, MERGE | SKIP, SKIP | ERROR, ERROR | MERGE_IDENTICAL, MERGE_IDENTICAL
  | MERGE_IDENTICAL_OR_ERROR, MERGE_IDENTICAL_OR_ERROR
  | MERGE_EQUIVALENT_AST, MERGE_EQUIVALENT_AST
  | MERGE_EQUIVALENT_AST_OR_ERROR, MERGE_EQUIVALENT_AST_OR_ERROR => true
  | _, _ => false
  end.
Definition merge_eqb (a b : merge) : bool :=
  match a, b with
  | KEEP_FIRST, KEEP_FIRST | KEEP_LAST, KEEP_LAST => true
  | _, _ => false
  end.

(** matcher.py:638-663 [BoundValue] *)
Record bound := Bound { b_value : pymatch; b_conflict : conflict; b_merge : merge }.
Definition or_default {A} (o : option A) (d : A) : A := match o with Some x => x | None => d end.
(** The constructor with its defaults. *)
Definition bound_value (m : pymatch) (c : option conflict) (g : option merge) : bound :=
  Bound m (or_default c MERGE) (or_default g KEEP_LAST).
(** matcher.py:665-679 [rebind] *)
Definition rebind (c : option conflict) (g : option merge) (b : bound) : bound :=
  Bound (b_value b) (or_default c (b_conflict b)) (or_default g (b_merge b)).

(** The [==] that attrs generates for the match classes: same class, equal
    attributes (match.py:63-109, matcher.py:336-397). *)
Definition token_eqb (a b : token) : bool :=
  (tk_type a =? tk_type b) && text_eqb (tk_string a) (tk_string b)
  && (tk_start a =? tk_start b) && (tk_end a =? tk_end b) && (tk_index a =? tk_index b).
Definition pymatch_eqb (a b : pymatch) : bool :=
  match a, b with
  | PMatch, PMatch => true
  | PString s, PString t => text_eqb s t
  | PSpan s sp, PSpan t tp => text_eqb s t && span_eqb sp tp
  | PObject v, PObject w => py_eq v w
  | PLex v s f l x y, PLex w t f' l' x' y' =>
      py_eq v w && text_eqb s t && token_eqb f f' && token_eqb l l'
      && Bool.eqb x x' && Bool.eqb y y'
  | _, _ => false
  end.
Definition bound_eqb (a b : bound) : bool :=
  pymatch_eqb (b_value a) (b_value b) && conflict_eqb (b_conflict a) (b_conflict b)
  && merge_eqb (b_merge a) (b_merge b).

(** matcher.py:583-594 [MERGE_EQUIVALENT_AST]; its [None] is as false as False. *)
Definition equivalent_matches (a b : bound) : res bool :=
  match m_matched (b_value a), m_matched (b_value b) with
  | Some x, Some y => ast_equivalent x y
  | _, _ => Ok false
  end.
(** matcher.py:557-605: calling a conflict strategy. *)
Definition resolve (c : conflict) (a b : bound) : res bool :=
  match c with
  | MERGE => Ok true
  | SKIP => Ok false
  | ERROR => Err MatchError
  | MERGE_IDENTICAL => Ok (bound_eqb a b)
  | MERGE_IDENTICAL_OR_ERROR => if bound_eqb a b then Ok true else Err MatchError
  | MERGE_EQUIVALENT_AST => equivalent_matches a b
  | MERGE_EQUIVALENT_AST_OR_ERROR =>
      do e <- equivalent_matches a b; if e : bool then Ok true else Err MatchError
  end.
(** matcher.py:627-635: calling a merge strategy. *)
Definition keep (g : merge) (a b : bound) : bound :=
  match g with KEEP_FIRST => a | KEEP_LAST => b end.

(** matcher.py:709-738: the loop of [merge_bindings] over the shared keys. *)
Fixpoint merge_shared (keys : list label) (lhs rhs : dict bound) (merged : dict bound) (skip : bool)
  : res (option (dict bound)) :=
  match keys with
  | [] => Ok (if skip then None else Some merged)
  | k :: rest =>
      match dget lhs k, dget rhs k with
      | Some a, Some b =>
          if negb (conflict_eqb (b_conflict a) (b_conflict b)) then Err MatchError
          else if negb (merge_eqb (b_merge a) (b_merge b)) then Err MatchError
          else
            do ok <- resolve (b_conflict a) a b;
            if ok : bool then merge_shared rest lhs rhs (merged ++ [(k, keep (b_merge a) a b)]) skip
            else merge_shared rest lhs rhs merged true
      | _, _ => Err KeyError   (* not reachable: the keys are shared *)
      end
  end.
(** matcher.py:682-744 [merge_bindings], where [order] is the order in which the
    set [lhs_keys & rhs_keys] is iterated.  (The key-only parts are also sets in
    the code; the model lists them in dictionary order.) *)
Definition merge_bindings_in (order : list label) (lhs rhs : dict bound) : res (option (dict bound)) :=
  do r <- merge_shared order lhs rhs [] false;
  Ok (match r with
      | None => None
      | Some merged =>
          Some (merged ++ filter (fun kv : label * bound => negb (dmem rhs (fst kv))) lhs
                       ++ filter (fun kv : label * bound => negb (dmem lhs (fst kv))) rhs)
      end).
Definition shared_keys (lhs rhs : dict bound) : list label := filter (dmem rhs) (dkeys lhs).
Definition merge_bindings (lhs rhs : dict bound) : res (option (dict bound)) :=
  merge_bindings_in (shared_keys lhs rhs) lhs rhs.

(** matcher.py:747-754 [merge_replacements] *)
Definition merge_replacements (lhs rhs : dict template) : res (dict template) :=
  if existsb (dmem rhs) (dkeys lhs) then Err MatchError else Ok (lhs ++ rhs).

(** *** Matchers *)

(** A compiled regex as the matchers use it: [groupindex], and the [regs] of the
    result of [match(text, start, end)] or [search(text)] (oracles). *)
Record crx := Crx {
  cr_groups : dict nat;
  cr_match : text -> Z -> Z -> option (list span);
  cr_search : text -> option (list span)
}.

(** The matchers.  A submatcher default [Anything()] is written out; values in
    place of matchers are [MEquals] ([coerce], matcher.py:204-217).  Matchers
    that are only defined by a combination of others are definitions below.
    The key of a [Once] is a number (the default key is its identity).  Not
    modelled: [RecursivelyWrapped] with an arbitrary wrapper function
    (base_matchers.py:509-532), [HasItem] with an index that is not an int. *)
Inductive matcher :=
  | MAnything                                               (* base_matchers.py:93-105 *)
  | MRaise                                                  (* TestOnlyRaise, 114-124 *)
  | MAllOf (ms : list matcher)                              (* 140-160 *)
  | MAnyOf (ms : list matcher)                              (* 163-210; MaybeWrapped 496-506 *)
  | MUnless (m : matcher)                                   (* 213-228 *)
  | MOnce (key : Z) (m : matcher)                           (* 231-259 *)
  | MBind (name : label) (m : matcher) (c : option conflict) (g : option merge) (* 262-346 *)
  | MRebind (m : matcher) (c : option conflict) (g : option merge)              (* 348-389 *)
  | MStringMatch (s : text)                                 (* 392-409 *)
  | MWithReplacements (m : matcher) (reps : dict template)  (* 413-446 *)
  | MDebug (m : matcher)                                    (* DebugLabeledMatcher 449-463 *)
  | MEquals (v : value)                                     (* matcher.py:993-1013; Equals 540-543 *)
  | MTypeIs (ty : text)                                     (* 546-568 *)
  | MMatchesRegex (r : crx) (m : matcher)                   (* 580-638 *)
  | MFileMatchesRegex (r : crx)                             (* 644-670 *)
  | MHasItem (index : Z) (m : matcher)                      (* 673-695 *)
  | MItemsAre (ms : list matcher)                           (* 698-720 *)
  | MContains (m : matcher)                                 (* 723-744 *)
  | MInLines (lines : list Z)                               (* 747-776 *)
  | MGlobStar                                               (* 784-796 *)
  | MGlob (ms : list matcher)                               (* 821-889 *)
  | MNode (ty : text) (fs : list (text * matcher))          (* ast_matchers.py:56-104 *)
  | MConst (tys : list text) (m : matcher)                  (* ast_matchers.py:140-208 *)
  | MHasParent (m : matcher)                                (* syntax_matchers.py:573-595 *)
  | MIsOrHasAncestor (m : matcher)                          (* 598-614 *)
  | MHasChild (m : matcher)                                 (* 634-655 *)
  | MIsOrHasDescendant (m : matcher)                        (* 657-673 *)
  | MHasFirstAncestor (a b : matcher)                       (* 693-722 *)
  | MHasPrevSibling (m : matcher)                           (* 725-735 *)
  | MHasNextSibling (m : matcher)                           (* 738-748 *)
  | MWithTopLevelImport (m : matcher) (module as_name : text) (* 797-837 *)
  | MHasComments (m : matcher)                              (* lexical_matchers.py:40-60 *)
  | MNoComments (m : matcher)                               (* 63-83 *)
  | MRewriteFile (prefix : text) (rewrite : text -> value -> res (option text)).
                                                            (* extern_matchers.py:38-63 *)

(** syntax_matchers.py:617-631, 676-690: equivalent by definition. *)
Definition MHasAncestor (m : matcher) : matcher := MHasParent (MIsOrHasAncestor m).
Definition MHasDescendant (m : matcher) : matcher := MHasChild (MIsOrHasDescendant m).
(** syntax_matchers.py:751-780.  Fields that are not given are [Anything()]. *)
Definition function_fields (body returns : matcher) : list (text * matcher) :=
  [(TX "name", MAnything); (TX "args", MAnything); (TX "body", body);
   (TX "decorator_list", MAnything); (TX "returns", returns); (TX "type_comment", MAnything)].
Definition MNamedFunctionDefinition (body returns : matcher) : matcher :=
  MAnyOf [MNode (TX "AsyncFunctionDef") (function_fields body returns);
          MNode (TX "FunctionDef") (function_fields body returns)].
(** syntax_matchers.py:783-794 *)
Definition MInNamedFunction (m : matcher) : matcher :=
  MHasFirstAncestor (MNamedFunctionDefinition MAnything MAnything) m.
(** ast_matchers.py:163-208 *)
Definition MNum (m : matcher) : matcher := MConst [TX "int"; TX "float"; TX "complex"] m.
Definition MBytes (m : matcher) : matcher := MConst [TX "bytes"] m.
Definition MStr (m : matcher) : matcher := MConst [TX "str"] m.
Definition MNameConstant (m : matcher) : matcher := MConst [TX "bool"; TX "NoneType"] m.

(** *** type_filter: None, or a set of types (by name, as a list) *)
Definition filter_inter (a b : option (list text)) : option (list text) :=
  match a, b with
  | None, x => x
  | x, None => x
  | Some s, Some t => Some (filter (fun x => tmem x t) s)
  end.
Definition filter_union (a b : option (list text)) : option (list text) :=
  match a, b with
  | Some s, Some t => Some (s ++ t)
  | _, _ => None
  end.
Fixpoint type_filter (m : matcher) : option (list text) :=
  match m with
  | MAllOf ms => fold_left filter_inter (map type_filter ms) None
  | MAnyOf ms => fold_left filter_union (map type_filter ms) (Some [])
  | MBind _ m' _ _ | MRebind m' _ _ | MWithReplacements m' _ | MWithTopLevelImport m' _ _
  | MHasComments m' | MNoComments m' => type_filter m'
  | MTypeIs ty => Some [ty]
  | MNode ty _ => Some [ty]
  | MConst _ _ => Some [TX "Constant"]
  | _ => None
  end.
(** [f is None or ty in f] *)
Definition admits (f : option (list text)) (ty : text) : bool :=
  match f with None => true | Some ts => tmem ty ts end.

(** *** bind_variables (matcher.py:891-914 and overrides), as a list *)
Fixpoint bind_variables (m : matcher) : list label :=
  match m with
  | MAllOf ms | MAnyOf ms | MItemsAre ms | MGlob ms => flat_map bind_variables ms
  | MOnce _ m' | MRebind m' _ _ | MWithReplacements m' _ | MDebug m' | MHasItem _ m'
  | MContains m' | MConst _ m' | MHasParent m' | MIsOrHasAncestor m' | MHasChild m'
  | MIsOrHasDescendant m' | MHasPrevSibling m' | MHasNextSibling m'
  | MWithTopLevelImport m' _ _ | MHasComments m' | MNoComments m' => bind_variables m'
  | MBind name m' _ _ => name :: bind_variables m'
  | MMatchesRegex r m' => dkeys (cr_groups r) ++ bind_variables m'
  | MFileMatchesRegex r => dkeys (cr_groups r)
  | MNode _ fs => flat_map (fun fm => bind_variables (snd fm)) fs
  | MHasFirstAncestor a b => bind_variables a ++ bind_variables b
  | _ => []      (* Unless has a submatcher with walk=False *)
  end.

(** *** Matching *)

(** What [match] returns when it does not return None: a [MatchInfo]
    (matcher.py:757-770) — whose [bindings] are None when [HasFirstAncestor]
    could not merge — or the False of [Glob] (base_matchers.py:838-839). *)
Inductive result :=
  | RInfo (m : pymatch) (bindings : option (dict bound)) (reps : dict template)
  | RFalse.

(** [r.match], [r.bindings], [r.replacements]: AttributeError on False. *)
Definition r_match (r : result) : res pymatch :=
  match r with RInfo m _ _ => Ok m | RFalse => Err AttributeError end.
Definition r_bindings (r : result) : res (option (dict bound)) :=
  match r with RInfo _ b _ => Ok b | RFalse => Err AttributeError end.
Definition r_reps (r : result) : res (dict template) :=
  match r with RInfo _ _ t => Ok t | RFalse => Err AttributeError end.
(** [bindings.keys()] on None: AttributeError *)
Definition not_none {A} (o : option A) : res A :=
  match o with Some a => Ok a | None => Err AttributeError end.

(** One match attempt runs in a [MatchContext] (matcher.py:289-333); the state is
    [_has_match_run], updated also when the attempt then fails or raises. *)
Definition M (A : Type) := list Z -> list Z * res A.
Definition ret {A} (a : A) : M A := fun s => (s, Ok a).
Definition lift {A} (r : res A) : M A := fun s => (s, r).
Definition mbind {A B} (m : M A) (f : A -> M B) : M B :=
  fun s => match m s with (s', Ok a) => f a s' | (s', Err e) => (s', Err e) end.
Notation "'run' x <- r ; k" := (mbind r (fun x => k))
  (at level 200, x pattern, r at level 100, k at level 200, right associativity).

Definition outcome := M (option result).

(** The context: parsed file, tree, tokens; [_has_successful_run]; identities of
    the one-character strings and small ints that indexing creates;
    [difflib.Differ().compare]. *)
Record env := Env {
  e_parsed : parsed_file;
  e_tree : value;
  e_tokens : list token;
  e_done : list Z;
  e_char_id : char -> Z;
  e_byte_id : Z -> Z;
  e_differ : list text -> list text -> list text
}.

Definition zmem (x : Z) (l : list Z) : bool := existsb (Z.eqb x) l.

(** [MatchInfo(create_match(parsed_file, candidate), bindings)] *)
Definition info (e : env) (v : value) (b : option (dict bound)) : result :=
  RInfo (create_match (e_parsed e) v) b [].

(** matcher.py:962-989: [accumulating_matcher].  The generator's items are run one
    by one, each only if what came before was accepted. *)
Fixpoint accumulate (acts : list outcome) (b : dict bound) (t : dict template)
  : M (option (dict bound * dict template)) :=
  match acts with
  | [] => ret (Some (b, t))
  | a :: rest =>
      run o <- a;
      match o with
      | None => ret None
      | Some r =>
          run ob <- lift (r_bindings r);
          run rb <- lift (not_none ob);
          run mb <- lift (merge_bindings b rb);
          match mb with
          | None => ret None
          | Some b' =>
              run rt <- lift (r_reps r);
              run t' <- lift (merge_replacements t rt);
              accumulate rest b' t'
          end
      end
  end.
Definition accumulating (e : env) (v : value) (acts : list outcome) : outcome :=
  run o <- accumulate acts [] [];
  ret (match o with
       | None => None
       | Some (b, t) => Some (RInfo (create_match (e_parsed e) v) (Some b) t)
       end).

(** The first that is not None. *)
Fixpoint first_of (acts : list outcome) : outcome :=
  match acts with
  | [] => ret None
  | a :: rest =>
      run o <- a;
      match o with Some r => ret (Some r) | None => first_of rest end
  end.

(** [MatchInfo(create_match(parsed_file, candidate), m.bindings)] unless [m] is
    None (base_matchers.py:690-695, 741-743; ast_matchers.py:156-160;
    syntax_matchers.py:590-595, 650-654): the replacements are not kept. *)
Definition rewrap (e : env) (v : value) (o : option result) : outcome :=
  match o with
  | None => ret None
  | Some r => run b <- lift (r_bindings r); ret (Some (info e v b))
  end.

(** The items of a list, [str] or [bytes]; None for what is no sequence.  The
    integer n is the number with code 2n. *)
Definition seq_items (e : env) (v : value) : option (list value) :=
  match v with
  | VList _ l => Some l
  | VConst _ (CStr s) => Some (map (fun c => VConst (e_char_id e c) (CStr [c])) s)
  | VConst _ (CBytes s) => Some (map (fun c => VConst (e_byte_id e c) (CNum KInt (2 * c))) s)
  | _ => None
  end.
(** [candidate[index]] for an int; None for LookupError or TypeError. *)
Definition subscript (e : env) (v : value) (i : Z) : option value :=
  match seq_items e v with
  | None => None
  | Some l =>
      let j := if i <? 0 then i + tlen l else i in
      if j <? 0 then None else nth_error l (Z.to_nat j)
  end.
(** base_matchers.py:684-695 [HasItem._match] *)
Definition has_item (e : env) (i : Z) (sub : value -> outcome) (v : value) : outcome :=
  match subscript e v i with
  | None => ret None
  | Some x => run o <- sub x; rewrap e v o
  end.
Definition anything (e : env) (v : value) : outcome := ret (Some (info e v (Some []))).
(** base_matchers.py:219-224 [Unless._match] *)
Definition unless (e : env) (a : outcome) (v : value) : outcome :=
  run o <- a;
  match o with None => anything e v | Some _ => ret None end.
Fixpoint numbered_items (e : env) (i : Z) (subs : list (value -> outcome)) (v : value) : list outcome :=
  match subs with
  | [] => []
  | m :: rest => has_item e i m v :: numbered_items e (i + 1) rest v
  end.
(** base_matchers.py:716-720 [ItemsAre._match] *)
Definition items_are (e : env) (subs : list (value -> outcome)) (v : value) : outcome :=
  accumulating e v
    (unless e (has_item e (tlen subs) (anything e) v) v :: numbered_items e 0 subs v).

(** *** Glob *)

(** A block of submatchers, or (None) a [GlobStar]. *)
Definition block := option (list (value -> outcome)).
(** base_matchers.py:798-817 [_blockify_glob_matchers]; [cur] is [current]. *)
Fixpoint blockify (ms : list (bool * (value -> outcome))) (cur : block) : list block :=
  match ms with
  | [] => [cur]
  | (true, _) :: rest =>
      match cur with Some [] => blockify rest None | _ => cur :: blockify rest None end
  | (false, m) :: rest =>
      match cur with
      | None => None :: blockify rest (Some [m])
      | Some c => blockify rest (Some (c ++ [m]))
      end
  end.
(** [candidate[a:b]] of a sequence.  (No submatcher sees the new object itself.) *)
Definition vslice (v : value) (a b : Z) : value :=
  match v with
  | VList _ l => VList (-2) (slice l a b)
  | VConst _ (CStr s) => VConst (-2) (CStr (slice s a b))
  | VConst _ (CBytes s) => VConst (-2) (CBytes (slice s a b))
  | _ => v
  end.
Fixpoint zrange (a : Z) (n : nat) : list Z :=
  match n with O => [] | S n' => a :: zrange (a + 1) n' end.
(** base_matchers.py:869-877: the inner loop; the bindings and [match_end]. *)
Fixpoint glob_search (e : env) (blk : list (value -> outcome)) (v : value) (starts : list Z)
  : M (option (result * Z)) :=
  match starts with
  | [] => ret None
  | a :: rest =>
      run o <- items_are e blk (vslice v a (a + tlen blk));
      match o with
      | Some r => ret (Some (r, a + tlen blk))
      | None => glob_search e blk v rest
      end
  end.
(** base_matchers.py:853-889: the outer loop, for the remaining blocks. *)
Fixpoint glob_loop (e : env) (v : value) (len : Z) (blocks : list block)
         (is_search : bool) (pos : Z) (b : dict bound) : outcome :=
  match blocks with
  | [] => if negb (pos =? len) && negb is_search then ret None
          else ret (Some (info e v (Some b)))
  | None :: rest => glob_loop e v len rest true pos b
  | Some blk :: rest =>
      let '(pos, search_end) :=
        if is_search then
          match rest with
          | [] => (len - tlen blk, len - tlen blk + 1)
          | _ => (pos, len)
          end
        else (pos, pos + 1) in
      run o <- glob_search e blk v (zrange pos (Z.to_nat (search_end - pos)));
      match o with
      | None => ret None
      | Some (r, pos') =>
          run ob <- lift (r_bindings r);
          run rb <- lift (not_none ob);
          run mb <- lift (merge_bindings b rb);
          match mb with
          | None => ret None
          | Some b' => glob_loop e v len rest false pos' b'
          end
      end
  end.
(** base_matchers.py:837-889 [Glob._match] *)
Definition glob (e : env) (ms : list (bool * (value -> outcome))) (v : value) : outcome :=
  match seq_items e v with
  | None => ret (Some RFalse)
  | Some l => glob_loop e v (tlen l) (blockify ms (Some [])) false 0 []
  end.
Definition is_star (m : matcher) : bool := match m with MGlobStar => true | _ => false end.

(** *** The rest *)

(** base_matchers.py:571-577 [_re_match_to_bindings]; [re] guarantees that [regs]
    has an entry for every group. *)
Definition re_bindings (r : crx) (txt : text) (regs : list span) : dict bound :=
  map (fun kv : label * nat =>
         (fst kv, bound_value (span_match txt (nth (snd kv) regs (-1, -1))) None None))
      (cr_groups r).

(** [bool(v)] *)
Definition py_truthy (v : value) : bool :=
  match v with
  | VNode _ _ => true
  | VList _ l => match l with [] => false | _ => true end
  | VConst _ CNone => false
  | VConst _ CEllipsis => true
  | VConst _ (CNum _ code) => negb (code =? 0)
  | VConst _ (CStr s) | VConst _ (CBytes s) => match s with [] => false | _ => true end
  end.

(** syntax_matchers.py:840-874 [_top_level_imports].  A string field of a node. *)
Definition str_of (v : value) : option text := match v with VConst _ (CStr s) => Some s | _ => None end.
Definition str_field (v : value) (f : text) : text :=
  match str_of (vfield v f) with Some s => s | None => [] end.
Definition list_of (v : value) : list value := match v with VList _ l => l | _ => [] end.
Definition import_alias (module : option text) (imports : dict text) (alias : value) : dict text :=
  let name := str_field alias (TX "name") in
  match module, str_of (vfield alias (TX "asname")) with
  | None, None => let m := hd [] (split_char 46 name) in dset imports m m
  | None, Some a => dset imports name a
  | Some m, None => dset imports (m ++ [46] ++ name) name
  | Some m, Some a => dset imports (m ++ [46] ++ name) a
  end.
Definition import_stmt (imports : dict text) (stmt : value) : dict text :=
  if text_eqb (vtype stmt) (TX "Import") then
    fold_left (import_alias None) (list_of (vfield stmt (TX "names"))) imports
  else if text_eqb (vtype stmt) (TX "ImportFrom") then
    if py_truthy (vfield stmt (TX "level")) then imports
    else fold_left (import_alias (Some (str_field stmt (TX "module"))))
                   (list_of (vfield stmt (TX "names"))) imports
  else imports.
Definition top_level_imports (tree : value) : dict text :=
  fold_left import_stmt (list_of (vfield tree (TX "body"))) [].

(** lexical_matchers.py:86-104 [_result_has_comments], where [result] is not None. *)
Definition has_comments (e : env) (r : result) : res bool :=
  do m <- r_match r;
  match m with
  | PLex _ _ f l _ _ =>
      Ok (existsb (fun t => (tk_index f <=? tk_index t) && (tk_index t <=? tk_index l)
                            && (tk_type t =? T_COMMENT)) (e_tokens e))
  | _ => Err TypeError
  end.

(** [context.parsed_file.nav] *)
Definition parent (e : env) (v : value) : option value := get_parent (e_tree e) v.
(** Enough steps to climb to the root. *)
Definition climb_fuel (e : env) : nat := S (vsize (e_tree e)).

(** syntax_matchers.py:610-614 with base_matchers.py:509-532:
    [AnyOf(submatcher, HasParent(recurse))], where [sub] is already skipped if its
    type filter excludes the candidate. *)
Fixpoint climb (fuel : nat) (e : env) (sub : value -> outcome) (v : value) : outcome :=
  match fuel with
  | O => lift (Err OutOfFuel)
  | S n =>
      run o <- sub v;
      match o with
      | Some r => ret (Some r)
      | None =>
          match parent e v with
          | None => ret None
          | Some p => run o' <- climb n e sub p; rewrap e v o'
          end
      end
  end.
(** syntax_matchers.py:669-673: likewise [AnyOf(submatcher, HasChild(recurse))]. *)
Fixpoint descend (e : env) (sub : value -> outcome) (x : value) : outcome :=
  run o <- sub x;
  match o with
  | Some r => ret (Some r)
  | None =>
      run o' <- first_of (match x with
                          | VNode _ fs => map (fun kv => descend e sub (snd kv)) fs
                          | VList _ l => map (descend e sub) l
                          | VConst _ _ => []
                          end);
      rewrap e x o'
  end.
(** syntax_matchers.py:703-713: the loop of [HasFirstAncestor]. *)
Fixpoint climb_first (fuel : nat) (e : env) (sub : value -> outcome) (v : value) : outcome :=
  match fuel with
  | O => lift (Err OutOfFuel)
  | S n =>
      match parent e v with
      | None => ret None
      | Some p =>
          run o <- sub p;
          match o with Some r => ret (Some r) | None => climb_first n e sub p end
      end
  end.

(** base_matchers.py:186-194: the alternatives tried for type [ty], by the filter
    of each: [_typed_matchers[ty]] if some filter mentions [ty], else
    [_universal_matchers]. *)
Definition typed (fs : list (option (list text))) (ty : text) : bool :=
  existsb (fun f => match f with Some ts => tmem ty ts | None => false end) fs.
Definition tried (fs : list (option (list text))) (ty : text) (f : option (list text)) : bool :=
  if typed fs ty then admits f ty else negb (is_some f).

(** [matcher.match(context, candidate)] *)
Fixpoint eval (e : env) (m : matcher) (v : value) {struct m} : outcome :=
  match m with
  | MAnything => anything e v
  | MRaise => lift (Err (OtherError 0))
  | MAllOf ms => accumulating e v (map (fun m' => eval e m' v) ms)
  | MAnyOf ms =>
      first_of (flat_map (fun m' =>
                  if tried (map type_filter ms) (vtype v) (type_filter m') then [eval e m' v] else [])
                ms)
  | MUnless m' => unless e (eval e m' v) v
  | MOnce key m' =>
      fun s =>
        if zmem key (e_done e) || zmem key s then accumulating e v [] s
        else
          accumulating e v
            [ run o <- eval e m' v;
              fun s' => ((match o with
                          | Some _ => if zmem key s' then s' else key :: s'
                          | None => s' end), Ok o) ] s
  | MBind name m' c g =>
      run o <- eval e m' v;
      match o with
      | None => ret None
      | Some r =>
          run rb <- lift (do b <- r_bindings r; not_none b);
          run rm <- lift (r_match r);
          run rt <- lift (r_reps r);
          run mb <- lift (merge_bindings rb [(name, bound_value rm c g)]);
          ret (match mb with None => None | Some b => Some (RInfo rm (Some b) rt) end)
      end
  | MRebind m' c g =>
      run o <- eval e m' v;
      match o with
      | None => ret None
      | Some r =>
          run rb <- lift (do b <- r_bindings r; not_none b);
          run rm <- lift (r_match r);
          run rt <- lift (r_reps r);
          ret (Some (RInfo rm (Some (map (fun kv => (fst kv, rebind c g (snd kv))) rb)) rt))
      end
  | MStringMatch s => ret (Some (RInfo (PString s) (Some []) []))
  | MWithReplacements m' reps =>
      run o <- eval e m' v;
      match o with
      | None => ret None
      | Some r =>
          run rt <- lift (r_reps r);
          run rb <- lift (r_bindings r);
          run rm <- lift (r_match r);
          run t <- lift (merge_replacements rt reps);
          ret (Some (RInfo rm rb t))
      end
  | MDebug m' => eval e m' v
  | MEquals w => if py_eq v w then anything e v else ret None
  | MTypeIs ty => if text_eqb (vtype v) ty then anything e v else ret None
  | MMatchesRegex r m' =>
      run o <- eval e m' v;
      match o with
      | None => ret None
      | Some x =>
          run rm <- lift (r_match x);
          match m_span rm with
          | None => ret None
          | Some (a, b) =>
              match cr_match r (pf_text (e_parsed e)) a b with
              | None => ret None
              | Some regs =>
                  run rb <- lift (do ob <- r_bindings x; not_none ob);
                  run rt <- lift (r_reps x);
                  run mb <- lift (merge_bindings (re_bindings r (pf_text (e_parsed e)) regs) rb);
                  ret (match mb with None => None | Some b => Some (RInfo rm (Some b) rt) end)
              end
          end
      end
  | MFileMatchesRegex r =>
      ret (match cr_search r (pf_text (e_parsed e)) with
           | None => None
           | Some regs => Some (RInfo PMatch (Some (re_bindings r (pf_text (e_parsed e)) regs)) [])
           end)
  | MHasItem i m' => has_item e i (eval e m') v
  | MItemsAre ms => items_are e (map (fun m' => eval e m') ms) v
  | MContains m' =>
      match seq_items e v with
      | None => ret None
      | Some l => run o <- first_of (map (eval e m') l); rewrap e v o
      end
  | MInLines lines =>
      match v with
      | VNode i _ => match n_line i with
                     | Some n => if zmem n lines then anything e v else ret None
                     | None => ret None
                     end
      | _ => ret None
      end
  | MGlobStar => lift (Err MatchError)
  | MGlob ms => glob e (map (fun m' => (is_star m', eval e m')) ms) v
  | MNode ty fs =>
      if text_eqb (vtype v) ty then
        accumulating e v (map (fun fm => eval e (snd fm) (vfield v (fst fm))) fs)
      else ret None
  | MConst tys m' =>
      if negb (text_eqb (vtype v) (TX "Constant")) then ret None
      else if negb (tmem (vtype (vfield v (TX "value"))) tys) then ret None
      else run o <- eval e m' (vfield v (TX "value")); rewrap e v o
  | MHasParent m' =>
      match parent e v with
      | None => ret None
      | Some p => run o <- eval e m' p; rewrap e v o
      end
  | MIsOrHasAncestor m' =>
      climb (climb_fuel e) e
            (fun x => if admits (type_filter m') (vtype x) then eval e m' x else ret None) v
  | MHasChild m' => run o <- first_of (map (eval e m') (vchildren v)); rewrap e v o
  | MIsOrHasDescendant m' =>
      descend e (fun x => if admits (type_filter m') (vtype x) then eval e m' x else ret None) v
  | MHasFirstAncestor a b =>
      run o <- climb_first (climb_fuel e) e (eval e a) v;
      match o with
      | None => ret None
      | Some r =>
          run rm <- lift (r_match r);
          run anc <- lift (not_none (m_matched rm));
          run o2 <- eval e b anc;
          match o2 with
          | None => ret None
          | Some r2 =>
              run b1 <- lift (do ob <- r_bindings r; not_none ob);
              run b2 <- lift (do ob <- r_bindings r2; not_none ob);
              run mb <- lift (merge_bindings b1 b2);
              ret (Some (info e v mb))
          end
      end
  | MHasPrevSibling m' =>
      match get_prev_sibling (e_tree e) v with
      | Some x => if py_truthy x then eval e m' x else ret None
      | None => ret None
      end
  | MHasNextSibling m' =>
      match get_next_sibling (e_tree e) v with
      | Some x => if py_truthy x then eval e m' x else ret None
      | None => ret None
      end
  | MWithTopLevelImport m' module as_name =>
      match dget (top_level_imports (e_tree e)) module with
      | Some n => if text_eqb n as_name then eval e m' v else ret None
      | None => ret None
      end
  | MHasComments m' =>
      run o <- eval e m' v;
      match o with
      | None => ret None
      | Some r => run c <- lift (has_comments e r); ret (if c : bool then Some r else None)
      end
  | MNoComments m' =>
      run o <- eval e m' v;
      match o with
      | None => ret None
      | Some r => run c <- lift (has_comments e r); ret (if c : bool then None else Some r)
      end
  | MRewriteFile prefix rewrite =>
      run o <- lift (rewrite (pf_text (e_parsed e)) v);
      match o with
      | None => ret None
      | Some after =>
          run d <- lift (from_diff (e_differ e) prefix (pf_text (e_parsed e)) after);
          ret (Some (RInfo (create_match (e_parsed e) v)
                       (Some (map (fun kv => (fst kv, bound_value (snd kv) None None)) (fst d)))
                       (snd d)))
      end
  end.

(** *** Searching a tree *)

Definition with_done (e : env) (d : list Z) : env :=
  Env (e_parsed e) (e_tree e) (e_tokens e) d (e_char_id e) (e_byte_id e) (e_differ e).
(** matcher.py:1366-1371: one attempt, in a new context; the keys that it ran. *)
Definition attempt (e : env) (m : matcher) (v : value) : list Z * res (option result) :=
  if admits (type_filter m) (vtype v) then eval e m v [] else ([], Ok None).

(** matcher.py:1363-1388: the loop of [find_iter].  [stack] is top first, [done]
    is [_has_successful_run]; [fuel] bounds the number of pops.  Each yielded
    result comes with the object it was found at (for the specifications). *)
Fixpoint find_loop (fuel : nat) (e : env) (m : matcher) (done : list Z) (stack : list value)
  : res (list (value * result)) :=
  match stack with
  | [] => Ok []
  | v :: rest =>
      match fuel with
      | O => Err OutOfFuel
      | S n =>
          match attempt (with_done e done) m v with
          | (_, Err MatchError) => find_loop n e m done rest
          | (_, Err x) => Err x
          | (ran, Ok (Some r)) =>
              do out <- find_loop n e m (ran ++ done) rest; Ok ((v, r) :: out)
          | (_, Ok None) => find_loop n e m done (vchildren v ++ rest)
          end
      end
  end.
(** matcher.py:1348-1388 [find_iter] *)
Definition matcher_find_iter (e : env) (m : matcher) : res (list (value * result)) :=
  find_loop (vsize (e_tree e)) e m [] [e_tree e].
