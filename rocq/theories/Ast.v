(** Python objects seen by the matchers, parsed files and match objects:
    the data of refex/match.py, refex/parsed_file.py and the first half of
    refex/python/matcher.py.  Definitions only. *)
From Verif Require Import Py.

(** *** Values *)

(** The [value] of an [ast.Constant] and the other non-AST field values
    (identifiers, conversion numbers, None).  A number is its Python type and a
    code of its numeric value: two numbers have the same code iff they are
    [==] in Python ([True], [1] and [1.0] share one).  NaN is not a literal. *)
Inductive numkind := KBool | KInt | KFloat | KComplex.
Inductive const :=
  | CNone
  | CEllipsis
  | CNum (k : numkind) (code : Z)
  | CStr (s : text)
  | CBytes (s : list Z).

Definition numkind_eqb (a b : numkind) : bool :=
  match a, b with
  | KBool, KBool | KInt, KInt | KFloat, KFloat | KComplex, KComplex => true
  | _, _ => false
  end.

(** Python [==] on constants. *)
Definition const_eqb (a b : const) : bool :=
  match a, b with
  | CNone, CNone => true
  | CEllipsis, CEllipsis => true
  | CNum _ x, CNum _ y => x =? y
  | CStr x, CStr y => text_eqb x y
  | CBytes x, CBytes y => text_eqb x y
  | _, _ => false
  end.

(** [asttokens.util.Token] / [tokenize.TokenInfo], the attributes that are used. *)
Record token := Tok {
  tk_type : Z;
  tk_string : text;
  tk_start : Z;     (* startpos *)
  tk_end : Z;       (* endpos *)
  tk_index : Z
}.
(** The [tokenize] token types that the code tests for. *)
Definition T_ENDMARKER : Z := 0.
Definition T_NEWLINE : Z := 4.
Definition T_INDENT : Z := 5.
Definition T_DEDENT : Z := 6.
Definition T_COMMENT : Z := 61.
Definition T_NL : Z := 62.

(** An AST node: identity, class name, line, and the tokens that asttokens
    attached to it. *)
Record ninfo := NI {
  n_id : Z;
  n_type : text;
  n_line : option Z;
  n_first : option token;
  n_last : option token
}.

(** AST objects.  The fields of a node are those of [type(node)._fields], in
    that order ([ast.parse] sets all of them).  Every object has an identity
    [id(...)]; equal strings may share one (interning). *)
Inductive value :=
  | VNode (i : ninfo) (fs : list (text * value))
  | VList (id : Z) (items : list value)
  | VConst (id : Z) (c : const).

Section ValueInd.
  Variable P : value -> Prop.
  Hypothesis HN : forall i fs, Forall (fun kv => P (snd kv)) fs -> P (VNode i fs).
  Hypothesis HL : forall id l, Forall P l -> P (VList id l).
  Hypothesis HC : forall id c, P (VConst id c).
  Fixpoint value_ind' (v : value) : P v :=
    match v with
    | VNode i fs =>
        HN i fs ((fix go (l : list (text * value)) : Forall (fun kv => P (snd kv)) l :=
                    match l with
                    | [] => Forall_nil _
                    | kv :: r => Forall_cons kv (value_ind' (snd kv)) (go r)
                    end) fs)
    | VList id l =>
        HL id l ((fix go (l : list value) : Forall P l :=
                    match l with
                    | [] => Forall_nil _
                    | x :: r => Forall_cons x (value_ind' x) (go r)
                    end) l)
    | VConst id c => HC id c
    end.
End ValueInd.

(** [id(v)] *)
Definition vid (v : value) : Z :=
  match v with VNode i _ => n_id i | VList id _ => id | VConst id _ => id end.

(** The [None] object. *)
Definition none_id : Z := -1.
Definition VNone : value := VConst none_id CNone.

Definition is_node (v : value) : bool := match v with VNode _ _ => true | _ => false end.
Definition is_list (v : value) : bool := match v with VList _ _ => true | _ => false end.
Definition is_none (v : value) : bool := match v with VConst _ CNone => true | _ => false end.

(** [type(v)], by name.  AST class names and builtin type names are distinct. *)
Definition vtype (v : value) : text :=
  match v with
  | VNode i _ => n_type i
  | VList _ _ => TX "list"
  | VConst _ CNone => TX "NoneType"
  | VConst _ CEllipsis => TX "ellipsis"
  | VConst _ (CNum KBool _) => TX "bool"
  | VConst _ (CNum KInt _) => TX "int"
  | VConst _ (CNum KFloat _) => TX "float"
  | VConst _ (CNum KComplex _) => TX "complex"
  | VConst _ (CStr _) => TX "str"
  | VConst _ (CBytes _) => TX "bytes"
  end.

(** [getattr(v, field, None)] for a name in [_fields]. *)
Definition vfield (v : value) (f : text) : value :=
  match v with
  | VNode _ fs => match dget fs f with Some x => x | None => VNone end
  | _ => VNone
  end.
Definition has_field (v : value) (f : text) : bool :=
  match v with VNode _ fs => dmem fs f | _ => false end.

(** The direct children in order: [ast.iter_fields] / list items
    (matcher.py:1380-1388), also syntax_matchers.py:560-571 [_ast_children]. *)
Definition vchildren (v : value) : list value :=
  match v with
  | VNode _ fs => map snd fs
  | VList _ l => l
  | VConst _ _ => []
  end.

(** Number of objects in the tree. *)
Fixpoint vsize (v : value) : nat :=
  S (match v with
     | VNode _ fs => (fix go (l : list (text * value)) : nat :=
                        match l with [] => O | kv :: r => (vsize (snd kv) + go r)%nat end) fs
     | VList _ l => (fix go (l : list value) : nat :=
                       match l with [] => O | x :: r => (vsize x + go r)%nat end) l
     | VConst _ _ => O
     end).

(** Python [==]: AST nodes compare by identity, lists item by item (identical
    items are equal), constants by value. *)
Fixpoint py_eq (a b : value) : bool :=
  match a, b with
  | VNode i _, VNode j _ => n_id i =? n_id j
  | VConst _ x, VConst _ y => const_eqb x y
  | VList i l, VList j m =>
      (fix go (l m : list value) : bool :=
         match l, m with
         | [], [] => true
         | x :: l', y :: m' => ((vid x =? vid y) || py_eq x y) && go l' m'
         | _, _ => false
         end) l m
  | _, _ => false
  end.

(** *** AST class hierarchy: the [isinstance] tests that the code makes *)

Definition names (l : list string) : list text := map s2t l.
(** Subclasses of [ast.stmt] (Python 3.11). *)
Definition stmt_types : list text := names
  ["FunctionDef"; "AsyncFunctionDef"; "ClassDef"; "Return"; "Delete"; "Assign"; "AugAssign";
   "AnnAssign"; "For"; "AsyncFor"; "While"; "If"; "With"; "AsyncWith"; "Match"; "Raise"; "Try";
   "TryStar"; "Assert"; "Import"; "ImportFrom"; "Global"; "Nonlocal"; "Expr"; "Pass"; "Break";
   "Continue"]%string.
(** Subclasses of [ast.expr] (Python 3.11). *)
Definition expr_types : list text := names
  ["BoolOp"; "NamedExpr"; "BinOp"; "UnaryOp"; "Lambda"; "IfExp"; "Dict"; "Set"; "ListComp";
   "SetComp"; "DictComp"; "GeneratorExp"; "Await"; "Yield"; "YieldFrom"; "Compare"; "Call";
   "FormattedValue"; "JoinedStr"; "Constant"; "Attribute"; "Subscript"; "Starred"; "Name"; "List";
   "Tuple"; "Slice"]%string.
Definition ctx_types : list text := names ["Load"; "Store"; "Del"]%string.

Definition isinst (v : value) (types : list text) : bool :=
  match v with VNode i _ => tmem (n_type i) types | _ => false end.
Definition is_stmt (v : value) : bool := isinst v stmt_types.
Definition is_expr (v : value) : bool := isinst v expr_types.
Definition is_ctx (v : value) : bool := isinst v ctx_types.

(** *** Structural equivalence *)

(** matcher.py:479-500: the loop of [ast_equivalent]; [fuel] bounds the number
    of pops.  The stack's top is the head of the list; the code pushes the
    fields in reverse, so the first field is on top. *)
Fixpoint equiv_loop (fuel : nat) (stack : list (value * value)) : res bool :=
  match stack with
  | [] => Ok true
  | (lhs, rhs) :: rest =>
      match fuel with
      | O => Err OutOfFuel
      | S fuel' =>
          match lhs, rhs with
          | VNode i fs, VNode j _ =>
              if negb (text_eqb (n_type i) (n_type j)) then Ok (is_ctx lhs && is_ctx rhs)
              else equiv_loop fuel'
                     (map (fun kv => (snd kv, vfield rhs (fst kv))) fs ++ rest)
          | _, _ => if py_eq lhs rhs then equiv_loop fuel' rest else Ok false
          end
      end
  end.

(** matcher.py:458-500 [ast_equivalent]. *)
Definition ast_equivalent (a b : value) : res bool :=
  if vid a =? vid b then Ok true else equiv_loop (vsize a) [(a, b)].

(** *** Navigation *)

(** matcher.py:1036-1039 [_BreadcrumbType] *)
Inductive crumb := ATTR (f : text) | ITEM (k : Z).
(** [None] stands for the root's (None, None, None). *)
Definition breadcrumb := option (value * crumb).
(** _CompareById(child) -> breadcrumb, the most recent assignment first. *)
Definition crumb_map := list (Z * breadcrumb).

Fixpoint item_crumbs (p : value) (k : Z) (l : list value) : list (value * (value * crumb)) :=
  match l with
  | [] => []
  | x :: r => (x, (p, ITEM k)) :: item_crumbs p (k + 1) r
  end.
(** matcher.py:1075-1090: what one iteration records, in order. *)
Definition crumbs_of (v : value) : list (value * (value * crumb)) :=
  match v with
  | VNode _ fs => map (fun kv => (snd kv, (v, ATTR (fst kv))))
                      (filter (fun kv => negb (is_none (snd kv))) fs)
  | VList _ l => item_crumbs v 0 l
  | VConst _ _ => []
  end.

(** matcher.py:1058-1094 [_parent_breadcrumb]: the loop.  [nodes] is the stack,
    top first; [fuel] bounds the number of pops. *)
Fixpoint crumb_loop (fuel : nat) (nodes : list value) (acc : crumb_map) : crumb_map :=
  match fuel, nodes with
  | S fuel', v :: rest =>
      let cs := crumbs_of v in
      crumb_loop fuel' (rev (map fst cs) ++ rest)
                 (rev (map (fun c => (vid (fst c), Some (snd c))) cs) ++ acc)
  | _, _ => acc
  end.
Definition parent_breadcrumb (tree : value) : crumb_map :=
  crumb_loop (vsize tree) [tree] [(vid tree, None)].

Fixpoint crumb_get (m : crumb_map) (k : Z) : breadcrumb :=
  match m with
  | [] => None
  | (k', b) :: rest => if k' =? k then b else crumb_get rest k
  end.
(** matcher.py:1096-1104 [_get_breadcrumb] *)
Definition get_breadcrumb (tree : value) (child : value) : breadcrumb :=
  crumb_get (parent_breadcrumb tree) (vid child).

(** matcher.py:1106-1117 [get_parent]; [None] for "no parent". *)
Definition get_parent (tree v : value) : option value :=
  match get_breadcrumb tree v with Some (p, _) => Some p | None => None end.

(** [parent[k]] for a list; [ITEM] crumbs always have a list parent. *)
Definition list_item (p : value) (k : Z) : option value :=
  match p with
  | VList _ l => if k <? 0 then None else nth_error l (Z.to_nat k)
  | _ => None
  end.
Definition list_len (p : value) : Z := match p with VList _ l => tlen l | _ => 0 end.

(** matcher.py:1119-1132 [get_prev_sibling] *)
Definition get_prev_sibling (tree v : value) : option value :=
  match get_breadcrumb tree v with
  | Some (p, ITEM k) => if k =? 0 then None else list_item p (k - 1)
  | _ => None
  end.

(** matcher.py:1134-1150 [get_next_sibling] *)
Definition get_next_sibling (tree v : value) : option value :=
  match get_breadcrumb tree v with
  | Some (p, ITEM k) => if k + 1 =? list_len p then None else list_item p (k + 1)
  | _ => None
  end.

(** matcher.py:1152-1175 [get_simple_node]; [fuel] bounds the climb (the code
    loops forever if the node is not in the tree). *)
Fixpoint simple_loop (fuel : nat) (tree : value) (last : option value) (v : value)
  : res (option value) :=
  match fuel with
  | O => Err OutOfFuel
  | S fuel' =>
      if has_field v (TX "body") then Ok last
      else
        let last' := if is_list v then last else Some v in
        match get_parent tree v with
        | Some p => simple_loop fuel' tree last' p
        | None => Err OutOfFuel
        end
  end.
Definition get_simple_node (tree v : value) : res (option value) :=
  simple_loop (S (S (vsize tree))) tree None v.

(** *** Parsed files *)

(** parsed_file.py:75-89 [Pragma] *)
Record pragma := Pragma {
  p_tag : text;
  p_data : dict text;
  p_start : Z;
  p_end : Z
}.

(** matcher.py:278-286: what [PythonParsedFile] adds ([nav] is computed from
    the tree). *)
Record pyinfo := PyInfo {
  py_tokens : list token;
  py_tree : value
}.
(** parsed_file.py:30-54 [ParsedFile]; a [PythonParsedFile] when [pf_py] is given. *)
Record parsed_file := PF {
  pf_text : text;
  pf_path : text;
  pf_pragmas : list pragma;
  pf_py : option pyinfo
}.

(** *** Match objects *)

(** match.py:63-109 and matcher.py:336-397. *)
Inductive pymatch :=
  | PMatch                                    (* match.Match *)
  | PString (s : text)                        (* match.StringMatch *)
  | PSpan (s : text) (sp : span)              (* match.SpanMatch *)
  | PObject (v : value)                       (* match.ObjectMatch *)
  | PLex (v : value) (txt : text) (first last : token) (incl_first incl_last : bool).
                                              (* matcher.LexicalASTMatch *)

(** matcher.py:381-392 [LexicalMatch.span] *)
Definition lex_span (first last : token) (incl_first incl_last : bool) : span :=
  (if incl_first then tk_start first else tk_end first,
   if incl_last then tk_end last else tk_start last).

(** [m.span] *)
Definition m_span (m : pymatch) : option span :=
  match m with
  | PSpan _ sp => Some sp
  | PLex _ _ f l a b => Some (lex_span f l a b)
  | _ => None
  end.
(** [m.string] (matcher.py:376-379 for lexical matches) *)
Definition m_string (m : pymatch) : option text :=
  match m with
  | PString s | PSpan s _ => Some s
  | PLex _ txt f l a b => let sp := lex_span f l a b in Some (slice txt (fst sp) (snd sp))
  | _ => None
  end.
(** [m.matched] *)
Definition m_matched (m : pymatch) : option value :=
  match m with PObject v => Some v | PLex v _ _ _ _ _ => Some v | _ => None end.

(** match.py:95-99 [SpanMatch.from_text] *)
Definition span_match (txt : text) (sp : span) : pymatch :=
  PSpan (slice txt (fst sp) (snd sp)) sp.

(** matcher.py:431-455 [_is_lexical_match]; gives the two tokens. *)
Definition lexical_tokens (v : value) : option (token * token) :=
  match v with
  | VNode i fs =>
      match n_first i, n_last i with
      | Some f, Some l =>
          if text_eqb (n_type i) (TX "arguments") then
            match vfield v (TX "args") with
            | VList _ (_ :: _) => Some (f, l)
            | _ => None
            end
          else if text_eqb (n_type i) (TX "alias") then None
          else Some (f, l)
      | _, _ => None
      end
  | _ => None
  end.

(** matcher.py:403-428 [create_match] *)
Definition create_match (parsed : parsed_file) (v : value) : pymatch :=
  match lexical_tokens v with
  | Some (f, l) => PLex v (pf_text parsed) f l true true
  | None => match v with
            | VConst _ (CStr s) => PString s
            | _ => PObject v
            end
  end.
