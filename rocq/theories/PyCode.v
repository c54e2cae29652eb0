(** A little bit of Python: some expressions and statements, how they are written,
    what their syntax trees are (Python 3.11), and what they do. *)
From Verif Require Import Py Ast Template FromDiff Matcher PatTok PatSpec Pattern PatternSpec PyTemplate PyTemplateSpec.

(** *** Expressions, and two kinds of statements *)
Inductive cmp := Eq | NotEq | Lt | LtE | Gt | GtE | Is | IsNot | In_ | NotIn.
(** [A]: what is left open in an expression. *)
Inductive code (A : Type) :=
  | Var (a : A)                                   (* anything *)
  | Name (n : text)                               (* n *)
  | Int (n : Z)                                   (* 0 *)
  | Attr (e : code A) (a : text)                  (* e.a *)
  | Call (f : code A) (args : list (code A))      (* f(args) *)
  | Compare (op : cmp) (l r : code A)             (* l op r *)
  | Not (e : code A)                              (* not e *)
  | ListComp (e t i : code A)                     (* [e for t in i] *)
  | SetComp (e t i : code A)                      (* {e for t in i} *)
  | Mod (l r : code A)                            (* l % r *)
  | Tuple1 (e : code A)                           (* (e,) *)
  | CallKw (f : code A) (args : list (code A)) (k : text) (e : code A) (* f(args, k=e) *)
  | EmptyList                                     (* [] *)
  | EmptyDict                                     (* {} *)
  | Assign (t e : code A)                         (* t = e *)
  | Do (e : code A).                              (* e, as a statement *)
Arguments Var {A}. Arguments Name {A}. Arguments Int {A}. Arguments Attr {A}. Arguments Call {A}.
Arguments Compare {A}. Arguments Not {A}. Arguments ListComp {A}. Arguments SetComp {A}.
Arguments Mod {A}. Arguments Tuple1 {A}. Arguments CallKw {A}. Arguments EmptyList {A}. Arguments EmptyDict {A}. Arguments Assign {A}. Arguments Do {A}.

(** How they are written: pieces of text, and what is left open.  (There are no
    parentheses in this; it is meant for expressions that do not need any.) *)
Definition cmp_text (o : cmp) : text :=
  match o with
  | Eq => TX "==" | NotEq => TX "!=" | Lt => TX "<" | LtE => TX "<=" | Gt => TX ">" | GtE => TX ">="
  | Is => TX "is" | IsNot => TX "is not" | In_ => TX "in" | NotIn => TX "not in"
  end.
Fixpoint between {X} (sep : list X) (l : list (list X)) : list X :=
  match l with [] => [] | [a] => a | a :: r => a ++ sep ++ between sep r end.
Fixpoint pieces {A} (c : code A) : list (text + A) :=
  match c with
  | Var a => [inr a]
  | Name n => [inl n]
  | Int n => [inl [48 + n]]                                      (* 0 to 9 only *)
  | Attr e a => pieces e ++ [inl (TX "."); inl a]
  | Call f args => pieces f ++ [inl (TX "(")] ++ between [inl (TX ", ")] (map pieces args) ++ [inl (TX ")")]
  | Compare op l r => pieces l ++ [inl (TX " "); inl (cmp_text op); inl (TX " ")] ++ pieces r
  | Not e => [inl (TX "not ")] ++ pieces e
  | ListComp e t i => [inl (TX "[")] ++ pieces e ++ [inl (TX " for ")] ++ pieces t ++ [inl (TX " in ")] ++ pieces i ++ [inl (TX "]")]
  | SetComp e t i => [inl (TX "{")] ++ pieces e ++ [inl (TX " for ")] ++ pieces t ++ [inl (TX " in ")] ++ pieces i ++ [inl (TX "}")]
  | Mod l r => pieces l ++ [inl (TX " % ")] ++ pieces r
  | Tuple1 e => [inl (TX "(")] ++ pieces e ++ [inl (TX ",)")]
  | CallKw f args k e => pieces f ++ [inl (TX "(")] ++ between [inl (TX ", ")] (map pieces args ++ [[inl k; inl (TX "=")] ++ pieces e]) ++ [inl (TX ")")]
  | EmptyList => [inl (TX "[]")]
  | EmptyDict => [inl (TX "{}")]
  | Assign t e => pieces t ++ [inl (TX " = ")] ++ pieces e
  | Do e => pieces e
  end.
Definition show {A} (f : A -> text) (c : code A) : text :=
  concat (map (fun p => match p with inl s => s | inr a => f a end) (pieces c)).
(** With metavariables. *)
Definition source (c : code label) : text := show (fun x => TX "$" ++ x) c.

(** The parts that are left open, and putting something there. *)
Fixpoint left_open {A} (c : code A) : list A :=
  match c with
  | Var a => [a]
  | Name _ | Int _ | EmptyList | EmptyDict => []
  | Attr e _ | Not e | Tuple1 e | Do e => left_open e
  | Call f args => left_open f ++ flat_map left_open args
  | CallKw f args _ e => left_open f ++ flat_map left_open args ++ left_open e
  | Compare _ l r | Mod l r | Assign l r => left_open l ++ left_open r
  | ListComp e t i | SetComp e t i => left_open e ++ left_open t ++ left_open i
  end.
Fixpoint fill {A B} (f : A -> B) (c : code A) : code B :=
  match c with
  | Var a => Var (f a)
  | Name n => Name n
  | Int n => Int n
  | Attr e a => Attr (fill f e) a
  | Call g args => Call (fill f g) (map (fill f) args)
  | Compare op l r => Compare op (fill f l) (fill f r)
  | Not e => Not (fill f e)
  | ListComp e t i => ListComp (fill f e) (fill f t) (fill f i)
  | SetComp e t i => SetComp (fill f e) (fill f t) (fill f i)
  | Mod l r => Mod (fill f l) (fill f r)
  | Tuple1 e => Tuple1 (fill f e)
  | CallKw g args k e => CallKw (fill f g) (map (fill f) args) k (fill f e)
  | EmptyList => EmptyList
  | EmptyDict => EmptyDict
  | Assign t e => Assign (fill f t) (fill f e)
  | Do e => Do (fill f e)
  end.

(** The tokens of one line of code (as much as is needed here), with the white
    space before them, for [tokenize] of Python 3.11: names, numbers, operators;
    [$] is an error, as is every space right before it. *)
Definition word_char (c : Z) : bool :=
  ((97 <=? c) && (c <=? 122)) || ((65 <=? c) && (c <=? 90)) || ((48 <=? c) && (c <=? 57)) || (c =? 95).
Definition digit (c : Z) : bool := (48 <=? c) && (c <=? 57).
Fixpoint take_while (f : Z -> bool) (s : text) : text :=
  match s with c :: r => if f c then c :: take_while f r else [] | [] => [] end.
Definition on_line (ty : Z) (s : text) (col : Z) : ptok := PTok ty s (1, col) (1, col + Z.of_nat (length s)).
Fixpoint error_spaces (k : nat) (col : Z) : list (text * ptok) :=
  match k with O => [] | S n => ([], on_line 60 [32] col) :: error_spaces n (col + 1) end.
Fixpoint lex (fuel : nat) (col : Z) (gap s : text) : list (text * ptok) :=
  match fuel, s with
  | O, _ => []
  | S _, [] => [(gap, on_line 4 [NL] col); ([], PTok 0 [] (2, 0) (2, 0))]
  | S n, c :: r =>
      if c =? 32 then lex n (col + 1) (gap ++ [c]) r
      else if c =? 36 then error_spaces (length gap) (col - Z.of_nat (length gap)) ++ ([], on_line 60 [c] col) :: lex n (col + 1) [] r
      else
        let w := if digit c then take_while digit s else if word_char c then take_while word_char s
                 else match r with
                      | 61 :: _ => if existsb (Z.eqb c) (TX "=!<>") then [c; 61] else [c]
                      | _ => [c]
                      end in
        (gap, on_line (if digit c then 2 else if word_char c then 1 else 54) w col)
          :: lex n (col + Z.of_nat (length w)) [] (skipn (length w) s)
  end.
Definition line_tokens (s : text) : list (text * ptok) := lex (S (length s)) 0 [] s.

(** *** Syntax trees *)
Inductive tree (A : Type) :=
  | TVar (a : A)
  | TConst (c : const)
  | TContext                                      (* Load, Store or Del *)
  | TList (l : list (tree A))
  | TNode (ty : text) (fs : list (text * tree A)).
Arguments TVar {A}. Arguments TConst {A}. Arguments TContext {A}. Arguments TList {A}. Arguments TNode {A}.
Definition cmp_type (o : cmp) : text :=
  match o with
  | Eq => TX "Eq" | NotEq => TX "NotEq" | Lt => TX "Lt" | LtE => TX "LtE" | Gt => TX "Gt" | GtE => TX "GtE"
  | Is => TX "Is" | IsNot => TX "IsNot" | In_ => TX "In" | NotIn => TX "NotIn"
  end.
Definition comprehension {A} (target iter : tree A) : tree A :=
  TNode (TX "comprehension") [(TX "target", target); (TX "iter", iter); (TX "ifs", TList []); (TX "is_async", TConst (CNum KInt 0))].
(** (The number [n] has the code [2 * n].) *)
Fixpoint tree_of {A} (c : code A) : tree A :=
  match c with
  | Var a => TVar a
  | Name n => TNode (TX "Name") [(TX "id", TConst (CStr n)); (TX "ctx", TContext)]
  | Int n => TNode (TX "Constant") [(TX "value", TConst (CNum KInt (2 * n))); (TX "kind", TConst CNone)]
  | Attr e a => TNode (TX "Attribute") [(TX "value", tree_of e); (TX "attr", TConst (CStr a)); (TX "ctx", TContext)]
  | Call f args => TNode (TX "Call") [(TX "func", tree_of f); (TX "args", TList (map tree_of args)); (TX "keywords", TList [])]
  | Compare op l r => TNode (TX "Compare") [(TX "left", tree_of l); (TX "ops", TList [TNode (cmp_type op) []]); (TX "comparators", TList [tree_of r])]
  | Not e => TNode (TX "UnaryOp") [(TX "op", TNode (TX "Not") []); (TX "operand", tree_of e)]
  | ListComp e t i => TNode (TX "ListComp") [(TX "elt", tree_of e); (TX "generators", TList [comprehension (tree_of t) (tree_of i)])]
  | SetComp e t i => TNode (TX "SetComp") [(TX "elt", tree_of e); (TX "generators", TList [comprehension (tree_of t) (tree_of i)])]
  | Mod l r => TNode (TX "BinOp") [(TX "left", tree_of l); (TX "op", TNode (TX "Mod") []); (TX "right", tree_of r)]
  | Tuple1 e => TNode (TX "Tuple") [(TX "elts", TList [tree_of e]); (TX "ctx", TContext)]
  | CallKw f args k e => TNode (TX "Call") [(TX "func", tree_of f); (TX "args", TList (map tree_of args));
      (TX "keywords", TList [TNode (TX "keyword") [(TX "arg", TConst (CStr k)); (TX "value", tree_of e)]])]
  | EmptyList => TNode (TX "List") [(TX "elts", TList []); (TX "ctx", TContext)]
  | EmptyDict => TNode (TX "Dict") [(TX "keys", TList []); (TX "values", TList [])]
  | Assign t e => TNode (TX "Assign") [(TX "targets", TList [tree_of t]); (TX "value", tree_of e); (TX "type_comment", TConst CNone)]
  | Do e => TNode (TX "Expr") [(TX "value", tree_of e)]
  end.
(** [v] is such a tree, with something that [R] allows in the place of what is left
    open; constants are compared with [==]. *)
Inductive stands {A} (R : A -> value -> Prop) : tree A -> value -> Prop :=
  | ST_var a v : R a v -> stands R (TVar a) v
  | ST_const c id d : const_eqb c d = true -> stands R (TConst c) (VConst id d)
  | ST_context i : is_ctx (VNode i []) = true -> stands R TContext (VNode i [])
  | ST_list l id m : Forall2 (stands R) l m -> stands R (TList l) (VList id m)
  | ST_node ty fs i gs : n_type i = ty ->
      Forall2 (fun ft fv => fst ft = fst fv /\ stands R (snd ft) (snd fv)) fs gs -> stands R (TNode ty fs) (VNode i gs).
(** [v] is the expression [c], with something that [R] allows in the place of what
    is left open. *)
Definition reads {A} (R : A -> value -> Prop) (c : code A) (v : value) : Prop := stands R (tree_of c) v.
(** [v] is the expression [c], made of these parts. *)
Definition made_of (c : code value) (v : value) : Prop := reads eq c v.

(** Python tokenizes and parses the text of [c] so, where the metavariables have
    been given other names: the module has just this expression, or statement. *)
Record understood_as (k : template_kind) (tokenize : text -> res (list ptok)) (ast_parse : text -> res value) (c : code label) : Prop := {
  una_tokens : tokenize (source c ++ [NL]) = Ok (map snd (line_tokens (source c)));
  una_tree : forall rename module p, (forall x, invented (rename x)) ->
    ast_parse (show rename c) = Ok module -> pull_of k module = Ok p ->
    reads (fun x v => is_name v (rename x)) c p
}.
Definition understood := understood_as KExpr.
Definition un_tokens tokenize ast_parse c (U : understood tokenize ast_parse c) := una_tokens _ _ _ _ U.

(** The fields of these nodes that are expressions, or lists of them. *)
Definition expr_fields : list (text * text) :=
  [(TX "Attribute", TX "value"); (TX "Call", TX "func"); (TX "Compare", TX "left"); (TX "UnaryOp", TX "operand"); (TX "ListComp", TX "elt");
   (TX "SetComp", TX "elt"); (TX "comprehension", TX "target"); (TX "comprehension", TX "iter");
   (TX "BinOp", TX "left"); (TX "BinOp", TX "right"); (TX "keyword", TX "value"); (TX "Assign", TX "value"); (TX "Expr", TX "value")].
Definition expr_lists : list (text * text) := [(TX "Call", TX "args"); (TX "Compare", TX "comparators"); (TX "Tuple", TX "elts"); (TX "Assign", TX "targets")].
(** An expression that has a place in the source. *)
Definition located_expr (v : value) : Prop := is_expr v = true /\ lexical_tokens v <> None.
Definition located_exprs (root : value) : Prop :=
  forall i fs f v, inside root (VNode i fs) -> In (f, v) fs ->
    (In (n_type i, f) expr_fields -> located_expr v)
    /\ (In (n_type i, f) expr_lists -> forall w, In w (vchildren v) -> located_expr w).

(** *** What they do *)
(** Running something changes the state; it returns a value or raises an exception. *)
Section Actions.
  Context {St Exn : Type}.
  Definition act (X : Type) := St -> (X + Exn) * St.
  Definition done {X} (x : X) : act X := fun s => (inl x, s).
  Definition raise {X} (x : Exn) : act X := fun s => (inr x, s).
  Definition next {X Y} (a : act X) (f : X -> act Y) : act Y :=
    fun s => match a s with
             | (inl x, s') => f x s'
             | (inr x, s') => (inr x, s')
             end.
  (** The same, in every state. *)
  Definition same {X} (a b : act X) : Prop := forall s, a s = b s.
  Definition negate (a : act bool) : act bool := next a (fun b => done (negb b)).
  Definition in_turn {X Y} (f : X -> act Y) : list X -> act (list Y) :=
    fix go l := match l with
                | [] => done []
                | x :: r => next (f x) (fun y => next (go r) (fun ys => done (y :: ys)))
                end.
End Actions.
Arguments act : clear implicits.

(** A Python, as far as it is needed: the operations that expressions are made of. *)
Record python (St Exn Val : Type) := Python {
  exec : value -> act St Exn Val;                           (* evaluate the expression *)
  truth : Val -> act St Exn bool;                          (* bool(x) *)
  bool_val : bool -> Val;
  int_val : Z -> Val;
  none_val : Val;
  compare : cmp -> Val -> Val -> act St Exn Val;           (* x == y etc. *)
  is_instance : Val -> Val -> act St Exn Val;              (* isinstance(x, y) *)
  size : Val -> act St Exn Z;                              (* len(x) *)
  to_list : Val -> act St Exn Val;                         (* list(x) *)
  to_set : Val -> act St Exn Val;                          (* set(x) *)
  assertion : text -> list Val -> act St Exn Val;          (* the assertion methods of test cases *)
  assertion_error : text -> list Val -> Exn                (* what they raise; the message depends on the method *)
}.
Arguments exec {St Exn Val}. Arguments truth {St Exn Val}. Arguments bool_val {St Exn Val}. Arguments int_val {St Exn Val}.
Arguments none_val {St Exn Val}. Arguments compare {St Exn Val}. Arguments is_instance {St Exn Val}. Arguments size {St Exn Val}.
Arguments to_list {St Exn Val}. Arguments to_set {St Exn Val}. Arguments assertion {St Exn Val}. Arguments assertion_error {St Exn Val}.

Section Meaning.
  Context {St Exn Val : Type} (P : python St Exn Val).
  (** [x op y] is true *)
  Definition holds (op : cmp) (x y : Val) : act St Exn bool := next (compare P op x y) (truth P).
  (** What the methods check, from the table in the documentation of unittest (and
      that of absltest for the last two). *)
  Definition documented : list (text * (list Val -> option (act St Exn bool))) :=
    let one f := fun xs => match xs with [x] => Some (f x) | _ => None end in
    let two f := fun xs => match xs with [x; y] => Some (f x y) | _ => None end in
    [(TX "assertEqual", two (holds Eq));
     (TX "assertNotEqual", two (holds NotEq));
     (TX "assertTrue", one (truth P));
     (TX "assertFalse", one (fun x => negate (truth P x)));
     (TX "assertIs", two (holds Is));
     (TX "assertIsNot", two (holds IsNot));
     (TX "assertIn", two (holds In_));
     (TX "assertNotIn", two (holds NotIn));
     (TX "assertIsInstance", two (fun x y => next (is_instance P x y) (truth P)));
     (TX "assertNotIsInstance", two (fun x y => negate (next (is_instance P x y) (truth P))));
     (TX "assertGreater", two (holds Gt));
     (TX "assertGreaterEqual", two (holds GtE));
     (TX "assertLess", two (holds Lt));
     (TX "assertLessEqual", two (holds LtE));
     (TX "assertLen", two (fun x y => next (size P x) (fun n => holds Eq (int_val P n) y)));
     (TX "assertEmpty", one (fun x => next (size P x) (fun n => holds Eq (int_val P n) (int_val P 0))))].

  (** How Python evaluates these expressions, where [self] is a test case and the
      built-in names are not redefined.  (The lookup of the method, and making the
      message of an AssertionError, have no effects of their own.) *)
  Record laws : Prop := {
    law_bool : forall b, same (truth P (bool_val P b)) (done b);
    law_compare : forall op l r v, made_of (Compare op (Var l) (Var r)) v ->
      same (exec P v) (next (exec P l) (fun x => next (exec P r) (fun y => compare P op x y)));
    law_is_not : forall x y, same (compare P IsNot x y) (next (holds Is x y) (fun b => done (bool_val P (negb b))));
    law_not_in : forall x y, same (compare P NotIn x y) (next (holds In_ x y) (fun b => done (bool_val P (negb b))));
    law_not : forall e v, made_of (Not (Var e)) v ->
      same (exec P v) (next (exec P e) (fun x => next (truth P x) (fun b => done (bool_val P (negb b)))));
    law_isinstance : forall a b v, made_of (Call (Name (TX "isinstance")) [Var a; Var b]) v ->
      same (exec P v) (next (exec P a) (fun x => next (exec P b) (fun y => is_instance P x y)));
    (* the number may be written 0, 0.0 or False: these are equal *)
    law_int : forall n v, made_of (Int n) v -> exists z, same (exec P v) (done z)
      /\ forall x, same (holds Eq x z) (holds Eq x (int_val P n));
    law_method : forall m args v, In m (map fst documented) ->
      made_of (Call (Attr (Name (TX "self")) m) (map Var args)) v ->
      same (exec P v) (next (in_turn (exec P) args) (assertion P m));
    law_assertion : forall m check xs b, In (m, check) documented -> check xs = Some b ->
      same (assertion P m xs) (next b (fun t => if t then done (none_val P) else raise (assertion_error P m xs)));
    law_items_equal : forall v w, made_of (Attr (Name (TX "self")) (TX "assertItemsEqual")) v ->
      made_of (Attr (Name (TX "self")) (TX "assertCountEqual")) w -> same (exec P v) (exec P w);
    (* [n for n in i], for a plain name *)
    law_list_comp : forall n e t i v, is_name e n -> is_name t n -> made_of (ListComp (Var e) (Var t) (Var i)) v ->
      same (exec P v) (next (exec P i) (to_list P));
    law_set_comp : forall n e t i v, is_name e n -> is_name t n -> made_of (SetComp (Var e) (Var t) (Var i)) v ->
      same (exec P v) (next (exec P i) (to_set P));
    law_list : forall i v, made_of (Call (Name (TX "list")) [Var i]) v -> same (exec P v) (next (exec P i) (to_list P));
    law_set : forall i v, made_of (Call (Name (TX "set")) [Var i]) v -> same (exec P v) (next (exec P i) (to_set P))
  }.

  (** The same behaviour: the same effects, and the same value or exception, except
      that an AssertionError may have another message. *)
  Definition same_outcome (a b : Val + Exn) : Prop :=
    a = b \/ exists m xs m' xs', a = inr (assertion_error P m xs) /\ b = inr (assertion_error P m' xs').
  Definition same_behaviour (v w : value) : Prop :=
    forall s, snd (exec P v s) = snd (exec P w s) /\ same_outcome (fst (exec P v s)) (fst (exec P w s)).
End Meaning.
