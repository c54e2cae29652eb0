(** Model of the evaluation of matcher expressions: refex/python/semiliteral_eval.py
    and refex/python/evaluate.py.  Definitions only. *)
From Verif Require Import Py Ast.

(** The Python expressions that the evaluator looks at; [EOther] is any other
    node.  The keys of a dictionary display are missing for [**d], the name of a
    keyword argument for [**kw]. *)
Inductive pexpr :=
  | EConst (c : const)
  | EUnary (op : text) (operand : pexpr)
  | ETuple (l : list pexpr)
  | EList (l : list pexpr)
  | EDict (l : list (option pexpr * pexpr))
  | ESet (l : list pexpr)
  | ECall (func : pexpr) (args : list pexpr) (keywords : list (option text * pexpr))
  | EName (id : text)
  | EAttribute (v : pexpr) (attr : text)
  | EStarred (v : pexpr)
  | EOther.

(** semiliteral_eval.py:128-136 [_GetDottedName].  [None + '.'] is a TypeError. *)
Fixpoint dotted_name (e : pexpr) : res (option text) :=
  match e with
  | EName id => Ok (Some id)
  | EAttribute v attr =>
      do lhs <- dotted_name v;
      match lhs with
      | Some s => Ok (Some (s ++ TX "." ++ attr))
      | None => Err TypeError
      end
  | _ => Ok None
  end.
(** 30-38 [_HasStarArgs] *)
Definition is_starred (e : pexpr) : bool := match e with EStarred _ => true | _ => false end.
Definition has_star_args (args : list pexpr) (keywords : list (option text * pexpr)) : bool :=
  existsb is_starred args || existsb (fun kw => match fst kw with None => true | Some _ => false end) keywords.
(** [isinstance(node, ast.Num)] *)
Definition is_num (e : pexpr) : bool :=
  match e with
  | EConst (CNum KBool _) => false
  | EConst (CNum _ _) => true
  | _ => false
  end.

(** Python objects are left abstract. *)
Section Eval.
  Variable obj : Type.
  Variable of_const : const -> obj.
  Variable negate : obj -> obj.                             (* 0 - x, for a number x *)
  Variable mk_tuple mk_list mk_set : list obj -> obj.
  Variable mk_dict : list (obj * obj) -> obj.
  Variable hashable : obj -> bool.

  (** A call that was made: the name of the callable and the arguments. *)
  Record event := Event { ev_name : text; ev_args : list obj; ev_kwargs : dict obj }.
  (** What a callable does may depend on all calls before. *)
  Definition callable := list event -> list obj -> dict obj -> res obj.
  Variable callables : dict callable.
  Variable constants : dict obj.

  Definition ev (A : Type) := list event -> list event * res A.
  Definition ev_ret {A} (x : A) : ev A := fun h => (h, Ok x).
  Definition ev_raise {A} (x : exn) : ev A := fun h => (h, Err x).
  Definition ev_bind {A B} (m : ev A) (f : A -> ev B) : ev B :=
    fun h => match m h with (h', Ok x) => f x h' | (h', Err x) => (h', Err x) end.
  Definition call (name : text) (f : callable) (args : list obj) (kwargs : dict obj) : ev obj :=
    fun h => (h ++ [Event name args kwargs], f h args kwargs).
  Definition check_hashable (o : obj) : ev unit :=
    if hashable o then ev_ret tt else ev_raise TypeError.

  (** 81-130 [_Convert] *)
  Fixpoint convert (e : pexpr) : ev obj :=
    match e with
    | EConst c => ev_ret (of_const c)
    | EUnary op x =>
        if text_eqb op (TX "USub") && is_num x
        then ev_bind (convert x) (fun o => ev_ret (negate o))
        else ev_raise SyntaxError
    | ETuple l =>
        ev_bind (fold_right (fun x rest => ev_bind (convert x) (fun o => ev_bind rest (fun os => ev_ret (o :: os)))) (ev_ret []) l)
                (fun os => ev_ret (mk_tuple os))
    | EList l =>
        ev_bind (fold_right (fun x rest => ev_bind (convert x) (fun o => ev_bind rest (fun os => ev_ret (o :: os)))) (ev_ret []) l)
                (fun os => ev_ret (mk_list os))
    | EDict l =>
        ev_bind (fold_right (fun (kv : option pexpr * pexpr) rest =>
                   match kv with
                   | (Some k, v) =>
                       ev_bind (convert k) (fun a => ev_bind (convert v) (fun b =>
                         ev_bind (check_hashable a) (fun _ => ev_bind rest (fun os => ev_ret ((a, b) :: os)))))
                   | (None, _) => ev_raise SyntaxError
                   end) (ev_ret []) l)
                (fun os => ev_ret (mk_dict os))
    | ESet l =>
        ev_bind (fold_right (fun x rest => ev_bind (convert x) (fun o =>
                   ev_bind (check_hashable o) (fun _ => ev_bind rest (fun os => ev_ret (o :: os))))) (ev_ret []) l)
                (fun os => ev_ret (mk_set os))
    | ECall func args keywords =>
        if has_star_args args keywords then ev_raise SyntaxError
        else
          match dotted_name func with
          | Err x => ev_raise x
          | Ok None => ev_raise SyntaxError
          | Ok (Some name) =>
              match dget callables name with
              | None => ev_raise SyntaxError
              | Some f =>
                  ev_bind (fold_right (fun x rest => ev_bind (convert x) (fun o => ev_bind rest (fun os => ev_ret (o :: os)))) (ev_ret []) args)
                    (fun os =>
                  ev_bind (fold_right (fun (kw : option text * pexpr) rest =>
                             match kw with
                             | (Some k, v) => ev_bind (convert v) (fun o => ev_bind rest (fun os => ev_ret ((k, o) :: os)))
                             | (None, _) => ev_raise TypeError   (* not reached *)
                             end) (ev_ret []) keywords)
                    (fun kws => call name f os (fold_left (fun d kv => dset d (fst kv) (snd kv)) kws [])))
              end
          end
    | _ =>
        match dotted_name e with
        | Err x => ev_raise x
        | Ok None => ev_raise SyntaxError
        | Ok (Some name) =>
            match dget constants name with
            | Some o => ev_ret o
            | None => ev_raise SyntaxError
            end
        end
    end.

  (** evaluate.py:74-83 [compile_matcher]; [dedent] is textwrap.dedent followed by
      strip, [parse] is ast.parse in mode 'eval'. *)
  Definition compile_matcher (dedent : text -> text) (parse : text -> res pexpr) (src : text) : ev obj :=
    fun h =>
      match (match parse (dedent src) with Ok e => convert e h | Err x => (h, Err x) end) with
      | (h', Err SyntaxError) => (h', Err ValueError)
      | r => r
      end.
End Eval.
Arguments Event {obj}. Arguments ev_name {obj}. Arguments ev_args {obj}. Arguments ev_kwargs {obj}.
Arguments ev_bind {obj A B}. Arguments ev_ret {obj A}. Arguments ev_raise {obj A}.

(** *** The table of callables *)
Section Table.
  Variable cls : Type.
  Variable is_type is_safe : cls -> bool.                   (* isinstance(_, type), is_safe_to_eval *)

  (** evaluate.py:49-64 [add_module]: [attrs] are the attributes of the module,
      sorted; [module] its last name. *)
  Definition add_names (overwrite : bool) (table : dict cls) (names : list text) (c : cls) : dict cls * bool :=
    fold_left (fun (s : dict cls * bool) n =>
      if overwrite || negb (dmem (fst s) n) then (dset (fst s) n c, true) else s) names (table, false).
  Fixpoint add_module (overwrite : bool) (module : text) (attrs : list (text * cls)) (table : dict cls) : res (dict cls) :=
    match attrs with
    | [] => Ok table
    | (a, c) :: rest =>
        if negb (is_type c) || negb (is_safe c) then add_module overwrite module rest table
        else
          let (table', mutated) := add_names overwrite table [a; module ++ TX "." ++ a] c in
          if mutated then add_module overwrite module rest table' else Err ValueError
    end.
  (** evaluate.py:67-71: all modules, in order. *)
  Fixpoint add_modules (mods : list (text * list (text * cls))) (table : dict cls) : res (dict cls) :=
    match mods with
    | [] => Ok table
    | (m, attrs) :: rest => do t <- add_module true m attrs table; add_modules rest t
    end.
End Table.
