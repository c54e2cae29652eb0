(** Model of the template half of refex/formatting.py (lines 441-689). *)
From Verif Require Import Py Ast.

(** Labels are strings or integers (regex group numbers).  The integer [i] is
    represented by a text that no Python string equals. *)
Definition int_label (i : Z) : label := [-1; i].
Definition is_int_label (l : label) : bool :=
  match l with x :: _ => x =? -1 | [] => false end.

(** A [Template] object (formatting.py:527-561): source text, [variables]
    (computing them may raise) and [substitute_match]. *)
Record template := Template {
  t_template : text;
  t_variables : res (list label);
  t_substitute : parsed_file -> pymatch -> dict pymatch -> res text
}.

(** formatting.py:564-571 [stringify_matches] *)
Fixpoint stringify_matches (ms : dict pymatch) : dict text :=
  match ms with
  | [] => []
  | (l, m) :: rest =>
      match m_string m with
      | None => stringify_matches rest
      | Some s => (l, s) :: stringify_matches rest
      end
  end.

(** formatting.py:574-584 [LiteralTemplate] *)
Definition literal_template (s : text) : template :=
  Template s (Ok []) (fun _ _ _ => Ok s).

(** *** string.Template (standard library) *)

(** Its pattern: [$$] | [$ident] | [${ident}] | a lone [$] (invalid), with ident
    [[_a-zA-Z][_a-zA-Z0-9]*] in ASCII. *)
Definition is_ident_start (c : char) : bool :=
  (c =? 95) || ((65 <=? c) && (c <=? 90)) || ((97 <=? c) && (c <=? 122)).
Definition is_ident_char (c : char) : bool :=
  is_ident_start c || ((48 <=? c) && (c <=? 57)).
Fixpoint span_while (p : char -> bool) (s : text) : text * text :=
  match s with
  | [] => ([], [])
  | c :: rest => if p c then let '(a, b) := span_while p rest in (c :: a, b) else ([], s)
  end.
(** The longest identifier at the start of [s] ([[]] if none), and the rest. *)
Definition take_ident (s : text) : text * text :=
  match s with
  | c :: _ => if is_ident_start c then span_while is_ident_char s else ([], s)
  | [] => ([], s)
  end.

Inductive sh_piece := ShLit (s : text) | ShVar (v : label) | ShBad.
Definition dollar : char := 36.
Definition lbrace : char := 123.
Definition rbrace : char := 125.

(** [pattern.sub]'s scan; [fuel] bounds the number of pieces. *)
Fixpoint sh_scan (fuel : nat) (s : text) : list sh_piece :=
  match fuel with
  | O => []
  | S n =>
      match s with
      | [] => []
      | c :: rest =>
          if negb (c =? dollar) then ShLit [c] :: sh_scan n rest
          else
            match rest with
            | [] => [ShBad]
            | d :: rest' =>
                if d =? dollar then ShLit [dollar] :: sh_scan n rest'
                else if is_ident_start d then
                       let '(v, r) := take_ident rest in ShVar v :: sh_scan n r
                else if d =? lbrace then
                       match take_ident rest' with
                       | (v0 :: v, e :: r) =>
                           if e =? rbrace then ShVar (v0 :: v) :: sh_scan n r
                           else ShBad :: sh_scan n rest
                       | _ => ShBad :: sh_scan n rest
                       end
                else ShBad :: sh_scan n rest
            end
      end
  end.
Definition sh_pieces (s : text) : list sh_piece := sh_scan (length s) s.

(** [Template.substitute(mapping)]: left to right, the first problem raises. *)
Fixpoint sh_fill (ps : list sh_piece) (mapping : dict text) : res text :=
  match ps with
  | [] => Ok []
  | ShLit s :: rest => do t <- sh_fill rest mapping; Ok (s ++ t)
  | ShVar v :: rest =>
      match dget mapping v with
      | None => Err KeyError
      | Some s => do t <- sh_fill rest mapping; Ok (s ++ t)
      end
  | ShBad :: _ => Err ValueError
  end.
Fixpoint sh_vars (ps : list sh_piece) : res (list label) :=
  match ps with
  | [] => Ok []
  | ShLit _ :: rest => sh_vars rest
  | ShVar v :: rest => do vs <- sh_vars rest; Ok (v :: vs)
  | ShBad :: _ => Err ValueError
  end.

(** formatting.py:587-611 [ShTemplate]; [variables] substitutes into a
    defaultdict and returns its keys. *)
Definition sh_template (src : text) : template :=
  Template src (sh_vars (sh_pieces src))
    (fun _ _ ms => sh_fill (sh_pieces src) (stringify_matches ms)).

(** *** Regex templates *)

(** formatting.py:493-524 [_parse_re_template] wraps [sre_parse.parse_template];
    the model starts from its outcome: literal strings and group references. *)
Inductive re_piece := ReLit (s : text) | ReGroup (l : label).
(** formatting.py:628-637 [RegexTemplate.substitute_match] *)
Fixpoint re_fill (ps : list re_piece) (mapping : dict text) : res text :=
  match ps with
  | [] => Ok []
  | ReLit s :: rest => do t <- re_fill rest mapping; Ok (s ++ t)
  | ReGroup v :: rest =>
      match dget mapping v with
      | None => Err KeyError
      | Some s => do t <- re_fill rest mapping; Ok (s ++ t)
      end
  end.
Definition re_vars (ps : list re_piece) : list label :=
  flat_map (fun p => match p with ReGroup v => [v] | ReLit _ => [] end) ps.
(** formatting.py:614-642 [RegexTemplate] *)
Definition regex_template (src : text) (ps : list re_piece) : template :=
  Template src (Ok (re_vars ps)) (fun _ _ ms => re_fill ps (stringify_matches ms)).

(** *** Rewriting *)

Definition no_span (o : option span) : bool :=
  match o with None => true | Some sp => span_eqb sp (-1, -1) end.
Definition dunder : text := [95; 95].

(** formatting.py:645-680 [rewrite_templates].  [label.startswith] on an int
    raises AttributeError. *)
Fixpoint rewrite_templates (parsed : parsed_file) (ms : dict pymatch) (ts : dict template)
  : res (dict text) :=
  match ts with
  | [] => Ok []
  | (l, t) :: rest =>
      let use m := do s <- t_substitute t parsed m ms;
                   do r <- rewrite_templates parsed ms rest; Ok ((l, s) :: r) in
      match dget ms l with
      | Some m => if no_span (m_span m) then rewrite_templates parsed ms rest else use m
      | None =>
          if is_int_label l then Err AttributeError
          else if startswith dunder l then use PMatch
          else rewrite_templates parsed ms rest
      end
  end.

(** formatting.py:683-689 [template_variables], as a list. *)
Fixpoint template_variables (ts : dict template) : res (list label) :=
  match ts with
  | [] => Ok []
  | (l, t) :: rest =>
      do vs <- t_variables t; do r <- template_variables rest; Ok (l :: vs ++ r)
  end.
