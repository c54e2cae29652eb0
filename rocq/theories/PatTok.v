(** Model of refex/python/python_pattern.py, of the renaming in
    refex/python/matchers/syntax_matchers.py:128-185, of
    refex/python/syntactic_template.py:56-115 and of the standard library's
    [tokenize.untokenize].  Definitions only. *)
From Verif Require Import Py Ast Template FromDiff.

(** [tokenize.TokenInfo]; the attribute [line] is carried along but never read. *)
Record ptok := PTok {
  pt_type : Z;
  pt_string : text;
  pt_start : Z * Z;    (* (row, column) *)
  pt_end : Z * Z
}.
Definition T_OP : Z := 54.
Definition T_ERRORTOKEN : Z := 60.
Definition T_ENCODING : Z := 63.

Definition with_string (t : ptok) (s : text) : ptok := PTok (pt_type t) s (pt_start t) (pt_end t).
Definition with_start (t : ptok) (p : Z * Z) : ptok := PTok (pt_type t) (pt_string t) p (pt_end t).

(** python_pattern.py:26 [_VARIABLE_REGEX] *)
Definition is_variable (s : text) : bool :=
  match s with c :: r => is_ident_start c && forallb is_ident_char r | [] => false end.

(** python_pattern.py:60-93: the loop; [n] is [len(retokenized)].  The tokens
    and [metavar_indices], in the order in which they are added. *)
Fixpoint retokenize (toks : list ptok) (n : nat) : res (list ptok * list nat) :=
  match toks with
  | [] => Ok ([], [])
  | t :: rest =>
      if negb (text_eqb (pt_string t) [dollar]) then
        do r <- retokenize rest (S n); Ok (t :: fst r, snd r)
      else if negb ((pt_type t =? T_ERRORTOKEN) || (pt_type t =? T_OP)) then Err AssertionError
      else
        match rest with
        | [] => Err SyntaxError
        | v :: rest' =>
            if negb (is_variable (pt_string v)) then Err SyntaxError
            else if negb (snd (pt_start t) =? snd (pt_start v) - 1) then Err SyntaxError
            else
              do r <- retokenize rest' (S n);
              Ok (with_start v (fst (pt_start v), snd (pt_start v) - 1) :: fst r, n :: snd r)
        end
  end.

(** python_pattern.py:97-98: [del retokenized[-2]] if it is a newline.  (The
    indices are not adjusted: what follows the deleted token is the end marker.) *)
Definition drop_newline (l : list ptok) : list ptok :=
  match rev l with
  | a :: b :: r => if text_eqb (pt_string b) [NL] then rev r ++ [a] else l
  | _ => l
  end.

(** python_pattern.py:29-99 [token_pattern].  [tokenize] is what
    [generate_tokens] yields for a text, or what it raises ([tokenize.TokenError]
    is [OtherError 1]). *)
Definition TokenError : exn := OtherError 1.
Definition token_pattern (tokenize : text -> res (list ptok)) (pattern : text)
  : res (list ptok * list nat) :=
  let added := negb (endswith [NL] pattern) in
  match tokenize (if added then pattern ++ [NL] else pattern) with
  | Err (OtherError 1) => Err SyntaxError
  | Err e => Err e
  | Ok toks =>
      do r <- retokenize toks 0;
      Ok (if added then drop_newline (fst r) else fst r, snd r)
  end.

(** *** Renaming *)

(** syntax_matchers.py:165-172: the i-th candidate, ['gensym%s_%s' % (suffix, variable)]
    with the suffixes '', 0, 1, ... *)
Definition gensym (i : nat) (variable : text) : text :=
  TX "gensym" ++ (match i with O => [] | S k => dec k end) ++ TX "_" ++ variable.
(** syntax_matchers.py:166-179: the search for a name that is not taken; [fuel]
    bounds the number of candidates. *)
Fixpoint fresh_name (fuel i : nat) (taken : list text) (variable : text) : res text :=
  match fuel with
  | O => Err OutOfFuel
  | S fuel' =>
      if tmem (gensym i variable) taken then fresh_name fuel' (S i) taken variable
      else Ok (gensym i variable)
  end.

Fixpoint set_nth (l : list ptok) (i : nat) (t : ptok) : list ptok :=
  match l, i with
  | [], _ => []
  | _ :: r, O => t :: r
  | x :: r, S j => x :: set_nth r j t
  end.

Record renaming := Renaming {
  rn_tokens : list ptok;
  rn_taken : list text;
  rn_names : dict text;        (* original_to_unique *)
  rn_anonymous : list text     (* anonymous_unique *)
}.
Definition underscore : text := TX "_".
(** syntax_matchers.py:153-181: the body of the loop. *)
Definition rename_one (st : renaming) (i : nat) : res renaming :=
  match nth_error (rn_tokens st) i with
  | None => Err IndexError
  | Some t =>
      let variable := pt_string t in
      match dget (rn_names st) variable with
      | Some name =>
          Ok (Renaming (set_nth (rn_tokens st) i (with_string t name))
                (rn_taken st) (rn_names st) (rn_anonymous st))
      | None =>
          do name <- fresh_name (S (length (rn_taken st))) 0 (rn_taken st) variable;
          let anon := text_eqb variable underscore in
          Ok (Renaming (set_nth (rn_tokens st) i (with_string t name))
                (name :: rn_taken st)
                (if anon then rn_names st else dset (rn_names st) variable name)
                (if anon then name :: rn_anonymous st else rn_anonymous st))
      end
  end.
Fixpoint rename_loop (st : renaming) (order : list nat) : res renaming :=
  match order with
  | [] => Ok st
  | i :: rest => do st' <- rename_one st i; rename_loop st' rest
  end.
Definition nat_mem (i : nat) (l : list nat) : bool := existsb (Nat.eqb i) l.
(** syntax_matchers.py:146-150: the strings of the other tokens. *)
Fixpoint other_strings (toks : list ptok) (n : nat) (indices : list nat) : list text :=
  match toks with
  | [] => []
  | t :: r => (if nat_mem n indices then [] else [pt_string t]) ++ other_strings r (S n) indices
  end.
(** syntax_matchers.py:128-185 [_remap_macro_variables], up to the final
    [untokenize].  [order] gives the order in which the set of indices is
    iterated. *)
Definition remap_tokens (order : list nat -> list nat) (toks : list ptok) (indices : list nat)
  : res renaming :=
  rename_loop (Renaming toks (other_strings toks 0 indices) [] []) (order indices).

(** *** tokenize.untokenize (Python 3.11, full tokens) *)

Record unstate := UnState {
  u_out : text;
  u_row : Z;
  u_col : Z;
  u_indents : list text;      (* the top first *)
  u_startline : bool
}.
(** [Untokenizer.add_whitespace]: the text it adds. *)
Definition whitespace_before (row col : Z) (start : Z * Z) : res text :=
  if (fst start <? row) || ((fst start =? row) && (snd start <? col)) then Err ValueError
  else
    let lines := Z.to_nat (fst start - row) in
    let col' := if fst start =? row then col else 0 in
    Ok (concat (repeat [92; NL] lines) ++ repeat 32 (Z.to_nat (snd start - col'))).
(** One token; [None] for the end marker. *)
Definition untok_one (t : ptok) (st : unstate) : res (option unstate) :=
  if pt_type t =? T_ENCODING then Ok (Some st)
  else if pt_type t =? T_ENDMARKER then Ok None
  else if pt_type t =? T_INDENT then
    Ok (Some (UnState (u_out st) (u_row st) (u_col st) (pt_string t :: u_indents st) (u_startline st)))
  else if pt_type t =? T_DEDENT then
    match u_indents st with
    | [] => Err IndexError
    | _ :: r => Ok (Some (UnState (u_out st) (fst (pt_end t)) (snd (pt_end t)) r (u_startline st)))
    end
  else
    let newline := (pt_type t =? T_NEWLINE) || (pt_type t =? T_NL) in
    let '(out1, col1, start1) :=
      if newline then (u_out st, u_col st, true)
      else if u_startline st then
        match u_indents st with
        | [] => (u_out st, u_col st, true)
        | i :: _ => if tlen i <=? snd (pt_start t) then (u_out st ++ i, tlen i, false)
                    else (u_out st, u_col st, false)
        end
      else (u_out st, u_col st, false) in
    do ws <- whitespace_before (u_row st) col1 (pt_start t);
    let out2 := out1 ++ ws ++ pt_string t in
    Ok (Some (if newline then UnState out2 (fst (pt_end t) + 1) 0 (u_indents st) start1
              else UnState out2 (fst (pt_end t)) (snd (pt_end t)) (u_indents st) start1)).
Fixpoint untok_loop (toks : list ptok) (st : unstate) : res text :=
  match toks with
  | [] => Ok (u_out st)
  | t :: rest =>
      do o <- untok_one t st;
      match o with None => Ok (u_out st) | Some st' => untok_loop rest st' end
  end.
(** (An [ENCODING] token would make the result bytes; [generate_tokens] yields none.) *)
Definition untokenize (toks : list ptok) : res text := untok_loop toks (UnState [] 1 0 [] false).

(** *** Lexical templates *)

(** syntactic_template.py:56-83 [_LexicalTemplate]: the source, the tokens and
    [_var_to_i]; here as the variable of every index, in the order of iteration. *)
Record lex_template := LexT {
  lt_template : text;
  lt_tokens : list ptok;
  lt_vars : list (text * nat)
}.
Fixpoint names_at (toks : list ptok) (order : list nat) : res (list (text * nat)) :=
  match order with
  | [] => Ok []
  | i :: r =>
      match nth_error toks i with
      | None => Err IndexError
      | Some t => do l <- names_at toks r; Ok ((pt_string t, i) :: l)
      end
  end.
Definition lexical_template (tokenize : text -> res (list ptok)) (order : list nat -> list nat)
  (src : text) : res lex_template :=
  do r <- token_pattern tokenize src;
  do vs <- names_at (fst r) (order (snd r));
  Ok (LexT src (fst r) vs).
(** [variables] (as a list, possibly with repetitions) *)
Definition lex_variables (lt : lex_template) : list text := map fst (lt_vars lt).

(** syntactic_template.py:103-111: one replacement, at all indices of [var]. *)
Fixpoint set_all (toks : list ptok) (vars : list (text * nat)) (var new : text) : list ptok :=
  match vars with
  | [] => toks
  | (v, i) :: r =>
      let toks' := if text_eqb v var
                   then match nth_error toks i with
                        | Some t => set_nth toks i (with_string t new)
                        | None => toks
                        end
                   else toks in
      set_all toks' r var new
  end.
(** syntactic_template.py:81-115 [substitute] *)
Definition lex_substitute (lt : lex_template) (replacements : dict text) : res text :=
  match lt_template lt with
  | [] => Ok []
  | _ =>
      let toks := fold_left (fun ts kv => set_all ts (lt_vars lt) (fst kv) (snd kv))
                            replacements (lt_tokens lt) in
      if forallb (dmem replacements) (lex_variables lt) then untokenize toks
      else Err KeyError
  end.

(** syntax_matchers.py:128-185 [_remap_macro_variables] *)
Definition remap_macro_variables (tokenize : text -> res (list ptok)) (order : list nat -> list nat)
  (pattern : text) : res (text * dict text * list text) :=
  do tp <- token_pattern tokenize pattern;
  do r <- remap_tokens order (fst tp) (snd tp);
  do src <- untokenize (rn_tokens r);
  Ok (src, rn_names r, rn_anonymous r).
