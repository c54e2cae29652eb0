(** What the treatment of metavariables in token streams should do. *)
From Verif Require Import Py Ast Template FromDiff PatTok.

(** *** Renaming *)

Definition string_at (toks : list ptok) (i : nat) (s : text) : Prop :=
  exists t, nth_error toks i = Some t /\ pt_string t = s.
(** A made-up identifier. *)
Definition invented (n : text) : Prop := is_variable n = true /\ exists r, n = TX "gensym" ++ r.
(** [f i] is the new name of the metavariable token number [i]. *)
Record renames (toks : list ptok) (metas : list nat) (f : nat -> text) (r : renaming) : Prop := {
  (* the metavariable tokens get new strings, everything else stays *)
  rs_length : length (rn_tokens r) = length toks;
  rs_meta : forall i t, In i metas -> nth_error toks i = Some t ->
              nth_error (rn_tokens r) i = Some (with_string t (f i));
  rs_other : forall i, ~ In i metas -> nth_error (rn_tokens r) i = nth_error toks i;
  (* fresh: no other token has that string *)
  rs_fresh : forall i j, In i metas -> ~ In j metas -> ~ string_at toks j (f i);
  (* the same name exactly for the same metavariable; every [$_] has its own *)
  rs_same : forall i j v w, In i metas -> In j metas -> string_at toks i v -> string_at toks j w ->
              (f i = f j <-> i = j \/ (v = w /\ v <> TX "_"));
  (* still identifiers, none of them a keyword *)
  rs_ident : forall i v, In i metas -> string_at toks i v -> is_variable v = true -> invented (f i);
  (* what is reported *)
  rs_names : forall v n, dget (rn_names r) v = Some n <->
              v <> TX "_" /\ exists i, In i metas /\ string_at toks i v /\ f i = n;
  rs_dict : dict_ok (rn_names r);
  rs_anonymous : forall n, In n (rn_anonymous r) <->
              exists i, In i metas /\ string_at toks i (TX "_") /\ f i = n
}.

(** *** Metavariables in a token stream *)

(** A [$] immediately followed by an identifier is a metavariable; no other [$]
    is allowed.  The metavariable token starts at the [$]. *)
Definition takes_dollar (v : ptok) : ptok :=
  with_start v (fst (pt_start v), snd (pt_start v) - 1).
Inductive marked : list ptok -> list (ptok * bool) -> Prop :=
  | MK_nil : marked [] []
  | MK_keep t r l : pt_string t <> TX "$" -> marked r l -> marked (t :: r) ((t, false) :: l)
  | MK_var d v r l :
      pt_string d = TX "$" -> pt_type d = T_ERRORTOKEN \/ pt_type d = T_OP ->
      is_variable (pt_string v) = true -> snd (pt_start v) = snd (pt_start d) + 1 ->
      marked r l -> marked (d :: v :: r) ((takes_dollar v, true) :: l).
(** The numbers of the metavariable tokens. *)
Definition meta_at (l : list (ptok * bool)) (i : nat) : Prop :=
  exists t, nth_error l i = Some (t, true).

(** What the tokenizer ends with. *)
Definition ends (toks : list ptok) : Prop := exists pre t, toks = pre ++ [t] /\ pt_type t = T_ENDMARKER /\ pt_string t = [].
(** The newline that was added to the source (if so) is left out again. *)
Definition final_marks (added : bool) (l : list (ptok * bool)) : list (ptok * bool) :=
  if added then
    match rev l with
    | a :: b :: r => if text_eqb (pt_string (fst b)) [NL] then rev r ++ [a] else l
    | _ => l
    end
  else l.

(** *** Where tokens are in a text *)

(** The position after reading [s] from [p]. *)
Fixpoint after (p : Z * Z) (s : text) : Z * Z :=
  match s with
  | [] => p
  | c :: r => after (if c =? NL then (fst p + 1, 0) else (fst p, snd p + 1)) r
  end.
Definition spaces (k : nat) : text := repeat 32 k.
Definition is_newline (t : ptok) : Prop := pt_type t = T_NEWLINE \/ pt_type t = T_NL.
Definition is_word (t : ptok) : Prop :=
  ~ In (pt_type t) [T_ENCODING; T_ENDMARKER; T_INDENT; T_DEDENT; T_NEWLINE; T_NL].
Inductive place := Start | LineStart | Inside.

(** [spelled w p at ind l]: the tokens of [l], each with the white space before
    it, are at consecutive positions from [p] on.  [ind] are the widths of the
    open indentations; [w] is the column that the last DEDENT claims.  White
    space is made of spaces; inside of a line, there may be backslash
    continuations first (but not between a [$] and its identifier). *)
Definition continuation : text := [92; NL].
Definition blank (at_ : place) (g : text) : Prop :=
  exists n k, g = concat (repeat continuation n) ++ spaces k /\ (n = 0%nat \/ at_ = Inside).
Definition same_line (l : list (text * ptok)) : Prop :=
  match l with [] => True | (g, _) :: _ => ~ In NL g end.
Inductive spelled : Z -> Z * Z -> place -> list nat -> list (text * ptok) -> Prop :=
  | SL_end p at_ ind t w : pt_type t = T_ENDMARKER -> pt_string t = [] -> spelled w p at_ ind [([], t)]
  | SL_word p at_ ind w g t l :
      is_word t -> blank at_ g -> pt_start t = after p g ->
      pt_end t = after (pt_start t) (pt_string t) ->
      (w = 0 \/ exists i ind', ind = i :: ind' /\ Z.of_nat i <= snd (pt_start t)) ->
      (pt_string t = TX "$" -> same_line l) ->
      spelled 0 (pt_end t) Inside ind l ->
      spelled w p at_ ind ((g, t) :: l)
  | SL_newline row col at_ ind k t l :
      is_newline t -> forallb is_space (pt_string t) = true ->
      pt_start t = (row, col + Z.of_nat k) -> fst (pt_end t) = row ->
      spelled 0 (row + 1, 0) LineStart ind l ->
      spelled 0 (row, col) at_ ind ((spaces k, t) :: l)
  | SL_indent p at_ ind k t l :
      pt_type t = T_INDENT -> pt_string t = spaces k -> at_ <> Inside ->
      spelled 0 p at_ (k :: ind) l -> spelled 0 p at_ ind (([], t) :: l)
  | SL_dedent row i ind w t l :
      pt_type t = T_DEDENT -> pt_string t = [] -> fst (pt_end t) = row -> 0 <= snd (pt_end t) ->
      spelled (snd (pt_end t)) (row, 0) LineStart ind l ->
      spelled w (row, 0) LineStart (i :: ind) (([], t) :: l).

(** The text of a token: INDENT, DEDENT and the end marker have none of their own. *)
Definition shown (t : ptok) : text :=
  if existsb (Z.eqb (pt_type t)) [T_ENDMARKER; T_INDENT; T_DEDENT] then [] else pt_string t.
Definition spelling (l : list (text * ptok)) : text :=
  concat (map (fun gt => fst gt ++ shown (snd gt)) l).

(** The text with every [$name] replaced by [value name]. *)
Fixpoint expand (value : text -> text) (l : list (text * ptok)) : text :=
  match l with
  | [] => []
  | (g, d) :: r =>
      match r with
      | (_, v) :: r' => if text_eqb (pt_string d) (TX "$") then g ++ value (pt_string v) ++ expand value r'
                        else g ++ shown d ++ expand value r
      | [] => g ++ shown d
      end
  end.
(** The text with the n-th metavariable replaced by the n-th of [news]. *)
Fixpoint expand_each (news : list text) (l : list (text * ptok)) : text :=
  match l with
  | [] => []
  | (g, d) :: r =>
      match r, news with
      | (_, v) :: r', n :: news' =>
          if text_eqb (pt_string d) (TX "$") then g ++ n ++ expand_each news' r'
          else g ++ shown d ++ expand_each news r
      | _, _ => g ++ shown d ++ expand_each news r
      end
  end.
(** Without the newline that was added to the source. *)
Definition without_newline (l : list (text * ptok)) : list (text * ptok) :=
  match rev l with
  | e :: n :: r => if text_eqb (pt_string (snd n)) [NL] then rev r ++ [e] else l
  | _ => l
  end.
Definition lookup (repl : dict text) (x : text) : text := match dget repl x with Some s => s | None => [] end.
(** The names that occur as metavariables. *)
Fixpoint metavars (toks : list ptok) : list text :=
  match toks with
  | [] => []
  | d :: r =>
      match r with
      | v :: r' => if text_eqb (pt_string d) (TX "$") then pt_string v :: metavars r' else metavars r
      | [] => []
      end
  end.

(** [news] are the new names of the metavariables [vars], in order: the ones of
    named metavariables are in [names], the ones of [$_] in [anonymous]; the same
    new name only for the same named metavariable; and they are fresh identifiers. *)
Definition new_names (toks : list ptok) (vars news : list text) (names : dict text) (anonymous : list text) : Prop :=
  Forall2 (fun v n => if text_eqb v (TX "_") then In n anonymous else dget names v = Some n) vars news
  /\ (forall i j v w n, nth_error vars i = Some v -> nth_error vars j = Some w ->
        nth_error news i = Some n -> nth_error news j = Some n -> i = j \/ (v = w /\ v <> TX "_"))
  /\ (forall n t, In n news -> In t toks -> pt_string t <> n \/ In (pt_string t) vars)
  /\ (forall x n, dget names x = Some n -> exists i, nth_error vars i = Some x /\ nth_error news i = Some n)
  /\ (forall n, In n anonymous -> exists i, nth_error vars i = Some (TX "_") /\ nth_error news i = Some n)
  /\ Forall invented news /\ dict_ok names.
