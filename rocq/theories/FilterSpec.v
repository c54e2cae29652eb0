(** What the filtering matchers should do: regular expressions, comments,
    imports, lines, types. *)
From Verif Require Import Py Ast Template Matcher.

(** *** Regular expressions *)

(** How a regular expression can match: [R txt endp a b regs] - on [txt], not
    looking past [endp], it can match exactly [txt[a:b]], with the groups [regs]. *)
Definition readings := text -> Z -> Z -> Z -> list span -> Prop.
(** [$] without MULTILINE, when matching stops at [endp]. *)
Definition at_dollar (txt : text) (endp b : Z) : Prop :=
  b = endp \/ (b + 1 = endp /\ slice txt b endp = [10]).
(** [rx] is the compiled form of [(?:R)$]: [match] finds a reading that ends at
    a [$], if there is one; there is an entry for each named group. *)
Definition compiled_dollar (R : readings) (rx : crx) : Prop :=
  forall txt a b,
    match cr_match rx txt a b with
    | Some regs => (exists e, R txt b a e regs /\ at_dollar txt b e)
                   /\ Forall (fun kv : label * nat => (snd kv < length regs)%nat) (cr_groups rx)
    | None => forall e regs, R txt b a e regs -> ~ at_dollar txt b e
    end.
(** [rx] is the compiled form of [R]: [search] finds a reading somewhere. *)
Definition compiled_plain (R : readings) (rx : crx) : Prop :=
  forall txt,
    match cr_search rx txt with
    | Some regs => (exists a b, 0 <= a <= tlen txt /\ R txt (tlen txt) a b regs)
                   /\ Forall (fun kv : label * nat => (snd kv < length regs)%nat) (cr_groups rx)
    | None => forall a b regs, 0 <= a <= tlen txt -> ~ R txt (tlen txt) a b regs
    end.
(** Each named group is bound to the text and the position of that group. *)
Definition binds_groups (groups : dict nat) (txt : text) (regs : list span) (b : dict bound) : Prop :=
  Forall2 (fun (g : label * nat) (kb : label * bound) =>
             fst kb = fst g
             /\ exists sp, nth_error regs (snd g) = Some sp
                /\ snd kb = Bound (PSpan (slice txt (fst sp) (snd sp)) sp) MERGE KEEP_LAST)
          groups b.

(** *** Comments *)

(** The token stream of a file: numbered, from left to right, without overlaps;
    a comment is not empty. *)
Definition token_stream (ts : list token) : Prop :=
  (forall t u, In t ts -> In u ts -> tk_index t < tk_index u -> tk_end t <= tk_start u)
  /\ (forall t u, In t ts -> In u ts -> tk_index t = tk_index u -> t = u)
  /\ Forall (fun t => tk_start t <= tk_end t) ts
  /\ Forall (fun t => tk_type t = T_COMMENT -> tk_start t < tk_end t) ts.
(** A comment lies within [a..b). *)
Definition comment_within (ts : list token) (a b : Z) : Prop :=
  exists t, In t ts /\ tk_type t = T_COMMENT /\ a <= tk_start t /\ tk_end t <= b.

(** *** Imports *)

(** [x] is the clause [name] or [name as other]. *)
Inductive clause : value -> text -> option text -> Prop :=
  | Clause_plain x n i j :
      vfield x (TX "name") = VConst i (CStr n) -> vfield x (TX "asname") = VConst j CNone ->
      clause x n None
  | Clause_as x n o i j :
      vfield x (TX "name") = VConst i (CStr n) -> vfield x (TX "asname") = VConst j (CStr o) ->
      clause x n (Some o).
(** [h] is what is before the first dot of [n] (all of [n] if there is none). *)
Definition before_dot (n h : text) : Prop :=
  ~ In 46 h /\ (n = h \/ exists rest, n = h ++ 46 :: rest).
(** What the clauses of [import ...] make available: module and variable. *)
Definition import_gives (x : value) (mv : text * text) : Prop :=
  exists n a, clause x n a
    /\ match a with
       | None => before_dot n (fst mv) /\ snd mv = fst mv
       | Some o => mv = (n, o)
       end.
(** Likewise for [from module import ...]. *)
Definition from_gives (module : text) (x : value) (mv : text * text) : Prop :=
  exists n a, clause x n a
    /\ mv = (module ++ [46] ++ n, match a with None => n | Some o => o end).
(** What a statement makes available, from left to right.  Relative imports are
    not considered. *)
Inductive stmt_gives : value -> list (text * text) -> Prop :=
  | G_import st i xs mvs :
      vtype st = TX "Import" -> vfield st (TX "names") = VList i xs ->
      Forall2 import_gives xs mvs -> stmt_gives st mvs
  | G_from st i j k module xs mvs :
      vtype st = TX "ImportFrom" -> vfield st (TX "names") = VList i xs ->
      vfield st (TX "level") = VConst j (CNum KInt 0) ->
      vfield st (TX "module") = VConst k (CStr module) ->
      Forall2 (from_gives module) xs mvs -> stmt_gives st mvs
  | G_relative st j n :
      vtype st = TX "ImportFrom" -> vfield st (TX "level") = VConst j (CNum KInt n) -> n <> 0 ->
      stmt_gives st []
  | G_other st :
      vtype st <> TX "Import" -> vtype st <> TX "ImportFrom" -> stmt_gives st [].
(** All that the statements at the top level of the file make available, in order. *)
Definition file_gives (tree : value) (mvs : list (text * text)) : Prop :=
  exists i body mvss, vfield tree (TX "body") = VList i body
    /\ Forall2 stmt_gives body mvss /\ mvs = concat mvss.
(** The last mention of the module makes it available as [name]. *)
Definition last_import (mvs : list (text * text)) (module name : text) : Prop :=
  exists before after, mvs = before ++ (module, name) :: after /\ ~ In module (map fst after).
(** What the variable refers to after all the imports have been executed. *)
Definition refers_to (mvs : list (text * text)) (name module : text) : Prop :=
  exists before after, mvs = before ++ (module, name) :: after /\ ~ In name (map snd after).
