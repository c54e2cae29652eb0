(** What removing statements should do. *)
From Verif Require Import Py Subst Fmt Ast Template FromDiff Matcher FindSpec NavSpec Search Removal.

(** A list of statements: [l] is at [q]; is it the body of the module? *)
Definition suite (tree : value) (q : path) (l : list value) (module : bool) : Prop :=
  exists id q' k par, at_path tree q = Some (VList id l) /\ q = q' ++ [k] /\ at_path tree q' = Some par
    /\ module = text_eqb (vtype par) (TX "Module").

(** One template of a match. *)
Definition step := (dict pymatch * (label * template))%type.
Definition steps (pairs : list (dict pymatch * dict template)) : list step :=
  flat_map (fun mt => map (pair (fst mt)) (snd mt)) pairs.
(** The template is empty, and its label is bound to a statement, at [p]. *)
Definition removes (tree : value) (s : step) (p : path) : Prop :=
  exists v txt f l a b, dget (fst s) (fst (snd s)) = Some (PLex v txt f l a b)
    /\ t_template (snd (snd s)) = [] /\ is_stmt v = true /\ at_path tree p = Some v.
Definition gone (tree : value) (ss : list step) (p : path) : Prop :=
  exists s, In s ss /\ removes tree s p.
(** The statements of any one suite are removed in their order. *)
Definition in_order (tree : value) (ss : list step) : Prop :=
  forall before s after, ss = before ++ s :: after ->
  forall q i j, gone tree before (q ++ [i]) -> removes tree s (q ++ [j]) -> (i < j)%nat.
(** What is to be removed is in the tree. *)
Definition placed (tree : value) (ss : list step) : Prop :=
  forall s v txt f l a b, In s ss -> dget (fst s) (fst (snd s)) = Some (PLex v txt f l a b) ->
    t_template (snd (snd s)) = [] -> is_stmt v = true -> exists p, at_path tree p = Some v.

(** The removal of the statement number [i], which is at [start..fin], of a suite
    [l] of which the statements [rem] are removed: what is replaced, and whether
    by [pass]. *)
Record removal (tokens : list token) (l : list value) (module : bool) (rem : nat -> Prop)
  (i : nat) (start fin : Z) (sp : span) (pass : bool) : Prop := {
  (* by [pass]: the last one, if all are removed, except in a module *)
  rv_pass : pass = true <-> module = false /\ S i = length l /\ forall j, (j < length l)%nat -> rem j;
  (* up to the next statement *)
  rv_inner : (S i < length l)%nat -> exists next ft, nth_error l (S i) = Some next /\ first_token next = Ok ft
      /\ sp = (start, tk_start ft);
  (* the last one: from the end of the previous statement, if that stays *)
  rv_start : forall k, S i = length l -> i = S k ->
      (rem k -> fst sp = start)
      /\ (~ rem k -> exists prev lt, nth_error l k = Some prev /\ last_token prev = Ok lt /\ fst sp = tk_end lt);
  (* with a semicolon after it *)
  rv_end : S i = length l -> (0 < i)%nat -> exists v own semi, nth_error l i = Some v /\ last_token v = Ok own
      /\ next_token tokens own = Ok semi
      /\ snd sp = if text_eqb (tk_string semi) (TX ";") then tk_end semi else fin;
  (* the only one: just that *)
  rv_only : length l = 1%nat -> sp = (start, fin)
}.

(** The templates and matches [ms, ts] of a match are turned into [ms', ts'],
    where the statements at [rem] are removed. *)
Definition tidied (pass_template : template) (tree : value) (tokens : list token) (rem : path -> Prop)
  (ms : dict pymatch) (ts : dict template) (ms' : dict pymatch) (ts' : dict template) : Prop :=
  dkeys ms' = dkeys ms /\ dkeys ts' = dkeys ts
  /\ (forall y, ~ In y (dkeys ts) -> dget ms' y = dget ms y)
  /\ forall x t, dget ts x = Some t ->
     ((forall p, ~ removes tree (ms, (x, t)) p) -> dget ms' x = dget ms x /\ dget ts' x = Some t)
     /\ forall p, removes tree (ms, (x, t)) p ->
        exists q i l module v txt f la a b f' la' a' b' pass,
          p = q ++ [i] /\ suite tree q l module /\ nth_error l i = Some v
          /\ dget ms x = Some (PLex v txt f la a b) /\ dget ms' x = Some (PLex v txt f' la' a' b')
          /\ dget ts' x = Some (if pass : bool then pass_template else t)
          /\ removal tokens l module (fun j => rem (q ++ [j])) i (fst (lex_span f la a b)) (snd (lex_span f la a b))
               (lex_span f' la' a' b') pass.

(** The match and template dictionaries of results. *)
Definition dicts_of (r : result) (mt : dict pymatch * dict template) : Prop :=
  exists b, r_bindings r = Ok (Some b) /\ fst mt = map (fun kv => (fst kv, b_value (snd kv))) b /\ r_reps r = Ok (snd mt).

(** Statements do not overlap. *)
Definition laid_out (l : list value) : Prop :=
  (forall i v, nth_error l i = Some v -> exists f t, first_token v = Ok f /\ last_token v = Ok t /\ tk_start f <= tk_end t)
  /\ forall i j v w t f, (i < j)%nat -> nth_error l i = Some v -> nth_error l j = Some w ->
       last_token v = Ok t -> first_token w = Ok f -> tk_end t <= tk_start f.
Definition apart (a b : span) : Prop := snd a <= fst b \/ snd b <= fst a.
Definition extent (v : value) (sp : span) : Prop :=
  exists f t, first_token v = Ok f /\ last_token v = Ok t /\ sp = (tk_start f, tk_end t).

(** The match [h], of a matcher of statements say, is about a statement. *)
Definition deletes (h : hit) : Prop :=
  is_stmt (h_value h) = true
  /\ exists txt f l a b, r_match (h_result h) = Ok (PLex (h_value h) txt f l a b).
(** The match object and template that come out for [h], where the matches [hs]
    are found and replaced by the empty template [t]. *)
Definition deletion (pass_template : template) (tree : value) (tokens : list token) (t : template)
  (hs : list hit) (h : hit) (m : pymatch) (t' : template) : Prop :=
  (~ deletes h -> r_match (h_result h) = Ok m /\ t' = t)
  /\ forall txt f l a b, is_stmt (h_value h) = true -> r_match (h_result h) = Ok (PLex (h_value h) txt f l a b) ->
     exists q i stmts module f' l' a' b' pass,
       h_path h = q ++ [i] /\ suite tree q stmts module /\ nth_error stmts i = Some (h_value h)
       /\ m = PLex (h_value h) txt f' l' a' b' /\ t' = (if pass : bool then pass_template else t)
       /\ removal tokens stmts module (fun j => exists h', In h' hs /\ deletes h' /\ h_path h' = q ++ [j]) i
            (fst (lex_span f l a b)) (snd (lex_span f l a b)) (lex_span f' l' a' b') pass.

(** The substitution for the match [h]: it is about the statement [h_value h],
    with what belongs to it, and says to replace this by nothing or by [pass]. *)
Definition deletion_sub (tree : value) (tokens : list token) (hs : list hit) (h : hit) (s : substitution) : Prop :=
  forall txt f l a b, is_stmt (h_value h) = true -> r_match (h_result h) = Ok (PLex (h_value h) txt f l a b) ->
  exists q i stmts module sp pass,
    h_path h = q ++ [i] /\ suite tree q stmts module /\ nth_error stmts i = Some (h_value h)
    /\ removal tokens stmts module (fun j => exists h', In h' hs /\ deletes h' /\ h_path h' = q ++ [j]) i
         (fst (lex_span f l a b)) (snd (lex_span f l a b)) sp pass
    /\ (sp <> (-1, -1) ->
         (forall sp', In (TX "__root", sp') (matched_spans s) <-> sp' = sp)
         /\ exists r, replacements s = Some r
              /\ forall x y, In (x, y) r <-> x = TX "__root" /\ y = if pass : bool then TX "pass" else []).

(** The template gives the text [x] for every match that is no expression. *)
Definition always_gives (parsed : parsed_file) (t : template) (x : text) : Prop :=
  forall rm ms, (forall v tx f l a b, rm = PLex v tx f l a b -> is_expr v = false) -> t_substitute t parsed rm ms = Ok x.

(** Statements are in their order in the source, and inside of the statements
    that contain them. *)
Record source_order (tree : value) : Prop := {
  so_extent : forall p v, at_path tree p = Some v -> is_stmt v = true -> exists sp, extent v sp /\ fst sp <= snd sp;
  so_order : forall p q v w sp sp', at_path tree p = Some v -> at_path tree q = Some w -> is_stmt v = true -> is_stmt w = true ->
    left_of p q -> extent v sp -> extent w sp' -> snd sp <= fst sp';
  so_inside : forall p q v w sp sp', at_path tree p = Some v -> at_path tree q = Some w -> is_stmt v = true -> is_stmt w = true ->
    under p q -> extent v sp -> extent w sp' -> fst sp <= fst sp' /\ snd sp' <= snd sp
}.
Definition all_stmts (l : list value) : Prop := forall v, In v l -> is_stmt v = true.
(** No semicolon follows. *)
Definition no_semicolon (tokens : list token) (v : value) : Prop :=
  forall own next, last_token v = Ok own -> next_token tokens own = Ok next -> tk_string next <> TX ";".
