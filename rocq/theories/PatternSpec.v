(** What AST patterns and the equivalence of code should mean. *)
From Verif Require Import Py Ast Template FromDiff Matcher MatchSpec FindSpec.

(** *** Syntax trees *)

(** A grammar: for every class, its fields, and whether they are lists. *)
Definition grammar := text -> list (text * bool).
(** Names of types that are no AST classes. *)
Definition builtin_types : list text := names
  ["list"; "NoneType"; "ellipsis"; "bool"; "int"; "float"; "complex"; "str"; "bytes"]%string.
(** The tree follows the grammar: every node has the fields of its class, exactly
    the fields that are declared so are lists, and lists are not nested. *)
Inductive conforms (G : grammar) : value -> Prop :=
  | CF_const id c : conforms G (VConst id c)
  | CF_list id l : Forall (fun x => is_list x = false /\ conforms G x) l -> conforms G (VList id l)
  | CF_node i fs :
      ~ In (n_type i) builtin_types ->
      map (fun kv => (fst kv, is_list (snd kv))) fs = G (n_type i) ->
      Forall (fun kv => conforms G (snd kv)) fs -> conforms G (VNode i fs).
Definition proper (G : grammar) : Prop := forall ty, NoDup (map fst (G ty)).

(** [x] is [root] or somewhere inside of it. *)
Definition inside (root x : value) : Prop := exists p, at_path root p = Some x.

(** The context (Load, Store, Del) of a name. *)
Definition name_context (ty f : text) : Prop := ty = TX "Name" /\ f = TX "ctx".

(** The same syntax: the same classes and the same fields; the context of names
    does not count; literals and identifiers are compared with Python's [==]
    (so that [1], [1.0] and [True] are the same). *)
Inductive same_syntax : value -> value -> Prop :=
  | SS_const id c id' d : const_eqb c d = true -> same_syntax (VConst id c) (VConst id' d)
  | SS_list id l id' m : Forall2 same_syntax l m -> same_syntax (VList id l) (VList id' m)
  | SS_node i fs j gs :
      n_type i = n_type j ->
      Forall2 (fun kv kw => fst kv = fst kw
                            /\ (name_context (n_type i) (fst kv) \/ same_syntax (snd kv) (snd kw))) fs gs ->
      same_syntax (VNode i fs) (VNode j gs).

(** The same, but no context counts. *)
Inductive same_code : value -> value -> Prop :=
  | SC_context a b : is_ctx a = true -> is_ctx b = true -> same_code a b
  | SC_const id c id' d : const_eqb c d = true -> same_code (VConst id c) (VConst id' d)
  | SC_list id l id' m : Forall2 same_code l m -> same_code (VList id l) (VList id' m)
  | SC_node i fs j gs :
      n_type i = n_type j ->
      Forall2 (fun kv kw => fst kv = fst kw /\ same_code (snd kv) (snd kw)) fs gs ->
      same_code (VNode i fs) (VNode j gs).

(** What is implemented: the items of lists have to be the very same objects. *)
Inductive same_code_by_id : value -> value -> Prop :=
  | SI_context a b : is_ctx a = true -> is_ctx b = true -> same_code_by_id a b
  | SI_const id c id' d : const_eqb c d = true -> same_code_by_id (VConst id c) (VConst id' d)
  | SI_list id l id' m :
      Forall2 (fun x y => x = y \/ exists a c b d, x = VConst a c /\ y = VConst b d /\ const_eqb c d = true) l m ->
      same_code_by_id (VList id l) (VList id' m)
  | SI_node i fs j gs :
      n_type i = n_type j ->
      Forall2 (fun kv kw => fst kv = fst kw /\ same_code_by_id (snd kv) (snd kw)) fs gs ->
      same_code_by_id (VNode i fs) (VNode j gs).

(** Objects with the same identity are the same. *)
Definition coherent (root : value) : Prop :=
  forall x y, inside root x -> inside root y -> vid x = vid y -> x = y.

(** Contexts are where the grammar of Python puts them: in a last field [ctx],
    and nowhere else; what context an expression has is determined by the field
    of the parent that it is in ([D]) or else (for the value of a [Starred]: when
    [D] is None) it is the context of the parent, which then has no other fields
    after that. *)
Definition context_grammar (G : grammar) (D : text -> text -> option text) : Prop :=
  (forall ty pre post b, G ty = pre ++ (TX "ctx", b) :: post -> post = [])
  /\ (forall ty pre f b post, G ty = pre ++ (f, b) :: post -> f <> TX "ctx" -> D ty f = None ->
        forall g, In g (map fst post) -> g = TX "ctx").
Definition context_of (v : value) : option text :=
  if has_field v (TX "ctx") then Some (vtype (vfield v (TX "ctx"))) else None.
Inductive regular (D : text -> text -> option text) : value -> Prop :=
  | RG_const id c : regular D (VConst id c)
  | RG_list id l : Forall (fun x => is_ctx x = false /\ regular D x) l -> regular D (VList id l)
  | RG_node i fs :
      Forall (fun kv =>
        (fst kv = TX "ctx" /\ is_ctx (snd kv) = true /\ vchildren (snd kv) = [])
        \/ (fst kv <> TX "ctx" /\ is_ctx (snd kv) = false /\ regular D (snd kv)
            /\ (context_of (snd kv) = None
                \/ context_of (snd kv) = match D (n_type i) (fst kv) with
                                         | Some k => Some k
                                         | None => context_of (VNode i fs)
                                         end))) fs ->
      regular D (VNode i fs).
(** What [ast.parse] makes of a file. *)
Record parsed_tree (G : grammar) (root : value) : Prop := {
  pt_conforms : conforms G root;
  pt_coherent : coherent root;
  pt_root : is_ctx root = false;
  pt_regular : exists D, context_grammar G D /\ regular D root
}.

(** *** Patterns *)

(** A metavariable: a name with a restriction, or [$_]. *)
Inductive hole := Named (x : label) (m : matcher) | Anonymous.
(** The variable that a [Name] node is. *)
Definition is_name (p : value) (n : text) : Prop :=
  exists i fs id, p = VNode i fs /\ n_type i = TX "Name" /\ dget fs (TX "id") = Some (VConst id (CStr n)).

(** [fits p c occ]: the tree [c] has the syntax of the pattern [p], with something
    in the place of every hole, which the restriction of the hole matches.  [occ]
    are the occurrences of named metavariables, in the order of the pattern. *)
Section Fits.
  Variable e : env.
  Variable holes : text -> option hole.
  Inductive fits : value -> value -> list (label * pymatch) -> Prop :=
    | F_named p n x m c rm :
        is_name p n -> holes n = Some (Named x m) ->
        pure_on e c m (Some (RInfo rm (Some []) [])) -> fits p c [(x, rm)]
    | F_anonymous p n c : is_name p n -> holes n = Some Anonymous -> fits p c []
    | F_const id c id' d : const_eqb c d = true -> fits (VConst id c) (VConst id' d) []
    | F_list id l id' m occ : fits_items l m occ -> fits (VList id l) (VList id' m) occ
    | F_node i fs j gs occ :
        (forall n, is_name (VNode i fs) n -> holes n = None) ->
        n_type i = n_type j -> fits_fields (n_type i) fs gs occ -> fits (VNode i fs) (VNode j gs) occ
  with fits_items : list value -> list value -> list (label * pymatch) -> Prop :=
    | FI_nil : fits_items [] [] []
    | FI_cons x y l m o os : fits x y o -> fits_items l m os -> fits_items (x :: l) (y :: m) (o ++ os)
  with fits_fields : text -> list (text * value) -> list (text * value) -> list (label * pymatch) -> Prop :=
    | FF_nil ty : fits_fields ty [] [] []
    | FF_context ty f x y l m os :
        name_context ty f -> fits_fields ty l m os -> fits_fields ty ((f, x) :: l) ((f, y) :: m) os
    | FF_cons ty f x y l m o os :
        ~ name_context ty f -> fits x y o -> fits_fields ty l m os ->
        fits_fields ty ((f, x) :: l) ((f, y) :: m) (o ++ os).
End Fits.

(** A restriction says yes or no about its candidate. *)
Definition restriction_ok (e : env) (m : matcher) : Prop :=
  forall c, pure_on e c m None
            \/ exists rm, pure_on e c m (Some (RInfo rm (Some []) []))
                          /\ forall a, m_matched rm = Some a -> a = c.

(** What is in the place of two occurrences of a metavariable is equivalent. *)
Definition equivalent_code (a b : pymatch) : Prop :=
  exists x y, m_matched a = Some x /\ m_matched b = Some y /\ ast_equivalent x y = Ok true.
(** ... of any two occurrences of any one metavariable. *)
Definition alike (occ : list (label * pymatch)) : Prop :=
  ForallOrdPairs (fun a b => fst a = fst b -> equivalent_code (snd a) (snd b)) occ.
(** The last occurrence of [x]. *)
Fixpoint last_occ (x : label) (occ : list (label * pymatch)) : option pymatch :=
  match occ with
  | [] => None
  | (y, m) :: r => match last_occ x r with
                   | Some m' => Some m'
                   | None => if text_eqb y x then Some m else None
                   end
  end.
(** The bindings that the occurrences give. *)
Definition binds_last (c : conflict) (occ : list (label * pymatch)) (b : dict bound) : Prop :=
  dict_ok b /\ forall x, dget b x = option_map (fun m => Bound m c KEEP_LAST) (last_occ x occ).

(** The holes of a pattern with the metavariables [names] (and their new names),
    and [anonymous] new names of [$_]. *)
Definition metavariables (restrictions : dict matcher) (names : dict text) (anonymous : list text) (n : text)
  : option hole :=
  match find (fun kv => text_eqb (snd kv) n) names with
  | Some (x, _) => Some (Named x (match dget restrictions x with Some m => m | None => MAnything end))
  | None => if tmem n anonymous then Some Anonymous else None
  end.

(** [m] finds [p]: on everything [c] in a parsed file, [m] does not raise, and it
    matches iff [c] fits the pattern, with the same code in all the places of any
    one metavariable; it binds every metavariable to its last occurrence. *)
Definition finds_pattern (holes : text -> option hole) (p : value) (m : matcher) : Prop :=
  forall e G root c s,
    proper G -> parsed_tree G root -> conforms G p -> is_node p = true -> inside root c ->
    (forall n x r, holes n = Some (Named x r) -> restriction_ok e r) ->
    (exists rm occ b, eval e m c s = (s, Ok (Some (RInfo rm (Some b) [])))
       /\ fits e holes p c occ /\ alike occ /\ binds_last MERGE occ b
       /\ ((forall n x m, is_name p n -> holes n = Some (Named x m) -> m = MAnything) -> rm = create_match (e_parsed e) c))
    \/ (eval e m c s = (s, Ok None) /\ forall occ, fits e holes p c occ -> ~ alike occ).
