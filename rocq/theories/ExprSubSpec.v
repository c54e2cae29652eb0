(** What searching for a pattern and replacing it by a template should do. *)
From Verif Require Import Py Subst ApplySpec Ast Template FromDiff Matcher FindSpec PatternSpec Search.

Section Spec.
  Variables (e : env) (holes : text -> option hole) (p : value).
  (** The code [c] is an occurrence of the pattern [p], with [occ] in the places of
      the metavariables, the same code in all places of any one of them. *)
  Definition occurrence (c : value) (occ : list (label * pymatch)) : Prop :=
    fits e holes p c occ /\ alike occ.

  (** All outermost occurrences, from left to right in the tree. *)
  Record outermost_occurrences (hits : list (path * value)) : Prop := {
    oo_occur : forall q c, In (q, c) hits ->
      at_path (e_tree e) q = Some c /\ exists occ, occurrence c occ;
    oo_apart : StronglySorted (fun h h' => FindSpec.left_of (fst h) (fst h')) hits;
    oo_all : forall q c occ, at_path (e_tree e) q = Some c -> occurrence c occ ->
      exists q' c', In (q', c') hits /\ under q' q
  }.

  (** What a template gets to see of an occurrence: the whole of it, and what the
      metavariables stand for. *)
  Definition seen (c : value) (occ : list (label * pymatch)) (ms : dict pymatch) : Prop :=
    dict_ok ms /\ dget ms (TX "__root") = Some (create_match (e_parsed e) c)
    /\ forall x, x <> TX "__root" -> dget ms x = last_occ x occ.
  (** The template, filled in for the occurrence. *)
  Definition fills_in (t : template) (c : value) (r : res text) : Prop :=
    exists occ ms, occurrence c occ /\ seen c occ ms /\ r = t_substitute t (e_parsed e) (create_match (e_parsed e) c) ms.

  (** For every occurrence, in this order, the edit that puts the filled-in template
      in its place; none where the template gives up. *)
  Inductive replaced (t : template) : list (path * value) -> list edit -> Prop :=
    | RP_end : replaced t [] []
    | RP_gives_up q c hits es : fills_in t c (Err RewriteError) ->
        replaced t hits es -> replaced t ((q, c) :: hits) es
    | RP_edit q c hits es a b new :
        m_span (create_match (e_parsed e) c) = Some (a, b) -> fills_in t c (Ok new) ->
        replaced t hits es -> replaced t ((q, c) :: hits) ((new, a, b) :: es).
End Spec.

(** Where the nodes of a file are: offsets count from the start of the file; what
    contains a node with a position has tokens, too; nodes next to each other do
    not overlap. *)
Record laid_out (tree : value) (parsed : parsed_file) : Prop := {
  lo_start : forall v a b, PatternSpec.inside tree v -> m_span (create_match parsed v) = Some (a, b) -> 0 <= a < b;
  lo_tokens : forall v w, PatternSpec.inside tree v -> PatternSpec.inside v w -> is_node v = true ->
    m_span (create_match parsed w) <> None -> exists i fs f l, v = VNode i fs /\ n_first i = Some f /\ n_last i = Some l;
  lo_apart : forall q q' v w a b c d, at_path tree q = Some v -> at_path tree q' = Some w -> FindSpec.left_of q q' ->
    m_span (create_match parsed v) = Some (a, b) -> m_span (create_match parsed w) = Some (c, d) -> b <= c \/ d <= a
}.
