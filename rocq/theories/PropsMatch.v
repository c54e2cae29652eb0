(** C15, C16, C17, C18, C19.  Theorems only. *)
From Verif Require Import Py PyFacts Ast Template FromDiff Matcher MatchSpec MergeSpec MergeProofs
  MatcherProofs BindProofs SampleTrees.

(** *** C15 *)

(** Merging errs, is refused, or gives a dictionary, exactly as specified, in
    whatever order the set of shared labels is iterated. *)
Theorem C15_merge_bindings : forall order lhs rhs,
  dict_ok lhs -> dict_ok rhs -> Permutation order (shared_keys lhs rhs) ->
  merge_outcome lhs rhs (merge_bindings_in order lhs rhs).
Proof. exact merge_bindings_in_spec. Qed.
Print Assumptions C15_merge_bindings.
(** The specification determines the outcome ... *)
Theorem C15_outcome_determined : forall lhs rhs x y,
  merge_outcome lhs rhs x -> merge_outcome lhs rhs y -> same_outcome x y.
Proof. exact merge_outcome_unique. Qed.
Print Assumptions C15_outcome_determined.
(** ... so that iteration order cannot be observed. *)
Theorem C15_order_independent : forall order order' lhs rhs,
  dict_ok lhs -> dict_ok rhs ->
  Permutation order (shared_keys lhs rhs) -> Permutation order' (shared_keys lhs rhs) ->
  same_outcome (merge_bindings_in order lhs rhs) (merge_bindings_in order' lhs rhs).
Proof. exact merge_order_independent. Qed.
Print Assumptions C15_order_independent.
Theorem C15_dict_order_independent : forall lhs rhs lhs' rhs',
  dict_ok lhs -> dict_ok rhs -> Permutation lhs lhs' -> Permutation rhs rhs' ->
  same_outcome (merge_bindings lhs rhs) (merge_bindings lhs' rhs').
Proof. exact merge_dict_order_independent. Qed.
Print Assumptions C15_dict_order_independent.

Definition c15_l : dict bound :=
  [(TX "x", Bound (PObject s_a) MERGE KEEP_LAST); (TX "y", Bound (PObject s_f) MERGE_EQUIVALENT_AST KEEP_FIRST);
   (TX "z", Bound (PString (TX "q")) ERROR KEEP_FIRST)].
Definition c15_r : dict bound :=
  [(TX "y", Bound (PObject (name 99 tok_f 98)) MERGE_EQUIVALENT_AST KEEP_FIRST);
   (TX "w", Bound PMatch SKIP KEEP_LAST); (TX "x", Bound (PObject s_b) MERGE KEEP_LAST)].
Example C15_nonvacuous :
  dict_ok c15_l /\ dict_ok c15_r /\
  Permutation [TX "y"; TX "x"] (shared_keys c15_l c15_r) /\
  merge_bindings c15_l c15_r =
    Ok (Some [(TX "x", Bound (PObject s_b) MERGE KEEP_LAST);
              (TX "y", Bound (PObject s_f) MERGE_EQUIVALENT_AST KEEP_FIRST);
              (TX "z", Bound (PString (TX "q")) ERROR KEEP_FIRST);
              (TX "w", Bound PMatch SKIP KEEP_LAST)]).
Proof.
  split; [repeat constructor; cbn; intuition discriminate|].
  split; [repeat constructor; cbn; intuition discriminate|].
  split; [apply perm_swap | reflexivity].
Qed.

(** *** C16 *)
Theorem C16_merge_replacements : forall lhs rhs,
  dict_ok lhs -> dict_ok rhs ->
  match merge_replacements lhs rhs with
  | Err x => x = MatchError /\ exists k, In k (dkeys lhs) /\ In k (dkeys rhs)
  | Ok d =>
      (forall k, ~ (In k (dkeys lhs) /\ In k (dkeys rhs))) /\ dict_ok d /\
      (forall k t, dget d k = Some t <-> dget lhs k = Some t \/ dget rhs k = Some t)
  end.
Proof. exact merge_replacements_spec. Qed.
Print Assumptions C16_merge_replacements.
Definition c16_t (s : text) : template := Template s (Ok []) (fun _ _ _ => Ok s).
Example C16_nonvacuous :
  merge_replacements [(TX "a", c16_t (TX "1"))] [(TX "b", c16_t (TX "2"))]
    = Ok [(TX "a", c16_t (TX "1")); (TX "b", c16_t (TX "2"))]
  /\ merge_replacements [(TX "a", c16_t (TX "1"))] [(TX "a", c16_t (TX "1"))] = Err MatchError.
Proof. split; reflexivity. Qed.

(** *** C17 *)
Theorem C17_type_filter_sound : forall e m v s s' r ts,
  type_filter m = Some ts -> eval e m v s = (s', Ok (Some r)) -> In (vtype v) ts.
Proof.
  intros e m v s s' r ts H H1. apply type_filter_sound in H1. rewrite H in H1. now apply tmem_In.
Qed.
Print Assumptions C17_type_filter_sound.
Definition c17_m : matcher :=
  MAllOf [MAnyOf [m_bind (TX "n") (m_name (TX "a")); MTypeIs (TX "Call")]; MAnything].
Example C17_nonvacuous :
  type_filter c17_m = Some [TX "Name"; TX "Call"] /\
  (exists r, eval s_env c17_m s_a [] = ([], Ok (Some r))) /\
  eval s_env c17_m s_b [] = ([], Ok None).
Proof. split; [reflexivity|]. split; [eexists; reflexivity | reflexivity]. Qed.

(** *** C18 *)

(** In general: alternatives are evaluated in order, each only if those before
    did not match or are ruled out by their type. *)
Theorem C18_first_match : forall e ms v s s' o,
  eval e (MAnyOf ms) v s = (s', o) -> first_match e v ms s s' o.
Proof. exact anyof_first_match. Qed.
Print Assumptions C18_first_match.
(** Type filters make no difference for alternatives that do not raise and do
    not use [Once]: the result is the first result that is not None. *)
Theorem C18_naive : forall e ms os v,
  Forall2 (pure_on e v) ms os -> pure_on e v (MAnyOf ms) (hd None (filter is_some os)).
Proof. exact anyof_naive. Qed.
Print Assumptions C18_naive.
Definition c18_ms : list matcher :=
  [MTypeIs (TX "Call"); MAllOf [MAnything; m_name (TX "b")]; m_bind (TX "second") MAnything;
   m_bind (TX "third") (m_name (TX "a"))].
Example C18_nonvacuous :
  exists os r, Forall2 (pure_on s_env s_a) c18_ms os /\ pure_on s_env s_a (MAnyOf c18_ms) (Some r)
               /\ dkeys (bindings_of r) = [TX "second"].
Proof.
  eexists [None; None; Some _; Some _], _. split; [|split].
  - repeat constructor; intros s; reflexivity.
  - intros s. reflexivity.
  - reflexivity.
Qed.

(** *** C19 *)
Theorem C19_bind_variables : forall e m v s s' r k,
  rewrite_free m = true -> eval e m v s = (s', Ok (Some r)) ->
  In k (dkeys (bindings_of r)) -> In k (bind_variables m).
Proof. intros e m v. exact (bind_variables_cover e m v). Qed.
Print Assumptions C19_bind_variables.
Definition c19_m : matcher :=
  MNode (TX "Call") [(TX "func", m_bind (TX "f") MAnything);
                     (TX "args", MItemsAre [m_bind (TX "x") MAnything; MAnyOf [m_name (TX "q"); m_bind (TX "y") MAnything]]);
                     (TX "keywords", MUnless (m_bind (TX "no") (MHasItem 0 MAnything)))].
Example C19_nonvacuous :
  exists r, rewrite_free c19_m = true /\ eval s_env c19_m s_call [] = ([], Ok (Some r))
            /\ dkeys (bindings_of r) = [TX "f"; TX "x"; TX "y"]
            /\ bind_variables c19_m = [TX "f"; TX "x"; TX "y"].
Proof. eexists. repeat split; reflexivity. Qed.
(** FINDING: the bindings [<prefix>.<i>] of a [RewriteFile] are not declared. *)
Definition c19_rewriter : matcher := MRewriteFile (TX "p") (fun _ _ => Ok (Some (TX "g(a, b)"))).
Definition c19_env : env :=
  Env s_file s_module s_tokens [] (fun c => c) (fun c => c)
      (fun _ _ => [TX "- f(a, b)"; TX "+ g(a, b)"]).
Example C19_rewrite_file_undeclared :
  exists r, eval c19_env c19_rewriter s_module [] = ([], Ok (Some r))
            /\ bindings_of r <> [] /\ bind_variables c19_rewriter = [].
Proof. eexists. split; [reflexivity|]. split; [cbn; discriminate | reflexivity]. Qed.
