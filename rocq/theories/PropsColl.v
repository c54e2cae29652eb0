(** C27: collections; C28: Glob; C51: conjunctions. *)
From Verif Require Import Py PyFacts Ast Template FromDiff Matcher MatchSpec MergeSpec FindSpec NavSpec NavProofs
  SampleTrees CollSpec CollProofs GlobProofs MatcherProofs.

(** *** C27 *)

(** ItemsAre matches iff there are as many items as matchers, each item matches
    its matcher, and the bindings can be merged.  (FINDING: [ItemsAre([])] also
    matches everything that is no sequence at all.) *)
Theorem C27_items_are : forall e ms v s s' r,
  eval e (MItemsAre ms) v s = (s', Ok (Some r)) <->
  exists b, r = RInfo (create_match (e_parsed e) v) (Some b) [] /\
    match seq_items e v with
    | Some l => length l = length ms /\ in_turn (one_by_one e ms l) [] s s' b
    | None => ms = [] /\ b = [] /\ s' = s
    end.
Proof. exact items_are_matches. Qed.
Print Assumptions C27_items_are.
Theorem C27_items_are_too_long : forall e ms v l s,
  seq_items e v = Some l -> (length ms < length l)%nat -> eval e (MItemsAre ms) v s = (s, Ok None).
Proof. exact items_are_too_long. Qed.
Print Assumptions C27_items_are_too_long.
(** HasItem: the item is tried, if there is one. *)
Theorem C27_has_item : forall e i m v s s' o,
  eval e (MHasItem i m) v s = (s', o) ->
  (exists l x s1 o1, seq_items e v = Some l /\ item_at l i x /\ eval e m x s = (s1, o1) /\ s' = s1
     /\ o = by_way_of e v (match o1 with Ok (Some r) => Ok (Some (x, r)) | Ok None => Ok None | Err exn => Err exn end))
  \/ ((forall l x, seq_items e v = Some l -> ~ item_at l i x) /\ s' = s /\ o = Ok None).
Proof. exact has_item_hits. Qed.
Print Assumptions C27_has_item.
(** Contains: the items are tried in order. *)
Theorem C27_contains : forall e m v s s' o,
  eval e (MContains m) v s = (s', o) ->
  match seq_items e v with
  | Some l => exists o1, first_hit (eval e m) l s s' o1 /\ o = by_way_of e v o1
  | None => s' = s /\ o = Ok None
  end.
Proof. exact contains_hits. Qed.
Print Assumptions C27_contains.
(** The sequences are lists, strings and bytes. *)
Theorem C27_sequences : forall e,
  (forall id l, seq_items e (VList id l) = Some l)
  /\ (forall id s l, seq_items e (VConst id (CStr s)) = Some l ->
        map (fun x => match x with VConst _ c => Some c | _ => None end) l = map (fun c => Some (CStr [c])) s)
  /\ (forall id s l, seq_items e (VConst id (CBytes s)) = Some l ->
        map (fun x => match x with VConst _ c => Some c | _ => None end) l = map (fun c => Some (CNum KInt (2 * c))) s)
  /\ (forall v, is_node v = true \/ is_none v = true -> seq_items e v = None).
Proof.
  intros e. split; [reflexivity|]. split; [|split].
  - intros id s l [= <-]. now rewrite map_map.
  - intros id s l [= <-]. now rewrite map_map.
  - intros [i fs|id l|id [ | | | | ]] [H|H]; try discriminate H; reflexivity.
Qed.
Print Assumptions C27_sequences.

(** The arguments of [f(a, b)]. *)
Example C27_nonvacuous :
  (exists r, eval s_env (MItemsAre [m_bind (TX "x") (m_name (TX "a")); m_bind (TX "y") MAnything]) s_args [] = ([], Ok (Some r))
             /\ dkeys (bindings_of r) = [TX "x"; TX "y"])
  /\ eval s_env (MItemsAre [MAnything]) s_args [] = ([], Ok None)
  /\ eval s_env (MItemsAre [MAnything; MAnything; MAnything]) s_args [] = ([], Ok None)
  /\ (exists r, eval s_env (MHasItem (-1) (m_name (TX "b"))) s_args [] = ([], Ok (Some r)))
  /\ item_at [s_a; s_b] (-1) s_b
  /\ eval s_env (MHasItem 2 MAnything) s_args [] = ([], Ok None)
  /\ (exists r, eval s_env (MContains (m_name (TX "b"))) s_args [] = ([], Ok (Some r)))
  /\ eval s_env (MContains (m_name (TX "f"))) s_args [] = ([], Ok None).
Proof.
  split; [eexists; split; reflexivity|]. split; [reflexivity|]. split; [reflexivity|].
  split; [eexists; reflexivity|]. split; [right; cbn; repeat split; lia|]. split; [reflexivity|].
  split; [eexists; reflexivity | reflexivity].
Qed.
Example C27_empty_items_are_matches_a_call :
  exists r, eval s_env (MItemsAre []) s_call [] = ([], Ok (Some r)).
Proof. eexists; reflexivity. Qed.

(** *** C28 *)

(** FINDING: the property as stated is false: the part after the last star may
    overlap what the parts before it matched. *)
Theorem C28_shell_glob_refuted :
  ~ (forall e ms v l s s' r, seq_items e v = Some l ->
       (forall m x, In m ms -> is_star m = false -> In x l -> plain_on e m x) ->
       eval e (MGlob ms) v s = (s', Ok (Some r)) -> split (may_fit e) (glob_pattern ms) l).
Proof.
  intros H.
  assert (Hs : split (may_fit s_env) (glob_pattern [m_name (TX "a"); MGlobStar; m_name (TX "a")]) [s_a]).
  { eapply (H s_env [m_name (TX "a"); MGlobStar; m_name (TX "a")] (VList 1 [s_a]) [s_a] []); [reflexivity| |reflexivity].
    intros m x Hm Hst [<-|[]]. right. destruct Hm as [<-|[<-|[<-|[]]]]; try discriminate Hst;
      eexists _, _; intros s; reflexivity. }
  cbn in Hs. inversion Hs; subst.
  match goal with X : split _ [None; _] [] |- _ => inversion X; subst end.
  match goal with X : split _ [Some _] [] |- _ => inversion X end.
Qed.
Print Assumptions C28_shell_glob_refuted.
(** What holds instead.  If Glob matches, the pattern splits the sequence or the
    last part overlaps. *)
Theorem C28_match_means : forall e ms v l s s' r,
  seq_items e v = Some l -> eval e (MGlob ms) v s = (s', Ok (Some r)) ->
  split (may_fit e) (glob_pattern ms) l \/ overlapping (may_fit e) (glob_pattern ms) l.
Proof. exact glob_sound. Qed.
Print Assumptions C28_match_means.
(** For submatchers that bind nothing, do not raise and do not use [Once], that
    is exactly when it matches; in particular whenever the pattern splits the
    sequence. *)
Theorem C28_matches_partial : forall e ms v l s,
  seq_items e v = Some l ->
  (forall m x, In m ms -> is_star m = false -> In x l -> plain_on e m x) ->
  split (may_fit e) (glob_pattern ms) l \/ overlapping (may_fit e) (glob_pattern ms) l ->
  eval e (MGlob ms) v s = (s, Ok (Some (RInfo (create_match (e_parsed e) v) (Some []) []))).
Proof. exact glob_complete. Qed.
Print Assumptions C28_matches_partial.
(** No overlap: without a star, with a star at the end, or with one star and a
    sequence long enough. *)
Theorem C28_no_overlap : forall e ms l,
  (~ In None (glob_pattern ms) \/ exists q, glob_pattern ms = q ++ [None]) ->
  ~ overlapping (may_fit e) (glob_pattern ms) l.
Proof. intros e ms l. apply no_end_exact. Qed.
Print Assumptions C28_no_overlap.
Theorem C28_one_star : forall e (a b : list matcher) l,
  (length a + length b <= length l)%nat ->
  overlapping (may_fit e) (map Some a ++ None :: map Some b) l ->
  split (may_fit e) (map Some a ++ None :: map Some b) l.
Proof. intros e a b l. apply one_star_exact. Qed.
Print Assumptions C28_one_star.

Definition c28_ms : list matcher := [MGlobStar; m_name (TX "a"); MGlobStar; MGlobStar; m_name (TX "b")].
Example C28_nonvacuous :
  seq_items s_env (VList 1 [s_f; s_a; s_f; s_b]) = Some [s_f; s_a; s_f; s_b]
  /\ (forall m x, In m c28_ms -> is_star m = false -> In x [s_f; s_a; s_f; s_b] -> plain_on s_env m x)
  /\ split (may_fit s_env) (glob_pattern c28_ms) [s_f; s_a; s_f; s_b]
  /\ (exists r, eval s_env (MGlob c28_ms) (VList 1 [s_f; s_a; s_f; s_b]) [] = ([], Ok (Some r)))
  /\ eval s_env (MGlob c28_ms) (VList 1 [s_f; s_a; s_f; s_b; s_f]) [] = ([], Ok None).
Proof.
  split; [reflexivity|]. split; [|split; [|split; [eexists; reflexivity | reflexivity]]].
  - intros m x Hm Hst Hx.
    destruct Hm as [<-|[<-|[<-|[<-|[<-|[]]]]]]; try discriminate Hst;
      destruct Hx as [<-|[<-|[<-|[<-|[]]]]]; first [left; intros s; reflexivity | right; eexists _, _; intros s; reflexivity].
  - cbn. apply SP_skip, SP_stop, SP_one; [exists [], []; eexists; reflexivity|].
    apply SP_skip, SP_stop, SP_stop, SP_one; [exists [], []; eexists; reflexivity|]. constructor.
Qed.
(** FINDING: what two parts bind is merged without going back: [*, $x, *, $x, *]
    (the same name twice) does not match [f, a, a]. *)
Definition c28_bind : matcher := MBind (TX "x") MAnything (Some MERGE_EQUIVALENT_AST) None.
Example C28_no_backtracking_for_bindings :
  eval s_env (MGlob [MGlobStar; c28_bind; MGlobStar; c28_bind; MGlobStar]) (VList 1 [s_f; s_a; s_a]) [] = ([], Ok None).
Proof. reflexivity. Qed.
(** FINDING: on what is no sequence, the result is False instead of None. *)
Example C28_false : eval s_env (MGlob []) s_call [] = ([], Ok (Some RFalse)).
Proof. reflexivity. Qed.

(** *** C51 *)

(** AllOf: all match, in order; bindings and replacements are merged. *)
Theorem C51_all_of : forall e ms v s s' r,
  eval e (MAllOf ms) v s = (s', Ok (Some r)) <->
  exists b t, r = RInfo (create_match (e_parsed e) v) (Some b) t
    /\ in_turn_reps (map (fun m => eval e m v) ms) [] [] s s' b t.
Proof. intros. apply accumulating_iff. Qed.
Print Assumptions C51_all_of.
(** The matcher of an AST class: the class is right and all given fields match. *)
Theorem C51_node : forall e ty fs v s s' r,
  eval e (MNode ty fs) v s = (s', Ok (Some r)) <->
  vtype v = ty /\
  exists b t, r = RInfo (create_match (e_parsed e) v) (Some b) t
    /\ in_turn_reps (map (fun fm => eval e (snd fm) (vfield v (fst fm))) fs) [] [] s s' b t.
Proof.
  intros e ty fs v s s' r. cbn [eval]. destruct (text_eqb (vtype v) ty) eqn:E.
  - apply text_eqb_eq in E. rewrite accumulating_iff. split; [intros H; now split | now intros [_ H]].
  - split; [discriminate|]. intros [H _]. apply text_eqb_eq in H. congruence.
Qed.
Print Assumptions C51_node.
(** Unless matches, binding nothing, iff the submatcher does not. *)
Theorem C51_unless : forall e m v s s' o,
  eval e (MUnless m) v s = (s', o) ->
  exists o1, eval e m v s = (s', o1) /\
    o = match o1 with
        | Ok None => Ok (Some (RInfo (create_match (e_parsed e) v) (Some []) []))
        | Ok (Some _) => Ok None
        | Err x => Err x
        end.
Proof.
  intros e m v s s' o H. cbn [eval] in H. unfold unless, mbind in H. destruct (eval e m v s) as [s1 [[r|]|x]];
    cbn in H; injection H as <- <-; eexists; split; reflexivity.
Qed.
Print Assumptions C51_unless.
(** Bind adds one binding, of the submatcher's match, to those of the submatcher. *)
Theorem C51_bind : forall e name m c g v s s' r,
  eval e (MBind name m c g) v s = (s', Ok (Some r)) <->
  exists rm rb t b, eval e m v s = (s', Ok (Some (RInfo rm (Some rb) t)))
    /\ merge_bindings rb [(name, Bound rm (match c with Some c => c | None => MERGE end)
                                          (match g with Some g => g | None => KEEP_LAST end))] = Ok (Some b)
    /\ r = RInfo rm (Some b) t.
Proof.
  intros e name m c g v s s' r. cbn [eval]. split.
  - intros H. apply mbind_Ok in H as (s1 & [[rm [rb|] t|]|] & H1 & H); cbn in H; try discriminate H.
    unfold mbind, lift, ret in H. unfold bound_value, or_default in H.
    destruct (merge_bindings rb _) as [[b|]|] eqn:E; try discriminate H. injection H as <- <-.
    exists rm, rb, t, b. now repeat split.
  - intros (rm & rb & t & b & H1 & H2 & ->). unfold mbind at 1. rewrite H1. unfold mbind, lift, ret. cbn.
    unfold bound_value, or_default. now rewrite H2.
Qed.
Print Assumptions C51_bind.

Example C51_nonvacuous :
  (exists r, eval s_env (MAllOf [m_bind (TX "x") MAnything; MUnless (m_name (TX "b")); m_bind (TX "y") (m_name (TX "a"))]) s_a []
             = ([], Ok (Some r)) /\ dkeys (bindings_of r) = [TX "x"; TX "y"])
  /\ eval s_env (MAllOf [MAnything; m_name (TX "b")]) s_a [] = ([], Ok None)
  /\ eval s_env (MUnless (m_name (TX "a"))) s_a [] = ([], Ok None).
Proof. split; [eexists; split; reflexivity|]. split; reflexivity. Qed.
