(** What [find_iter] should report: places in a tree, their order, and which
    attempts are made. *)
From Verif Require Import Py Ast Template Matcher.

(** A place in a tree: the child numbers to follow from the root. *)
Definition path := list nat.
Fixpoint at_path (v : value) (p : path) : option value :=
  match p with
  | [] => Some v
  | i :: p' => match nth_error (vchildren v) i with Some x => at_path x p' | None => None end
  end.
(** [q] is [p] or below it. *)
Definition under (p q : path) : Prop := exists r, q = p ++ r.
(** [p] is in a branch to the left of that of [q]; neither is under the other. *)
Definition left_of (p q : path) : Prop :=
  exists c i j p' q', p = c ++ i :: p' /\ q = c ++ j :: q' /\ (i < j)%nat.

(** A reported match: where, what, and the [Once] keys that were run for it. *)
Record hit := Hit { h_path : path; h_value : value; h_result : result; h_ran : list Z }.

(** The [Once] keys run by the matches [hs], from [done] on. *)
Definition done_after (done : list Z) (hs : list hit) : list Z :=
  fold_left (fun d h => h_ran h ++ d) hs done.
(** [hs1] are those of [hs] that are to the left of [p]. *)
Definition before (hs : list hit) (p : path) (hs1 : list hit) : Prop :=
  exists hs2, hs = hs1 ++ hs2
    /\ (forall h, In h hs1 -> left_of (h_path h) p)
    /\ (forall h, In h hs2 -> ~ left_of (h_path h) p).
(** The outcome of trying [m] on what is at [p], given the reported matches:
    with a new context that knows the keys run by the matches further left. *)
Definition tried_at (e : env) (m : matcher) (hs : list hit) (p : path) (o : res (option result)) : Prop :=
  exists hs1 v ran, before hs p hs1 /\ at_path (e_tree e) p = Some v
    /\ attempt (with_done e (done_after [] hs1)) m v = (ran, o).

(** The reported matches are those of a left-to-right search for outermost
    matches. *)
Record found (e : env) (m : matcher) (hs : list hit) : Prop := {
  (* each is a match, made knowing only the matches before it *)
  fd_match : forall hs1 h hs2, hs = hs1 ++ h :: hs2 ->
    at_path (e_tree e) (h_path h) = Some (h_value h)
    /\ attempt (with_done e (done_after [] hs1)) m (h_value h) = (h_ran h, Ok (Some (h_result h)));
  (* they are in source order, and no one is inside another *)
  fd_order : StronglySorted (fun h h' => left_of (h_path h) (h_path h')) hs;
  (* everywhere else no match was found: a place is in a reported match, or it
     was tried without success, or it is below a place where trying raised
     MatchError; there nothing is reported *)
  fd_complete : forall p v, at_path (e_tree e) p = Some v ->
    (exists h, In h hs /\ under (h_path h) p)
    \/ tried_at e m hs p (Ok None)
    \/ (exists q, under q p /\ tried_at e m hs q (Err MatchError)
                  /\ forall h, In h hs -> ~ under q (h_path h))
}.

(** *** [Once] *)

(** [m] with every [Once] with the given key replaced by a matcher that always
    matches, binds nothing and replaces nothing. *)
Fixpoint exhaust (k : Z) (m : matcher) : matcher :=
  match m with
  | MOnce key m' => if key =? k then MAllOf [] else MOnce key (exhaust k m')
  | MAllOf ms => MAllOf (map (exhaust k) ms)
  | MAnyOf ms => MAnyOf (map (exhaust k) ms)
  | MUnless m' => MUnless (exhaust k m')
  | MBind name m' c g => MBind name (exhaust k m') c g
  | MRebind m' c g => MRebind (exhaust k m') c g
  | MWithReplacements m' reps => MWithReplacements (exhaust k m') reps
  | MDebug m' => MDebug (exhaust k m')
  | MMatchesRegex r m' => MMatchesRegex r (exhaust k m')
  | MHasItem i m' => MHasItem i (exhaust k m')
  | MItemsAre ms => MItemsAre (map (exhaust k) ms)
  | MContains m' => MContains (exhaust k m')
  | MGlob ms => MGlob (map (exhaust k) ms)
  | MNode ty fs => MNode ty (map (fun fm => (fst fm, exhaust k (snd fm))) fs)
  | MConst tys m' => MConst tys (exhaust k m')
  | MHasParent m' => MHasParent (exhaust k m')
  | MIsOrHasAncestor m' => MIsOrHasAncestor (exhaust k m')
  | MHasChild m' => MHasChild (exhaust k m')
  | MIsOrHasDescendant m' => MIsOrHasDescendant (exhaust k m')
  | MHasFirstAncestor a b => MHasFirstAncestor (exhaust k a) (exhaust k b)
  | MHasPrevSibling m' => MHasPrevSibling (exhaust k m')
  | MHasNextSibling m' => MHasNextSibling (exhaust k m')
  | MWithTopLevelImport m' a b => MWithTopLevelImport (exhaust k m') a b
  | MHasComments m' => MHasComments (exhaust k m')
  | MNoComments m' => MNoComments (exhaust k m')
  | MAnything | MRaise | MStringMatch _ | MEquals _ | MTypeIs _ | MFileMatchesRegex _ | MInLines _
  | MGlobStar | MRewriteFile _ _ => m
  end.
