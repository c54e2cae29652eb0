(** What the matcher combinators should do, in terms of what their parts do. *)
From Verif Require Import Py Ast Template Matcher.

(** A result's bindings ([{}] if there are none). *)
Definition bindings_of (r : result) : dict bound :=
  match r with RInfo _ (Some b) _ => b | _ => [] end.

(** [RewriteFile] occurs nowhere in the matcher, except under [Unless] (which
    drops bindings). *)
Fixpoint rewrite_free (m : matcher) : bool :=
  match m with
  | MRewriteFile _ _ => false
  | MAllOf ms | MAnyOf ms | MItemsAre ms | MGlob ms => forallb rewrite_free ms
  | MOnce _ m' | MRebind m' _ _ | MWithReplacements m' _ | MDebug m' | MHasItem _ m'
  | MContains m' | MConst _ m' | MHasParent m' | MIsOrHasAncestor m' | MHasChild m'
  | MIsOrHasDescendant m' | MHasPrevSibling m' | MHasNextSibling m'
  | MWithTopLevelImport m' _ _ | MHasComments m' | MNoComments m'
  | MBind _ m' _ _ | MMatchesRegex _ m' => rewrite_free m'
  | MNode _ fs => forallb (fun fm => rewrite_free (snd fm)) fs
  | MHasFirstAncestor a b => rewrite_free a && rewrite_free b
  | _ => true
  end.

(** Evaluate the alternatives from left to right, skipping those that declare
    that they cannot match the type of the candidate; the first exception or
    match is the outcome.  [s] and [s'] are the [Once] keys that have run in this
    attempt, before and after. *)
Inductive first_match (e : env) (v : value)
  : list matcher -> list Z -> list Z -> res (option result) -> Prop :=
  | FM_none s : first_match e v [] s s (Ok None)
  | FM_excluded m ms ts s s' o :
      type_filter m = Some ts -> ~ In (vtype v) ts ->
      first_match e v ms s s' o -> first_match e v (m :: ms) s s' o
  | FM_fails m ms s s1 s' o :
      eval e m v s = (s1, Ok None) ->
      first_match e v ms s1 s' o -> first_match e v (m :: ms) s s' o
  | FM_matches m ms s s' r :
      eval e m v s = (s', Ok (Some r)) -> first_match e v (m :: ms) s s' (Ok (Some r))
  | FM_raises m ms s s' x :
      eval e m v s = (s', Err x) -> first_match e v (m :: ms) s s' (Err x).

(** Trying [m] on [v] does not raise and does not depend on or affect [Once]. *)
Definition pure_on (e : env) (v : value) (m : matcher) (o : option result) : Prop :=
  forall s, eval e m v s = (s, Ok o).
