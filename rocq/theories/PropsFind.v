(** C20, C21.  Theorems only. *)
From Verif Require Import Py PyFacts Ast Template FromDiff Matcher MatchSpec FindSpec FindProofs
  OnceProofs SampleTrees.
From Coq Require Import Sorted.

(** *** C20 *)
Theorem C20_find_iter : forall e m out,
  matcher_find_iter e m = Ok out ->
  exists hs, found e m hs /\ out = map (fun h => (h_value h, h_result h)) hs.
Proof. exact find_iter_found. Qed.
Print Assumptions C20_find_iter.
(** There is only one such list of matches. *)
Theorem C20_found_unique : forall e m hs hs', found e m hs -> found e m hs' -> hs = hs'.
Proof. exact found_unique. Qed.
Print Assumptions C20_found_unique.
(** An exception that ends the search is one that trying [m] at some place
    raised, and not MatchError. *)
Theorem C20_raises : forall e m x,
  matcher_find_iter e m = Err x ->
  x <> MatchError /\
  exists hs q w ran, at_path (e_tree e) q = Some w
    /\ attempt (with_done e (done_after [] hs)) m w = (ran, Err x).
Proof. exact find_iter_raises. Qed.
Print Assumptions C20_raises.

(** Both arguments of [f(a, b)] and nothing else; the outer call if it matches. *)
Example C20_nonvacuous :
  (exists r1 r2, matcher_find_iter s_env (MAnyOf [m_name (TX "a"); m_name (TX "b")]) = Ok [(s_a, r1); (s_b, r2)])
  /\ (exists r, matcher_find_iter s_env (MAnyOf [m_name (TX "a"); MTypeIs (TX "Call")]) = Ok [(s_call, r)])
  /\ matcher_find_iter s_env MRaise = Err (OtherError 0)
  /\ matcher_find_iter s_env MGlobStar = Ok [].
Proof. repeat split; repeat eexists; reflexivity. Qed.

(** *** C21 *)

(** If an earlier match ran the [Once] with key [k] then the later match did not
    run it, and is the match that the matcher without this [Once] finds. *)
Theorem C21_at_most_once : forall e m hs hs1 h hs2 h' k,
  found e m hs -> hs = hs1 ++ h :: hs2 -> In h' hs1 -> In k (h_ran h') ->
  ~ In k (h_ran h) /\
  attempt (with_done e (done_after [] hs1)) (exhaust k m) (h_value h) = (h_ran h, Ok (Some (h_result h))).
Proof. exact once_spent. Qed.
Print Assumptions C21_at_most_once.
Theorem C21_later_attempts : forall e m k hs1 v,
  (exists h', In h' hs1 /\ In k (h_ran h')) ->
  attempt (with_done e (done_after [] hs1)) m v = attempt (with_done e (done_after [] hs1)) (exhaust k m) v.
Proof. exact once_spent_attempt. Qed.
Print Assumptions C21_later_attempts.
(** Running it: its submatcher decides and provides bindings and replacements,
    and only its success is recorded. *)
Theorem C21_first_run : forall e key m v s s' o,
  ~ In key (e_done e) -> ~ In key s ->
  eval e (MOnce key m) v s = (s', Ok o) ->
  exists s1 o1, eval e m v s = (s1, Ok o1) /\
    match o1 with
    | None => o = None /\ s' = s1
    | Some r1 => exists rm b t, r1 = RInfo rm (Some b) t
                 /\ o = Some (RInfo (create_match (e_parsed e) v) (Some b) t)
                 /\ (In key s' /\ forall k, In k s' <-> k = key \/ In k s1)
    end.
Proof. exact once_runs. Qed.
Print Assumptions C21_first_run.

(** [AllOf(Name(), Once(Bind('x', Anything())))]: only the first name is bound. *)
Definition c21_m : matcher :=
  MAllOf [MTypeIs (TX "Name"); MOnce 5 (m_bind (TX "x") MAnything)].
Example C21_nonvacuous :
  exists r1 r2 r3, matcher_find_iter s_env c21_m = Ok [(s_f, r1); (s_a, r2); (s_b, r3)]
    /\ dkeys (bindings_of r1) = [TX "x"] /\ bindings_of r2 = [] /\ bindings_of r3 = [].
Proof. repeat eexists; reflexivity. Qed.
(** FINDING: within one attempt, an alternative that fails after running a
    [Once] leaves its mark: the second alternative's [Once] does not bind. *)
Definition c21_leak : matcher :=
  MAnyOf [MAllOf [MOnce 5 (m_bind (TX "x") MAnything); m_name (TX "zzz")];
          MAllOf [MTypeIs (TX "Name"); MOnce 5 (m_bind (TX "x") MAnything)]].
Example C21_leak_within_an_attempt :
  exists r, attempt s_env c21_leak s_a = ([5], Ok (Some r)) /\ bindings_of r = [].
Proof. repeat eexists; reflexivity. Qed.
