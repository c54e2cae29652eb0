(** Glob with submatchers that bind. *)
From Verif Require Import Py Ast Template FromDiff Matcher MatchSpec FindSpec NavSpec NavProofs SampleTrees CollSpec CollProofs GlobSpec GlobExact PropsColl.

(** Every submatcher always does the same on the same item (no [Once]).  If Glob
    does not raise, it matches exactly when its parts are placed, each at its
    first place and the last at the end, and all they bind fits together; and
    that is what it binds. *)
Theorem C28_exactly_when : forall e ms v l s s' o,
  seq_items e v = Some l ->
  (forall m x, In m ms -> is_star m = false -> In x l -> steady_on e m x) ->
  eval e (MGlob ms) v s = (s', Ok o) ->
  s' = s /\ ((exists b, glob_placed e ms l b /\ o = Some (RInfo (create_match (e_parsed e) v) (Some b) []))
             \/ (o = None /\ forall b, ~ glob_placed e ms l b)).
Proof. exact glob_exact. Qed.
Print Assumptions C28_exactly_when.

(** FINDING: so the claim for submatchers that bind fails also in the other
    direction: a way to split the sequence that binds without conflict may be
    missed. *)
Theorem C28_bindings_refuted :
  ~ (forall e ms v l, seq_items e v = Some l ->
       (forall m x, In m ms -> is_star m = false -> In x l -> steady_on e m x) ->
       (exists a1 a2 a3 w1 w2 p1 p2 b1 b2 b,
          ms = MGlobStar :: p1 ++ MGlobStar :: p2 ++ [MGlobStar] /\ l = a1 ++ w1 ++ a2 ++ w2 ++ a3
          /\ fits_items e p1 w1 b1 /\ fits_items e p2 w2 b2 /\ merge_bindings b1 b2 = Ok (Some b)) ->
       exists s r, eval e (MGlob ms) v [] = (s, Ok (Some r))).
Proof.
  intros H.
  destruct (H s_env [MGlobStar; c28_bind; MGlobStar; c28_bind; MGlobStar] (VList 1 [s_f; s_a; s_a]) [s_f; s_a; s_a])
    as (s & r & Hr).
  - reflexivity.
  - intros m x Hm Hs Hx.
    destruct Hm as [<-|[<-|[<-|[<-|[<-|[] ] ] ] ] ]; try discriminate Hs;
      (destruct Hx as [<-|[<-|[<-|[] ] ] ]; eexists; intros s; reflexivity).
  - exists [s_f], [], [], [s_a], [s_a], [c28_bind], [c28_bind].
    eexists _, _, _. split; [reflexivity|]. split; [reflexivity|].
    split; [split; [reflexivity | intros s; econstructor; [reflexivity | reflexivity | constructor]]|].
    split; [split; [reflexivity | intros s; econstructor; [reflexivity | reflexivity | constructor]]|].
    reflexivity.
  - assert (Hn : eval s_env (MGlob [MGlobStar; c28_bind; MGlobStar; c28_bind; MGlobStar]) (VList 1 [s_f; s_a; s_a]) [] = ([], Ok None)) by reflexivity.
    rewrite Hn in Hr. discriminate Hr.
Qed.
Print Assumptions C28_bindings_refuted.

(** [*, $x, b, *] on [a, f, b, a]: [$x] is [f]. *)
Definition c28_ms2 : list matcher := [MGlobStar; c28_bind; m_name (TX "b"); MGlobStar].
Example C28_exactly_when_nonvacuous :
  seq_items s_env (VList 1 [s_a; s_f; s_b; s_a]) = Some [s_a; s_f; s_b; s_a]
  /\ (forall m x, In m c28_ms2 -> is_star m = false -> In x [s_a; s_f; s_b; s_a] -> steady_on s_env m x)
  /\ (exists r, eval s_env (MGlob c28_ms2) (VList 1 [s_a; s_f; s_b; s_a]) [] = ([], Ok (Some r))
                /\ dkeys (bindings_of r) = [TX "x"])
  /\ (exists b, glob_placed s_env c28_ms2 [s_a; s_f; s_b; s_a] b
                /\ map (fun kb => b_value (snd kb)) b = [create_match (e_parsed s_env) s_f]).
Proof.
  assert (Hs : forall m x, In m c28_ms2 -> is_star m = false -> In x [s_a; s_f; s_b; s_a] -> steady_on s_env m x).
  { intros m x Hm Hs Hx.
    destruct Hm as [<-|[<-|[<-|[<-|[] ] ] ] ]; try discriminate Hs;
      (destruct Hx as [<-|[<-|[<-|[<-|[] ] ] ] ]; eexists; intros s; reflexivity). }
  split; [reflexivity|]. split; [exact Hs|]. split; [eexists; split; reflexivity|].
  destruct (C28_exactly_when s_env c28_ms2 (VList 1 [s_a; s_f; s_b; s_a]) _ [] _ _ eq_refl Hs eq_refl) as [_ [(b & Hb & Eb)|[E _]]]; [|discriminate E].
  exists b. split; [exact Hb|]. injection Eb as <-. reflexivity.
Qed.
