(** C38: whole-file rewriters.  Theorems only. *)
From Verif Require Import Py PyFacts Subst Fmt Ast Template Search FromDiff FromDiffSpec FromDiffProofs.

(** C38: for every line-diff algorithm keeping difflib's contract, [from_diff]
    succeeds, and the substitution a searcher makes of its bindings and
    replacements (plus the root match, in whatever dictionary order) turns
    [before] into exactly [after]. *)
Theorem C38_from_diff_rewrites_before_into_after : forall differ prefix before after,
  is_differ differ ->
  exists bindings templates, from_diff differ prefix before after = Ok (bindings, templates)
    /\ forall parsed root a b matches key,
         m_span root = Some (a, b) -> 0 <= a -> Permutation matches ((ROOT_LABEL, root) :: bindings) ->
         exists reps s, rewrite_templates parsed matches templates = Ok reps
           /\ sub_of_match matches reps key = Ok s
           /\ apply_substitutions before [s] = Ok after.
Proof. exact from_diff_spec. Qed.
Print Assumptions C38_from_diff_rewrites_before_into_after.

(** A (crude) differ: a common prefix of lines, then the rest. *)
Fixpoint crude_differ (a b : list text) : list text :=
  match a, b with
  | x :: a', y :: b' => if text_eqb x y then shown (Both x) :: crude_differ a' b'
                        else map (fun l => shown (Old l)) a ++ [shown (Hint (TX "^"))] ++ map (fun l => shown (New l)) b
  | _, _ => map (fun l => shown (Old l)) a ++ map (fun l => shown (New l)) b
  end.
Lemma crude_all a b hint : Forall (fun d => exists l, d = Hint l) hint ->
  exists ds, map (fun l => shown (Old l)) a ++ map shown hint ++ map (fun l => shown (New l)) b = map shown ds
  /\ old_lines ds = a /\ new_lines ds = b.
Proof.
  intro Hh. exists (map Old a ++ hint ++ map New b). rewrite !map_app, !map_map. split; [reflexivity|].
  unfold old_lines, new_lines. rewrite !flat_map_app. split.
  - replace (flat_map _ (map New b)) with (@nil text) by (induction b; cbn; auto).
    replace (flat_map _ hint) with (@nil text) by (induction Hh as [|d h [l ->] _ IH]; cbn; auto).
    rewrite !app_nil_r. induction a; cbn; congruence.
  - replace (flat_map _ (map Old a)) with (@nil text) by (induction a; cbn; auto).
    replace (flat_map _ hint) with (@nil text) by (induction Hh as [|d h [l ->] _ IH]; cbn; auto).
    cbn [app]. induction b; cbn; congruence.
Qed.
Lemma crude_is_differ : is_differ crude_differ.
Proof.
  intro a. induction a as [|x a IH]; intro b.
  - destruct b; apply (crude_all [] _ []); constructor.
  - destruct b as [|y b]; [apply (crude_all (x :: a) [] []); constructor|]. cbn [crude_differ].
    destruct (text_eqb x y) eqn:E.
    + apply text_eqb_eq in E. subst y. destruct (IH b) as (ds & -> & <- & <-). exists (Both x :: ds). auto.
    + apply (crude_all (x :: a) (y :: b) [Hint (TX "^")]). repeat constructor. eauto.
Qed.

Example C38_nonvacuous :
  is_differ crude_differ
  /\ exists bs ts, from_diff crude_differ (TX "fix")
       (TX "a" ++ [NL] ++ TX "b" ++ [NL] ++ TX "c") (TX "a" ++ [NL] ++ TX "x" ++ [NL]) = Ok (bs, ts)
     /\ map fst bs = [TX "fix.0"] /\ map (fun kv => m_span (snd kv)) bs = [Some (2, 5)]
     /\ map (fun kv => t_template (snd kv)) ts = [TX "x" ++ [NL]].
Proof. split; [exact crude_is_differ|]. do 2 eexists. split; [vm_compute; reflexivity|]. repeat split. Qed.
