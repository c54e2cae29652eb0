(** C82: messages about syntax errors in patterns and templates. *)
From Verif Require Import Py PyFacts FromDiffProofs ErrorStrings ErrorSpec ErrorProofs.

(** The summary: why the code does not parse, or that this is unknown. *)
Definition summary_of (e : syntax_error) (t : text) : Prop :=
  exists why, t = TX "Failed to parse Python-like source code (" ++ why ++ TX ")."
    /\ ((se_msg e = Some why /\ why <> []) \/ ((se_msg e = None \/ se_msg e = Some []) /\ why = TX "<unknown reason>")).
Lemma has_summary e : summary_of e (TX "Failed to parse Python-like source code (" ++ reason e ++ TX ").").
Proof.
  exists (reason e). split; [reflexivity|]. unfold reason. destruct (se_msg e) as [[|c m]|]; [right; auto|left; split; [reflexivity|discriminate]|right; auto].
Qed.
Lemma no_newline source : ~ In NL source -> existsb (fun c => c =? NL) source = false.
Proof. intros H. apply not_true_is_false. intros K. apply existsb_exists in K as (c & Hc & E). apply Z.eqb_eq in E. now subst. Qed.
Lemma newline source : In NL source -> existsb (fun c => c =? NL) source = true.
Proof. intros H. apply existsb_exists. exists NL. split; [exact H|apply Z.eqb_refl]. Qed.

(** C82.  There is always a message that begins with the summary, in a line of its
    own; except if the error has a line but no column. *)
Theorem C82_summary : forall e source,
  match user_syntax_error e source with
  | Ok m => exists s rest, summary_of e s /\ m = s ++ [NL] ++ rest
  | Err x => x = TypeError /\ se_text e <> None /\ se_offset e = None
  end.
Proof.
  intros e source. pose proof (has_summary e) as S. unfold user_syntax_error. set (s := _ ++ reason e ++ _) in *. destruct (se_text e) as [t|].
  - destruct (se_offset e) as [o|]; [|split; [reflexivity|split; [discriminate|reflexivity]]].
    destruct (existsb (fun c => c =? NL) source); eexists s, _; (split; [exact S|]); cbn [join]; reflexivity.
  - exists s, (indent source). split; [exact S|reflexivity].
Qed.
Print Assumptions C82_summary.

(** If it is not known where the error is, all of the code is shown. *)
Theorem C82_all_shown : forall e source,
  se_text e = None -> exists s block, summary_of e s /\ shows block source /\ user_syntax_error e source = Ok (s ++ [NL] ++ block).
Proof. intros e source H. exists (TX "Failed to parse Python-like source code (" ++ reason e ++ TX ")."), (indent source). split; [apply has_summary|]. split; [apply indent_shows|]. unfold user_syntax_error. now rewrite H. Qed.
Print Assumptions C82_all_shown.

(** If it is, the line is shown with a caret under the place: below the summary if
    the code is a single line, and below all of the code if it has several. *)
Theorem C82_location_partial : forall e source line tail o,
  se_text e = Some (line ++ tail) -> se_offset e = Some o -> 1 <= o ->
  one_line line -> Forall (fun c => c = 13 \/ c = 10) tail ->
  exists s shown marks, summary_of e s /\ points_at shown marks line o
    /\ (~ In NL source -> user_syntax_error e source = Ok (s ++ [NL] ++ shown ++ [NL] ++ marks))
    /\ (In NL source -> exists block, shows block source
          /\ user_syntax_error e source = Ok (s ++ [NL; NL] ++ TX "Source:" ++ [NL] ++ block ++ [NL; NL] ++ TX "Location:" ++ [NL] ++ shown ++ [NL] ++ marks)).
Proof.
  intros e source line tail o Ht Ho H1 Hl HT. destruct (located line o Hl) as [E P].
  exists (TX "Failed to parse Python-like source code (" ++ reason e ++ TX ")."), (TX "    " ++ line), (TX "    " ++ spaces (o - 1) ++ TX "^").
  split; [apply has_summary|]. split; [auto|]. unfold user_syntax_error. rewrite Ht, Ho, (rstrip_line _ _ Hl HT). cbn [join]. rewrite E.
  split.
  - intros N. rewrite (no_newline _ N). first [reflexivity|f_equal; rewrite <- ?app_assoc; reflexivity].
  - intros N. rewrite (newline _ N). exists (indent source). split; [apply indent_shows|]. first [reflexivity|f_equal; rewrite <- ?app_assoc; reflexivity].
Qed.
Print Assumptions C82_location_partial.

(** FINDING: [splitlines] also breaks lines where Python does not, for example at a
    form feed.  What follows it is moved to the right, and the caret points to the
    wrong place. *)
Theorem C82_form_feed_refuted : exists e line o,
  se_text e = Some line /\ se_offset e = Some o /\ 1 <= o <= tlen line /\ ~ In NL line /\ ~ In 13 line
  /\ forall s shown marks, ~ In NL s -> ~ In NL shown -> ~ In NL marks ->
       user_syntax_error e line = Ok (s ++ [NL] ++ shown ++ [NL] ++ marks) -> ~ points_at shown marks line o.
Proof.
  exists (SyntaxErr None (Some (TX "a" ++ [12] ++ TX "b c")) (Some 5)), (TX "a" ++ [12] ++ TX "b c"), 5.
  split; [reflexivity|]. split; [reflexivity|]. split; [vm_compute; split; discriminate|].
  split; [vm_compute; intuition discriminate|]. split; [vm_compute; intuition discriminate|].
  intros s shown marks H1 H2 H3 E (i & _ & _ & _ & P & _).
  assert (K : forall (a b a' b' : text), ~ In NL a -> ~ In NL a' -> a ++ [NL] ++ b = a' ++ [NL] ++ b' -> a = a' /\ b = b').
  { clear. induction a as [|c a IH]; intros b a' b' Ha Ha' E; destruct a' as [|c' a']; cbn in E.
    - injection E as ->. auto.
    - injection E as <- _. elim Ha'. now left.
    - injection E as -> _. elim Ha. now left.
    - injection E as -> E. apply IH in E as [-> ->]; [auto|intros X; apply Ha; now right|intros X; apply Ha'; now right]. }
  assert (E' : user_syntax_error (SyntaxErr None (Some (TX "a" ++ [12] ++ TX "b c")) (Some 5)) (TX "a" ++ [12] ++ TX "b c")
    = Ok (TX "Failed to parse Python-like source code (<unknown reason>)." ++ [NL] ++ (TX "    a" ++ [12] ++ TX "    b c") ++ [NL] ++ TX "        ^")) by (vm_compute; reflexivity).
  rewrite E' in E. injection E as E. change (TX "Failed to parse Python-like source code (<unknown reason>)." ++ [NL] ++ (TX "    a" ++ [12] ++ TX "    b c") ++ [NL] ++ TX "        ^" = s ++ [NL] ++ shown ++ [NL] ++ marks) in E.
  apply K in E as [_ E]; [|vm_compute; intuition discriminate|exact H1]. apply K in E as [E _]; [|vm_compute; intuition discriminate|exact H2].
  rewrite <- E in P. apply (f_equal (@length Z)) in P. vm_compute in P. discriminate P.
Qed.
Print Assumptions C82_form_feed_refuted.

Example C82_nonvacuous :
  user_syntax_error (SyntaxErr (Some (TX "invalid syntax")) (Some (TX "a b" ++ [NL])) (Some 3)) (TX "a b")
  = Ok (TX "Failed to parse Python-like source code (invalid syntax)." ++ [NL] ++ TX "    a b" ++ [NL] ++ TX "      ^")
  /\ user_syntax_error (SyntaxErr (Some (TX "invalid syntax")) (Some (TX "a b")) (Some 3)) (TX "xyz" ++ [NL] ++ TX "a b")
  = Ok (TX "Failed to parse Python-like source code (invalid syntax)." ++ [NL; NL] ++ TX "Source:" ++ [NL] ++ TX "    xyz" ++ [NL] ++ TX "    a b" ++ [NL; NL]
        ++ TX "Location:" ++ [NL] ++ TX "    a b" ++ [NL] ++ TX "      ^")
  /\ points_at (TX "    a b") (TX "      ^") (TX "a b") 3 /\ ~ points_at (TX "    a b") (TX "     ^") (TX "a b") 3.
Proof.
  split; [vm_compute; reflexivity|]. split; [vm_compute; reflexivity|]. split.
  - exists 6%nat. split; [reflexivity|]. split; [|repeat split; vm_compute; reflexivity]. intros j Hj. do 6 (destruct j as [|j]; [reflexivity|]). lia.
  - intros (i & H1 & _ & H3 & _ & H5). cbn in H5. assert (i = 5%nat) as -> by lia. vm_compute in H3. discriminate H3.
Qed.
