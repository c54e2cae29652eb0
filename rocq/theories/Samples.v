(** Helpers for the non-vacuity examples placed beside the theorems. *)
From Verif Require Import Py PyFacts Subst ApplySpec.

Definition mksub (spans : dict span) (reps : dict text) : substitution :=
  Sub spans (match spans with (l, _) :: _ => l | [] => [] end) (Some reps) None None true None None.

Fixpoint nodupb (l : list text) : bool :=
  match l with [] => true | x :: r => negb (tmem x r) && nodupb r end.
Lemma nodupb_ok l : nodupb l = true -> NoDup l.
Proof.
  induction l as [|x l IH]; cbn; intro H; constructor; apply andb_true_iff in H; destruct H as [H1 H2].
  - rewrite <- tmem_In. destruct (tmem x l); [discriminate|congruence].
  - auto.
Qed.
Definition wf_subb (s : substitution) : bool :=
  nodupb (dkeys (matched_spans s))
  && match replacements s with Some r => nodupb (dkeys r) | None => true end
  && match validate s with Ok _ => true | Err _ => false end.
Lemma wf_subb_ok s : wf_subb s = true -> wf_sub s.
Proof.
  unfold wf_subb, wf_sub. intro H. apply andb_true_iff in H. destruct H as [H H3].
  apply andb_true_iff in H. destruct H as [H1 H2]. split; [now apply nodupb_ok|]. split.
  - intros r E. rewrite E in H2. now apply nodupb_ok.
  - destruct (validate s) as [[]|]; [reflexivity|discriminate].
Qed.
Definition nonnegb (s : substitution) : bool :=
  forallb (fun kv : label * span => 0 <=? fst (snd kv)) (matched_spans s).
Lemma nonnegb_ok s : nonnegb s = true -> nonneg_spans s.
Proof.
  unfold nonnegb, nonneg_spans. rewrite forallb_forall, Forall_forall.
  intros H x Hx. apply Z.leb_le. auto.
Qed.
Lemma all_wf l : forallb wf_subb l = true -> Forall wf_sub l.
Proof. rewrite forallb_forall, Forall_forall. intros H x Hx. apply wf_subb_ok. auto. Qed.
Lemma all_nonneg l : forallb nonnegb l = true -> Forall nonneg_spans l.
Proof. rewrite forallb_forall, Forall_forall. intros H x Hx. apply nonnegb_ok. auto. Qed.

(** "foo(bar, baz)": swap the two arguments, and separately rename foo. *)
Definition sample_text : text := TX "foo(bar, baz)".
Definition sample_swap : substitution :=
  mksub [(TX "__root", (0, 13)); (TX "a", (4, 7)); (TX "b", (9, 12))]
        [(TX "a", TX "baz"); (TX "b", TX "bar")].
Definition sample_rename : substitution :=
  mksub [(TX "f", (0, 3))] [(TX "f", TX "quux")].
(** A match without replacements. *)
Definition sample_match : substitution := mksub [(TX "__root", (4, 7))] [].
