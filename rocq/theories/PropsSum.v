(** C89: the documented example of a matcher of one's own. *)
From Verif Require Import Py PyFacts Ast Template FromDiff Matcher MatchSpec FindSpec NavSpec NavProofs SampleTrees
  SumMatcher SumSpec SumProofs.
From Coq Require Import Permutation.

(** Python's [str(sum(..))] of integers; [decimal] is how an integer is written. *)
Definition adds_integers (str_sum : list value -> res text) (decimal : Z -> text) : Prop :=
  forall vs ns, Forall2 int_value vs ns -> str_sum vs = Ok (decimal (total ns)).

(** A sum of two integers or more matches and binds [$sum] to the total; one
    integer alone does not match. *)
Theorem C89_sums : forall str_sum decimal e v ns s,
  adds_integers str_sum decimal -> sum_of v ns ->
  sum_matcher str_sum e v s =
    (s, Ok (if (2 <=? length ns)%nat
            then Some (RInfo (create_match (e_parsed e) v)
                         (Some [(TX "sum", Bound (PString (decimal (total ns))) MERGE KEEP_LAST)]) [])
            else None)).
Proof.
  intros str_sum decimal e v ns s Ha Hv. unfold sum_matcher.
  assert (Hn : is_node v = true) by (destruct Hv; reflexivity). rewrite Hn. cbn [negb].
  destruct (collect_sum (vsize v) [v] [ns]) as (vs & ms & Hc & Hi & Hp).
  - cbn [sizes]. lia.
  - constructor; [now apply SM_sum | constructor].
  - unfold ast_walk. rewrite Hc. cbn [concat] in Hp. rewrite app_nil_r in Hp.
    pose proof (Forall2_len _ _ _ Hi) as Hl. rewrite <- (Permutation_length Hp) in Hl.
    rewrite (total_perm _ _ Hp). rewrite Hl. destruct (length ns) as [|[|k] ]; [reflexivity..|]. cbn [Nat.leb].
    unfold mbind, lift. rewrite (Ha _ _ Hi). reflexivity.
Qed.
Print Assumptions C89_sums.
(** Nothing but sums matches: every node of what is matched is a constant, a binary
    operation or the operator [+] ... *)
Theorem C89_only_sums : forall str_sum e v s s' r,
  sum_matcher str_sum e v s = (s', Ok (Some r)) -> is_node v = true /\ forall x, node_of v x -> part_of_sum x.
Proof.
  intros str_sum e v s s' r H. unfold sum_matcher in H. destruct (is_node v) eqn:Hn; [|discriminate H]. split; [reflexivity|].
  cbn [negb] in H. destruct (collect_values (ast_walk v)) as [vs|] eqn:Hc; [|discriminate H].
  assert (Hall : Forall part_of_sum (ast_walk v)) by (apply collect_In; now exists vs).
  intros x Hx. rewrite Forall_forall in Hall. apply Hall. apply walk_In; [cbn [sizes]; lia|]. exists v. split; [now left | assumption].
Qed.
Print Assumptions C89_only_sums.
(** ... and whatever has another node in it is passed over, without an error. *)
Theorem C89_others : forall str_sum e v s,
  (exists x, node_of v x /\ ~ part_of_sum x) -> sum_matcher str_sum e v s = (s, Ok None).
Proof.
  intros str_sum e v s (x & Hx & Hn). unfold sum_matcher. destruct (is_node v) eqn:Ev; [|reflexivity]. cbn [negb].
  destruct (collect_values (ast_walk v)) as [vs|] eqn:Hc; [|reflexivity]. exfalso. apply Hn.
  assert (Hall : Forall part_of_sum (ast_walk v)) by (apply collect_In; now exists vs).
  rewrite Forall_forall in Hall. apply Hall. apply walk_In; [cbn [sizes]; lia|]. exists v. split; [now left | assumption].
Qed.
Print Assumptions C89_others.

(** Replaced by [$sum], it becomes the total. *)
Theorem C89_replaced_by_total : forall str_sum decimal e v ns s s' r parsed m,
  adds_integers str_sum decimal -> sum_of v ns -> sum_matcher str_sum e v s = (s', Ok (Some r)) ->
  t_substitute (sh_template (TX "$sum")) parsed m (map (fun kb => (fst kb, b_value (snd kb))) (bindings_of r))
  = Ok (decimal (total ns)).
Proof.
  intros str_sum decimal e v ns s s' r parsed m Ha Hv H. rewrite (C89_sums _ _ _ _ _ s Ha Hv) in H.
  destruct (2 <=? length ns)%nat; [|discriminate H]. injection H as <- <-. cbn [bindings_of map fst snd b_value].
  generalize (decimal (total ns)). intros d. transitivity (Ok (d ++ [])); [vm_compute; reflexivity | now rewrite app_nil_r].
Qed.
Print Assumptions C89_replaced_by_total.

(** Constants and [+]. *)
Definition sum_const (id : Z) (c : const) : value :=
  VNode (NI id (TX "Constant") None None None) [(TX "value", VConst (id + 1) c); (TX "kind", VNone)].
Definition sum_plus (id : Z) (l r : value) : value :=
  VNode (NI id (TX "BinOp") None None None)
    [(TX "left", l); (TX "op", VNode (NI (id + 1) (TX "Add") None None None) []); (TX "right", r)].
(** [1 + 2 + 3] *)
Definition one_two_three : value :=
  sum_plus 10 (sum_plus 20 (sum_const 30 (CNum KInt 2)) (sum_const 40 (CNum KInt 4))) (sum_const 50 (CNum KInt 6)).
(** How Python adds what the examples need: integers; a text cannot be added to 0. *)
Definition sample_sum (decimal : Z -> text) (vs : list value) : res text :=
  (fix go (vs : list value) (n : Z) : res text :=
     match vs with
     | [] => Ok (decimal n)
     | VConst _ (CNum KInt k) :: rest => go rest (n + k / 2)
     | _ => Err TypeError
     end) vs 0.
Lemma sample_sum_adds decimal : adds_integers (sample_sum decimal) decimal.
Proof.
  intros vs ns H. unfold sample_sum.
  enough (G : forall k, (fix go (vs : list value) (n : Z) : res text :=
     match vs with
     | [] => Ok (decimal n)
     | VConst _ (CNum KInt k) :: rest => go rest (n + k / 2)
     | _ => Err TypeError
     end) vs k = Ok (decimal (k + total ns))) by (rewrite G; reflexivity).
  induction H as [|x n vs ns [id ->] H IH]; intros k; [cbn; f_equal; f_equal; lia|].
  rewrite IH. f_equal. f_equal. cbn [total fold_right]. fold (total ns).
  replace (2 * n) with (n * 2) by lia. rewrite Z.div_mul by lia. lia.
Qed.
(** FINDING: constants that are no numbers are taken for parts of a sum as well;
    adding them raises, and the search of the whole file ends: ['a' + 'b']. *)
Theorem C89_texts_raise : forall decimal e s,
  sum_matcher (sample_sum decimal) e (sum_plus 10 (sum_const 20 (CStr (TX "a"))) (sum_const 30 (CStr (TX "b")))) s
  = (s, Err TypeError).
Proof. reflexivity. Qed.
Print Assumptions C89_texts_raise.

Example C89_nonvacuous :
  adds_integers (sample_sum (fun n => [n])) (fun n => [n])
  /\ sum_of one_two_three [1; 2; 3]
  /\ (exists r, sum_matcher (sample_sum (fun n => [n])) s_env one_two_three [] = ([], Ok (Some r))
        /\ bindings_of r = [(TX "sum", Bound (PString [6]) MERGE KEEP_LAST)])
  /\ sum_matcher (sample_sum (fun n => [n])) s_env (sum_const 1 (CNum KInt 14)) [] = ([], Ok None)
  /\ (node_of s_call s_f /\ ~ part_of_sum s_f).
Proof.
  split; [apply sample_sum_adds|]. split.
  - change [1; 2; 3] with (([1] ++ [2]) ++ [3]).
    assert (C : forall id n, sum_of (sum_const id (CNum KInt (2 * n))) [n]).
    { intros id n. eapply SO_int; [reflexivity | reflexivity | now eexists|].
      intros f y [H|[H|[] ] ]; injection H as <- <-; now eexists _, _. }
    apply SO_plus; [reflexivity..| |exact (C 50 3)]. apply SO_plus; [reflexivity..|exact (C 30 1)|exact (C 40 2)].
  - split; [eexists; split; reflexivity|]. split; [reflexivity|]. split.
    + eapply NO_field; [left; reflexivity | reflexivity | constructor].
    + intros [H|[H|[H|[] ] ] ]; discriminate H.
Qed.
