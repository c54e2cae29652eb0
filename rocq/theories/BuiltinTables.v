(** The expressions in the tables of the built-in fixers, and what they do: proofs. *)
From Verif Require Import Py PyFacts Ast Template FromDiff Matcher PatTok PatSpec Pattern PatternSpec PyCode BuiltinSpec CodeProofs BuiltinFixers BuiltinProofs.

Lemma alias_written : Forall2 (fun x oc => written (fst (fst x)) (snd (fst x)) oc) alias_entries alias_codes.
Proof. repeat (constructor; [split; reflexivity|]). constructor. Qed.
Lemma message_written : Forall2 (fun x oc => written (fst (fst (fst x))) (snd (fst (fst x))) oc) message_entries message_codes.
Proof. repeat (constructor; [split; reflexivity|]). constructor. Qed.
Lemma negation_written : Forall2 (fun x oc => written (fst (fst x)) (snd (fst x)) oc) negation_entries negation_codes.
Proof. repeat (constructor; [split; reflexivity|]). constructor. Qed.
Lemma comprehension_written : Forall2 (fun x oc => written (fst (fst x)) (snd (fst x)) oc) comprehension_entries comprehension_codes.
Proof. repeat (constructor; [split; reflexivity|]). constructor. Qed.

(** *** Their texts *)
Ltac lexed_tac :=
  constructor;
  [ vm_compute; reflexivity | vm_compute; reflexivity | vm_compute; reflexivity | vm_compute; reflexivity | vm_compute; reflexivity
  | vm_compute; reflexivity | intros f; vm_compute; rewrite <- ?app_assoc; reflexivity | vm_compute; reflexivity
  | do 2 eexists; split; [reflexivity|]; let E := fresh in intros ? ? E; unfold is_ctx, isinst; cbn [vtype]; rewrite E; vm_compute; reflexivity ].
Lemma alias_lexed : Forall (fun oc => lexed (fst oc) /\ lexed (snd oc)) alias_codes.
Proof. repeat (apply Forall_cons; [split; cbn [fst snd]; lexed_tac|]). constructor. Qed.
Lemma message_lexed : Forall (fun oc => lexed (fst oc) /\ lexed (snd oc)) message_codes.
Proof. repeat (apply Forall_cons; [split; cbn [fst snd]; lexed_tac|]). constructor. Qed.
Lemma negation_lexed : Forall (fun oc => lexed (fst oc) /\ lexed (snd oc)) negation_codes.
Proof. repeat (apply Forall_cons; [split; cbn [fst snd]; lexed_tac|]). constructor. Qed.
Lemma comprehension_lexed : Forall (fun oc => lexed (fst oc) /\ lexed (snd oc)) comprehension_codes.
Proof. repeat (apply Forall_cons; [split; cbn [fst snd]; lexed_tac|]). constructor. Qed.

(** Every variable once, and none that is new. *)
Definition single (oc : code label * code label) : Prop :=
  NoDup (left_open (fst oc)) /\ NoDup (left_open (snd oc)) /\ incl (left_open (snd oc)) (left_open (fst oc)).
Ltac nodup_tac := repeat (constructor; [cbn; intuition discriminate|]); constructor.
Lemma alias_single : Forall single alias_codes.
Proof. repeat (apply Forall_cons; [split; [nodup_tac|split; [nodup_tac|intros x Hx; exact Hx]]|]). constructor. Qed.
Lemma message_single : Forall single message_codes.
Proof. repeat (apply Forall_cons; [split; [nodup_tac|split; [nodup_tac|intros x Hx; exact Hx]]|]). constructor. Qed.
Lemma negation_single : Forall single negation_codes.
Proof. repeat (apply Forall_cons; [split; [nodup_tac|split; [nodup_tac|intros x Hx; exact Hx]]|]). constructor. Qed.

(** *** What they do *)
Lemma call_args f args v : made_of (Call f args) v -> exists ws, Forall2 made_of args ws /\ made_of (Call f (map Var ws)) v.
Proof.
  intros H. inversion H as [| | | |? ? i gs Ht K]; subst. inversion K as [|? [n1 v1] ? ? [N1 S1] K1]; subst. inversion K1 as [|? [n2 v2] ? ? [N2 S2] K2]; subst.
  inversion K2 as [|? [n3 v3] ? ? [N3 S3] K3]; subst. inversion K3; subst. cbn [fst snd] in *. subst.
  inversion S2 as [| | |? id m F|]; subst. exists m. split.
  - clear - F. remember (map tree_of args) as l eqn:E. revert args E. induction F as [|x y l m S F IH]; intros [|a args] E; try discriminate E; constructor.
    + injection E as E _. subst x. exact S.
    + apply IH. now injection E.
  - apply ST_node; [exact Ht|]. constructor; [split; [reflexivity|exact S1]|]. constructor.
    + split; [reflexivity|]. apply ST_list. clear. induction m as [|x m IH]; constructor; [now apply ST_var|exact IH].
    + constructor; [split; [reflexivity|exact S3]|]. constructor.
Qed.
Lemma not_arg a v : made_of (Not a) v -> exists w, made_of a w /\ made_of (Not (Var w)) v.
Proof.
  intros H. inversion H as [| | | |? ? i gs Ht K]; subst. inversion K as [|? [n1 v1] ? ? [N1 S1] K1]; subst. inversion K1 as [|? [n2 v2] ? ? [N2 S2] K2]; subst.
  inversion K2; subst. cbn [fst snd] in *. subst. exists v2. split; [exact S2|]. apply ST_node; [exact Ht|].
  constructor; [split; [reflexivity|exact S1]|]. constructor; [split; [reflexivity|now apply ST_var]|]. constructor.
Qed.
Lemma var_is w v : made_of (Var w) v -> v = w.
Proof. intros H. now inversion H. Qed.
Lemma one_arg f a v : made_of (Call f [a]) v -> exists w, made_of a w /\ made_of (Call f [Var w]) v.
Proof. intros H. apply call_args in H as (ws & F & H). inversion F as [|? w ? ? A F1]; subst. inversion F1; subst. exists w. auto. Qed.

Section Meaning.
  Context {St Exn Val : Type} (P : python St Exn Val).
  Hypothesis L : laws P.

  Lemma run_one m check b w a v : In (m, check) (documented P) -> made_of (Call (Attr (Name (TX "self")) m) [Var w]) v ->
    (forall x, check [x] = Some (b x)) -> same (exec P w) a ->
    same (exec P v) (next a (fun x => next (b x) (fun t => if t : bool then done (none_val P) else raise (assertion_error P m [x])))).
  Proof.
    intros Hd Hv Hc Hw s. rewrite (law_method P L m [w] v (in_map fst _ _ Hd) Hv s). cbn [in_turn]. unfold next at 1 2 3 4. unfold done at 1 2. rewrite Hw.
    destruct (a s) as [[x|x] s']; [|reflexivity]. exact (law_assertion P L m check [x] (b x) Hd (Hc x) s').
  Qed.
  Lemma run_two m check b w1 a1 w2 a2 v : In (m, check) (documented P) -> made_of (Call (Attr (Name (TX "self")) m) [Var w1; Var w2]) v ->
    (forall x y, check [x; y] = Some (b x y)) -> same (exec P w1) a1 -> same (exec P w2) a2 ->
    same (exec P v) (next a1 (fun x => next a2 (fun y => next (b x y) (fun t => if t : bool then done (none_val P) else raise (assertion_error P m [x; y]))))).
  Proof.
    intros Hd Hv Hc H1 H2 s. rewrite (law_method P L m [w1; w2] v (in_map fst _ _ Hd) Hv s). cbn [in_turn]. unfold next at 1 2 3 4 5 6 7. unfold done at 1 2 3. rewrite H1.
    destruct (a1 s) as [[x|x] s']; [|reflexivity]. rewrite H2. destruct (a2 s') as [[y|y] s'']; [|reflexivity].
    exact (law_assertion P L m check [x; y] (b x y) Hd (Hc x y) s'').
  Qed.

  (** Two assertions that check the same. *)
  Definition outcome_of (m : text) (xs : list Val) (t : bool) : act St Exn Val := if t then done (none_val P) else raise (assertion_error P m xs).
  Lemma same_checks (X Y : Type) (a : act St Exn X) (a' : act St Exn Y) (b : X -> act St Exn bool) (b' : Y -> act St Exn bool) m m' xs xs' v v' :
    same (exec P v) (next a (fun x => next (b x) (outcome_of m (xs x)))) ->
    same (exec P v') (next a' (fun x => next (b' x) (outcome_of m' (xs' x)))) ->
    same (next a b) (next a' b') -> same_behaviour P v v'.
  Proof.
    intros H1 H2 H3 s. rewrite H1, H2. specialize (H3 s). unfold next in *.
    assert (K : forall t t' s1 s2, (inl t, s1) = (inl t', s2) :> (bool + Exn) * St -> forall xs xs',
      snd (outcome_of m xs t s1) = snd (outcome_of m' xs' t' s2) /\ same_outcome P (fst (outcome_of m xs t s1)) (fst (outcome_of m' xs' t' s2))).
    { intros t t' s1 s2 E ys ys'. pose proof (f_equal fst E) as E1. pose proof (f_equal snd E) as E2. cbn in E1, E2. injection E1 as <-. subst s2.
      destruct t; cbn; (split; [reflexivity|]); [now left|]. right. eauto 10. }
    destruct (a s) as [[x|x] s1], (a' s) as [[y|y] s2].
    - destruct (b x s1) as [[t|t] s3], (b' y s2) as [[t'|t'] s4]; try discriminate H3; [now apply K|].
      pose proof (f_equal fst H3) as E1; pose proof (f_equal snd H3) as E2; cbn in E1, E2; injection E1 as ->; subst; split; [reflexivity|now left].
    - destruct (b x s1) as [[t|t] s3]; try discriminate H3.
      pose proof (f_equal fst H3) as E1; pose proof (f_equal snd H3) as E2; cbn in E1, E2; injection E1 as ->; subst; split; [reflexivity|now left].
    - destruct (b' y s2) as [[t|t] s3]; try discriminate H3.
      pose proof (f_equal fst H3) as E1; pose proof (f_equal snd H3) as E2; cbn in E1, E2; injection E1 as <-; subst; split; [reflexivity|now left].
    - pose proof (f_equal fst H3) as E1; pose proof (f_equal snd H3) as E2; cbn in E1, E2; injection E1 as ->; subst; split; [reflexivity|now left].
  Qed.
End Meaning.

(** For assertions with one argument, replaced by ones with two. *)
Definition in_order {St Exn Val} (P : python St Exn Val) (l r : value) : act St Exn (Val * Val) :=
  next (exec P l) (fun x => next (exec P r) (fun y => done (x, y))).
Lemma assertion_meaning m m' arg check check' :
  (forall St Exn Val (P : python St Exn Val), laws P ->
     exists b b', In (m, check St Exn Val P) (documented P) /\ In (m', check' St Exn Val P) (documented P)
       /\ (forall x, check St Exn Val P [x] = Some (b x)) /\ (forall x y, check' St Exn Val P [x; y] = Some (b' x y))
       /\ forall parts w, made_of (fill parts arg) w ->
          same (next (exec P w) b) (next (exec P (parts (TX "lhs"))) (fun x => next (exec P (parts (TX "rhs"))) (fun y => b' x y)))) ->
  same_meaning (self_call m [arg], self_call m' [lhs; rhs]).
Proof.
  intros H parts parts' c c1 Hc Hc1 St Exn Val P L Hp. destruct (H St Exn Val P L) as (b & b' & D1 & D2 & K1 & K2 & H').
  cbn [fst snd] in Hc, Hc1, Hp. cbn in Hc. apply one_arg in Hc as (w & Hw & Hc).
  pose proof (run_one P L m (check St Exn Val P) b w (exec P w) c D1 Hc K1 (fun s => eq_refl)) as R1.
  pose proof (run_two P L m' (check' St Exn Val P) b' (parts' (TX "lhs")) (exec P (parts (TX "lhs"))) (parts' (TX "rhs")) (exec P (parts (TX "rhs"))) c1 D2 Hc1 K2) as R2.
  assert (R3 : same (exec P c1) (next (in_order P (parts (TX "lhs")) (parts (TX "rhs"))) (fun xy => next (b' (fst xy) (snd xy)) (outcome_of P m' [fst xy; snd xy])))).
  { intros s. rewrite R2.
    - unfold in_order, next, done. destruct (exec P (parts (TX "lhs")) s) as [[x|x] s1]; [|reflexivity].
      destruct (exec P (parts (TX "rhs")) s1) as [[y|y] s2]; reflexivity.
    - intros s0. symmetry. apply Hp. cbn. auto.
    - intros s0. symmetry. apply Hp. cbn. auto. }
  apply (same_checks P Val (Val * Val) (exec P w) (in_order P (parts (TX "lhs")) (parts (TX "rhs"))) b (fun xy => b' (fst xy) (snd xy)) m m' (fun x => [x]) (fun xy => [fst xy; snd xy])).
  - exact R1.
  - exact R3.
  - intros s. rewrite (H' parts w Hw s). unfold in_order, next, done. destruct (exec P (parts (TX "lhs")) s) as [[x|x] s1]; [|reflexivity].
    destruct (exec P (parts (TX "rhs")) s1) as [[y|y] s2]; reflexivity.
Qed.

Definition one {Val X} (f : Val -> X) (xs : list Val) : option X := match xs with [x] => Some (f x) | _ => None end.
Definition two {Val X} (f : Val -> Val -> X) (xs : list Val) : option X := match xs with [x; y] => Some (f x y) | _ => None end.
Ltac in_table := unfold documented; repeat (first [left; reflexivity | right]).
Ltac step := match goal with |- context [match ?z with (_, _) => _ end] => lazymatch z with context [match _ with (_, _) => _ end] => fail | _ => destruct z as [[?|?] ?]; try reflexivity end end.
Ltac unroll := unfold holds, negate, next, done; repeat step.

Lemma true_compare op m' : (forall St Exn Val (P : python St Exn Val), In (m', two (holds P op)) (documented P)) ->
  same_meaning (self_call (TX "assertTrue") [Compare op lhs rhs], self_call m' [lhs; rhs]).
Proof.
  intros Hd. apply (assertion_meaning (TX "assertTrue") m' (Compare op lhs rhs) (fun _ _ _ P => one (truth P)) (fun _ _ _ P => two (holds P op))).
  intros St Exn Val P L. exists (truth P), (holds P op). split; [in_table|]. split; [apply Hd|]. split; [reflexivity|]. split; [reflexivity|].
  intros parts w Hw s. pose proof (law_compare P L op _ _ w Hw s) as E. unfold next at 1. rewrite E. unroll.
Qed.
(** The opposite. *)
Definition opposite {St Exn Val} (P : python St Exn Val) (op op' : cmp) : Prop := forall x y, same (holds P op' x y) (negate (holds P op x y)).
Lemma is_not_opposite {St Exn Val} (P : python St Exn Val) : laws P -> opposite P Is IsNot.
Proof. intros L x y s. unfold holds at 1, negate. unfold next at 1 2. rewrite (law_is_not P L x y s). unroll. apply (law_bool P L). Qed.
Lemma not_in_opposite {St Exn Val} (P : python St Exn Val) : laws P -> opposite P In_ NotIn.
Proof. intros L x y s. unfold holds at 1, negate. unfold next at 1 2. rewrite (law_not_in P L x y s). unroll. apply (law_bool P L). Qed.
Lemma opposite_sym {St Exn Val} (P : python St Exn Val) op op' : opposite P op op' -> opposite P op' op.
Proof.
  intros H x y s. unfold negate, next. rewrite (H x y s). unfold negate, next, done.
  destruct (holds P op x y s) as [[t|t] s1]; [now destruct t|reflexivity].
Qed.
Lemma false_compare op op' m' : (forall St Exn Val (P : python St Exn Val), In (m', two (holds P op')) (documented P)) ->
  (forall St Exn Val (P : python St Exn Val), laws P -> opposite P op op') ->
  same_meaning (self_call (TX "assertFalse") [Compare op lhs rhs], self_call m' [lhs; rhs]).
Proof.
  intros Hd Ho. apply (assertion_meaning (TX "assertFalse") m' (Compare op lhs rhs) (fun _ _ _ P => one (fun x => negate (truth P x))) (fun _ _ _ P => two (holds P op'))).
  intros St Exn Val P L. exists (fun x => negate (truth P x)), (holds P op'). split; [in_table|]. split; [apply Hd|]. split; [reflexivity|]. split; [reflexivity|].
  intros parts w Hw s. pose proof (law_compare P L op _ _ w Hw s) as E. unfold next at 1. rewrite E. unfold next at 1 2 3 4.
  destruct (exec P (parts (TX "lhs")) s) as [[x|x] s1]; [|reflexivity]. destruct (exec P (parts (TX "rhs")) s1) as [[y|y] s2]; [|reflexivity].
  rewrite (Ho St Exn Val P L x y s2). unroll.
Qed.
Lemma instance_meaning (t : bool) (n : bool) m' :
  (forall St Exn Val (P : python St Exn Val),
     In (m', two (fun x y => let a := next (is_instance P x y) (truth P) in if xorb t n then a else negate a)) (documented P)) ->
  same_meaning (self_call (if t then TX "assertTrue" else TX "assertFalse") [if n then Not isinstance_ else isinstance_], self_call m' [lhs; rhs]).
Proof.
  intros Hd.
  apply (assertion_meaning (if t then TX "assertTrue" else TX "assertFalse") m' (if n then Not isinstance_ else isinstance_)
    (fun _ _ _ P => one (fun x => if t then truth P x else negate (truth P x)))
    (fun _ _ _ P => two (fun x y => let a := next (is_instance P x y) (truth P) in if xorb t n then a else negate a))).
  intros St Exn Val P L. exists (fun x => if t then truth P x else negate (truth P x)), (fun x y => let a := next (is_instance P x y) (truth P) in if xorb t n then a else negate a).
  split; [destruct t; in_table|]. split; [apply Hd|]. split; [reflexivity|]. split; [reflexivity|].
  intros parts w Hw s.
  assert (Ei : forall w, made_of (fill parts isinstance_) w -> same (exec P w) (next (exec P (parts (TX "lhs"))) (fun x => next (exec P (parts (TX "rhs"))) (fun y => is_instance P x y)))).
  { intros w0 H0. apply (law_isinstance P L). exact H0. }
  destruct n.
  - cbn [fill] in Hw. apply not_arg in Hw as (w0 & H0 & Hw). pose proof (law_not P L _ _ Hw) as En.
    destruct t; cbn [xorb]; unfold negate, next at 1; rewrite (En s); unfold next at 1 2; rewrite (Ei w0 H0 s); unfold next, done; repeat (step; rewrite ?(law_bool P L); unfold done).
    + reflexivity.
    + now rewrite Bool.negb_involutive.
  - destruct t; cbn [xorb]; unfold negate, next at 1; rewrite (Ei w Hw s); unroll.
Qed.
Lemma empty_meaning : same_meaning (self_call (TX "assertLen") [Var (TX "x"); Int 0], self_call (TX "assertEmpty") [Var (TX "x")]).
Proof.
  intros parts parts' c c1 Hc Hc1 St Exn Val P L Hp. cbn in Hc, Hc1.
  change (made_of (Call (Attr (Name (TX "self")) (TX "assertLen")) [Var (parts (TX "x")); Int 0]) c) in Hc.
  apply call_args in Hc as (ws & F & Hc). inversion F as [|? w ? ? A F1]; subst. inversion F1 as [|? z ? ? B F2]; subst. inversion F2; subst. clear F F1 F2.
  apply var_is in A. subst w. destruct (law_int P L 0 z B) as (n & E1 & E2).
  set (x := TX "x") in *.
  assert (R1 : same (exec P c) (next (exec P (parts x)) (fun v => next (next (size P v) (fun k => holds P Eq (int_val P k) n)) (outcome_of P (TX "assertLen") [v; n])))).
  { intros s. rewrite (run_two P L (TX "assertLen") (two (fun x y => next (size P x) (fun n => holds P Eq (int_val P n) y)))
      (fun x y => next (size P x) (fun n => holds P Eq (int_val P n) y)) (parts x) (exec P (parts x)) z (done n) c); try assumption; try reflexivity.
    - in_table.
    - intros s0. reflexivity. }
  assert (R2 : same (exec P c1) (next (exec P (parts x)) (fun v => next (next (size P v) (fun k => holds P Eq (int_val P k) (int_val P 0))) (outcome_of P (TX "assertEmpty") [v])))).
  { apply (run_one P L (TX "assertEmpty") (one (fun x => next (size P x) (fun n => holds P Eq (int_val P n) (int_val P 0))))
      (fun x => next (size P x) (fun n => holds P Eq (int_val P n) (int_val P 0))) (parts' x) (exec P (parts x)) c1); try assumption; try reflexivity.
    - in_table.
    - intros s0. symmetry. apply Hp. cbn. auto. }
  eapply (same_checks P Val Val (exec P (parts x)) (exec P (parts x)) _ _ _ _ (fun v => [v; n]) (fun v => [v])); [exact R1|exact R2|].
  intros s. unfold next. destruct (exec P (parts x) s) as [[v|v] s1]; [|reflexivity]. destruct (size P v s1) as [[k|k] s2]; [|reflexivity]. apply E2.
Qed.

Lemma alias_meaning : Forall same_meaning alias_codes.
Proof.
  apply Forall_cons; [|constructor]. intros parts parts' c c1 Hc Hc1 St Exn Val P L Hp s.
  rewrite (law_items_equal P L c c1 Hc Hc1 s). split; [reflexivity|now left].
Qed.
Lemma message_meaning : Forall same_meaning message_codes.
Proof.
  unfold message_codes.
  repeat (apply Forall_cons; [first
    [ apply true_compare; intros; in_table
    | eapply false_compare; [intros; in_table|intros St Exn Val P L; first [now apply is_not_opposite|now apply not_in_opposite|now apply opposite_sym, is_not_opposite|now apply opposite_sym, not_in_opposite]]
    | apply (instance_meaning true false); intros; in_table
    | apply (instance_meaning true true); intros; in_table
    | apply (instance_meaning false false); intros; in_table
    | apply (instance_meaning false true); intros; in_table
    | exact empty_meaning ]|]).
  constructor.
Qed.
Lemma negation_meaning : Forall same_meaning negation_codes.
Proof.
  assert (K : forall op op' (H : forall St Exn Val (P : python St Exn Val), laws P -> forall x y, same (compare P op' x y) (next (holds P op x y) (fun b => done (bool_val P (negb b))))),
    same_meaning (Not (Compare op (Var (TX "a")) (Var (TX "b"))), Compare op' (Var (TX "a")) (Var (TX "b")))).
  { intros op op' H parts parts' c c1 Hc Hc1 St Exn Val P L Hp. cbn [fst snd fill] in Hc, Hc1.
    apply not_arg in Hc as (w & Hw & Hc). intros s. enough (E : exec P c s = exec P c1 s) by (rewrite E; split; [reflexivity|now left]).
    rewrite (law_not P L _ _ Hc s), (law_compare P L _ _ _ _ Hc1 s). unfold next at 1. rewrite (law_compare P L _ _ _ _ Hw s).
    unfold next. rewrite <- (Hp (TX "a")) by (cbn; auto). destruct (exec P (parts (TX "a")) s) as [[x|x] s1]; [|reflexivity].
    rewrite <- (Hp (TX "b")) by (cbn; auto). destruct (exec P (parts (TX "b")) s1) as [[y|y] s2]; [|reflexivity].
    rewrite (H St Exn Val P L x y s2). unroll. }
  apply Forall_cons; [|apply Forall_cons; [|constructor]]; apply K; intros St Exn Val P L; [apply (law_is_not P L)|apply (law_not_in P L)].
Qed.
