(** C41: matcher expressions.  Theorems only. *)
From Verif Require Import Py PyFacts Ast Eval EvalSpec EvalProofs.

(** The value of an expression, and the calls that are made, are those that it
    stands for. *)
Theorem C41_evaluation : forall obj of_const negate mk_tuple mk_list mk_set mk_dict hashable callables constants e h h' o,
  convert obj of_const negate mk_tuple mk_list mk_set mk_dict hashable callables constants e h = (h', Ok o)
  <-> means obj of_const negate mk_tuple mk_list mk_set mk_dict hashable callables constants h e h' o.
Proof. intros. apply convert_means. Qed.
Print Assumptions C41_evaluation.

(** Whatever comes out, nothing but the known callables is called, and only
    where the expression calls it. *)
Theorem C41_calls_only_the_table : forall obj of_const negate mk_tuple mk_list mk_set mk_dict hashable callables constants e h h' r,
  convert obj of_const negate mk_tuple mk_list mk_set mk_dict hashable callables constants e h = (h', r) ->
  exists new, h' = h ++ new /\ Forall (fun v => In (ev_name v) (dkeys callables) /\ calls_name e (ev_name v)) new.
Proof.
  intros obj of_const negate mk_tuple mk_list mk_set mk_dict hashable callables constants e h h' r H.
  exact (only_known_calls obj of_const negate mk_tuple mk_list mk_set mk_dict hashable callables constants e h h' r H).
Qed.
Print Assumptions C41_calls_only_the_table.

(** Only the expressions of the language have a value ... *)
Theorem C41_other_syntax_is_rejected : forall obj of_const negate mk_tuple mk_list mk_set mk_dict hashable callables constants e h h' o,
  convert obj of_const negate mk_tuple mk_list mk_set mk_dict hashable callables constants e h = (h', Ok o) ->
  permitted (dkeys callables) (dkeys constants) e.
Proof. intros. eapply means_permitted. apply convert_means. eassumption. Qed.
Print Assumptions C41_other_syntax_is_rejected.
(** ... and they have one, unless a call fails or something cannot be hashed. *)
Theorem C41_the_language_is_accepted : forall obj of_const negate mk_tuple mk_list mk_set mk_dict hashable callables constants e h,
  (forall o, hashable o = true) -> (forall n c h os ks, dget callables n = Some c -> exists o, c h os ks = Ok o) ->
  permitted (dkeys callables) (dkeys constants) e ->
  exists h' o, convert obj of_const negate mk_tuple mk_list mk_set mk_dict hashable callables constants e h = (h', Ok o).
Proof.
  intros obj of_const negate mk_tuple mk_list mk_set mk_dict hashable callables constants e h Hh Hc Hp.
  destruct (permitted_succeeds obj of_const negate mk_tuple mk_list mk_set mk_dict hashable callables constants Hh Hc e Hp h) as (h' & o & H).
  exists h', o. now apply convert_means.
Qed.
Print Assumptions C41_the_language_is_accepted.
(** Exceptions are SyntaxErrors or TypeErrors, or were raised by a callable. *)
Theorem C41_exceptions : forall obj of_const negate mk_tuple mk_list mk_set mk_dict hashable callables constants e h h' x,
  convert obj of_const negate mk_tuple mk_list mk_set mk_dict hashable callables constants e h = (h', Err x) ->
  x = SyntaxError \/ x = TypeError \/ raised_by callables x.
Proof. intros. eapply who_raises. eassumption. Qed.
Print Assumptions C41_exceptions.

(** [compile_matcher] reports syntax errors as ValueErrors. *)
Theorem C41_compile_matcher : forall obj of_const negate mk_tuple mk_list mk_set mk_dict hashable callables constants dedent parse src h h' r,
  compile_matcher obj of_const negate mk_tuple mk_list mk_set mk_dict hashable callables constants dedent parse src h = (h', r) ->
  r <> Err SyntaxError
  /\ forall o, r = Ok o <-> exists e h1, parse (dedent src) = Ok e /\ h1 = h'
       /\ means obj of_const negate mk_tuple mk_list mk_set mk_dict hashable callables constants h e h1 o.
Proof.
  intros obj of_const negate mk_tuple mk_list mk_set mk_dict hashable callables constants dedent parse src h h' r H.
  unfold compile_matcher in H. destruct (parse (dedent src)) as [e|x].
  - destruct (convert obj of_const negate mk_tuple mk_list mk_set mk_dict hashable callables constants e h) as [h1 r1] eqn:E.
    assert (G : h1 = h' /\ (r = r1 /\ r1 <> Err SyntaxError \/ r = Err ValueError /\ r1 = Err SyntaxError)).
    { destruct r1 as [o|[]]; injection H as <- <-; split; try reflexivity; try (left; split; [reflexivity|discriminate]); right; now split. }
    destruct G as [-> G]. split; [destruct G as [[-> G]|[-> _]]; [assumption|discriminate]|]. intros o. split.
    + intros ->. exists e, h'. split; [reflexivity|]. split; [reflexivity|]. apply convert_means. destruct G as [[<- _]|[G _]]; [assumption|discriminate G].
    + intros (e' & h2 & [= <-] & -> & M). apply convert_means in M. rewrite E in M. injection M as ->.
      destruct G as [[-> _]|[_ G]]; [reflexivity | discriminate G].
  - assert (G : r <> Err SyntaxError /\ forall o, r <> Ok o) by (destruct x; injection H as _ <-; split; discriminate).
    destruct G as [G1 G2]. split; [assumption|]. intros o. split; [intros ->; now destruct (G2 o)|]. intros (e & h1 & [=] & _).
Qed.
Print Assumptions C41_compile_matcher.

(** The table only has classes that are marked as safe. *)
Theorem C41_the_table_is_safe : forall cls is_type is_safe mods table,
  add_modules cls is_type is_safe mods [] = Ok table ->
  forall n c, dget table n = Some c -> is_type c = true /\ is_safe c = true.
Proof.
  intros cls is_type is_safe mods table H. eapply table_safe; [|exact H]. intros n c [=].
Qed.
Print Assumptions C41_the_table_is_safe.

(** Examples, with constants and histories as objects. *)
Inductive x_obj := OConst (c : const) | ONeg (o : x_obj) | OSeq (k : Z) (l : list x_obj) | ODict (l : list (x_obj * x_obj)) | OCall (n : nat).
Definition x_callables : dict (callable x_obj) := [(TX "Foo", fun h _ _ => Ok (OCall (length h))); (TX "m.Bar", fun _ _ _ => Err ValueError)].
Definition x_constants : dict x_obj := [(TX "E.A", OConst (CStr (TX "A")))].
Definition x_convert := convert x_obj OConst ONeg (OSeq 0) (OSeq 1) (OSeq 2) ODict (fun o => match o with OSeq 1 _ => false | _ => true end) x_callables x_constants.
Definition x_one := EConst (CNum KInt 2).
Definition x_expr := ECall (EName (TX "Foo")) [EList [x_one; ECall (EName (TX "Foo")) [] []]] [(Some (TX "k"), EAttribute (EName (TX "E")) (TX "A"))].
Example C41_nonvacuous :
  permitted (dkeys x_callables) (dkeys x_constants) x_expr
  /\ x_convert x_expr []
     = ([Event (TX "Foo") [] []; Event (TX "Foo") [OSeq 1 [OConst (CNum KInt 2); OCall 0]] [(TX "k", OConst (CStr (TX "A")))]], Ok (OCall 1))
  /\ x_convert (ECall (EName (TX "__import__")) [EConst (CStr (TX "os"))] []) [] = ([], Err SyntaxError)
  /\ x_convert (EUnary (TX "USub") x_one) [] = ([], Ok (ONeg (OConst (CNum KInt 2))))
  /\ x_convert (EUnary (TX "Not") x_one) [] = ([], Err SyntaxError)
  /\ x_convert (EDict [(Some (EList []), x_one)]) [] = ([], Err TypeError)
  /\ x_convert (EList [ECall (EName (TX "Foo")) [] []; ECall (EAttribute (EName (TX "m")) (TX "Bar")) [] []]) []
     = ([Event (TX "Foo") [] []; Event (TX "m.Bar") [] []], Err ValueError)
  (* FINDING: an attribute of something that is no name is a TypeError, which
     [compile_matcher] does not turn into a ValueError *)
  /\ compile_matcher x_obj OConst ONeg (OSeq 0) (OSeq 1) (OSeq 2) ODict (fun _ => true) x_callables x_constants (fun s => s)
       (fun _ => Ok (EAttribute (ECall (EName (TX "Foo")) [] []) (TX "x"))) (TX "Foo().x") [] = ([], Err TypeError).
Proof.
  split.
  - apply P_call with (TX "Foo"); [constructor | now left | split; [intros x [H|[]]; discriminate H | intros x [H|[]]; discriminate H] | | ].
    + constructor; [|constructor]. apply P_list. constructor; [apply P_const|]. constructor; [|constructor].
      apply P_call with (TX "Foo"); [constructor | now left | split; intros x [] | constructor | constructor].
    + constructor; [|constructor]. cbn [snd]. apply P_name with (TX "E.A"); [|now left]. exact (D_attr _ (TX "E") (TX "A") (D_name (TX "E"))).
  - repeat split; vm_compute; reflexivity.
Qed.
Example C41_table_nonvacuous :
  add_modules (bool * bool * Z) (fun c => fst (fst c)) (fun c => snd (fst c))
    [(TX "a", [(TX "X", (true, true, 1)); (TX "f", (false, true, 2)); (TX "Y", (true, false, 3))]); (TX "b", [(TX "X", (true, true, 4))])] []
  = Ok [(TX "X", (true, true, 4)); (TX "a.X", (true, true, 1)); (TX "b.X", (true, true, 4))].
Proof. vm_compute. reflexivity. Qed.
