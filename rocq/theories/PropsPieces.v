(** C85: every match and every binding is a piece of the file. *)
From Verif Require Import TemplateProofs Py PyFacts NavProofs Regex Subst Ast Template FromDiff Matcher MatchSpec MatcherProofs FindSpec FindProofs NavSpec PatternSpec EquivProofs SampleTrees PropsPattern PropsTemplate ExprSubSpec PropsExprSub PiecesSpec Pieces.

(** C85, what has a place: exactly the nodes of the syntax tree to which the parser
    has given a first and a last token, except for [import] aliases and for
    [arguments] without positional arguments (for which the parser gives the wrong
    tokens).  Their place is from the start of the first to the end of the last
    token, and the string is what is written there. *)
Theorem C85_what_has_a_place : forall parsed v sp,
  m_span (create_match parsed v) = Some sp <->
  exists i fs f l, v = VNode i fs /\ n_first i = Some f /\ n_last i = Some l /\ sp = (tk_start f, tk_end l)
    /\ n_type i <> TX "alias"
    /\ (n_type i = TX "arguments" -> exists id x rest, dget fs (TX "args") = Some (VList id (x :: rest))).
Proof.
  intros parsed v sp. unfold create_match, lexical_tokens. split.
  - destruct v as [i fs|i l|i c]; [|discriminate|destruct c; discriminate].
    destruct (n_first i) as [f|] eqn:Ef; [|discriminate]. destruct (n_last i) as [l|] eqn:El; [|discriminate].
    intros H. exists i, fs, f, l. destruct (text_eqb_spec (n_type i) (TX "arguments")) as [Ea|Na].
    + unfold vfield in H. destruct (dget fs (TX "args")) as [[| id [|x rest]|]|] eqn:E; try discriminate H. cbn in H. injection H as <-.
      repeat (split; [first [assumption|reflexivity]|]). split; [rewrite Ea; intros K; apply (f_equal (text_eqb (TX "alias"))) in K; vm_compute in K; discriminate K|]. eauto.
    + destruct (text_eqb_spec (n_type i) (TX "alias")) as [Ea|Nl]; [discriminate H|]. cbn in H. injection H as <-.
      repeat (split; [first [assumption|reflexivity]|]). tauto.
  - intros (i & fs & f & l & -> & Ef & El & -> & Na & Ha). rewrite Ef, El.
    destruct (text_eqb_spec (n_type i) (TX "arguments")) as [Ea|_].
    + destruct (Ha Ea) as (id & x & rest & E). unfold vfield. rewrite E. reflexivity.
    + destruct (text_eqb_spec (n_type i) (TX "alias")) as [Ea|_]; [contradiction|]. reflexivity.
Qed.
Print Assumptions C85_what_has_a_place.

(** What the string of a match is: for a place what is written there, for a Python
    string that string, and none for anything else.  A match knows its object
    unless it is of a string. *)
Theorem C85_what_a_match_says : forall parsed v,
  (forall sp, m_span (create_match parsed v) = Some sp -> m_string (create_match parsed v) = Some (slice (pf_text parsed) (fst sp) (snd sp)))
  /\ (m_span (create_match parsed v) = None -> forall s, m_string (create_match parsed v) = Some s <-> exists i, v = VConst i (CStr s))
  /\ (m_matched (create_match parsed v) = Some v \/ exists i s, v = VConst i (CStr s)).
Proof.
  intros parsed v. unfold create_match. destruct (lexical_tokens v) as [[f l]|] eqn:E; cbn [m_span m_string m_matched].
  - split; [intros sp [= <-]; reflexivity|]. split; [discriminate|now left].
  - destruct v as [i fs|i l|i c]; [| |destruct c]; cbn [m_span m_string m_matched]; (split; [discriminate|]);
      (split; [intros _ str; split; [first [discriminate|intros [= <-]; eauto]|intros (i' & K); first [discriminate K|injection K as _ <-; reflexivity] ]|]); eauto.
Qed.
Print Assumptions C85_what_a_match_says.

(** C85.  However a matcher is put together (without RewriteFile), and whatever it
    is tried on inside of the file: the match it returns and everything it has
    bound are pieces of the file. *)
Theorem C85_bindings_are_pieces : forall e m v s s' r,
  positioned (e_parsed e) (e_tree e) -> engines_ok (pf_text (e_parsed e)) m -> inside (e_tree e) v ->
  eval e m v s = (s', Ok (Some r)) ->
  (forall mt, r_match r = Ok mt -> piece (pf_text (e_parsed e)) mt)
  /\ (forall d, r_bindings r = Ok (Some d) -> forall l b, In (l, b) d -> piece (pf_text (e_parsed e)) (b_value b)).
Proof.
  intros e m v s s' r HT HE Hv H.
  destruct (results_are_pieces e HT m v s s' r HE (good_inside e _ _ (good_tree e) Hv) H) as [A B]. split.
  - intros mt Hm. apply A, Hm.
  - intros d Hd l b Hin. exact (proj1 (proj1 (B d Hd l b Hin))).
Qed.
Print Assumptions C85_bindings_are_pieces.

(** The same for everything that a search of the file reports. *)
Theorem C85_search_reports_pieces : forall e m out,
  positioned (e_parsed e) (e_tree e) -> engines_ok (pf_text (e_parsed e)) m -> matcher_find_iter e m = Ok out ->
  forall v r, In (v, r) out ->
  (forall mt, r_match r = Ok mt -> piece (pf_text (e_parsed e)) mt)
  /\ (forall d, r_bindings r = Ok (Some d) -> forall l b, In (l, b) d -> piece (pf_text (e_parsed e)) (b_value b)).
Proof.
  intros e m out HT HE H v r Hin. apply find_iter_found in H as (hs & Hf & ->). apply in_map_iff in Hin as (h & [= <- <-] & Hh).
  apply in_split in Hh as (h1 & h2 & ->). destruct (fd_match _ _ _ Hf h1 h h2 eq_refl) as [Hp Ha].
  unfold attempt in Ha. destruct (admits _ _); [|discriminate Ha].
  exact (C85_bindings_are_pieces (with_done e (done_after [] h1)) m (h_value h) [] (h_ran h) (h_result h) HT HE (ex_intro _ _ Hp) Ha).
Qed.
Print Assumptions C85_search_reports_pieces.

(** The file [k*z] and the pattern [$x*$y]. *)
Definition kz_bound (l : label) : option (span * text) :=
  match matcher_find_iter kz_env xy_matcher with
  | Ok [(_, r)] => match r_bindings r with
                   | Ok (Some d) => match dget d l with
                                    | Some b => match m_span (b_value b), m_string (b_value b) with Some sp, Some s => Some (sp, s) | _, _ => None end
                                    | None => None
                                    end
                   | _ => None
                   end
  | _ => None
  end.
Example C85_nonvacuous :
  positioned (e_parsed kz_env) (e_tree kz_env) /\ engines_ok (pf_text (e_parsed kz_env)) xy_matcher
  /\ kz_bound (TX "x") = Some ((0, 1), TX "k") /\ kz_bound (TX "y") = Some ((2, 3), TX "z")
  /\ m_span (create_match kz_source (nd 1 (TX "alias") tok_k tok_z [])) = None
  /\ m_span (create_match kz_source (nd 1 (TX "arg") tok_k tok_z [])) = Some (0, 3).
Proof.
  split; [|split; [|repeat split; vm_compute; reflexivity] ].
  - intros w [a b] (q & Hq) Hs. apply (places_all (vsize kz_module)) in Hq; [|apply le_n].
    assert (A : forallb (fun x : FindSpec.path * value => match m_span (create_match kz_source (snd x)) with Some (a, b) => (0 <=? a) && (a <=? b) && (b <=? 3) | None => true end)
      (places (vsize kz_module) kz_module) = true) by (vm_compute; reflexivity).
    rewrite forallb_forall in A. specialize (A _ Hq). cbn [snd] in A. change (e_parsed kz_env) with kz_source in *. rewrite Hs in A.
    unfold in_text. cbn [fst snd]. change (tlen (pf_text kz_source)) with 3. lia.
  - apply groupless_ok. vm_compute. reflexivity.
Qed.
