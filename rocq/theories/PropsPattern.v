(** C22: literal patterns; C23: metavariables in patterns; C24: equivalence of
    code; C29: the renamed source; C53: which patterns are accepted; C54:
    patterns made from functions. *)
From Verif Require Import Py PyFacts Ast Template FromDiff Matcher MatchSpec FindSpec MatcherProofs FindProofs
  PatTok PatSpec PatTokProofs LexProofs Pattern PatternSpec EquivProofs PatternProofs PatternApi RenameProofs
  SampleTrees.
From Coq Require Import Permutation Lia.

(** *** C29 *)

(** The source that is parsed is the source of the pattern, with every
    metavariable replaced by its new name. *)
Theorem C29_renamed_source : forall tokenize order pattern gl,
  let added := negb (endswith [NL] pattern) in
  tokenize (if added then pattern ++ [NL] else pattern) = Ok (map snd gl) ->
  spelled 0 (1, 0) Start [] gl -> (forall l, Permutation (order l) l) ->
  ((exists r, remap_macro_variables tokenize order pattern = Ok r) <-> exists l, marked (map snd gl) l)
  /\ forall src names anonymous, remap_macro_variables tokenize order pattern = Ok (src, names, anonymous) ->
     exists news, src = expand_each news (if added then without_newline gl else gl)
       /\ new_names (map snd gl) (metavars (map snd gl)) news names anonymous.
Proof. exact rename_source. Qed.
Print Assumptions C29_renamed_source.

(** *** C22 *)

(** A pattern without metavariables. *)
Theorem C22_literal_pattern : forall tokenize order parse pull pattern restrictions gl m,
  let added := negb (endswith [NL] pattern) in
  tokenize (if added then pattern ++ [NL] else pattern) = Ok (map snd gl) ->
  spelled 0 (1, 0) Start [] gl -> (forall l, Permutation (order l) l) ->
  metavars (map snd gl) = [] ->
  base_ast_pattern tokenize order parse pull pattern restrictions = Ok m ->
  exists module p,
    parse (spelling (if added then without_newline gl else gl)) = Ok module /\ pull module = Ok p
    /\ forall e G c s, proper G -> conforms G p -> conforms G c -> is_node p = true ->
       (same_syntax p c /\ eval e m c s = (s, Ok (Some (RInfo (create_match (e_parsed e) c) (Some []) []))))
       \/ (~ same_syntax p c /\ eval e m c s = (s, Ok None)).
Proof.
  intros tokenize order parse pull pattern restrictions gl m added Ht Hs Ho Hn H.
  destruct (rename_source tokenize order pattern gl Ht Hs Ho) as [_ R].
  unfold base_ast_pattern, remapped_ast, rewrite_submatchers in H.
  destruct (remap_macro_variables tokenize order pattern) as [[[src names] anon]|x] eqn:Er; cbn [bind] in H.
  2:{ destruct x; discriminate H. }
  destruct (R _ _ _ eq_refl) as (news & -> & N1 & N2 & N3 & N4 & N5 & _). rewrite Hn in *.
  inversion N1; subst news. rewrite expand_each_nil in *. fold added in Er, H, R |- *.
  assert (names = []) as ->.
  { destruct names as [|[x n] names]; [reflexivity|]. destruct (N4 x n) as (i & Hi & _); [|destruct i; discriminate Hi].
    cbn. now destruct (text_eqb_spec x x). }
  assert (anon = []) as ->.
  { destruct anon as [|n anon]; [reflexivity|]. destruct (N5 n) as (i & Hi & _); [now left|]. destruct i; discriminate Hi. }
  destruct (forallb _ (dkeys restrictions)); cbn [bind] in H; [|discriminate H].
  destruct (parse _) as [module|x] eqn:Ep; cbn [bind] in H; [|destruct x; discriminate H].
  destruct (verify_variables module []); cbn [bind] in H; [|discriminate H].
  destruct (pull module) as [p|] eqn:El; cbn [bind] in H; [|discriminate H]. injection H as <-.
  exists module, p. split; [reflexivity|]. split; [exact El|]. intros e G c s. apply literal_matches.
Qed.
Print Assumptions C22_literal_pattern.

(** *** C24 *)

(** What the equivalence of [ast_equivalent] is, on the tree of a file. *)
Theorem C24_equivalence_partial : forall G root x y, proper G -> parsed_tree G root -> inside root x -> inside root y ->
  (ast_equivalent x y = Ok true <-> same_code_by_id x y).
Proof. exact ast_equivalent_iff. Qed.
Print Assumptions C24_equivalence_partial.
(** It never raises. *)
Theorem C24_total : forall x y, exists b, ast_equivalent x y = Ok b.
Proof. exact MergeProofs.ast_equivalent_total. Qed.
Print Assumptions C24_total.
(** Equivalent code is the same code ... *)
Theorem C24_sound : forall G root x y, proper G -> parsed_tree G root -> inside root x -> inside root y ->
  ast_equivalent x y = Ok true -> same_code x y.
Proof. intros G root x y HG P Ix Iy H. apply same_by_id_code. now apply (ast_equivalent_iff G root). Qed.
Print Assumptions C24_sound.
(** ... and the other way round for code without lists of nodes (no arguments of
    calls, elements of tuples, statements, ...). *)
Theorem C24_complete_without_lists : forall G root x y, proper G -> parsed_tree G root -> inside root x -> inside root y ->
  (forall id l z, inside x (VList id l) -> In z l -> is_node z = false) ->
  (forall id l z, inside x (VList id l) -> In z l -> is_list z = false) ->
  same_code x y -> ast_equivalent x y = Ok true.
Proof. intros G root x y HG P Ix Iy H1 H2 H. apply (ast_equivalent_iff G root); auto. now apply same_code_no_lists. Qed.
Print Assumptions C24_complete_without_lists.
(** It is an equivalence relation on the code of a file. *)
Theorem C24_equivalence_relation : forall G root, proper G -> parsed_tree G root ->
  (forall x, inside root x -> ast_equivalent x x = Ok true)
  /\ (forall x y, inside root x -> inside root y -> ast_equivalent x y = Ok true -> ast_equivalent y x = Ok true)
  /\ (forall x y z, inside root x -> inside root y -> inside root z ->
        ast_equivalent x y = Ok true -> ast_equivalent y z = Ok true -> ast_equivalent x z = Ok true).
Proof.
  intros G root HG P. split; [|split].
  - intros x Ix. apply (ast_equivalent_iff G root); auto. apply same_by_id_refl.
  - intros x y Ix Iy H. apply (ast_equivalent_iff G root); auto. apply same_by_id_sym. now apply (ast_equivalent_iff G root).
  - intros x y z Ix Iy Iz H H'. apply (ast_equivalent_iff G root); auto.
    apply same_by_id_trans with (b := y); now apply (ast_equivalent_iff G root).
Qed.
Print Assumptions C24_equivalence_relation.

(** *** C23 *)

(** [$x] in a pattern: [finds_pattern]. *)
Theorem C23_metavariables : forall tokenize order parse pull pattern restrictions gl m,
  let added := negb (endswith [NL] pattern) in
  tokenize (if added then pattern ++ [NL] else pattern) = Ok (map snd gl) ->
  spelled 0 (1, 0) Start [] gl -> (forall l, Permutation (order l) l) ->
  base_ast_pattern tokenize order parse pull pattern restrictions = Ok m ->
  exists news names anonymous module p,
    new_names (map snd gl) (metavars (map snd gl)) news names anonymous
    /\ parse (expand_each news (if added then without_newline gl else gl)) = Ok module /\ pull module = Ok p
    /\ finds_pattern (metavariables restrictions names anonymous) p m.
Proof.
  intros tokenize order parse pull pattern restrictions gl m added Ht Hs Ho H.
  destruct (rename_source tokenize order pattern gl Ht Hs Ho) as [_ R].
  destruct (base_pattern_spec tokenize order parse (map snd gl) pattern Ht (spelled_ends _ _ _ _ _ Hs) Ho pull restrictions m H)
    as (src & names & anon & module & p & Er & Ep & El & _ & _ & F).
  destruct (R _ _ _ Er) as (news & -> & N). exists news, names, anon, module, p. auto.
Qed.
Print Assumptions C23_metavariables.

(** So a match has the same code in all the places of a metavariable, and the
    binding is the last one. *)
Theorem C23_repeated_metavariables : forall holes p m e G root c s s' rm ob reps,
  finds_pattern holes p m ->
  proper G -> parsed_tree G root -> conforms G p -> is_node p = true -> inside root c ->
  (forall n x r, holes n = Some (Named x r) -> restriction_ok e r) ->
  eval e m c s = (s', Ok (Some (RInfo rm ob reps))) ->
  exists occ b, ob = Some b /\ reps = [] /\ s' = s /\ fits e holes p c occ
    /\ (forall i j x m1 m2, (i < j)%nat -> nth_error occ i = Some (x, m1) -> nth_error occ j = Some (x, m2) ->
          exists v1 v2, m_matched m1 = Some v1 /\ m_matched m2 = Some v2 /\ same_code v1 v2)
    /\ forall x, dget b x = option_map (fun m => Bound m MERGE KEEP_LAST) (last_occ x occ).
Proof.
  intros holes p m e G root c s s' rm ob reps F HG HP Cp Np Ic HR H.
  destruct (F e G root c s HG HP Cp Np Ic HR) as [(rm' & occ & b & E & Hf & Ha & Hb & _)|[E _]];
    [|rewrite E in H; discriminate H].
  rewrite E in H. injection H as <- <- <- <-. exists occ, b. repeat (split; [reflexivity|]). split; [exact Hf|].
  destruct Hb as [_ Hb]. split; [|exact Hb].
  intros i j x m1 m2 Hij H1 H2.
  assert (Q : fst (x, m1) = fst (x, m2) -> equivalent_code (snd (x, m1)) (snd (x, m2))).
  { clear - Ha Hij H1 H2. unfold alike in Ha. revert i j Hij H1 H2.
    induction Ha as [|y l Hy Hl IH]; intros i j Hij H1 H2; [destruct i; discriminate H1|].
    destruct j as [|j]; [lia|]. cbn in H2. destruct i as [|i].
    - cbn in H1. injection H1 as ->. rewrite Forall_forall in Hy. apply (Hy _ (nth_error_In _ _ H2)).
    - cbn in H1. eapply IH; [|eauto|eauto]. lia. }
  destruct (Q eq_refl) as (v1 & v2 & M1 & M2 & Hq). exists v1, v2. split; [exact M1|]. split; [exact M2|].
  apply same_by_id_code. apply (ast_equivalent_iff G root); auto.
  - eapply fits_inside; eauto. eapply nth_error_In; exact H1.
  - eapply fits_inside; eauto. eapply nth_error_In; exact H2.
Qed.
Print Assumptions C23_repeated_metavariables.

(** *** C53 *)

Definition no_names_in_names (module : value) : Prop :=
  forall q x y n, inside module q -> vtype q = TX "Name" -> In x (vchildren q) -> inside x y -> ~ is_name y n.
Lemma name_ids_complete module n : no_names_in_names module ->
  forall q, inside module q -> is_name q n -> In n (name_ids module).
Proof.
  intros N q (path & Hq). revert module N Hq.
  assert (Step : forall v k w r, at_path v (k :: r) = Some w -> exists x, In x (vchildren v) /\ at_path x r = Some w).
  { intros v k w r H. cbn in H. destruct (nth_error (vchildren v) k) as [x|] eqn:E; [|discriminate H].
    exists x. split; [eapply nth_error_In; eauto|exact H]. }
  induction path as [|k path IH]; intros module N Hq Hn.
  - cbn in Hq. injection Hq as ->. destruct Hn as (i & fs & id & -> & Ht & Hid). cbn [name_ids].
    rewrite Ht. change (text_eqb (TX "Name") (TX "Name")) with true. cbv iota.
    assert (name_id (VNode i fs) = Some n) as -> by (apply name_id_is_name; exists i, fs, id; auto). now left.
  - destruct (Step _ _ _ _ Hq) as (x & Hx & Hxq).
    assert (Nx : no_names_in_names x).
    { intros q' x' y' n' Hq' Ht Hx' Hy'. apply (N q' x' y' n'); auto.
      destruct Hq' as (r & Hr). apply In_nth_error in Hx as (k' & Hk'). exists (k' :: r). cbn. now rewrite Hk'. }
    specialize (IH x Nx Hxq Hn).
    destruct module as [i fs|id l|id c]; cbn [vchildren] in Hx; cbn [name_ids].
    + destruct (text_eqb_spec (n_type i) (TX "Name")) as [Et|_].
      * exfalso. apply (N (VNode i fs) x q n); [apply inside_refl|exact Et|exact Hx|now exists path|exact Hn].
      * apply in_map_iff in Hx as (kv & <- & Hk). apply in_flat_map. now exists kv.
    + apply in_flat_map. now exists x.
    + destruct Hx.
Qed.

(** Which patterns are accepted. *)
Theorem C53_accepted_patterns : forall tokenize order parse pull pattern restrictions toks,
  let added := negb (endswith [NL] pattern) in
  tokenize (if added then pattern ++ [NL] else pattern) = Ok toks -> ends toks ->
  (forall l, Permutation (order l) l) ->
  (forall src module, parse src = Ok module -> no_names_in_names module) ->
  ((exists m, base_ast_pattern tokenize order parse pull pattern restrictions = Ok m) <->
   exists src names anonymous module p,
     remap_macro_variables tokenize order pattern = Ok (src, names, anonymous)
     /\ parse src = Ok module /\ pull module = Ok p
     /\ (forall x, dmem restrictions x = true -> dmem names x = true)
     /\ (forall x n, dget names x = Some n -> exists q, inside module q /\ is_name q n)).
Proof.
  intros tokenize order parse pull pattern restrictions toks added Ht He Ho Hw. split.
  - intros (m & H).
    destruct (base_pattern_spec tokenize order parse toks pattern Ht He Ho pull restrictions m H)
      as (src & names & anon & module & p & H1 & H2 & H3 & H4 & H5 & _).
    exists src, names, anon, module, p. auto.
  - intros (src & names & anon & module & p & H1 & H2 & H3 & H4 & H5).
    destruct (remap_distinct tokenize order toks pattern Ht He Ho src names anon H1) as [N D].
    unfold base_ast_pattern, remapped_ast, rewrite_submatchers. rewrite H1. cbn [bind].
    assert (forallb (dmem names) (dkeys restrictions) = true) as ->.
    { apply forallb_forall. intros x Hx. apply H4. now apply dmem_keys. }
    cbn [bind]. rewrite H2. cbn [bind]. rewrite verify_complete; auto.
    + cbn [bind]. rewrite H3. cbn [bind]. eauto.
    + intros x n Hx. destruct (H5 x n Hx) as (q & Hq & Hn). eapply name_ids_complete; eauto.
Qed.
Print Assumptions C53_accepted_patterns.
(** The exceptions that are raised otherwise. *)
Theorem C53_rejected_patterns : forall tokenize order parse pull pattern restrictions src names anonymous,
  remap_macro_variables tokenize order pattern = Ok (src, names, anonymous) ->
  (* a restriction for something that is no metavariable *)
  ((exists x, dmem restrictions x = true /\ dmem names x = false) ->
     base_ast_pattern tokenize order parse pull pattern restrictions = Err KeyError)
  /\ ((forall x, dmem restrictions x = true -> dmem names x = true) ->
      (* no Python *)
      (parse src = Err SyntaxError ->
         base_ast_pattern tokenize order parse pull pattern restrictions = Err ValueError)
      (* a metavariable that is not used as a variable *)
      /\ (forall module x n, parse src = Ok module -> NoDup (map snd names) -> dict_ok names -> dget names x = Some n ->
            (forall q, inside module q -> ~ is_name q n) ->
            base_ast_pattern tokenize order parse pull pattern restrictions = Err ValueError)).
Proof.
  intros tokenize order parse pull pattern restrictions src names anon H1.
  unfold base_ast_pattern, remapped_ast, rewrite_submatchers. rewrite H1. cbn [bind]. split.
  - intros (x & Hx & Hn).
    assert (forallb (dmem names) (dkeys restrictions) = false) as ->; [|reflexivity].
    apply not_true_is_false. intros F. rewrite forallb_forall in F. rewrite (F x) in Hn; [discriminate Hn|]. now apply dmem_keys.
  - intros H4. assert (forallb (dmem names) (dkeys restrictions) = true) as ->.
    { apply forallb_forall. intros x Hx. apply H4. now apply dmem_keys. }
    cbn [bind]. split.
    + intros ->. reflexivity.
    + intros module x n -> N D Hx Hq. cbn [bind].
      destruct (verify_variables module names) as [[]|k] eqn:E; cbn [bind].
      * exfalso. destruct (name_ids_inside module n) as (q & Hi & Hn); [eapply verify_found; eauto|]. exact (Hq q Hi Hn).
      * unfold verify_variables in E. match type of E with (if ?b then _ else _) = _ => destruct b; congruence end.
Qed.
Print Assumptions C53_rejected_patterns.
(** A pattern whose metavariables cannot be read (C52_unreadable_patterns). *)
Theorem C53_unreadable_patterns : forall tokenize order parse pull pattern restrictions,
  token_pattern tokenize pattern = Err SyntaxError ->
  base_ast_pattern tokenize order parse pull pattern restrictions = Err ValueError.
Proof.
  intros tokenize order parse pull pattern restrictions H.
  unfold base_ast_pattern, remapped_ast, rewrite_submatchers, remap_macro_variables. rewrite H. reflexivity.
Qed.
Print Assumptions C53_unreadable_patterns.

(** *** C54 *)

(** The statement that a function pattern is: the first of the function's body
    that is no docstring. *)
Definition function_statement (module stmt : value) : Prop :=
  exists id fn rest id' body, vfield module (TX "body") = VList id (fn :: rest)
    /\ vfield fn (TX "body") = VList id' body
    /\ exists s r, body = s :: r /\ ((is_str_expr s = false /\ stmt = s) \/ (is_str_expr s = true /\ exists r', r = stmt :: r')).
Definition parameters (args : list text) (n : text) : option hole :=
  if tmem n args then Some (Named n MAnything) else None.

Lemma list_of_cons v x l : list_of v = x :: l -> exists id, v = VList id (x :: l).
Proof. destruct v; cbn; intros H; try discriminate H. subst. eauto. Qed.
Lemma dget_fold_args args : forall d n,
  dget (fold_left (fun d x => dset d x (MBind x MAnything (Some MERGE_EQUIVALENT_AST) None)) args d) n
  = if tmem n args then Some (MBind n MAnything (Some MERGE_EQUIVALENT_AST) None) else dget d n.
Proof.
  induction args as [|x args IH]; intros d n; [reflexivity|]. cbn [fold_left]. rewrite IH, dget_dset.
  destruct (tmem n args) eqn:E.
  - assert (tmem n (x :: args) = true) as -> by (apply tmem_In; right; now apply tmem_In). reflexivity.
  - destruct (text_eqb_spec x n) as [->|Hx].
    + assert (tmem n (n :: args) = true) as -> by (apply tmem_In; now left). reflexivity.
    + assert (tmem n (x :: args) = false) as ->; [|reflexivity].
      apply not_true_is_false. intros F. apply tmem_In in F as [F|F]; [auto|]. apply tmem_In in F. congruence.
Qed.
Theorem C54_function_pattern : forall args module m, function_pattern args (Ok module) = Ok m ->
  exists stmt, function_statement module stmt /\ vtype stmt <> TX "Pass"
    /\ finds_pattern (parameters args) stmt m.
Proof.
  intros args module m H. unfold function_pattern in H.
  destruct (list_of (vfield module (TX "body"))) as [|fn rest] eqn:E1; [discriminate H|].
  destruct (list_of (vfield fn (TX "body"))) as [|s r] eqn:E2; [discriminate H|].
  apply list_of_cons in E1 as (id & E1). apply list_of_cons in E2 as (id' & E2).
  destruct (if is_str_expr s then r else s :: r) as [|stmt r'] eqn:E3; [discriminate H|].
  destruct (text_eqb_spec (vtype stmt) (TX "Pass")) as [|Hp]; [discriminate H|]. injection H as <-.
  exists stmt. split; [|split; [exact Hp|]].
  - exists id, fn, rest, id', (s :: r). split; [exact E1|]. split; [exact E2|]. exists s, r. split; [reflexivity|].
    destruct (is_str_expr s); [right|left]; split; auto; [eauto|now injection E3].
  - intros e G root c st HG Pr Cp Np Ic Hr. apply (pattern_matches e G root (parameters args)); auto.
    intros n. rewrite dget_fold_args. unfold parameters. now destruct (tmem n args).
Qed.
Print Assumptions C54_function_pattern.
(** It raises if there is no such statement, or if it is [pass]. *)
Theorem C54_accepted : forall args module,
  (exists m, function_pattern args (Ok module) = Ok m)
  <-> exists stmt, function_statement module stmt /\ vtype stmt <> TX "Pass".
Proof.
  intros args module. split.
  - intros (m & H). destruct (C54_function_pattern _ _ _ H) as (stmt & A & B & _). eauto.
  - intros (stmt & (id & fn & rest & id' & body & E1 & E2 & s & r & -> & E3) & Hp).
    unfold function_pattern. rewrite E1. cbn [list_of]. rewrite E2. cbn [list_of].
    apply text_eqb_neq in Hp. destruct E3 as [[-> ->]|[-> (r' & ->)]]; rewrite Hp; eauto.
Qed.
Print Assumptions C54_accepted.

(** *** A file [a+a], one [f(a)+f(a)], and the pattern [$x+$x] *)

Definition p_grammar (ty : text) : list (text * bool) :=
  if text_eqb ty (TX "Module") then [(TX "body", true); (TX "type_ignores", true)]
  else if text_eqb ty (TX "Expr") then [(TX "value", false)]
  else if text_eqb ty (TX "BinOp") then [(TX "left", false); (TX "op", false); (TX "right", false)]
  else if text_eqb ty (TX "Call") then [(TX "func", false); (TX "args", true); (TX "keywords", true)]
  else if text_eqb ty (TX "Name") then [(TX "id", false); (TX "ctx", false)]
  else [].
Lemma p_proper : proper p_grammar.
Proof.
  intros ty. unfold p_grammar.
  repeat match goal with |- context [if ?b then _ else _] => destruct b end; cbn [map fst];
    repeat (constructor; [intros K; repeat destruct K as [K|K]; try discriminate K; destruct K|]); constructor.
Qed.
Definition p_context (ty f : text) : option text := Some (TX "Load").
Lemma p_context_ok : context_grammar p_grammar p_context.
Proof.
  split; [|discriminate]. intros ty pre post b. unfold p_grammar.
  repeat match goal with |- context [if ?b then _ else _] => destruct b end; intros H;
    repeat (destruct pre as [|? pre]; cbn in H; [try discriminate H; try (injection H; now intros)|injection H as _ H]);
    try discriminate H; destruct pre; discriminate H.
Qed.
Fixpoint everything (v : value) : list value :=
  v :: match v with
       | VNode _ fs => flat_map (fun kv => everything (snd kv)) fs
       | VList _ l => flat_map everything l
       | VConst _ _ => []
       end.
Lemma inside_everything x : forall p root, at_path root p = Some x -> In x (everything root).
Proof.
  induction p as [|k p IH]; intros root H; [injection H as ->; destruct x; now left|].
  cbn in H. destruct (nth_error (vchildren root) k) as [y|] eqn:E; [|discriminate H]. apply nth_error_In in E.
  destruct root as [i fs|id l|id c]; cbn [vchildren] in E; [| |destruct E]; right.
  - apply in_map_iff in E as (kv & <- & E). apply in_flat_map. exists kv. auto.
  - apply in_flat_map. exists y. auto.
Qed.
Lemma coherent_distinct root : NoDup (map vid (everything root)) -> coherent root.
Proof.
  intros N x y (p & Hx) (q & Hy) E. apply inside_everything in Hx, Hy. revert N Hx Hy. generalize (everything root).
  induction l as [|z l IH]; intros N Hx Hy; [destruct Hx|]. cbn in N. inversion N as [|? ? N1 N2]; subst.
  destruct Hx as [->|Hx], Hy as [->|Hy]; auto; exfalso; apply N1; [rewrite E|rewrite <- E]; now apply in_map.
Qed.
Ltac conf :=
  repeat first
    [ apply CF_const
    | apply CF_list; repeat (apply Forall_cons; [split; [reflexivity|]|]); try apply Forall_nil
    | apply CF_node; [now intros K; repeat destruct K as [K|K]; try discriminate K|reflexivity
                     |repeat (apply Forall_cons; [cbn [snd]|]); try apply Forall_nil] ].
Ltac regul :=
  repeat first
    [ apply RG_const
    | apply RG_list; repeat (apply Forall_cons; [split; [reflexivity|]|]); try apply Forall_nil
    | apply RG_node; repeat (apply Forall_cons;
        [cbn [fst snd]; first [left; split; [reflexivity|split; reflexivity]
                              |right; split; [discriminate|split; [reflexivity|split; [|first [left; reflexivity|right; reflexivity]]]]]|]);
      try apply Forall_nil ].
Ltac nodup := repeat (constructor; [intros K; repeat destruct K as [K|K]; try discriminate K; destruct K|]); constructor.

Definition p_add (id : Z) : value := VNode (NI id (TX "Add") None None None) [].
Definition pt0 : token := tk 0 0 1 (TX "a").
Definition p_name (id : Z) (s : text) : value :=
  nd id (TX "Name") pt0 pt0 [(TX "id", ident (id + 1) s); (TX "ctx", load (id + 2))].
Definition p_binop (id : Z) (a b : value) : value :=
  nd id (TX "BinOp") pt0 pt0 [(TX "left", a); (TX "op", p_add (id + 1)); (TX "right", b)].
Definition p_module (e : value) : value :=
  nd 90 (TX "Module") pt0 pt0
    [(TX "body", VList 91 [nd 92 (TX "Expr") pt0 pt0 [(TX "value", e)]]); (TX "type_ignores", VList 93 [])].
Definition p_call (id : Z) : value :=
  nd id (TX "Call") pt0 pt0 [(TX "func", p_name (id + 1) (TX "f")); (TX "args", VList (id + 4) [p_name (id + 5) (TX "a")]);
                             (TX "keywords", VList (id + 8) [])].
Definition p_aa := p_binop 40 (p_name 10 (TX "a")) (p_name 20 (TX "a")).
Definition p_ab := p_binop 40 (p_name 10 (TX "a")) (p_name 20 (TX "b")).
Definition p_ff := p_binop 40 (p_call 10) (p_call 20).

Lemma p_tree_aa : parsed_tree p_grammar (p_module p_aa).
Proof. split; [conf|apply coherent_distinct; vm_compute; nodup|reflexivity|exists p_context; split; [apply p_context_ok|regul]]. Qed.
Lemma p_tree_ab : parsed_tree p_grammar (p_module p_ab).
Proof. split; [conf|apply coherent_distinct; vm_compute; nodup|reflexivity|exists p_context; split; [apply p_context_ok|regul]]. Qed.
Lemma p_tree_ff : parsed_tree p_grammar (p_module p_ff).
Proof. split; [conf|apply coherent_distinct; vm_compute; nodup|reflexivity|exists p_context; split; [apply p_context_ok|regul]]. Qed.
Lemma p_inside e : inside (p_module e) e.
Proof. now exists [0; 0; 0]%nat. Qed.

Definition xx_toks : list ptok :=
  [PTok 60 (TX "$") (1, 0) (1, 1); PTok 1 (TX "x") (1, 1) (1, 2); PTok 54 (TX "+") (1, 2) (1, 3);
   PTok 60 (TX "$") (1, 3) (1, 4); PTok 1 (TX "x") (1, 4) (1, 5); PTok 4 [NL] (1, 5) (1, 6); PTok 0 [] (2, 0) (2, 0)].
Definition xx_gl : list (text * ptok) := map (fun t => ([], t)) xx_toks.
Lemma xx_spelled : spelled 0 (1, 0) Start [] xx_gl.
Proof.
  unfold xx_gl, xx_toks. cbn [map].
  do 5 (apply SL_word;
        [unfold is_word; cbn; unfold T_ENCODING, T_ENDMARKER, T_INDENT, T_DEDENT, T_NEWLINE, T_NL; lia
        |exists 0%nat, 0%nat; split; [reflexivity|auto]|reflexivity|reflexivity|now left|intros _; cbn; unfold NL; lia|cbn [pt_end]]).
  apply (fun r c a i => SL_newline r c a i 0%nat); [now left|reflexivity|reflexivity|reflexivity|]. now constructor.
Qed.
Definition p_parse (src : text) : res value :=
  if text_eqb src (TX "gensym_x+gensym_x")
  then Ok (p_module (p_binop 40 (p_name 10 (TX "gensym_x")) (p_name 20 (TX "gensym_x"))))
  else Err SyntaxError.
Definition p_env (e : value) : env :=
  Env (PF (TX "a+a") (TX "x.py") [] (Some (PyInfo [] (p_module e)))) (p_module e) [] [] (fun c => c) (fun c => c) (fun _ _ => []).
Definition xx_pattern := expr_pattern (fun _ => Ok xx_toks) (fun l => l) p_parse (TX "$x+$x") [].
Definition matched_expr (e : value) (m : res matcher) : option (option (option value)) :=
  match m with
  | Ok m => match snd (eval (p_env e) m e []) with
            | Ok (Some (RInfo _ (Some b) _)) =>
                Some (option_map (fun x => m_matched (b_value x)) (dget b (TX "x")))
            | Ok _ => Some None
            | Err _ => None
            end
  | Err _ => None
  end.
Lemma restriction_anything e : restriction_ok e MAnything.
Proof.
  intros c. right. eexists. split; [intros s; reflexivity|]. intros a H.
  unfold create_match in H. destruct (lexical_tokens c) as [[f l]|]; [now injection H|].
  destruct c as [i fs|id l|id []]; cbn in H; congruence.
Qed.
(** The hypotheses of C23, C24, C29 and C53 hold here; [$x+$x] matches [a+a] with
    [x] bound to the right operand, but not [a+b]. *)
Example C23_nonvacuous :
  (exists m, xx_pattern = Ok m
     /\ new_names xx_toks (metavars xx_toks) [TX "gensym_x"; TX "gensym_x"] [(TX "x", TX "gensym_x")] [])
  /\ parsed_tree p_grammar (p_module p_aa) /\ inside (p_module p_aa) p_aa
  /\ matched_expr p_aa xx_pattern = Some (Some (Some (p_name 20 (TX "a"))))
  /\ matched_expr p_ab xx_pattern = Some None.
Proof.
  split; [|split; [exact p_tree_aa|split; [apply p_inside|split; vm_compute; reflexivity]]].
  eexists. split; [vm_compute; reflexivity|].
  destruct (rename_source (fun _ => Ok xx_toks) (fun l => l) (TX "$x+$x") xx_gl eq_refl xx_spelled) as [_ R].
  { intros l. apply Permutation_refl. }
  destruct (R (TX "gensym_x+gensym_x") [(TX "x", TX "gensym_x")] [] eq_refl) as (news & _ & N).
  destruct N as (N1 & N). assert (news = [TX "gensym_x"; TX "gensym_x"]) as ->; [|exact (conj N1 N)].
  vm_compute in N1. inversion N1 as [|? ? ? ? A B]; subst. inversion B as [|? ? ? ? C D]; subst. inversion D; subst.
  injection A as <-. injection C as <-. reflexivity.
Qed.
(** FINDING (C24): code with lists of nodes in it is not equivalent to itself
    elsewhere: [$x+$x] does not match [f(a)+f(a)]. *)
Example C24_calls_refuted :
  parsed_tree p_grammar (p_module p_ff) /\ inside (p_module p_ff) (p_call 10) /\ inside (p_module p_ff) (p_call 20)
  /\ same_code (p_call 10) (p_call 20) /\ ast_equivalent (p_call 10) (p_call 20) = Ok false
  /\ matched_expr p_ff xx_pattern = Some None.
Proof.
  split; [exact p_tree_ff|]. split; [now exists [0; 0; 0; 0]%nat|]. split; [now exists [0; 0; 0; 2]%nat|]. split.
  - apply SC_node; [reflexivity|].
    assert (N : forall i j s, same_code (p_name i s) (p_name j s)).
    { intros i j s. apply SC_node; [reflexivity|]. constructor; [split; [reflexivity|apply SC_const; cbn; now destruct (text_eqb_spec s s)]|].
      constructor; [split; [reflexivity|now apply SC_context]|constructor]. }
    constructor; [split; [reflexivity|apply N]|]. constructor; [split; [reflexivity|apply SC_list; constructor; [apply N|constructor]]|].
    constructor; [split; [reflexivity|apply SC_list; constructor]|constructor].
  - split; vm_compute; reflexivity.
Qed.

(** A literal pattern [a+a]. *)
Definition aa_toks : list ptok :=
  [PTok 1 (TX "a") (1, 0) (1, 1); PTok 54 (TX "+") (1, 1) (1, 2); PTok 1 (TX "a") (1, 2) (1, 3);
   PTok 4 [NL] (1, 3) (1, 4); PTok 0 [] (2, 0) (2, 0)].
Definition aa_gl : list (text * ptok) := map (fun t => ([], t)) aa_toks.
Definition aa_parse (src : text) : res value := if text_eqb src (TX "a+a") then Ok (p_module p_aa) else Err SyntaxError.
Definition aa_pattern := expr_pattern (fun _ => Ok aa_toks) (fun l => l) aa_parse (TX "a+a") [].
Example C22_nonvacuous :
  spelled 0 (1, 0) Start [] aa_gl /\ metavars (map snd aa_gl) = [] /\ (exists m, aa_pattern = Ok m)
  /\ proper p_grammar /\ conforms p_grammar p_aa /\ conforms p_grammar p_ab
  /\ matched_expr p_aa aa_pattern = Some None /\ same_syntax p_aa p_aa
  /\ (exists m, aa_pattern = Ok m /\ snd (eval (p_env p_aa) m p_aa []) <> Ok None
                /\ snd (eval (p_env p_ab) m p_ab []) = Ok None).
Proof.
  split.
  { unfold aa_gl, aa_toks. cbn [map].
    do 3 (apply SL_word;
        [unfold is_word; cbn; unfold T_ENCODING, T_ENDMARKER, T_INDENT, T_DEDENT, T_NEWLINE, T_NL; lia
        |exists 0%nat, 0%nat; split; [reflexivity|auto]|reflexivity|reflexivity|now left|intros _; cbn; unfold NL; lia|cbn [pt_end]]).
    apply (fun r c a i => SL_newline r c a i 0%nat); [now left|reflexivity|reflexivity|reflexivity|]. now constructor. }
  split; [reflexivity|]. split; [eexists; vm_compute; reflexivity|]. split; [exact p_proper|].
  split; [conf|]. split; [conf|]. split; [vm_compute; reflexivity|]. split.
  - assert (N : forall i j s, same_syntax (p_name i s) (p_name j s)).
    { intros i j s. apply SS_node; [reflexivity|].
      constructor; [split; [reflexivity|right; apply SS_const; cbn; now destruct (text_eqb_spec s s)]|].
      constructor; [split; [reflexivity|left; split; reflexivity]|constructor]. }
    apply SS_node; [reflexivity|]. constructor; [split; [reflexivity|right; apply N]|].
    constructor; [split; [reflexivity|right; apply SS_node; [reflexivity|constructor]]|].
    constructor; [split; [reflexivity|right; apply N]|constructor].
  - eexists. split; [vm_compute; reflexivity|]. split; [|vm_compute; reflexivity]. vm_compute. discriminate.
Qed.
(** FINDING (C22): literals are compared with [==], so the pattern [1] matches
    [True] and [1.0] (the number code of the integer 1 is 2). *)
Example C22_one_matches_true :
  let m := rebound (ast_matchers_matcher (nd 1 (TX "Constant") pt0 pt0 [(TX "value", VConst 2 (CNum KInt 2)); (TX "kind", VConst 3 CNone)])) in
  exists r, snd (eval (p_env p_aa) m (nd 5 (TX "Constant") pt0 pt0 [(TX "value", VConst 6 (CNum KBool 2)); (TX "kind", VConst 3 CNone)]) []) = Ok (Some r).
Proof. eexists. vm_compute. reflexivity. Qed.

Example C53_nonvacuous :
  (exists m, xx_pattern = Ok m)
  /\ expr_pattern (fun _ => Ok xx_toks) (fun l => l) p_parse (TX "$x+$x") [(TX "y", MAnything)] = Err KeyError
  /\ expr_pattern (fun _ => Ok xx_toks) (fun l => l) (fun _ => Err SyntaxError) (TX "$x+$x") [] = Err ValueError
  /\ expr_pattern (fun _ => Ok xx_toks) (fun l => l) (fun _ => Ok (p_module p_aa)) (TX "$x+$x") [] = Err ValueError.
Proof. split; [eexists; vm_compute; reflexivity|]. repeat split; vm_compute; reflexivity. Qed.
(** FINDING (C53): only one use of the metavariable has to be a variable: of
    [$x.$x], the attribute is the literal name [gensym_x]. *)
Definition p_dot : value :=
  nd 40 (TX "Attribute") pt0 pt0 [(TX "value", p_name 10 (TX "gensym_x")); (TX "attr", ident 20 (TX "gensym_x")); (TX "ctx", load 30)].
Example C53_attribute_accepted :
  exists m, expr_pattern (fun _ => Ok (map (fun t => if text_eqb (pt_string t) (TX "+") then with_string t (TX ".") else t) xx_toks))
               (fun l => l) (fun src => if text_eqb src (TX "gensym_x.gensym_x") then Ok (p_module p_dot) else Err SyntaxError)
               (TX "$x.$x") [] = Ok m.
Proof. eexists. vm_compute. reflexivity. Qed.

(** [def f(x): 'doc'; x+x; x+1] *)
Definition p_fun : value :=
  nd 90 (TX "Module") pt0 pt0
    [(TX "body", VList 91 [nd 92 (TX "FunctionDef") pt0 pt0
       [(TX "name", ident 94 (TX "f"));
        (TX "body", VList 95 [nd 96 (TX "Expr") pt0 pt0 [(TX "value", nd 97 (TX "Constant") pt0 pt0 [(TX "value", ident 98 (TX "doc"))])];
                              nd 99 (TX "Expr") pt0 pt0 [(TX "value", p_binop 40 (p_name 10 (TX "x")) (p_name 20 (TX "x")))];
                              nd 99 (TX "Pass") pt0 pt0 []])]])].
(** FINDING (C54): the statements after the first are ignored (here [pass]). *)
Example C54_nonvacuous :
  exists m, function_pattern [TX "x"] (Ok p_fun) = Ok m
    /\ conforms p_grammar (nd 99 (TX "Expr") pt0 pt0 [(TX "value", p_binop 40 (p_name 10 (TX "x")) (p_name 20 (TX "x")))])
    /\ (exists r, snd (eval (p_env p_aa) m (nd 92 (TX "Expr") pt0 pt0 [(TX "value", p_aa)]) []) = Ok (Some r))
    /\ snd (eval (p_env p_aa) m (nd 92 (TX "Expr") pt0 pt0 [(TX "value", p_ab)]) []) = Ok None.
Proof. eexists. split; [vm_compute; reflexivity|]. split; [conf|]. split; [eexists|]; vm_compute; reflexivity. Qed.
