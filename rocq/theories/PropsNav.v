(** C25: the navigator; C26: structural matchers. *)
From Verif Require Import Py PyFacts Ast Template FromDiff Matcher MatchSpec MergeSpec FindSpec FindProofs
  SampleTrees NavSpec NavProofs Uniq UniqSpec UniqProofs.

(** *** C25 *)

(** The i-th child [x] of the object [par] at [p]: its parent is [par].  (Fields
    with the value None are not navigated from.) *)
Theorem C25_parent : forall tree p i par x,
  at_path tree p = Some par -> nth_error (vchildren par) i = Some x ->
  is_none x = false \/ is_list par = true -> only_at tree (p ++ [i]) x ->
  get_parent tree x = Some par.
Proof. exact nav_parent. Qed.
Print Assumptions C25_parent.
(** In a list, the siblings are the elements before and after. *)
Theorem C25_siblings : forall tree p i id l x,
  at_path tree p = Some (VList id l) -> nth_error l i = Some x -> only_at tree (p ++ [i]) x ->
  get_prev_sibling tree x = (match i with O => None | S j => nth_error l j end)
  /\ get_next_sibling tree x = nth_error l (S i).
Proof. exact nav_siblings_list. Qed.
Print Assumptions C25_siblings.
(** A field of a node has none. *)
Theorem C25_fields_have_no_siblings : forall tree p i n fs x,
  at_path tree p = Some (VNode n fs) -> nth_error (map snd fs) i = Some x -> is_none x = false ->
  only_at tree (p ++ [i]) x ->
  get_prev_sibling tree x = None /\ get_next_sibling tree x = None.
Proof. exact nav_siblings_field. Qed.
Print Assumptions C25_fields_have_no_siblings.
(** The root, and what is not in the tree, have neither. *)
Theorem C25_root : forall tree, only_at tree [] tree ->
  get_parent tree tree = None /\ get_prev_sibling tree tree = None /\ get_next_sibling tree tree = None.
Proof. exact nav_root. Qed.
Print Assumptions C25_root.
Theorem C25_absent : forall tree x, (forall q y, at_path tree q = Some y -> vid y <> vid x) ->
  get_parent tree x = None /\ get_prev_sibling tree x = None /\ get_next_sibling tree x = None.
Proof. exact nav_absent. Qed.
Print Assumptions C25_absent.
(** The simple node of [x]: let [b] be the nearest of [x] and its ancestors that
    has a [body], and [l] those inside [b]: the outermost of [l] not a list. *)
Theorem C25_simple_node : forall tree p x l b rest,
  unshared tree -> climbable tree p x ->
  x :: ancestors tree p = l ++ b :: rest ->
  Forall (fun y => has_field y (TX "body") = false) l -> has_field b (TX "body") = true ->
  get_simple_node tree x = Ok (outermost l).
Proof. exact simple_node. Qed.
Print Assumptions C25_simple_node.


(** The sample [f(a, b)]: no sharing; [b] is the last argument; the statement is
    the simple node. *)
Lemma sample_unshared : unshared s_module.
Proof. apply unshared_ok. vm_compute. reflexivity. Qed.
Lemma sample_climb p x : at_path s_module p = Some x -> is_node x || is_list x = true -> climbable s_module p x.
Proof.
  intros H K. split; [now apply sample_unshared|]. intros. left. destruct x as [? ?|? ?|? ?]; [reflexivity..|discriminate K].
Qed.
Definition p_call : path := [0; 0; 0]%nat.
Definition p_args : path := p_call ++ [1%nat].
Definition p_b : path := p_args ++ [1%nat].
Example C25_nonvacuous :
  at_path s_module p_args = Some s_args /\ nth_error (vchildren s_args) 1 = Some s_b
  /\ only_at s_module p_b s_b /\ only_at s_module [] s_module
  /\ get_parent s_module s_b = Some s_args /\ get_prev_sibling s_module s_b = Some s_a
  /\ get_next_sibling s_module s_a = Some s_b /\ get_next_sibling s_module s_b = None
  /\ get_parent s_module s_args = Some s_call /\ get_prev_sibling s_module s_args = None
  /\ climbable s_module p_b s_b
  /\ s_b :: ancestors s_module p_b = [s_b; s_args; s_call; s_expr; VList 71 [s_expr]] ++ s_module :: []
  /\ get_simple_node s_module s_b = Ok (Some s_expr).
Proof.
  split; [reflexivity|]. split; [reflexivity|].
  split; [now apply sample_unshared|]. split; [now apply sample_unshared|].
  do 6 (split; [reflexivity|]). split; [now apply sample_climb|]. split; reflexivity.
Qed.

(** *** C26 *)

(** HasParent: the parent, if any, is tried ([ancestors] lists it first). *)
Theorem C26_has_parent : forall e m p x s s' o,
  unshared (e_tree e) -> climbable (e_tree e) p x ->
  eval e (MHasParent m) x s = (s', o) ->
  exists o1, first_hit (eval e m) (firstn 1 (ancestors (e_tree e) p)) s s' o1 /\ o = by_way_of e x o1.
Proof. exact has_parent_hits. Qed.
Print Assumptions C26_has_parent.
(** HasAncestor: the ancestors from the parent to the root. *)
Theorem C26_has_ancestor : forall e m p x s s' o,
  unshared (e_tree e) -> climbable (e_tree e) p x ->
  eval e (MHasAncestor m) x s = (s', o) ->
  exists o1, first_hit (attempted e m) (ancestors (e_tree e) p) s s' o1 /\ o = by_way_of e x o1.
Proof. exact has_ancestor_hits. Qed.
Print Assumptions C26_has_ancestor.
Theorem C26_is_or_has_ancestor : forall e m p x s s' o,
  unshared (e_tree e) -> climbable (e_tree e) p x ->
  eval e (MIsOrHasAncestor m) x s = (s', o) ->
  self_or e (attempted e m) x (ancestors (e_tree e) p) s s' o.
Proof. exact is_or_has_ancestor_hits. Qed.
Print Assumptions C26_is_or_has_ancestor.
(** HasChild: the children in order. *)
Theorem C26_has_child : forall e m x s s' o,
  eval e (MHasChild m) x s = (s', o) ->
  exists o1, first_hit (eval e m) (vchildren x) s s' o1 /\ o = by_way_of e x o1.
Proof. exact has_child_hits. Qed.
Print Assumptions C26_has_child.
(** HasDescendant: everything below, in source order, outer before inner. *)
Theorem C26_has_descendant : forall e m x s s' o,
  eval e (MHasDescendant m) x s = (s', o) ->
  exists o1, first_hit (attempted e m) (descendants x) s s' o1 /\ o = by_way_of e x o1.
Proof. exact has_descendant_hits. Qed.
Print Assumptions C26_has_descendant.
Theorem C26_is_or_has_descendant : forall e m x s s' o,
  eval e (MIsOrHasDescendant m) x s = (s', o) ->
  self_or e (attempted e m) x (descendants x) s s' o.
Proof. exact is_or_has_descendant_hits. Qed.
Print Assumptions C26_is_or_has_descendant.
(** [ancestors] and [descendants] are what their names say. *)
Theorem C26_ancestors_are_above : forall tree p x y, at_path tree p = Some x ->
  (In y (ancestors tree p) <-> exists q r, r <> [] /\ p = q ++ r /\ at_path tree q = Some y).
Proof. exact ancestors_above. Qed.
Print Assumptions C26_ancestors_are_above.
Theorem C26_descendants_are_below : forall x y,
  In y (descendants x) <-> exists q, q <> [] /\ at_path x q = Some y.
Proof. exact descendants_below. Qed.
Print Assumptions C26_descendants_are_below.
(** HasFirstAncestor(a, b): the first ancestor to match [a] is taken, and the
    object that it matched is given to [b]; the bindings are merged. *)
Theorem C26_has_first_ancestor : forall e a b p x s s' o,
  unshared (e_tree e) -> climbable (e_tree e) p x ->
  eval e (MHasFirstAncestor a b) x s = (s', o) ->
  exists s1 o1, first_hit (eval e a) (ancestors (e_tree e) p) s s1 o1 /\
    match o1 with
    | Err exn => s' = s1 /\ o = Err exn
    | Ok None => s' = s1 /\ o = Ok None
    | Ok (Some (_, RFalse)) => s' = s1 /\ o = Err AttributeError
    | Ok (Some (_, RInfo ma ba _)) =>
        match m_matched ma with
        | None => s' = s1 /\ o = Err AttributeError
        | Some anc =>
            exists o2, eval e b anc s1 = (s', o2) /\
            match o2 with
            | Err exn => o = Err exn
            | Ok None => o = Ok None
            | Ok (Some (RInfo _ (Some bb) _)) =>
                match ba with
                | Some ba => match merge_bindings ba bb with
                             | Ok mb => o = Ok (Some (RInfo (create_match (e_parsed e) x) mb []))
                             | Err exn => o = Err exn
                             end
                | None => o = Err AttributeError
                end
            | Ok (Some _) => o = Err AttributeError
            end
        end
    end.
Proof. exact has_first_ancestor_hits. Qed.
Print Assumptions C26_has_first_ancestor.
(** If trying the submatcher neither raises nor runs a [Once]: they match iff
    the submatcher matches some object of the kind. *)
Theorem C26_matches_iff : forall try l s,
  (forall x, In x l -> exists o, try x s = (s, Ok o)) ->
  forall s' o, first_hit try l s s' o ->
  s' = s /\
  match o with
  | Ok None => forall x, In x l -> try x s = (s, Ok None)
  | Ok (Some (x, r)) => exists l1 l2, l = l1 ++ x :: l2 /\ try x s = (s, Ok (Some r)) /\
                          forall y, In y l1 -> try y s = (s, Ok None)
  | Err _ => False
  end.
Proof. exact first_hit_pure. Qed.
Print Assumptions C26_matches_iff.
Theorem C26_has_siblings : forall e m p i id l x s,
  at_path (e_tree e) p = Some (VList id l) -> nth_error l i = Some x -> only_at (e_tree e) (p ++ [i]) x ->
  eval e (MHasPrevSibling m) x s =
    (match i with
     | O => (s, Ok None)
     | S j => match nth_error l j with
              | Some y => if py_truthy y then eval e m y s else (s, Ok None)
              | None => (s, Ok None)
              end
     end)
  /\ eval e (MHasNextSibling m) x s =
    (match nth_error l (S i) with
     | Some y => if py_truthy y then eval e m y s else (s, Ok None)
     | None => (s, Ok None)
     end).
Proof. exact has_siblings. Qed.
Print Assumptions C26_has_siblings.

(** In [f(a, b)]: [b] is below a call and not below an [If]; the call has the
    descendant [b] and no such child; [a] is before [b]. *)
Example C26_nonvacuous :
  unshared (e_tree s_env) /\ climbable (e_tree s_env) p_b s_b
  /\ (exists r, eval s_env (MHasAncestor (m_bind (TX "c") (MTypeIs (TX "Call")))) s_b [] = ([], Ok (Some r))
                /\ bindings_of r <> [])
  /\ eval s_env (MHasAncestor (MTypeIs (TX "If"))) s_b [] = ([], Ok None)
  /\ eval s_env (MHasParent (MTypeIs (TX "Call"))) s_b [] = ([], Ok None)
  /\ (exists r, eval s_env (MHasParent (MTypeIs (TX "list"))) s_b [] = ([], Ok (Some r)))
  /\ (exists r, eval s_env (MHasDescendant (m_name (TX "b"))) s_call [] = ([], Ok (Some r)))
  /\ eval s_env (MHasChild (m_name (TX "b"))) s_call [] = ([], Ok None)
  /\ (exists r, eval s_env (MIsOrHasDescendant (m_name (TX "b"))) s_b [] = ([], Ok (Some r)))
  /\ (exists r, eval s_env (MHasFirstAncestor (MTypeIs (TX "Call")) (MHasChild (m_name (TX "f")))) s_b [] = ([], Ok (Some r)))
  /\ (exists r, eval s_env (MHasPrevSibling (m_name (TX "a"))) s_b [] = ([], Ok (Some r)))
  /\ eval s_env (MHasNextSibling (m_name (TX "a"))) s_b [] = ([], Ok None).
Proof.
  split; [exact sample_unshared|]. split; [now apply sample_climb|].
  split; [eexists; split; [vm_compute; reflexivity | discriminate]|].
  repeat (split; [first [reflexivity | eexists; vm_compute; reflexivity]|]). reflexivity.
Qed.

(** *** C50 *)

Theorem C50_no_sharing : forall tree next,
  parser_tree tree -> (forall p x, at_path tree p = Some x -> vid x < next) ->
  unshared (uniqueify tree next) /\ anon (uniqueify tree next) = anon tree.
Proof. exact uniqueify_unshared. Qed.
Print Assumptions C50_no_sharing.

(** [x + y + z]: both [Add]s and all [Load]s are one object each. *)
Definition c50_name (id : Z) (s : text) : value :=
  VNode (NI id (TX "Name") None None None) [(TX "id", VConst (id + 1) (CStr s)); (TX "ctx", load 90)].
Definition c50_add (id : Z) (a b : value) : value :=
  VNode (NI id (TX "BinOp") None None None) [(TX "left", a); (TX "op", VNode (NI 91 (TX "Add") None None None) []); (TX "right", b)].
Definition c50_tree : value := c50_add 1 (c50_add 2 (c50_name 10 (TX "x")) (c50_name 20 (TX "y"))) (c50_name 30 (TX "z")).
Example C50_nonvacuous :
  parser_tree c50_tree /\ (forall p x, at_path c50_tree p = Some x -> vid x < 100)
  /\ ~ unshared c50_tree
  /\ map vid (filter is_node (preorder (uniqueify c50_tree 100))) = [1; 2; 10; 90; 91; 20; 100; 101; 30; 102].
Proof.
  split; [|split; [|split]].
  - constructor.
    + intros p q x y Hp Hq E N.
      apply pplaces_In in Hp. apply pplaces_In in Hq. cbn in Hp, Hq.
      repeat (destruct Hp as [Hp|Hp]); try contradiction; injection Hp as <- <-;
        repeat (destruct Hq as [Hq|Hq]); try contradiction; injection Hq as <- <-;
        cbn in E; try discriminate E; try congruence; left; split; reflexivity.
    + intros p id l y Hp. apply pplaces_In in Hp. cbn in Hp.
      repeat (destruct Hp as [Hp|Hp]; [discriminate Hp|]). contradiction.
  - intros p x Hp. apply pplaces_In in Hp. cbn in Hp.
    repeat (destruct Hp as [Hp|Hp]); try contradiction; injection Hp as <- <-; reflexivity.
  - intros U. destruct (U [0; 0; 1]%nat (load 90) eq_refl eq_refl) as [_ H].
    specialize (H [2; 1]%nat (load 90) eq_refl eq_refl). discriminate H.
  - reflexivity.
Qed.
