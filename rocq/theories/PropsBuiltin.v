(** C71, C72: fixers made of an expression pattern and an expression template; what
    the built-in ones do to a program. *)
From Verif Require Import TemplateProofs Py PyFacts Subst ApplySpec Ast Template FromDiff Matcher MatchSpec MatcherProofs FindSpec FindProofs
  NavSpec NavProofs PatTok PatSpec Pattern PatternSpec EquivProofs PatternProofs PatternApi
  PyTemplate PyTemplateSpec PyTemplateProofs Search SearchSpec Removal OwnSpec SampleTrees PropsPattern
  PropsTemplate ExprSubSpec ExprSubProofs PropsExprSub Fixer FixerSpec FixerProofs PyCode BuiltinFixers BuiltinSpec CodeProofs BuiltinProofs BuiltinApply BuiltinTables BuiltinMain BuiltinSample.
From Coq Require Import Permutation.

(** C71.  Every substitution that is found with fixers belongs to one of them.  If
    that one is made of an expression pattern and an expression template, then
    everything that it replaces is an occurrence of the pattern, and what it puts
    there is the template, filled in. *)
Theorem C71_pattern_fixers : forall tokenize order ast_parse parse_env parse_ast context pass_template G fs s data path parsed e subs sub,
  (forall l, Permutation (order l) l) -> proper G -> python_grammar G -> python_ast G ast_parse -> python_parser G parse_env ->
  combining_fixer parse_ast context pass_template fs = Ok s -> Forall plain_fixer fs ->
  parsed_source parse_ast context G data path parsed e -> unshared (e_tree e) ->
  (forall anc sp c_span, PatternSpec.inside (e_tree e) anc -> m_span (create_match parsed anc) = Some sp ->
     plain_source tokenize (around parsed anc sp (TX "$current_expr") c_span)) ->
  s_find s parsed = Ok subs -> In sub subs ->
  exists f, In f fs /\ carries f sub
    /\ forall old new msg url cat sig, pattern_fixer tokenize order ast_parse parse_env old new msg url cat sig = Ok f ->
       plain_source tokenize old -> no_root_metavariable tokenize old -> plain_source tokenize new -> new <> [] ->
       forall reps l txt, replacements sub = Some reps -> In (l, txt) reps ->
       exists holes p q c occ ms holes' p' t r safe, rewritten tokenize order ast_parse parse_env e old new sub l txt holes p q c occ ms holes' p' t r safe.
Proof.
  intros until sub. intros HO HG HGp HA HPa Hc HP Hs Hu Hx Hf Hin.
  destruct (applied tokenize order ast_parse parse_env parse_ast context pass_template G HO HG HGp HA HPa fs s data path parsed e subs sub Hc HP Hs Hu Hx Hf Hin) as (f & A & B & C).
  exists f. split; [exact A|]. split; [exact B|]. intros. edestruct C as (holes & p & q & c & occ & ms & holes' & p' & t & r & safe & W & _); eauto 20.
Qed.
Print Assumptions C71_pattern_fixers.

(** Such fixers are well-behaved, so long as the pattern does not bind the labels
    of the metadata. *)
Theorem C71_plain : forall tokenize order ast_parse parse_env old new msg url cat sig f,
  (forall l, Permutation (order l) l) -> plain_source tokenize old ->
  (forall toks l, tokenize (if negb (endswith [NL] old) then old ++ [NL] else old) = Ok toks -> In l meta_labels -> ~ In l (metavars toks)) ->
  pattern_fixer tokenize order ast_parse parse_env old new msg url cat sig = Ok f -> plain_fixer f.
Proof.
  intros tokenize order ast_parse parse_env old new msg url cat sig f HO HT HM H.
  unfold pattern_fixer in H. apply bind_Ok in H as (m & Hm & H). apply bind_Ok in H as (t & Ht & H). injection H as <-.
  assert (exists toks, tokenize (if negb (endswith [NL] old) then old ++ [NL] else old) = Ok toks) as (toks & Hk).
  { unfold expr_pattern, base_ast_pattern, remapped_ast, rewrite_submatchers, remap_macro_variables, token_pattern in Hm.
    destruct (tokenize _) as [toks|x]; [eauto|]. exfalso. clear - Hm.
    destruct x as [| | | | | | | | | | | | | |[|[]|]|]; cbn in Hm; discriminate Hm. }
  destruct (pattern_fixer_plain tokenize order ast_parse old m HO HT Hm toks Hk) as (A & B & C & D).
  constructor; cbn [fx_matcher fx_replacement]; auto. intros l Hl Hb. apply (HM _ _ Hk Hl). now apply D.
Qed.
Print Assumptions C71_plain.

(** C72.  The unittest fixers and the idiom fixers for negations replace an
    expression by one that does the same, with the same code in the places of the
    variables.  For the comprehensions that is so if the variable is a name. *)
Theorem C72_behaviour : forall tokenize order ast_parse parse_env parse_ast context pass_template G fs uf nf cf s data path parsed e subs sub,
  (forall l, Permutation (order l) l) -> proper G -> python_grammar G -> python_ast G ast_parse -> python_parser G parse_env ->
  Forall (fun oc => understood tokenize ast_parse (fst oc) /\ understood tokenize ast_parse (snd oc))
    (alias_codes ++ message_codes ++ negation_codes ++ comprehension_codes) ->
  unittest_fixers tokenize order ast_parse parse_env = Ok uf -> negation_fixers tokenize order ast_parse parse_env = Ok nf ->
  comprehension_fixers tokenize order ast_parse parse_env = Ok cf ->
  (forall f, In f fs -> In f (uf ++ nf ++ cf) \/ plain_fixer f) ->
  combining_fixer parse_ast context pass_template fs = Ok s ->
  parsed_source parse_ast context G data path parsed e -> unshared (e_tree e) -> located_exprs (e_tree e) ->
  (forall anc sp c_span, PatternSpec.inside (e_tree e) anc -> m_span (create_match parsed anc) = Some sp ->
     plain_source tokenize (around parsed anc sp (TX "$current_expr") c_span)) ->
  s_find s parsed = Ok subs -> In sub subs ->
  exists f, In f fs /\ carries f sub
    /\ (In f (uf ++ nf) -> forall reps l txt, replacements sub = Some reps -> In (l, txt) reps ->
        exists old new, In (old, new) (alias_codes ++ message_codes ++ negation_codes)
          /\ equivalent_rewrite tokenize order ast_parse parse_env e sub l txt old new)
    /\ (In f cf -> forall reps l txt, replacements sub = Some reps -> In (l, txt) reps ->
        equivalent_comprehension tokenize order ast_parse parse_env e sub l txt).
Proof. intros. eapply builtin_rewrites with (parse_ast := parse_ast) (G := G); eassumption. Qed.
Print Assumptions C72_behaviour.

(** The tables are those of the fixers. *)
Theorem C72_tables :
  Forall2 (fun x oc => written (fst (fst x)) (snd (fst x)) oc) alias_entries alias_codes
  /\ Forall2 (fun x oc => written (fst (fst (fst x))) (snd (fst (fst x))) oc) message_entries message_codes
  /\ Forall2 (fun x oc => written (fst (fst x)) (snd (fst x)) oc) negation_entries negation_codes
  /\ Forall2 (fun x oc => written (fst (fst x)) (snd (fst x)) oc) comprehension_entries comprehension_codes.
Proof. exact (conj alias_written (conj message_written (conj negation_written comprehension_written))). Qed.
Print Assumptions C72_tables.

(** All entries are there, in this order, and this is what is said about them. *)
Theorem C72_messages : forall tokenize order ast_parse parse_env uf nf cf,
  unittest_fixers tokenize order ast_parse parse_env = Ok uf -> negation_fixers tokenize order ast_parse parse_env = Ok nf ->
  comprehension_fixers tokenize order ast_parse parse_env = Ok cf ->
  map (fun f => (fx_message f, fx_category f, fx_significant f)) (uf ++ nf ++ cf)
  = map alias_meta alias_codes ++ map message_meta message_codes
    ++ map (idiom_meta (TX "pylint.g-comparison-negation")) negation_codes ++ map (idiom_meta (TX "idioms.uncessary-comprehension")) comprehension_codes.
Proof. exact all_metas. Qed.
Print Assumptions C72_messages.

(** *** A Python with a log *)
Inductive mval := MBool (b : bool) | MNum (z : Z) | MNone | MList (l : list Z) | MMethod.
Inductive mexn := MAssert (m : text) (xs : list mval) | MTypeError.
Definition mst := list text.       (* the names that have been looked up *)
Definition mact := act mst mexn mval.
Definition m_truth (v : mval) : act mst mexn bool :=
  done (match v with MBool b => b | MNum z => negb (z =? 0) | MNone => false | MList l => match l with [] => false | _ => true end | MMethod => true end).
Definition m_eqb (x y : mval) : bool :=
  match x, y with
  | MBool a, MBool b => Bool.eqb a b | MNum a, MNum b => a =? b | MNone, MNone => true | MList a, MList b => text_eqb a b | MMethod, MMethod => true
  | _, _ => false
  end.
Definition m_in (x y : mval) : act mst mexn bool :=
  match x, y with MNum z, MList l => done (existsb (Z.eqb z) l) | _, MList _ => done false | _, _ => raise MTypeError end.
Definition m_bool (a : act mst mexn bool) : mact := next a (fun b => done (MBool b)).
Definition m_compare (o : cmp) (x y : mval) : mact :=
  match o with
  | Eq | Is => done (MBool (m_eqb x y))
  | NotEq | IsNot => done (MBool (negb (m_eqb x y)))
  | In_ => m_bool (m_in x y)
  | NotIn => m_bool (negate (m_in x y))
  | Lt | LtE | Gt | GtE =>
      match x, y with
      | MNum a, MNum b => done (MBool (match o with Lt => a <? b | LtE => a <=? b | Gt => b <? a | _ => b <=? a end))
      | _, _ => raise MTypeError
      end
  end.
Definition m_isinstance (x y : mval) : mact := match y with MMethod => done (MBool (match x with MNum _ => true | _ => false end)) | _ => raise MTypeError end.
Definition m_size (x : mval) : act mst mexn Z := match x with MList l => done (Z.of_nat (length l)) | _ => raise MTypeError end.
Definition m_int (n : Z) : mval := MNum (2 * n).
Definition m_list (x : mval) : mact := match x with MList l => done (MList l) | _ => raise MTypeError end.
Definition m_set (x : mval) : mact := match x with MList l => done (MList (nodup Z.eq_dec l)) | _ => raise MTypeError end.
Definition m_holds (o : cmp) (x y : mval) : act mst mexn bool := next (m_compare o x y) m_truth.
Definition m_check (m : text) (xs : list mval) : option (act mst mexn bool) :=
  let is s := text_eqb m s in
  match xs with
  | [x] =>
      if is (TX "assertTrue") then Some (m_truth x) else if is (TX "assertFalse") then Some (negate (m_truth x))
      else if is (TX "assertEmpty") then Some (next (m_size x) (fun n => m_holds Eq (m_int n) (m_int 0))) else None
  | [x; y] =>
      if is (TX "assertEqual") then Some (m_holds Eq x y) else if is (TX "assertNotEqual") then Some (m_holds NotEq x y)
      else if is (TX "assertIs") then Some (m_holds Is x y) else if is (TX "assertIsNot") then Some (m_holds IsNot x y)
      else if is (TX "assertIn") then Some (m_holds In_ x y) else if is (TX "assertNotIn") then Some (m_holds NotIn x y)
      else if is (TX "assertIsInstance") then Some (next (m_isinstance x y) m_truth)
      else if is (TX "assertNotIsInstance") then Some (negate (next (m_isinstance x y) m_truth))
      else if is (TX "assertGreater") then Some (m_holds Gt x y) else if is (TX "assertGreaterEqual") then Some (m_holds GtE x y)
      else if is (TX "assertLess") then Some (m_holds Lt x y) else if is (TX "assertLessEqual") then Some (m_holds LtE x y)
      else if is (TX "assertLen") then Some (next (m_size x) (fun n => m_holds Eq (m_int n) y)) else None
  | _ => None
  end.
Definition m_assertion (m : text) (xs : list mval) : mact :=
  match m_check m xs with
  | Some b => next b (fun t => if t : bool then done MNone else raise (MAssert m xs))
  | None => raise MTypeError
  end.
Definition m_cmp (ty : text) : option cmp :=
  find (fun o => text_eqb (cmp_type o) ty) [Eq; NotEq; Lt; LtE; Gt; GtE; Is; IsNot; In_; NotIn].
Definition m_var (n : text) : mact := fun s => (inl (MNum (match n with c :: _ => c | [] => 0 end)), s ++ [n]).
Fixpoint m_exec (v : value) : mact :=
  match v with
  | VNode i fs =>
      let ty := n_type i in
      if text_eqb ty (TX "Name") then match fs with (_, VConst _ (CStr n)) :: _ => m_var n | _ => raise MTypeError end
      else if text_eqb ty (TX "Constant") then match fs with (_, VConst _ (CNum _ z)) :: _ => done (MNum z) | _ => raise MTypeError end
      else if text_eqb ty (TX "Attribute") then done MMethod
      else if text_eqb ty (TX "Compare") then
        match fs with
        | [(_, l); (_, VList _ [VNode j _]); (_, VList _ [r])] =>
            match m_cmp (n_type j) with
            | Some o => next (m_exec l) (fun x => next (m_exec r) (fun y => m_compare o x y))
            | None => raise MTypeError
            end
        | _ => raise MTypeError
        end
      else if text_eqb ty (TX "UnaryOp") then
        match fs with [_; (_, a)] => next (m_exec a) (fun x => next (m_truth x) (fun b => done (MBool (negb b)))) | _ => raise MTypeError end
      else if text_eqb ty (TX "Call") then
        match fs with
        | (_, VNode j gs) :: (_, VList _ args) :: _ =>
            if text_eqb (n_type j) (TX "Attribute") then
              match gs with
              | _ :: (_, VConst _ (CStr m)) :: _ => next (in_turn m_exec args) (m_assertion m)
              | _ => raise MTypeError
              end
            else
              match gs with
              | (_, VConst _ (CStr f)) :: _ =>
                  next (in_turn m_exec args) (fun xs =>
                    match xs with
                    | [x] => if text_eqb f (TX "list") then m_list x else if text_eqb f (TX "set") then m_set x else raise MTypeError
                    | [x; y] => if text_eqb f (TX "isinstance") then m_isinstance x y else raise MTypeError
                    | _ => raise MTypeError
                    end)
              | _ => raise MTypeError
              end
        | _ => raise MTypeError
        end
      else if text_eqb ty (TX "ListComp") || text_eqb ty (TX "SetComp") then
        match fs with
        | [_; (_, VList _ [VNode _ (_ :: (_, i) :: _)])] => next (m_exec i) (if text_eqb ty (TX "ListComp") then m_list else m_set)
        | _ => raise MTypeError
        end
      else raise MTypeError
  | _ => raise MTypeError
  end.
Definition m_python : python mst mexn mval :=
  Python _ _ _ m_exec m_truth MBool m_int MNone m_compare m_isinstance m_size m_list m_set m_assertion MAssert.

Ltac inv_stands :=
  unfold made_of, reads in *; cbn [tree_of map comprehension] in *; unfold comprehension in *;
  repeat match goal with
  | H : stands _ _ (snd (_, _)) |- _ => cbn [snd] in H
  | H : stands _ (snd (_, _)) _ |- _ => cbn [snd] in H
  | H : stands _ (_ _) _ |- _ => inversion H; clear H; subst
  | H : stands _ TContext _ |- _ => inversion H; clear H; subst
  | H : Forall2 _ (_ :: _) _ |- _ => inversion H; clear H; subst
  | H : Forall2 _ [] _ |- _ => inversion H; clear H; subst
  | H : _ /\ _ |- _ => destruct H
  | x : (text * value)%type |- _ => destruct x
  | H : fst _ = fst _ |- _ => cbn [fst] in H; subst
  | H : stands _ _ (snd (_, _)) |- _ => cbn [snd] in H
  | H : stands _ (snd (_, _)) _ |- _ => cbn [snd] in H
  | H : _ = snd _ |- _ => cbn [snd] in H; subst
  | H : n_type ?i = _ |- _ => destruct i; cbn [n_type] in H; subst
  | H : const_eqb (CStr _) ?d = true |- _ => destruct d; cbn [const_eqb] in H; try discriminate H; apply text_eqb_eq in H; subst
  | H : const_eqb (CNum _ _) ?d = true |- _ => destruct d; cbn [const_eqb] in H; try discriminate H; apply Z.eqb_eq in H; subst
  end.
Ltac via lem := cbn [snd]; etransitivity; [refine (f_equal (fun a => a _) _); apply lem|].
Lemma m_cmp_type op : m_cmp (cmp_type op) = Some op.
Proof. destruct op; reflexivity. Qed.
Lemma m_exec_compare a b c d f1 l f2 i j gs f3 k r :
  m_exec (VNode (NI a (TX "Compare") b c d) [(f1, l); (f2, VList i [VNode j gs]); (f3, VList k [r])])
  = match m_cmp (n_type j) with
    | Some o => next (m_exec l) (fun x => next (m_exec r) (fun y => m_compare o x y))
    | None => raise MTypeError
    end.
Proof. reflexivity. Qed.
Lemma m_exec_call a b c d f1 a' b' c' d' n rest g1 k f2 i args more :
  m_exec (VNode (NI a (TX "Call") b c d) ((f1, VNode (NI a' (TX "Name") b' c' d') ((g1, VConst k (CStr n)) :: rest)) :: (f2, VList i args) :: more))
  = next (in_turn m_exec args) (fun xs =>
      match xs with
      | [x] => if text_eqb n (TX "list") then m_list x else if text_eqb n (TX "set") then m_set x else raise MTypeError
      | [x; y] => if text_eqb n (TX "isinstance") then m_isinstance x y else raise MTypeError
      | _ => raise MTypeError
      end).
Proof. reflexivity. Qed.
Lemma m_exec_method a b c d f1 a' b' c' d' fv n rest g1 k f2 i args more :
  m_exec (VNode (NI a (TX "Call") b c d) ((f1, VNode (NI a' (TX "Attribute") b' c' d') (fv :: (g1, VConst k (CStr n)) :: rest)) :: (f2, VList i args) :: more))
  = next (in_turn m_exec args) (m_assertion n).
Proof. reflexivity. Qed.
Lemma m_laws : laws m_python.
Proof.
  constructor; cbn [truth bool_val compare exec is_instance int_val none_val size to_list to_set assertion assertion_error m_python].
  - now intros [].
  - intros op l r v H. inv_stands. intros st. via m_exec_compare. cbn [n_type]. now rewrite m_cmp_type.
  - intros x y s. reflexivity.
  - intros x y s. unfold holds. cbn. unfold m_bool, negate, next, done. destruct (m_in x y s) as [[[]|] ?]; reflexivity.
  - intros e v H. inv_stands. intros st. reflexivity.
  - intros a b v H. inv_stands. intros st. via m_exec_call. cbn [in_turn]. unfold next, done.
    repeat match goal with |- context [m_exec ?a ?st] => destruct (m_exec a st) as [[?|?] ?] end; reflexivity.
  - intros n v H. inv_stands. exists (MNum (2 * n)). split; [intros s; reflexivity|]. intros x s. reflexivity.
  - intros m args v Hm H. inv_stands. intros st. via m_exec_method.
    match goal with H : Forall2 _ _ ?m |- _ => assert (args = m) as ->; [|reflexivity]; revert H; clear; revert args; induction m as [|x m IH]; intros [|a args] H;
      try reflexivity; inversion H as [|? ? ? ? Q1 Q2]; subst; inversion Q1; subst; f_equal; now apply IH end.
  - intros m check xs b Hin Hc s.
    assert (K : m_check m xs = Some b).
    { unfold documented in Hin. cbv zeta in Hin.
      repeat (destruct Hin as [Hin|Hin]; [injection Hin as <- <-; destruct xs as [|x [|y [|z xs]]]; try discriminate Hc; (transitivity (Some b); [rewrite <- Hc|]; reflexivity)|]). destruct Hin. }
    unfold m_assertion. now rewrite K.
  - intros v w H1 H2. inv_stands. intros st. reflexivity.
  - intros n e t i v He Ht H. clear He Ht. inv_stands. intros st. reflexivity.
  - intros n e t i v He Ht H. clear He Ht. inv_stands. intros st. reflexivity.
  - intros i v H. inv_stands. intros st. via m_exec_call. cbn [in_turn]. unfold next, done. match goal with |- context [m_exec ?a ?st] => destruct (m_exec a st) as [[?|?] ?] end; reflexivity.
  - intros i v H. inv_stands. intros st. via m_exec_call. cbn [in_turn]. unfold next, done. match goal with |- context [m_exec ?a ?st] => destruct (m_exec a st) as [[?|?] ?] end; reflexivity.
Qed.

(** Such a Python exists: [assertTrue(a is b)] and [assertIs(a, b)] raise an
    AssertionError there, with different messages. *)
Example C72_laws_nonvacuous :
  laws m_python
  /\ exec m_python q_call [] = (inr (MAssert (TX "assertTrue") [MBool false]), [TX "a"; TX "b"])
  /\ exec m_python (fst (build (fun x => x) false q_after 10)) [] = (inr (MAssert (TX "assertIs") [MNum 97; MNum 98]), [TX "a"; TX "b"]).
Proof. split; [exact m_laws|]. split; vm_compute; reflexivity. Qed.

(** The file [self.assertTrue(a is b)], with all of the fixers. *)
Example C72_nonvacuous :
  (forall l, Permutation (q_order l) l) /\ proper q_grammar /\ python_grammar q_grammar /\ python_ast q_grammar q_parse /\ python_parser q_grammar q_parse_env
  /\ Forall (fun oc => understood q_tokenize q_parse (fst oc) /\ understood q_tokenize q_parse (snd oc))
       (alias_codes ++ message_codes ++ negation_codes ++ comprehension_codes)
  /\ unittest_fixers q_tokenize q_order q_parse q_parse_env = Ok q_unittest /\ length q_unittest = 22%nat
  /\ negation_fixers q_tokenize q_order q_parse q_parse_env = Ok q_negation /\ length q_negation = 2%nat
  /\ comprehension_fixers q_tokenize q_order q_parse q_parse_env = Ok q_comprehension /\ length q_comprehension = 2%nat
  /\ Forall plain_fixer q_fixers
  /\ parsed_source q_parse_file q_env q_grammar q_text (TX "x.py") q_file q_e /\ unshared (e_tree q_e) /\ located_exprs (e_tree q_e)
  /\ (forall s, plain_source q_tokenize s)
  /\ exists s sub, combining_fixer q_parse_file q_env (literal_template (TX "pass")) q_fixers = Ok s /\ s_find s q_file = Ok [sub]
     /\ matched_spans sub = [(TX "lhs", (16, 17)); (TX "rhs", (21, 22)); (TX "__root", (0, 23))]
     /\ replacements sub = Some [(TX "__root", TX "self.assertIs(a, b)")].
Proof.
  destruct q_accepted as (A & B & C).
  split; [reflexivity|]. split; [exact q_proper|]. split; [split; reflexivity|]. split; [exact q_ast|]. split; [exact q_parser|].
  split; [exact q_understood|]. split; [exact A|]. split; [vm_compute; reflexivity|]. split; [exact B|]. split; [vm_compute; reflexivity|].
  split; [exact C|]. split; [vm_compute; reflexivity|].
  pose proof q_run as R. unfold q_search in R. unfold q_fixers in *.
  revert A B C R. generalize q_unittest, q_negation, q_comprehension. intros uf nf cf A B C R. split.
  { apply Forall_forall. intros f Hf. eapply (builtins_plain q_tokenize q_order q_parse q_parse_env (fun l => Permutation_refl l) uf nf cf q_understood A B C f Hf). }
  split; [exact q_parsed|]. split; [apply unshared_ok; vm_compute; reflexivity|]. split; [exact q_located|]. split; [exact q_plain|exact R].
Qed.
(** [C71]: the same, and the texts of its fixers are as they should be. *)
Example C71_nonvacuous : plain_source q_tokenize (TX "self.assertTrue($lhs is $rhs)")
  /\ no_root_metavariable q_tokenize (TX "self.assertTrue($lhs is $rhs)")
  /\ is_ok (pattern_fixer q_tokenize q_order q_parse q_parse_env (TX "self.assertTrue($lhs is $rhs)") (TX "self.assertIs($lhs, $rhs)") [] [] [] true) = true.
Proof.
  split; [apply q_plain|]. split; [|vm_compute; reflexivity].
  intros toks H. vm_compute in H. injection H as <-. vm_compute. intros [H|[H|[]]]; discriminate H.
Qed.
