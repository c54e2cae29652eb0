(** C73: what the correctness fixers do to a program. *)
From Verif Require Import TemplateProofs Py PyFacts Subst ApplySpec Ast Template FromDiff Matcher MatchSpec MatcherProofs FindSpec FindProofs
  NavSpec NavProofs PatTok PatSpec Pattern PatternSpec EquivProofs PatternProofs PatternApi
  PyTemplate PyTemplateSpec PyTemplateProofs Search SearchSpec Removal OwnSpec SampleTrees PropsPattern
  PropsTemplate ExprSubSpec ExprSubProofs PropsExprSub Fixer FixerSpec FixerProofs PyCode BuiltinFixers BuiltinSpec CodeProofs BuiltinProofs BuiltinApply BuiltinTables BuiltinMain BuiltinSample
  CorrectnessFixers CorrectnessSpec CorrectnessProofs CorrectnessMain CorrectnessSearch CorrectnessSample.
From Coq Require Import Permutation.

(** C73.  Every substitution that is found belongs to one of the fixers.  If that is
    one of the correctness fixers, then everything that it replaces is what one of
    the entries of the table describes, in the circumstances given there, it is
    replaced by what the entry says, with the same code in the places of the
    variables, and with the message of that entry; or it is the mutable default
    of an [attr.ib], replaced by the factory for it. *)
Theorem C73_corrections : forall tokenize order ast_parse parse_env parse_ast context pass_template G fs cf s data path parsed e subs sub,
  (forall l, Permutation (order l) l) -> proper G -> python_grammar G -> call_grammar G -> python_ast G ast_parse -> python_parser G parse_env ->
  Forall (fun oc => understood tokenize ast_parse (fst oc) /\ understood tokenize ast_parse (snd oc)) entry_codes ->
  Forall (understood tokenize ast_parse) attrib_codes ->
  correctness_fixers tokenize order ast_parse parse_env = Ok cf ->
  (forall f, In f fs -> In f cf \/ plain_fixer f) ->
  combining_fixer parse_ast context pass_template fs = Ok s ->
  parsed_source parse_ast context G data path parsed e -> unshared (e_tree e) -> located_exprs (e_tree e) ->
  (forall anc sp c_span, PatternSpec.inside (e_tree e) anc -> m_span (create_match parsed anc) = Some sp ->
     plain_source tokenize (around parsed anc sp (TX "$current_expr") c_span)) ->
  s_find s parsed = Ok subs -> In sub subs ->
  exists f, In f fs /\ carries f sub
    /\ (In f cf -> forall reps l txt, replacements sub = Some reps -> In (l, txt) reps ->
        (exists en, In en entries /\ (message sub, category sub, significant sub) = (Some (en_message en), Some (en_category en), true)
           /\ corrected tokenize order ast_parse parse_env e sub l txt en)
        \/ ((message sub, category sub, significant sub) = attrib_meta /\ factory_instead e sub l txt)).
Proof. intros. eapply (corrections tokenize order ast_parse parse_env parse_ast context pass_template G); eassumption. Qed.
Print Assumptions C73_corrections.

Definition entry_meta (en : entry) : option text * option text * bool := (Some (en_message en), Some (en_category en), true).
(** All entries are there, in this order. *)
Theorem C73_messages : forall tokenize order ast_parse parse_env cf, correctness_fixers tokenize order ast_parse parse_env = Ok cf ->
  map (fun f => (fx_message f, fx_category f, fx_significant f)) cf
  = map entry_meta (firstn 5 entries) ++ [attrib_meta; attrib_meta; attrib_meta] ++ map entry_meta (skipn 5 entries).
Proof.
  intros tokenize order ast_parse parse_env cf H. unfold correctness_fixers in H.
  apply bind_Ok in H as (b & Hb & H). apply bind_Ok in H as (a & Ha & H). apply bind_Ok in H as (c & Hc & H). injection H as <-.
  apply mapM_Forall2 in Hb, Ha, Hc.
  assert (K : forall mm new msg url cat f, python_fixer tokenize order ast_parse parse_env mm new msg url cat = Ok f -> meta_of f = (Some msg, Some cat, true)).
  { intros mm new msg url cat f H. unfold python_fixer in H. apply bind_Ok in H as (m & _ & H). apply bind_Ok in H as (t & _ & H). now injection H as <-. }
  assert (Ka : forall d t f, attrib_fixer tokenize order ast_parse d t = Ok f -> meta_of f = attrib_meta).
  { intros d t f H. unfold attrib_fixer in H. apply bind_Ok in H as (m & _ & H). now injection H as <-. }
  change (map meta_of (b ++ a ++ c) = map entry_meta (firstn 5 entries) ++ [attrib_meta; attrib_meta; attrib_meta] ++ map entry_meta (skipn 5 entries)).
  rewrite !map_app. f_equal; [|f_equal].
  - repeat match goal with H : Forall2 _ (_ :: _) b |- _ => inversion H; clear H; subst | H : Forall2 _ (_ :: _) ?l |- _ => is_var l; inversion H; clear H; subst | H : Forall2 _ [] ?l |- _ => inversion H; clear H; subst end.
    repeat match goal with H : _ = Ok _ |- _ => apply K in H end. cbn [map]. repeat match goal with H : meta_of _ = _ |- _ => rewrite H; clear H end. reflexivity.
  - unfold attrib_entries in Ha. repeat match goal with H : Forall2 _ (_ :: _) ?l |- _ => is_var l; inversion H; clear H; subst | H : Forall2 _ [] ?l |- _ => inversion H; clear H; subst end.
    repeat match goal with H : _ = Ok _ |- _ => apply Ka in H end. cbn [map]. repeat match goal with H : meta_of _ = _ |- _ => rewrite H; clear H end. reflexivity.
  - repeat match goal with H : Forall2 _ (_ :: _) ?l |- _ => is_var l; inversion H; clear H; subst | H : Forall2 _ [] ?l |- _ => inversion H; clear H; subst end.
    repeat match goal with H : _ = Ok _ |- _ => apply K in H end. cbn [map]. repeat match goal with H : meta_of _ = _ |- _ => rewrite H; clear H end. reflexivity.
Qed.
Print Assumptions C73_messages.

(** The regular expression of the formatting fixer, as it is compiled
    ([(?:[^(].+[)])$]), accepts a text between two positions just if that ends with a
    closing parenthesis (before a newline, perhaps), does not start with an opening
    one, and has no newline in between. *)
Theorem C73_closing_only : forall txt a b, 0 <= a -> 0 <= b -> b <= tlen txt ->
  (exists regs, cr_match (dollar unopened) txt a b = Some regs) <-> closed_only (slice txt a b).
Proof. intros txt a b Ha Hb Hl. split; [now apply dollar_closed|now apply closed_dollar]. Qed.
Print Assumptions C73_closing_only.
Example C73_closing_nonvacuous : closed_only (TX "'%s' % (a)") /\ ~ closed_only (TX "('%s' % a)").
Proof.
  split.
  - exists 39, (TX "%s' % (a"). split; [left; reflexivity|]. split; [discriminate|]. split; [discriminate|]. intros H. apply OnceProofs.zmem_In in H. discriminate H.
  - intros (f & m & [E|E] & N & _); injection E as E _; congruence.
Qed.

(** The file with [a is 42] and [attr.ib(default=[])]. *)
Example C73_nonvacuous :
  (forall l, Permutation (q_order l) l) /\ proper q_grammar /\ python_grammar q_grammar /\ call_grammar q_grammar
  /\ python_ast q_grammar q_parse /\ python_parser q_grammar c_parse_env
  /\ Forall (fun oc => understood q_tokenize q_parse (fst oc) /\ understood q_tokenize q_parse (snd oc)) entry_codes
  /\ Forall (understood q_tokenize q_parse) attrib_codes
  /\ correctness_fixers q_tokenize q_order q_parse c_parse_env = Ok c_fixers /\ length c_fixers = 10%nat
  /\ parsed_source c_parse_file q_env q_grammar c_text (TX "x.py") c_file c_e /\ unshared (e_tree c_e) /\ located_exprs (e_tree c_e)
  /\ (forall s, plain_source q_tokenize s)
  /\ exists s sub1 sub2, combining_fixer c_parse_file q_env (literal_template (TX "pass")) c_fixers = Ok s /\ s_find s c_file = Ok [sub1; sub2]
     /\ replacements sub1 = Some [(TX "__root", TX "a == 42")] /\ replacements sub2 = Some [(TX "keyword", TX "factory=list")].
Proof.
  split; [reflexivity|]. split; [exact q_proper|]. split; [split; reflexivity|]. split; [split; reflexivity|]. split; [exact q_ast|]. split; [exact c_parser|].
  split; [exact c_understood|]. split; [exact c_attribs|]. split; [exact c_accepted|]. split; [vm_compute; reflexivity|].
  split; [exact c_parsed|]. split; [apply unshared_ok; vm_compute; reflexivity|]. split; [exact c_located|]. split; [exact q_plain|exact c_run].
Qed.
