(** The second fixer for logging on small files. *)
From Verif Require Import TemplateProofs Py PyFacts Subst ApplySpec Ast Template FromDiff Matcher MatchSpec MatcherProofs FindSpec FindProofs
  FilterSpec NavSpec NavProofs PatTok PatSpec Pattern PatternSpec EquivProofs PatternProofs PatternApi
  PyTemplate PyTemplateSpec PyTemplateProofs Search SearchSpec Removal OwnSpec SampleTrees PropsPattern
  PropsTemplate ExprSubSpec ExprSubProofs PropsExprSub Fixer FixerSpec FixerProofs PyCode BuiltinFixers BuiltinSpec CodeProofs BuiltinProofs BuiltinApply BuiltinTables BuiltinMain BuiltinSample
  CorrectnessFixers CorrectnessSpec CorrectnessProofs CorrectnessMain CorrectnessSearch CorrectnessSample ThoroughSpec ThoroughProofs PropsThorough
  IdiomFixers IdiomSpec IdiomProofs LoggingSpec LoggingError LoggingMain LoggingSample LoggingExcSpec LoggingExc LoggingExcProofs LoggingExcMain.
From Coq Require Import Permutation.

Lemma x_logs : understood_as KStmt q_tokenize l_parse (logs_exception (TX "arg")).
Proof. apply (l_understood (logs_exception (TX "arg"))); [|exact logs_lexed|intros rename _; reflexivity]. unfold q_table. do 3 (apply in_or_app; right). cbn [In]. tauto. Qed.

(** Names and arguments are as they should be. *)
Definition nodes_ok (tree : value) : bool :=
  forallb (fun v => match v with VNode i fs => if text_eqb (n_type i) (TX "Name") then match dget fs (TX "id") with Some (VConst _ (CStr _)) => true | _ => false end else true | _ => true end) (everything tree)
  && forallb (fun v => match v with VNode i fs => if text_eqb (n_type i) (TX "Call") then match dget fs (TX "args") with Some (VList _ l) => forallb is_node l | _ => true end else true | _ => true end) (everything tree).
Lemma python_nodes_ok tree : nodes_ok tree = true -> python_nodes tree.
Proof.
  intros H. apply andb_prop in H as [N A]. rewrite forallb_forall in N, A. constructor.
  - intros i fs (q & Hq) E. apply inside_everything in Hq. specialize (N _ Hq). cbn beta iota in N. rewrite (proj2 (text_eqb_eq _ _) E) in N.
    destruct (dget fs (TX "id")) as [[| |id []]|]; try discriminate N. eauto.
  - intros i fs id l a (q & Hq) E Ed Hin. apply inside_everything in Hq. specialize (A _ Hq). cbn beta iota in A. rewrite (proj2 (text_eqb_eq _ _) E), Ed in A.
    rewrite forallb_forall in A. now apply A.
Qed.
Definition x_result := logging_exception_fixer q_tokenize q_order l_parse.
Definition x_fixers := match x_result with Ok f => [f] | _ => [] end.
Lemma x_accepted : exists f, logging_exception_fixer q_tokenize q_order l_parse = Ok f /\ x_fixers = [f].
Proof.
  assert (K : is_ok x_result = true) by (vm_compute; reflexivity). unfold x_fixers. change (logging_exception_fixer q_tokenize q_order l_parse) with x_result.
  revert K. generalize x_result. intros [f|]; [|discriminate]. eauto.
Qed.

(** *** The file of C76 *)
Definition x_search (file : parsed_file) := combining_fixer (fun _ _ => Ok file) q_env (literal_template (TX "pass")) x_fixers.
Lemma x_replaced : summary (find_with (x_search l_file) l_file)
  = Some [([(TX "arg", (62, 63)); (TX "logging_exception", (44, 64)); (TX "func", (6, 7)); (TX "__root", (44, 64))], Some [(TX "logging_exception", call_failed (TX "f"))])].
Proof. vm_compute. reflexivity. Qed.
Lemma x_run file spans reps : summary (find_with (x_search file) file) = Some [(spans, Some reps)] ->
  exists s sub, x_search file = Ok s /\ s_find s file = Ok [sub] /\ matched_spans sub = spans /\ replacements sub = Some reps.
Proof.
  intros H. pose proof (one_found (x_search file) file _ H) as K. revert K. generalize (x_search file). intros r K. destruct K as (s & sub & A & B & C). exists s, sub. split; [exact A|]. split; [exact B|].
  split; [exact (f_equal fst C)|exact (f_equal snd C)].
Qed.
(** What is at the front of a path. *)
Lemma fronts {A} (l1 l2 l : list A) : l = l1 ++ l2 -> In l1 (map (fun n => firstn n l) (seq 0 (S (length l)))).
Proof.
  intros ->. apply in_map_iff. exists (length l1). split.
  - rewrite firstn_app, firstn_all, Nat.sub_diag, app_nil_r. reflexivity.
  - apply in_seq. rewrite app_length. lia.
Qed.
Lemma only_front tree ty p q v r : p = q ++ r -> r <> [] -> at_path tree q = Some v -> vtype v = TX ty ->
  forallb (fun n => match at_path tree (firstn n p) with Some w => negb (text_eqb (vtype w) (TX ty)) | None => true end) (seq (S (length q)) (length p - S (length q))) = true ->
  innermost tree (TX ty) p v.
Proof.
  intros E N Hv Ht H0. assert (H : forall n w, (length q < n < length p)%nat -> at_path tree (firstn n p) = Some w -> text_eqb (vtype w) (TX ty) = false).
  { intros n w Hn Hw. rewrite forallb_forall in H0. specialize (H0 n). rewrite Hw in H0. apply negb_true_iff, H0, in_seq. lia. }
  clear H0. revert E N Hv Ht H.
  intros E N Hv Ht H. exists q, r. split; [exact E|]. split; [exact N|]. split; [exact Hv|]. split; [exact Ht|]. intros r1 r2 w Er N1 N2 Hw K. subst r.
  specialize (H (length (q ++ r1)) w). rewrite E in H. rewrite app_assoc, firstn_app, firstn_all, Nat.sub_diag, app_nil_r in H. specialize (fun x => H x Hw).
  rewrite K, text_eqb_refl in H. discriminate H. rewrite !app_length. destruct r1; [congruence|]. destruct r2; [congruence|]. cbn [length]. lia.
Qed.
Lemma x_logs_caught : logs_caught l_file (e_tree l_e) [0; 0; 1; 0; 2; 1]%nat (q_var 24 l_f).
Proof.
  exists (l_logs 100 l_log' l_exc l_xarg l_xend), (q_var 120 l_xarg), (TX "e"). split; [reflexivity|]. split.
  - apply logs_made. do 5 eexists. split; [reflexivity|]. split; [reflexivity|]. split; [reflexivity|].
    apply ST_node; [reflexivity|]. q_fields; [|apply ST_const; reflexivity|now apply ST_context].
    apply ST_node; [reflexivity|]. q_fields; [apply ST_const; reflexivity|now apply ST_context].
  - split; [do 3 eexists; split; [reflexivity|]; split; [reflexivity|]; split; [reflexivity|]; eexists; reflexivity|]. split.
    + exists l_handler. split.
      * apply (only_front _ "ExceptHandler" _ [0; 0; 1; 0]%nat _ [2; 1]%nat); [reflexivity|discriminate|reflexivity|reflexivity|vm_compute; reflexivity].
      * do 3 eexists. split; [reflexivity|]. split; [reflexivity|]. split; [reflexivity|]. left. eexists. reflexivity.
    + do 2 eexists. exists 13, l_call. split.
      * apply (only_front _ "Try" _ [0; 0]%nat _ [1; 0; 2; 1]%nat); [reflexivity|discriminate|reflexivity|reflexivity|vm_compute; reflexivity].
      * split; [reflexivity|]. split.
        -- do 4 eexists. split; [reflexivity|]. split; [right; now left|]. split; [reflexivity|]. split; reflexivity.
        -- intros a b E. assert (a = 6 /\ b = 9) as [-> ->] by (injection E as <- <-; split; reflexivity). intros (w & x & y & E1 & E2 & E3 & E4 & _).
           assert (K : In 34 (slice l_text 6 9)).
           { change (pf_text l_file) with l_text in E1. destruct E1 as [->| ->]; rewrite E2; [|rewrite <- app_assoc]; apply in_or_app; right; now left. }
           vm_compute in K. repeat (destruct K as [K|K]; [discriminate K|]). destruct K.
Qed.

(** *** The file
<<
try:
 f('a')()
except E as e:
 logging.exception(e)
>> *)
Definition y_text : text := TX "try:" ++ [10] ++ TX " f('a')()" ++ [10] ++ TX "except E as e:" ++ [10] ++ TX " logging.exception(e)".
Definition y_tok (i a b : Z) : token := tk i a b (slice y_text a b).
Definition y_tokens : list token :=
  map (fun t => y_tok (fst (fst t)) (snd (fst t)) (snd t))
    [(0,0,3); (1,3,4); (2,4,5); (3,5,6); (4,6,7); (5,7,8); (6,8,11); (7,11,12); (8,12,13); (9,13,14); (10,14,15); (11,15,15); (12,15,21); (13,22,23); (14,24,26); (15,27,28);
     (16,28,29); (17,29,30); (18,30,31); (19,31,38); (20,38,39); (21,39,48); (22,48,49); (23,49,50); (24,50,51)].
Definition y_func : value :=
  nd 21 (TX "Call") (y_tok 4 6 7) (y_tok 7 11 12)
    [(TX "func", q_var 24 (y_tok 4 6 7)); (TX "args", VList 22 [nd 27 (TX "Constant") (y_tok 6 8 11) (y_tok 6 8 11) [(TX "value", ident 28 (TX "a")); (TX "kind", VConst 29 CNone)]]);
     (TX "keywords", VList 23 [])].
Definition y_call : value :=
  nd 30 (TX "Expr") (y_tok 4 6 7) (y_tok 9 13 14) [(TX "value", nd 31 (TX "Call") (y_tok 4 6 7) (y_tok 9 13 14) [(TX "func", y_func); (TX "args", VList 32 []); (TX "keywords", VList 33 [])])].
Definition y_logs := l_logs 100 (y_tok 19 31 38) (y_tok 21 39 48) (y_tok 23 49 50) (y_tok 24 50 51).
Definition y_handler : value :=
  nd 40 (TX "ExceptHandler") (y_tok 12 15 21) (y_tok 24 50 51) [(TX "type", q_var 45 (y_tok 13 22 23)); (TX "name", ident 41 (TX "e")); (TX "body", VList 42 [y_logs])].
Definition y_tree : value :=
  nd 10 (TX "Module") (y_tok 0 0 3) (y_tok 24 50 51)
    [(TX "body", VList 11 [nd 12 (TX "Try") (y_tok 0 0 3) (y_tok 24 50 51)
        [(TX "body", VList 13 [y_call]); (TX "handlers", VList 14 [y_handler]); (TX "orelse", VList 15 []); (TX "finalbody", VList 16 [])]]);
     (TX "type_ignores", VList 17 [])].
Definition y_file : parsed_file := PF y_text (TX "y.py") [] (Some (PyInfo y_tokens y_tree)).
Definition y_e : env := q_env y_file (PyInfo y_tokens y_tree).
Lemma y_replaced : summary (find_with (x_search y_file) y_file)
  = Some [([(TX "arg", (49, 50)); (TX "logging_exception", (31, 51)); (TX "func", (6, 12)); (TX "__root", (31, 51))], Some [(TX "logging_exception", call_failed (TX "f('a')"))])].
Proof. vm_compute. reflexivity. Qed.

(** *** The file
<<
try:
 f()
except E as e:
 try:
  g()
 finally:
  logging.exception(e)
>> *)
Definition z_text : text :=
  TX "try:" ++ [10] ++ TX " f()" ++ [10] ++ TX "except E as e:" ++ [10] ++ TX " try:" ++ [10] ++ TX "  g()" ++ [10] ++ TX " finally:" ++ [10] ++ TX "  logging.exception(e)".
Definition z_tok (i a b : Z) : token := tk i a b (slice z_text a b).
Definition z_tokens : list token :=
  map (fun t => z_tok (fst (fst t)) (snd (fst t)) (snd t))
    [(0,0,3); (1,3,4); (2,4,5); (3,5,6); (4,6,7); (5,7,8); (6,8,9); (7,9,10); (8,10,10); (9,10,16); (10,17,18); (11,19,21); (12,22,23); (13,23,24); (14,24,25); (15,25,26);
     (16,26,29); (17,29,30); (18,30,31); (19,31,33); (20,33,34); (21,34,35); (22,35,36); (23,36,37); (24,38,38); (25,38,45); (26,45,46); (27,46,47); (28,47,49); (29,49,56); (30,56,57);
     (31,57,66); (32,66,67); (33,67,68); (34,68,69)].
Definition z_call (id : Z) (a b : token) : value :=
  nd id (TX "Expr") a b [(TX "value", nd (id + 1) (TX "Call") a b [(TX "func", q_var (id + 4) a); (TX "args", VList (id + 2) []); (TX "keywords", VList (id + 3) [])])].
Definition z_logs := l_logs 100 (z_tok 29 49 56) (z_tok 31 57 66) (z_tok 33 67 68) (z_tok 34 68 69).
Definition z_g := z_call 50 (z_tok 20 33 34) (z_tok 22 35 36).
Definition z_inner : value :=
  nd 60 (TX "Try") (z_tok 16 26 29) (z_tok 34 68 69)
    [(TX "body", VList 61 [z_g]); (TX "handlers", VList 62 []); (TX "orelse", VList 63 []); (TX "finalbody", VList 64 [z_logs])].
Definition z_handler : value :=
  nd 40 (TX "ExceptHandler") (z_tok 9 10 16) (z_tok 34 68 69) [(TX "type", q_var 45 (z_tok 10 17 18)); (TX "name", ident 41 (TX "e")); (TX "body", VList 42 [z_inner])].
Definition z_tree : value :=
  nd 10 (TX "Module") (z_tok 0 0 3) (z_tok 34 68 69)
    [(TX "body", VList 11 [nd 12 (TX "Try") (z_tok 0 0 3) (z_tok 34 68 69)
        [(TX "body", VList 13 [z_call 20 (z_tok 4 6 7) (z_tok 6 8 9)]); (TX "handlers", VList 14 [z_handler]); (TX "orelse", VList 15 []); (TX "finalbody", VList 16 [])]]);
     (TX "type_ignores", VList 17 [])].
Definition z_file : parsed_file := PF z_text (TX "z.py") [] (Some (PyInfo z_tokens z_tree)).
Definition z_e : env := q_env z_file (PyInfo z_tokens z_tree).
Lemma z_replaced : summary (find_with (x_search z_file) z_file)
  = Some [([(TX "arg", (67, 68)); (TX "logging_exception", (49, 69)); (TX "func", (33, 34)); (TX "__root", (49, 69))], Some [(TX "logging_exception", call_failed (TX "g"))])].
Proof. vm_compute. reflexivity. Qed.

(** All of them are proper files. *)
Lemma x_parsed file e txt path tokens tree : file = PF txt path [] (Some (PyInfo tokens tree)) -> e = q_env file (PyInfo tokens tree) -> forall
  (L : laid_out tree file) (Q : q_sample tree = true), parsed_source (fun _ _ => Ok file) q_env q_grammar txt path file e.
Proof.
  intros -> -> L Q. constructor.
  - reflexivity.
  - exists (PyInfo tokens tree). repeat split.
  - reflexivity.
  - now apply q_sample_ok.
  - intros v a b Hv Hs. apply (lo_start _ _ L _ _ _ Hv) in Hs. lia.
Qed.
Lemma y_parsed : parsed_source (fun _ _ => Ok y_file) q_env q_grammar y_text (TX "y.py") y_file y_e.
Proof. eapply x_parsed; [reflexivity|reflexivity|apply laid_out_ok; vm_compute; reflexivity|vm_compute; reflexivity]. Qed.
Lemma z_parsed : parsed_source (fun _ _ => Ok z_file) q_env q_grammar z_text (TX "z.py") z_file z_e.
Proof. eapply x_parsed; [reflexivity|reflexivity|apply laid_out_ok; vm_compute; reflexivity|vm_compute; reflexivity]. Qed.
Lemma y_unshared : unshared (e_tree y_e).
Proof. apply unshared_ok. vm_compute. reflexivity. Qed.
Lemma z_unshared : unshared (e_tree z_e).
Proof. apply unshared_ok. vm_compute. reflexivity. Qed.
Lemma y_nodes : python_nodes (e_tree y_e).
Proof. apply python_nodes_ok. vm_compute. reflexivity. Qed.
Lemma z_nodes : python_nodes (e_tree z_e).
Proof. apply python_nodes_ok. vm_compute. reflexivity. Qed.
Ltac positioned_tac :=
  constructor;
  [apply located_exprs_ok; vm_compute; reflexivity|apply evaluated_exprs_ok; vm_compute; reflexivity|apply spans_ok; vm_compute; reflexivity|
   exists (concat [[]]); eexists _, _, [[]]; split; [reflexivity|]; split; [|reflexivity];
   apply Forall2_cons; [|apply Forall2_nil]; apply FilterSpec.G_other; intros K; apply text_eqb_eq in K; vm_compute in K; discriminate K].
Lemma y_positioned : well_positioned y_e.
Proof. positioned_tac. Qed.
Lemma z_positioned : well_positioned z_e.
Proof. positioned_tac. Qed.
