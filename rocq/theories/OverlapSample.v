(** The file [f(attr.ib(default=[]), attr.ib(default=[]) if x else y)]: two findings, the second inside of a conditional expression. *)
From Verif Require Import TemplateProofs Py PyFacts Regex Subst ApplySpec Ast Template FromDiff Matcher MatchSpec MatcherProofs FindSpec FindProofs
  FilterSpec NavSpec NavProofs PatTok PatSpec Pattern PatternSpec EquivProofs PatternProofs PatternApi
  PyTemplate PyTemplateSpec PyTemplateProofs Search SearchSpec Removal OwnSpec SampleTrees PropsPattern
  PropsTemplate ExprSubSpec ExprSubProofs PropsExprSub Fixer FixerSpec FixerProofs PropsFixer PyCode BuiltinFixers BuiltinSpec CodeProofs BuiltinProofs BuiltinApply BuiltinTables BuiltinMain BuiltinSample PropsBuiltin
  CorrectnessFixers CorrectnessSpec CorrectnessProofs CorrectnessMain CorrectnessSearch CorrectnessSample PropsCorrectness
  ThoroughSpec ThoroughCode ThoroughProofs ThoroughSearch ThoroughMain ThoroughAttrib ThoroughTables PropsThorough
  IdiomFixers IdiomSpec IdiomProofs IdiomThorough IdiomSample PropsIdiom LoggingSpec LoggingEval LoggingProofs LoggingError LoggingMain LoggingSample PropsLogging
  LoggingExcSpec LoggingExc LoggingExcProofs LoggingExcMain LoggingExcSample PropsLoggingExc AllSpec AllProofs AllSample IterSpec IterProofs IterAll IterSample Fmt Codec Runner Cli Main PropsRunner PropsMain.
From Coq Require Import Permutation.

Definition w_default : text := TX "attr.ib(default=[])".
Definition w_factory : text := TX "attr.ib(factory=list)".
Definition w_line (a b : text) : text := TX "f(" ++ a ++ TX ", " ++ b ++ TX " if x else y)".
Definition w_text1 : text := w_line w_default w_default.
Definition w_text2 : text := w_line w_factory w_default.
Definition w_text3 : text := w_line w_factory w_factory.
Definition w_text4 : text := w_line w_default w_factory.
Section Tree.
  Variable t : text.
  Definition w_tok (i a b : Z) : token := tk i a b (slice t a b).
  (** The call that begins at [o]; its tokens are numbered from [k], its nodes from [n]. *)
  Definition w_call (fixed : bool) (o k n : Z) : list token * value :=
    let attr := w_tok k o (o + 4) in let ib := w_tok (k + 2) (o + 5) (o + 7) in
    let word := w_tok (k + 4) (o + 8) (o + 15) in
    let open_ := w_tok (k + 6) (o + 16) (o + 17) in let shut := w_tok (k + 7) (o + 17) (o + 18) in
    let list_ := w_tok (k + 6) (o + 16) (o + 20) in
    let close := if fixed then w_tok (k + 8) (o + 20) (o + 21) else w_tok (k + 8) (o + 18) (o + 19) in
    let last := if fixed then list_ else shut in
    let v := if fixed then q_var (n + 10) list_
             else nd (n + 10) (TX "List") open_ shut [(TX "elts", VList (n + 11) []); (TX "ctx", load (n + 12))] in
    ([attr; w_tok (k + 1) (o + 4) (o + 5); ib; w_tok (k + 3) (o + 7) (o + 8); word; w_tok (k + 5) (o + 15) (o + 16)]
       ++ (if fixed then [list_] else [open_; shut]) ++ [close],
     nd n (TX "Call") attr close
       [(TX "func", nd (n + 1) (TX "Attribute") attr ib [(TX "value", q_var (n + 2) attr); (TX "attr", ident (n + 5) (TX "ib")); (TX "ctx", load (n + 6))]);
        (TX "args", VList (n + 7) []);
        (TX "keywords", VList (n + 8) [nd (n + 9) (TX "keyword") word last [(TX "arg", ident (n + 14) (slice t (o + 8) (o + 15))); (TX "value", v)]])]).
  Definition w_size (fixed : bool) : Z := if fixed then 21 else 19.
  Definition w_file (one two : bool) : parsed_file :=
    let o2 := 2 + w_size one + 2 in let o3 := o2 + w_size two in
    let f := w_tok 0 0 1 in
    let '(ts1, c1) := w_call one 2 2 100 in let '(ts2, c2) := w_call two o2 12 200 in
    let a2 := w_tok 12 o2 (o2 + 4) in
    let x := w_tok 22 (o3 + 4) (o3 + 5) in let y := w_tok 24 (o3 + 11) (o3 + 12) in
    let close := w_tok 25 (o3 + 12) (o3 + 13) in
    let toks := [f; w_tok 1 1 2] ++ ts1 ++ [w_tok 11 (2 + w_size one) (3 + w_size one)] ++ ts2
                ++ [w_tok 21 (o3 + 1) (o3 + 3); x; w_tok 23 (o3 + 6) (o3 + 10); y; close] in
    let call := nd 20 (TX "Call") f close
      [(TX "func", q_var 30 f);
       (TX "args", VList 21 [c1; nd 40 (TX "IfExp") a2 y [(TX "test", q_var 50 x); (TX "body", c2); (TX "orelse", q_var 60 y)]]);
       (TX "keywords", VList 22 [])] in
    PF t (TX "x.py") [] (Some (PyInfo toks
      (nd 10 (TX "Module") f close
        [(TX "body", VList 11 [nd 12 (TX "Expr") f close [(TX "value", call)]]); (TX "type_ignores", VList 13 [])]))).
  Definition w_alone (fixed : bool) : parsed_file :=
    let '(ts, c) := w_call fixed 0 0 100 in
    let first := w_tok 0 0 4 in let close := w_tok 8 (w_size fixed - 1) (w_size fixed) in
    PF t (TX "x.py") [] (Some (PyInfo ts
      (nd 10 (TX "Module") first close
        [(TX "body", VList 11 [nd 12 (TX "Expr") first close [(TX "value", c)]]); (TX "type_ignores", VList 13 [])]))).
End Tree.
Definition w_parse_file (data path : text) : res parsed_file :=
  if negb (text_eqb path (TX "x.py")) then Err ParseError
  else if text_eqb data w_text1 then Ok (w_file w_text1 false false)
  else if text_eqb data w_text2 then Ok (w_file w_text2 true false)
  else if text_eqb data w_text3 then Ok (w_file w_text3 true true)
  else if text_eqb data w_text4 then Ok (w_file w_text4 false true)
  else if text_eqb data w_default then Ok (w_alone w_default false)
  else if text_eqb data w_factory then Ok (w_alone w_factory true)
  else Err ParseError.
Lemma w_file_parser : file_parser q_tokenize q_grammar w_parse_file q_env (TX "x.py").
Proof.
  intros t parsed H. pose proof H as H0. unfold w_parse_file in H. change (text_eqb (TX "x.py") (TX "x.py")) with true in H. cbn [negb] in H.
  assert (K : pf_text parsed = t -> pf_path parsed = TX "x.py" -> sound_file parsed = true ->
    exists e, python_file q_tokenize q_grammar w_parse_file q_env t (TX "x.py") parsed e /\ counted e /\ pf_text parsed = t /\ pf_path parsed = TX "x.py").
  { intros K1 K2 K3. destruct (sound_file_ok w_parse_file t parsed H0 K1 K3) as (e & A & B). exists e. auto. }
  destruct (text_eqb_spec t w_text1) as [->|_]; [injection H as <-; apply K; [reflexivity|reflexivity|vm_compute; reflexivity]|].
  destruct (text_eqb_spec t w_text2) as [->|_]; [injection H as <-; apply K; [reflexivity|reflexivity|vm_compute; reflexivity]|].
  destruct (text_eqb_spec t w_text3) as [->|_]; [injection H as <-; apply K; [reflexivity|reflexivity|vm_compute; reflexivity]|].
  destruct (text_eqb_spec t w_text4) as [->|_]; [injection H as <-; apply K; [reflexivity|reflexivity|vm_compute; reflexivity]|].
  destruct (text_eqb_spec t w_default) as [->|_]; [injection H as <-; apply K; [reflexivity|reflexivity|vm_compute; reflexivity]|].
  destruct (text_eqb_spec t w_factory) as [->|_]; [injection H as <-; apply K; [reflexivity|reflexivity|vm_compute; reflexivity]|]. discriminate H.
Qed.
Definition w_search : res searcher := do r <- j_registry; fixers_from_pattern w_parse_file q_env (literal_template (TX "pass")) r (TX "*").
Definition w_command (rounds : option Z) : command :=
  Command ModeFix None [OMatch (TX "*")] None [TX "x.py"] (CliOptions [] [] false rounds false true false true false default_fmt) false None None.
Definition w_sources : fs := fun p => if text_eqb p (TX "x.py") then Some w_text1 else None.
(** [refex --mode=fix --match='*' -i x.py] *)
Definition w_run (r : registry) (c : command) : done :=
  refex (fun _ => None) no_text no_text r q_tokenize q_order l_parse j_parse_env w_parse_file q_env (literal_template (TX "pass"))
    good_world (fun _ => None) (fun p => p) w_sources (rstate_init 0) c.
Definition contents_eqb (f : option bytes) (t : text) : bool := match f with Some b => text_eqb b t | None => false end.
Definition w_runs : bool :=
  match j_registry with
  | Ok r =>
      let go n := w_run r (w_command n) in
      contents_eqb (d_fs (go None) (TX "x.py")) [] && match d_end (go None) with Crash ValueError => true | _ => false end
      && contents_eqb (d_fs (go (Some 1)) (TX "x.py")) w_text3 && match d_end (go (Some 1)) with Ready tt => true | _ => false end
  | Err _ => false
  end.
Lemma w_runs_ok : w_runs = true.
Proof. vm_compute. reflexivity. Qed.
