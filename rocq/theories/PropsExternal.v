(** C78: whole-file rewriters and external commands in a search. *)
From Verif Require Import Py PyFacts Codec CodecProofs Subst ApplySpec Fmt Ast Template FromDiff FromDiffSpec FromDiffProofs PropsDiff Matcher
  Search PatTok PatSpec PatternSpec PyTemplateSpec FindSpec PropsTemplate PropsExprSub Removal RewriteProofs BuiltinSample External ExternalProofs.

(** C78.  A search with a whole-file rewriter (one that asks for the same text
    whatever it is shown) turns the file into exactly that text; a rewriter that
    declines leaves the file alone, and its exceptions are passed on (but for
    MatchError).  The number of iterations does not matter: it runs once. *)
Theorem C78_rewrite_file : forall parse_ast context pass_template G prefix f m data path parsed e n,
  is_differ (e_differ e) -> python_grammar G -> parsed_source parse_ast context G data path parsed e -> pf_text parsed = data ->
  vtype (e_tree e) = TX "Module" -> (exists a b, m_span (create_match parsed (e_tree e)) = Some (a, b)) ->
  (forall v, f data v = f data (e_tree e)) ->
  from_matcher (MRewriteFile prefix f) [] = Ok m ->
  rewrite_string parse_ast (python_searcher parse_ast context pass_template m) data path n
  = match f data (e_tree e) with
    | Ok (Some after) => Ok after
    | Ok None | Err MatchError => Ok data
    | Err x => Err x
    end.
Proof.
  intros parse_ast context pass_template G prefix f m data path parsed e n HD HG HP HT Hm Hs Hf E. rewrite rewriter_accepted in E. injection E as <-.
  apply (rewritten_whole parse_ast context pass_template G prefix f data path parsed e); try assumption. now rewrite (ps_env _ _ _ _ _ _ _ HP).
Qed.
Print Assumptions C78_rewrite_file.

(** An external command: the file becomes what the command prints when it is given
    the file; if the command fails, or prints no UTF-8, there is an exception. *)
Theorem C78_external_command : forall parse_ast context pass_template G prefix cmd m data path parsed e n,
  is_differ (e_differ e) -> python_grammar G -> parsed_source parse_ast context G data path parsed e -> pf_text parsed = data ->
  vtype (e_tree e) = TX "Module" -> (exists a b, m_span (create_match parsed (e_tree e)) = Some (a, b)) ->
  from_matcher (external_command prefix cmd) [] = Ok m ->
  rewrite_string parse_ast (python_searcher parse_ast context pass_template m) data path n = run_command cmd data.
Proof.
  intros parse_ast context pass_template G prefix cmd m data path parsed e n HD HG HP HT Hm Hs E.
  rewrite (C78_rewrite_file parse_ast context pass_template G prefix (fun txt _ => do t <- run_command cmd txt; Ok (Some t)) m data path parsed e n HD HG HP HT Hm Hs (fun _ => eq_refl) E). unfold run_command.
  destruct (codec_write data) as [b|]; [|reflexivity]. destruct (cmd b) as [st out]. destruct (codec_read out) as [t|]; [|reflexivity]. destruct (st =? 0); reflexivity.
Qed.
Print Assumptions C78_external_command.

(** In bytes.  For a file read from [bs] the command's input is [bs], its line
    endings normalised; what is written back is what it prints, likewise. *)
Theorem C78_piped : forall parse_ast context pass_template G prefix cmd m bs data path parsed e n out after,
  is_differ (e_differ e) -> python_grammar G -> parsed_source parse_ast context G data path parsed e -> pf_text parsed = data ->
  vtype (e_tree e) = TX "Module" -> (exists a b, m_span (create_match parsed (e_tree e)) = Some (a, b)) ->
  from_matcher (external_command prefix cmd) [] = Ok m ->
  codec_read bs = Some data -> cmd (universal_newlines bs) = (0, out) -> codec_read out = Some after ->
  rewrite_string parse_ast (python_searcher parse_ast context pass_template m) data path n = Ok after
  /\ codec_write after = Some (universal_newlines out).
Proof.
  intros parse_ast context pass_template G prefix cmd m bs data path parsed e n out after HD HG HP HT Hm Hs E Hr Hc Ho.
  rewrite (C78_external_command _ _ _ _ _ _ _ _ _ _ _ n HD HG HP HT Hm Hs E). unfold run_command. rewrite (write_read bs data Hr), Hc, Ho. split; [reflexivity|]. now apply write_read.
Qed.
Print Assumptions C78_piped.

(** Without carriage returns: exactly the bytes. *)
Theorem C78_piped_exactly : forall parse_ast context pass_template G prefix cmd m bs data path parsed e n out after,
  is_differ (e_differ e) -> python_grammar G -> parsed_source parse_ast context G data path parsed e -> pf_text parsed = data ->
  vtype (e_tree e) = TX "Module" -> (exists a b, m_span (create_match parsed (e_tree e)) = Some (a, b)) ->
  from_matcher (external_command prefix cmd) [] = Ok m ->
  codec_read bs = Some data -> ~ In CR bs -> cmd bs = (0, out) -> codec_read out = Some after -> ~ In CR out ->
  exists rewritten, rewrite_string parse_ast (python_searcher parse_ast context pass_template m) data path n = Ok rewritten
    /\ codec_write rewritten = Some out.
Proof.
  intros parse_ast context pass_template G prefix cmd m bs data path parsed e n out after HD HG HP HT Hm Hs E Hr Nb Hc Ho No. exists after.
  rewrite <- (un_no_cr out No). apply (C78_piped parse_ast context pass_template G prefix cmd m bs data path parsed e n out after); try assumption. now rewrite (un_no_cr bs Nb).
Qed.
Print Assumptions C78_piped_exactly.

(** A command that fails, or prints something that is no UTF-8: an exception, no new text. *)
Theorem C78_failure : forall parse_ast context pass_template G prefix cmd m data path parsed e n stdin,
  is_differ (e_differ e) -> python_grammar G -> parsed_source parse_ast context G data path parsed e -> pf_text parsed = data ->
  vtype (e_tree e) = TX "Module" -> (exists a b, m_span (create_match parsed (e_tree e)) = Some (a, b)) ->
  from_matcher (external_command prefix cmd) [] = Ok m ->
  codec_write data = Some stdin -> (fst (cmd stdin) <> 0 \/ codec_read (snd (cmd stdin)) = None) ->
  exists x, rewrite_string parse_ast (python_searcher parse_ast context pass_template m) data path n = Err x.
Proof.
  intros parse_ast context pass_template G prefix cmd m data path parsed e n stdin HD HG HP HT Hm Hs E Hw Hc.
  rewrite (C78_external_command _ _ _ _ _ _ _ _ _ _ _ n HD HG HP HT Hm Hs E). unfold run_command. rewrite Hw. destruct (cmd stdin) as [st out]. cbn [fst snd] in Hc.
  destruct (codec_read out) as [t|]; [|eauto]. destruct (st =? 0) eqn:Es; [|eauto]. apply Z.eqb_eq in Es. destruct Hc as [Hc|Hc]; [now elim Hc|discriminate Hc].
Qed.
Print Assumptions C78_failure.

Lemma normalised (t : list Z) : ~ In CR (universal_newlines t).
Proof.
  assert (H : forall n t, (length t <= n)%nat -> ~ In CR (universal_newlines t)); [|exact (H _ _ (le_n _))].
  clear t. induction n as [|n IH]; intros [|c t] Hn; cbn [length] in Hn; try (intros []); [lia|]. cbn [universal_newlines].
  destruct (Z.eqb_spec c CR) as [->|N].
  - destruct t as [|d t]; [intros [K|[]]; discriminate K|]. cbn [length] in Hn. destruct (d =? NL); (intros [K|K]; [discriminate K|]).
    + apply (IH t); [lia|exact K].
    + apply (IH (d :: t)); [cbn [length]; lia|exact K].
  - intros [K|K]; [now apply N|]. apply (IH t); [lia|exact K].
Qed.
(** A command that copies its input changes no file that was read from a disk. *)
Theorem C78_copy : forall parse_ast context pass_template G prefix m bs data path parsed e n,
  is_differ (e_differ e) -> python_grammar G -> parsed_source parse_ast context G data path parsed e -> pf_text parsed = data ->
  vtype (e_tree e) = TX "Module" -> (exists a b, m_span (create_match parsed (e_tree e)) = Some (a, b)) ->
  from_matcher (external_command prefix (fun b => (0, b))) [] = Ok m ->
  codec_read bs = Some data ->
  rewrite_string parse_ast (python_searcher parse_ast context pass_template m) data path n = Ok data.
Proof.
  intros parse_ast context pass_template G prefix m bs data path parsed e n HD HG HP HT Hm Hs E Hr.
  rewrite (C78_external_command _ _ _ _ _ _ _ _ _ _ _ n HD HG HP HT Hm Hs E). unfold run_command. pose proof (write_read bs data Hr) as W. rewrite W.
  assert (codec_read (universal_newlines bs) = Some data) as ->; [|reflexivity].
  unfold codec_read. rewrite (encode_decode _ _ W). unfold codec_read in Hr. destruct (utf8_decode bs) as [t|]; [|discriminate Hr]. injection Hr as <-.
  now rewrite (un_no_cr _ (normalised t)).
Qed.
Print Assumptions C78_copy.

(** *** A command that puts a line in front of [self.assertTrue(a is b)] *)
Definition x_env (parsed : parsed_file) (info : pyinfo) : env :=
  Env parsed (py_tree info) (py_tokens info) [] (fun c => 1000 + c) (fun c => 2000 + c) crude_differ.
Definition x_e : env := x_env q_file q_info.
Definition x_cmd : command := fun b => (0, TX "import os" ++ [NL] ++ b).
Example C78_nonvacuous :
  is_differ (e_differ x_e) /\ python_grammar q_grammar /\ parsed_source q_parse_file x_env q_grammar q_text (TX "x.py") q_file x_e
  /\ pf_text q_file = q_text /\ vtype (e_tree x_e) = TX "Module" /\ (exists a b, m_span (create_match q_file (e_tree x_e)) = Some (a, b))
  /\ codec_read q_text = Some q_text /\ ~ In CR q_text
  /\ exists m, from_matcher (external_command (TX "x") x_cmd) [] = Ok m
     /\ rewrite_string q_parse_file (python_searcher q_parse_file x_env (literal_template (TX "pass")) m) q_text (TX "x.py") 10
        = Ok (TX "import os" ++ [NL] ++ TX "self.assertTrue(a is b)").
Proof.
  assert (HP : parsed_source q_parse_file x_env q_grammar q_text (TX "x.py") q_file x_e).
  { destruct q_parsed as [P1 (info & P2 & P3 & P4) P5 P6 P7]. constructor; try assumption. exists q_info. repeat split. }
  split; [exact crude_is_differ|]. split; [split; reflexivity|]. split; [exact HP|]. split; [reflexivity|]. split; [reflexivity|].
  split; [do 2 eexists; vm_compute; reflexivity|]. split; [vm_compute; reflexivity|]. split.
  { intros K. assert (existsb (Z.eqb CR) q_text = true) by (apply existsb_exists; exists CR; split; [exact K|reflexivity]). vm_compute in H. discriminate H. }
  eexists. split; [reflexivity|].
  rewrite (C78_external_command q_parse_file x_env (literal_template (TX "pass")) q_grammar (TX "x") x_cmd _ q_text (TX "x.py") q_file x_e 10 crude_is_differ
             (conj eq_refl eq_refl) HP eq_refl eq_refl ltac:(do 2 eexists; vm_compute; reflexivity) eq_refl).
  vm_compute. reflexivity.
Qed.
