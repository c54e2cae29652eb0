(** C83: the report of crashed searches reproduces the run. *)
From Verif Require Import Py PyFacts Subst Fmt Codec CodecProofs Runner RunnerSpec RunnerProofs PropsRunner Main Rxerr ShellSpec.

Lemma safe_plain c : shlex_safe c = true -> blank c = false /\ (c =? 39) = false /\ (c =? 34) = false /\ special c = false.
Proof.
  intros H.
  assert (R : 37 <= c <= 122).
  { unfold shlex_safe in H. cbn in H. lia. }
  assert (K : forallb (fun n => let c := Z.of_nat n in negb (shlex_safe c) || (negb (blank c) && negb (c =? 39) && negb (c =? 34) && negb (special c))) (seq 0 123) = true) by (vm_compute; reflexivity).
  rewrite forallb_forall in K. specialize (K (Z.to_nat c) ltac:(apply in_seq; lia)). cbn zeta in K. rewrite Z2Nat.id in K by lia. rewrite H in K. cbn [negb orb] in K.
  repeat (apply andb_prop in K as [K ?]). repeat match goal with X : negb _ = true |- _ => apply negb_true_iff in X end. auto.
Qed.
Lemma words_safe s : forall w rest, forallb shlex_safe s = true -> sh_words (s ++ rest) (Word w) = sh_words rest (Word (w ++ s)).
Proof.
  induction s as [|c s IH]; intros w rest H; [now rewrite app_nil_r|]. cbn [forallb] in H. apply andb_prop in H as [Hc H].
  destruct (safe_plain c Hc) as (E1 & E2 & E3 & E4). cbn [app sh_words]. rewrite E1, E2, E3, E4, IH by exact H. now rewrite <- app_assoc.
Qed.
Lemma words_single s : forall w rest,
  sh_words (concat (map (fun c => if c =? SQ then [SQ; 34; SQ; 34; SQ] else [c]) s) ++ [SQ] ++ rest) (Single w) = sh_words rest (Word (w ++ s)).
Proof.
  induction s as [|c s IH]; intros w rest; [cbn; now rewrite app_nil_r|]. cbn [map concat]. rewrite <- app_assoc. unfold SQ in *.
  destruct (Z.eqb_spec c 39) as [->|N].
  - etransitivity; [exact (IH (w ++ [39]) rest)|]. now rewrite <- app_assoc.
  - cbn [app sh_words]. replace (c =? 39) with false by lia. etransitivity; [exact (IH (w ++ [c]) rest)|]. now rewrite <- app_assoc.
Qed.
Lemma words_quoted a : forall w rest, sh_words (shlex_quote a ++ rest) (Word w) = sh_words rest (Word (w ++ a)).
Proof.
  intros w rest. unfold shlex_quote. destruct a as [|c a]; [cbn; now rewrite app_nil_r|]. destruct (forallb shlex_safe (c :: a)) eqn:E; [now apply words_safe|].
  rewrite <- !app_assoc. exact (words_single (c :: a) w rest).
Qed.
Lemma words_start a rest : sh_words (shlex_quote a ++ rest) Between = sh_words (shlex_quote a ++ rest) (Word []).
Proof.
  assert (K : exists c u, shlex_quote a = c :: u /\ blank c = false).
  { unfold shlex_quote. destruct a as [|c a]; [eexists; eexists; split; reflexivity|]. destruct (forallb shlex_safe (c :: a)) eqn:E; [|eexists; eexists; split; reflexivity].
    cbn [forallb] in E. apply andb_prop in E as [E _]. apply safe_plain in E as [E _]. eauto. }
  destruct K as (c & u & -> & E). cbn [app sh_words]. now rewrite E.
Qed.

(** C83.  The printed command line consists, for a shell, of exactly the arguments
    of the run. *)
Theorem C83_command : forall argv, shell_words (join (TX " ") (map shlex_quote argv)) = Some argv.
Proof.
  unfold shell_words. induction argv as [|a argv IH]; [reflexivity|]. destruct argv as [|b argv].
  - cbn [map join]. rewrite <- (app_nil_r (shlex_quote a)), words_start, words_quoted. reflexivity.
  - change (join (TX " ") (map shlex_quote (a :: b :: argv))) with (shlex_quote a ++ [32] ++ join (TX " ") (map shlex_quote (b :: argv))).
    rewrite words_start, words_quoted. exact (f_equal (option_map (cons a)) IH).
Qed.
Print Assumptions C83_command.

Lemma failures_dict w ru display f sty pairs st : rewrite_files w ru display f sty pairs = (st, None) -> dict_ok (x_failures st).
Proof.
  intros Ef. apply rewrite_loop in Ef as (st1 & Ef & _ & <-). assert (G : dict_ok (x_failures (RW f [] false [] [] sty))) by constructor. revert Ef G.
  generalize (RW f [] false [] [] sty) as s0. induction pairs as [|[r p] pairs IH]; intros s0 H G; cbn [run_loop] in H; [now injection H as <-|].
  destruct (run_file w ru display s0 r p) as [s1 [e|]] eqn:E; [discriminate H|]. apply (IH s1 H).
  apply run_file_failures in E as [[E _]|(t & E & _)]; rewrite E; [exact G|]. now apply dict_ok_dset.
Qed.
(** What is printed about the file [p]. *)
Definition tells (highlight : text -> text) (traceback : text -> text) (p name : text) : text :=
  [NL; NL] ++ TX "File: " ++ p ++ [NL] ++ TX "Content: " ++ name ++ [NL] ++ highlight (traceback p) ++ [NL].
Lemma debug_contents highlight temp_name traceback (bytes_of : text * text -> bytes -> Prop) l : forall k,
  (forall p t, In (p, t) l -> exists b, codec_write t = Some b /\ bytes_of (p, t) b) ->
  exists files, debug_failures highlight temp_name k (map (fun fc => (fst fc, Failure (Some (snd fc)) (Some (traceback (fst fc))))) l)
    = Ok (concat (map (fun pf => tells highlight traceback (fst pf) (snd pf)) (combine (map fst l) (map fst files))), files)
    /\ map fst files = map temp_name (seq k (length l)) /\ Forall2 bytes_of l (map snd files).
Proof.
  induction l as [|[p t] l IH]; intros k H; [exists []; split; [reflexivity|split; [reflexivity|constructor]]|].
  destruct (H p t (or_introl eq_refl)) as (b & Eb & B). destruct (IH (S k)) as (files & E & N & F); [intros; apply H; now right|].
  exists ((temp_name k, b) :: files). split; [|split].
  - cbn [map debug_failures fl_content fl_traceback fst snd]. rewrite Eb. cbn [bind length]. replace (k + 1)%nat with (S k) by lia. rewrite E. cbn [bind].
    f_equal. f_equal. cbn [combine map concat fst snd]. unfold tells. rewrite <- !app_assoc. reflexivity.
  - cbn [map fst length seq]. now rewrite N.
  - cbn [map snd]. now constructor.
Qed.

(** The report that a run leaves of its crashed searches: the command is printed, and
    for each of the files the name and the traceback; and each time a file is made
    whose contents are those of the searched file, with line endings normalised. *)
Theorem C83_report : forall w ru display f sty pairs st highlight temp_name traceback argv,
  no_clash pairs -> rewrite_files w ru display f sty pairs = (st, None) -> argv <> [] ->
  exists line files,
    debug highlight temp_name (report_of argv traceback (x_failures st))
    = Ok (TX "Command: " ++ line ++ TX " " ++ [NL; NL]
          ++ concat (map (fun pf => tells highlight traceback (fst pf) (snd pf)) (combine (map fst (x_failures st)) (map fst files))), files)
    /\ shell_words line = Some argv
    /\ map fst files = map temp_name (seq 0 (length (x_failures st)))
    /\ (forall r, In r (map fst (x_failures st)) <-> exists p t, In (r, p) pairs /\ search_crashes w ru display f r p t)
    /\ Forall2 (fun r b => exists bs, f r = Some bs /\ b = universal_newlines bs) (map fst (x_failures st)) (map snd files).
Proof.
  intros w ru display f sty pairs st highlight temp_name traceback argv Hc Hr Ha.
  pose proof (C36_failures_reported_exactly w ru display f sty pairs st Hc Hr) as X. pose proof (failures_dict w ru display f sty pairs st Hr) as D.
  destruct (debug_contents highlight temp_name traceback (fun rt b => exists bs, f (fst rt) = Some bs /\ b = universal_newlines bs) (x_failures st) 0) as (files & E & N & F).
  { intros r t Hin. apply (In_dget _ _ _ D) in Hin. apply X in Hin as (p & _ & (bs & B1 & _ & B2) & _). exists (universal_newlines bs). split; [now apply write_read|]. cbn [fst]. eauto. }
  exists (join (TX " ") (map shlex_quote argv)), files. split; [|split; [apply C83_command|split; [exact N|split]]].
  - unfold debug, report_of. cbn [rp_argv rp_failures]. rewrite E. cbn [bind]. destruct argv as [|a argv]; [congruence|]. rewrite <- !app_assoc. reflexivity.
  - intros r. split.
    + intros H. apply in_map_iff in H as ([r' t] & <- & H). cbn [fst]. apply (In_dget _ _ _ D) in H. apply X in H as (p & H). eauto.
    + intros (p & t & H). assert (K : dget (x_failures st) r = Some t) by (apply X; eauto). apply dget_In in K. now apply (in_map fst) in K.
  - clear -F. induction F as [|x b l bs H F IH]; constructor; auto.
Qed.
Print Assumptions C83_report.

Example C83_nonvacuous :
  join (TX " ") (map shlex_quote [TX "refex"; TX "--sub=it's $x"; []; TX "a b.py"]) = TX "refex '--sub=it'""'""'s $x' '' 'a b.py'"
  /\ shell_words (TX "refex '--sub=it'""'""'s $x' '' 'a b.py'") = Some [TX "refex"; TX "--sub=it's $x"; []; TX "a b.py"]
  /\ shell_words (TX "refex a$b") = None /\ shell_words (TX "refex it's") = None
  /\ exists st, rewrite_files good_world (overlap_runner true) (fun p => p) sample_fs (rstate_init 0) (id_pairs [TX "a.py"; TX "b.py"]) = (st, None)
     /\ map fst (x_failures st) = [TX "a.py"]
     /\ debug (fun t => t) (fun k => TX "/tmp/t.py") (report_of [TX "refex"; TX "a b"] (fun p => TX "Traceback") (x_failures st))
        = Ok (TX "Command: refex 'a b' " ++ [NL; NL; NL; NL] ++ TX "File: a.py" ++ [NL] ++ TX "Content: /tmp/t.py" ++ [NL] ++ TX "Traceback" ++ [NL],
              [(TX "/tmp/t.py", TX "crash")]).
Proof.
  split; [vm_compute; reflexivity|]. split; [vm_compute; reflexivity|]. split; [vm_compute; reflexivity|]. split; [vm_compute; reflexivity|].
  eexists. split; [vm_compute; reflexivity|]. split; vm_compute; reflexivity.
Qed.
