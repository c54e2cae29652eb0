(** C14, C48: pragma comments. *)
From Verif Require Import Py PyFacts Ast Pragmas PragmaSpec ScopeProofs FromTextProofs.

(** C48: [Pragma.from_text] reads exactly the texts of the documented form, and
    the reading is unique. *)
Theorem C48_from_text (uni_word : char -> bool) t start end_ p :
  from_text uni_word t start end_ = Some p <->
  p_start p = start /\ p_end p = end_
  /\ exists kvs, pragma_text (is_name uni_word) (is_value uni_word) t (p_tag p) kvs
                 /\ p_data p = dict_of kvs.
Proof. exact (from_text_spec uni_word t start end_ p). Qed.
Print Assumptions C48_from_text.

Theorem C48_reading_unique (uni_word : char -> bool) t tag kvs tag' kvs' :
  pragma_text (is_name uni_word) (is_value uni_word) t tag kvs ->
  pragma_text (is_name uni_word) (is_value uni_word) t tag' kvs' ->
  tag = tag' /\ kvs = kvs'.
Proof. exact (pragma_text_unique uni_word t tag kvs tag' kvs'). Qed.
Print Assumptions C48_reading_unique.

Example C48_nonvacuous :
  from_text (fun _ => false) (TX "# why: not   refex : disable=a.b , enable= c,") 3 9
  = Some (Pragma (TX "refex") [(TX "disable", TX "a.b"); (TX "enable", TX "c")] 3 9).
Proof. vm_compute. reflexivity. Qed.
Example C48_rejects :
  from_text (fun _ => false) (TX "# refex: disable=a, b") 3 9 = None.
Proof. vm_compute. reflexivity. Qed.

(** C14: the pragmas of a file are exactly the pragma comments, each starting
    at the start of its line and ending at the end of the comment if there is
    code on the line, at the end of the block otherwise; they come sorted. *)
Lemma parse_pragmas_In uw toks p : In p (parse_pragmas uw toks) <-> In p (pragmas_of_tokens uw toks).
Proof.
  unfold parse_pragmas. split; apply Permutation_in; [apply Permutation_sym|]; apply py_sorted_perm.
Qed.

Lemma scope_spec uw l em p :
  wf_file l em ->
  In p (parse_pragmas uw (map fst (file_tokens l em))) <->
  pragma_in (pragma_text (is_name uw) (is_value uw)) (file_tokens l em) p.
Proof.
  intro Hwf. rewrite parse_pragmas_In.
  assert (HP := pragmas_expected uw l em Hwf).
  assert (HI : In p (pragmas_of_tokens uw (map fst (file_tokens l em)))
               <-> In p (expected uw (true, 0) (file_tokens l em))).
  { split; apply Permutation_in; [exact HP|now apply Permutation_sym]. }
  rewrite HI, expected_In. clear HI HP. split.
  - intros (before & c & e & rest & E & Hc & Hf).
    pose proof (no_endmarker_before uw l em before c e rest Hwf E) as Hne.
    pose proof (after_fresh _ Hne) as Hfr. apply from_text_spec in Hf.
    destruct Hf as (Hs & He & kvs & Ht & Hd).
    exists before, c, e, rest, kvs. repeat (split; [assumption|]).
    split; [rewrite Hs; apply after_line|]. split; intro Ho.
    + apply Hfr in Ho. now rewrite Ho in He.
    + destruct (fst _); [exfalso; apply Ho, Hfr; reflexivity|assumption].
  - intros (before & c & e & rest & kvs & E & Hc & Ht & Hd & Hs & H1 & H2).
    pose proof (no_endmarker_before uw l em before c e rest Hwf E) as Hne.
    pose proof (after_fresh _ Hne) as Hfr.
    exists before, c, e, rest. repeat (split; [assumption|]). apply from_text_spec.
    split; [eapply (line_starts_unique uw); [exact Hs|apply after_line]|].
    split; [|eauto].
    destruct (fst (after (true, 0) (map fst before))).
    + apply H1, Hfr. reflexivity.
    + apply H2. intro Ho. apply Hfr in Ho. discriminate.
Qed.

Theorem C14_scope (uni_word : char -> bool) l endmarker p :
  wf_file l endmarker ->
  In p (parse_pragmas uni_word (map fst (file_tokens l endmarker))) <->
  pragma_in (pragma_text (is_name uni_word) (is_value uni_word)) (file_tokens l endmarker) p.
Proof. exact (scope_spec uni_word l endmarker p). Qed.
Print Assumptions C14_scope.

Theorem C14_sorted (uni_word : char -> bool) toks :
  Sorted (fun a b => p_start a <= p_start b) (parse_pragmas uni_word toks).
Proof.
  unfold parse_pragmas.
  assert (H : StronglySorted (fun a b => (p_start a <=? p_start b) = true)
                (py_sorted (fun a b => p_start a <=? p_start b) (pragmas_of_tokens uni_word toks))).
  { apply py_sorted_sorted.
    - intros a b. destruct (Z.leb_spec (p_start a) (p_start b)); [auto|right; apply Z.leb_le; lia].
    - intros a b c H1 H2. apply Z.leb_le in H1, H2. apply Z.leb_le. lia. }
  apply StronglySorted_Sorted in H. eapply Sorted_ind with (P := fun l => Sorted (fun a b => p_start a <= p_start b) l);
    [constructor| |exact H].
  intros a l _ IH Hd. constructor; [assumption|]. inversion Hd; constructor. now apply Z.leb_le.
Qed.
Print Assumptions C14_sorted.

(** [if x:] / [    # refex: disable=a] / [    y  # refex: disable=b] / [z]: *)
Definition T (ty : Z) (s : text) (a b : Z) := Tok ty s a b 0.
Definition scope_sample : list item :=
  [ Single (T 1 (TX "if") 0 2); Single (T 1 (TX "x") 3 4); Single (T 54 (TX ":") 4 5);
    Block (T T_NEWLINE [NL] 5 6)
      [T T_COMMENT (TX "# refex: disable=a") 10 28; T T_NL [NL] 28 29]
      (T T_INDENT (TX "    ") 29 33)
      [Single (T 1 (TX "y") 33 34); Single (T T_COMMENT (TX "# refex: disable=b") 36 54);
       Single (T T_NEWLINE [NL] 54 55)]
      (T T_DEDENT [] 55 55);
    Single (T 1 (TX "z") 55 56); Single (T T_NEWLINE [NL] 56 57) ].
Example C14_nonvacuous :
  wf_file scope_sample (T T_ENDMARKER [] 57 57)
  /\ parse_pragmas (fun _ => false) (map fst (file_tokens scope_sample (T T_ENDMARKER [] 57 57)))
     = [Pragma (TX "refex") [(TX "disable", TX "a")] 6 55;
        Pragma (TX "refex") [(TX "disable", TX "b")] 29 54].
Proof.
  split; [|vm_compute; reflexivity].
  split; [|split; [reflexivity|]].
  - unfold scope_sample.
    repeat match goal with |- Forall _ (_ :: _) => apply Forall_cons | |- Forall _ [] => apply Forall_nil end;
      cbn; repeat match goal with
                  | |- _ /\ _ => split
                  | |- Forall _ (_ :: _) => apply Forall_cons
                  | |- Forall _ [] => apply Forall_nil
                  | |- _ \/ _ => first [left; reflexivity|right; reflexivity]
                  end; try discriminate; auto.
  - assert (HN : NoDup (line_ends (map fst (file_tokens scope_sample (T T_ENDMARKER [] 57 57))))).
    { vm_compute. repeat constructor; cbn; intuition discriminate. }
    intros a x b y c E Hx Hy Heq. rewrite E in HN. unfold line_ends in HN.
    rewrite filter_app in HN. cbn [filter] in HN. apply endsb_spec in Hx, Hy. rewrite Hx in HN.
    rewrite filter_app in HN. cbn [filter] in HN. rewrite Hy in HN.
    rewrite map_app in HN. cbn [map] in HN. apply NoDup_app_r in HN.
    inversion HN as [|? ? Hn _]. apply Hn. rewrite map_app. apply in_or_app. right. left. now symmetry.
Qed.
