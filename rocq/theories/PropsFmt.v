(** C09, C10, C43, C44: displaying substitutions.  Theorems only. *)
From Verif Require Import Py PyFacts Subst Fmt ApplySpec SubstSpec FmtSpec SubstProofs SweepProofs DiffProofs
  FmtProofs RenderProofs Samples PropsSubst.

(** *** C09 *)
Theorem C09_line_expanded_span_smallest : forall s a b,
  0 <= a -> a <= b -> b <= tlen s ->
  exists x y, line_expanded_span s (Some a) (Some b) = (x, y)
    /\ x <= a /\ b <= y /\ 0 <= x /\ y <= tlen s
    /\ at_line_start s x /\ at_line_end s y
    /\ (forall x' y', x' <= a -> b <= y' -> at_line_start s x' -> at_line_end s y' -> x' <= x /\ y <= y').
Proof.
  intros s a b H1 H2 H3. pose proof (line_expanded_span_spec s (Some a) (Some b)) as H. cbn in H.
  destruct (Z.ltb_spec a 0); [lia|]. destruct (Z.ltb_spec b 0); [lia|].
  replace (Z.max a b) with b in H by lia. apply H; lia.
Qed.
Print Assumptions C09_line_expanded_span_smallest.

(** Missing and negative bounds, and an end before the start. *)
Theorem C09_line_expanded_span_defaults : forall s a b,
  line_expanded_span s None b = line_expanded_span s (Some 0) b
  /\ line_expanded_span s a None = line_expanded_span s a (Some (tlen s))
  /\ (forall k, 0 < k -> k <= tlen s ->
        line_expanded_span s (Some (- k)) b = line_expanded_span s (Some (tlen s - k)) b
        /\ line_expanded_span s a (Some (- k)) = line_expanded_span s a (Some (tlen s - k)))
  /\ (forall x y, 0 <= y -> y < x -> line_expanded_span s (Some x) (Some y) = line_expanded_span s (Some x) (Some x)).
Proof.
  intros s a b. repeat split.
  - unfold line_expanded_span. destruct (Z.ltb_spec (- k) 0); [|lia]. destruct (Z.ltb_spec (tlen s - k) 0); [lia|].
    now replace (tlen s + - k) with (tlen s - k) by lia.
  - unfold line_expanded_span. destruct (Z.ltb_spec (- k) 0); [|lia]. destruct (Z.ltb_spec (tlen s - k) 0); [lia|].
    now replace (tlen s + - k) with (tlen s - k) by lia.
  - intros x y H1 H2. unfold line_expanded_span. destruct (Z.ltb_spec x 0); [lia|]. destruct (Z.ltb_spec y 0); [lia|].
    destruct (Z.ltb_spec y x); [|lia]. now rewrite Z.ltb_irrefl.
Qed.
Print Assumptions C09_line_expanded_span_defaults.

Example C09_nonvacuous :
  line_expanded_span (TX "ab" ++ [NL] ++ TX "cdef" ++ [NL] ++ TX "g") (Some 4) (Some 5) = (3, 7)
  /\ line_expanded_span (TX "ab" ++ [NL] ++ TX "cdef" ++ [NL] ++ TX "g") (Some 1) (Some (-1)) = (0, 9).
Proof. split; vm_compute; reflexivity. Qed.

(** *** C10 *)
(** A block that is not the last one ends with an unchanged piece that ends in a
    newline; in a block with changes that is the only newline in unchanged text,
    so the block holds nothing but the lines touched by the change. *)
Definition cut_after_newline (data : text) (blk : bool * list piece) : Prop :=
  exists u a b ls, snd blk = u ++ [LabeledSpan (a, b) ls] /\ 0 <= a < b
    /\ char_at data (b - 1) = Some NL
    /\ (fst blk = true ->
        (forall p, In p u -> is_diff_piece p = false -> no_newline (piece_before data p))
        /\ no_newline (slice data a (b - 1))).

Theorem C10_blocks_lose_nothing : forall data diffs,
  Forall (in_text data) diffs ->
  let bs := sub_diff_blocks data diffs in
  let out := concat (map snd bs) in
  read_before data out = read_before data diffs
  /\ read_after data out = read_after data diffs
  /\ filter is_diff_piece out = filter is_diff_piece diffs
  /\ (forall q, In q out -> exists p, In p diffs /\ part_of q p).
Proof. intros data diffs H. destruct (sub_diff_blocks_spec data diffs H) as (H1 & H2 & H3 & H4 & _). auto. Qed.
Print Assumptions C10_blocks_lose_nothing.

Theorem C10_blocks_are_whole_lines : forall data diffs,
  Forall (in_text data) diffs ->
  let bs := sub_diff_blocks data diffs in
  (forall flag blk, In (flag, blk) bs -> (flag = true <-> exists p, In p blk /\ is_diff_piece p = true))
  /\ exists init last, bs = init ++ [last] /\ Forall (cut_after_newline data) init
       /\ (forall p, In p (snd last) -> is_diff_piece p = false -> no_newline (piece_before data p)).
Proof.
  intros data diffs H. destruct (sub_diff_blocks_spec data diffs H) as (_ & _ & _ & _ & FL & bs & lst & E & BE & PL).
  cbv zeta in *. split.
  - intros flag blk Hin. rewrite Forall_forall in FL. apply FL in Hin. unfold flag_ok in Hin. cbn in Hin. subst flag.
    apply existsb_exists.
  - exists bs, lst. auto.
Qed.
Print Assumptions C10_blocks_are_whole_lines.

Example C10_nonvacuous :
  let data := TX "aXb" ++ [NL] ++ TX "c" ++ [NL] ++ TX "dYe" in
  let diffs := [LabeledSpan (0, 1) []; DiffSpan (1, 2) (TX "x") (TX "P"); LabeledSpan (2, 7) [];
                DiffSpan (7, 8) (TX "y") (TX "Q"); LabeledSpan (8, 9) []] in
  Forall (in_text data) diffs
  /\ sub_diff_blocks data diffs
     = [(true, [LabeledSpan (0, 1) []; DiffSpan (1, 2) (TX "x") (TX "P"); LabeledSpan (2, 4) []]);
        (false, [LabeledSpan (4, 6) []]);
        (true, [LabeledSpan (6, 7) []; DiffSpan (7, 8) (TX "y") (TX "Q"); LabeledSpan (8, 9) []])].
Proof.
  cbn zeta. split; [|vm_compute; reflexivity].
  repeat (constructor; [first [exact I|repeat split; vm_compute; discriminate]|]). constructor.
Qed.

(** *** C43 *)
(** The same label set gets the same style, whatever was rendered in between;
    the exception is the documented one. *)
Theorem C43_same_labels_same_style : forall st s ls st2 s' ls',
  ~ primary_only s ls -> ~ primary_only s' ls' -> same_labels ls ls' ->
  later (fst (style_for st s ls)) st2 ->
  snd (style_for st2 s' ls') = snd (style_for st s ls).
Proof. exact styles_stable. Qed.
Print Assumptions C43_same_labels_same_style.

Theorem C43_primary_only_is_bright : forall st s ls,
  primary_only s ls -> style_for st s ls = (st, BRIGHT).
Proof.
  intros st s ls [H1 H2]. unfold style_for. apply set_eqb_ok in H2. rewrite H2.
  destruct (Z.gtb_spec (Z.of_nat (length (matched_spans s))) 1); [reflexivity|lia].
Qed.
Print Assumptions C43_primary_only_is_bright.

(** With colour off, a mere match prints exactly the lines it spans. *)
Theorem C43_uncoloured_match_is_the_text : forall s data st,
  dict_ok (matched_spans s) -> nonneg_spans s -> well_oriented s -> matched_spans s <> [] ->
  (forall l a b, spans_of s l a b -> b <= tlen data) ->
  replacements s = None \/ replacements s = Some [] ->
  exists lo hi x y st',
    is_hull s lo hi /\ line_expanded_span data (Some lo) (Some hi) = (x, y)
    /\ render false default_fmt data s st = Ok (st', (false, slice data x y ++ [NL])).
Proof.
  intros s data st Hd Hnn Hw Hne Hb Hr.
  assert (Hrep : has_replacements s = false) by (unfold has_replacements; destruct Hr as [-> | ->]; reflexivity).
  destruct (render_match_plain s data default_fmt st Hd Hnn Hw Hne Hb Hrep) as (lo & hi & x & y & st' & Hh & Exy & H1 & H2 & H3 & E).
  exists lo, hi, x, y, st'. split; [assumption|]. split; [assumption|]. rewrite E. unfold default_fmt.
  assert (Hlo : 0 <= lo).
  { destruct Hh as ((l & b & H) & _). unfold nonneg_spans in Hnn. rewrite Forall_forall in Hnn. apply (Hnn _ H). }
  assert (Hhi : hi <= tlen data) by (destruct Hh as (_ & (l & a & H) & _); eapply Hb; eauto).
  destruct (C09_line_expanded_span_smallest data lo hi Hlo H2 Hhi) as (x' & y' & E' & _ & _ & X0 & _).
  rewrite Exy in E'. injection E' as <- <-. now rewrite !slice_app by lia.
Qed.
Print Assumptions C43_uncoloured_match_is_the_text.

Example C43_nonvacuous :
  ~ primary_only sample_swap [TX "__root"; TX "a"] /\ primary_only sample_swap [TX "__root"]
  /\ later (fst (style_for (rstate_init 0) sample_swap [TX "__root"; TX "a"]))
           (RState [([], []); ([TX "__root"; TX "a"], cycle_style 0); ([TX "f"], cycle_style 1)] 2)
  /\ exists st', render false default_fmt sample_text sample_match (rstate_init 0)
       = Ok (st', (false, sample_text ++ [NL])).
Proof.
  split; [|split; [|split]].
  - intros [_ H]. destruct (proj1 (H (TX "a")) (or_intror (or_introl eq_refl))) as [E|[]]. discriminate.
  - split; [cbn; lia|]. intro l. tauto.
  - eapply later_style with (s := sample_rename) (ls := [TX "f"]). vm_compute. constructor.
  - eexists. vm_compute. reflexivity.
Qed.

(** *** C44 *)
(** Whatever the labels are, the uncoloured output is a sequence of lines, each
    tagged as kept, removed or added; the kept and removed ones are the old side
    of the diff, the kept and added ones the new side. *)
Theorem C44_output_is_tagged_lines : forall s data fmt st,
  dict_ok (matched_spans s) -> nonneg_spans s -> well_oriented s -> matched_spans s <> [] ->
  (forall l a b, spans_of s l a b -> b <= tlen data) -> has_replacements s = true ->
  exists ps lo hi x y st' ls,
    as_diff s = Ok ps /\ is_hull s lo hi
    /\ line_expanded_span data (Some lo) (Some hi) = (x, y)
    /\ render false fmt data s st = Ok (st', (true, print_lines ls))
    /\ splitlines_keep (print_lines ls) = map (fun l => tag_char (fst l) :: snd l) ls
    /\ Forall (fun l => is_line (snd l)) ls
    /\ with_final_newline (slice data x lo ++ read_before data ps ++ slice data hi y) (old_text ls)
    /\ with_final_newline (slice data x lo ++ read_after data ps ++ slice data hi y) (new_text ls).
Proof. exact render_diff_lines. Qed.
Print Assumptions C44_output_is_tagged_lines.

(** If moreover the preview is faithful (C08), the old lines are the lines of the
    file and the new ones the lines of the rewritten file. *)
Theorem C44_output_is_the_line_diff_partial : forall s data fmt st,
  wf_sub s -> nonneg_spans s -> well_oriented s -> replaced_apart s -> no_dangling_start s ->
  (forall l a b, spans_of s l a b -> b <= tlen data) -> has_replacements s = true ->
  exists lo hi x y st' ls mid,
    is_hull s lo hi /\ line_expanded_span data (Some lo) (Some hi) = (x, y)
    /\ render false fmt data s st = Ok (st', (true, print_lines ls))
    /\ splitlines_keep (print_lines ls) = map (fun l => tag_char (fst l) :: snd l) ls
    /\ apply_substitutions data [s] = Ok (slice_to data x ++ mid ++ slice_from data y)
    /\ with_final_newline (slice data x y) (old_text ls)
    /\ with_final_newline mid (new_text ls).
Proof.
  intros s data fmt st Hwf Hnn Hw Hap Hdg Hb Hrep. pose proof Hwf as (Hd & _ & Hv).
  destruct (as_diff_spec s data Hwf Hnn Hw Hap Hdg) as (ps & lo & hi & E & Hh & T & _ & Bf & Ap).
  pose proof Hh as ((l1 & b1 & S1) & (m1 & a1 & E1) & HH).
  assert (Hne : matched_spans s <> []) by (intro E0; unfold spans_of in S1; rewrite E0 in S1; destruct S1).
  destruct (render_diff_lines s data fmt st Hd Hnn Hw Hne Hb Hrep) as (ps' & lo' & hi' & x & y & st' & ls & E' & Hh' & Exy & R & SL & _ & O & N).
  rewrite E in E'. injection E' as <-. destruct (hull_unique _ _ _ _ _ Hh Hh') as [<- <-].
  assert (Hlo : 0 <= lo) by (unfold nonneg_spans in Hnn; rewrite Forall_forall in Hnn; apply (Hnn _ S1)).
  assert (Hhi : hi <= tlen data) by (eapply Hb; eauto).
  assert (Hlh : lo <= hi) by (pose proof (Hw _ _ _ S1); pose proof (HH _ _ _ S1); lia).
  destruct (C09_line_expanded_span_smallest data lo hi Hlo Hlh Hhi) as (x' & y' & Exy' & X1 & Y1 & X0 & Y0 & _).
  rewrite Exy in Exy'. injection Exy' as <- <-.
  exists lo, hi, x, y, st', ls, (slice data x lo ++ read_after data ps ++ slice data hi y).
  do 4 (split; [assumption|]). split; [|split; [|assumption]].
  - rewrite Ap. f_equal. unfold read_after, slice_to, slice_from.
    rewrite <- (slice_app data 0 x lo), <- (slice_app data hi y (tlen data)) by lia. now rewrite <- !app_assoc.
  - unfold read_before in O. rewrite Bf in O. now rewrite !slice_app in O by lia.
Qed.
Print Assumptions C44_output_is_the_line_diff_partial.

Theorem C44_output_is_the_line_diff_refuted : exists s data st',
  wf_sub s /\ nonneg_spans s /\ well_oriented s /\ replaced_apart s /\ has_replacements s = true
  /\ apply_substitutions data [s] = Ok (TX "xb")
  /\ data = TX "ab"
  /\ render false default_fmt data s (rstate_init 0) = Ok (st', (true, TX "-aab" ++ [NL] ++ TX "+xxb" ++ [NL])).
Proof.
  exists (mksub [(TX "0", (0, 2)); (TX "1", (0, 1)); (TX "2", (1, 2))] [(TX "1", TX "x")]), (TX "ab").
  eexists.
  split; [apply wf_subb_ok; reflexivity|]. split; [apply nonnegb_ok; reflexivity|].
  split; [intros l a b [E|[E|[E|[]]]]; injection E as <- <- <-; lia|].
  split.
  { intros l m a b c d t u (_ & r & Er & H) (_ & r' & Er' & H') Hne.
    injection Er as <-. injection Er' as <-. destruct H as [H|[]], H' as [H'|[]]. congruence. }
  split; [reflexivity|]. split; [vm_compute; reflexivity|]. split; [reflexivity|]. vm_compute. reflexivity.
Qed.
Print Assumptions C44_output_is_the_line_diff_refuted.

Example C44_nonvacuous :
  (* hypotheses: see C08_nonvacuous *)
  (forall l a b, spans_of sample_swap l a b -> b <= tlen sample_text) /\ has_replacements sample_swap = true
  /\ exists st', render false default_fmt sample_text sample_swap (rstate_init 0)
       = Ok (st', (true, TX "-foo(bar, baz)" ++ [NL] ++ TX "+foo(baz, bar)" ++ [NL])).
Proof.
  split; [intros l a b [E|[E|[E|[]]]]; injection E as <- <- <-; vm_compute; discriminate|].
  split; [reflexivity|]. eexists. vm_compute. reflexivity.
Qed.
