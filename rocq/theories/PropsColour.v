(** C58: coloured output.  Theorems only. *)
From Verif Require Import Py PyFacts Subst Fmt SubstSpec FmtSpec Samples ColourSpec ColourProofs.

(** Sent to a terminal, the coloured output shows exactly the characters of the
    uncoloured output, leaves the terminal as it was and has no styled line ends;
    either both succeed or both raise the same exception. *)
Theorem C58_colours_are_decoration : forall segs data s n st,
  later (rstate_init n) st -> plain_text data -> plain_sub s -> plain_format segs ->
  (exists st' is_diff sent plain,
     render true (fill segs) data s st = Ok (st', (is_diff, sent))
     /\ render false (fill segs) data s st = Ok (st', (is_diff, plain))
     /\ map fst (screen sent) = plain
     /\ leaves_terminal_normal sent
     /\ (forall sty, In (NL, sty) (screen sent) -> sty = []))
  \/ (exists x, render true (fill segs) data s st = Err x /\ render false (fill segs) data s st = Err x).
Proof.
  intros segs data s n st Hl Hd Hs Hf.
  destruct (colours_are_decoration segs data s n st Hl Hd Hs Hf) as [(st' & d & shown & sent & E1 & E2 & E3 & N & L & _)|H];
    [left|now right].
  exists st', d, sent, (map fst shown). rewrite E3. auto.
Qed.
Print Assumptions C58_colours_are_decoration.

(** In a diff, what is shown in bright red is what is removed and what is shown in
    bright green is what is added. *)
Theorem C58_highlights_are_the_change : forall segs data s n st st' sent ps,
  later (rstate_init n) st -> plain_text data -> plain_sub s -> plain_format segs ->
  render true (fill segs) data s st = Ok (st', (true, sent)) -> as_diff s = Ok ps ->
  shown_as red_bright (screen sent) = without_newlines (removed_text data ps)
  /\ shown_as green_bright (screen sent) = without_newlines (added_text ps).
Proof.
  intros segs data s n st st' sent ps Hl Hd Hs Hf E Ea.
  destruct (colours_are_decoration segs data s n st Hl Hd Hs Hf) as [(st2 & d & shown & sent2 & E1 & _ & E3 & _ & _ & R)|(x & E1 & _)].
  - rewrite E in E1. injection E1 as _ <- <-. rewrite E3. now apply R.
  - rewrite E in E1. discriminate.
Qed.
Print Assumptions C58_highlights_are_the_change.

Example C58_nonvacuous :
  later (rstate_init 0) (rstate_init 0) /\ plain_text sample_text /\ plain_sub sample_swap
  /\ plain_format [Literal (TX ">"); Head; Match; Tail]
  /\ (exists st' sent, render true (fill [Head; Match; Tail]) sample_text sample_swap (rstate_init 0) = Ok (st', (true, sent))
        /\ map fst (screen sent) = TX "-foo(bar, baz)" ++ [NL] ++ TX "+foo(baz, bar)" ++ [NL]
        /\ shown_as red_bright (screen sent) = TX "barbaz" /\ shown_as green_bright (screen sent) = TX "bazbar"
        /\ shown_as [TX "31"] (screen sent) = TX "-" /\ shown_as [TX "32"] (screen sent) = TX "+")
  /\ (exists st' sent, render true (fill [Head; Match; Tail]) sample_text sample_match (rstate_init 0) = Ok (st', (false, sent))
        /\ map fst (screen sent) = sample_text ++ [NL] /\ tlen sent > tlen sample_text + 1).
Proof.
  split; [constructor|].
  assert (P : forall t, forallb (fun c => negb (c =? ESC) && negb (c =? 13)) t = true -> plain_text t).
  { intros t H. rewrite forallb_forall in H. split; intro X; apply H in X; discriminate. }
  split; [now apply P|]. split.
  { intros r E. injection E as <-. repeat constructor; now apply P. }
  split; [repeat constructor; now apply P|].
  split; do 2 eexists; (split; [vm_compute; reflexivity|]); vm_compute; repeat split; reflexivity.
Qed.

(** The text must have no carriage returns: with one, the coloured output has an
    additional line. *)
Example C58_carriage_return :
  exists st1 sent plain,
    render true default_fmt ([97; 13; 10]) (mksub [(TX "0", (0, 1))] [(TX "0", TX "b")]) (rstate_init 0) = Ok (st1, (true, sent))
    /\ render false default_fmt ([97; 13; 10]) (mksub [(TX "0", (0, 1))] [(TX "0", TX "b")]) (rstate_init 0) = Ok (st1, (true, plain))
    /\ plain = TX "-a" ++ [13; 10] ++ TX "+b" ++ [13; 10]
    /\ map fst (screen sent) = TX "-a" ++ [13] ++ TX "-" ++ [10] ++ TX "+b" ++ [13] ++ TX "+" ++ [10].
Proof. do 3 eexists. split; [vm_compute; reflexivity|]. split; [vm_compute; reflexivity|]. split; vm_compute; reflexivity. Qed.

(** [diff_substitutions] puts a coloured line between two diffs even when colours
    are off (the command line program strips it on its way to the terminal). *)
Example C58_separator_is_always_coloured :
  exists st out1 out2, diff_substitutions false default_fmt sample_text [sample_swap; sample_rename] (rstate_init 0)
    = Ok (st, [(true, out1); (true, out2)]) /\ In ESC out2 /\ ~ In ESC out1.
Proof.
  do 3 eexists. split; [vm_compute; reflexivity|]. split; [now left|].
  vm_compute. intro H. repeat (destruct H as [H|H]; [discriminate|]). exact H.
Qed.
