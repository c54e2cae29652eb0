(** Proofs for C43, C44. *)
From Verif Require Import Py PyFacts Regex Subst Fmt SubstSpec SubstProofs SweepProofs ApplySpec ApplyProofs DiffProofs FmtSpec FmtProofs.
From Coq Require Import ZifyBool.

(** *** Lines *)
Lemma splitlines_cons x s : is_linebreak x = false ->
  splitlines_keep (x :: s) = match splitlines_keep s with [] => [[x]] | l :: ls => (x :: l) :: ls end.
Proof. intro H. cbn. now rewrite H. Qed.

Lemma splitlines_rec (P : text -> list text -> Prop) :
  P [] [] ->
  (forall s, P s (splitlines_keep s) -> P (13 :: 10 :: s) ([13; 10] :: splitlines_keep s)) ->
  (forall x s, is_linebreak x = true -> ~ (x = 13 /\ exists r, s = 10 :: r) ->
     P s (splitlines_keep s) -> P (x :: s) ([x] :: splitlines_keep s)) ->
  (forall x s, is_linebreak x = false -> P s (splitlines_keep s) ->
     P (x :: s) (match splitlines_keep s with [] => [[x]] | l :: ls => (x :: l) :: ls end)) ->
  forall s, P s (splitlines_keep s).
Proof.
  intros H0 H1 H2 H3 s. remember (length s) as n eqn:En. revert s En.
  induction n as [n IH] using lt_wf_ind. intros s ->.
  destruct s as [|x s]; [exact H0|].
  destruct (is_linebreak x) eqn:Ex.
  2: { rewrite splitlines_cons by assumption. apply H3; [assumption|]. apply (IH (length s)); cbn; lia. }
  cbn. rewrite Ex. destruct s as [|y s].
  - apply (H2 x [] Ex); [intros [_ (r & E)]; discriminate|]. exact H0.
  - destruct ((x =? 13) && (y =? 10)) eqn:Exy.
    + apply andb_true_iff in Exy. destruct Exy as [E1 E2]. apply Z.eqb_eq in E1, E2. subst.
      apply H1. apply (IH (length s)); cbn; lia.
    + apply (H2 x (y :: s) Ex).
      * intros (-> & r & E). injection E as -> ->. cbn in Exy. discriminate.
      * apply (IH (length (y :: s))); cbn; lia.
Qed.

Lemma concat_splitlines s : concat (splitlines_keep s) = s.
Proof.
  apply (splitlines_rec (fun s l => concat l = s)); cbn.
  - reflexivity.
  - intros r ->. reflexivity.
  - intros x r _ _ ->. reflexivity.
  - intros x r _ H. destruct (splitlines_keep r); cbn in *; now rewrite H.
Qed.

Lemma is_line_cons x l : is_linebreak x = false -> is_line l -> is_line (x :: l).
Proof.
  intros H (u & br & -> & Hu & Hb). exists (x :: u), br. repeat split; [now constructor|assumption].
Qed.

(** All lines but possibly the last are terminated. *)
Lemma splitlines_lines s :
  Forall is_line (splitlines_keep s)
  \/ exists ls u, splitlines_keep s = ls ++ [u] /\ Forall is_line ls /\ no_linebreak u /\ u <> [].
Proof.
  apply (splitlines_rec (fun s l => Forall is_line l \/ exists ls u, l = ls ++ [u] /\ Forall is_line ls /\ no_linebreak u /\ u <> [])).
  - left. constructor.
  - intros r H. assert (L : is_line [13; 10]) by (exists [], [13; 10]; repeat split; [constructor|now right]).
    destruct H as [H|(ls & u & -> & H & Hu)]; [left; now constructor|right].
    exists ([13; 10] :: ls), u. repeat split; [now constructor|tauto|tauto].
  - intros x r Hx _ H. assert (L : is_line [x]) by (exists [], [x]; repeat split; [constructor|left; eauto]).
    destruct H as [H|(ls & u & -> & H & Hu)]; [left; now constructor|right].
    exists ([x] :: ls), u. repeat split; [now constructor|tauto|tauto].
  - intros x r Hx H. destruct H as [H|(ls & u & -> & H & Hu1 & Hu2)].
    + destruct (splitlines_keep r) as [|l ls].
      * right. exists [], [x]. repeat split; [constructor|repeat constructor; assumption|discriminate].
      * left. inversion H; subst. constructor; [now apply is_line_cons|assumption].
    + destruct ls as [|l ls]; cbn.
      * right. exists [], (x :: u). repeat split; [constructor|now constructor|discriminate].
      * right. exists ((x :: l) :: ls), u. inversion H; subst.
        repeat split; [|assumption|assumption]. constructor; [now apply is_line_cons|assumption].
Qed.

Lemma splitlines_terminated s : ends_with_newline s -> Forall is_line (splitlines_keep s).
Proof.
  intros (t & ->). destruct (splitlines_lines (t ++ [NL])) as [H|(ls & u & E & _ & Hu & Hn)]; [assumption|].
  exfalso. pose proof (concat_splitlines (t ++ [NL])) as C. rewrite E, concat_app in C. cbn in C. rewrite app_nil_r in C.
  destruct (exists_last Hn) as (u' & c & ->). rewrite app_assoc in C. apply app_inj_tail in C. destruct C as [_ ->].
  unfold no_linebreak in Hu. apply Forall_app in Hu. destruct Hu as [_ Hu]. inversion Hu; subst. discriminate.
Qed.

Lemma splitlines_app_line l rest : is_line l -> hd_error rest <> Some 10 ->
  splitlines_keep (l ++ rest) = l :: splitlines_keep rest.
Proof.
  intros (u & br & -> & Hu & Hb) Hr. rewrite <- app_assoc. induction Hu as [|x u Hx Hu IH]; cbn [app].
  - destruct Hb as [(c & -> & Hc)| ->]; [|reflexivity]. cbn. rewrite Hc.
    destruct rest as [|y rest]; [reflexivity|]. destruct ((c =? 13) && (y =? 10)) eqn:E; [|reflexivity].
    apply andb_true_iff in E. destruct E as [_ E]. apply Z.eqb_eq in E. subst. cbn in Hr. congruence.
  - rewrite splitlines_cons by assumption. now rewrite IH.
Qed.

Lemma print_lines_app a b : print_lines (a ++ b) = print_lines a ++ print_lines b.
Proof. unfold print_lines. now rewrite map_app, concat_app. Qed.

Lemma splitlines_print ls : Forall (fun l => is_line (snd l)) ls ->
  splitlines_keep (print_lines ls) = map (fun l => tag_char (fst l) :: snd l) ls.
Proof.
  induction 1 as [|[t l] ls Hl H IH]; [reflexivity|].
  change (print_lines ((t, l) :: ls)) with ((tag_char t :: l) ++ print_lines ls).
  rewrite splitlines_app_line.
  - cbn [map fst snd]. now rewrite IH.
  - apply is_line_cons; [destruct t; reflexivity|assumption].
  - destruct ls as [|[t' l'] ls]; cbn; [discriminate|]. destruct t'; discriminate.
Qed.

(** *** Uncoloured blocks *)
Lemma endswith_NL s : endswith [NL] s = true <-> ends_with_newline s.
Proof.
  unfold endswith, ends_with_newline. cbn [rev app]. split.
  - destruct (rev s) as [|c r] eqn:E; [discriminate|]. cbn [startswith]. intro H.
    apply andb_true_iff in H. destruct H as [H _]. apply Z.eqb_eq in H. subst c.
    exists (rev r). rewrite <- (rev_involutive s), E. reflexivity.
  - intros (u & ->). rewrite rev_app_distr. cbn. destruct (rev u); reflexivity.
Qed.
Lemma slice_drop_last (u : text) c : slice (u ++ [c]) 0 (-1) = u.
Proof.
  unfold slice, norm_idx. cbn [Z.ltb Z.compare]. rewrite tlen_app. change (tlen [c]) with 1.
  pose proof (tlen_nonneg u). replace (Z.min 0 (tlen u + 1)) with 0 by lia.
  replace (Z.max 0 (-1 + (tlen u + 1)) - 0) with (tlen u) by lia. cbn [Z.to_nat skipn].
  unfold tlen. rewrite Nat2Z.id. rewrite firstn_app, Nat.sub_diag, firstn_O, app_nil_r. apply firstn_all.
Qed.
Lemma style_lines_plain style s : style_lines false style s = s.
Proof.
  unfold style_lines. rewrite <- (concat_splitlines s) at 2. f_equal.
  rewrite <- map_id. apply map_ext. intro l.
  destruct (endswith [NL] l) eqn:E; [|reflexivity]. apply endswith_NL in E. destruct E as (u & ->).
  cbn. now rewrite slice_drop_last.
Qed.

Lemma render_block_plain contents s before is_diff block st :
  snd (render_diff_block false contents s before is_diff block st)
  = if before then read_before contents block else read_after contents block.
Proof.
  revert st; induction block as [|p block IH]; intro st; cbn [render_diff_block].
  - destruct before; reflexivity.
  - destruct p as [[a b] ls|[a b] l after].
    + destruct (style_for st s ls) as [st' sty]. specialize (IH st').
      destruct (render_diff_block false contents s before is_diff block st') as [st2 tail]. cbn in *.
      rewrite style_lines_plain, IH. unfold read_before, read_after. destruct before; reflexivity.
    + specialize (IH st). destruct (render_diff_block false contents s before is_diff block st) as [st2 tail]. cbn in *.
      rewrite style_lines_plain, IH. unfold read_before, read_after. destruct before; reflexivity.
Qed.

Definition tagged (t : tag) (s : text) : list diff_line := map (pair t) (splitlines_keep s).
Lemma create_diff_lines t s :
  exists ls, create_diff [tag_char t] s = print_lines (map (pair t) ls) /\ Forall is_line ls
             /\ with_final_newline s (concat ls).
Proof.
  unfold create_diff, print_lines, with_final_newline. destruct s as [|c s].
  { exists []. repeat split; [constructor|auto]. }
  set (s0 := c :: s). destruct (endswith [NL] s0) eqn:E.
  - exists (splitlines_keep s0). rewrite map_map. repeat split.
    + apply splitlines_terminated. now apply endswith_NL.
    + right; left. split; [now apply endswith_NL|apply concat_splitlines].
  - exists (splitlines_keep (s0 ++ [NL])). rewrite map_map. repeat split.
    + apply splitlines_terminated. now exists s0.
    + right; right. split; [discriminate|]. split; [|apply concat_splitlines].
      intro H. apply endswith_NL in H. congruence.
Qed.

Lemma wfn_app a b o : ends_with_newline a -> with_final_newline b o -> with_final_newline (a ++ b) (a ++ o).
Proof.
  intros (u & ->) [(-> & ->)|[((v & ->) & ->)|(Hn & He & ->)]].
  - right; left. rewrite app_nil_r. split; [now exists u|reflexivity].
  - right; left. split; [|reflexivity]. exists ((u ++ [NL]) ++ v). now rewrite app_assoc.
  - right; right. split; [destruct u; discriminate|]. split; [|now rewrite app_assoc].
    intros (v & E). apply He. destruct (exists_last Hn) as (b' & c & ->).
    rewrite app_assoc in E. apply app_inj_tail in E. destruct E as [_ ->]. now exists b'.
Qed.
Lemma wfn_nl a o : ends_with_newline a -> with_final_newline a o -> o = a.
Proof.
  intros (u & ->) [(E & _)|[(_ & ->)|(_ & H & _)]]; [destruct u; discriminate|reflexivity|].
  exfalso. apply H. now exists u.
Qed.

Lemma old_text_app a b : old_text (a ++ b) = old_text a ++ old_text b.
Proof. unfold old_text. now rewrite filter_app, map_app, concat_app. Qed.
Lemma new_text_app a b : new_text (a ++ b) = new_text a ++ new_text b.
Proof. unfold new_text. now rewrite filter_app, map_app, concat_app. Qed.
Lemma old_text_tag t ls : old_text (map (pair t) ls) = match t with Added => [] | _ => concat ls end.
Proof.
  unfold old_text. induction ls as [|l ls IH]; cbn; [destruct t; reflexivity|].
  destruct t; cbn in *; now rewrite IH.
Qed.
Lemma new_text_tag t ls : new_text (map (pair t) ls) = match t with Removed => [] | _ => concat ls end.
Proof.
  unfold new_text. induction ls as [|l ls IH]; cbn; [destruct t; reflexivity|].
  destruct t; cbn in *; now rewrite IH.
Qed.
Lemma tagged_lines t ls : Forall is_line ls -> Forall (fun l : diff_line => is_line (snd l)) (map (pair t) ls).
Proof. intro H. apply Forall_map. exact H. Qed.

Lemma no_diff_same data l : existsb is_diff_piece l = false -> read_after data l = read_before data l.
Proof.
  unfold read_after, read_before. induction l as [|[[a b] ls|sp l' t] l IH]; cbn; intro H; [reflexivity| |discriminate].
  now rewrite IH.
Qed.

Lemma read_before_app data a b : read_before data (a ++ b) = read_before data a ++ read_before data b.
Proof. unfold read_before. now rewrite map_app, concat_app. Qed.
Lemma read_after_app data a b : read_after data (a ++ b) = read_after data a ++ read_after data b.
Proof. unfold read_after. now rewrite map_app, concat_app. Qed.

(** One block. *)
Lemma block_lines contents s fl blk st : flag_ok (fl, blk) ->
  exists ls st', render_blocks false contents s [(fl, blk)] st = (st', print_lines ls)
    /\ Forall (fun l => is_line (snd l)) ls
    /\ with_final_newline (read_before contents blk) (old_text ls)
    /\ with_final_newline (read_after contents blk) (new_text ls).
Proof.
  intro Hf. unfold flag_ok in Hf. cbn [fst snd] in Hf. cbn [render_blocks].
  pose proof (render_block_plain contents s true true blk st) as B1. cbn [fst snd].
  destruct (render_diff_block false contents s true true blk st) as [st1 b]. cbn in B1. subst b.
  destruct fl.
  - pose proof (render_block_plain contents s false true blk st1) as A1.
    destruct (render_diff_block false contents s false true blk st1) as [st2 a]. cbn in A1. subst a.
    destruct (create_diff_lines Removed (read_before contents blk)) as (l1 & E1 & F1 & W1).
    destruct (create_diff_lines Added (read_after contents blk)) as (l2 & E2 & F2 & W2).
    exists (map (pair Removed) l1 ++ map (pair Added) l2), st2. cbn [style_text].
    change (TX "-") with [tag_char Removed]. change (TX "+") with [tag_char Added].
    rewrite E1, E2, print_lines_app, app_nil_r. split; [reflexivity|].
    rewrite old_text_app, new_text_app, !old_text_tag, !new_text_tag, app_nil_r. cbn [app].
    split; [apply Forall_app; split; now apply tagged_lines|]. auto.
  - destruct (create_diff_lines Kept (read_before contents blk)) as (l1 & E1 & F1 & W1).
    exists (map (pair Kept) l1), st1. change (TX " ") with [tag_char Kept]. rewrite E1, app_nil_r.
    split; [reflexivity|]. rewrite old_text_tag, new_text_tag. split; [now apply tagged_lines|].
    rewrite (no_diff_same contents blk) by now symmetry. auto.
Qed.

Lemma read_end contents blk : block_end contents blk -> flag_ok blk ->
  ends_with_newline (read_before contents (snd blk)) /\ ends_with_newline (read_after contents (snd blk)).
Proof.
  intros (u & a & b & ls & E & Ha & Hc & _) _. rewrite E. unfold read_before, read_after.
  rewrite !map_app, !concat_app. cbn. unfold piece_before. cbn. rewrite app_nil_r.
  replace b with (b - 1 + 1) by lia. rewrite (slice_snoc contents (b - 1)) by (auto; lia).
  split; eexists; rewrite app_assoc; reflexivity.
Qed.

Lemma render_blocks_cons color contents s b bs st :
  render_blocks color contents s (b :: bs) st
  = let '(st1, out) := render_blocks color contents s [b] st in
    let '(st2, tail) := render_blocks color contents s bs st1 in (st2, out ++ tail).
Proof.
  destruct b as [fl blk]. cbn [render_blocks].
  destruct (if fl then _ else _) as [st' out]. rewrite app_nil_r. reflexivity.
Qed.

Lemma blocks_lines contents s bs lst : Forall (block_end contents) bs -> Forall flag_ok (bs ++ [lst]) ->
  forall st, exists ls st', render_blocks false contents s (bs ++ [lst]) st = (st', print_lines ls)
    /\ Forall (fun l => is_line (snd l)) ls
    /\ with_final_newline (read_before contents (concat (map snd (bs ++ [lst])))) (old_text ls)
    /\ with_final_newline (read_after contents (concat (map snd (bs ++ [lst])))) (new_text ls).
Proof.
  intros H. induction H as [|b bs Hb H IH]; intros Hf st.
  - inversion Hf; subst. destruct lst as [fl blk]. cbn [app map snd concat]. rewrite app_nil_r. now apply block_lines.
  - inversion Hf as [|? ? Hfb Hf']; subst. cbn [app]. rewrite render_blocks_cons.
    destruct b as [fl blk]. destruct (block_lines contents s fl blk st Hfb) as (l1 & st1 & E1 & F1 & O1 & N1).
    rewrite E1. destruct (IH Hf' st1) as (l2 & st2 & E2 & F2 & O2 & N2). rewrite E2.
    destruct (read_end contents (fl, blk) Hb Hfb) as [R1 R2]. cbn [snd] in *.
    apply wfn_nl in O1; [|assumption]. apply wfn_nl in N1; [|assumption].
    exists (l1 ++ l2), st2. rewrite print_lines_app, old_text_app, new_text_app, O1, N1.
    split; [reflexivity|]. split; [apply Forall_app; auto|].
    cbn [map snd concat]. rewrite (read_before_app contents blk), (read_after_app contents blk).
    split; now apply wfn_app.
Qed.

(** *** The hull *)
Lemma min_list_spec x l : min_list x l <= x /\ (forall y, In y l -> min_list x l <= y)
  /\ (min_list x l = x \/ In (min_list x l) l).
Proof.
  revert x; induction l as [|z l IH]; intro x; cbn; [repeat split; [lia|contradiction|auto]|].
  destruct (IH (Z.min x z)) as (H1 & H2 & H3). split; [lia|]. split.
  - intros y [<-|Hy]; [lia|auto].
  - destruct H3 as [H3|H3]; [|auto]. destruct (Z.min_spec x z) as [[_ E]|[_ E]]; rewrite E in *; auto.
Qed.
Lemma max_list_spec x l : x <= max_list x l /\ (forall y, In y l -> y <= max_list x l)
  /\ (max_list x l = x \/ In (max_list x l) l).
Proof.
  revert x; induction l as [|z l IH]; intro x; cbn; [repeat split; [lia|contradiction|auto]|].
  destruct (IH (Z.max x z)) as (H1 & H2 & H3). split; [lia|]. split.
  - intros y [<-|Hy]; [lia|auto].
  - destruct H3 as [H3|H3]; [|auto]. destruct (Z.max_spec x z) as [[_ E]|[_ E]]; rewrite E in *; auto.
Qed.
Lemma match_hull_is_hull s lo hi : match_hull (matched_spans s) = Ok (lo, hi) -> is_hull s lo hi.
Proof.
  unfold is_hull, is_start, is_end, spans_of. destruct (matched_spans s) as [|[l0 [a b]] d]; cbn [match_hull]; [discriminate|].
  intro H. injection H as <- <-.
  destruct (min_list_spec a (map (fun kv : label * span => fst (snd kv)) d)) as (M1 & M2 & M3).
  destruct (max_list_spec b (map (fun kv : label * span => snd (snd kv)) d)) as (X1 & X2 & X3).
  set (lo := min_list _ _) in *. set (hi := max_list _ _) in *. clearbody lo hi. split; [|split].
  - destruct M3 as [->|M3]; [exists l0, b; now left|]. apply in_map_iff in M3. destruct M3 as ([l [c e]] & <- & H).
    exists l, e. now right.
  - destruct X3 as [->|X3]; [exists l0, a; now left|]. apply in_map_iff in X3. destruct X3 as ([l [c e]] & <- & H).
    exists l, c. now right.
  - intros l c e [E|H]; [injection E as <- <- <-; auto|]. split.
    + apply M2. apply in_map_iff. exists (l, (c, e)). auto.
    + apply X2. apply in_map_iff. exists (l, (c, e)). auto.
Qed.
Lemma match_hull_ok s : matched_spans s <> [] -> exists lo hi, match_hull (matched_spans s) = Ok (lo, hi).
Proof. destruct (matched_spans s) as [|[l0 [a b]] d]; [congruence|]. cbn. eauto. Qed.
Lemma hull_unique s lo hi lo' hi' : is_hull s lo hi -> is_hull s lo' hi' -> lo = lo' /\ hi = hi'.
Proof.
  intros ((l1 & b1 & S1) & (m1 & a1 & E1) & H1) ((l2 & b2 & S2) & (m2 & a2 & E2) & H2).
  pose proof (H1 _ _ _ S2). pose proof (H1 _ _ _ E2). pose proof (H2 _ _ _ S1). pose proof (H2 _ _ _ E1). lia.
Qed.

(** *** as_diff pieces stay inside the hull *)
Lemma as_diff_loop_subset d r L ps : forall x, In x (as_diff_loop d r L ps) ->
  In x ps \/ is_diff_piece x = true.
Proof.
  revert L; induction ps as [|[[a b] ls|sp l t] ps IH]; intros L x; cbn; [contradiction| |].
  - destruct (a <? L); [intro H; apply IH in H; tauto|].
    destruct (max_label d (filter (dmem r) ls)) as [m|].
    + destruct (dget d m) as [sp|], (dget r m) as [t|]; try (intro H; apply IH in H; tauto).
      intros [<-|H]; [now right|]. apply IH in H. tauto.
    + intros [<-|H]; [auto|]. apply IH in H. tauto.
  - intro H. apply IH in H. tauto.
Qed.
Lemma tiles_inside p ps hi : tiles p ps hi -> forall x, In x ps ->
  p <= fst (piece_span x) /\ fst (piece_span x) <= snd (piece_span x) /\ snd (piece_span x) <= hi.
Proof.
  revert p; induction ps as [|y ps IH]; intros p H x Hx; [destruct Hx|]. cbn in H. destruct H as (H1 & H2 & H3).
  pose proof (tiles_le _ _ _ H3). destruct Hx as [<-|Hx]; [lia|]. pose proof (IH _ H3 _ Hx). lia.
Qed.

Lemma as_diff_in_text s data : dict_ok (matched_spans s) -> nonneg_spans s -> well_oriented s ->
  matched_spans s <> [] -> (forall l a b, spans_of s l a b -> b <= tlen data) ->
  exists ps, as_diff s = Ok ps /\ Forall (in_text data) ps.
Proof.
  intros Hd Hnn Hw Hne Hb. destruct (labeled_spans_good s Hd Hw Hne) as (ps & lo & hi & E & Hh & G).
  unfold as_diff. rewrite E. cbn [bind]. eexists. split; [reflexivity|].
  destruct Hh as ((l1 & b1 & S1) & (m1 & a1 & E1) & _).
  assert (Hlo : 0 <= lo) by (unfold nonneg_spans in Hnn; rewrite Forall_forall in Hnn; apply (Hnn _ S1)).
  assert (Hhi : hi <= tlen data) by (eapply Hb; eauto).
  apply Forall_forall. intros x Hx. apply as_diff_loop_subset in Hx. destruct x as [[a b] ls|]; [|exact I].
  destruct Hx as [Hx|Hx]; [|discriminate]. apply good_tiles in G. pose proof (tiles_inside _ _ _ G _ Hx) as H. cbn in *. lia.
Qed.

(** *** C44 *)
Lemma render_diff_lines s data fmt st :
  dict_ok (matched_spans s) -> nonneg_spans s -> well_oriented s -> matched_spans s <> [] ->
  (forall l a b, spans_of s l a b -> b <= tlen data) -> has_replacements s = true ->
  exists ps lo hi x y st' ls,
    as_diff s = Ok ps /\ is_hull s lo hi
    /\ line_expanded_span data (Some lo) (Some hi) = (x, y)
    /\ render false fmt data s st = Ok (st', (true, print_lines ls))
    /\ splitlines_keep (print_lines ls) = map (fun l => tag_char (fst l) :: snd l) ls
    /\ Forall (fun l => is_line (snd l)) ls
    /\ with_final_newline (slice data x lo ++ read_before data ps ++ slice data hi y) (old_text ls)
    /\ with_final_newline (slice data x lo ++ read_after data ps ++ slice data hi y) (new_text ls).
Proof.
  intros Hd Hnn Hw Hne Hb Hrep.
  destruct (as_diff_in_text s data Hd Hnn Hw Hne Hb) as (ps & Eps & Hin).
  destruct (match_hull_ok s Hne) as (lo & hi & Ehull). pose proof (match_hull_is_hull _ _ _ Ehull) as Hh.
  pose proof Hh as ((l1 & b1 & S1) & (m1 & a1 & E1) & HH).
  assert (Hlo : 0 <= lo) by (unfold nonneg_spans in Hnn; rewrite Forall_forall in Hnn; apply (Hnn _ S1)).
  assert (Hhi : hi <= tlen data) by (eapply Hb; eauto).
  assert (Hlh : lo <= hi). { pose proof (Hw _ _ _ S1). pose proof (HH _ _ _ S1). lia. }
  destruct (line_expanded_span_spec data (Some lo) (Some hi)) as (x & y & Exy & X1 & Y1 & X0 & Y0 & _).
  { cbn. destruct (Z.ltb_spec lo 0); lia. }
  { cbn. destruct (Z.ltb_spec lo 0); destruct (Z.ltb_spec hi 0); lia. }
  cbn in X1, Y1. replace (lo <? 0) with false in * by lia. replace (hi <? 0) with false in * by lia.
  set (ext := LabeledSpan (x, lo) [] :: ps ++ [LabeledSpan (hi, y) []]).
  assert (Hext : Forall (in_text data) ext).
  { constructor; [cbn; lia|]. apply Forall_app. split; [assumption|]. constructor; [cbn; lia|constructor]. }
  destruct (sub_diff_blocks_spec data ext Hext) as (B & A & _ & _ & FL & bs & lst & Ebs & BE & _).
  cbv zeta in *. rewrite Ebs in B, A, FL.
  destruct (blocks_lines data s bs lst BE FL st) as (ls & st' & Er & Fl & O & N).
  rewrite B in O. rewrite A in N.
  exists ps, lo, hi, x, y, st', ls. split; [assumption|]. split; [assumption|]. split; [assumption|]. split.
  - unfold render. rewrite Eps. cbn [bind]. rewrite Ehull. cbn [bind]. rewrite Exy, Hrep.
    fold ext. rewrite Ebs, Er. reflexivity.
  - split; [now apply splitlines_print|]. split; [assumption|].
    unfold ext, read_before, read_after in *. cbn [map concat] in *. rewrite !map_app, !concat_app in *. cbn in *.
    unfold piece_before in *. cbn in *. rewrite !app_nil_r in *. auto.
Qed.

(** *** Matches without replacement *)
Lemma has_no_replacements s : has_replacements s = false ->
  (match replacements s with Some r => r | None => [] end) = [].
Proof. unfold has_replacements. destruct (replacements s) as [[|]|]; [reflexivity|discriminate|reflexivity]. Qed.
Lemma as_diff_loop_nil d L p ps hi s : good_from s false p ps hi \/ True -> tiles p ps hi -> L <= p ->
  Forall (fun x => is_diff_piece x = false) ps -> as_diff_loop d [] L ps = ps.
Proof.
  intros _. revert p; induction ps as [|[[a b] ls|] ps IH]; intros p T HL F; [reflexivity| |].
  - cbn in T. destruct T as (-> & H1 & H2). cbn [as_diff_loop]. replace (p <? L) with false by lia.
    replace (filter (dmem (@nil (label * text))) ls) with (@nil label).
    + cbn. f_equal. inversion F; subst. eapply IH; [exact H2|lia|assumption].
    + clear. induction ls; cbn; auto.
  - inversion F; discriminate.
Qed.

Lemma render_match_plain s data fmt st :
  dict_ok (matched_spans s) -> nonneg_spans s -> well_oriented s -> matched_spans s <> [] ->
  (forall l a b, spans_of s l a b -> b <= tlen data) -> has_replacements s = false ->
  exists lo hi x y st',
    is_hull s lo hi /\ line_expanded_span data (Some lo) (Some hi) = (x, y)
    /\ x <= lo /\ lo <= hi /\ hi <= y
    /\ render false fmt data s st
       = Ok (st', (false, fmt (slice data x lo) (slice data lo hi) (slice data hi y) ++ [NL])).
Proof.
  intros Hd Hnn Hw Hne Hb Hrep.
  destruct (labeled_spans_good s Hd Hw Hne) as (ps & lo & hi & E & Hh & G).
  destruct (match_hull_ok s Hne) as (lo' & hi' & Ehull). pose proof (match_hull_is_hull _ _ _ Ehull) as Hh'.
  destruct (hull_unique _ _ _ _ _ Hh Hh') as [<- <-]. clear Hh'.
  pose proof Hh as ((l1 & b1 & S1) & (m1 & a1 & E1) & HH).
  assert (Hlo : 0 <= lo) by (unfold nonneg_spans in Hnn; rewrite Forall_forall in Hnn; apply (Hnn _ S1)).
  assert (Hhi : hi <= tlen data) by (eapply Hb; eauto).
  assert (Hlh : lo <= hi). { pose proof (Hw _ _ _ S1). pose proof (HH _ _ _ S1). lia. }
  destruct (line_expanded_span_spec data (Some lo) (Some hi)) as (x & y & Exy & X1 & Y1 & X0 & Y0 & _).
  { cbn. destruct (Z.ltb_spec lo 0); lia. }
  { cbn. destruct (Z.ltb_spec lo 0); destruct (Z.ltb_spec hi 0); lia. }
  cbn in X1, Y1. replace (lo <? 0) with false in * by lia. replace (hi <? 0) with false in * by lia.
  pose proof (good_tiles _ _ _ _ _ G) as T.
  assert (F : Forall (fun x => is_diff_piece x = false) ps).
  { apply good_exact in G. eapply Forall_impl; [|exact G]. intros [[? ?] ?|]; cbn; [reflexivity|contradiction]. }
  assert (Eps : as_diff s = Ok ps).
  { unfold as_diff. rewrite E. cbn [bind]. rewrite (has_no_replacements s Hrep). f_equal.
    eapply as_diff_loop_nil with (s := s); eauto. }
  pose proof (render_block_plain data s true false ps st) as B.
  destruct (render_diff_block false data s true false ps st) as [st' disp] eqn:Ed. cbn in B. subst disp.
  exists lo, hi, x, y, st'. do 2 (split; [assumption|]). do 3 (split; [lia|]).
  unfold render. rewrite Eps. cbn [bind]. rewrite Ehull. cbn [bind]. rewrite Exy, Hrep, Ed.
  unfold read_before. now rewrite (tiles_before data lo ps hi Hlo T).
Qed.

(** *** C43 *)
Lemma set_eqb_ok a b : set_eqb a b = true <-> same_labels a b.
Proof.
  unfold set_eqb, same_labels. rewrite andb_true_iff, !forallb_forall. split.
  - intros [H1 H2] l. split; intro H; [apply H1 in H|apply H2 in H]; now apply tmem_In.
  - intro H. split; intros l Hl; apply tmem_In; now apply H.
Qed.
Lemma style_get_same t a b : same_labels a b -> style_get t a = style_get t b.
Proof.
  intro H. induction t as [|[k v] t IH]; [reflexivity|]. cbn.
  destruct (set_eqb k a) eqn:E1, (set_eqb k b) eqn:E2; auto; exfalso.
  - apply set_eqb_ok in E1. assert (set_eqb k b = true); [|congruence]. apply set_eqb_ok. intro l. rewrite (E1 l). apply H.
  - apply set_eqb_ok in E2. assert (set_eqb k a = true); [|congruence]. apply set_eqb_ok. intro l. rewrite (E2 l). symmetry. apply H.
Qed.
Lemma style_get_app t u k sty : style_get t k = Some sty -> style_get (t ++ u) k = Some sty.
Proof. induction t as [|[k' v] t IH]; cbn; [discriminate|]. destruct (set_eqb k' k); auto. Qed.
Lemma style_get_none_app t k sty : style_get t k = None -> style_get (t ++ [(k, sty)]) k = Some sty.
Proof.
  induction t as [|[k' v] t IH]; cbn.
  - intros _. assert (E : set_eqb k k = true) by (apply set_eqb_ok; intro; tauto). now rewrite E.
  - destruct (set_eqb k' k); [discriminate|auto].
Qed.
Definition keeps (st st' : rstate) : Prop :=
  forall k sty, style_get (label_to_style st) k = Some sty -> style_get (label_to_style st') k = Some sty.
Lemma keeps_trans a b c : keeps a b -> keeps b c -> keeps a c.
Proof. intros H1 H2 k sty H. auto. Qed.
Lemma style_for_keeps st s ls : keeps st (fst (style_for st s ls)).
Proof.
  intros k sty H. unfold style_for. destruct (_ && _); [exact H|].
  destruct (style_get (label_to_style st) ls); [exact H|]. cbn. now apply style_get_app.
Qed.
Lemma style_for_records st s ls : ~ primary_only s ls ->
  style_get (label_to_style (fst (style_for st s ls))) ls = Some (snd (style_for st s ls)).
Proof.
  intro Hp. unfold style_for.
  destruct ((Z.of_nat (length (matched_spans s)) >? 1) && set_eqb ls [primary_label s]) eqn:E.
  - exfalso. apply Hp. apply andb_true_iff in E. destruct E as [E1 E2]. split; [lia|]. now apply set_eqb_ok.
  - destruct (style_get (label_to_style st) ls) eqn:G; cbn; [exact G|]. now apply style_get_none_app.
Qed.
Lemma style_for_lookup st s ls sty : ~ primary_only s ls -> style_get (label_to_style st) ls = Some sty ->
  snd (style_for st s ls) = sty.
Proof.
  intros Hp H. pose proof (style_for_records st s ls Hp) as R.
  apply (style_for_keeps st s ls) in H. congruence.
Qed.
Lemma render_diff_block_keeps color contents s before is_diff block st :
  keeps st (fst (render_diff_block color contents s before is_diff block st)).
Proof.
  revert st; induction block as [|p block IH]; intros st; cbn [render_diff_block]; [intros k sty H; exact H|].
  destruct p as [[a b] ls|[a b] l after].
  - pose proof (style_for_keeps st s ls) as K. destruct (style_for st s ls) as [st' sty]. cbn in K.
    specialize (IH st'). destruct (render_diff_block color contents s before is_diff block st') as [st2 tail].
    cbn in *. eapply keeps_trans; eauto.
  - specialize (IH st). destruct (render_diff_block color contents s before is_diff block st). exact IH.
Qed.
Lemma render_blocks_keeps color contents s bs st : keeps st (fst (render_blocks color contents s bs st)).
Proof.
  revert st; induction bs as [|[fl blk] bs IH]; intro st; cbn [render_blocks]; [intros k sty H; exact H|].
  pose proof (render_diff_block_keeps color contents s true true blk st) as K1.
  destruct (render_diff_block color contents s true true blk st) as [st1 b]. cbn in K1. destruct fl.
  - pose proof (render_diff_block_keeps color contents s false true blk st1) as K2.
    destruct (render_diff_block color contents s false true blk st1) as [st2 a]. cbn in K2.
    specialize (IH st2). destruct (render_blocks color contents s bs st2). cbn in *.
    eapply keeps_trans; [exact K1|]. eapply keeps_trans; eauto.
  - specialize (IH st1). destruct (render_blocks color contents s bs st1). cbn in *. eapply keeps_trans; eauto.
Qed.
Lemma render_keeps color fmt contents s st st' out : render color fmt contents s st = Ok (st', out) -> keeps st st'.
Proof.
  unfold render. destruct (as_diff s) as [ps|]; cbn [bind]; [|discriminate].
  destruct (match_hull (matched_spans s)) as [[lo hi]|]; cbn [bind]; [|discriminate].
  destruct (line_expanded_span contents (Some lo) (Some hi)) as [x y].
  destruct (has_replacements s).
  - match goal with |- context [render_blocks ?c ?d ?e ?f ?g] =>
      pose proof (render_blocks_keeps c d e f g) as K; destruct (render_blocks c d e f g) as [st1 o] end.
    intro H. injection H as <- _. exact K.
  - match goal with |- context [render_diff_block ?c ?d ?e ?f ?g ?h ?i] =>
      pose proof (render_diff_block_keeps c d e f g h i) as K; destruct (render_diff_block c d e f g h i) as [st1 o] end.
    intro H. injection H as <- _. exact K.
Qed.
Lemma later_keeps st st' : later st st' -> keeps st st'.
Proof.
  induction 1 as [st|st s ls st' H IH|st color fmt contents s st' out st'' H Hl IH].
  - intros k sty H; exact H.
  - eapply keeps_trans; [apply style_for_keeps|exact IH].
  - eapply keeps_trans; [eapply render_keeps; eauto|exact IH].
Qed.
Lemma styles_stable st s ls st2 s' ls' :
  ~ primary_only s ls -> ~ primary_only s' ls' -> same_labels ls ls' ->
  later (fst (style_for st s ls)) st2 ->
  snd (style_for st2 s' ls') = snd (style_for st s ls).
Proof.
  intros H1 H2 Hs Hl. apply style_for_lookup; [assumption|].
  rewrite <- (style_get_same _ _ _ Hs). apply (later_keeps _ _ Hl). now apply style_for_records.
Qed.
