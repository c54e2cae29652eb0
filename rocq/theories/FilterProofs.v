(** Regular expressions, comments, imports. *)
From Verif Require Import Py PyFacts Ast Template FromDiff Matcher MatchSpec MergeSpec MergeProofs MatcherProofs
  SubstProofs FromTextProofs FilterSpec.

(** *** Regular expressions *)
Lemma re_bindings_groups rx txt regs :
  Forall (fun kv : label * nat => (snd kv < length regs)%nat) (cr_groups rx) ->
  binds_groups (cr_groups rx) txt regs (re_bindings rx txt regs).
Proof.
  unfold binds_groups, re_bindings. induction 1 as [|[k n] l H HF IH]; cbn [map]; constructor; [|exact IH].
  cbn [fst snd] in *. split; [reflexivity|].
  exists (nth n regs (-1, -1)). split; [|reflexivity]. now apply nth_error_nth'.
Qed.
Lemma binds_groups_unique groups txt regs b1 b2 :
  binds_groups groups txt regs b1 -> binds_groups groups txt regs b2 -> b1 = b2.
Proof.
  intros H. revert b2. induction H as [|g [k1 v1] gs b1 (Hk & sp & Hn & Hv) H IH]; intros b2 H2; inversion H2 as [|g' [k2 v2] gs' b2' (Hk2 & sp2 & Hn2 & Hv2) H2']; subst.
  - reflexivity.
  - cbn [fst snd] in *. f_equal; [|now apply IH]. rewrite Hn in Hn2. injection Hn2 as <-. congruence.
Qed.

Lemma matches_regex_iff R rx e m v s s' r :
  compiled_dollar R rx ->
  eval e (MMatchesRegex rx m) v s = (s', Ok (Some r)) <->
  exists rm rb t a b regs gb d,
    eval e m v s = (s', Ok (Some (RInfo rm (Some rb) t)))
    /\ m_span rm = Some (a, b)
    /\ cr_match rx (pf_text (e_parsed e)) a b = Some regs
    /\ binds_groups (cr_groups rx) (pf_text (e_parsed e)) regs gb
    /\ merge_bindings gb rb = Ok (Some d)
    /\ r = RInfo rm (Some d) t.
Proof.
  intros C. cbn [eval]. split.
  - intros H. apply mbind_Ok in H as (s1 & [[rm ob t|]|] & H1 & H); [| |discriminate H].
    2: { cbn in H. discriminate H. }
    unfold mbind at 1, lift at 1 in H. cbn [r_match] in H.
    destruct (m_span rm) as [[a b]|] eqn:Es; [|discriminate H].
    destruct (cr_match rx _ a b) as [regs|] eqn:Er; [|discriminate H].
    destruct ob as [rb|]; [|discriminate H].
    unfold mbind, lift, ret in H. cbn [r_bindings r_reps bind not_none] in H.
    destruct (merge_bindings _ rb) as [[d|]|x] eqn:Em; try discriminate H. injection H as <- <-.
    pose proof (C (pf_text (e_parsed e)) a b) as C1. rewrite Er in C1. destruct C1 as [_ C1].
    exists rm, rb, t, a, b, regs, (re_bindings rx (pf_text (e_parsed e)) regs), d.
    repeat (split; [first [assumption | reflexivity]|]). split; [now apply re_bindings_groups|]. now split.
  - intros (rm & rb & t & a & b & regs & gb & d & H1 & Es & Er & Hg & Em & ->).
    unfold mbind at 1. rewrite H1. unfold mbind at 1, lift at 1. cbn [r_match]. rewrite Es, Er.
    unfold mbind, lift, ret. cbn [r_bindings r_reps bind not_none].
    pose proof (C (pf_text (e_parsed e)) a b) as C1. rewrite Er in C1. destruct C1 as [_ C1].
    apply re_bindings_groups with (txt := pf_text (e_parsed e)) in C1.
    rewrite <- (binds_groups_unique _ _ _ _ _ Hg C1), Em. reflexivity.
Qed.

Lemma file_matches_regex_iff R rx e v s s' o :
  compiled_plain R rx ->
  eval e (MFileMatchesRegex rx) v s = (s', o) ->
  s' = s /\
  match o with
  | Ok (Some r) => exists a b regs gb,
      0 <= a <= tlen (pf_text (e_parsed e))
      /\ R (pf_text (e_parsed e)) (tlen (pf_text (e_parsed e))) a b regs
      /\ binds_groups (cr_groups rx) (pf_text (e_parsed e)) regs gb
      /\ r = RInfo PMatch (Some gb) []
  | Ok None => forall a b regs, 0 <= a <= tlen (pf_text (e_parsed e)) ->
      ~ R (pf_text (e_parsed e)) (tlen (pf_text (e_parsed e))) a b regs
  | Err _ => False
  end.
Proof.
  intros C H. cbn [eval] in H. unfold ret in H. injection H as <- <-. split; [reflexivity|].
  specialize (C (pf_text (e_parsed e))). destruct (cr_search rx _) as [regs|]; [|exact C].
  destruct C as [(a & b & Ha & HR) HF]. exists a, b, regs, (re_bindings rx (pf_text (e_parsed e)) regs).
  repeat (split; [assumption|]). split; [now apply re_bindings_groups | reflexivity].
Qed.

(** *** Comments *)
Lemma has_comments_within e v txt f l ob t :
  token_stream (e_tokens e) -> In f (e_tokens e) -> In l (e_tokens e) ->
  has_comments e (RInfo (PLex v txt f l true true) ob t) = Ok true
  <-> comment_within (e_tokens e) (tk_start f) (tk_end l).
Proof.
  intros (Hord & Huniq & Hle & Hc) Hf Hl. unfold has_comments. cbn [r_match bind].
  rewrite Forall_forall in Hle, Hc.
  split.
  - intros [= H]. apply existsb_exists in H as (c & Hin & H).
    apply andb_true_iff in H as [H Ht]. apply andb_true_iff in H as [H1 H2].
    apply Z.leb_le in H1, H2. apply Z.eqb_eq in Ht. exists c. repeat (split; [assumption|]).
    pose proof (Hle _ Hf). pose proof (Hle _ Hl).
    split.
    + destruct (Z.eq_dec (tk_index f) (tk_index c)) as [E|E].
      * rewrite (Huniq f c Hf Hin E). lia.
      * pose proof (Hord f c Hf Hin ltac:(lia)). lia.
    + destruct (Z.eq_dec (tk_index c) (tk_index l)) as [E|E].
      * rewrite (Huniq c l Hin Hl E). lia.
      * pose proof (Hord c l Hin Hl ltac:(lia)). lia.
  - intros (c & Hin & Ht & H1 & H2). f_equal. apply existsb_exists. exists c. split; [assumption|].
    pose proof (Hc _ Hin Ht).
    rewrite Ht, Z.eqb_refl, andb_true_r. apply andb_true_iff. split; apply Z.leb_le.
    + destruct (Z_lt_le_dec (tk_index c) (tk_index f)) as [L|]; [|assumption].
      pose proof (Hord c f Hin Hf L). lia.
    + destruct (Z_lt_le_dec (tk_index l) (tk_index c)) as [L|]; [|assumption].
      pose proof (Hord l c Hl Hin L). lia.
Qed.

(** *** Imports *)
Lemma hd_split_before_dot n h : before_dot n h -> hd [] (split_char 46 n) = h.
Proof.
  intros [Hn [->|[rest ->]]].
  - rewrite split_nosep; [reflexivity | assumption].
  - rewrite split_cons; [reflexivity | assumption].
Qed.
Definition puts (mvs : list (text * text)) (d : dict text) : dict text :=
  fold_left (fun d mv => dset d (fst mv) (snd mv)) mvs d.
Lemma import_alias_gives x mv d : import_gives x mv -> import_alias None d x = dset d (fst mv) (snd mv).
Proof.
  intros (n & a & Hc & H). unfold import_alias, str_field.
  destruct Hc as [x n i j H1 H2|x n o i j H1 H2]; rewrite H1, H2; cbn [str_of].
  - destruct H as [H ->]. now rewrite (hd_split_before_dot _ _ H).
  - now rewrite H.
Qed.
Lemma from_alias_gives m x mv d : from_gives m x mv -> import_alias (Some m) d x = dset d (fst mv) (snd mv).
Proof.
  intros (n & a & Hc & ->). unfold import_alias, str_field.
  destruct Hc as [x n i j H1 H2|x n o i j H1 H2]; rewrite H1, H2; reflexivity.
Qed.
Lemma fold_gives (P : value -> text * text -> Prop) (f : dict text -> value -> dict text) xs mvs :
  (forall x mv d, P x mv -> f d x = dset d (fst mv) (snd mv)) ->
  Forall2 P xs mvs -> forall d, fold_left f xs d = puts mvs d.
Proof.
  intros Hf H. induction H as [|x mv xs mvs Hx H IH]; intros d; cbn [fold_left puts]; [reflexivity|].
  rewrite IH, (Hf _ _ _ Hx). reflexivity.
Qed.
Lemma import_stmt_gives st mvs d : stmt_gives st mvs -> import_stmt d st = puts mvs d.
Proof.
  intros H. unfold import_stmt. destruct H as [st i xs mvs Ht Hn H|st i j k m xs mvs Ht Hn Hl Hm H|st j n Ht Hl Hz|st H1 H2].
  - rewrite Ht, Hn. cbn [list_of]. rewrite text_eqb_refl. now apply (fold_gives import_gives); [apply import_alias_gives|].
  - rewrite Ht, Hn, Hl. unfold str_field. rewrite Hm. cbn [list_of py_truthy str_of].
    replace (text_eqb (TX "ImportFrom") (TX "Import")) with false by reflexivity. rewrite text_eqb_refl.
    cbn [Z.eqb negb]. apply (fold_gives (from_gives m)); [|assumption]. intros. now apply from_alias_gives.
  - rewrite Ht, Hl. cbn [py_truthy].
    replace (text_eqb (TX "ImportFrom") (TX "Import")) with false by reflexivity. rewrite text_eqb_refl.
    apply Z.eqb_neq in Hz. now rewrite Hz.
  - destruct (text_eqb (vtype st) (TX "Import")) eqn:E; [apply text_eqb_eq in E; contradiction|].
    destruct (text_eqb (vtype st) (TX "ImportFrom")) eqn:E2; [apply text_eqb_eq in E2; contradiction|]. reflexivity.
Qed.
Lemma puts_app a b d : puts (a ++ b) d = puts b (puts a d).
Proof. apply fold_left_app. Qed.
Lemma top_level_imports_gives tree mvs : file_gives tree mvs -> top_level_imports tree = puts mvs [].
Proof.
  intros (i & body & mvss & Hb & H & ->). unfold top_level_imports. rewrite Hb. cbn [list_of]. clear Hb.
  generalize (@nil (label * text)) as d.
  induction H as [|st mvs body mvss Hs H IH]; intros d; cbn [fold_left concat]; [reflexivity|].
  rewrite (import_stmt_gives _ _ _ Hs), IH, puts_app. reflexivity.
Qed.
Lemma puts_absent mvs k : forall d, ~ In k (map fst mvs) -> dget (puts mvs d) k = dget d k.
Proof.
  induction mvs as [|[m v] mvs IH]; intros d H; [reflexivity|]. change (puts ((m, v) :: mvs) d) with (puts mvs (dset d m v)).
  cbn [map fst] in H. rewrite IH by (intros C; apply H; now right).
  rewrite dget_dset. destruct (text_eqb m k) eqn:E; [|reflexivity]. apply text_eqb_eq in E. subst. exfalso. apply H. now left.
Qed.
Lemma dget_puts mvs k n : dget (puts mvs []) k = Some n <-> last_import mvs k n.
Proof.
  unfold last_import. split.
  - induction mvs as [|[m v] mvs IH] using rev_ind; [discriminate|].
    rewrite puts_app. cbn [puts fold_left fst snd]. rewrite dget_dset. destruct (text_eqb m k) eqn:E; intros H.
    + apply text_eqb_eq in E. injection H as ->. subst m. exists mvs, []. now split.
    + destruct (IH H) as (b & a & -> & Hn). exists b, (a ++ [(m, v)]). rewrite <- app_assoc. split; [reflexivity|].
      rewrite map_app, in_app_iff. cbn [map fst In]. intros [C|[C|[]]]; [contradiction|]. subst.
      rewrite text_eqb_refl in E. discriminate E.
  - intros (b & a & -> & Hn). rewrite puts_app. cbn [puts fold_left fst snd].
    fold (puts a (dset (puts b []) k n)). rewrite puts_absent by assumption. rewrite dget_dset, text_eqb_refl. reflexivity.
Qed.
Lemma with_top_level_import e m module name v mvs :
  file_gives (e_tree e) mvs ->
  (last_import mvs module name -> forall s, eval e (MWithTopLevelImport m module name) v s = eval e m v s)
  /\ (~ last_import mvs module name -> forall s, eval e (MWithTopLevelImport m module name) v s = (s, Ok None)).
Proof.
  intros Hf. cbn [eval]. rewrite (top_level_imports_gives _ _ Hf). split; intros H s.
  - apply dget_puts in H. rewrite H, text_eqb_refl. reflexivity.
  - destruct (dget (puts mvs []) module) as [n|] eqn:E; [|reflexivity].
    destruct (text_eqb n name) eqn:E2; [|reflexivity]. apply text_eqb_eq in E2. subst n.
    exfalso. apply H. now apply dget_puts.
Qed.
