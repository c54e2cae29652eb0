(** Proofs for C58. *)
From Verif Require Import Py PyFacts Regex Subst Fmt SubstSpec FmtSpec FmtProofs RenderProofs ColourSpec.
From Coq Require Import ZifyBool.

(** *** Text with attributes *)
Inductive item := Ch (c : char) | Code (k : text).
Definition enc1 (i : item) : text := match i with Ch c => [c] | Code k => ansi k end.
Definition enc (l : list item) : text := concat (map enc1 l).
Definition chars1 (i : item) : text := match i with Ch c => [c] | Code _ => [] end.
Definition chars (l : list item) : text := concat (map chars1 l).
(** The codes used. *)
Definition known : list text := [TX "0"; TX "1"; TX "2"; TX "31"; TX "32"; TX "33"; TX "34"; TX "35"; TX "36"].
Definition good (i : item) : Prop := match i with Ch c => c <> ESC /\ c <> 13 | Code k => In k known end.
Definition code (st : style) (k : text) : style := if text_eqb k (TX "0") then [] else st ++ [k].
Fixpoint play (st : style) (l : list item) : list (char * style) :=
  match l with
  | [] => []
  | Ch c :: r => (c, st) :: play st r
  | Code k :: r => play (code st k) r
  end.
Fixpoint fin (st : style) (l : list item) : style :=
  match l with [] => st | Ch _ :: r => fin st r | Code k :: r => fin (code st k) r end.

Lemma enc_app a b : enc (a ++ b) = enc a ++ enc b.
Proof. unfold enc. now rewrite map_app, concat_app. Qed.
Lemma chars_app a b : chars (a ++ b) = chars a ++ chars b.
Proof. unfold chars. now rewrite map_app, concat_app. Qed.
Lemma play_app st a b : play st (a ++ b) = play st a ++ play (fin st a) b.
Proof. revert st; induction a as [|[c|k] a IH]; intro st; cbn; [reflexivity|now rewrite IH|apply IH]. Qed.
Lemma fin_app st a b : fin st (a ++ b) = fin (fin st a) b.
Proof. revert st; induction a as [|[c|k] a IH]; intro st; cbn; auto. Qed.
Lemma map_play st l : map fst (play st l) = chars l.
Proof. revert st; induction l as [|[c|k] l IH]; intro st; cbn; [reflexivity|now rewrite IH|apply IH]. Qed.

Lemma receive_all_app m st a b :
  receive_all m st (a ++ b)
  = let '(o1, m1, st1) := receive_all m st a in
    let '(o2, m2, st2) := receive_all m1 st1 b in (o1 ++ o2, m2, st2).
Proof.
  revert m st; induction a as [|c a IH]; intros m st; cbn [app receive_all].
  - now destruct (receive_all m st b) as [[? ?] ?].
  - destruct (receive m st c) as [[o1 m1] st1]. rewrite IH.
    destruct (receive_all m1 st1 a) as [[o2 m2] st2]. destruct (receive_all m2 st2 b) as [[o3 m3] st3].
    now rewrite app_assoc.
Qed.
Lemma receive_code st k : In k known -> receive_all Ready st (ansi k) = ([], Ready, code st k).
Proof.
  intro H. repeat (destruct H as [<-|H]; [reflexivity|]). destruct H.
Qed.
Lemma receive_enc st l : Forall good l -> receive_all Ready st (enc l) = (play st l, Ready, fin st l).
Proof.
  intro H. revert st; induction H as [|i l Hi H IH]; intro st; [reflexivity|].
  change (enc (i :: l)) with (enc1 i ++ enc l). rewrite receive_all_app. destruct i as [c|k]; cbn [enc1].
  - cbn [receive_all receive]. destruct Hi as [Hc _]. destruct (Z.eqb_spec c ESC); [easy|]. cbn [app].
    rewrite IH. reflexivity.
  - rewrite receive_code by exact Hi. rewrite IH. reflexivity.
Qed.
Lemma screen_enc l : Forall good l -> screen (enc l) = play [] l.
Proof. intro H. unfold screen. now rewrite receive_enc. Qed.

(** *** Styles *)
Definition is_style (s : text) : Prop :=
  exists ks, s = enc (map Code ks) /\ Forall (fun k => In k known /\ k <> TX "0") ks.
Definition styled_ok (st : rstate) : Prop := forall k sty, In (k, sty) (label_to_style st) -> is_style sty.
Lemma style_nil : is_style [].
Proof. exists []. split; [reflexivity|constructor]. Qed.
Ltac style_of l := exists l; split; [reflexivity|repeat (constructor; [split; [cbn; tauto|discriminate]|]); constructor].
Lemma style_bright : is_style BRIGHT. Proof. style_of [TX "1"]. Qed.
Lemma style_dim : is_style DIM. Proof. style_of [TX "2"]. Qed.
Lemma style_red : is_style RED. Proof. style_of [TX "31"]. Qed.
Lemma style_green : is_style GREEN. Proof. style_of [TX "32"]. Qed.
Lemma style_app a b : is_style a -> is_style b -> is_style (a ++ b).
Proof.
  intros (x & -> & Hx) (y & -> & Hy). exists (x ++ y). split; [now rewrite map_app, enc_app|].
  apply Forall_app; auto.
Qed.
Lemma style_cycle n : is_style (cycle_style n).
Proof.
  unfold cycle_style. pose proof (Nat.mod_upper_bound n 4 ltac:(lia)) as H.
  destruct (n mod 4)%nat as [|[|[|[|m]]]]; [| | | |lia].
  - style_of [TX "1"; TX "33"].
  - style_of [TX "1"; TX "34"].
  - style_of [TX "1"; TX "35"].
  - style_of [TX "1"; TX "36"].
Qed.
Lemma style_get_In t k sty : style_get t k = Some sty -> exists k', In (k', sty) t.
Proof.
  induction t as [|[k' v] t IH]; cbn; [discriminate|]. destruct (set_eqb k' k).
  - intro E. injection E as ->. eauto.
  - intro E. destruct (IH E) as (k2 & H). eauto.
Qed.
Lemma style_for_ok st s ls st' sty : styled_ok st -> style_for st s ls = (st', sty) -> styled_ok st' /\ is_style sty.
Proof.
  intros H. unfold style_for. destruct (_ && _).
  { intro E. injection E as <- <-. split; [exact H|apply style_bright]. }
  destruct (style_get (label_to_style st) ls) as [x|] eqn:G; intro E; injection E as <- <-.
  - destruct (style_get_In _ _ _ G) as (k & Hk). split; [exact H|eapply H; eauto].
  - split; [|apply style_cycle]. intros k sty Hin. cbn in Hin. apply in_app_iff in Hin.
    destruct Hin as [Hin|[E|[]]]; [eapply H; eauto|]. injection E as <- <-. apply style_cycle.
Qed.

(** *** Styled lines *)
(** The tail of a rendered block. *)
Definition tail_ok (l : list item) : Prop :=
  l = [] \/ (exists l', l = l' ++ [Ch NL]) \/ (exists l' x, l = l' ++ [Ch x; Code (TX "0")] /\ x <> NL).
Lemma tail_ok_app a b : tail_ok a -> tail_ok b -> tail_ok (a ++ b).
Proof.
  intros Ha [->|[(b' & ->)|(b' & x & -> & H)]].
  - now rewrite app_nil_r.
  - right; left. exists (a ++ b'). now rewrite app_assoc.
  - right; right. exists (a ++ b'), x. now rewrite app_assoc.
Qed.

(** Line breaks are shown in the normal style or are followed by a reset. *)
Fixpoint lb_ok (st : style) (l : list item) : Prop :=
  match l with
  | [] => True
  | Ch c :: r => (is_linebreak c = true -> st = [] \/ exists r', r = Code (TX "0") :: r') /\ lb_ok st r
  | Code k :: r => lb_ok (code st k) r
  end.
Lemma lb_ok_app st a b : lb_ok st a -> lb_ok (fin st a) b -> lb_ok st (a ++ b).
Proof.
  revert st; induction a as [|[c|k] a IH]; intros st H1 H2; [exact H2| |apply IH; assumption].
  destruct H1 as [H1 H3]. split; [|now apply IH]. intro Hc. destruct (H1 Hc) as [E|(r & ->)]; [auto|].
  right. cbn [app]. eauto.
Qed.
Lemma fin_ch st s : fin st (map Ch s) = st.
Proof. induction s; cbn; auto. Qed.
Lemma play_ch st s : play st (map Ch s) = map (fun c => (c, st)) s.
Proof. induction s as [|c s IH]; cbn; [reflexivity|]. now rewrite IH. Qed.
Lemma enc_ch s : enc (map Ch s) = s.
Proof. induction s as [|c s IH]; [reflexivity|]. cbn in *. unfold enc in *. cbn. now rewrite IH. Qed.
Lemma chars_ch s : chars (map Ch s) = s.
Proof. induction s as [|c s IH]; [reflexivity|]. cbn in *. unfold chars in *. cbn. now rewrite IH. Qed.
Lemma chars_codes ks : chars (map Code ks) = [].
Proof. induction ks as [|c s IH]; [reflexivity|]. exact IH. Qed.
Lemma good_ch s : plain_text s -> Forall good (map Ch s).
Proof.
  intros [H1 H2]. induction s as [|c s IH]; cbn; constructor.
  - split; intros ->; [apply H1|apply H2]; now left.
  - apply IH; intro; [apply H1|apply H2]; now right.
Qed.
Lemma codes_fin st ks : Forall (fun k => In k known /\ k <> TX "0") ks ->
  fin st (map Code ks) = st ++ ks /\ play st (map Code ks) = [] /\ lb_ok st (map Code ks) /\ Forall good (map Code ks).
Proof.
  intro H. revert st; induction H as [|k ks [Hk Hn] H IH]; intro st; cbn [map fin play lb_ok].
  - rewrite app_nil_r. auto.
  - assert (E : code st k = st ++ [k]).
    { unfold code. destruct (text_eqb_spec k (TX "0")) as [E|E]; [contradiction|reflexivity]. }
    rewrite E. destruct (IH (st ++ [k])) as (A & B & C & D). rewrite <- app_assoc in A. auto.
Qed.
Lemma lb_ok_nobreak st s : no_linebreak s -> lb_ok st (map Ch s).
Proof.
  intro H. induction H as [|c s Hc H IH]; [exact I|]. split; [congruence|exact IH].
Qed.

(** One styled line. *)
Definition line_items (ks : list text) (line : text) : list item :=
  if endswith [NL] line then map Code ks ++ map Ch (slice line 0 (-1)) ++ [Code (TX "0"); Ch NL]
  else map Code ks ++ map Ch line ++ [Code (TX "0")].
Definition styled_items (ks : list text) (s : text) : list item :=
  concat (map (line_items ks) (splitlines_keep s)).
Lemma enc_styled ks s : enc (styled_items ks s) = style_lines true (enc (map Code ks)) s.
Proof.
  unfold styled_items, style_lines. induction (splitlines_keep s) as [|l ls IH]; [reflexivity|].
  cbn [map concat]. rewrite enc_app, IH. f_equal. unfold line_items, style_text.
  destruct (endswith [NL] l); rewrite !enc_app, enc_ch; [|reflexivity]. now rewrite <- !app_assoc.
Qed.
Lemma chars_styled ks s : chars (styled_items ks s) = s.
Proof.
  unfold styled_items. rewrite <- (concat_splitlines s) at 2.
  induction (splitlines_keep s) as [|l ls IH]; [reflexivity|].
  cbn [map concat]. rewrite chars_app, IH. f_equal. unfold line_items.
  destruct (endswith [NL] l) eqn:E; rewrite !chars_app, chars_codes, chars_ch; cbn [app].
  - apply endswith_NL in E. destruct E as (u & ->). rewrite slice_drop_last. reflexivity.
  - unfold chars. cbn. now rewrite app_nil_r.
Qed.
Lemma nl_break : is_linebreak NL = true. Proof. reflexivity. Qed.
(** A line without carriage return has at most one line break, at its end. *)
Lemma splitlines_shape s : ~ In 13 s ->
  Forall (fun l => l <> [] /\ exists u c, l = u ++ [c] /\ no_linebreak u) (splitlines_keep s).
Proof.
  apply (splitlines_rec (fun s l => ~ In 13 s -> Forall (fun l => l <> [] /\ exists u c, l = u ++ [c] /\ no_linebreak u) l)).
  - constructor.
  - intros r _ H. exfalso. apply H. now left.
  - intros x r _ _ IH H. constructor; [|apply IH; intro; apply H; now right].
    split; [discriminate|]. exists [], x. split; [reflexivity|constructor].
  - intros x r Hx IH H. specialize (IH (fun h => H (or_intror h))).
    destruct (splitlines_keep r) as [|l ls].
    + constructor; [|constructor]. split; [discriminate|]. exists [], x. split; [reflexivity|constructor].
    + inversion IH as [|? ? [_ (u & c & -> & Hu)] Hls]; subst. constructor; [|exact Hls].
      split; [discriminate|]. exists (x :: u), c. split; [reflexivity|]. now constructor.
Qed.

(** A rendered block: what is known of it. *)
Record block_ok (l : list item) : Prop := {
  bk_good : Forall good l;
  bk_fin : fin [] l = [];
  bk_lb : lb_ok [] l;
  bk_nl : forall st, In (NL, st) (play [] l) -> st = [];
  bk_tail : tail_ok l
}.
Lemma block_nil : block_ok [].
Proof. split; cbn; [constructor|reflexivity|exact I|intros ? []|now left]. Qed.
Lemma block_app a b : block_ok a -> block_ok b -> block_ok (a ++ b).
Proof.
  intros [A1 A2 A3 A4 A5] [B1 B2 B3 B4 B5]. split.
  - apply Forall_app; auto.
  - now rewrite fin_app, A2.
  - apply lb_ok_app; [assumption|]. now rewrite A2.
  - intros st H. rewrite play_app, A2 in H. apply in_app_iff in H. destruct H; auto.
  - now apply tail_ok_app.
Qed.
Lemma code_reset st : code st (TX "0") = []. Proof. reflexivity. Qed.
Lemma line_block ks u c : Forall (fun k => In k known /\ k <> TX "0") ks -> no_linebreak u -> plain_text (u ++ [c]) ->
  block_ok (line_items ks (u ++ [c])).
Proof.
  intros Hk Hu Hp. destruct (codes_fin [] ks Hk) as (F & P & L & G). unfold line_items.
  assert (Hin : forall st, ~ In (NL, st) (map (fun x => (x, ks)) u)).
  { intros st H. apply in_map_iff in H. destruct H as (x & E & Hx). injection E as -> _.
    unfold no_linebreak in Hu. rewrite Forall_forall in Hu. apply Hu in Hx. discriminate. }
  destruct (endswith [NL] (u ++ [c])) eqn:E.
  - apply endswith_NL in E. destruct E as (v & E). apply app_inj_tail in E. destruct E as [<- ->].
    rewrite slice_drop_last.
    assert (Hpu : plain_text u) by (destruct Hp as [A B]; split; intro H; [apply A|apply B]; apply in_app_iff; now left).
    split.
    + apply Forall_app; split; [exact G|]. apply Forall_app; split; [now apply good_ch|].
      constructor; [cbn; tauto|]. constructor; [split; discriminate|constructor].
    + rewrite !fin_app, fin_ch, F. cbn [fin]. apply code_reset.
    + apply lb_ok_app; [exact L|]. apply lb_ok_app; [now apply lb_ok_nobreak|]. rewrite fin_ch. cbn [lb_ok].
      rewrite code_reset. auto.
    + intros st. rewrite !play_app, P, fin_ch, F, play_ch. cbn [app play]. rewrite code_reset.
      intro H. apply in_app_iff in H. destruct H as [H|[H|[]]]; [now apply Hin in H|]. now injection H.
    + right; left. exists (map Code ks ++ map Ch u ++ [Code (TX "0")]). rewrite <- !app_assoc. reflexivity.
  - assert (Hc : c <> NL).
    { intros ->. assert (X : endswith [NL] (u ++ [NL]) = true) by (apply endswith_NL; now exists u). congruence. }
    split.
    + apply Forall_app; split; [exact G|]. apply Forall_app; split; [now apply good_ch|].
      constructor; [cbn; tauto|constructor].
    + rewrite !fin_app, fin_ch, F. cbn [fin]. apply code_reset.
    + apply lb_ok_app; [exact L|]. rewrite map_app, <- app_assoc. apply lb_ok_app; [now apply lb_ok_nobreak|].
      rewrite fin_ch. cbn [map app lb_ok]. split; [intros _; right; eauto|exact I].
    + intros st. rewrite map_app, !play_app, P, !fin_ch, F, !play_ch. cbn [app play map]. rewrite app_nil_r.
      intro H. apply in_app_iff in H. destruct H as [H|[H|[]]]; [now apply Hin in H|]. injection H as E2 _. congruence.
    + right; right. exists (map Code ks ++ map Ch u), c. rewrite map_app, <- !app_assoc. split; [reflexivity|exact Hc].
Qed.
Lemma plain_sublist (s l : text) : plain_text s -> (forall c, In c l -> In c s) -> plain_text l.
Proof. intros [A B] H. split; intro X; [apply A|apply B]; auto. Qed.
Lemma styled_block ks s : Forall (fun k => In k known /\ k <> TX "0") ks -> plain_text s -> block_ok (styled_items ks s).
Proof.
  intros Hk Hp. pose proof (splitlines_shape s (proj2 Hp)) as H. unfold styled_items.
  assert (Hs : forall l c, In l (splitlines_keep s) -> In c l -> In c s).
  { intros l c Hl Hc. rewrite <- (concat_splitlines s). apply in_concat. eauto. }
  induction (splitlines_keep s) as [|l ls IH]; [apply block_nil|]. cbn [map concat].
  inversion H as [|? ? [_ (u & c & -> & Hu)] Hls]; subst.
  apply block_app; [|apply IH; [assumption|intros l c' Hl; apply Hs; now right]].
  apply line_block; [assumption|assumption|]. eapply plain_sublist; [exact Hp|]. intros x Hx. eapply Hs; [now left|exact Hx].
Qed.

(** *** Inserting a prefix before each line *)
Fixpoint ins (pre : text) (fresh : bool) (s : text) : text :=
  match s with
  | [] => []
  | c :: r => (if fresh then pre else []) ++ c :: ins pre (is_linebreak c) r
  end.
Lemma ins_lines pre s : ~ In 13 s ->
  concat (map (app pre) (splitlines_keep s)) = ins pre true s.
Proof.
  apply (splitlines_rec (fun s l => ~ In 13 s -> concat (map (app pre) l) = ins pre true s)).
  - reflexivity.
  - intros r _ H. exfalso. apply H. now left.
  - intros x r Hx _ IH H. cbn [map concat ins]. rewrite Hx, IH by (intro; apply H; now right).
    now rewrite <- app_assoc.
  - intros x r Hx IH H. specialize (IH (fun h => H (or_intror h))). cbn [ins]. rewrite Hx.
    assert (E : forall fr, ins pre fr r = match r with [] => [] | _ => (if fr then pre else []) ++ ins pre false r end)
      by (intro; destruct r; reflexivity).
    destruct (splitlines_keep r) as [|l ls] eqn:Er.
    + cbn in IH. rewrite E in IH. destruct r as [|y r]; [cbn; now rewrite app_nil_r|]. exfalso.
      pose proof (concat_splitlines (y :: r)) as C. rewrite Er in C. discriminate.
    + destruct r as [|y r]; [discriminate|]. rewrite E in IH. cbn [map concat] in *.
      rewrite <- !app_assoc in *. cbn [app]. f_equal. f_equal. now apply app_inv_head in IH.
Qed.
Fixpoint insI (pre : list item) (fresh : bool) (l : list item) : list item :=
  match l with
  | [] => []
  | Ch c :: r => (if fresh then pre else []) ++ Ch c :: insI pre (is_linebreak c) r
  | Code k :: r => (if fresh then pre else []) ++ Code k :: insI pre false r
  end.
Lemma insI_fresh pre l : l <> [] -> insI pre true l = pre ++ insI pre false l.
Proof. destruct l as [|[c|k] l]; [easy|reflexivity|reflexivity]. Qed.
Lemma ins_fresh pre l : l <> [] -> ins pre true l = pre ++ ins pre false l.
Proof. destruct l as [|c l]; [easy|reflexivity]. Qed.
Lemma ins_ansi pre fr k s : In k known -> ins pre fr (ansi k ++ s) = (if fr then pre else []) ++ ansi k ++ ins pre false s.
Proof. intro H. repeat (destruct H as [<-|H]; [reflexivity|]). destruct H. Qed.
Lemma enc_insI pre fr l : Forall good l -> enc (insI pre fr l) = ins (enc pre) fr (enc l).
Proof.
  intro H. revert fr; induction H as [|i l Hi H IH]; intro fr; [reflexivity|].
  change (enc (i :: l)) with (enc1 i ++ enc l). destruct i as [c|k]; cbn [insI enc1].
  - rewrite enc_app. change (enc (Ch c :: insI pre (is_linebreak c) l)) with (c :: enc (insI pre (is_linebreak c) l)).
    rewrite IH. destruct fr; reflexivity.
  - rewrite enc_app. change (enc (Code k :: insI pre false l)) with (ansi k ++ enc (insI pre false l)).
    rewrite IH, ins_ansi by exact Hi. destruct fr; reflexivity.
Qed.
Lemma enc_no_cr l : Forall good l -> ~ In 13 (enc l).
Proof.
  intro H. induction H as [|i l Hi H IH]; [intros []|].
  change (enc (i :: l)) with (enc1 i ++ enc l). rewrite in_app_iff. intros [X|X]; [|contradiction].
  destruct i as [c|k]; cbn in Hi, X.
  - destruct X as [E|[]]. now destruct Hi.
  - repeat (destruct Hi as [<-|Hi]; [cbn in X; repeat (destruct X as [X|X]; [discriminate|]); destruct X|]). destruct Hi.
Qed.
(** Items that end with a character. *)
Definition ends_ch (l : list item) : Prop := l = [] \/ exists l' c, l = l' ++ [Ch c].
Lemma ends_ch_tl i l : ends_ch (i :: l) -> ends_ch l /\ (l = [] -> exists c, i = Ch c).
Proof.
  intros [E|(l' & c & E)]; [discriminate|]. destruct l' as [|j l']; injection E as -> ->.
  - split; [now left|eauto].
  - split; [right; eauto|]. intro E. now apply app_eq_nil in E.
Qed.
Lemma ends_ch_chars l : ends_ch l -> l <> [] -> chars l <> [].
Proof.
  intros [->|(l' & c & ->)] H; [easy|]. rewrite chars_app. intro E. apply app_eq_nil in E. now destruct E.
Qed.
Lemma chars_insI pre l : ends_ch l -> chars (insI pre false l) = ins (chars pre) false (chars l).
Proof.
  induction l as [|[c|k] l IH]; intro H; [reflexivity| |].
  - apply ends_ch_tl in H. destruct H as [H _]. cbn [insI app].
    change (chars (Ch c :: l)) with (c :: chars l).
    change (chars (Ch c :: insI pre (is_linebreak c) l)) with (c :: chars (insI pre (is_linebreak c) l)).
    cbn [ins app]. f_equal. destruct (is_linebreak c); [|now apply IH].
    destruct l as [|i l]; [reflexivity|]. rewrite insI_fresh, chars_app, ins_fresh by (easy || now apply ends_ch_chars).
    now rewrite IH.
  - apply ends_ch_tl in H. destruct H as [H _]. exact (IH H).
Qed.
(** Prefixes that are never selected by [f] do not change what is selected. *)
Lemma play_insI f pre l : forall st, ends_ch l -> lb_ok st l ->
  fin [] pre = [] ->
  (forall c s, In (c, s) (play st l) -> is_linebreak c = true -> filter f (play s pre) = []) ->
  filter f (play st (insI pre false l)) = filter f (play st l) /\ fin st (insI pre false l) = fin st l.
Proof.
  induction l as [|[c|k] l IH]; intros st H L F Hf; [auto| |].
  - apply ends_ch_tl in H. destruct H as [H _]. destruct L as [L1 L2]. cbn [insI app play fin].
    assert (Hf' : forall c s, In (c, s) (play st l) -> is_linebreak c = true -> filter f (play s pre) = [])
      by (intros c' s' X; apply Hf; now right).
    destruct (IH st H L2 F Hf') as [I1 I2]. cbn [filter].
    destruct (is_linebreak c) eqn:Ec; [|rewrite I1, I2; auto].
    destruct l as [|i l]; [auto|]. rewrite insI_fresh by easy. rewrite play_app, filter_app, fin_app.
    rewrite (Hf c st (or_introl eq_refl) Ec). cbn [app].
    assert (E : play (fin st pre) (insI pre false (i :: l)) = play st (insI pre false (i :: l))
                /\ fin (fin st pre) (insI pre false (i :: l)) = fin st (insI pre false (i :: l))).
    { destruct (L1 eq_refl) as [->|(r & Er)]; [rewrite F; auto|]. injection Er as -> ->. cbn [insI app play fin].
      rewrite !code_reset. auto. }
    destruct E as [-> ->]. rewrite I1, I2. auto.
  - apply ends_ch_tl in H. destruct H as [H _]. cbn [insI app play fin]. now apply IH.
Qed.

(** *** Lines of a diff *)
Definition finish (l : list item) : list item := if endswith [NL] (enc l) then l else l ++ [Ch NL].
Definition prefixed (pre l : list item) : list item :=
  match l with [] => [] | _ => insI pre true (finish l) end.
Lemma enc_snoc_ch l c : enc (l ++ [Ch c]) = enc l ++ [c].
Proof. now rewrite enc_app. Qed.
Lemma ends_of_tail l : tail_ok l -> l <> [] ->
  (exists l', l = l' ++ [Ch NL]) /\ endswith [NL] (enc l) = true /\ endswith [NL] (chars l) = true
  \/ endswith [NL] (enc l) = false /\ endswith [NL] (chars l) = false /\ chars l <> [].
Proof.
  intros [->|[(l' & ->)|(l' & x & -> & Hx)]] H; [easy|left|right].
  - split; [eauto|]. split; apply endswith_NL; rewrite ?enc_app, ?chars_app; eexists; reflexivity.
  - rewrite !enc_app, !chars_app. split; [|split].
    + apply Bool.not_true_is_false. intro E. apply endswith_NL in E. destruct E as (u & E).
      change (enc [Ch x; Code (TX "0")]) with ([x; 27; 91; 48] ++ [109]) in E. rewrite app_assoc in E.
      apply app_inj_tail in E. destruct E as [_ E]. discriminate.
    + apply Bool.not_true_is_false. intro E. apply endswith_NL in E. destruct E as (u & E).
      change (chars [Ch x; Code (TX "0")]) with [x] in E. apply app_inj_tail in E. now destruct E.
    + intro E. apply app_eq_nil in E. now destruct E.
Qed.
Lemma finish_ok l : block_ok l -> l <> [] ->
  (exists l', finish l = l' ++ [Ch NL]) /\ block_ok (finish l)
  /\ chars (finish l) = (if endswith [NL] (chars l) then chars l else chars l ++ [NL])
  /\ play [] (finish l) = play [] l ++ (if endswith [NL] (chars l) then [] else [(NL, [])]).
Proof.
  intros B H. unfold finish. destruct (ends_of_tail l (bk_tail _ B) H) as [(E & -> & ->)|(-> & -> & _)].
  - rewrite app_nil_r. auto.
  - split; [eauto|]. rewrite chars_app, play_app, (bk_fin _ B). split; [|split; reflexivity].
    apply block_app; [exact B|]. split; cbn.
    + constructor; [split; discriminate|constructor].
    + reflexivity.
    + auto.
    + intros st [X|[]]. now injection X.
    + right; left. exists []. reflexivity.
Qed.
Lemma enc_prefixed pre l : block_ok l -> enc (prefixed pre l) = create_diff (enc pre) (enc l).
Proof.
  intro B. destruct l as [|i l]; [reflexivity|]. unfold prefixed. set (L := i :: l) in *.
  assert (HL : L <> []) by discriminate.
  assert (En : exists c s, enc L = c :: s).
  { subst L. change (enc (i :: l)) with (enc1 i ++ enc l). destruct i; cbn; eauto. }
  destruct (finish_ok L B HL) as ((l' & El) & B' & _ & _).
  unfold create_diff. destruct En as (c & s & En). rewrite En, <- En.
  rewrite enc_insI by apply (bk_good _ B'). unfold finish.
  rewrite ins_lines.
  - destruct (endswith [NL] (enc L)); [reflexivity|]. now rewrite enc_snoc_ch.
  - pose proof (enc_no_cr _ (bk_good _ B')) as X. unfold finish in X. destruct (endswith [NL] (enc L)); [exact X|].
    now rewrite enc_snoc_ch in X.
Qed.
Lemma ends_snoc l c : ends_ch (l ++ [Ch c]). Proof. right; eauto. Qed.
Lemma chars_prefixed pre l : block_ok l -> chars (prefixed pre l) = create_diff (chars pre) (chars l).
Proof.
  intro B. destruct l as [|i l]; [reflexivity|]. unfold prefixed. set (L := i :: l) in *.
  assert (HL : L <> []) by discriminate.
  destruct (finish_ok L B HL) as ((l' & El) & B' & Ec & _).
  assert (Hn : chars L <> []).
  { destruct (ends_of_tail L (bk_tail _ B) HL) as [((l2 & ->) & _)|(_ & _ & X)]; [|exact X].
    rewrite chars_app. intro E. apply app_eq_nil in E. now destruct E. }
  unfold create_diff. destruct (chars L) as [|c s] eqn:En; [easy|]. rewrite <- En in *.
  assert (Hf : finish L <> []) by (rewrite El; destruct l'; discriminate).
  rewrite insI_fresh, chars_app, chars_insI by (assumption || (rewrite El; apply ends_snoc)).
  rewrite Ec. assert (Hc : ~ In 13 (if endswith [NL] (chars L) then chars L else chars L ++ [NL])).
  { pose proof (bk_good _ B') as G. intro X0. assert (X : In 13 (chars (finish L))) by (rewrite Ec; exact X0).
    unfold chars in X. apply in_concat in X.
    destruct X as (t & X1 & X2). apply in_map_iff in X1. destruct X1 as (j & <- & Hj).
    rewrite Forall_forall in G. apply G in Hj. destruct j as [x|k]; cbn in *; [|exact X2].
    destruct X2 as [E|[]]. now destruct Hj. }
  rewrite ins_lines by exact Hc. rewrite ins_fresh; [reflexivity|].
  destruct (endswith [NL] (chars L)); [exact Hn|]. destruct (chars L); discriminate.
Qed.
Lemma play_prefixed f pre l : block_ok l -> fin [] pre = [] ->
  filter f (play [] pre) = [] -> f (NL, []) = false ->
  (forall c s, In (c, s) (play [] l) -> is_linebreak c = true -> filter f (play s pre) = []) ->
  filter f (play [] (prefixed pre l)) = filter f (play [] l) /\ fin [] (prefixed pre l) = [].
Proof.
  intros B F Hp Hn Hf. destruct l as [|i l]; [auto|]. unfold prefixed. set (L := i :: l) in *.
  assert (HL : L <> []) by discriminate.
  destruct (finish_ok L B HL) as ((l' & El) & B' & _ & Ep).
  assert (Hl : finish L <> []) by (rewrite El; destruct l'; discriminate).
  rewrite insI_fresh by exact Hl. rewrite play_app, filter_app, fin_app, F, Hp. cbn [app].
  destruct (play_insI f pre (finish L) []) as [I1 I2]; [rewrite El; apply ends_snoc|apply B'|exact F| |].
  - intros c s. rewrite Ep, in_app_iff. intros [X|X] Hc; [eapply Hf; eauto|].
    destruct (endswith [NL] (chars L)); [destruct X|]. destruct X as [X|[]]. injection X as <- <-. exact Hp.
  - rewrite I1, I2, Ep, filter_app, (bk_fin _ B'). split; [|reflexivity].
    destruct (endswith [NL] (chars L)); [now rewrite app_nil_r|]. cbn [filter]. rewrite Hn. now rewrite app_nil_r.
Qed.

(** *** What is shown in which style *)
Lemma style_eqb_eq a b : style_eqb a b = true <-> a = b.
Proof.
  unfold style_eqb. split.
  - intro H. apply andb_true_iff in H. destruct H as [H1 H2]. apply Nat.eqb_eq in H1.
    revert b H1 H2; induction a as [|x a IH]; intros [|y b] H1 H2; try discriminate; [reflexivity|].
    cbn in H2. apply andb_true_iff in H2. destruct H2 as [H2 H3]. apply text_eqb_eq in H2. subst y.
    f_equal. apply IH; [now injection H1|exact H3].
  - intros <-. rewrite Nat.eqb_refl. cbn. induction a as [|x a IH]; [reflexivity|]. cbn. now rewrite text_eqb_refl.
Qed.
Lemma shown_app st a b : shown_as st (a ++ b) = shown_as st a ++ shown_as st b.
Proof. unfold shown_as. now rewrite filter_app, map_app. Qed.
Lemma shown_const hl st s : shown_as hl (map (fun c => (c, st)) s) = if style_eqb st hl then s else [].
Proof.
  unfold shown_as. induction s as [|c s IH]; cbn; [now destruct (style_eqb st hl)|].
  destruct (style_eqb st hl); cbn; now rewrite IH.
Qed.
Lemma without_app a b : without_newlines (a ++ b) = without_newlines a ++ without_newlines b.
Proof. apply filter_app. Qed.
Lemma without_id s : ~ In NL s -> without_newlines s = s.
Proof.
  intro H. unfold without_newlines. induction s as [|c s IH]; [reflexivity|]. cbn.
  destruct (Z.eqb_spec c NL) as [->|]; [exfalso; apply H; now left|]. cbn. f_equal. apply IH. intro; apply H; now right.
Qed.
Lemma no_break_no_nl u : no_linebreak u -> ~ In NL u.
Proof. intros H X. unfold no_linebreak in H. rewrite Forall_forall in H. apply H in X. discriminate. Qed.
Lemma shown_styled hl ks s : hl <> [] -> Forall (fun k => In k known /\ k <> TX "0") ks -> plain_text s ->
  shown_as hl (play [] (styled_items ks s)) = if style_eqb ks hl then without_newlines s else [].
Proof.
  intros Hh Hk Hp. pose proof (splitlines_shape s (proj2 Hp)) as H. unfold styled_items.
  rewrite <- (concat_splitlines s) at 2.
  assert (Hs : forall l c, In l (splitlines_keep s) -> In c l -> In c s).
  { intros l c Hl Hc. rewrite <- (concat_splitlines s). apply in_concat. eauto. }
  induction (splitlines_keep s) as [|l ls IH]; [now destruct (style_eqb ks hl)|]. cbn [map concat].
  inversion H as [|? ? [_ (u & c & -> & Hu)] Hls]; subst.
  assert (Hpl : plain_text (u ++ [c])).
  { eapply plain_sublist; [exact Hp|]. intros x Hx. eapply Hs; [now left|exact Hx]. }
  rewrite play_app, (bk_fin _ (line_block ks u c Hk Hu Hpl)), shown_app, IH by (auto; intros l c' Hl; apply Hs; now right).
  rewrite without_app. destruct (codes_fin [] ks Hk) as (F & P & _ & _).
  assert (E : shown_as hl (play [] (line_items ks (u ++ [c]))) = if style_eqb ks hl then without_newlines (u ++ [c]) else []).
  { unfold line_items. rewrite without_app. destruct (endswith [NL] (u ++ [c])) eqn:E.
    - apply endswith_NL in E. destruct E as (v & E). apply app_inj_tail in E. destruct E as [<- ->].
      rewrite slice_drop_last, !play_app, P, fin_ch, F, play_ch, !shown_app. cbn [app play].
      rewrite code_reset, shown_const, (without_id u) by now apply no_break_no_nl.
      assert (Z : shown_as hl [(NL, [])] = []).
      { unfold shown_as. cbn. destruct (style_eqb [] hl) eqn:X; [|reflexivity]. apply style_eqb_eq in X. now subst. }
      rewrite Z. cbn. rewrite !app_nil_r. reflexivity.
    - assert (Hc : c <> NL).
      { intros ->. assert (X : endswith [NL] (u ++ [NL]) = true) by (apply endswith_NL; now exists u). congruence. }
      rewrite map_app, !play_app, P, !fin_ch, F, !play_ch, !shown_app. cbn [app play map].
      rewrite shown_const, (without_id u) by now apply no_break_no_nl.
      rewrite (without_id [c]) by (intros [X|[]]; congruence).
      change [(c, ks)] with (map (fun c : char => (c, ks)) [c]). rewrite shown_const.
      unfold shown_as. cbn. destruct (style_eqb ks hl); now rewrite ?app_nil_r. }
  rewrite E. now destruct (style_eqb ks hl).
Qed.

(** *** Blocks *)
Lemma slice_incl (s : text) a b c : In c (slice s a b) -> In c s.
Proof.
  unfold slice. intro H. assert (H2 : forall n (l : text), In c (firstn n l) -> In c l).
  { induction n; intros [|x l]; cbn; try tauto. intros [|]; auto. }
  apply H2 in H. assert (H3 : forall n (l : text), In c (skipn n l) -> In c l).
  { induction n; intros [|x l]; cbn; try tauto. auto. }
  now apply H3 in H.
Qed.
Lemma plain_slice s a b : plain_text s -> plain_text (slice s a b).
Proof. intro H. eapply plain_sublist; [exact H|]. apply slice_incl. Qed.
Definition plain_piece (p : piece) : Prop := match p with DiffSpan _ _ after => plain_text after | _ => True end.

Lemma red_hl : style_eqb [TX "31"; TX "1"] red_bright = true. Proof. reflexivity. Qed.
Lemma snoc_neq (st : style) k hl x : hl = x ++ [TX "1"] -> k <> TX "1" -> style_eqb (st ++ [k]) hl = false.
Proof.
  intros -> Hk. apply Bool.not_true_is_false. intro E. apply style_eqb_eq in E. apply app_inj_tail in E. now destruct E.
Qed.
Lemma enc_bright_style k : enc (map Code [k; TX "1"]) = ansi k ++ BRIGHT.
Proof. reflexivity. Qed.

Lemma render_block_items data s before isd block st :
  styled_ok st -> plain_text data -> Forall plain_piece block ->
  exists L st', render_diff_block true data s before isd block st = (st', enc L)
    /\ render_diff_block false data s before isd block st = (st', chars L)
    /\ block_ok L /\ styled_ok st'
    /\ (isd = true ->
        shown_as red_bright (play [] L) = (if before then without_newlines (removed_text data block) else [])
        /\ shown_as green_bright (play [] L) = (if before then [] else without_newlines (added_text block))).
Proof.
  intros Hst Hd Hb. revert st Hst; induction Hb as [|p block Hp Hb IH]; intros st Hst.
  { exists [], st. cbn. split; [reflexivity|]. split; [reflexivity|]. split; [apply block_nil|]. split; [exact Hst|].
    intros _. now destruct before. }
  cbn [render_diff_block]. destruct p as [[a b] ls|[a b] l after].
  - destruct (style_for st s ls) as [st1 sty] eqn:Es.
    destruct (style_for_ok _ _ _ _ _ Hst Es) as [Hst1 Hsty].
    assert (Hfull : is_style (sty ++ (if isd then DIM else []))).
    { apply style_app; [exact Hsty|]. destruct isd; [apply style_dim|apply style_nil]. }
    destruct Hsty as (ks0 & Ek0 & Hk0).
    destruct Hfull as (ks & Ek & Hk).
    assert (Eks : isd = true -> exists ks, sty ++ (if isd then DIM else []) = enc (map Code ks)
                    /\ Forall (fun k => In k known /\ k <> TX "0") ks /\ ks = ks0 ++ [TX "2"]).
    { intros ->. exists (ks0 ++ [TX "2"]). split; [|split; [|reflexivity]].
      - rewrite Ek0, map_app, enc_app. reflexivity.
      - apply Forall_app; split; [exact Hk0|]. constructor; [|constructor]. split; [cbn; tauto|discriminate]. }
    assert (Pick : exists ks, sty ++ (if isd then DIM else []) = enc (map Code ks)
                    /\ Forall (fun k => In k known /\ k <> TX "0") ks /\ (isd = true -> ks = ks0 ++ [TX "2"])).
    { destruct isd; [destruct (Eks eq_refl) as (q & Q1 & Q2 & Q3); exists q; auto|]. exists ks. split; [exact Ek|split; [exact Hk|discriminate]]. }
    clear ks Ek Hk Eks. destruct Pick as (ks & Ek & Hk & Hks).
    destruct (IH st1 Hst1) as (L & st2 & E1 & E2 & BL & Hst2 & Hs).
    pose proof (plain_slice data a b Hd) as Hps.
    exists (styled_items ks (slice data a b) ++ L), st2. rewrite E1, E2.
    split; [now rewrite enc_app, enc_styled, Ek|].
    split; [now rewrite chars_app, chars_styled, style_lines_plain|].
    pose proof (styled_block ks _ Hk Hps) as B1.
    split; [now apply block_app|]. split; [exact Hst2|]. intro Hi. destruct (Hs Hi) as [S1 S2].
    rewrite play_app, (bk_fin _ B1), !shown_app, S1, S2.
    rewrite !shown_styled by (assumption || discriminate). rewrite (Hks Hi).
    rewrite (snoc_neq ks0 (TX "2") red_bright [TX "31"] eq_refl), (snoc_neq ks0 (TX "2") green_bright [TX "32"] eq_refl) by discriminate.
    split; reflexivity.
  - destruct (IH st Hst) as (L & st2 & E1 & E2 & BL & Hst2 & Hs).
    set (ks := [if before then TX "31" else TX "32"; TX "1"]).
    set (str := if before then slice data a b else after).
    assert (Hps : plain_text str) by (subst str; destruct before; [now apply plain_slice|exact Hp]).
    assert (Hk : Forall (fun k => In k known /\ k <> TX "0") ks).
    { subst ks. destruct before; constructor; try (constructor; [|constructor]); (split; [cbn; tauto|discriminate]). }
    exists (styled_items ks str ++ L), st2. rewrite E1, E2.
    split; [rewrite enc_app, enc_styled; subst ks str; destruct before; reflexivity|].
    split; [rewrite chars_app, chars_styled, style_lines_plain; reflexivity|].
    pose proof (styled_block ks _ Hk Hps) as B1.
    split; [now apply block_app|]. split; [exact Hst2|]. intro Hi. destruct (Hs Hi) as [S1 S2].
    rewrite play_app, (bk_fin _ B1), !shown_app, S1, S2.
    rewrite !shown_styled by (assumption || discriminate).
    unfold removed_text, added_text. cbn [flat_map]. rewrite !without_app. subst ks str.
    destruct before; split; reflexivity.
Qed.

(** Blocks keep the changed pieces, and mark the blocks that have some. *)
Lemma blocks_shape data diffs : forall cur fl, fl = existsb is_diff_piece cur ->
  let bs := diff_blocks_loop data diffs cur fl in
  Forall (fun b => fst b = existsb is_diff_piece (snd b)) bs
  /\ filter is_diff_piece (concat (map snd bs)) = filter is_diff_piece (cur ++ diffs).
Proof.
  induction diffs as [|p diffs IH]; intros cur fl Hf; cbn [diff_blocks_loop].
  - split; [constructor; [exact Hf|constructor]|]. cbn. now rewrite !app_nil_r.
  - destruct p as [[x y] labels|sp l after]; [set (sp := (x, y))|].
    + destruct (partition_span data sp) as [[f m] la]. destruct la as [la|].
      * destruct (IH [LabeledSpan la labels] false eq_refl) as [I1 I2]. cbv zeta in I1, I2.
        assert (Hc : fl = existsb is_diff_piece (cur ++ [LabeledSpan f labels])).
        { rewrite existsb_app. cbn. now rewrite orb_false_r. }
        split.
        -- constructor; [exact Hc|]. destruct m as [m|]; [|exact I1]. constructor; [reflexivity|exact I1].
        -- destruct m as [m|]; cbn [app map concat snd].
           ++ change (filter is_diff_piece ((cur ++ [LabeledSpan f labels]) ++ [LabeledSpan m labels] ++ concat (map snd (diff_blocks_loop data diffs [LabeledSpan la labels] false)))
                = filter is_diff_piece (cur ++ [LabeledSpan (fst sp, snd sp) labels] ++ diffs)).
              rewrite !filter_app, I2. cbn. now rewrite app_nil_r.
           ++ change (filter is_diff_piece ((cur ++ [LabeledSpan f labels]) ++ concat (map snd (diff_blocks_loop data diffs [LabeledSpan la labels] false)))
                = filter is_diff_piece (cur ++ [LabeledSpan (fst sp, snd sp) labels] ++ diffs)).
              rewrite !filter_app, I2. cbn. now rewrite app_nil_r.
      * destruct (IH (cur ++ [LabeledSpan f labels]) fl) as [I1 I2].
        { rewrite existsb_app. cbn. now rewrite orb_false_r. }
        split; [exact I1|]. cbv zeta in I2. rewrite I2, !filter_app. cbn. now rewrite app_nil_r.
    + destruct (IH (cur ++ [DiffSpan sp l after]) true) as [I1 I2].
      { rewrite existsb_app. cbn. now rewrite orb_true_r. }
      split; [exact I1|]. cbv zeta in I2. rewrite I2, <- app_assoc. reflexivity.
Qed.
Lemma removed_filter data ps : removed_text data ps = removed_text data (filter is_diff_piece ps).
Proof.
  unfold removed_text. induction ps as [|[[a b] ls|[a b] l after] ps IH]; cbn; [reflexivity|exact IH|]. now rewrite IH.
Qed.
Lemma added_filter ps : added_text ps = added_text (filter is_diff_piece ps).
Proof.
  unfold added_text. induction ps as [|[[a b] ls|[a b] l after] ps IH]; cbn; [reflexivity|exact IH|]. now rewrite IH.
Qed.
Lemma no_diff_texts data ps : existsb is_diff_piece ps = false -> removed_text data ps = [] /\ added_text ps = [].
Proof.
  unfold removed_text, added_text. induction ps as [|[[a b] ls|[a b] l after] ps IH]; cbn; [auto|exact IH|discriminate].
Qed.

Definition calm (l : list item) : Prop := forall st, In (NL, st) (play [] l) -> st = [].
Definition styled_nl (p : char * style) : bool := (fst p =? NL) && negb (style_eqb (snd p) []).
Lemma calm_filter l : calm l <-> filter styled_nl (play [] l) = [].
Proof.
  unfold calm. split.
  - intro H. induction (play [] l) as [|[c s] o IH]; [reflexivity|]. cbn. unfold styled_nl at 1. cbn.
    destruct (Z.eqb_spec c NL) as [->|]; cbn; [|apply IH; intros st X; apply H; now right].
    rewrite (H s (or_introl eq_refl)). cbn. apply IH. intros st X. apply H; now right.
  - intros H st X. destruct (style_eqb st []) eqn:E; [now apply style_eqb_eq in E|]. exfalso.
    assert (Y : In (NL, st) (filter styled_nl (play [] l))).
    { apply filter_In. split; [exact X|]. unfold styled_nl. cbn. now rewrite E. }
    rewrite H in Y. destruct Y.
Qed.
Definition minus_items : list item := [Code (TX "31"); Ch 45; Code (TX "0")].
Definition plus_items : list item := [Code (TX "32"); Ch 43; Code (TX "0")].
Definition space_items : list item := [Ch 32].
Lemma good_insI pre fr l : Forall good pre -> Forall good l -> Forall good (insI pre fr l).
Proof.
  intros Hp H. revert fr; induction H as [|i l Hi H IH]; intro fr; [constructor|].
  destruct i; cbn [insI]; apply Forall_app; (split; [destruct fr; [exact Hp|constructor]|]); constructor; auto.
Qed.
Lemma good_prefixed pre l : Forall good pre -> block_ok l -> Forall good (prefixed pre l).
Proof.
  intros Hp B. destruct l as [|i l]; [constructor|]. unfold prefixed.
  apply good_insI; [exact Hp|]. apply (finish_ok (i :: l) B ltac:(discriminate)).
Qed.
(** The lines of one block. *)
Lemma prefixed_ok pre l : block_ok l -> Forall good pre -> fin [] pre = [] ->
  (forall st, filter styled_nl (play st pre) = []) ->
  Forall good (prefixed pre l) /\ fin [] (prefixed pre l) = [] /\ calm (prefixed pre l).
Proof.
  intros B G F Hp. split; [now apply good_prefixed|].
  destruct (play_prefixed styled_nl pre l B F (Hp []) eq_refl (fun c s _ _ => Hp s)) as [E1 E2].
  split; [exact E2|]. apply calm_filter. rewrite E1. apply calm_filter. exact (bk_nl _ B).
Qed.
Lemma shown_prefixed hl pre l : block_ok l -> fin [] pre = [] -> hl <> [] ->
  shown_as hl (play [] pre) = [] ->
  (forall c s, In (c, s) (play [] l) -> shown_as hl (play s pre) = []) ->
  shown_as hl (play [] (prefixed pre l)) = shown_as hl (play [] l).
Proof.
  intros B F Hh Hp Hf. unfold shown_as in *. f_equal.
  assert (M : forall o, map fst (filter (fun p : char * style => style_eqb (snd p) hl) o) = [] ->
              filter (fun p : char * style => style_eqb (snd p) hl) o = []).
  { intros o E. now apply map_eq_nil in E. }
  refine (proj1 (play_prefixed _ pre l B F (M _ Hp) _ _)).
  - cbn. apply Bool.not_true_is_false. intro E. apply style_eqb_eq in E. now subst.
  - intros c s H _. apply M. eapply Hf; eauto.
Qed.
Lemma shown_minus hl x s : hl = x ++ [TX "1"] -> shown_as hl (play s minus_items) = [].
Proof.
  intro E. unfold minus_items. cbn [play]. change (code s (TX "31")) with (s ++ [TX "31"]).
  unfold shown_as. cbn [filter map snd fst]. now rewrite (snoc_neq s (TX "31") hl x E) by discriminate.
Qed.
Lemma shown_plus hl x s : hl = x ++ [TX "1"] -> shown_as hl (play s plus_items) = [].
Proof.
  intro E. unfold plus_items. cbn [play]. change (code s (TX "32")) with (s ++ [TX "32"]).
  unfold shown_as. cbn [filter map snd fst]. now rewrite (snoc_neq s (TX "32") hl x E) by discriminate.
Qed.
Lemma shown_none hl o c (s : style) : shown_as hl o = [] -> In (c, s) o -> style_eqb s hl = false.
Proof.
  intros H X. apply Bool.not_true_is_false. intro E. unfold shown_as in H. apply map_eq_nil in H.
  assert (Y : In (c, s) (filter (fun p : char * style => style_eqb (snd p) hl) o)) by (apply filter_In; auto).
  rewrite H in Y. destruct Y.
Qed.

Lemma render_blocks_items data s bs : forall st, styled_ok st -> plain_text data ->
  Forall (fun b => Forall plain_piece (snd b)) bs ->
  Forall (fun b : bool * list piece => fst b = existsb is_diff_piece (snd b)) bs ->
  exists L st', render_blocks true data s bs st = (st', enc L)
    /\ render_blocks false data s bs st = (st', chars L)
    /\ styled_ok st' /\ Forall good L /\ fin [] L = [] /\ calm L
    /\ shown_as red_bright (play [] L) = without_newlines (removed_text data (concat (map snd bs)))
    /\ shown_as green_bright (play [] L) = without_newlines (added_text (concat (map snd bs))).
Proof.
  induction bs as [|[fl blk] bs IH]; intros st Hst Hd Hp Hfl.
  { exists [], st. cbn. repeat split; [exact Hst|constructor|intros ? []]. }
  inversion Hp as [|? ? Hp1 Hp2]; subst. inversion Hfl as [|? ? F1 F2]; subst. cbn [fst snd] in *.
  cbn [render_blocks].
  destruct (render_block_items data s true true blk st Hst Hd Hp1) as (B & st1 & E1 & E2 & KB & Hst1 & HB).
  destruct (HB eq_refl) as [SB1 SB2].
  assert (RA : removed_text data (concat (map snd ((fl, blk) :: bs)))
               = removed_text data blk ++ removed_text data (concat (map snd bs))
               /\ added_text (concat (map snd ((fl, blk) :: bs))) = added_text blk ++ added_text (concat (map snd bs))).
  { cbn [map concat snd]. unfold removed_text, added_text. now rewrite !flat_map_app. }
  destruct RA as [-> ->]. rewrite !without_app.
  assert (Combine : forall P L st', Forall good P -> fin [] P = [] -> calm P ->
    styled_ok st' -> Forall good L -> fin [] L = [] -> calm L ->
    Forall good (P ++ L) /\ fin [] (P ++ L) = [] /\ calm (P ++ L)
    /\ forall hl, shown_as hl (play [] (P ++ L)) = shown_as hl (play [] P) ++ shown_as hl (play [] L)).
  { intros P L st' G F C _ GL FL CL. split; [apply Forall_app; auto|]. split; [now rewrite fin_app, F|].
    split; [intros x X; rewrite play_app, F in X; apply in_app_iff in X; destruct X; auto|].
    intro hl. now rewrite play_app, F, shown_app. }
  destruct fl.
  - destruct (render_block_items data s false true blk st1 Hst1 Hd Hp1) as (A & st2 & A1 & A2 & KA & Hst2 & HA).
    destruct (HA eq_refl) as [SA1 SA2].
    destruct (IH st2 Hst2 Hd Hp2 F2) as (L & st' & L1 & L2 & Hst' & GL & FL & CL & SL1 & SL2).
    rewrite E1, E2, A1, A2, L1, L2.
    destruct (prefixed_ok minus_items B KB) as (G1 & FM1 & C1).
    { repeat constructor; cbn; try tauto; discriminate. } { reflexivity. } { reflexivity. }
    destruct (prefixed_ok plus_items A KA) as (G2 & FM2 & C2).
    { repeat constructor; cbn; try tauto; discriminate. } { reflexivity. } { reflexivity. }
    destruct (Combine _ _ st' G2 FM2 C2 Hst' GL FL CL) as (X1 & X2 & X3 & X4).
    destruct (Combine _ _ st' G1 FM1 C1 Hst' X1 X2 X3) as (Y1 & Y2 & Y3 & Y4).
    exists (prefixed minus_items B ++ prefixed plus_items A ++ L), st'.
    split.
    { rewrite !enc_app, !enc_prefixed by assumption. now rewrite <- app_assoc. }
    split.
    { rewrite !chars_app, !chars_prefixed by assumption. now rewrite <- app_assoc. }
    do 4 (split; [assumption|]). rewrite !Y4, !X4, SL1, SL2.
    rewrite !(shown_prefixed _ minus_items B), !(shown_prefixed _ plus_items A);
      try assumption; try reflexivity; try discriminate;
      try (intros c0 s0 _; first [apply (shown_minus _ [TX "31"])|apply (shown_minus _ [TX "32"])
                                 |apply (shown_plus _ [TX "31"])|apply (shown_plus _ [TX "32"])]; reflexivity).
    { rewrite SB1, SB2, SA1, SA2. split; reflexivity. }
    { intros c0 s0 _. now apply (shown_plus _ [TX "32"]). }
    { intros c0 s0 _. now apply (shown_minus _ [TX "32"]). }
  - destruct (IH st1 Hst1 Hd Hp2 F2) as (L & st' & L1 & L2 & Hst' & GL & FL & CL & SL1 & SL2).
    rewrite E1, E2, L1, L2.
    destruct (prefixed_ok space_items B KB) as (G1 & FM1 & C1).
    { repeat constructor; cbn; try tauto; discriminate. } { reflexivity. } { reflexivity. }
    destruct (Combine _ _ st' G1 FM1 C1 Hst' GL FL CL) as (Y1 & Y2 & Y3 & Y4).
    destruct (no_diff_texts data blk (eq_sym F1)) as [R0 A0]. rewrite R0 in SB1 |- *. rewrite A0.
    cbn [without_newlines filter app] in *.
    exists (prefixed space_items B ++ L), st'.
    split; [rewrite !enc_app, !enc_prefixed by assumption; reflexivity|].
    split; [rewrite !chars_app, !chars_prefixed by assumption; reflexivity|].
    do 4 (split; [assumption|]). rewrite !Y4, SL1, SL2.
    rewrite !(shown_prefixed _ space_items B); try assumption; try reflexivity; try discriminate.
    + rewrite SB1, SB2. split; reflexivity.
    + intros c0 s0 X. apply (shown_none _ _ _ _ SB2) in X. unfold shown_as. cbn. now rewrite X.
    + intros c0 s0 X. apply (shown_none _ _ _ _ SB1) in X. unfold shown_as. cbn. now rewrite X.
Qed.


(** *** Rendering *)
Lemma render_diff_block_styled color data s before isd block st :
  styled_ok st -> styled_ok (fst (render_diff_block color data s before isd block st)).
Proof.
  revert st; induction block as [|p block IH]; intros st H; cbn [render_diff_block]; [exact H|].
  destruct p as [[a b] ls|[a b] l after].
  - destruct (style_for st s ls) as [st' sty] eqn:Es. destruct (style_for_ok _ _ _ _ _ H Es) as [H' _].
    specialize (IH st' H'). destruct (render_diff_block color data s before isd block st'). exact IH.
  - specialize (IH st H). destruct (render_diff_block color data s before isd block st). exact IH.
Qed.
Lemma render_blocks_styled color data s bs st : styled_ok st -> styled_ok (fst (render_blocks color data s bs st)).
Proof.
  revert st; induction bs as [|[fl blk] bs IH]; intros st H; cbn [render_blocks]; [exact H|].
  pose proof (render_diff_block_styled color data s true true blk st H) as K1.
  destruct (render_diff_block color data s true true blk st) as [st1 b]. cbn in K1. destruct fl.
  - pose proof (render_diff_block_styled color data s false true blk st1 K1) as K2.
    destruct (render_diff_block color data s false true blk st1) as [st2 a]. cbn in K2.
    specialize (IH st2 K2). destruct (render_blocks color data s bs st2). exact IH.
  - specialize (IH st1 K1). destruct (render_blocks color data s bs st1). exact IH.
Qed.
Lemma render_styled color fmt data s st st' out : styled_ok st -> render color fmt data s st = Ok (st', out) -> styled_ok st'.
Proof.
  intro Hst. unfold render. destruct (as_diff s) as [ps|]; cbn [bind]; [|discriminate].
  destruct (match_hull (matched_spans s)) as [[lo hi]|]; cbn [bind]; [|discriminate].
  destruct (line_expanded_span data (Some lo) (Some hi)) as [x y].
  destruct (has_replacements s).
  - match goal with |- context [render_blocks ?c ?d ?e ?f ?g] =>
      pose proof (render_blocks_styled c d e f g Hst) as K; destruct (render_blocks c d e f g) as [st1 o] end.
    intro H. injection H as <- _. exact K.
  - match goal with |- context [render_diff_block ?c ?d ?e ?f ?g ?h ?i] =>
      pose proof (render_diff_block_styled c d e f g h i Hst) as K; destruct (render_diff_block c d e f g h i) as [st1 o] end.
    intro H. injection H as <- _. exact K.
Qed.
Lemma later_styled st st' : later st st' -> styled_ok st -> styled_ok st'.
Proof.
  induction 1 as [st|st s ls st' H IH|st color fmt contents s st' out st'' H Hl IH]; intro Hst.
  - exact Hst.
  - apply IH. destruct (style_for st s ls) as [st1 sty] eqn:E. now apply (style_for_ok _ _ _ _ _ Hst E).
  - apply IH. eapply render_styled; eauto.
Qed.
Lemma init_styled n : styled_ok (rstate_init n).
Proof. intros k sty [E|[]]. injection E as _ <-. apply style_nil. Qed.

(** The pieces of a diff hold text of the replacements. *)
Lemma as_diff_plain s ps : plain_sub s -> as_diff s = Ok ps -> Forall plain_piece ps.
Proof.
  intro Hs. unfold as_diff. destruct (labeled_spans s) as [l|]; cbn [bind]; [|discriminate]. intro E. injection E as <-.
  set (r := match replacements s with Some r => r | None => [] end).
  assert (Hr : Forall (fun kv : label * text => plain_text (snd kv)) r).
  { subst r. destruct (replacements s) as [r|] eqn:E; [now apply Hs|constructor]. }
  generalize 0. induction l as [|[[a b] ls|sp m t] l IH]; intro last; cbn; [constructor| |apply IH].
  destruct (a <? last); [apply IH|]. destruct (max_label _ _) as [m|]; [|constructor; [exact I|apply IH]].
  destruct (dget (matched_spans s) m) as [sp|]; [|apply IH]. destruct (dget r m) as [t|] eqn:E; [|apply IH].
  constructor; [|apply IH]. apply dget_In in E. rewrite Forall_forall in Hr. exact (Hr _ E).
Qed.

Lemma fill_items segs h m t : plain_format segs -> plain_text h -> plain_text t -> block_ok m ->
  exists L, fill segs h (enc m) t = enc L /\ fill segs h (chars m) t = chars L
    /\ Forall good L /\ fin [] L = [] /\ calm L.
Proof.
  intros Hf Hh Ht B. unfold fill. induction Hf as [|x segs Hx Hf IH].
  { exists []. repeat split; [constructor|intros ? []]. }
  destruct IH as (L & E1 & E2 & G & F & C). cbn [map concat]. rewrite E1, E2.
  assert (Add : forall P, Forall good P -> fin [] P = [] -> calm P ->
     Forall good (P ++ L) /\ fin [] (P ++ L) = [] /\ calm (P ++ L)).
  { intros P GP FP CP. split; [apply Forall_app; auto|]. split; [now rewrite fin_app, FP|].
    intros z X; rewrite play_app, FP in X; apply in_app_iff in X; destruct X; auto. }
  assert (Plain : forall w, plain_text w -> Forall good (map Ch w) /\ fin [] (map Ch w) = [] /\ calm (map Ch w)).
  { intros w Hw. split; [now apply good_ch|]. split; [apply fin_ch|]. intros z X. rewrite play_ch in X.
    apply in_map_iff in X. destruct X as (c & X & _). now injection X. }
  destruct x as [w| | |].
  - exists (map Ch w ++ L). rewrite enc_app, chars_app, enc_ch, chars_ch. do 2 (split; [reflexivity|]).
    destruct (Plain w Hx) as (P1 & P2 & P3). now apply Add.
  - exists (map Ch h ++ L). rewrite enc_app, chars_app, enc_ch, chars_ch. do 2 (split; [reflexivity|]).
    destruct (Plain h Hh) as (P1 & P2 & P3). now apply Add.
  - exists (m ++ L). rewrite enc_app, chars_app. do 2 (split; [reflexivity|]).
    apply Add; [apply B|apply B|exact (bk_nl _ B)].
  - exists (map Ch t ++ L). rewrite enc_app, chars_app, enc_ch, chars_ch. do 2 (split; [reflexivity|]).
    destruct (Plain t Ht) as (P1 & P2 & P3). now apply Add.
Qed.

Lemma render_items segs data s st : styled_ok st -> plain_text data -> plain_sub s -> plain_format segs ->
  (exists L st' d, render true (fill segs) data s st = Ok (st', (d, enc L))
     /\ render false (fill segs) data s st = Ok (st', (d, chars L))
     /\ Forall good L /\ fin [] L = [] /\ calm L
     /\ (d = true -> forall ps, as_diff s = Ok ps ->
           shown_as red_bright (play [] L) = without_newlines (removed_text data ps)
           /\ shown_as green_bright (play [] L) = without_newlines (added_text ps)))
  \/ (exists x, render true (fill segs) data s st = Err x /\ render false (fill segs) data s st = Err x).
Proof.
  intros Hst Hd Hs Hf. unfold render. destruct (as_diff s) as [ps|x] eqn:Ea; cbn [bind]; [|right; eauto].
  destruct (match_hull (matched_spans s)) as [[lo hi]|x]; cbn [bind]; [|right; eauto].
  destruct (line_expanded_span data (Some lo) (Some hi)) as [x y]. left.
  pose proof (as_diff_plain s ps Hs Ea) as Hps. destruct (has_replacements s).
  - set (ext := LabeledSpan (x, lo) [] :: ps ++ [LabeledSpan (hi, y) []]).
    destruct (blocks_shape data ext [] false eq_refl) as [B1 B2]. cbv zeta in B1, B2. cbn [app] in B2.
    destruct (render_blocks_items data s (sub_diff_blocks data ext) st Hst Hd) as (L & st' & E1 & E2 & _ & G & F & C & R1 & R2).
    + assert (Hall : Forall plain_piece (concat (map snd (sub_diff_blocks data ext)))).
      { apply Forall_forall. intros p Hp. destruct p as [sp ls|sp l after]; [exact I|].
        assert (X : In (DiffSpan sp l after) (filter is_diff_piece (concat (map snd (sub_diff_blocks data ext)))))
          by (apply filter_In; auto).
        unfold sub_diff_blocks in X. rewrite B2 in X. apply filter_In in X. destruct X as [X _].
        subst ext. destruct X as [X|X]; [discriminate|]. apply in_app_iff in X. destruct X as [X|[X|[]]]; [|discriminate].
        rewrite Forall_forall in Hps. exact (Hps _ X). }
      apply Forall_forall. intros b Hb. apply Forall_forall. intros p Hp. rewrite Forall_forall in Hall. apply Hall.
      apply in_concat. exists (snd b). split; [now apply in_map|exact Hp].
    + exact B1.
    + rewrite E1, E2. exists L, st', true. do 5 (split; [first [reflexivity|assumption]|]).
      intros _ ps' E. injection E as <-. rewrite R1, R2, removed_filter, added_filter.
      unfold sub_diff_blocks. rewrite B2. subst ext. cbn [filter is_diff_piece]. rewrite filter_app. cbn [filter is_diff_piece].
      rewrite app_nil_r, <- removed_filter, <- added_filter. auto.
  - destruct (render_block_items data s true false ps st Hst Hd Hps) as (L & st' & E1 & E2 & B & _ & _).
    rewrite E1, E2.
    destruct (fill_items segs (slice data x lo) L (slice data hi y) Hf) as (M & M1 & M2 & G & F & C);
      [now apply plain_slice|now apply plain_slice|exact B|].
    rewrite M1, M2. exists (M ++ [Ch NL]), st', false. rewrite enc_app, chars_app.
    do 2 (split; [reflexivity|]). split.
    { apply Forall_app; split; [exact G|]. constructor; [split; discriminate|constructor]. }
    split; [now rewrite fin_app, F|]. split; [|discriminate].
    intros z X. rewrite play_app, F in X. apply in_app_iff in X. destruct X as [X|[X|[]]]; [auto|]. now injection X.
Qed.

Lemma colours_are_decoration segs data s n st :
  later (rstate_init n) st -> plain_text data -> plain_sub s -> plain_format segs ->
  (exists st' d shown sent,
     render true (fill segs) data s st = Ok (st', (d, sent))
     /\ render false (fill segs) data s st = Ok (st', (d, map fst shown))
     /\ screen sent = shown /\ leaves_terminal_normal sent
     /\ (forall sty, In (NL, sty) shown -> sty = [])
     /\ (d = true -> forall ps, as_diff s = Ok ps ->
           shown_as red_bright shown = without_newlines (removed_text data ps)
           /\ shown_as green_bright shown = without_newlines (added_text ps)))
  \/ (exists x, render true (fill segs) data s st = Err x /\ render false (fill segs) data s st = Err x).
Proof.
  intros Hl Hd Hs Hf.
  destruct (render_items segs data s st (later_styled _ _ Hl (init_styled n)) Hd Hs Hf)
    as [(L & st' & d & E1 & E2 & G & F & C & R)|H]; [left|now right].
  exists st', d, (play [] L), (enc L). split; [exact E1|]. split; [now rewrite map_play|].
  split; [now apply screen_enc|]. split; [|split; assumption].
  unfold leaves_terminal_normal. rewrite receive_enc by exact G. split; [reflexivity|exact F].
Qed.
