(** Scope of pragmas: matcher.py [_indents]/[_pragmas]. *)
From Verif Require Import Py PyFacts Ast Pragmas PragmaSpec.

Section ItemInd.
  Variable P : item -> Prop.
  Hypothesis HS : forall t, P (Single t).
  Hypothesis HB : forall nl fmt ind body ded, Forall P body -> P (Block nl fmt ind body ded).
  Fixpoint item_ind' (i : item) : P i :=
    match i with
    | Single t => HS t
    | Block nl fmt ind body ded =>
        HB nl fmt ind body ded
           ((fix go (l : list item) : Forall P l :=
               match l with [] => Forall_nil _ | x :: r => Forall_cons x (item_ind' x) (go r) end) body)
    end.
End ItemInd.

Lemma wf_body body :
  (fix go (l : list item) : Prop :=
     match l with [] => True | x :: r => wf_item x /\ go r end) body <-> Forall wf_item body.
Proof.
  induction body as [|x r IH]; [split; auto|].
  rewrite IH. split; [intros [? ?]; constructor; auto|intro H; inversion H; auto].
Qed.

Definition toks (e : Z) (l : list item) : list token := map fst (flat_map (annotate e) l).
Lemma annotate_fst e e' i : map fst (annotate e i) = map fst (annotate e' i).
Proof. destruct i; cbn; [reflexivity|]. rewrite !map_app. reflexivity. Qed.
Lemma toks_e e e' l : toks e l = toks e' l.
Proof.
  unfold toks. induction l as [|i l IH]; [reflexivity|]. cbn [flat_map].
  rewrite !map_app, IH, (annotate_fst e e'). reflexivity.
Qed.

Fixpoint starts_i (i : item) : list Z :=
  match i with
  | Single _ => []
  | Block nl _ _ body _ => tk_end nl :: flat_map starts_i body
  end.
Definition starts (l : list item) : list Z := flat_map starts_i l.

Definition endsb (t : token) : bool := (tk_type t =? T_NEWLINE) || (tk_type t =? T_NL).
Lemma endsb_spec t : endsb t = true <-> ends_line t.
Proof. unfold endsb, ends_line. rewrite orb_true_iff, !Z.eqb_eq. tauto. Qed.
Definition line_ends (l : list token) : list Z := map tk_end (filter endsb l).

Lemma line_ends_app a b : line_ends (a ++ b) = line_ends a ++ line_ends b.
Proof. unfold line_ends. now rewrite filter_app, map_app. Qed.

Ltac kinds := repeat match goal with
  | H : tk_type ?t = _ |- context [tk_type ?t] => rewrite H end; cbn.

Lemma map_fst_pair {A B} (e : B) (l : list A) : map fst (map (fun t => (t, e)) l) = l.
Proof. rewrite map_map. cbn. apply map_id. Qed.

Lemma block_toks e nl fmt ind body ded :
  map fst (annotate e (Block nl fmt ind body ded)) = nl :: fmt ++ ind :: toks (tk_start ded) body ++ [ded].
Proof. cbn. rewrite !map_app. cbn. rewrite map_app, map_fst_pair. reflexivity. Qed.

Lemma starts_line_ends i : wf_item i -> forall e p, In p (starts_i i) -> In p (line_ends (map fst (annotate e i))).
Proof.
  induction i as [t|nl fmt ind body ded IH] using item_ind'; intros Hwf e p Hp; [destruct Hp|].
  destruct Hwf as (Hnl & Hfmt & Hind & Hbody & Hded). rewrite wf_body in Hbody.
  rewrite block_toks. change (nl :: ?l) with ([nl] ++ l). rewrite !line_ends_app.
  cbn in Hp. destruct Hp as [<-|Hp].
  - apply in_or_app. left. unfold line_ends. cbn [filter]. unfold endsb. rewrite Hnl. cbn. auto.
  - apply in_or_app. right. apply in_or_app. right.
    change (ind :: ?l) with ([ind] ++ l). rewrite !line_ends_app.
    apply in_or_app. right. apply in_or_app. left.
    apply in_flat_map in Hp. destruct Hp as (i & Hi & Hp).
    rewrite Forall_forall in IH, Hbody. specialize (IH i Hi (Hbody i Hi) (tk_start ded) p Hp).
    unfold toks. clear -Hi IH. induction body as [|x r IHr]; [destruct Hi|].
    cbn [flat_map]. rewrite map_app, line_ends_app. apply in_or_app.
    destruct Hi as [->|Hi]; auto.
Qed.
Lemma starts_line_ends_l l : Forall wf_item l -> forall e p, In p (starts l) -> In p (line_ends (toks e l)).
Proof.
  induction l as [|i l IH]; intros Hwf e p Hp; [destruct Hp|].
  inversion Hwf as [|? ? Hi Hl]; subst. unfold starts, toks in *. cbn [flat_map] in *.
  rewrite map_app, line_ends_app. apply in_app_or in Hp. apply in_or_app. destruct Hp as [Hp|Hp].
  - left. now apply starts_line_ends.
  - right. now apply IH.
Qed.

(** *** _indents *)
Lemma indents_fmt fmt o rest :
  Forall (fun t => tk_type t = T_NL \/ tk_type t = T_COMMENT) fmt ->
  indents_go o (fmt ++ rest) = indents_go o rest.
Proof.
  induction 1 as [|t fmt Ht Hf IH]; [reflexivity|]. cbn [app indents_go].
  assert (is_formatting t = true) as -> by (unfold is_formatting; destruct Ht as [-> | ->]; reflexivity).
  exact IH.
Qed.

Lemma indents_item i : wf_item i -> forall e o rest, exists o',
  indents_go o (map fst (annotate e i) ++ rest) = starts_i i ++ indents_go o' rest.
Proof.
  induction i as [t|nl fmt ind body ded IH] using item_ind'; intros Hwf e o rest.
  - cbn in Hwf |- *. destruct Hwf as (Hi & Hd & He).
    destruct (is_formatting t); [eauto|]. destruct (tk_type t =? T_NEWLINE); [eauto|].
    destruct (Z.eqb_spec (tk_type t) T_INDENT); [contradiction|eauto].
  - destruct Hwf as (Hnl & Hfmt & Hind & Hbody & Hded). rewrite wf_body in Hbody.
    rewrite block_toks.
    assert (Hnl1 : is_formatting nl = false) by (unfold is_formatting; rewrite Hnl; reflexivity).
    assert (Hind1 : is_formatting ind = false) by (unfold is_formatting; rewrite Hind; reflexivity).
    assert (Hnl2 : tk_type nl =? T_NEWLINE = true) by (rewrite Hnl; reflexivity).
    assert (Hind2 : tk_type ind =? T_NEWLINE = false) by (rewrite Hind; reflexivity).
    assert (Hind3 : tk_type ind =? T_INDENT = true) by (rewrite Hind; reflexivity).
    cbn [app indents_go starts_i]. rewrite Hnl1, Hnl2, <- app_assoc.
    rewrite (indents_fmt fmt) by assumption. cbn [app indents_go]. rewrite Hind1, Hind2, Hind3.
    rewrite <- app_assoc.
    assert (Hb : forall o rest, exists o',
               indents_go o (toks (tk_start ded) body ++ rest)
               = flat_map starts_i body ++ indents_go o' rest).
    { clear -IH Hbody. unfold toks. induction body as [|i body IHb]; intros o rest; [cbn; eauto|].
      inversion IH as [|? ? IHi IHl]; inversion Hbody as [|? ? Hi Hl]; subst.
      cbn [flat_map]. rewrite map_app, <- app_assoc.
      destruct (IHi Hi (tk_start ded) o (map fst (flat_map (annotate (tk_start ded)) body) ++ rest)) as [o1 ->].
      destruct (IHb IHl Hl o1 rest) as [o2 ->]. exists o2. now rewrite app_assoc. }
    destruct (Hb (Some (tk_end nl)) ([ded] ++ rest)) as [o' Ho]. cbn [app] in Ho |- *. rewrite Ho.
    exists None. f_equal. f_equal. cbn [app indents_go]. unfold is_formatting. rewrite Hded. reflexivity.
Qed.
Lemma indents_items l : Forall wf_item l -> forall e o rest, exists o',
  indents_go o (toks e l ++ rest) = starts l ++ indents_go o' rest.
Proof.
  unfold toks, starts. induction l as [|i l IH]; intros Hwf e o rest; [cbn; eauto|].
  inversion Hwf as [|? ? Hi Hl]; subst. cbn [flat_map]. rewrite map_app, <- !app_assoc.
  destruct (indents_item i Hi e o (map fst (flat_map (annotate e) l) ++ rest)) as [o1 ->].
  destruct (IH Hl e o1 rest) as [o2 ->]. exists o2. now rewrite app_assoc.
Qed.

(** *** _pragmas *)
Lemma inc_get_del d n m : inc_get (inc_del d n) m = if m =? n then [] else inc_get d m.
Proof.
  unfold inc_del. induction d as [|[k l] d IH]; cbn; [now destruct (m =? n)|].
  destruct (Z.eqb_spec k n) as [->|Hk]; cbn.
  - rewrite IH. destruct (Z.eqb_spec m n) as [E|E]; [reflexivity|].
    destruct (Z.eqb_spec n m); [congruence|reflexivity].
  - rewrite IH. destruct (Z.eqb_spec k m) as [E|E]; [|reflexivity].
    destruct (Z.eqb_spec m n); [congruence|reflexivity].
Qed.
Lemma inc_get_add d n x m :
  inc_get (inc_add d n x) m = if m =? n then inc_get d n ++ [x] else inc_get d m.
Proof.
  unfold inc_add. cbn [inc_get]. rewrite inc_get_del, Z.eqb_sym. now destruct (m =? n).
Qed.

Section Scope.
  Variable uw : char -> bool.

  (** The state (fresh line?, line start) after a token. *)
  Definition next (s : bool * Z) (t : token) : bool * Z :=
    if endsb t then (true, tk_end t)
    else if (tk_type t =? T_DEDENT) || (tk_type t =? T_ENDMARKER) then s
    else if tk_type t =? T_COMMENT then s
    else (false, snd s).

  Fixpoint expected (s : bool * Z) (l : list (token * Z)) : list pragma :=
    match l with
    | [] => []
    | (t, e) :: rest =>
        (if tk_type t =? T_COMMENT
         then opt_list (from_text uw (tk_string t) (snd s) (if fst s then e else tk_end t))
         else []) ++ expected (next s t) rest
    end.
  Definition after (s : bool * Z) (l : list token) : bool * Z := fold_left next l s.

  Lemma expected_app s a b : expected s (a ++ b) = expected s a ++ expected (after s (map fst a)) b.
  Proof.
    revert s. induction a as [|[t e] a IH]; intro s; [reflexivity|].
    cbn [app expected map after fold_left fst]. rewrite IH, app_assoc. reflexivity.
  Qed.
  Lemma after_app s a b : after s (a ++ b) = after (after s a) b.
  Proof. apply fold_left_app. Qed.

  Definition flush (e : Z) (l : list (text * Z)) : list pragma :=
    flat_map (fun sp => opt_list (from_text uw (fst sp) (snd sp) e)) l.

  (** Running over a piece of the stream at level [n] whose block ends at [e]. *)
  Definition runs (n e : Z) (l : list (token * Z)) (bs : list Z) : Prop :=
    forall s inc st rest,
      (forall t, In t (map fst l) -> endsb t = true -> In (tk_end t) st <-> In (tk_end t) bs) ->
      (forall m, n < m -> inc_get inc m = []) ->
      exists imm pend inc' st',
        pragmas_go uw (fst s) (snd s) n inc st (map fst l ++ rest)
        = imm ++ pragmas_go uw (fst (after s (map fst l))) (snd (after s (map fst l))) n inc' st' rest
        /\ (forall m, inc_get inc' m = if m =? n then inc_get inc n ++ pend else inc_get inc m)
        /\ (forall p, In p st' <-> In p st /\ ~ In p bs)
        /\ Permutation (imm ++ flush e pend) (expected s l).

  Lemma runs_nil n e : runs n e [] [].
  Proof.
    intros s inc st rest Hst Hinc. exists [], [], inc, st.
    cbn. repeat split; auto; try tauto.
    intro m. destruct (Z.eqb_spec m n) as [->|]; [now rewrite app_nil_r|reflexivity].
  Qed.

  Lemma runs_app n e l1 l2 bs1 bs2 :
    runs n e l1 bs1 -> runs n e l2 bs2 ->
    NoDup (line_ends (map fst l1 ++ map fst l2)) ->
    (forall p, In p bs1 -> In p (line_ends (map fst l1))) ->
    (forall p, In p bs2 -> In p (line_ends (map fst l2))) ->
    runs n e (l1 ++ l2) (bs1 ++ bs2).
  Proof.
    intros R1 R2 Hnd Hb1 Hb2 s inc st rest Hst Hinc.
    rewrite line_ends_app in Hnd.
    assert (Hdisj : forall p, In p (line_ends (map fst l1)) -> In p (line_ends (map fst l2)) -> False).
    { intros p H1 H2. revert Hnd H1 H2. generalize (line_ends (map fst l1)) (line_ends (map fst l2)).
      clear. intros a b Hnd H1 H2. induction a as [|x a IH]; [destruct H1|].
      cbn in Hnd. inversion Hnd as [|? ? Hx Hr]; subst. destruct H1 as [->|H1]; auto.
      apply Hx, in_or_app. auto. }
    assert (Hle : forall t l, In t l -> endsb t = true -> In (tk_end t) (line_ends l)).
    { intros t l Ht He. apply in_map, filter_In. auto. }
    rewrite map_app in *. rewrite <- app_assoc.
    destruct (R1 s inc st (map fst l2 ++ rest)) as (imm1 & pend1 & inc1 & st1 & E1 & I1 & S1 & P1).
    { intros t Ht He. rewrite Hst by (auto; apply in_or_app; auto).
      rewrite in_app_iff. split; [|tauto]. intros [|H]; [assumption|].
      exfalso. eapply Hdisj; [apply Hle; eauto|apply Hb2, H]. }
    { exact Hinc. }
    destruct (R2 (after s (map fst l1)) inc1 st1 rest) as (imm2 & pend2 & inc2 & st2 & E2 & I2 & S2 & P2).
    { intros t Ht He. rewrite S1, Hst by (auto; apply in_or_app; auto). rewrite in_app_iff.
      split; [tauto|]. intro H. split; [auto|]. intro H1.
      eapply Hdisj; [apply Hb1, H1|apply Hle; eauto]. }
    { intros m Hm. rewrite I1. destruct (Z.eqb_spec m n); [lia|auto]. }
    exists (imm1 ++ imm2), (pend1 ++ pend2), inc2, st2.
    split; [|split; [|split]].
    - rewrite E1, E2, after_app, app_assoc. reflexivity.
    - intro m. rewrite I2, !I1, Z.eqb_refl. destruct (m =? n); [now rewrite app_assoc|reflexivity].
    - intro p. rewrite S2, S1, in_app_iff. tauto.
    - rewrite expected_app, <- P1, <- P2. unfold flush. rewrite flat_map_app.
      rewrite <- !app_assoc. apply Permutation_app_head.
      rewrite !app_assoc. apply Permutation_app_tail. apply Permutation_app_comm.
  Qed.

  Lemma existsb_In p st : existsb (Z.eqb p) st = true <-> In p st.
  Proof.
    rewrite existsb_exists. split; [intros (x & H & E); apply Z.eqb_eq in E; congruence|].
    intro H. exists p. split; [assumption|apply Z.eqb_refl].
  Qed.

  Lemma runs_single n e t :
    tk_type t <> T_DEDENT -> tk_type t <> T_ENDMARKER -> runs n e [(t, e)] [].
  Proof.
    intros Hd He s inc st rest Hst Hinc.
    assert (Hn : forall m, inc_get inc m = if m =? n then inc_get inc n ++ [] else inc_get inc m).
    { intro m. destruct (Z.eqb_spec m n) as [->|]; [now rewrite app_nil_r|reflexivity]. }
    assert (Hs : forall p, In p st <-> In p st /\ ~ In p []) by (cbn; tauto).
    unfold after. cbn [map fst app pragmas_go expected fold_left]. unfold next.
    fold (endsb t). destruct (endsb t) eqn:Hend.
    - assert (existsb (Z.eqb (tk_end t)) st = false) as ->.
      { destruct (existsb _ st) eqn:E; [|reflexivity]. apply existsb_In in E.
        apply (Hst t) in E; [destruct E|cbn; auto|assumption]. }
      exists [], [], inc, st. cbn [fst snd]. repeat split; try apply Hs; auto; try tauto.
      assert (tk_type t =? T_COMMENT = false) as ->; [|reflexivity].
      apply endsb_spec in Hend. destruct Hend as [-> | ->]; reflexivity.
    - destruct (Z.eqb_spec (tk_type t) T_DEDENT); [contradiction|].
      destruct (Z.eqb_spec (tk_type t) T_ENDMARKER); [contradiction|]. cbn [orb].
      destruct (tk_type t =? T_COMMENT).
      + destruct s as [f ls]. cbn [fst snd]. destruct f.
        * exists [], [(tk_string t, ls)], (inc_add inc n (tk_string t, ls)), st.
          split; [reflexivity|]. split; [intro m; apply inc_get_add|]. split; [exact Hs|].
          cbn. rewrite !app_nil_r. apply Permutation_refl.
        * exists (opt_list (from_text uw (tk_string t) ls (tk_end t))), [], inc, st.
          split; [reflexivity|]. split; [exact Hn|]. split; [exact Hs|].
          cbn. rewrite !app_nil_r. apply Permutation_refl.
      + exists [], [], inc, st. cbn [fst snd app]. split; [reflexivity|]. split; [exact Hn|].
        split; [exact Hs|]. reflexivity.
  Qed.

  Lemma runs_fmt n e fmt :
    Forall (fun t => tk_type t = T_NL \/ tk_type t = T_COMMENT) fmt ->
    NoDup (line_ends fmt) ->
    runs n e (map (fun t => (t, e)) fmt) [].
  Proof.
    induction 1 as [|t fmt Ht Hf IH]; intro Hnd; [apply runs_nil|].
    change (map (fun t0 => (t0, e)) (t :: fmt)) with ([(t, e)] ++ map (fun t0 => (t0, e)) fmt).
    change (@nil Z) with (@nil Z ++ []). apply runs_app.
    - apply runs_single; destruct Ht as [-> | ->]; discriminate.
    - apply IH. change (t :: fmt) with ([t] ++ fmt) in Hnd. rewrite line_ends_app in Hnd.
      revert Hnd. generalize (line_ends [t]). intros a Ha. induction a; [exact Ha|].
      cbn in Ha. inversion Ha; auto.
    - cbn [map fst app]. rewrite map_fst_pair. exact Hnd.
    - intros p [].
    - intros p [].
  Qed.

  Lemma NoDup_app_r {A} (a b : list A) : NoDup (a ++ b) -> NoDup b.
  Proof. induction a; [auto|]. cbn. intro H. inversion H; auto. Qed.
  Lemma NoDup_app_l {A} (a b : list A) : NoDup (a ++ b) -> NoDup a.
  Proof.
    induction a as [|x a IH]; [constructor|]. cbn. intro H. inversion H; subst.
    constructor; auto. intro. apply H2, in_or_app. auto.
  Qed.

  Lemma runs_item i : wf_item i -> forall n e,
    NoDup (line_ends (map fst (annotate e i))) -> runs n e (annotate e i) (starts_i i).
  Proof.
    induction i as [t|nl fmt ind body ded IH] using item_ind'; intros Hwf n e Hnd.
    { destruct Hwf as (? & ? & ?). apply runs_single; assumption. }
    destruct Hwf as (Hnl & Hfmt & Hind & Hbody & Hded). rewrite wf_body in Hbody.
    intros s inc st rest Hst Hinc.
    rewrite block_toks in *.
    set (e' := tk_start ded) in *.
    assert (Hendnl : endsb nl = true) by (apply endsb_spec; left; assumption).
    assert (Hle : line_ends (nl :: fmt ++ ind :: toks e' body ++ [ded])
                  = tk_end nl :: line_ends fmt ++ line_ends (toks e' body)).
    { unfold line_ends. cbn [filter]. rewrite Hendnl. cbn [map]. f_equal.
      rewrite filter_app. cbn [filter]. unfold endsb at 2. rewrite Hind. cbn [Z.eqb Pos.eqb orb T_INDENT T_NEWLINE T_NL].
      rewrite filter_app. cbn [filter]. unfold endsb at 3. rewrite Hded. cbn [Z.eqb Pos.eqb orb T_DEDENT T_NEWLINE T_NL].
      rewrite app_nil_r, map_app. reflexivity. }
    rewrite Hle in Hnd. inversion Hnd as [|? ? Hnl_nin Hnd']; subst. clear Hnd.
    (* the inner run: fmt, INDENT, body *)
    assert (Rbody : runs (n + 1) e' (flat_map (annotate e') body) (starts body)).
    { apply NoDup_app_r in Hnd'. clear -IH Hbody Hnd'.
      induction body as [|i body IHb]; [apply runs_nil|].
      inversion IH as [|? ? IHi IHl]; inversion Hbody as [|? ? Hi Hl]; subst.
      unfold starts. cbn [flat_map]. unfold toks in *. cbn [flat_map] in Hnd'. rewrite map_app in Hnd'.
      apply runs_app.
      - apply IHi; [assumption|]. rewrite line_ends_app in Hnd'. now apply NoDup_app_l in Hnd'.
      - apply IHb; auto. rewrite line_ends_app in Hnd'. now apply NoDup_app_r in Hnd'.
      - exact Hnd'.
      - now apply starts_line_ends.
      - now apply starts_line_ends_l. }
    assert (Rind : runs (n + 1) e' [(ind, e')] []).
    { apply runs_single; rewrite Hind; discriminate. }
    assert (Hli : forall l, line_ends (ind :: l) = line_ends l).
    { intro l. unfold line_ends. cbn [filter]. unfold endsb at 1. rewrite Hind. reflexivity. }
    assert (Rin : runs (n + 1) e'
               (map (fun t => (t, e')) fmt ++ ([(ind, e')] ++ flat_map (annotate e') body))
               ([] ++ ([] ++ starts body))).
    { apply runs_app; [apply runs_fmt; [assumption|now apply NoDup_app_l in Hnd']| | | |].
      - apply runs_app; [exact Rind|exact Rbody| | |].
        + cbn [map fst app]. rewrite Hli. now apply NoDup_app_r in Hnd'.
        + intros p [].
        + now apply starts_line_ends_l.
      - rewrite map_fst_pair, map_app. cbn [map fst app]. rewrite line_ends_app, Hli. exact Hnd'.
      - intros p [].
      - cbn [app]. intros p Hp. cbn [map fst app]. rewrite Hli.
        now apply starts_line_ends_l. }
    cbn [app] in Rin.
    assert (Hstn : In (tk_end nl) st).
    { apply (Hst nl); [cbn; auto|assumption|]. cbn. auto. }
    cbn [app pragmas_go]. fold (endsb nl). rewrite Hendnl.
    rewrite (proj2 (existsb_In _ _) Hstn).
    set (st1 := filter (fun p => negb (p =? tk_end nl)) st).
    assert (Hst1 : forall p, In p st1 <-> In p st /\ p <> tk_end nl).
    { intro p. unfold st1. rewrite filter_In, negb_true_iff, Z.eqb_neq. tauto. }
    destruct (Rin (true, tk_end nl) inc st1 ([ded] ++ rest)) as (imm & pend & inc' & st' & E & I & S & P).
    { intros t Ht He. rewrite Hst1.
      rewrite map_app, map_fst_pair in Ht. cbn [map fst app] in Ht.
      assert (Hin : In (tk_end t) (line_ends fmt ++ line_ends (toks e' body))).
      { apply in_app_or in Ht. apply in_or_app. destruct Ht as [Ht|[<-|Ht]].
        - left. apply in_map, filter_In. auto.
        - unfold endsb in He. rewrite Hind in He. discriminate.
        - right. apply in_map, filter_In. auto. }
      rewrite (Hst t); [| |assumption].
      2:{ right. apply in_app_or in Ht. apply in_or_app. destruct Ht as [Ht|[<-|Ht]]; [auto| |].
          - right. left. reflexivity.
          - right. right. apply in_or_app. auto. }
      cbn [starts_i]. fold (starts body). cbn [In]. split.
      - intros [[H|H] Hne]; [congruence|assumption].
      - intro H. split; [auto|]. intro H'. apply Hnl_nin. rewrite <- H'. exact Hin. }
    { intros m Hm. apply Hinc. lia. }
    assert (Hmf : map fst (map (fun t : token => (t, e')) fmt ++ (ind, e') :: flat_map (annotate e') body)
                  = fmt ++ ind :: toks e' body).
    { rewrite map_app, map_fst_pair. reflexivity. }
    rewrite Hmf in E.
    cbn [fst snd] in E.
    replace ((fmt ++ ind :: toks e' body ++ [ded]) ++ rest)
      with ((fmt ++ ind :: toks e' body) ++ [ded] ++ rest)
      by (cbn [app]; rewrite <- !app_assoc; cbn [app]; rewrite <- app_assoc; reflexivity).
    rewrite E. cbn [app pragmas_go].
    assert (Hde : (tk_type ded =? T_NEWLINE) || (tk_type ded =? T_NL) = false) by (rewrite Hded; reflexivity).
    assert (Hdd : (tk_type ded =? T_DEDENT) || (tk_type ded =? T_ENDMARKER) = true) by (rewrite Hded; reflexivity).
    rewrite Hde, Hdd. fold e'.
    set (s2 := after (true, tk_end nl) (fmt ++ ind :: toks e' body)) in *.
    exists (imm ++ flush e' (inc_get inc' (n + 1))), [], (inc_del inc' (n + 1)), st'.
    assert (Hnext1 : next s nl = (true, tk_end nl)) by (unfold next; now rewrite Hendnl).
    assert (Hafter : after s (nl :: fmt ++ ind :: toks e' body ++ [ded]) = s2).
    { change (nl :: fmt ++ ind :: toks e' body ++ [ded]) with ([nl] ++ (fmt ++ ind :: toks e' body ++ [ded])).
      rewrite after_app. change (after s [nl]) with (next s nl). rewrite Hnext1.
      replace (fmt ++ ind :: toks e' body ++ [ded]) with ((fmt ++ ind :: toks e' body) ++ [ded])
        by (rewrite <- !app_assoc; reflexivity).
      rewrite after_app. fold s2. change (after s2 [ded]) with (next s2 ded). unfold next.
      unfold endsb. rewrite Hde, Hdd. reflexivity. }
    rewrite Hafter.
    assert (Hlvl : inc_get inc' (n + 1) = pend).
    { rewrite I, Z.eqb_refl, Hinc by lia. reflexivity. }
    split; [|split; [|split]].
    - rewrite <- app_assoc. do 2 f_equal. f_equal. lia.
    - intro m. rewrite inc_get_del. destruct (Z.eqb_spec m (n + 1)) as [->|Hm].
      + destruct (Z.eqb_spec (n + 1) n); [lia|]. rewrite Hinc by lia. reflexivity.
      + rewrite I. destruct (Z.eqb_spec m (n + 1)); [contradiction|].
        destruct (Z.eqb_spec m n) as [->|]; [now rewrite app_nil_r|reflexivity].
    - intro p. rewrite S, Hst1. cbn [starts_i In]. fold (starts body). intuition congruence.
    - rewrite Hlvl. cbn [flush flat_map]. rewrite app_nil_r. rewrite P.
      cbn [annotate expected]. fold e'.
      assert (tk_type nl =? T_COMMENT = false) as -> by (rewrite Hnl; reflexivity).
      cbn [app]. rewrite Hnext1.
      change (map (fun t => (t, e')) fmt ++ (ind, e') :: flat_map (annotate e') body ++ [(ded, e')])
        with (map (fun t => (t, e')) fmt ++ ((ind, e') :: flat_map (annotate e') body) ++ [(ded, e')]).
      rewrite app_assoc, (expected_app _ _ [(ded, e')]). cbn [expected].
      assert (tk_type ded =? T_COMMENT = false) as -> by (rewrite Hded; reflexivity).
      cbn [app]. rewrite app_nil_r. reflexivity.
  Qed.

  Lemma runs_items l n e :
    Forall wf_item l -> NoDup (line_ends (toks e l)) -> runs n e (flat_map (annotate e) l) (starts l).
  Proof.
    unfold starts, toks. induction 1 as [|i l Hi Hl IH]; intro Hnd; [apply runs_nil|].
    cbn [flat_map] in *. rewrite map_app in Hnd. pose proof Hnd as Hnd2. rewrite line_ends_app in Hnd2.
    apply runs_app.
    - apply runs_item; [assumption|]. now apply NoDup_app_l in Hnd2.
    - apply IH. now apply NoDup_app_r in Hnd2.
    - exact Hnd.
    - now apply starts_line_ends.
    - now apply (starts_line_ends_l l Hl e).
  Qed.

  Lemma nodup_line_ends (ts : list token) :
    (forall a x b y c, ts = a ++ x :: b ++ y :: c -> ends_line x -> ends_line y -> tk_end x <> tk_end y) ->
    NoDup (line_ends ts).
  Proof.
    induction ts as [|t ts IH]; intro H; [constructor|]. unfold line_ends in *. cbn [filter].
    assert (Hr : NoDup (map tk_end (filter endsb ts))).
    { apply IH. intros a x b y c E. apply (H (t :: a) x b y c). now rewrite E. }
    destruct (endsb t) eqn:Ht; [|exact Hr]. cbn [map]. constructor; [|exact Hr].
    intro Hin. apply in_map_iff in Hin. destruct Hin as (y & Ey & Hy). apply filter_In in Hy.
    destruct Hy as [Hy Hye]. apply in_split in Hy. destruct Hy as (b & c & ->).
    apply (H [] t b y c); [reflexivity|now apply endsb_spec|now apply endsb_spec|now symmetry].
  Qed.

  Lemma pragmas_expected l em :
    wf_file l em ->
    Permutation (pragmas_of_tokens uw (map fst (file_tokens l em)))
                (expected (true, 0) (file_tokens l em)).
  Proof.
    intros (Hwf & Hem & Hd). apply nodup_line_ends in Hd.
    unfold pragmas_of_tokens. unfold file_tokens in *. rewrite map_app in *. cbn [map fst] in *.
    fold (toks (tk_start em) l) in *.
    assert (Hind : indents (toks (tk_start em) l ++ [em]) = starts l).
    { unfold indents. destruct (indents_items l Hwf (tk_start em) None [em]) as [o ->].
      cbn [indents_go]. unfold is_formatting. rewrite Hem. cbn. apply app_nil_r. }
    rewrite Hind. rewrite line_ends_app in Hd. apply NoDup_app_l in Hd.
    destruct (runs_items l 0 (tk_start em) Hwf Hd (true, 0) [] (starts l) [em])
      as (imm & pend & inc' & st' & E & I & S & P).
    { tauto. }
    { reflexivity. }
    cbn [fst snd] in E. fold (toks (tk_start em) l) in E. rewrite E.
    cbn [pragmas_go].
    assert ((tk_type em =? T_NEWLINE) || (tk_type em =? T_NL) = false) as -> by (rewrite Hem; reflexivity).
    assert ((tk_type em =? T_DEDENT) || (tk_type em =? T_ENDMARKER) = true) as -> by (rewrite Hem; reflexivity).
    rewrite I. cbn [Z.eqb inc_get app]. rewrite app_nil_r.
    change (flat_map _ pend) with (flush (tk_start em) pend).
    rewrite P, expected_app. cbn [expected].
    assert (tk_type em =? T_COMMENT = false) as -> by (rewrite Hem; reflexivity).
    cbn [app]. rewrite app_nil_r. reflexivity.
  Qed.

  (** *** Reading the expected pragmas *)
  Lemma expected_In s l p :
    In p (expected s l) <->
    exists before c e rest, l = before ++ (c, e) :: rest
      /\ tk_type c = T_COMMENT
      /\ from_text uw (tk_string c) (snd (after s (map fst before)))
           (if fst (after s (map fst before)) then e else tk_end c) = Some p.
  Proof.
    revert s. induction l as [|[t e] l IH]; intro s; cbn [expected].
    - split; [intros []|]. intros (b & c & e & r & H & _). destruct b; discriminate.
    - rewrite in_app_iff. split.
      + intros [H|H].
        * destruct (Z.eqb_spec (tk_type t) T_COMMENT) as [Ht|]; [|destruct H].
          exists [], t, e, l. repeat split; [assumption|]. cbn.
          destruct (from_text _ _ _ _); cbn in H; [|destruct H].
          destruct H as [->|[]]. reflexivity.
        * apply IH in H. destruct H as (b & c & e' & r & -> & Hc & Hp).
          exists ((t, e) :: b), c, e', r. auto.
      + intros (b & c & e' & r & H & Hc & Hp). destruct b as [|[t0 e0] b]; cbn in H; injection H as -> -> ->.
        * left. rewrite Hc, Z.eqb_refl. cbn in Hp. rewrite Hp. cbn. auto.
        * right. apply IH. exists b, c, e', r. auto.
  Qed.

  Lemma after_line before :
    line_starts_at before (snd (after (true, 0) before)).
  Proof.
    induction before as [|t l IH] using rev_ind; [left; cbn; auto|].
    rewrite after_app. change (after ?s [t]) with (next s t). unfold next.
    destruct (endsb t) eqn:E.
    - right. exists l, t, []. repeat split; auto. now apply endsb_spec.
    - assert (~ ends_line t) by (rewrite <- endsb_spec; congruence).
      assert (Hsame : snd (after (true, 0) l) =
        snd (if (tk_type t =? T_DEDENT) || (tk_type t =? T_ENDMARKER) then after (true, 0) l
             else if tk_type t =? T_COMMENT then after (true, 0) l else (false, snd (after (true, 0) l)))).
      { destruct (_ || _); [reflexivity|]. destruct (_ =? _); reflexivity. }
      rewrite <- Hsame. destruct IH as [[-> Hf]|(a & x & b & -> & Hx & Hf & ->)].
      + left. split; [reflexivity|]. apply Forall_app. auto.
      + right. exists a, x, (b ++ [t]). split; [now rewrite <- app_assoc|]. split; [assumption|].
        split; [apply Forall_app; auto|reflexivity].
  Qed.

  Lemma line_starts_unique before p q : line_starts_at before p -> line_starts_at before q -> p = q.
  Proof.
    intros Hp Hq. revert p q Hp Hq. induction before as [|t l IH] using rev_ind; intros p q Hp Hq.
    - destruct Hp as [[-> _]|(a & x & b & E & _)]; [|destruct a; discriminate].
      destruct Hq as [[-> _]|(a & x & b & E & _)]; [reflexivity|destruct a; discriminate].
    - assert (H : forall p, line_starts_at (l ++ [t]) p ->
                  (ends_line t /\ p = tk_end t) \/ (~ ends_line t /\ line_starts_at l p)).
      { clear. intros p [[-> Hf]|(a & x & b & E & Hx & Hf & ->)].
        - apply Forall_app in Hf. destruct Hf as [Hf Ht]. inversion Ht; subst. right.
          split; [assumption|left; auto].
        - destruct b as [|y b _] using rev_ind.
          + apply app_inj_tail in E. destruct E as [-> ->]. auto.
          + change (x :: b ++ [y]) with ((x :: b) ++ [y]) in E. rewrite app_assoc in E.
            apply app_inj_tail in E. destruct E as [-> ->]. apply Forall_app in Hf. destruct Hf as [Hf Ht].
            inversion Ht; subst. right. split; [assumption|]. right. exists a, x, b. auto. }
      destruct (H p Hp) as [[H1 ->]|[H1 H2]], (H q Hq) as [[H3 ->]|[H3 H4]]; try tauto. eauto.
  Qed.

  Lemma after_fresh before :
    Forall (fun t => tk_type t <> T_ENDMARKER) before ->
    fst (after (true, 0) before) = true <-> on_own_line before.
  Proof.
    induction before as [|t l IH] using rev_ind; intro Hem.
    - cbn. split; [|reflexivity]. intros _. exists [], []. auto.
    - apply Forall_app in Hem. destruct Hem as [Hl Ht]. inversion Ht as [|? ? Hte _]; subst.
      specialize (IH Hl). rewrite after_app. change (after ?s [t]) with (next s t). unfold next.
      assert (Hback : on_own_line (l ++ [t]) -> ends_line t \/
                ((tk_type t = T_COMMENT \/ tk_type t = T_DEDENT) /\ on_own_line l)).
      { intros (a & b & E & Ha & Hb). destruct b as [|y b _] using rev_ind.
        - rewrite app_nil_r in E. subst a. destruct Ha as [Ha|(a' & x & E & Hx)]; [destruct l; discriminate|].
          apply app_inj_tail in E. destruct E as [-> ->]. auto.
        - rewrite app_assoc in E. apply app_inj_tail in E. destruct E as [-> ->].
          apply Forall_app in Hb. destruct Hb as [Hb Hy]. inversion Hy; subst. right.
          split; [assumption|]. exists a, b. auto. }
      assert (Hext : tk_type t = T_COMMENT \/ tk_type t = T_DEDENT -> on_own_line l -> on_own_line (l ++ [t])).
      { intros Hk (a & b & -> & Ha & Hb). exists a, (b ++ [t]). split; [now rewrite app_assoc|].
        split; [assumption|]. apply Forall_app. auto. }
      destruct (endsb t) eqn:E.
      + cbn. split; [|reflexivity]. intros _. exists (l ++ [t]), []. rewrite app_nil_r.
        split; [reflexivity|]. split; [|constructor]. right. exists l, t. split; [reflexivity|].
        now apply endsb_spec.
      + assert (Hne : ~ ends_line t) by (rewrite <- endsb_spec; congruence).
        destruct (Z.eqb_spec (tk_type t) T_DEDENT) as [Hd|Hd]; cbn [orb].
        { rewrite IH. split; [auto|]. intro H. destruct (Hback H) as [|[_ ?]]; tauto. }
        destruct (Z.eqb_spec (tk_type t) T_ENDMARKER) as [|_]; [contradiction|].
        destruct (Z.eqb_spec (tk_type t) T_COMMENT) as [Hc|Hc].
        { rewrite IH. split; [auto|]. intro H. destruct (Hback H) as [|[_ ?]]; tauto. }
        cbn. split; [discriminate|]. intro H. destruct (Hback H) as [|[[|] _]]; tauto.
  Qed.

  Lemma no_endmarker_before l em before c e rest :
    wf_file l em -> file_tokens l em = before ++ (c, e) :: rest ->
    Forall (fun t => tk_type t <> T_ENDMARKER) (map fst before).
  Proof.
    intros (Hwf & _ & _) E. unfold file_tokens in E.
    assert (Hall : Forall (fun t => tk_type t <> T_ENDMARKER) (toks (tk_start em) l)).
    { unfold toks. generalize (tk_start em). clear -Hwf.
      assert (Hitem : forall i, wf_item i -> forall e, Forall (fun t => tk_type t <> T_ENDMARKER) (map fst (annotate e i))).
      { intro i. induction i as [t|nl fmt ind body ded IH] using item_ind'; intros Hi e.
        - destruct Hi as (? & ? & ?). repeat constructor. assumption.
        - destruct Hi as (Hnl & Hfmt & Hind & Hbody & Hded). rewrite wf_body in Hbody.
          rewrite block_toks. constructor; [rewrite Hnl; discriminate|].
          apply Forall_app. split.
          { eapply Forall_impl; [|exact Hfmt]. intros t [-> | ->]; discriminate. }
          constructor; [rewrite Hind; discriminate|]. apply Forall_app. split;
            [|repeat constructor; rewrite Hded; discriminate].
          unfold toks. clear -IH Hbody. generalize (tk_start ded).
          induction body as [|x r IHr]; intro z; [constructor|].
          inversion IH; inversion Hbody; subst. cbn [flat_map]. rewrite map_app. apply Forall_app. auto. }
      induction Hwf as [|i l Hi Hl IH]; intro z; [constructor|]. cbn [flat_map]. rewrite map_app.
      apply Forall_app. auto. }
    destruct rest as [|x rest _] using rev_ind.
    - apply app_inj_tail in E. destruct E as [<- _]. exact Hall.
    - change ((c, e) :: rest ++ [x]) with (((c, e) :: rest) ++ [x]) in E. rewrite app_assoc in E.
      apply app_inj_tail in E. destruct E as [E _]. unfold toks in Hall. rewrite E, map_app in Hall.
      apply Forall_app in Hall. tauto.
  Qed.
End Scope.
