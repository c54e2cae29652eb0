(** C47: $-templates. *)
From Verif Require Import Py PyFacts Ast Template.

(** *** Specification *)
(** An ASCII identifier. *)
Definition identifier (n : text) : Prop :=
  exists c r, n = c :: r /\ is_ident_start c = true /\ Forall (fun x => is_ident_char x = true) r.
Definition starts_ident_char (s : text) : Prop := exists c r, s = c :: r /\ is_ident_char c = true.

(** [expands env s out]: the template text [s] reads as [out]: [$$] is a dollar
    sign, [$name] and [${name}] stand for [env name] (the longest possible
    name), every other character except [$] stands for itself. *)
Inductive expands (env : label -> option text) : text -> text -> Prop :=
  | ex_nil : expands env [] []
  | ex_char c s o : c <> 36 -> expands env s o -> expands env (c :: s) (c :: o)
  | ex_dollar s o : expands env s o -> expands env (TX "$$" ++ s) (TX "$" ++ o)
  | ex_var n s v o :
      identifier n -> ~ starts_ident_char s -> env n = Some v -> expands env s o ->
      expands env (TX "$" ++ n ++ s) (v ++ o)
  | ex_braced n s v o :
      identifier n -> env n = Some v -> expands env s o ->
      expands env (TX "${" ++ n ++ TX "}" ++ s) (v ++ o).

(** *** Proofs *)
Lemma span_while_spec p s a b : span_while p s = (a, b) ->
  s = a ++ b /\ Forall (fun x => p x = true) a /\ (forall c r, b = c :: r -> p c = false).
Proof.
  revert a b; induction s as [|c s IH]; intros a b H; cbn in H.
  - injection H as <- <-. repeat split; [constructor|discriminate].
  - destruct (p c) eqn:Ec.
    + destruct (span_while p s) as [a' b'] eqn:E. injection H as <- <-.
      destruct (IH a' b' eq_refl) as (-> & H1 & H2). repeat split; auto.
    + injection H as <- <-. repeat split; [constructor|]. intros c' r E. injection E as <- _. exact Ec.
Qed.
Lemma span_while_app p a b : Forall (fun x => p x = true) a -> (forall c r, b = c :: r -> p c = false) ->
  span_while p (a ++ b) = (a, b).
Proof.
  induction 1 as [|c a Hc Ha IH]; intro Hb; cbn.
  - destruct b as [|c r]; [reflexivity|]. cbn. now rewrite (Hb c r eq_refl).
  - rewrite Hc, IH by exact Hb. reflexivity.
Qed.
Lemma ident_start_char c : is_ident_start c = true -> is_ident_char c = true.
Proof. unfold is_ident_char. intros ->. reflexivity. Qed.
Lemma identifier_chars n : identifier n -> Forall (fun x => is_ident_char x = true) n.
Proof. intros (c & r & -> & H1 & H2). constructor; [now apply ident_start_char|exact H2]. Qed.

Lemma take_ident_spec s : is_ident_start (hd 0 s) = true -> s <> [] ->
  exists n r, take_ident s = (n, r) /\ s = n ++ r /\ identifier n /\ ~ starts_ident_char r.
Proof.
  destruct s as [|c s]; [congruence|]. cbn [hd]. intros Hc _. unfold take_ident. rewrite Hc.
  destruct (span_while is_ident_char (c :: s)) as [n r] eqn:E.
  destruct (span_while_spec _ _ _ _ E) as (Es & Hn & Hr). exists n, r. split; [reflexivity|]. split; [exact Es|].
  split.
  - cbn in E. rewrite (ident_start_char c Hc) in E. destruct (span_while is_ident_char s) as [n' r'].
    injection E as <- <-. inversion Hn; subst. exists c, n'. auto.
  - intros (d & q & -> & Hd). specialize (Hr d q eq_refl). congruence.
Qed.
Lemma take_ident_app n r : identifier n -> ~ starts_ident_char r -> take_ident (n ++ r) = (n, r).
Proof.
  intros Hn Hr. pose proof (identifier_chars n Hn) as Hc. destruct Hn as (c & q & -> & H1 & H2).
  unfold take_ident. cbn [app]. rewrite H1. change (c :: q ++ r) with ((c :: q) ++ r). apply span_while_app; [exact Hc|].
  intros d p E. destruct (is_ident_char d) eqn:Ed; [|reflexivity]. exfalso. apply Hr. exists d, p. auto.
Qed.
Lemma ident_not_dollar c : is_ident_start c = true -> (c =? dollar) = false /\ (c =? lbrace) = false.
Proof. unfold is_ident_start, dollar, lbrace. lia. Qed.

Section Expand.
  Variable d : dict text.
  Notation env := (dget d).

  Lemma sh_scan_sound n s out : (length s <= n)%nat ->
    sh_fill (sh_scan n s) d = Ok out -> expands env s out.
  Proof.
    revert s out; induction n as [|n IH]; intros s out Hl H.
    - destruct s; [|cbn in Hl; lia]. cbn in H. injection H as <-. constructor.
    - destruct s as [|c s]; [cbn in H; injection H as <-; constructor|]. cbn [length] in Hl. cbn [sh_scan] in H.
      destruct (Z.eqb_spec c dollar) as [->|Hc]; cbn [negb] in H.
      2: { cbn [sh_fill] in H. destruct (sh_fill (sh_scan n s) d) as [t|] eqn:E; [|discriminate].
           cbn in H. injection H as <-. apply ex_char; [exact Hc|]. apply IH; [lia|exact E]. }
      destruct s as [|e s]; [discriminate|]. cbn [length] in Hl.
      destruct (Z.eqb_spec e dollar) as [->|He].
      { cbn [sh_fill] in H. destruct (sh_fill (sh_scan n s) d) as [t|] eqn:E; [|discriminate].
        cbn in H. injection H as <-. apply (ex_dollar env s t). apply IH; [lia|exact E]. }
      destruct (is_ident_start e) eqn:Ei.
      { destruct (take_ident_spec (e :: s) Ei ltac:(discriminate)) as (v & r & Et & Es & Hid & Hr).
        rewrite Et in H. cbn [sh_fill] in H. destruct (dget d v) as [val|] eqn:Ev; [|discriminate].
        destruct (sh_fill (sh_scan n r) d) as [t|] eqn:E; [|discriminate]. cbn in H. injection H as <-.
        change (dollar :: e :: s) with (TX "$" ++ (e :: s)). rewrite Es. apply ex_var; auto.
        apply IH; [|exact E]. assert (length (e :: s) = length (v ++ r)) by congruence.
        rewrite app_length in H. cbn in H. lia. }
      destruct (Z.eqb_spec e lbrace) as [->|Hb]; [|discriminate].
      destruct (take_ident s) as [[|v0 v] [|f r]] eqn:Et; try discriminate.
      destruct (Z.eqb_spec f rbrace) as [->|Hf]; [|discriminate].
      cbn [sh_fill] in H. destruct (dget d (v0 :: v)) as [val|] eqn:Ev; [|discriminate].
      destruct (sh_fill (sh_scan n r) d) as [t|] eqn:E; [|discriminate]. cbn in H. injection H as <-.
      destruct s as [|s0 s]; [discriminate|].
      assert (Hs0 : is_ident_start s0 = true).
      { unfold take_ident in Et. destruct (is_ident_start s0); [reflexivity|discriminate]. }
      destruct (take_ident_spec (s0 :: s) Hs0 ltac:(discriminate)) as (v' & r' & Et' & Es & Hid & Hr).
      rewrite Et in Et'. injection Et' as <- <-. rewrite Es.
      change (dollar :: lbrace :: (v0 :: v) ++ rbrace :: r) with (TX "${" ++ (v0 :: v) ++ TX "}" ++ r).
      apply ex_braced; auto. apply IH; [|exact E].
      assert (length (s0 :: s) = length ((v0 :: v) ++ rbrace :: r)) by congruence.
      rewrite app_length in H. cbn in H, Hl. lia.
  Qed.

  Lemma sh_scan_complete s out : expands env s out ->
    forall n, (length s <= n)%nat -> sh_fill (sh_scan n s) d = Ok out.
  Proof.
    induction 1 as [|c s o Hc H IH|s o H IH|nm s v o Hid Hs Hv H IH|nm s v o Hid Hv H IH]; intros n Hl.
    - destruct n; reflexivity.
    - destruct n as [|n]; [cbn in Hl; lia|]. cbn [sh_scan]. unfold dollar.
      replace (c =? 36) with false by lia. cbn [negb sh_fill]. rewrite IH by (cbn in Hl; lia). reflexivity.
    - destruct n as [|n]; [cbn in Hl; lia|]. change (TX "$$" ++ s) with (dollar :: dollar :: s) in *.
      cbn [sh_scan]. change (negb (dollar =? dollar)) with false. change (dollar =? dollar) with true. cbn iota.
      cbn [sh_fill]. rewrite IH by (cbn [length] in Hl; lia). reflexivity.
    - destruct n as [|n]; [cbn in Hl; lia|]. destruct Hid as (c & r & -> & H1 & H2).
      destruct (ident_not_dollar c H1) as [E1 E2].
      change (TX "$" ++ (c :: r) ++ s) with (dollar :: c :: r ++ s). cbn [sh_scan].
      change (negb (dollar =? dollar)) with false. cbn iota. rewrite E1, H1.
      change (c :: r ++ s) with ((c :: r) ++ s). rewrite take_ident_app by (auto; exists c, r; auto).
      cbn [sh_fill]. rewrite Hv. rewrite IH; [reflexivity|]. cbn in Hl. rewrite app_length in Hl. lia.
    - destruct n as [|n]; [cbn in Hl; lia|].
      change (TX "${" ++ nm ++ TX "}" ++ s) with (dollar :: lbrace :: nm ++ rbrace :: s) in *. cbn [sh_scan].
      change (negb (dollar =? dollar)) with false. cbn iota.
      change (lbrace =? dollar) with false. cbn iota. change (is_ident_start lbrace) with false. cbn iota.
      change (lbrace =? lbrace) with true. cbn iota.
      rewrite take_ident_app; [|exact Hid|intros (c & r & E & Hc); injection E as <- <-; discriminate].
      destruct Hid as (c & r & -> & H1 & H2). change (rbrace =? rbrace) with true. cbn iota.
      cbn [sh_fill]. rewrite Hv. rewrite IH; [reflexivity|]. cbn in Hl. rewrite app_length in Hl. cbn in Hl. lia.
  Qed.

  Lemma sh_fill_iff s out : sh_fill (sh_pieces s) d = Ok out <-> expands env s out.
  Proof.
    split.
    - now apply sh_scan_sound.
    - intro H. now apply sh_scan_complete.
  Qed.
End Expand.

Lemma stringify_dget ms l : dict_ok ms ->
  dget (stringify_matches ms) l = match dget ms l with Some m => m_string m | None => None end.
Proof.
  induction ms as [|[l' m] ms IH]; intro H; [reflexivity|].
  unfold dict_ok in H. cbn in H. inversion H as [|? ? Hni Hnd]; subst. cbn [stringify_matches dget].
  destruct (text_eqb_spec l' l) as [->|Hne].
  - destruct (m_string m); cbn; [now rewrite text_eqb_refl|].
    rewrite IH by exact Hnd. apply dget_None in Hni. unfold dkeys in *. now rewrite Hni.
  - destruct (m_string m); [|now apply IH]. cbn. rewrite (proj2 (text_eqb_neq l' l) Hne). now apply IH.
Qed.

(** The text bound to a metavariable. *)
Definition text_of (ms : dict pymatch) (l : label) : option text :=
  match dget ms l with Some m => m_string m | None => None end.

Lemma expands_ext e1 e2 s o : (forall l, e1 l = e2 l) -> expands e1 s o -> expands e2 s o.
Proof.
  intros He H. induction H; try (constructor; auto; fail).
  - apply ex_var; auto. now rewrite <- He.
  - apply ex_braced; auto. now rewrite <- He.
Qed.

Lemma sh_template_spec src parsed m ms out : dict_ok ms ->
  (t_substitute (sh_template src) parsed m ms = Ok out <-> expands (text_of ms) src out).
Proof.
  intro H. cbn [t_substitute sh_template]. rewrite sh_fill_iff.
  split; apply expands_ext; intro l; rewrite (stringify_dget ms l H); reflexivity.
Qed.
