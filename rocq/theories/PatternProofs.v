(** AST patterns match what fits. *)
From Verif Require Import Py PyFacts Ast Template FromDiff Matcher MatchSpec MergeSpec FindSpec MergeProofs MatcherProofs
  OnceProofs CollProofs PatTok Pattern PatternSpec EquivProofs ApplyProofs.
From Coq Require Import Lia.

(** *** Occurrences *)

Lemma last_occ_app x a b : last_occ x (a ++ b) = match last_occ x b with Some m => Some m | None => last_occ x a end.
Proof.
  induction a as [|[y m] a IH]; cbn [app last_occ]; [now destruct (last_occ x b)|].
  rewrite IH. destruct (last_occ x b); reflexivity.
Qed.
Lemma last_occ_In x occ m : last_occ x occ = Some m -> In (x, m) occ.
Proof.
  induction occ as [|[y n] occ IH]; cbn; [discriminate|]. destruct (last_occ x occ) as [m'|].
  - intros [= <-]. right. now apply IH.
  - destruct (text_eqb_spec y x) as [->|]; [|discriminate]. intros [= <-]. now left.
Qed.
Lemma last_occ_Some x occ m : In (x, m) occ -> exists m', last_occ x occ = Some m'.
Proof.
  induction occ as [|[y n] occ IH]; cbn; [intros []|]. intros [E|H].
  - injection E as -> ->. destruct (last_occ x occ); [eauto|]. destruct (text_eqb_spec x x); [eauto|congruence].
  - destruct (IH H) as (m' & ->). eauto.
Qed.

Lemma FOP_app {A} (R : A -> A -> Prop) a b :
  ForallOrdPairs R (a ++ b) <->
  ForallOrdPairs R a /\ ForallOrdPairs R b /\ (forall x y, In x a -> In y b -> R x y).
Proof.
  induction a as [|x a IH]; cbn.
  - split; [intros H; split; [constructor|]; split; [exact H|intros ? ? []]|intros (_ & H & _); exact H].
  - split.
    + intros H. inversion H as [|? ? F H']; subst. apply IH in H' as (Ha & Hb & Hab). apply Forall_app in F as [F1 F2].
      split; [constructor; auto|]. split; [exact Hb|]. intros u v [<-|Hu] Hv; [|now apply Hab].
      rewrite Forall_forall in F2. now apply F2.
    + intros (H & Hb & Hab). inversion H as [|? ? F H']; subst. constructor.
      * apply Forall_app. split; [exact F|]. apply Forall_forall. intros v Hv. apply Hab; auto.
      * apply IH. split; [exact H'|]. split; [exact Hb|]. intros u v Hu Hv. apply Hab; auto.
Qed.
(** Every occurrence is the last one or alike the last one. *)
Lemma alike_last occ x m : alike occ -> In (x, m) occ ->
  exists l, last_occ x occ = Some l /\ (m = l \/ equivalent_code m l).
Proof.
  unfold alike. induction occ as [|[y n] occ IH]; intros A Hin; [destruct Hin|].
  inversion A as [|? ? F A']; subst. cbn [last_occ]. destruct Hin as [E|Hin].
  - injection E as -> ->. destruct (last_occ x occ) as [l|] eqn:El.
    + exists l. split; [reflexivity|]. right. rewrite Forall_forall in F. apply (F (x, l)); [now apply last_occ_In|reflexivity].
    + destruct (text_eqb_spec x x); [|congruence]. eauto.
  - destruct (IH A' Hin) as (l & -> & H). eauto.
Qed.

Section Run.
  Variable e : env.
  (** The domain on which the equivalence is one. *)
  Variable good : value -> Prop.
  Hypothesis good_sym : forall x y, good x -> good y -> ast_equivalent x y = Ok true -> ast_equivalent y x = Ok true.
  Hypothesis good_trans : forall x y z, good x -> good y -> good z ->
    ast_equivalent x y = Ok true -> ast_equivalent y z = Ok true -> ast_equivalent x z = Ok true.
  Definition known (occ : list (label * pymatch)) : Prop :=
    Forall (fun o => forall a, m_matched (snd o) = Some a -> good a) occ.

  Lemma known_equiv a b c :
    (forall x, m_matched a = Some x -> good x) -> (forall x, m_matched b = Some x -> good x) -> (forall x, m_matched c = Some x -> good x) ->
    equivalent_code a b -> equivalent_code b c -> equivalent_code a c.
  Proof.
    intros Ga Gb Gc (x & y & E1 & E2 & H) (y' & z & E3 & E4 & H'). assert (y' = y) as -> by congruence.
    exists x, z. split; [exact E1|]. split; [exact E4|]. apply (good_trans x y z); auto.
  Qed.
  Lemma known_sym a b :
    (forall x, m_matched a = Some x -> good x) -> (forall x, m_matched b = Some x -> good x) ->
    equivalent_code a b -> equivalent_code b a.
  Proof. intros Ga Gb (x & y & E1 & E2 & H). exists y, x. split; [exact E2|]. split; [exact E1|]. now apply good_sym; auto. Qed.

  Notation summary := (binds_last MERGE_EQUIVALENT_AST).

  Lemma summary_nil : summary [] [].
  Proof. split; [constructor|]. intros x. reflexivity. Qed.
  Lemma merge_run o1 o2 b1 b2 :
    known o1 -> known o2 -> alike o1 -> alike o2 -> summary o1 b1 -> summary o2 b2 ->
    (exists b, merge_bindings b1 b2 = Ok (Some b) /\ summary (o1 ++ o2) b /\ alike (o1 ++ o2))
    \/ (merge_bindings b1 b2 = Ok None /\ ~ alike (o1 ++ o2)).
  Proof.
    intros K1 K2 A1 A2 [D1 S1] [D2 S2].
    pose proof (merge_bindings_spec b1 b2 D1 D2) as M. unfold merge_outcome in M.
    assert (Both : forall k a b, both b1 b2 k a b -> exists m1 m2, last_occ k o1 = Some m1 /\ last_occ k o2 = Some m2
              /\ a = Bound m1 MERGE_EQUIVALENT_AST KEEP_LAST /\ b = Bound m2 MERGE_EQUIVALENT_AST KEEP_LAST).
    { intros k a b [Ha Hb]. rewrite S1 in Ha. rewrite S2 in Hb.
      destruct (last_occ k o1) as [m1|]; [|discriminate Ha]. destruct (last_occ k o2) as [m2|]; [|discriminate Hb].
      cbn in Ha, Hb. injection Ha as <-. injection Hb as <-. eauto 8. }
    assert (Err0 : forall k a b, both b1 b2 k a b -> ~ erroneous a b).
    { intros k a b HB. destruct (Both k a b HB) as (m1 & m2 & _ & _ & -> & ->).
      intros [H|[H|[_ [H|[H|H]]]]]; cbn in H; congruence. }
    destruct (merge_bindings b1 b2) as [[d|]|x].
    - left. exists d. destruct M as (Dd & Acc & Val). split; [reflexivity|]. split.
      + split; [exact Dd|]. intros x. rewrite Val, S1, S2, last_occ_app.
        destruct (last_occ x o1), (last_occ x o2); reflexivity.
      + apply FOP_app. split; [exact A1|]. split; [exact A2|]. intros [x m1] [y m2] I1 I2 E. cbn in E. subst y. cbn [snd].
        destruct (alike_last _ _ _ A1 I1) as (l1 & L1 & E1). destruct (alike_last _ _ _ A2 I2) as (l2 & L2 & E2).
        pose proof K1 as K1'. pose proof K2 as K2'. unfold known in K1', K2'. rewrite Forall_forall in K1', K2'.
        pose proof (K1' _ I1) as G1. pose proof (K2' _ I2) as G2.
        pose proof (K1' _ (last_occ_In _ _ _ L1)) as G3. pose proof (K2' _ (last_occ_In _ _ _ L2)) as G4. cbn [snd] in *.
        assert (EQ : equivalent_code l1 l2).
        { destruct (Acc x (Bound l1 MERGE_EQUIVALENT_AST KEEP_LAST) (Bound l2 MERGE_EQUIVALENT_AST KEEP_LAST)) as [_ H].
          - split; [rewrite S1, L1|rewrite S2, L2]; reflexivity.
          - exact H. }
        assert (EQ1 : equivalent_code m1 l2).
        { destruct E1 as [->|E1]; [exact EQ|]. eapply known_equiv; [| | |exact E1|exact EQ]; auto. }
        destruct E2 as [->|E2]; [exact EQ1|]. eapply known_equiv; [| | |exact EQ1|]; auto. apply known_sym; auto.
    - right. split; [reflexivity|]. destruct M as (_ & k & a & b & HB & Na). intros A. apply Na.
      destruct (Both k a b HB) as (m1 & m2 & L1 & L2 & -> & ->).
      apply FOP_app in A as (_ & _ & H). apply (H (k, m1) (k, m2)); auto; now apply last_occ_In.
    - exfalso. destruct M as (_ & k & a & b & HB & HE). exact (Err0 k a b HB HE).
  Qed.

  (** [a] matches iff there are occurrences as in [F], all alike. *)
  Record runs_as (a : outcome) (F : list (label * pymatch) -> Prop) : Prop := {
    ra_run : forall s,
      (exists rm occ b, a s = (s, Ok (Some (RInfo rm (Some b) []))) /\ F occ /\ summary occ b /\ alike occ)
      \/ (a s = (s, Ok None) /\ forall occ, F occ -> ~ alike occ);
    ra_one : forall o o', F o -> F o' -> o = o';
    ra_known : forall o, F o -> known o
  }.
  Inductive in_all : list (list (label * pymatch) -> Prop) -> list (label * pymatch) -> Prop :=
    | IA_nil : in_all [] []
    | IA_cons (F : list (label * pymatch) -> Prop) Fs o os : F o -> in_all Fs os -> in_all (F :: Fs) (o ++ os).

  Lemma in_all_one acts Fs : Forall2 runs_as acts Fs -> forall o o', in_all Fs o -> in_all Fs o' -> o = o'.
  Proof.
    induction 1 as [|a F acts Fs R Rs IH]; intros o o' H H'; inversion H; inversion H'; subst; [reflexivity|].
    f_equal; [eapply (ra_one _ _ R); eauto|now apply IH].
  Qed.
  Lemma in_all_known acts Fs : Forall2 runs_as acts Fs -> forall o, in_all Fs o -> known o.
  Proof.
    induction 1 as [|a F acts Fs R Rs IH]; intros o H; inversion H; subst; [constructor|].
    apply Forall_app. split; [eapply (ra_known _ _ R); eauto|now apply IH].
  Qed.
  Lemma accumulate_run acts Fs : Forall2 runs_as acts Fs -> forall occ0 b0 s,
    known occ0 -> summary occ0 b0 -> alike occ0 ->
    (exists occ b, accumulate acts b0 [] s = (s, Ok (Some (b, []))) /\ in_all Fs occ
                   /\ summary (occ0 ++ occ) b /\ alike (occ0 ++ occ))
    \/ (accumulate acts b0 [] s = (s, Ok None) /\ forall occ, in_all Fs occ -> ~ alike (occ0 ++ occ)).
  Proof.
    induction 1 as [|a F acts Fs R Rs IH]; intros occ0 b0 s K0 S0 A0.
    - left. exists [], b0. rewrite app_nil_r. split; [reflexivity|]. split; [constructor|auto].
    - cbn [accumulate]. unfold mbind. destruct (ra_run _ _ R s) as [(rm & occ & b & E & HF & S1 & A1)|[E N]]; rewrite E.
      + cbn [lift r_bindings not_none r_reps].
        pose proof (ra_known _ _ R _ HF) as K1.
        destruct (merge_run occ0 occ b0 b K0 K1 A0 A1 S0 S1) as [(b' & Em & S' & A')|[Em N]]; rewrite Em.
        * assert (Er : merge_replacements [] [] = Ok []) by reflexivity. rewrite Er.
          destruct (IH (occ0 ++ occ) b' s) as [(os & b2 & E2 & I2 & S2 & A2)|[E2 N2]]; auto.
          -- apply Forall_app. auto.
          -- left. exists (occ ++ os), b2. rewrite app_assoc. split; [exact E2|]. split; [now constructor|auto].
          -- right. split; [exact E2|]. intros occ' H'. inversion H' as [|? ? o os Ho Hos]; subst.
             rewrite (ra_one _ _ R _ _ Ho HF), app_assoc. now apply N2.
        * right. split; [reflexivity|]. intros occ' H'. inversion H' as [|? ? o os Ho Hos]; subst.
          rewrite (ra_one _ _ R _ _ Ho HF), app_assoc. intros A. apply N. apply FOP_app in A as (A & _). exact A.
      + right. split; [reflexivity|]. intros occ' H'. inversion H' as [|? ? o os Ho Hos]; subst. intros A.
        apply FOP_app in A as (_ & A & _). apply FOP_app in A as (A & _). now apply (N o).
  Qed.
  Lemma accumulating_run v acts Fs : Forall2 runs_as acts Fs -> runs_as (accumulating e v acts) (in_all Fs).
  Proof.
    intros R. constructor.
    - intros s. unfold accumulating, mbind.
      destruct (accumulate_run acts Fs R [] [] s) as [(occ & b & E & I & S & A)|[E N]].
      + constructor.
      + apply summary_nil.
      + constructor.
      + left. rewrite E. exists (create_match (e_parsed e) v), occ, b. repeat split; auto; apply S.
      + right. rewrite E. split; [reflexivity|exact N].
    - eapply in_all_one; eauto.
    - eapply in_all_known; eauto.
  Qed.
  Lemma runs_as_ext a F F' : (forall o, F o <-> F' o) -> runs_as a F -> runs_as a F'.
  Proof.
    intros H [R O K]. constructor.
    - intros s. destruct (R s) as [(rm & occ & b & E & HF & S & A)|[E N]].
      + left. exists rm, occ, b. split; [exact E|]. split; [now apply H|auto].
      + right. split; [exact E|]. intros occ HF. apply N. now apply H.
    - intros o o' Ho Ho'. apply O; now apply H.
    - intros o Ho. apply K. now apply H.
  Qed.
  Lemma runs_as_never (a : outcome) (F : list (label * pymatch) -> Prop) :
    (forall s, a s = (s, Ok None)) -> (forall o, ~ F o) -> runs_as a F.
  Proof.
    intros H N. constructor; [|intros ? ? H'; now destruct (N _ H')|intros ? H'; now destruct (N _ H')].
    intros s. right. split; [apply H|]. intros o Ho. now destruct (N _ Ho).
  Qed.
  Lemma runs_as_plain (a : outcome) rm : (forall s, a s = (s, Ok (Some (RInfo rm (Some []) [])))) -> runs_as a (fun o => o = []).
  Proof.
    intros H. constructor.
    - intros s. left. exists rm, [], []. split; [apply H|]. split; [reflexivity|]. split; [apply summary_nil|constructor].
    - now intros ? ? -> ->.
    - intros ? ->. constructor.
  Qed.
  Lemma rewrap_run v a F : runs_as a F -> runs_as (run o <- a; rewrap e v o) F.
  Proof.
    intros [R O K]. constructor; auto. intros s. unfold mbind. destruct (R s) as [(rm & occ & b & E & HF & S & A)|[E N]]; rewrite E.
    - left. exists (create_match (e_parsed e) v), occ, b. split; [reflexivity|auto].
    - right. split; [reflexivity|exact N].
  Qed.

  (** *** The compiled pattern *)

  Variable G : grammar.
  Hypothesis HG : proper G.
  Variable holes : text -> option hole.
  Variable vars : dict matcher.
  Hypothesis vars_holes : forall n, dget vars n =
    match holes n with
    | None => None
    | Some Anonymous => Some MAnything
    | Some (Named x m) => Some (MBind x m (Some MERGE_EQUIVALENT_AST) None)
    end.
  Hypothesis restrictions_ok : forall n x m, holes n = Some (Named x m) -> restriction_ok e m.
  (** Where to look for matches. *)
  Variable tame : value -> Prop.
  Hypothesis tame_child : forall v x, tame v -> In x (vchildren v) -> tame x.
  Hypothesis tame_good : forall n x m v, holes n = Some (Named x m) -> tame v -> good v.

  Lemma name_id_is_name p n : name_id p = Some n <-> is_name p n.
  Proof.
    unfold name_id, is_name. split.
    - destruct p as [i fs| |]; try discriminate. destruct (text_eqb_spec (n_type i) (TX "Name")) as [E|]; [|discriminate].
      cbn [vfield]. destruct (dget fs (TX "id")) as [[ | |id [ | | |s| ]]|] eqn:Ed; cbn; try discriminate.
      intros [= <-]. exists i, fs, id. auto.
    - intros (i & fs & id & -> & E & Ed). rewrite E. cbn [vfield]. rewrite Ed. reflexivity.
  Qed.
  Lemma is_name_one p n n' : is_name p n -> is_name p n' -> n = n'.
  Proof. intros H H'. apply name_id_is_name in H, H'. congruence. Qed.

  Lemma bind_run x m c : good c -> restriction_ok e m ->
    runs_as (eval e (MBind x m (Some MERGE_EQUIVALENT_AST) None) c)
            (fun o => exists rm, pure_on e c m (Some (RInfo rm (Some []) [])) /\ o = [(x, rm)]).
  Proof.
    intros Gc Hm. destruct (Hm c) as [Hn|(rm & Hs & Hv)].
    - apply runs_as_never.
      + intros s. cbn [eval]. unfold mbind. now rewrite (Hn s).
      + intros o (rm & H & _). specialize (Hn []). specialize (H []). congruence.
    - assert (One : forall rm', pure_on e c m (Some (RInfo rm' (Some []) [])) -> rm' = rm).
      { intros rm' H. specialize (H []). rewrite (Hs []) in H. congruence. }
      constructor.
      + intros s. left. exists rm, [(x, rm)], [(x, Bound rm MERGE_EQUIVALENT_AST KEEP_LAST)].
        split; [cbn [eval]; unfold mbind; rewrite (Hs s); reflexivity|]. split; [eauto|].
        split.
        * split; [constructor; [intros []|constructor]|]. intros y. cbn. destruct (text_eqb_spec x y); reflexivity.
        * constructor; constructor.
      + intros o o' (r1 & H1 & ->) (r2 & H2 & ->). now rewrite (One _ H1), (One _ H2).
      + intros o (r1 & H1 & ->). rewrite (One _ H1). constructor; [|constructor]. cbn [snd]. intros a Ha. now rewrite (Hv _ Ha).
  Qed.

  Definition sub_run (p : value) : Prop := forall c, conforms G p -> conforms G c -> tame c ->
    (is_list p = true -> is_list c = true) -> runs_as (eval e (ast_pattern vars p) c) (fits e holes p c).

  Lemma items_run l : Forall sub_run l -> forall m v k,
    Forall (fun x => is_list x = false /\ conforms G x) l -> Forall (fun x => conforms G x) m -> Forall tame m ->
    seq_items e v = Some m -> 
    exists Fs, Forall2 runs_as (numbered_items e (Z.of_nat k) (map (fun m' => eval e m') (map (ast_pattern vars) l)) v) Fs
      /\ forall o, in_all Fs o <-> exists m1 m2, skipn k m = m1 ++ m2 /\ fits_items e holes l m1 o.
  Proof.
    induction 1 as [|p l Hp Hl IH]; intros m v k Cl Cm Gm Em; cbn [map numbered_items].
    - exists []. split; [constructor|]. intros o. split.
      + intros H. inversion H; subst. exists [], (skipn k m). split; [reflexivity|constructor].
      + intros (m1 & m2 & _ & H). inversion H; subst. constructor.
    - inversion Cl as [|? ? [Lp Cp] Cl']; subst. replace (Z.of_nat k + 1) with (Z.of_nat (S k)) by lia.
      destruct (IH m v (S k) Cl' Cm Gm Em) as (Fs & R & HF).
      destruct (nth_error m k) as [x|] eqn:Ex.
      + assert (Esk : skipn k m = x :: skipn (S k) m).
        { clear - Ex. revert m Ex. induction k as [|k IHk]; intros [|y m] Ex; try discriminate Ex; cbn in *.
          - now injection Ex as ->.
          - now apply IHk. }
        pose proof (nth_error_In _ _ Ex) as Hx. rewrite Forall_forall in Cm, Gm.
        exists (fits e holes p x :: Fs). split.
        * constructor; [|exact R]. unfold has_item. rewrite (subscript_nat e v m k Em), Ex. apply rewrap_run.
          apply Hp; auto. rewrite Lp. discriminate.
        * intros o. rewrite Esk. split.
          -- intros H. inversion H as [|? ? o1 os H1 H2]; subst. apply HF in H2 as (m1 & m2 & E & H2).
             exists (x :: m1), m2. split; [cbn [app]; now rewrite <- E|]. now constructor.
          -- intros (m1 & m2 & E & H). inversion H as [|? y ? m1' o1 os H1 H2]; subst. injection E as <- E.
             constructor; [exact H1|]. apply HF. eauto.
      + assert (Esk : skipn k m = []) by (apply skipn_all2; now apply nth_error_None).
        exists ((fun _ => False) :: Fs). split.
        * constructor; [|exact R]. apply runs_as_never; [|auto]. intros s. unfold has_item.
          now rewrite (subscript_nat e v m k Em), Ex.
        * intros o. rewrite Esk. split; [intros H; inversion H; contradiction|].
          intros (m1 & m2 & E & H). inversion H; subst. discriminate E.
  Qed.
  Lemma fits_items_length l m o : fits_items e holes l m o -> length l = length m.
  Proof. induction 1; cbn; auto. Qed.

  Lemma fields_run ty fs : Forall (fun kv => sub_run (snd kv)) fs -> forall (gs : list (text * value)),
    map (fun kv => (fst kv, is_list (snd kv))) fs = map (fun kv => (fst kv, is_list (snd kv))) gs ->
    Forall (fun kv => conforms G (snd kv)) fs -> Forall (fun kv => conforms G (snd kv)) gs -> Forall (fun kv => tame (snd kv)) gs ->
    exists Fs, Forall2 runs_as
        (map (fun mx => eval e (fst mx) (snd mx))
           (combine (map (fun kv => if ignored_field ty (fst kv) then MAnything else ast_pattern vars (snd kv)) fs)
                    (map snd gs))) Fs
      /\ forall o, in_all Fs o <-> fits_fields e holes ty fs gs o.
  Proof.
    induction 1 as [|[f p] fs Hp Hl IH]; intros [|[g c] gs] E Cf Cg Gg; try discriminate E; cbn [map combine fst snd] in *.
    - exists []. split; [constructor|]. intros o. split; intros H; inversion H; subst; constructor.
    - injection E as <- El E. inversion Cf as [|? ? C1 C2]; inversion Cg as [|? ? D1 D2]; inversion Gg as [|? ? G1 G2]; subst. cbn [snd] in *.
      destruct (IH gs E C2 D2 G2) as (Fs & R & HF).
      destruct (ignored_field ty f) eqn:Ei; unfold ignored_field in Ei.
      + apply andb_prop in Ei as [E1 E2]. destruct (text_eqb_spec f (TX "ctx")) as [->|]; [|discriminate].
        destruct (text_eqb_spec ty (TX "Name")) as [->|]; [|discriminate].
        exists ((fun o => o = []) :: Fs). split.
        * constructor; [|exact R]. apply (runs_as_plain _ (create_match (e_parsed e) c)). reflexivity.
        * intros o. split.
          -- intros H. inversion H as [|? ? o1 os H1 H2]; subst. cbn [app]. apply FF_context; [now split|]. now apply HF.
          -- intros H. inversion H as [|? ? ? ? ? ? ? Hc H2|? ? ? ? ? ? ? ? Hc H1 H2]; subst; [|exfalso; apply Hc; now split].
             apply (IA_cons _ Fs [] o); [reflexivity|]. now apply HF.
      + assert (Hn : ~ name_context ty f).
        { intros [-> ->]. apply Bool.andb_false_iff in Ei. destruct Ei as [Ei|Ei]; discriminate Ei. }
        exists (fits e holes p c :: Fs). split.
        * constructor; [|exact R]. apply Hp; auto. intros Hlp. congruence.
        * intros o. split.
          -- intros H. inversion H as [|? ? o1 os H1 H2]; subst. apply FF_cons; auto. now apply HF.
          -- intros H. inversion H as [|? ? ? ? ? ? ? Hc H2|? ? ? ? ? ? ? ? Hc H1 H2]; subst; [contradiction|].
             constructor; [exact H1|]. now apply HF.
  Qed.

  Lemma node_run i fs : Forall (fun kv => sub_run (snd kv)) fs -> forall c,
    conforms G (VNode i fs) -> conforms G c -> tame c -> (forall n, is_name (VNode i fs) n -> holes n = None) ->
    runs_as (eval e (MNode (n_type i)
                    (map (fun kv => (fst kv, if ignored_field (n_type i) (fst kv) then MAnything
                                             else ast_pattern vars (snd kv))) fs)) c)
            (fits e holes (VNode i fs) c).
  Proof.
    intros IH c Cp Cc Gc Hn. cbn [eval].
    destruct (text_eqb_spec (vtype c) (n_type i)) as [E|E].
    2:{ apply runs_as_never; [reflexivity|]. intros o H. inversion H as [? n x m ? rm Hi Ho| ? n ? Hi Ho| | |? ? ? ? ? _ Et]; subst.
        - rewrite (Hn _ Hi) in Ho. discriminate Ho.
        - rewrite (Hn _ Hi) in Ho. discriminate Ho.
        - now apply E. }
    destruct c as [j gs|id l|id k].
    - cbn [vtype] in E.
      inversion Cp as [| |? ? _ Kp Fp]; inversion Cc as [| |? ? _ Kc Fc]; subst.
      destruct (fields_run (n_type i) fs IH gs) as (Fs & R & HF); auto.
      { rewrite Kp, Kc. now rewrite E. }
      { apply Forall_forall. intros kv Hk. apply (tame_child (VNode j gs)); auto. cbn. now apply in_map. }
      eapply runs_as_ext; [|eapply accumulating_run].
      2:{ match type of R with Forall2 _ ?a _ => match goal with |- Forall2 _ ?b _ => replace b with a; [exact R|] end end.
          assert (K : map fst fs = map fst gs).
          { assert (K : map fst (map (fun kv => (fst kv, is_list (snd kv))) fs) = map fst (map (fun kv => (fst kv, is_list (snd kv))) gs))
              by (rewrite Kp, Kc; now rewrite E). rewrite !map_map in K. exact K. }
          assert (N : NoDup (map fst gs)).
          { specialize (HG (n_type j)). rewrite <- Kc, map_map in HG. exact HG. }
          rewrite <- (fields_of_same fs j gs K N). clear. generalize (vfield (VNode j gs)). intros f.
          induction fs as [|kv fs IHf]; [reflexivity|]. cbn [map combine fst snd]. f_equal. exact IHf. }
      intros o. rewrite HF. split; [intros H; now apply F_node|].
      intros H. inversion H as [? n x m ? rm Hi Ho| ? n ? Hi Ho| | |? ? ? ? ? _ Et]; subst; auto.
      + rewrite (Hn _ Hi) in Ho. discriminate Ho.
      + rewrite (Hn _ Hi) in Ho. discriminate Ho.
    - exfalso. inversion Cp as [| |? ? B _ _]; subst. apply B. rewrite <- E. apply in_map_iff. exists "list"%string. split; [reflexivity|cbn; tauto].
    - exfalso. inversion Cp as [| |? ? B _ _]; subst. apply B. rewrite <- E. cbn [vtype].
      destruct k as [ | |[ | | | ] ? | | ]; apply in_map_iff.
      + exists "NoneType"%string; split; [reflexivity|cbn; tauto].
      + exists "ellipsis"%string; split; [reflexivity|cbn; tauto].
      + exists "bool"%string; split; [reflexivity|cbn; tauto].
      + exists "int"%string; split; [reflexivity|cbn; tauto].
      + exists "float"%string; split; [reflexivity|cbn; tauto].
      + exists "complex"%string; split; [reflexivity|cbn; tauto].
      + exists "str"%string; split; [reflexivity|cbn; tauto].
      + exists "bytes"%string; split; [reflexivity|cbn; tauto].
  Qed.

  Lemma pattern_run : forall p, sub_run p.
  Proof.
    induction p as [i fs IH|id l IH|id k] using value_ind'; intros c Cp Cc Gc Hl.
    - cbn [ast_pattern]. destruct (name_id (VNode i fs)) as [n|] eqn:En.
      + apply name_id_is_name in En as En'. rewrite vars_holes. destruct (holes n) as [[x m|]|] eqn:Eh.
        * eapply runs_as_ext; [|apply bind_run; eauto using tame_good]. intros o. split.
          -- intros (rm & H & ->). eapply F_named; eauto.
          -- intros H. inversion H as [? n' x' m' ? rm Hi Ho Hm| ? n' ? Hi Ho| | |? ? ? ? ? Hi Et]; subst.
             ++ rewrite (is_name_one _ _ _ Hi En') in Ho. rewrite Eh in Ho. injection Ho as <- <-. eauto.
             ++ rewrite (is_name_one _ _ _ Hi En') in Ho. congruence.
             ++ rewrite (Hi _ En') in Eh. discriminate Eh.
        * eapply runs_as_ext; [|apply (runs_as_plain _ (create_match (e_parsed e) c)); reflexivity]. intros o. split.
          -- intros ->. eapply F_anonymous; eauto.
          -- intros H. inversion H as [? n' x' m' ? rm Hi Ho Hm| ? n' ? Hi Ho| | |? ? ? ? ? Hi Et]; subst; auto.
             ++ rewrite (is_name_one _ _ _ Hi En') in Ho. congruence.
             ++ rewrite (Hi _ En') in Eh. discriminate Eh.
        * apply node_run; auto. intros n' Hn'. now rewrite (is_name_one _ _ _ Hn' En').
      + apply node_run; auto. intros n' Hn'. apply name_id_is_name in Hn'. congruence.
    - destruct c as [j gs|id' m|id' k]; try (now specialize (Hl eq_refl); discriminate Hl).
      inversion Cp as [|? ? Fp|]; inversion Cc as [|? ? Fc|]; subst.
      cbn [ast_pattern eval]. unfold items_are.
      assert (Cm : Forall (fun x => conforms G x) m) by (eapply Forall_impl; [|exact Fc]; now intros ? []).
      assert (Gm : Forall tame m) by (apply Forall_forall; intros x Hx; now apply (tame_child (VList id' m))).
      destruct (items_run l IH m (VList id' m) 0 Fp Cm Gm eq_refl) as (Fs & R & HF).
      assert (Inv : forall o, fits e holes (VList id l) (VList id' m) o <-> fits_items e holes l m o).
      { intros o. split; [|apply F_list]. intros H. inversion H as [? n' x' m' ? rm Hi Ho Hm| ? n' ? Hi Ho| | |]; subst; auto.
        - destruct Hi as (? & ? & ? & E & _). discriminate E.
        - destruct Hi as (? & ? & ? & E & _). discriminate E. }
      eapply runs_as_ext; [intros o; symmetry; apply Inv|].
      destruct (Nat.ltb_spec (length l) (length m)) as [Hlen|Hlen].
      + apply runs_as_never.
        * intros s. change (eval e (MItemsAre (map (ast_pattern vars) l)) (VList id' m) s = (s, Ok None)).
          apply (items_are_too_long e _ _ m); [reflexivity|now rewrite map_length].
        * intros o Ho. apply fits_items_length in Ho. lia.
      + eapply runs_as_ext; [|eapply accumulating_run; constructor; [|exact R]].
        2:{ apply (runs_as_plain _ (create_match (e_parsed e) (VList id' m))). intros s.
            unfold unless, mbind, has_item. unfold tlen. rewrite (subscript_nat e (VList id' m) m _ eq_refl), !map_length.
            replace (nth_error m (length l)) with (@None value) by (symmetry; now apply nth_error_None). reflexivity. }
        intros o. split.
        * intros H. inversion H as [|? ? o1 os H1 H2]; subst. cbn [app]. apply HF in H2 as (m1 & m2 & E & H2). cbn [skipn] in E.
          subst m. assert (m2 = []) as ->; [|now rewrite app_nil_r].
          apply fits_items_length in H2. rewrite app_length in Hlen. destruct m2; [reflexivity|cbn in Hlen; lia].
        * intros H. apply (IA_cons _ Fs [] o); [reflexivity|]. apply HF. exists m, []. now rewrite app_nil_r.
    - cbn [ast_pattern eval]. destruct (py_eq c (VConst id k)) eqn:E.
      + destruct c as [| |id' d]; try discriminate E. cbn in E. apply const_eqb_sym in E.
        eapply runs_as_ext; [|apply (runs_as_plain _ (create_match (e_parsed e) (VConst id' d))); reflexivity].
        intros o. split; [intros ->; now apply F_const|]. intros H. inversion H as [? n' x' m' ? rm Hi Ho Hm| ? n' ? Hi Ho| | |]; subst; auto.
        destruct Hi as (? & ? & ? & E' & _). discriminate E'.
      + apply runs_as_never; [reflexivity|]. intros o H.
        inversion H as [? n' x' m' ? rm Hi Ho Hm| ? n' ? Hi Ho|? ? ? ? Ec| |]; subst.
        * destruct Hi as (? & ? & ? & E' & _). discriminate E'.
        * destruct Hi as (? & ? & ? & E' & _). discriminate E'.
        * cbn in E. rewrite (const_eqb_sym _ _ Ec) in E. discriminate E.
  Qed.
End Run.

(** *** Whole patterns *)

Lemma option_map_rebind o :
  option_map (rebind (Some MERGE) (Some KEEP_LAST)) (option_map (fun m => Bound m MERGE_EQUIVALENT_AST KEEP_LAST) o)
  = option_map (fun m => Bound m MERGE KEEP_LAST) o.
Proof. now destruct o. Qed.
Lemma binds_last_rebound occ b : binds_last MERGE_EQUIVALENT_AST occ b ->
  binds_last MERGE occ (map (fun kv => (fst kv, rebind (Some MERGE) (Some KEEP_LAST) (snd kv))) b).
Proof.
  intros [D S]. split.
  - unfold dict_ok, dkeys in *. rewrite map_map. exact D.
  - intros x. rewrite dget_map, S. apply option_map_rebind.
Qed.
Lemma accumulating_match e v acts s s' rm b t :
  accumulating e v acts s = (s', Ok (Some (RInfo rm b t))) -> rm = create_match (e_parsed e) v.
Proof.
  unfold accumulating. intros H. apply mbind_Ok in H as (s1 & o & _ & H). apply ret_Ok in H as [_ H].
  destruct o as [[? ?]|]; [|discriminate H]. now injection H as <- _ _.
Qed.
Lemma pattern_match e holes vars i fs c s s' rm b t :
  (forall n, dget vars n =
    match holes n with
    | None => None
    | Some Anonymous => Some MAnything
    | Some (Named x m) => Some (MBind x m (Some MERGE_EQUIVALENT_AST) None)
    end) ->
  (forall n x m, is_name (VNode i fs) n -> holes n = Some (Named x m) -> m = MAnything) ->
  eval e (ast_pattern vars (VNode i fs)) c s = (s', Ok (Some (RInfo rm b t))) -> rm = create_match (e_parsed e) c.
Proof.
  intros Hv Hn H. cbn [ast_pattern] in H.
  assert (K : forall ms, eval e (MNode (n_type i) ms) c s = (s', Ok (Some (RInfo rm b t))) -> rm = create_match (e_parsed e) c).
  { intros ms H'. cbn [eval] in H'. destruct (text_eqb (vtype c) (n_type i)); [|discriminate H']. now apply accumulating_match in H'. }
  destruct (name_id (VNode i fs)) as [n|] eqn:En; [|eauto].
  apply name_id_is_name in En. rewrite Hv in H. destruct (holes n) as [[x m|]|] eqn:Eh; [|injection H; congruence|eauto].
  rewrite (Hn n x m En Eh) in H. cbn [eval] in H.
  apply mbind_Ok in H as (s1 & o & E1 & H). apply ret_Ok in E1 as [-> <-].
  apply mbind_Ok in H as (s2 & rb & E2 & H). apply lift_Ok in E2 as [-> _].
  apply mbind_Ok in H as (s3 & rm' & E3 & H). apply lift_Ok in E3 as [-> E3].
  apply mbind_Ok in H as (s4 & rt & E4 & H). apply lift_Ok in E4 as [-> _].
  apply mbind_Ok in H as (s5 & mb & E5 & H). apply lift_Ok in E5 as [-> _].
  destruct mb; apply ret_Ok in H as [_ H]; [|discriminate H]. injection H as <- _ _. cbn in E3. now injection E3.
Qed.

(** What it means that the matcher [m] finds the pattern [p]. *)
Theorem pattern_matches e G root holes vars p c s :
  proper G -> parsed_tree G root -> conforms G p -> is_node p = true -> inside root c ->
  (forall n, dget vars n =
    match holes n with
    | None => None
    | Some Anonymous => Some MAnything
    | Some (Named x m) => Some (MBind x m (Some MERGE_EQUIVALENT_AST) None)
    end) ->
  (forall n x m, holes n = Some (Named x m) -> restriction_ok e m) ->
  (exists rm occ b, eval e (rebound (ast_pattern vars p)) c s = (s, Ok (Some (RInfo rm (Some b) [])))
     /\ fits e holes p c occ /\ alike occ /\ binds_last MERGE occ b
     /\ ((forall n x m, is_name p n -> holes n = Some (Named x m) -> m = MAnything) -> rm = create_match (e_parsed e) c))
  \/ (eval e (rebound (ast_pattern vars p)) c s = (s, Ok None) /\ forall occ, fits e holes p c occ -> ~ alike occ).
Proof.
  intros HG Pr Cp Np Ic Hv Hr.
  assert (R : runs_as (inside root) (eval e (ast_pattern vars p) c) (fits e holes p c)).
  { apply (pattern_run e (inside root)) with (G := G) (tame := inside root); auto.
    - intros x y Ix Iy H. apply (ast_equivalent_iff G root) in H; auto. apply (ast_equivalent_iff G root); auto. now apply same_by_id_sym.
    - intros x y z Ix Iy Iz H H'. apply (ast_equivalent_iff G root) in H; auto. apply (ast_equivalent_iff G root) in H'; auto.
      apply (ast_equivalent_iff G root); auto. eapply same_by_id_trans; eauto.
    - intros v x. apply inside_child.
    - eapply conforms_inside; [apply (pt_conforms _ _ Pr)|exact Ic].
    - destruct p; try discriminate Np. discriminate. }
  cbn [rebound eval]. unfold mbind. destruct (ra_run _ _ _ R s) as [(rm & occ & b & E & HF & S & A)|[E N]]; rewrite E.
  - left. cbn [r_bindings r_match r_reps bind not_none lift ret].
    exists rm, occ, (map (fun kv => (fst kv, rebind (Some MERGE) (Some KEEP_LAST) (snd kv))) b).
    split; [reflexivity|]. split; [exact HF|]. split; [exact A|]. split; [now apply binds_last_rebound|].
    intros Hn. destruct p as [i fs| |]; try discriminate Np. eapply pattern_match; eauto.
  - right. split; [reflexivity|exact N].
Qed.

(** Without metavariables. *)
Lemma fits_no_holes e : forall p c occ, fits e (fun _ => None) p c occ <-> occ = [] /\ same_syntax p c.
Proof.
  induction p as [i fs IH|id l IH|id k] using value_ind'; intros c occ; split.
  - intros H. inversion H as [? n' x' m' ? rm Hi Ho Hm| ? n' ? Hi Ho| | |? ? j gs ? Hi Et Hf]; subst; try discriminate Ho.
    assert (K : occ = [] /\ Forall2 (fun kv kw => fst kv = fst kw
                            /\ (name_context (n_type i) (fst kv) \/ same_syntax (snd kv) (snd kw))) fs gs).
    { clear H Et Hi. remember (n_type i) as ty. clear Heqty i. revert IH. 
      induction Hf as [ty|ty f x y fs gs os Hc Hf IHf|ty f x y fs gs o os Hc Hx Hf IHf]; intros IH; inversion IH as [|? ? I1 I2]; subst.
      - split; [reflexivity|constructor].
      - destruct (IHf I2) as [-> F]. split; [reflexivity|]. constructor; auto.
      - destruct (IHf I2) as [-> F]. apply I1 in Hx as [-> Hx]. split; [reflexivity|]. constructor; auto. }
    destruct K as [-> F]. split; [reflexivity|]. now apply SS_node.
  - intros [-> H]. inversion H as [| |? ? j gs Et F]; subst. apply F_node; auto.
    remember (n_type i) as ty. clear Heqty Et H. revert IH. induction F as [|[f x] [g y] fs gs [E Hxy] F IHF]; intros IH; [constructor|].
    inversion IH as [|? ? I1 I2]; subst. cbn [fst snd] in *. subst g.
    destruct (text_eqb_spec ty (TX "Name")) as [E1|E1]; [destruct (text_eqb_spec f (TX "ctx")) as [E2|E2]|].
    + apply FF_context; [now split|auto].
    + destruct Hxy as [[_ Hc]|Hxy]; [contradiction|]. apply (FF_cons e _ ty f x y fs gs [] []); auto; [now intros [_ Hc]|]. now apply I1.
    + destruct Hxy as [[Hc _]|Hxy]; [contradiction|]. apply (FF_cons e _ ty f x y fs gs [] []); auto; [now intros [Hc _]|]. now apply I1.
  - intros H. inversion H as [? n' x' m' ? rm Hi Ho Hm| ? n' ? Hi Ho| |? ? ? m ? Hf|]; subst; try discriminate Ho.
    assert (K : occ = [] /\ Forall2 same_syntax l m).
    { clear H. revert IH. induction Hf as [|x y l m o os Hx Hf IHf]; intros IH; inversion IH as [|? ? I1 I2]; subst; [split; [reflexivity|constructor]|].
      destruct (IHf I2) as [-> F]. apply I1 in Hx as [-> Hx]. split; [reflexivity|]. constructor; auto. }
    destruct K as [-> F]. split; [reflexivity|]. now apply SS_list.
  - intros [-> H]. inversion H as [|? ? ? m F|]; subst. apply F_list. clear H. revert IH. induction F as [|x y l m Hxy F IHF]; intros IH; [constructor|].
    inversion IH as [|? ? I1 I2]; subst. apply (FI_cons e _ x y l m [] []); auto. now apply I1.
  - intros H. inversion H as [? n' x' m' ? rm Hi Ho Hm| ? n' ? Hi Ho| | |]; subst; try discriminate Ho. split; [reflexivity|]. now apply SS_const.
  - intros [-> H]. inversion H; subst. now apply F_const.
Qed.
Theorem literal_matches e G p c s :
  proper G -> conforms G p -> conforms G c -> is_node p = true ->
  (same_syntax p c /\ eval e (rebound (ast_matchers_matcher p)) c s
                      = (s, Ok (Some (RInfo (create_match (e_parsed e) c) (Some []) []))))
  \/ (~ same_syntax p c /\ eval e (rebound (ast_matchers_matcher p)) c s = (s, Ok None)).
Proof.
  intros HG Cp Cc Np.
  assert (R : runs_as (fun _ => False) (eval e (ast_pattern [] p) c) (fits e (fun _ => None) p c)).
  { apply (pattern_run e (fun _ => False)) with (G := G) (tame := fun _ => True); auto; try discriminate; try contradiction.
    destruct p; try discriminate Np. discriminate. }
  unfold ast_matchers_matcher. cbn [rebound eval]. unfold mbind.
  destruct (ra_run _ _ _ R s) as [(rm & occ & b & E & HF & S & A)|[E N]]; rewrite E.
  - left. apply fits_no_holes in HF as [-> HF]. split; [exact HF|]. cbn [r_bindings r_match r_reps bind not_none lift ret].
    assert (b = []) as ->.
    { destruct S as [_ S]. destruct b as [|[k v] b]; [reflexivity|]. specialize (S k). cbn in S. destruct (text_eqb_spec k k); [discriminate S|congruence]. }
    destruct p as [i fs| |]; try discriminate Np.
    rewrite (pattern_match e (fun _ => None) [] i fs c s s rm (Some []) []); auto. discriminate.
  - right. split; [|reflexivity]. intros H. apply (N []); [now apply fits_no_holes|constructor].
Qed.
