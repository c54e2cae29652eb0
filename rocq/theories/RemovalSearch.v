(** The Python searcher as a whole: proofs. *)
From Verif Require Import Py PyFacts Subst Fmt ApplySpec SubstSpec ApplyProofs Ast Template FromDiff Matcher MatchSpec MergeSpec MergeProofs MatcherProofs
  OwnSpec OwnProofs FindSpec FindProofs NavSpec NavProofs Search SearchSpec RewriteProofs Removal RemovalSpec RemovalProofs RemovalApi.

Section Keys.
  Context (pass_template : template) (tree : value) (tokens : list token).

  Lemma sanitize_one_some o t st m' t' st' : sanitize_one pass_template tree tokens o t st = Ok (m', t', st') ->
    forall m, m' = Some m -> exists m0, o = Some m0.
  Proof.
    unfold sanitize_one. destruct (removes_stmt o t) as [[[[[[v txt] f] l] a] b]|] eqn:E.
    - intros _ m _. unfold removes_stmt in E. destruct o as [p|]; [now exists p|discriminate E].
    - intros [= <- _ _] m ->. now exists m.
  Qed.
  Lemma sanitize_keys todo : forall ms done st ms' ts' st',
    sanitize pass_template tree tokens ms todo done st = Ok (ms', ts', st') ->
    dkeys ms' = dkeys ms /\ dkeys ts' = dkeys done ++ dkeys todo.
  Proof.
    induction todo as [|[x t] todo IH]; intros ms done st ms' ts' st' H; cbn [sanitize] in H.
    - injection H as <- <- _. split; [reflexivity|]. change (dkeys done = dkeys done ++ []). now rewrite app_nil_r.
    - destruct (sanitize_one _ _ _ _ _ _) as [[[m1 t1] st1]|] eqn:E; [|discriminate H]. cbn [bind] in H.
      apply IH in H as [H1 H2]. split.
      + rewrite H1. destruct m1 as [m1|]; [|reflexivity]. destruct (sanitize_one_some _ _ _ _ _ _ E m1 eq_refl) as [m0 E0].
        rewrite dkeys_dset. assert (G : tmem x (dkeys ms) = true) by (apply tmem_In; eapply dget_Some_keys; exact E0). now rewrite G.
      + rewrite H2. unfold dkeys. rewrite map_app. cbn [map fst]. now rewrite <- app_assoc.
  Qed.
  Lemma sanitize_all_dicts results : forall st outs, Forall result_ok results ->
    sanitize_all pass_template tree tokens results st = Ok outs ->
    Forall (fun mt : dict pymatch * dict template => dict_ok (fst mt) /\ dict_ok (snd mt)) outs.
  Proof.
    induction results as [|r results IH]; intros st outs HF H; cbn [sanitize_all] in H.
    - injection H as <-. constructor.
    - inversion HF as [|? ? [Hr1 Hr2] HF']; subst. apply bind_Ok in H as (ob & H1 & H). apply bind_Ok in H as (b & H2 & H).
      apply bind_Ok in H as (reps & H3 & H). apply bind_Ok in H as ([[ms ts] st'] & H4 & H). apply bind_Ok in H as (outs' & H5 & H).
      injection H as <-. apply not_none_Ok in H2. subst ob. apply sanitize_keys in H4 as [K1 K2]. constructor; [|eapply IH; eassumption].
      cbn [fst snd]. unfold dict_ok. rewrite K1, K2. cbn [dkeys app]. split; [|now apply Hr2].
      unfold dkeys. rewrite map_map. cbn [fst]. apply Hr1. assumption.
  Qed.
End Keys.

Section Searcher.
  Context (parse_ast : text -> text -> res parsed_file) (context : parsed_file -> pyinfo -> env) (pass_template : template).

  Lemma find_iter_results e m out : dicts_ok m -> matcher_find_iter e m = Ok out -> Forall result_ok (map snd out).
  Proof.
    intros Hm H. apply find_iter_found in H as (hs & Hf & ->). rewrite map_map. cbn [snd]. apply Forall_forall. intros r Hin.
    apply in_map_iff in Hin as (h & <- & Hin). apply in_split in Hin as (h1 & h2 & ->).
    destruct (fd_match _ _ _ Hf h1 h h2 eq_refl) as [_ Ha]. unfold attempt in Ha. destruct (admits _ _); [|discriminate Ha].
    eapply results_are_dicts; [exact Hm | exact Ha].
  Qed.
  Theorem searcher_finds m parsed subs : dicts_ok m ->
    s_find (python_searcher parse_ast context pass_template m) parsed = Ok subs ->
    exists info outs, pf_py parsed = Some info /\ find_dicts context pass_template m parsed = Ok outs
      /\ described parsed (key_span_for_dict (py_tree info)) outs subs.
  Proof.
    intros Hm H. cbn [s_find python_searcher] in H. apply bind_Ok in H as (outs & H1 & H2).
    unfold find_dicts in *. destruct (pf_py parsed) as [info|] eqn:E; [|discriminate H1]. exists info, outs.
    split; [reflexivity|]. split; [exact H1|]. apply rewriting_find_ok; [|exact H2].
    apply bind_Ok in H1 as (out & H1 & H3). eapply sanitize_all_dicts; [|exact H3]. eapply find_iter_results; eassumption.
  Qed.
End Searcher.

(** *** Replacing by nothing *)
Lemma all_described parsed key outs subs : described parsed key outs subs ->
  (forall mt l e, In mt outs -> ~ fills parsed (fst mt) (snd mt) l (Err e)) ->
  Forall2 (fun mt s => describes parsed key (fst mt) (snd mt) s /\ validate s = Ok tt) outs subs.
Proof.
  induction 1 as [|ms ts rest out (l & Hl) H IH|ms ts rest s out Hn Hd Hv H IH]; intros HN.
  - constructor.
  - exfalso. eapply (HN (ms, ts)); [now left | exact Hl].
  - constructor; [now split|]. apply IH. intros mt l e Hin. apply HN. now right.
Qed.
Lemma dict_ok_In {V} (d : dict V) k v : dict_ok d -> In (k, v) d <-> dget d k = Some v.
Proof. intros H. split; [now apply In_dget | apply dget_In]. Qed.

Lemma Forall2_weaken {A B} (R S : A -> B -> Prop) l l' : (forall x y, R x y -> S x y) -> Forall2 R l l' -> Forall2 S l l'.
Proof. intros H. induction 1; constructor; auto. Qed.
Lemma Forall2_in {A B} (R : A -> B -> Prop) l l' : Forall2 R l l' -> Forall2 (fun x y => In x l /\ In y l' /\ R x y) l l'.
Proof.
  induction 1 as [|x y l l' H HF IH]; constructor; [repeat split; [now left|now left|assumption]|].
  eapply Forall2_weaken; [|exact IH]. cbn. tauto.
Qed.
Lemma Forall2_through {A B C} (R : A -> B -> Prop) (S : B -> C -> Prop) (T : A -> C -> Prop) a b :
  (forall x y z, R x y -> S y z -> T x z) -> Forall2 R a b -> forall c, Forall2 S b c -> Forall2 T a c.
Proof.
  intros H. induction 1 as [|x y a b Hxy HF IH]; intros c Hc; inversion Hc; subst; constructor; [eapply H; eassumption | now apply IH].
Qed.

Section Delete.
  Context (parse_ast : text -> text -> res parsed_file) (context : parsed_file -> pyinfo -> env) (pass_template : template).
  Context (m : matcher) (t : template) (parsed : parsed_file) (info : pyinfo).
  Hypothesis Hinfo : pf_py parsed = Some info.
  Let e := context parsed info.
  Hypothesis Hun : unshared (e_tree e).
  Hypothesis Hroot : is_node (e_tree e) = true.
  Hypothesis Hown : own_head m = true.
  Hypothesis Hnt : no_templates m = true.
  Hypothesis Hrf : rewrite_free m = true.
  Hypothesis Hdo : dicts_ok m.
  Hypothesis Hvar : ~ In ROOT_LABEL (bind_variables m).
  Hypothesis Ht : t_template t = [].
  Hypothesis Htext : always_gives parsed t [].
  Hypothesis Hpass : always_gives parsed pass_template (TX "pass").

  Let m' := MWithReplacements (MBind ROOT_LABEL m None None) [(ROOT_LABEL, t)].

  Lemma deletes_or h hs : found e m' hs -> In h hs -> deletes h \/ ~ deletes h.
  Proof.
    intros Hf Hin. apply in_split in Hin as (h1 & h2 & ->). destruct (fd_match _ _ _ Hf h1 h h2 eq_refl) as [_ Ha].
    apply (hit_dicts e m t Hown Hnt Hrf Hdo Hvar) in Ha as (_ & rm & Hm & _ & Hc).
    destruct (is_stmt (h_value h)) eqn:Es; [|right; intros [G _]; congruence].
    destruct Hc as [Hc|[Hc|[s Hc]]].
    - unfold create_match in Hc. destruct (lexical_tokens _) as [[f0 l0]|].
      + left. split; [assumption|]. subst rm. eauto 6.
      + right. intros (_ & txt & f & l & a & b & G). rewrite G in Hm. injection Hm as <-.
        destruct (h_value h) as [| |? []]; discriminate Hc.
    - right. intros (_ & txt & f & l & a & b & G). rewrite G in Hm. injection Hm as <-. discriminate Hc.
    - right. intros (_ & txt & f & l & a & b & G). rewrite G in Hm. injection Hm as <-. discriminate Hc.
  Qed.
  Lemma deletion_template hs h m0 t' : deletes h \/ ~ deletes h ->
    deletion pass_template (e_tree e) (e_tokens e) t hs h m0 t' -> t' = t \/ t' = pass_template.
  Proof.
    intros [D|D] [D1 D2]; [|left; now apply D1]. destruct D as (Hs & txt & f & l & a & b & Hr).
    destruct (D2 _ _ _ _ _ Hs Hr) as (q & i & stmts & mo & f' & l' & a' & b' & pass & _ & _ & _ & _ & -> & _).
    destruct pass; [now right | now left].
  Qed.

  Lemma deletion_about hs h m0 t' : found e m' hs -> In h hs -> is_expr (h_value h) = false ->
    deletion pass_template (e_tree e) (e_tokens e) t hs h m0 t' -> forall v tx f l a b, m0 = PLex v tx f l a b -> is_expr v = false.
  Proof.
    intros Hf Hin He D v tx f l a b ->. destruct (deletes_or h hs Hf Hin) as [H|H].
    - destruct D as [_ D]. destruct H as (Hs & txt & f0 & l0 & a0 & b0 & Hr).
      destruct (D _ _ _ _ _ Hs Hr) as (q & i & stmts & mo & f' & l' & a' & b' & pass & _ & _ & _ & [= -> _ _ _ _ _] & _). exact He.
    - destruct D as [D _]. destruct (D H) as [D' _].
      apply in_split in Hin as (h1 & h2 & ->). destruct (fd_match _ _ _ Hf h1 h h2 eq_refl) as [_ Ha].
      apply (hit_dicts e m t Hown Hnt Hrf Hdo Hvar) in Ha as (_ & rm & Hm & _ & Hc). rewrite D' in Hm. injection Hm as <-.
      destruct Hc as [Hc|[Hc|[s Hc]]]; try discriminate Hc.
      unfold create_match in Hc. destruct (lexical_tokens _) as [[f1 l1]|]; [|destruct (h_value h) as [| |? []]; discriminate Hc].
      now injection Hc as ->.
  Qed.

  Theorem delete_finds subs :
    s_find (python_searcher parse_ast context pass_template m') parsed = Ok subs ->
    exists hs, found e m' hs
      /\ ((forall h, In h hs -> is_expr (h_value h) = false) -> Forall2 (deletion_sub (e_tree e) (e_tokens e) hs) hs subs).
  Proof.
    intros H. assert (Hdo' : dicts_ok m').
    { cbn. split; [|assumption]. repeat constructor. intros []. }
    apply searcher_finds in H as (info' & outs & Hi & Ho & Hd); [|assumption]. rewrite Hinfo in Hi. injection Hi as <-.
    pose proof Ho as Ho'. unfold find_dicts in Ho. rewrite Hinfo in Ho. apply bind_Ok in Ho as (out & H1 & H2).
    assert (Houts : Forall (fun mt : dict pymatch * dict template => dict_ok (fst mt) /\ dict_ok (snd mt)) outs).
    { eapply sanitize_all_dicts; [|exact H2]. eapply find_iter_results; eassumption. }
    rewrite Forall_forall in Houts.
    apply (delete_matches e m t Hun Hroot Hown Hnt Hrf Hdo Hvar Ht _ _ _ H1) in H2 as (hs & Hf & -> & HF).
    exists hs. split; [exact Hf|]. intros Hne.
    assert (HF' : Forall2 (fun h (mt : dict pymatch * dict template) => In mt outs /\ exists m0 t', dget (fst mt) ROOT_LABEL = Some m0 /\ snd mt = [(ROOT_LABEL, t')]
        /\ (t' = t \/ t' = pass_template) /\ (forall v tx f l a b, m0 = PLex v tx f l a b -> is_expr v = false)
        /\ deletion pass_template (e_tree e) (e_tokens e) t hs h m0 t') hs outs).
    { eapply Forall2_weaken; [|apply Forall2_in; exact HF]. intros h mt (Hin & Hin' & m0 & t' & E1 & E2 & _ & D).
      split; [exact Hin'|]. exists m0, t'. split; [assumption|]. split; [assumption|].
      split; [eapply deletion_template; [eapply deletes_or; eassumption | exact D]|].
      split; [|exact D]. eapply deletion_about; try eassumption. now apply Hne. }
    clear HF. apply all_described in Hd.
    2:{ intros [ms ts] l ex Hin (tm & Hin' & Hfill). cbn [fst snd] in *. destruct (Houts _ Hin) as [Hk1 _]. cbn [fst] in Hk1.
        assert (G : exists m0 t', dget ms ROOT_LABEL = Some m0 /\ ts = [(ROOT_LABEL, t')] /\ (t' = t \/ t' = pass_template)
                     /\ (forall v tx f l a b, m0 = PLex v tx f l a b -> is_expr v = false)).
        { clear - HF' Hin. revert Hin HF'. generalize outs at 1 3. intros l0 Hin HF'.
          induction HF' as [|h [ms0 ts0] hs' outs' (_ & m0 & t' & E1 & E2 & G & G2 & _) _ IH]; [destruct Hin|].
          destruct Hin as [[= -> ->]|Hin]; [|now apply IH]. exists m0, t'. now repeat split. }
        destruct G as (m0 & t' & E1 & -> & G & G2). destruct Hin' as [[= <- <-]|[]].
        destruct Hfill as [(rm & Hrm & _ & G1)|(G1 & _ & _)].
        - apply (dict_ok_In _ _ _ Hk1) in Hrm. rewrite E1 in Hrm. injection Hrm as <-.
          destruct G as [->| ->]; [rewrite Htext in G1 | rewrite Hpass in G1]; assumption || discriminate G1.
        - apply dget_In in E1. eapply G1. exact E1. }
    apply Forall2_in in Hd. eapply Forall2_through; [|exact HF'|exact Hd].
    intros h [ms ts] s (_ & m0 & t' & E1 & E2 & Ht' & Hm0 & D1 & D2) (Hmt & _ & Hs & _).
    destruct (Houts _ Hmt) as [Hk1 Hk2]. cbn [fst snd] in *. subst ts.
    intros txt f la a b Hst Hr.
    destruct (D2 _ _ _ _ _ Hst Hr) as (q & i & stmts & mo & f' & l' & a' & b' & pass & G1 & G2 & G3 & G4 & G5 & G6).
    exists q, i, stmts, mo, (lex_span f' l' a' b'), pass. repeat (split; [assumption|]). intros Hsp.
    assert (Z : t_substitute t' parsed m0 ms = Ok (if pass then TX "pass" else [])).
    { subst t'. destruct pass; [now rewrite Hpass | now rewrite Htext]. }
    destruct Hs as (S1 & S2 & (r & S3 & S4) & _). split.
    - intros sp'. rewrite (S1 (TX "__root") sp'). unfold located_at. split.
      + intros (rm & Hrm & Hsp' & _). change (TX "__root") with ROOT_LABEL in Hrm. apply (dict_ok_In _ _ _ Hk1) in Hrm. rewrite E1 in Hrm. injection Hrm as <-.
        subst m0. cbn in Hsp'. now injection Hsp'.
      + intros ->. exists m0. split; [now apply dget_In in E1|]. subst m0. now split.
    - exists r. split; [exact S3|]. intros x y. rewrite S4. unfold fills. split.
      + intros [(tm & [[= <- <-]|[]] & HH) _]. split; [reflexivity|].
        destruct HH as [(rm & Hrm & _ & HH)|(HH & _ & _)].
        * apply (dict_ok_In _ _ _ Hk1) in Hrm. rewrite E1 in Hrm. injection Hrm as <-. rewrite Z in HH. now injection HH.
        * exfalso. apply dget_In in E1. eapply HH. exact E1.
      + intros [-> ->]. split.
        * exists t'. split; [now left|]. left. exists m0. split; [now apply dget_In in E1|]. split; [exists (lex_span f' l' a' b'); subst m0; now split|].
          now rewrite Z.
        * cbn. intros G. repeat (destruct G as [G|G]; [discriminate G|]). destruct G.
  Qed.
End Delete.

(** *** The key span *)
Theorem key_span_ok tree ms p v txt f l a b before body rest : unshared tree -> climbable tree p v ->
  dget ms ROOT_LABEL = Some (PLex v txt f l a b) ->
  v :: ancestors tree p = before ++ body :: rest ->
  Forall (fun y => has_field y (TX "body") = false) before -> has_field body (TX "body") = true ->
  key_span_for_dict tree ms =
    match outermost before with
    | None => Ok None
    | Some n => do f' <- first_token n; do l' <- last_token n; Ok (Some (tk_start f', tk_end l'))
    end.
Proof.
  intros U C E1 E2 H1 H2. unfold key_span_for_dict. rewrite E1.
  now rewrite (simple_node tree p v before body rest U C E2 H1 H2).
Qed.

(** *** Files that are no Python *)
Theorem python_parse_fails parse_ast data path :
  (parse_ast data path = Err ParseError -> python_parse parse_ast data path = Err SkipFileError)
  /\ (parse_ast data path <> Err ParseError -> python_parse parse_ast data path = parse_ast data path).
Proof.
  unfold python_parse. split; [now intros ->|]. destruct (parse_ast data path) as [|[]]; congruence.
Qed.
