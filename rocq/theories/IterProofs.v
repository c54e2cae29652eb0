(** Proofs for C80: fixed-point iteration is a sequence of rounds. *)
From Verif Require Import MatcherProofs Py PyFacts Subst Fmt ApplySpec ApplyProofs Ast Template Search SearchSpec SearchProofs SubstSpec IterSpec.
From Coq Require Import Permutation.

Lemma slice_from_slice (s : text) a b q : 0 <= a -> 0 <= q -> a + q <= b -> slice_from (slice s a b) q = slice s (a + q) b.
Proof.
  intros Ha Hq Hb. unfold slice_from. rewrite <- (slice_clamp (slice s a b) q (b - a)).
  - rewrite slice_slice by lia. f_equal. lia.
  - exact Hq.
  - destruct (Z.le_gt_cases b (tlen s)); [rewrite slice_len; lia|].
    rewrite slice_clamp by lia. destruct (Z.le_gt_cases a (tlen s)); [rewrite slice_len; lia|].
    rewrite slice_past by (pose proof (tlen_nonneg s); lia). cbn. lia.
Qed.
Lemma edited_earlier s b es out p : 0 <= p -> p <= b -> Edited s b es out -> Edited s p es (slice s p b ++ out).
Proof.
  intros H0 Hp H. destruct H as [q Hq|q t x y es out Hq Hx Hxy H].
  - replace (slice s p q ++ slice_from s q) with (slice_from s p); [now constructor|]. unfold slice_from.
    destruct (Z.le_gt_cases q (tlen s)).
    + now rewrite slice_app by lia.
    + rewrite (slice_past s q) by (pose proof (tlen_nonneg s); lia). rewrite app_nil_r. symmetry. apply slice_clamp; lia.
  - rewrite app_assoc, slice_app by lia. constructor; auto; lia.
Qed.
Definition unshift (a : Z) (e : edit) : edit := let '(t, x, y) := e in (t, x + a, y + a).
(** Edits of a part, made in the whole text. *)
Lemma edited_part s a b q sub t es out : 0 <= a -> Forall (fun e => edit_end e <= b - a) sub -> a + q <= b ->
  Edited (slice s a b) q sub t -> Edited s b es out -> Edited s (a + q) (map (unshift a) sub ++ es) (t ++ out).
Proof.
  intros Ha Hs Hq H HE. revert Hs Hq. induction H as [q Hq0|q t x y sub out' Hq0 Hx Hxy H IH]; intros Hs Hq.
  - cbn [map app]. rewrite slice_from_slice by lia. apply edited_earlier; [lia|lia|exact HE].
  - inversion Hs as [|? ? Hy Hs']; subst. cbn [edit_end] in Hy. cbn [map unshift app].
    rewrite slice_slice by lia. rewrite <- !app_assoc. replace (a + x) with (x + a) by lia. constructor; try lia.
    replace (y + a) with (a + y) by lia. apply IH; [exact Hs'|lia].
Qed.
Section Rounds.
  Variable ok : text -> edit -> Prop.
  Notation better := (improves ok).
  (** An edit that is made in several rounds. *)
  Definition first_edit (s : text) (e e' : edit) : Prop :=
    let '(t, a, b) := e in let '(t', a', b') := e' in a' = a /\ b' = b /\ better t' t.
  Lemma edited_first s p es out : Edited s p es out -> forall es', Forall2 (first_edit s) es es' ->
    exists out', Edited s p es' out' /\ better out' out.
  Proof.
    induction 1 as [p Hp|p t a b es out Hp Ha Hab H IH]; intros es' HF; inversion HF as [|? [[t' a'] b'] ? es2 Hf HF']; subst.
    - eexists. split; [now constructor|constructor].
    - destruct Hf as (-> & -> & Hb). destruct (IH es2 HF') as (o & Ho & Bo). exists (slice s p a ++ t' ++ o). split; [now constructor|].
      apply Imp_then with (slice s p a ++ t ++ o); [now apply Imp_part|].
      pose proof (Imp_part ok (slice s p a ++ t) _ _ [] Bo) as K. rewrite !app_nil_r, <- !app_assoc in K. exact K.
  Qed.
  (** An edit that is itself made by edits of the part that it replaces. *)
  Definition made_of (s : text) (e : edit) (sub : list edit) : Prop :=
    sub = [e] \/ let '(t, a, b) := e in exists ed, 0 <= a /\ Forall (fun x => edit_end x <= b - a) ed /\ Edited (slice s a b) 0 ed t /\ sub = map (unshift a) ed.
  Lemma edited_made s p es out : Edited s p es out -> forall subs, Forall2 (made_of s) es subs -> Edited s p (concat subs) out.
  Proof.
    induction 1 as [p Hp|p t a b es out Hp Ha Hab H IH]; intros subs HF; inversion HF as [|? sub ? subs2 Hf HF']; subst; cbn [concat].
    - now constructor.
    - specialize (IH subs2 HF'). destruct Hf as [->|(ed & H0 & H1 & H2 & ->)].
      + cbn [app]. now constructor.
      + pose proof (edited_part s a b 0 ed t _ _ H0 H1 ltac:(lia) H2 IH) as K. rewrite Z.add_0_r in K. now apply edited_earlier with (p := p) in K.
  Qed.
  Variable parse_ast : text -> text -> res parsed_file.
  Variable s : searcher.
  Variable path : text.
  (** What is found is well-formed and justified. *)
  Definition justified : Prop := forall t parsed subs, s_parse s t path = Ok parsed \/ parse_ast t path = Ok parsed -> s_find s parsed = Ok subs ->
    pf_text parsed = t /\ pf_path parsed = path /\ Forall wf_sub subs
    /\ (forall x a b, In x subs -> key_span x = Some (a, b) -> 0 <= a)
    /\ forall x e, In x subs -> In e (edits_of x) -> 0 <= edit_start e /\ ok t e.
  Hypothesis J : justified.
  Lemma start_is (e : edit) : edit_start e = snd (fst e).
  Proof. now destruct e as [[t a] b]. Qed.
  Lemma round_improves t parsed subs t' : s_parse s t path = Ok parsed \/ parse_ast t path = Ok parsed -> s_find s parsed = Ok subs ->
    apply_substitutions t subs = Ok t' -> better t t'.
  Proof.
    intros Hp Hf Ha. destruct (J _ _ _ Hp Hf) as (_ & _ & W & _ & K).
    destruct (apply_edits_of t subs t' W) as (es & P & E); [|exact Ha|].
    - apply Forall_forall. intros x Hx e He. rewrite <- start_is. now apply (K x e).
    - apply (Imp_round ok t es t' E). apply Forall_forall. intros e He. apply (Permutation_in _ P) in He. apply in_flat_map in He as (x & Hx & He). now apply (K x e).
  Qed.
  Lemma run_improves t subs batches t' pending : SearchSpec.run parse_ast s path t subs batches t' pending ->
    (exists parsed, parse_ast t path = Ok parsed /\ s_find s parsed = Ok subs) -> better t t'.
  Proof.
    induction 1 as [t subs|t subs t1 subs1 batches t' pending St Hn HR IH]; [constructor|].
    intros (parsed & Hp & Hf). destruct St as [Ea K]. apply Imp_then with t1; [|now apply IH].
    eapply round_improves; [right; exact Hp|exact Hf|exact Ea].
  Qed.
  Lemma dict_ok_shift a (d : dict span) : dict_ok d -> dict_ok (map (fun kv : label * span => let '(l, (x, y)) := kv in (l, (x - a, y - a))) d).
  Proof.
    unfold dict_ok, dkeys. rewrite map_map. intros H. erewrite map_ext; [exact H|]. now intros [l [x y]].
  Qed.
  (** What comes out of one group. *)
  Lemma group_made data parsed n g o : pf_text parsed = data -> pf_path parsed = path -> incl (snd g) (snd g) ->
    Forall wf_sub (snd g) -> (forall x e, In x (snd g) -> In e (edits_of x) -> 0 <= edit_start e /\ ok data e) ->
    snd g <> [] -> (forall a b, fst g = Some (a, b) -> 0 <= a) ->
    process_group parse_ast s parsed n g = Ok o ->
    Forall wf_sub o /\ forall e, In e (flat_map edits_of o) -> 0 <= edit_start e
      /\ exists e' sub, first_edit data e e' /\ made_of data e' sub /\ Forall (ok data) sub.
  Proof.
    intros Ed Ep _ W K Hne Hk H. assert (Same : o = snd g -> Forall wf_sub o /\ forall e, In e (flat_map edits_of o) -> 0 <= edit_start e
      /\ exists e' sub, first_edit data e e' /\ made_of data e' sub /\ Forall (ok data) sub).
    { intros ->. split; [exact W|]. intros [[t x] y] He. apply in_flat_map in He as (sb & Hs & He). destruct (K _ _ Hs He) as [K1 K2]. split; [exact K1|].
      exists (t, x, y), [(t, x, y)]. split; [repeat split; constructor|]. split; [now left|]. constructor; [exact K2|constructor]. }
    unfold process_group in H. destruct g as [[ [a b]|] initial]; cbn [fst snd] in *; [|injection H as <-; now apply Same].
    specialize (Hk a b eq_refl).
    assert (V : Forall (fun x => validate x = Ok tt) initial) by (eapply Forall_impl; [|exact W]; now intros x (_ & _ & Hv)).
    destruct (Z.le_gt_cases n 1) as [Hn|Hn].
    { rewrite (fixed_point_same parse_ast s parsed initial a b n V (or_introl Hn)) in H. injection H as <-. now apply Same. }
    destruct (all_some_rel a b initial V) as (rel & Er & [(Hi & _)|(_ & En)]).
    2:{ unfold fixed_point in H. replace (n <=? 1) with false in H by lia. rewrite Er in H. cbn [bind] in H. rewrite En in H. injection H as <-. now apply Same. }
    destruct (fixed_point_spec parse_ast s parsed initial a b n Hne V ltac:(lia) Hi) as (rels & Hsh & HS). rewrite H in HS.
    destruct HS as (batches & t & pending & HR & _ & _ & HO). rewrite Ed, Ep in HR.
    destruct batches as [|b0 [|b1 bs] ]; cbn [fp_result] in HO.
    - subst o. split; [constructor|]. intros e [].
    - now apply Same.
    - destruct HO as (m & Hm & ->). destruct (compile_eq (concat (b0 :: b1 :: bs)) a b t) as (m' & E & M1 & M2 & M3 & M4). rewrite Hm in E. injection E as <-.
      assert (Ee : edits_of m = [(t, a, b)]). { unfold edits_of. rewrite M1, M3. reflexivity. }
      split.
      + constructor; [|constructor]. split; [rewrite M1; repeat constructor; intros []|]. split; [intros r Hr; rewrite M3 in Hr; injection Hr as <-; repeat constructor; intros []|].
        unfold compile_substitutions in Hm. match type of Hm with context [let '(_, _) := ?p in _] => destruct p as [[h u] ms] end.
        unfold make_sub in Hm. match type of Hm with context [validate ?z] => destruct (validate z) as [[]|] eqn:Ev end; cbn [bind] in Hm; [injection Hm as <-; exact Ev|discriminate Hm].
      + cbn [flat_map]. rewrite Ee. cbn [app]. intros e [<-|[]]. split; [exact Hk|].
        inversion HR as [|? ? t1 subs1 ? ? ? St Hn1 HR']; subst. destruct St as [Ea Kp].
        assert (Wr : Forall wf_sub b0 /\ Forall nonneg_edits b0 /\ forall e, In e (flat_map edits_of b0) -> edit_end e <= b - a /\ ok (pf_text parsed) (unshift a e)).
        { clear - Hsh W K Hi. revert W K Hi. induction Hsh as [|x r xs rs Hx HF IH]; intros W K Hi; [repeat split; try constructor; destruct H|].
          inversion W as [|? ? W1 W2]; subst. inversion Hi as [|? ? I1 I2]; subst. destruct IH as (R1 & R2 & R3); [exact W2|intros y e Hy; apply K; now right|exact I2|].
          pose proof (shifted_edits a x r Hx) as SE.
          assert (S1 : forall e, In e (edits_of r) -> 0 <= snd (fst e) /\ edit_end e <= b - a /\ ok (pf_text parsed) (unshift a e)).
          { intros e He. rewrite SE in He. apply in_map_iff in He as ([[t x0] y0] & <- & He). destruct (K x _ (or_introl eq_refl) He) as [_ K2].
            assert (L : exists l, In (l, (x0, y0)) (matched_spans x)).
            { unfold edits_of in He. apply in_flat_map in He as ([l [u v]] & Hl & He). destruct (replacements x) as [rr|]; [|destruct He]. destruct (dget rr l); [|destruct He].
              destruct He as [[= -> -> ->]|[]]. eauto. }
            destruct L as (l & Hl). destruct (I1 _ _ Hl) as [L1 L2]. cbn [fst snd] in L1, L2. unfold shift_edit. cbn [fst snd edit_end unshift].
            replace (x0 - a + a) with x0 by lia. replace (y0 - a + a) with y0 by lia. repeat split; auto; lia. }
          split; [|split].
          - constructor; [|exact R1]. destruct W1 as (D1 & D2 & D3). destruct Hx as (X1 & X2 & X3 & X4) eqn:EX. split; [rewrite X1; now apply dict_ok_shift|].
            split; [rewrite X3; exact D2|]. rewrite (shifted_validate a x r Hx). exact D3.
          - constructor; [|exact R2]. intros e He. now apply S1.
          - intros e He. cbn [flat_map] in He. apply in_app_or in He as [He|He]; [split; apply S1; exact He|now apply R3]. }
        destruct Wr as (R1 & R2 & R3). destruct (apply_edits_of _ _ _ R1 R2 Ea) as (ed & P & Ed1).
        assert (R4 : forall e, In e ed -> edit_end e <= b - a /\ ok (pf_text parsed) (unshift a e)) by (intros e He; apply R3; now apply (Permutation_in _ P)).
        exists (t1, a, b), (map (unshift a) ed). split; [|split].
        * split; [reflexivity|]. split; [reflexivity|]. eapply run_improves; [exact HR'|exact Kp].
        * right. exists ed. split; [exact Hk|]. split; [apply Forall_forall; intros e He; now apply R4|]. split; [exact Ed1|reflexivity].
        * apply Forall_forall. intros e He. apply in_map_iff in He as (e0 & <- & He). now apply R4.
  Qed.
  Lemma rewrite_improves data n out : rewrite_string parse_ast s data path n = Ok out -> better data out.
  Proof.
    intros H. unfold rewrite_string in H. apply bind_Ok in H as (subs & H1 & H2). apply find_iter_ok in H1 as (parsed & found & outs & _ & Hp & Hf & HO & ->).
    destruct (J _ _ _ (or_introl Hp) Hf) as (Ed & Ep & W & Hkey & K). pose proof (group_by_key_spec found) as G.
    assert (X : forall g o, In (g, o) (combine (group_by_key found) outs) -> process_group parse_ast s parsed n g = Ok o ->
       Forall wf_sub o /\ forall e, In e (flat_map edits_of o) -> 0 <= edit_start e /\ exists e' sub, first_edit data e e' /\ made_of data e' sub /\ Forall (ok data) sub).
    { intros [k g] o Hin Hg. apply in_combine_l in Hin. pose proof (grouped_incl _ _ _ _ G Hin) as I. eapply group_made; [exact Ed|exact Ep|apply incl_refl| | | | |exact Hg]; cbn [fst snd].
      - apply Forall_forall. intros x Hx. rewrite Forall_forall in W. auto.
      - intros x e Hx He. apply (K x e); auto.
      - clear -G Hin. induction G as [|k0 g0 rest gs Hne HF HG IH Hd]; [destruct Hin|]. destruct Hin as [[= -> ->]|Hin]; auto.
      - intros a b ->. assert (exists x, In x g /\ key_span x = Some (a, b)) as (x & Hx & Hkx).
        { clear -G Hin. induction G as [|k0 g0 rest gs Hne HF HG IH Hd]; [destruct Hin|]. destruct Hin as [[= -> ->]|Hin]; [|auto].
          destruct g as [|x g]; [congruence|]. exists x. split; [now left|]. now inversion HF. }
        eapply Hkey; eauto. }
    assert (Y : Forall wf_sub (concat outs) /\ forall e, In e (flat_map edits_of (concat outs)) -> 0 <= edit_start e /\ exists e' sub, first_edit data e e' /\ made_of data e' sub /\ Forall (ok data) sub).
    { clear - HO X. induction HO as [|g o gs outs Hg HO IH]; [split; [constructor|intros e []] |]. cbn [concat]. destruct IH as [I1 I2]; [intros; eapply X; [right; eassumption|assumption]|].
      destruct (X g o (or_introl eq_refl) Hg) as [X1 X2]. split; [now apply Forall_app|]. intros e He. rewrite flat_map_app in He. apply in_app_or in He as [He|He]; auto. }
    destruct Y as [Y1 Y2]. destruct (apply_edits_of data _ out Y1) as (es & P & E); [|exact H2|].
    { apply Forall_forall. intros x Hx e He. rewrite <- start_is. apply Y2. apply in_flat_map. eauto. }
    assert (Z : exists es' subs', Forall2 (first_edit data) es es' /\ Forall2 (made_of data) es' subs' /\ Forall (ok data) (concat subs')).
    { assert (Z0 : forall e, In e es -> exists e' sub, first_edit data e e' /\ made_of data e' sub /\ Forall (ok data) sub) by (intros e He; apply Y2; now apply (Permutation_in _ P)).
      clear - Z0. induction es as [|e es IH]; [exists [], []; repeat constructor|]. destruct (Z0 e (or_introl eq_refl)) as (e' & sub & A1 & A2 & A3).
      destruct IH as (es' & subs' & B1 & B2 & B3); [intros; apply Z0; now right|]. exists (e' :: es'), (sub :: subs'). split; [now constructor|]. split; [now constructor|]. cbn [concat]. now apply Forall_app. }
    destruct Z as (es' & subs' & Z1 & Z2 & Z3). destruct (edited_first _ _ _ _ E _ Z1) as (out1 & E1 & B1).
    apply Imp_then with out1; [|exact B1]. apply (Imp_round ok data (concat subs') out1); [exact (edited_made _ _ _ _ E1 _ Z2)|exact Z3].
  Qed.
End Rounds.
