From Verif Require Import Py PyFacts Ast Eval EvalSpec.

Lemma pexpr_ind' (P : pexpr -> Prop) :
  (forall c, P (EConst c)) -> (forall op x, P x -> P (EUnary op x)) ->
  (forall l, Forall P l -> P (ETuple l)) -> (forall l, Forall P l -> P (EList l)) ->
  (forall l, Forall (fun kv : option pexpr * pexpr => (forall k, fst kv = Some k -> P k) /\ P (snd kv)) l -> P (EDict l)) ->
  (forall l, Forall P l -> P (ESet l)) ->
  (forall f args kws, P f -> Forall P args -> Forall (fun kw : option text * pexpr => P (snd kw)) kws -> P (ECall f args kws)) ->
  (forall i, P (EName i)) -> (forall v a, P v -> P (EAttribute v a)) -> (forall v, P v -> P (EStarred v)) -> P EOther ->
  forall e, P e.
Proof.
  intros H1 H2 H3 H4 H5 H6 H7 H8 H9 H10 H11.
  fix IH 1. intros [c|op x|l|l|l|l|f args kws|i|v a|v|].
  - apply H1. - apply H2, IH.
  - apply H3. induction l as [|x l IHl]; constructor; [apply IH|assumption].
  - apply H4. induction l as [|x l IHl]; constructor; [apply IH|assumption].
  - apply H5. induction l as [|[[k|] x] l IHl]; constructor; try assumption; cbn; (split; [|apply IH]); intros k' E; [injection E as <-; apply IH|discriminate E].
  - apply H6. induction l as [|x l IHl]; constructor; [apply IH|assumption].
  - apply H7; [apply IH| |].
    + induction args as [|x l IHl]; constructor; [apply IH|assumption].
    + induction kws as [|[k x] l IHl]; constructor; [apply IH|assumption].
  - apply H8. - apply H9, IH. - apply H10, IH. - apply H11.
Qed.

Lemma dotted_iff e n : dotted_name e = Ok (Some n) <-> dotted e n.
Proof.
  revert n. induction e using pexpr_ind'; intros n; cbn [dotted_name]; try (split; [discriminate | inversion 1]).
  - split; [intros [= ->]; constructor | inversion 1; reflexivity].
  - split.
    + destruct (dotted_name e) as [[s|]|]; cbn [bind]; try discriminate. intros [= <-]. constructor. now apply IHe.
    + inversion 1 as [|v s a' Hd]; subst. apply IHe in Hd. rewrite Hd. reflexivity.
Qed.
Lemma starless_iff args kws : has_star_args args kws = false <-> starless args kws.
Proof.
  unfold has_star_args, starless. rewrite orb_false_iff. split.
  - intros [H1 H2]. split; intros x Hx.
    + assert (existsb is_starred args = true) by (apply existsb_exists; exists (EStarred x); now split). congruence.
    + match type of H2 with ?b = false => assert (b = true) by (apply existsb_exists; exists (None, x); now split) end. congruence.
  - intros [H1 H2]. split; apply not_true_is_false; intros H; apply existsb_exists in H as (x & Hx & E).
    + destruct x; try discriminate E. eapply H1; exact Hx.
    + destruct x as [[k|] x]; [discriminate E|]. eapply H2; exact Hx.
Qed.

Section Proofs.
  Variable obj : Type.
  Variable of_const : const -> obj.
  Variable negate : obj -> obj.
  Variable mk_tuple mk_list mk_set : list obj -> obj.
  Variable mk_dict : list (obj * obj) -> obj.
  Variable hashable : obj -> bool.
  Variable callables : dict (callable obj).
  Variable constants : dict obj.
  Local Notation conv := (convert obj of_const negate mk_tuple mk_list mk_set mk_dict hashable callables constants).
  Local Notation mean := (means obj of_const negate mk_tuple mk_list mk_set mk_dict hashable callables constants).
  Local Notation mean_all := (means_all obj of_const negate mk_tuple mk_list mk_set mk_dict hashable callables constants).
  Local Notation mean_kws := (means_kws obj of_const negate mk_tuple mk_list mk_set mk_dict hashable callables constants).
  Local Notation mean_pairs := (means_pairs obj of_const negate mk_tuple mk_list mk_set mk_dict hashable callables constants).

  Definition conv_all (l : list pexpr) : ev obj (list obj) :=
    fold_right (fun x rest => ev_bind (conv x) (fun o => ev_bind rest (fun os => ev_ret (o :: os)))) (ev_ret []) l.
  Definition conv_set (l : list pexpr) : ev obj (list obj) :=
    fold_right (fun x rest => ev_bind (conv x) (fun o =>
       ev_bind (check_hashable obj hashable o) (fun _ => ev_bind rest (fun os => ev_ret (o :: os))))) (ev_ret []) l.
  Definition conv_kws (l : list (option text * pexpr)) : ev obj (dict obj) :=
    fold_right (fun (kw : option text * pexpr) rest =>
      match kw with
      | (Some k, v) => ev_bind (conv v) (fun o => ev_bind rest (fun os => ev_ret ((k, o) :: os)))
      | (None, _) => ev_raise TypeError
      end) (ev_ret []) l.
  Definition conv_pairs (l : list (option pexpr * pexpr)) : ev obj (list (obj * obj)) :=
    fold_right (fun (kv : option pexpr * pexpr) rest =>
      match kv with
      | (Some k, v) =>
          ev_bind (conv k) (fun a => ev_bind (conv v) (fun b =>
            ev_bind (check_hashable obj hashable a) (fun _ => ev_bind rest (fun os => ev_ret ((a, b) :: os)))))
      | (None, _) => ev_raise SyntaxError
      end) (ev_ret []) l.

  (** The last case. *)
  Definition conv_name (e : pexpr) : ev obj obj :=
    match dotted_name e with
    | Err x => ev_raise x
    | Ok None => ev_raise SyntaxError
    | Ok (Some name) => match dget constants name with Some o => ev_ret o | None => ev_raise SyntaxError end
    end.

  Lemma bind_ok {A B} (m : ev obj A) (f : A -> ev obj B) h h' b :
    ev_bind m f h = (h', Ok b) <-> exists h1 a, m h = (h1, Ok a) /\ f a h1 = (h', Ok b).
  Proof.
    unfold ev_bind. destruct (m h) as [h1 [a|x]]; split.
    - intros H. now exists h1, a.
    - intros (h2 & a' & E & H). injection E as <- <-. exact H.
    - discriminate.
    - intros (h2 & a' & E & H). discriminate E.
  Qed.
  Lemma ret_ok {A} (x y : A) h h' : @ev_ret obj A x h = (h', Ok y) <-> h' = h /\ y = x.
  Proof. unfold ev_ret. split; [intros [= -> ->]; now split | intros [-> ->]; reflexivity]. Qed.
  Lemma hash_ok o h h' u : check_hashable obj hashable o h = (h', Ok u) <-> h' = h /\ hashable o = true.
  Proof.
    unfold check_hashable. destruct u. destruct (hashable o); [|split; [discriminate | intros [_ E]; discriminate E]].
    unfold ev_ret. split; [intros [= ->]; now split | intros [-> _]; reflexivity].
  Qed.

  Definition good (e : pexpr) : Prop := forall h h' o, conv e h = (h', Ok o) <-> mean h e h' o.

  Lemma conv_all_iff l : Forall good l -> forall h h' os, conv_all l h = (h', Ok os) <-> mean_all h l h' os.
  Proof.
    induction 1 as [|x l Hx HF IH]; intros h h' os; cbn [conv_all fold_right].
    - rewrite ret_ok. split; [intros [-> ->]; constructor | inversion 1; now split].
    - rewrite bind_ok. split.
      + intros (h1 & o & H1 & H). apply bind_ok in H as (h2 & os' & H2 & H). apply ret_ok in H as [-> ->].
        econstructor; [apply Hx; exact H1 | apply IH; exact H2].
      + inversion 1; subst. match goal with H : mean _ _ _ _ |- _ => apply Hx in H; eexists _, _; split; [exact H|] end.
        apply bind_ok. match goal with H : mean_all _ _ _ _ |- _ => apply IH in H; eexists _, _; split; [exact H|] end. now apply ret_ok.
  Qed.
  Lemma conv_set_iff l : Forall good l -> forall h h' os, conv_set l h = (h', Ok os) <-> mean_all h l h' os /\ Forall (fun o => hashable o = true) os.
  Proof.
    induction 1 as [|x l Hx HF IH]; intros h h' os; cbn [conv_set fold_right].
    - rewrite ret_ok. split; [intros [-> ->]; repeat constructor | intros [H _]; inversion H; now split].
    - rewrite bind_ok. split.
      + intros (h1 & o & H1 & H). apply bind_ok in H as (h2 & u & H2 & H). apply hash_ok in H2 as [-> H2].
        apply bind_ok in H as (h3 & os' & H3 & H). apply ret_ok in H as [-> ->]. apply IH in H3 as [H3 H4].
        split; [econstructor; [apply Hx; exact H1 | exact H3] | now constructor].
      + intros [H1 H2]. inversion H1; subst. inversion H2; subst.
        match goal with H : mean _ _ _ _ |- _ => apply Hx in H; eexists _, _; split; [exact H|] end.
        apply bind_ok. eexists _, tt. split; [apply hash_ok; split; [reflexivity|assumption]|].
        apply bind_ok. eexists _, _. split; [apply IH; split; eassumption|]. now apply ret_ok.
  Qed.
  Lemma conv_kws_iff l : Forall (fun kw : option text * pexpr => good (snd kw)) l -> forall h h' os, conv_kws l h = (h', Ok os) <-> mean_kws h l h' os.
  Proof.
    induction 1 as [|[k x] l Hx HF IH]; intros h h' os; cbn [conv_kws fold_right].
    - rewrite ret_ok. split; [intros [-> ->]; constructor | inversion 1; now split].
    - destruct k as [k|]; [|split; [discriminate | inversion 1]]. cbn [snd] in Hx. rewrite bind_ok. split.
      + intros (h1 & o & H1 & H). apply bind_ok in H as (h2 & os' & H2 & H). apply ret_ok in H as [-> ->].
        econstructor; [apply Hx; exact H1 | apply IH; exact H2].
      + inversion 1; subst. match goal with H : mean _ _ _ _ |- _ => apply Hx in H; eexists _, _; split; [exact H|] end.
        apply bind_ok. match goal with H : mean_kws _ _ _ _ |- _ => apply IH in H; eexists _, _; split; [exact H|] end. now apply ret_ok.
  Qed.
  Lemma conv_pairs_iff l : Forall (fun kv : option pexpr * pexpr => (forall k, fst kv = Some k -> good k) /\ good (snd kv)) l ->
    forall h h' os, conv_pairs l h = (h', Ok os) <-> mean_pairs h l h' os /\ Forall (fun ab => hashable (fst ab) = true) os.
  Proof.
    induction 1 as [|[k x] l [Hk Hx] HF IH]; intros h h' os; cbn [conv_pairs fold_right].
    - rewrite ret_ok. split; [intros [-> ->]; repeat constructor | intros [H _]; inversion H; now split].
    - destruct k as [k|]; [|split; [discriminate | intros [H _]; inversion H]]. cbn [fst snd] in Hk, Hx. specialize (Hk _ eq_refl). rewrite bind_ok. split.
      + intros (h1 & a & H1 & H). apply bind_ok in H as (h2 & b & H2 & H). apply bind_ok in H as (h3 & u & H3 & H). apply hash_ok in H3 as [-> H3].
        apply bind_ok in H as (h4 & os' & H4 & H). apply ret_ok in H as [-> ->]. apply IH in H4 as [H4 H5].
        split; [econstructor; [apply Hk; exact H1 | apply Hx; exact H2 | exact H4] | now constructor].
      + intros [H1 H2]. inversion H1; subst. inversion H2; subst. cbn [fst] in *.
        eexists _, _. split; [apply Hk; eassumption|]. apply bind_ok. eexists _, _. split; [apply Hx; eassumption|].
        apply bind_ok. eexists _, tt. split; [apply hash_ok; split; [reflexivity|assumption]|].
        apply bind_ok. eexists _, _. split; [apply IH; split; eassumption|]. now apply ret_ok.
  Qed.

  Lemma conv_name_iff e h h' o : conv_name e h = (h', Ok o) <-> exists n, dotted e n /\ dget constants n = Some o /\ h' = h.
  Proof.
    unfold conv_name. destruct (dotted_name e) as [[n|]|x] eqn:E.
    - destruct (dget constants n) as [o'|] eqn:Ec.
      + rewrite ret_ok. split.
        * intros [-> ->]. exists n. apply dotted_iff in E. now repeat split.
        * intros (n' & D & G & ->). apply dotted_iff in D. rewrite E in D. injection D as <-. split; congruence.
      + split; [discriminate|]. intros (n' & D & G & ->). apply dotted_iff in D. rewrite E in D. injection D as <-. congruence.
    - split; [discriminate|]. intros (n' & D & G & ->). apply dotted_iff in D. congruence.
    - split; [discriminate|]. intros (n' & D & G & ->). apply dotted_iff in D. congruence.
  Qed.
  Lemma name_means e h h' o : conv e = conv_name e -> (forall h h' o, mean h e h' o -> exists n, dotted e n /\ dget constants n = Some o /\ h' = h) ->
    conv e h = (h', Ok o) <-> mean h e h' o.
  Proof.
    intros E H. rewrite E, conv_name_iff. split; [|apply H]. intros (n & D & G & ->). now apply M_name with n.
  Qed.
  Ltac nodot := match goal with H : dotted _ _ |- _ => now inversion H end.

  Theorem convert_means e : good e.
  Proof.
    induction e using pexpr_ind'; intros h h' o.
    - cbn [convert]. rewrite ret_ok. split; [intros [-> ->]; constructor | inversion 1; subst; [now split | nodot]].
    - cbn [convert]. split.
      + destruct (text_eqb_spec op (TX "USub")) as [->|]; [|discriminate]. cbn [andb].
        destruct (is_num e) eqn:En; [|discriminate]. intros H. apply bind_ok in H as (h1 & o1 & H1 & H). apply ret_ok in H as [-> ->].
        destruct e as [[| |k c| |]| | | | | | | | | |]; try discriminate En. cbn in H1. apply ret_ok in H1 as [-> ->].
        apply M_minus. intros ->. discriminate En.
      + inversion 1; subst; [|nodot]. rewrite text_eqb_refl. cbn [andb].
        assert (E : is_num (EConst (CNum k c)) = true) by (destruct k; [congruence|reflexivity..]). rewrite E. reflexivity.
    - change (conv (ETuple l)) with (ev_bind (conv_all l) (fun os => ev_ret (mk_tuple os))). rewrite bind_ok. split.
      + intros (h1 & os & H1 & H2). apply ret_ok in H2 as [-> ->]. constructor. now apply conv_all_iff.
      + inversion 1; subst; [|nodot]. eexists _, _. split; [apply conv_all_iff; eassumption|]. now apply ret_ok.
    - change (conv (EList l)) with (ev_bind (conv_all l) (fun os => ev_ret (mk_list os))). rewrite bind_ok. split.
      + intros (h1 & os & H1 & H2). apply ret_ok in H2 as [-> ->]. constructor. now apply conv_all_iff.
      + inversion 1; subst; [|nodot]. eexists _, _. split; [apply conv_all_iff; eassumption|]. now apply ret_ok.
    - change (conv (EDict l)) with (ev_bind (conv_pairs l) (fun os => ev_ret (mk_dict os))). rewrite bind_ok. split.
      + intros (h1 & os & H1 & H2). apply ret_ok in H2 as [-> ->]. apply conv_pairs_iff in H1 as [H1 H2]; [|assumption]. now constructor.
      + inversion 1; subst; [|nodot]. eexists _, _. split; [apply conv_pairs_iff; [eassumption|split; eassumption]|]. now apply ret_ok.
    - change (conv (ESet l)) with (ev_bind (conv_set l) (fun os => ev_ret (mk_set os))). rewrite bind_ok. split.
      + intros (h1 & os & H1 & H2). apply ret_ok in H2 as [-> ->]. apply conv_set_iff in H1 as [H1 H2]; [|assumption]. now constructor.
      + inversion 1; subst; [|nodot]. eexists _, _. split; [apply conv_set_iff; [eassumption|split; eassumption]|]. now apply ret_ok.
    - change (conv (ECall e args kws)) with
        (if has_star_args args kws then ev_raise (A := obj) SyntaxError
         else match dotted_name e with
              | Err x => ev_raise x
              | Ok None => ev_raise SyntaxError
              | Ok (Some name) =>
                  match dget callables name with
                  | None => ev_raise SyntaxError
                  | Some f => ev_bind (conv_all args) (fun os => ev_bind (conv_kws kws)
                      (fun kws => call obj name f os (fold_left (fun d kv => dset d (fst kv) (snd kv)) kws [])))
                  end
              end).
      split.
      + destruct (has_star_args args kws) eqn:Es; [discriminate|]. apply starless_iff in Es.
        destruct (dotted_name e) as [[n|]|] eqn:En; try discriminate. apply dotted_iff in En.
        destruct (dget callables n) as [c|] eqn:Ec; [|discriminate]. intros HH.
        apply bind_ok in HH as (h1 & os & H1 & HH). apply bind_ok in HH as (h2 & ks & H2 & HH). unfold call in HH. injection HH as <- HH.
        apply conv_all_iff in H1; [|assumption]. apply conv_kws_iff in H2; [|assumption]. now apply M_call with (c := c) (h1 := h1).
      + inversion 1; subst; [|nodot].
        match goal with H : starless _ _ |- _ => apply starless_iff in H; rewrite H end.
        match goal with H : dotted e _ |- _ => apply dotted_iff in H; rewrite H end.
        match goal with H : dget callables _ = _ |- _ => rewrite H end.
        apply bind_ok. eexists _, _. split; [apply conv_all_iff; eassumption|].
        apply bind_ok. eexists _, _. split; [apply conv_kws_iff; eassumption|]. unfold call. congruence.
    - apply name_means; [reflexivity|]. inversion 1; subst. now eauto.
    - apply name_means; [reflexivity|]. inversion 1; subst. now eauto.
    - apply name_means; [reflexivity|]. inversion 1; subst. now eauto.
    - apply name_means; [reflexivity|]. inversion 1; subst. now eauto.
  Qed.

  (** *** Calls *)
  Definition calls_only {A} (names : text -> Prop) (m : ev obj A) : Prop :=
    forall h h' r, m h = (h', r) -> exists new, h' = h ++ new /\ Forall (fun v => In (ev_name v) (dkeys callables) /\ names (ev_name v)) new.
  Lemma calls_ret {A} N (x : A) : calls_only N (ev_ret x).
  Proof. intros h h' r [= <- <-]. exists []. rewrite app_nil_r. now split. Qed.
  Lemma calls_raise {A} N x : @calls_only A N (ev_raise x).
  Proof. intros h h' r [= <- <-]. exists []. rewrite app_nil_r. now split. Qed.
  Lemma calls_bind {A B} N (m : ev obj A) (f : A -> ev obj B) : calls_only N m -> (forall x, calls_only N (f x)) -> calls_only N (ev_bind m f).
  Proof.
    intros H1 H2 h h' r. unfold ev_bind. destruct (m h) as [h1 [a|x]] eqn:E.
    - intros H. destruct (H1 _ _ _ E) as (n1 & -> & F1). destruct (H2 _ _ _ _ H) as (n2 & -> & F2). exists (n1 ++ n2). rewrite app_assoc.
      split; [reflexivity|]. apply Forall_app. now split.
    - intros [= <- <-]. exact (H1 _ _ _ E).
  Qed.
  Lemma calls_more {A} (N N' : text -> Prop) (m : ev obj A) : (forall n, N n -> N' n) -> calls_only N m -> calls_only N' m.
  Proof.
    intros H Hm h h' r E. destruct (Hm _ _ _ E) as (new & -> & F). exists new. split; [reflexivity|].
    eapply Forall_impl; [|exact F]. cbn. intros v []. auto.
  Qed.
  Lemma calls_hash N o : calls_only N (check_hashable obj hashable o).
  Proof. unfold check_hashable. destruct (hashable o); [apply calls_ret | apply calls_raise]. Qed.
  Lemma calls_conv_name N e : calls_only N (conv_name e).
  Proof.
    unfold conv_name. destruct (dotted_name e) as [[n|]|]; try apply calls_raise. destruct (dget constants n); [apply calls_ret | apply calls_raise].
  Qed.
  Lemma calls_all N l : Forall (fun x => calls_only N (conv x)) l -> calls_only N (conv_all l).
  Proof.
    induction 1 as [|x l Hx HF IH]; cbn [conv_all fold_right]; [apply calls_ret|].
    apply calls_bind; [assumption|]. intros o. apply calls_bind; [assumption|]. intros os. apply calls_ret.
  Qed.

  Theorem only_known_calls e : calls_only (calls_name e) (conv e).
  Proof.
    induction e using pexpr_ind'.
    - apply calls_ret.
    - cbn [convert]. destruct (text_eqb op (TX "USub") && is_num e) eqn:En; [|apply calls_raise].
      apply andb_prop in En as [_ En]. destruct e as [[| |k c| |]| | | | | | | | | |]; try discriminate En. apply calls_bind; [apply calls_ret|].
      intros. apply calls_ret.
    - change (conv (ETuple l)) with (ev_bind (conv_all l) (fun os => ev_ret (mk_tuple os))). apply calls_bind; [|intros; apply calls_ret].
      apply calls_all. rewrite Forall_forall in *. intros x Hx. eapply calls_more; [|now apply H]. intros n. now apply CN_tuple.
    - change (conv (EList l)) with (ev_bind (conv_all l) (fun os => ev_ret (mk_list os))). apply calls_bind; [|intros; apply calls_ret].
      apply calls_all. rewrite Forall_forall in *. intros x Hx. eapply calls_more; [|now apply H]. intros n. now apply CN_list.
    - change (conv (EDict l)) with (ev_bind (conv_pairs l) (fun os => ev_ret (mk_dict os))). apply calls_bind; [|intros; apply calls_ret].
      assert (G : Forall (fun kv : option pexpr * pexpr => (forall k, fst kv = Some k -> calls_only (calls_name (EDict l)) (conv k))
                           /\ calls_only (calls_name (EDict l)) (conv (snd kv))) l).
      { rewrite Forall_forall in *. intros [k x] Hx. destruct (H _ Hx) as [H1 H2]. cbn [fst snd] in *. split.
        - intros k' ->. eapply calls_more; [|now apply H1]. intros n. now apply CN_key with x.
        - eapply calls_more; [|exact H2]. intros n. now apply CN_value with k. }
      revert G. generalize (calls_name (EDict l)). intros N G. clear H. induction G as [|[[k|] x] l [Hk Hx] HF IH]; cbn [conv_pairs fold_right];
        [apply calls_ret| |apply calls_raise]. cbn [fst snd] in *.
      apply calls_bind; [now apply Hk|]. intros a. apply calls_bind; [assumption|]. intros b. apply calls_bind; [apply calls_hash|]. intros _.
      apply calls_bind; [exact IH|]. intros. apply calls_ret.
    - change (conv (ESet l)) with (ev_bind (conv_set l) (fun os => ev_ret (mk_set os))). apply calls_bind; [|intros; apply calls_ret].
      assert (G : Forall (fun x => calls_only (calls_name (ESet l)) (conv x)) l).
      { rewrite Forall_forall in *. intros x Hx. eapply calls_more; [|now apply H]. intros n. now apply CN_set. }
      revert G. generalize (calls_name (ESet l)). intros N G. clear H. induction G as [|x l Hx HF IH]; cbn [conv_set fold_right]; [apply calls_ret|].
      apply calls_bind; [assumption|]. intros a. apply calls_bind; [apply calls_hash|]. intros _. apply calls_bind; [exact IH|]. intros. apply calls_ret.
    - cbn [convert]. destruct (has_star_args args kws); [apply calls_raise|].
      destruct (dotted_name e) as [[n|]|] eqn:En; try apply calls_raise.
      destruct (dget callables n) as [c|] eqn:Ec; [|apply calls_raise]. apply calls_bind.
      { apply calls_all. rewrite Forall_forall in *. intros x Hx. eapply calls_more; [|now apply H]. intros m. now apply CN_arg. }
      intros os. apply calls_bind.
      + assert (G : Forall (fun kw : option text * pexpr => calls_only (calls_name (ECall e args kws)) (conv (snd kw))) kws).
        { rewrite Forall_forall in *. intros [k x] Hx. cbn [snd]. eapply calls_more; [|now apply (H0 (k, x))]. intros m. now apply CN_kw with k. }
        revert G. generalize (calls_name (ECall e args kws)). intros N G. clear H H0.
        induction G as [|[[k|] x] l Hx HF IH]; cbn [fold_right]; [apply calls_ret| |apply calls_raise]. cbn [snd] in *.
        apply calls_bind; [assumption|]. intros o. apply calls_bind; [exact IH|]. intros. apply calls_ret.
      + intros ks h h' r [= <- <-]. eexists. split; [reflexivity|]. repeat constructor; cbn [ev_name].
        * eapply dget_Some_keys. exact Ec.
        * now apply dotted_iff.
    - apply calls_conv_name. - apply calls_conv_name. - apply calls_conv_name. - apply calls_conv_name.
  Qed.

  (** *** The language *)
  Scheme means_mut := Induction for means Sort Prop
    with means_all_mut := Induction for means_all Sort Prop
    with means_kws_mut := Induction for means_kws Sort Prop
    with means_pairs_mut := Induction for means_pairs Sort Prop.
  Theorem means_permitted h e h' o : mean h e h' o -> permitted (dkeys callables) (dkeys constants) e.
  Proof.
    apply (means_mut obj of_const negate mk_tuple mk_list mk_set mk_dict hashable callables constants
      (fun h e h' o _ => permitted (dkeys callables) (dkeys constants) e)
      (fun h l h' os _ => Forall (permitted (dkeys callables) (dkeys constants)) l)
      (fun h l h' os _ => Forall (fun kw => permitted (dkeys callables) (dkeys constants) (snd kw)) l)
      (fun h l h' os _ => Forall (fun kv => exists k, fst kv = Some k /\ permitted (dkeys callables) (dkeys constants) k
                                             /\ permitted (dkeys callables) (dkeys constants) (snd kv)) l)); intros; cbn [fst snd] in *.
    - constructor. - now constructor. - now constructor. - now constructor. - now constructor. - now constructor.
    - apply P_call with n; try assumption. eapply dget_Some_keys. eassumption.
    - apply P_name with n; [assumption|]. eapply dget_Some_keys. eassumption.
    - constructor. - now constructor. - constructor. - now constructor. - constructor.
    - constructor; [|assumption]. exists k. cbn [fst snd]. auto.
  Qed.

  (** Exceptions. *)
  Definition blames {A} (m : ev obj A) : Prop := forall h h' x, m h = (h', Err x) -> x = SyntaxError \/ x = TypeError \/ raised_by callables x.
  Lemma blames_ret {A} (x : A) : blames (ev_ret x).
  Proof. intros h h' y [=]. Qed.
  Lemma blames_syntax {A} : @blames A (ev_raise SyntaxError).
  Proof. intros h h' y [= _ <-]. now left. Qed.
  Lemma blames_type {A} : @blames A (ev_raise TypeError).
  Proof. intros h h' y [= _ <-]. right. now left. Qed.
  Lemma blames_bind {A B} (m : ev obj A) (f : A -> ev obj B) : blames m -> (forall x, blames (f x)) -> blames (ev_bind m f).
  Proof.
    intros H1 H2 h h' x. unfold ev_bind. destruct (m h) as [h1 [a|y]] eqn:E; [intros H; eapply H2; exact H|].
    intros [= _ ->]. eapply H1. exact E.
  Qed.
  Lemma blames_hash o : blames (check_hashable obj hashable o).
  Proof. unfold check_hashable. destruct (hashable o); [apply blames_ret | apply blames_type]. Qed.
  Lemma dotted_raises e x : dotted_name e = Err x -> x = TypeError.
  Proof.
    induction e using pexpr_ind'; cbn [dotted_name]; try discriminate. destruct (dotted_name e) as [[s|]|y]; cbn [bind].
    - discriminate. - congruence. - intros [= <-]. auto.
  Qed.
  Lemma blames_conv_name e : blames (conv_name e).
  Proof.
    unfold conv_name. destruct (dotted_name e) as [[n|]|y] eqn:E; [|apply blames_syntax|].
    - destruct (dget constants n); [apply blames_ret | apply blames_syntax].
    - apply dotted_raises in E as ->. apply blames_type.
  Qed.
  Lemma blames_all l : Forall (fun x => blames (conv x)) l -> blames (conv_all l).
  Proof.
    induction 1 as [|x l Hx HF IH]; cbn [conv_all fold_right]; [apply blames_ret|].
    apply blames_bind; [assumption|]. intros o. apply blames_bind; [assumption|]. intros os. apply blames_ret.
  Qed.
  Theorem who_raises e : blames (conv e).
  Proof.
    induction e using pexpr_ind'.
    - apply blames_ret.
    - cbn [convert]. destruct (text_eqb op (TX "USub") && is_num e); [|apply blames_syntax]. apply blames_bind; [assumption|]. intros. apply blames_ret.
    - apply (blames_bind (conv_all l)); [now apply blames_all|]. intros. apply blames_ret.
    - apply (blames_bind (conv_all l)); [now apply blames_all|]. intros. apply blames_ret.
    - apply (blames_bind (conv_pairs l)); [|intros; apply blames_ret]. induction H as [|[[k|] x] l [Hk Hx] HF IH]; cbn [conv_pairs fold_right];
        [apply blames_ret| |apply blames_syntax]. cbn [fst snd] in *.
      apply blames_bind; [now apply Hk|]. intros a. apply blames_bind; [assumption|]. intros b. apply blames_bind; [apply blames_hash|]. intros _.
      apply blames_bind; [exact IH|]. intros. apply blames_ret.
    - apply (blames_bind (conv_set l)); [|intros; apply blames_ret]. induction H as [|x l Hx HF IH]; cbn [conv_set fold_right]; [apply blames_ret|].
      apply blames_bind; [assumption|]. intros a. apply blames_bind; [apply blames_hash|]. intros _. apply blames_bind; [exact IH|]. intros. apply blames_ret.
    - cbn [convert]. destruct (has_star_args args kws); [apply blames_syntax|].
      destruct (dotted_name e) as [[n|]|y] eqn:En; [|apply blames_syntax|apply dotted_raises in En as ->; apply blames_type].
      destruct (dget callables n) as [c|] eqn:Ec; [|apply blames_syntax]. apply blames_bind; [now apply blames_all|].
      intros os. apply blames_bind.
      + clear H. induction H0 as [|[[k|] x] l Hx HF IH]; cbn [fold_right]; [apply blames_ret| |apply blames_type]. cbn [snd] in *.
        apply blames_bind; [assumption|]. intros o. apply blames_bind; [exact IH|]. intros. apply blames_ret.
      + intros ks h h' x [= _ E]. right. right. now exists n, c, h, os, (fold_left (fun d kv => dset d (fst kv) (snd kv)) ks []).
    - apply blames_conv_name. - apply blames_conv_name. - apply blames_conv_name. - apply blames_conv_name.
  Qed.

  (** An expression of the language has a value if nothing goes wrong in a call. *)
  Hypothesis Hhash : forall o, hashable o = true.
  Hypothesis Hcalls : forall n c h os ks, dget callables n = Some c -> exists o, c h os ks = Ok o.
  Lemma permitted_ind' (P : pexpr -> Prop) :
    (forall c, P (EConst c)) -> (forall k c, k <> KBool -> P (EUnary (TX "USub") (EConst (CNum k c)))) ->
    (forall l, Forall P l -> P (ETuple l)) -> (forall l, Forall P l -> P (EList l)) -> (forall l, Forall P l -> P (ESet l)) ->
    (forall l, Forall (fun kv => exists k, fst kv = Some k /\ P k /\ P (snd kv)) l -> P (EDict l)) ->
    (forall f n args kws, dotted f n -> In n (dkeys callables) -> starless args kws -> Forall P args -> Forall (fun kw => P (snd kw)) kws -> P (ECall f args kws)) ->
    (forall e n, dotted e n -> In n (dkeys constants) -> P e) ->
    forall e, permitted (dkeys callables) (dkeys constants) e -> P e.
  Proof.
    intros H1 H2 H3 H4 H5 H6 H7 H8. fix IH 2. intros e [c|k c Hk|l Hl|l Hl|l Hl|l Hl|f n args kws Hd Hin Hs Ha Hkw|e' n Hd Hin].
    - apply H1. - now apply H2.
    - apply H3. induction Hl; constructor; auto.
    - apply H4. induction Hl; constructor; auto.
    - apply H5. induction Hl; constructor; auto.
    - apply H6. induction Hl as [|kv l (k & E & Pk & Px) HF IHl]; constructor; [exists k; split; [assumption|]; split; now apply IH | assumption].
    - apply H7 with n; try assumption; [clear - IH Ha; induction Ha; constructor; auto | clear - IH Hkw; induction Hkw; constructor; auto].
    - now apply H8 with n.
  Qed.
  Theorem permitted_succeeds e : permitted (dkeys callables) (dkeys constants) e -> forall h, exists h' o, mean h e h' o.
  Proof.
    intros H. revert e H. refine (permitted_ind' (fun e => forall h, exists h' o, mean h e h' o) _ _ _ _ _ _ _ _); [intros c|intros k c H|intros l H|intros l H|intros l H|intros l H|intros f n args kws H H0 H1 H2 H3|intros e n H H0]; intros h.
    - eexists _, _. constructor.
    - eexists _, _. now constructor.
    - assert (G : forall h, exists h' os, mean_all h l h' os).
      { induction H as [|x l Hx HF IH]; intros h0; [eexists _, _; constructor|]. destruct (Hx h0) as (h1 & o & G1). destruct (IH h1) as (h2 & os & G2).
        eexists _, _. econstructor; eassumption. }
      destruct (G h) as (h' & os & G'). eexists _, _. constructor. exact G'.
    - assert (G : forall h, exists h' os, mean_all h l h' os).
      { induction H as [|x l Hx HF IH]; intros h0; [eexists _, _; constructor|]. destruct (Hx h0) as (h1 & o & G1). destruct (IH h1) as (h2 & os & G2).
        eexists _, _. econstructor; eassumption. }
      destruct (G h) as (h' & os & G'). eexists _, _. constructor. exact G'.
    - assert (G : forall h, exists h' os, mean_all h l h' os).
      { induction H as [|x l Hx HF IH]; intros h0; [eexists _, _; constructor|]. destruct (Hx h0) as (h1 & o & G1). destruct (IH h1) as (h2 & os & G2).
        eexists _, _. econstructor; eassumption. }
      destruct (G h) as (h' & os & G'). eexists _, _. constructor; [exact G'|]. apply Forall_forall. auto.
    - assert (G : forall h, exists h' os, mean_pairs h l h' os).
      { induction H as [|[k0 x] l (k & E & Hk & Hx) HF IH]; intros h0; [eexists _, _; constructor|]. cbn [fst snd] in *. subst k0.
        destruct (Hk h0) as (h1 & a & G1). destruct (Hx h1) as (h2 & b & G2). destruct (IH h2) as (h3 & os & G3).
        eexists _, _. econstructor; eassumption. }
      destruct (G h) as (h' & os & G'). eexists _, _. constructor; [exact G'|]. apply Forall_forall. auto.
    - assert (G : forall h, exists h' os, mean_all h args h' os).
      { clear - H2. induction H2 as [|x l Hx HF IH]; intros h0; [eexists _, _; constructor|]. destruct (Hx h0) as (h1 & o & G1). destruct (IH h1) as (h2 & os & G2).
        eexists _, _. econstructor; eassumption. }
      assert (K : forall h, exists h' os, mean_kws h kws h' os).
      { destruct H1 as [_ H1]. clear - H3 H1. induction H3 as [|[[k|] x] l Hx HF IH]; intros h0; [eexists _, _; constructor| |exfalso; apply (H1 x); now left].
        cbn [snd] in Hx. destruct (Hx h0) as (h1 & o & G1). destruct IH with (h := h1) as (h2 & os & G2); [intros y Hy; apply (H1 y); now right|].
        eexists _, _. econstructor; eassumption. }
      destruct (G h) as (h1 & os & G1). destruct (K h1) as (h2 & ks & K1). apply keys_dget in H0 as [c Hc].
      destruct (Hcalls n c h2 os (fold_left (fun d kv => dset d (fst kv) (snd kv)) ks []) Hc) as [o Ho].
      eexists _, _. eapply M_call; eassumption.
    - apply keys_dget in H0 as [o Ho]. eexists _, _. eapply M_name; eassumption.
  Qed.
End Proofs.

(** *** The table *)
Section Table.
  Variable cls : Type.
  Variable is_type is_safe : cls -> bool.
  Definition safe_table (table : dict cls) : Prop := forall n c, dget table n = Some c -> is_type c = true /\ is_safe c = true.
  Lemma safe_dset table n c : safe_table table -> is_type c = true -> is_safe c = true -> safe_table (dset table n c).
  Proof. intros H H1 H2 m d. rewrite dget_dset. destruct (text_eqb n m); [intros [= <-]; now split | apply H]. Qed.
  Lemma add_module_safe overwrite module attrs : forall table table', safe_table table ->
    add_module cls is_type is_safe overwrite module attrs table = Ok table' -> safe_table table'.
  Proof.
    induction attrs as [|[a c] attrs IH]; intros table table' Hs H; cbn [add_module] in H; [now injection H as <-|].
    destruct (is_type c) eqn:E1; cbn [negb orb] in H; [|now apply IH in H].
    destruct (is_safe c) eqn:E2; cbn [negb orb] in H; [|now apply IH in H].
    destruct (add_names cls overwrite table _ c) as [t m] eqn:E. destruct m; [|discriminate H]. apply IH in H; [assumption|].
    unfold add_names in E. cbn [fold_left] in E.
    assert (G : forall (s : dict cls * bool) n, safe_table (fst s) -> safe_table (fst (if overwrite || negb (dmem (fst s) n) then (dset (fst s) n c, true) else s))).
    { intros s n Hs'. destruct (overwrite || negb (dmem (fst s) n)); [now apply safe_dset | assumption]. }
    assert (E' : t = fst (t, true)) by reflexivity. rewrite E', <- E. apply G. apply G. exact Hs.
  Qed.
  Theorem table_safe mods : forall table table', safe_table table -> add_modules cls is_type is_safe mods table = Ok table' -> safe_table table'.
  Proof.
    induction mods as [|[m attrs] mods IH]; intros table table' Hs H; cbn [add_modules] in H; [now injection H as <-|].
    destruct (add_module _ _ _ _ _ _ _) as [t|] eqn:E; [|discriminate H]. cbn [bind] in H. eapply IH; [|exact H].
    eapply add_module_safe; eassumption.
  Qed.
End Table.
