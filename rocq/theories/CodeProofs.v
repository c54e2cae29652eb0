(** Expressions, their trees and patterns: proofs. *)
From Verif Require Import Py PyFacts Ast Template FromDiff Matcher MatchSpec MatcherProofs FindSpec FindProofs PatTok PatSpec LexProofs
  Pattern PatternSpec EquivProofs PatternProofs PatternApi PyTemplate PyTemplateSpec PyTemplateProofs PyCode.

Section TreeInd.
  Context {A : Type}.
  Variable P : tree A -> Prop.
  Hypothesis HV : forall a, P (TVar a).
  Hypothesis HC : forall c, P (TConst c).
  Hypothesis HX : P TContext.
  Hypothesis HL : forall l, Forall P l -> P (TList l).
  Hypothesis HN : forall ty fs, Forall (fun kv => P (snd kv)) fs -> P (TNode ty fs).
  Fixpoint tree_ind' (t : tree A) : P t :=
    match t with
    | TVar a => HV a
    | TConst c => HC c
    | TContext => HX
    | TList l => HL l ((fix go l : Forall P l := match l with [] => Forall_nil _ | x :: r => Forall_cons x (tree_ind' x) (go r) end) l)
    | TNode ty fs => HN ty fs ((fix go l : Forall (fun kv => P (snd kv)) l :=
        match l with [] => Forall_nil _ | x :: r => Forall_cons x (tree_ind' (snd x)) (go r) end) fs)
    end.
End TreeInd.

Fixpoint tvars {A} (t : tree A) : list A :=
  match t with
  | TVar a => [a]
  | TConst _ | TContext => []
  | TList l => flat_map tvars l
  | TNode _ fs => flat_map (fun kv => tvars (snd kv)) fs
  end.
Fixpoint tmap {A B} (f : A -> B) (t : tree A) : tree B :=
  match t with
  | TVar a => TVar (f a)
  | TConst c => TConst c
  | TContext => TContext
  | TList l => TList (map (tmap f) l)
  | TNode ty fs => TNode ty (map (fun kv => (fst kv, tmap f (snd kv))) fs)
  end.

Section CodeInd.
  Context {A : Type}.
  Variable P : code A -> Prop.
  Hypothesis H1 : forall a, P (Var a).
  Hypothesis H2 : forall n, P (Name n).
  Hypothesis H3 : forall n, P (Int n).
  Hypothesis H4 : forall e a, P e -> P (Attr e a).
  Hypothesis H5 : forall f args, P f -> Forall P args -> P (Call f args).
  Hypothesis H6 : forall o l r, P l -> P r -> P (Compare o l r).
  Hypothesis H7 : forall e, P e -> P (Not e).
  Hypothesis H8 : forall e t i, P e -> P t -> P i -> P (ListComp e t i).
  Hypothesis H9 : forall e t i, P e -> P t -> P i -> P (SetComp e t i).
  Hypothesis H10 : forall l r, P l -> P r -> P (Mod l r).
  Hypothesis H11 : forall e, P e -> P (Tuple1 e).
  Hypothesis H12 : forall f args k e, P f -> Forall P args -> P e -> P (CallKw f args k e).
  Hypothesis H13 : P EmptyList.
  Hypothesis H14 : P EmptyDict.
  Hypothesis H15 : forall t e, P t -> P e -> P (Assign t e).
  Hypothesis H16 : forall e, P e -> P (Do e).
  Fixpoint code_ind' (c : code A) : P c :=
    match c with
    | Var a => H1 a | Name n => H2 n | Int n => H3 n
    | Attr e a => H4 e a (code_ind' e)
    | Call f args => H5 f args (code_ind' f)
        ((fix go l : Forall P l := match l with [] => Forall_nil _ | x :: r => Forall_cons x (code_ind' x) (go r) end) args)
    | Compare o l r => H6 o l r (code_ind' l) (code_ind' r)
    | Not e => H7 e (code_ind' e)
    | ListComp e t i => H8 e t i (code_ind' e) (code_ind' t) (code_ind' i)
    | SetComp e t i => H9 e t i (code_ind' e) (code_ind' t) (code_ind' i)
    | Mod l r => H10 l r (code_ind' l) (code_ind' r)
    | Tuple1 e => H11 e (code_ind' e)
    | CallKw f args k e => H12 f args k e (code_ind' f)
        ((fix go l : Forall P l := match l with [] => Forall_nil _ | x :: r => Forall_cons x (code_ind' x) (go r) end) args) (code_ind' e)
    | EmptyList => H13
    | EmptyDict => H14
    | Assign t e => H15 t e (code_ind' t) (code_ind' e)
    | Do e => H16 e (code_ind' e)
    end.
End CodeInd.

Lemma flat_map_map' {X Y Z} (f : X -> Y) (g : Y -> list Z) l : flat_map g (map f l) = flat_map (fun x => g (f x)) l.
Proof. induction l as [|x l IH]; cbn; [reflexivity|]. now rewrite IH. Qed.
Lemma tree_vars {A} (c : code A) : tvars (tree_of c) = left_open c.
Proof.
  induction c as [a|n|n|e a IH|f args IHf IHa|o l r IHl IHr|e IH|e t i He Ht Hi|e t i He Ht Hi|l r IHl IHr|e IH|f args k e IHf IHa IH| | |t e Ht He|e IH] using code_ind'; cbn; rewrite ?app_nil_r; auto.
  - rewrite IHf. f_equal. clear - IHa. induction IHa as [|x l E Hl IH]; cbn; [reflexivity|]. now rewrite E, IH.
  - now rewrite IHl, IHr.
  - now rewrite He, Ht, Hi.
  - now rewrite He, Ht, Hi.
  - now rewrite IHl, IHr.
  - rewrite IHf, IH. f_equal. f_equal. clear - IHa. induction IHa as [|x l E Hl IH]; cbn; [reflexivity|]. now rewrite E, IH.
  - now rewrite Ht, He.
Qed.
Lemma tree_fill {A B} (f : A -> B) (c : code A) : tree_of (fill f c) = tmap f (tree_of c).
Proof.
  induction c as [a|n|n|e a IH|g args IHf IHa|o l r IHl IHr|e IH|e t i He Ht Hi|e t i He Ht Hi|l r IHl IHr|e IH|g args k e IHf IHa IH| | |t e Ht He|e IH] using code_ind'; cbn; try congruence.
  - rewrite IHf. rewrite !map_map. assert (K : map (fun x => tree_of (fill f x)) args = map (fun x => tmap f (tree_of x)) args); [|now rewrite K].
    clear - IHa. induction IHa as [|x l E Hl IH]; cbn; [reflexivity|]. now rewrite E, IH.
  - now rewrite He, Ht, Hi.
  - now rewrite He, Ht, Hi.
  - rewrite IHf, IH. rewrite !map_map. assert (K : map (fun x => tree_of (fill f x)) args = map (fun x => tmap f (tree_of x)) args); [|now rewrite K].
    clear - IHa. induction IHa as [|x l E Hl IH]; cbn; [reflexivity|]. now rewrite E, IH.
Qed.

Lemma stands_mono {A} (R Q : A -> value -> Prop) : (forall a v, R a v -> Q a v) -> forall t v, stands R t v -> stands Q t v.
Proof.
  intros H. induction t as [a|c| |l IH|ty fs IH] using tree_ind'; intros v S; inversion S as [? ? K|? ? ? K|? K|? ? m K|? ? i gs E K]; subst.
  - apply ST_var. auto.
  - now apply ST_const.
  - now apply ST_context.
  - apply ST_list. clear S. induction K as [|x y l m S K IHK]; constructor; inversion IH; subst; auto.
  - apply ST_node; [reflexivity|]. clear S. induction K as [|x y l m [E S] K IHK]; constructor; inversion IH; subst; auto.
Qed.

Lemma forall2_mono {X Y} (R Q : X -> Y -> Prop) l m : (forall x y, R x y -> Q x y) -> Forall2 R l m -> Forall2 Q l m.
Proof. intros H. induction 1; constructor; auto. Qed.
(** What the parts are, in order. *)
Lemma stands_parts {A} (R : A -> value -> Prop) : forall t v, stands R t v ->
  exists ws, map fst ws = tvars t /\ Forall (fun xw => R (fst xw) (snd xw)) ws /\ stands (fun x w => In (x, w) ws) t v.
Proof.
  induction t as [a|c| |l IH|ty fs IH] using tree_ind'; intros v S; inversion S as [? ? K|? ? ? K|? K|? ? m K|? ? i gs E K]; subst.
  - exists [(a, v)]. split; [reflexivity|]. split; [now constructor|]. apply ST_var. now left.
  - exists []. split; [reflexivity|]. split; [constructor|now apply ST_const].
  - exists []. split; [reflexivity|]. split; [constructor|now apply ST_context].
  - enough (exists ws, map fst ws = flat_map tvars l /\ Forall (fun xw => R (fst xw) (snd xw)) ws
              /\ Forall2 (stands (fun x w => In (x, w) ws)) l m) as (ws & W1 & W2 & W3).
    { exists ws. split; [exact W1|]. split; [exact W2|now apply ST_list]. }
    clear S. induction K as [|x y l m S K IHK].
    + exists []. split; [reflexivity|]. split; constructor.
    + inversion IH as [|? ? Hx Hl]; subst. destruct (Hx _ S) as (w1 & A1 & A2 & A3). destruct (IHK Hl) as (w2 & B1 & B2 & B3).
      exists (w1 ++ w2). cbn [flat_map]. rewrite map_app, A1, B1. split; [reflexivity|]. split; [now apply Forall_app|].
      constructor; [eapply stands_mono; [|exact A3]; intros; apply in_or_app; now left|].
      eapply forall2_mono; [|exact B3]. intros a b Hs. eapply stands_mono; [|exact Hs]. intros. apply in_or_app. now right.
  - enough (exists ws, map fst ws = flat_map (fun kv => tvars (snd kv)) fs /\ Forall (fun xw => R (fst xw) (snd xw)) ws
              /\ Forall2 (fun ft fv => fst ft = fst fv /\ stands (fun x w => In (x, w) ws) (snd ft) (snd fv)) fs gs) as (ws & W1 & W2 & W3).
    { exists ws. split; [exact W1|]. split; [exact W2|now apply ST_node]. }
    clear S. induction K as [|x y l m [E S] K IHK].
    + exists []. split; [reflexivity|]. split; constructor.
    + inversion IH as [|? ? Hx Hl]; subst. destruct (Hx _ S) as (w1 & A1 & A2 & A3). destruct (IHK Hl) as (w2 & B1 & B2 & B3).
      exists (w1 ++ w2). cbn [flat_map]. rewrite map_app, A1, B1. split; [reflexivity|]. split; [now apply Forall_app|].
      constructor; [split; [exact E|eapply stands_mono; [|exact A3]; intros; apply in_or_app; now left]|].
      eapply forall2_mono; [|exact B3]. intros a b [Ha Hs]. split; [exact Ha|]. eapply stands_mono; [|exact Hs]. intros. apply in_or_app. now right.
Qed.
Lemma stands_map {A B} (R : B -> value -> Prop) (f : A -> B) : forall t v, stands (fun x w => R (f x) w) t v -> stands R (tmap f t) v.
Proof.
  induction t as [a|c| |l IH|ty fs IH] using tree_ind'; intros v S; inversion S as [? ? K|? ? ? K|? K|? ? m K|? ? i gs E K]; subst; cbn [tmap].
  - now apply ST_var.
  - now apply ST_const.
  - now apply ST_context.
  - apply ST_list. clear S. induction K as [|x y l m S K IHK]; cbn; constructor; inversion IH; subst; auto.
  - apply ST_node; [reflexivity|]. clear S. induction K as [|x y l m [E S] K IHK]; cbn; constructor; inversion IH; subst; auto.
Qed.
(** With every variable once: an assignment. *)
Lemma reads_parts (R : label -> value -> Prop) (c : code label) v : NoDup (left_open c) -> reads R c v ->
  exists parts, (forall x, In x (left_open c) -> R x (parts x)) /\ made_of (fill parts c) v.
Proof.
  intros N S. destruct (stands_parts R _ _ S) as (ws & W1 & W2 & W3). rewrite tree_vars in W1.
  exists (fun x => match dget ws x with Some w => w | None => VNone end). split.
  - intros x Hx. rewrite <- W1 in Hx. apply in_map_iff in Hx as ([y w] & <- & Hin). cbn [fst].
    assert (E : dget ws y = Some w) by (apply In_dget; [unfold dict_ok, dkeys; now rewrite W1|exact Hin]).
    rewrite E. rewrite Forall_forall in W2. exact (W2 _ Hin).
  - unfold made_of, reads. rewrite tree_fill. apply stands_map. eapply stands_mono; [|exact W3]. intros x w Hin.
    assert (E : dget ws x = Some w) by (apply In_dget; [unfold dict_ok, dkeys; now rewrite W1|exact Hin]). now rewrite E.
Qed.

(** *** Patterns *)
(** No name could be a made-up one, and contexts are [ctx] fields. *)
Definition gensym (n : text) : bool := startswith (TX "gensym") n.
Fixpoint plain_tree {A} (t : tree A) : bool :=
  match t with
  | TVar _ | TConst _ | TContext => true
  | TList l => forallb plain_tree l
  | TNode ty fs =>
      (if text_eqb ty (TX "Name")
       then match fs with [(f, TConst (CStr n)); (g, TContext)] => text_eqb f (TX "id") && text_eqb g (TX "ctx") && negb (gensym n) | _ => false end
       else true)
      && forallb (fun kv => match snd kv with TContext => text_eqb (fst kv) (TX "ctx") | _ => negb (text_eqb (fst kv) (TX "ctx")) end) fs
      && forallb (fun kv => plain_tree (snd kv)) fs
  end.

Section Pattern.
  Variable holes : text -> option hole.
  Hypothesis Hh : forall n h, holes n = Some h -> gensym n = true.

  Lemma node_is_no_hole {A} (R : A -> value -> Prop) ty fs v n : plain_tree (TNode ty fs) = true -> stands R (TNode ty fs) v -> is_name v n -> holes n = None.
  Proof.
    intros Hp S (i & gs & id & -> & Ht & Hd). inversion S as [? ? K|? ? ? K|? K|? ? m K|? ? i' gs' E K]; subst.
    cbn [plain_tree] in Hp. apply andb_prop in Hp as [Hp _]. apply andb_prop in Hp as [Hp _].
    rewrite Ht in Hp. rewrite text_eqb_refl in Hp.
    destruct fs as [|[f [|[| | |m|]| | |]] [|[g [| | | |]] [|]]]; try discriminate Hp.
    apply andb_prop in Hp as [Hp Hg]. apply andb_prop in Hp as [Hf _]. apply text_eqb_eq in Hf. subst f.
    inversion K as [|? [f' x] ? ? [Ef Sx] K' ]; subst. cbn [fst snd] in *. subst f'.
    change (dget ((TX "id", x) :: l') (TX "id")) with (Some x) in Hd. injection Hd as ->.
    inversion Sx as [? ? Q|? ? ? Q|? Q|? ? ? Q|? ? ? ? ? Q]; subst. cbn in Q. apply text_eqb_eq in Q. subst m.
    destruct (holes n) eqn:E; [|reflexivity]. apply Hh in E. rewrite E in Hg. discriminate Hg.
  Qed.

  Lemma regular_field D i fs : regular D (VNode i fs) -> Forall (fun kv => fst kv = TX "ctx" /\ (exists j, snd kv = VNode j [] /\ is_ctx (VNode j []) = true)
     \/ fst kv <> TX "ctx" /\ regular D (snd kv)) fs.
  Proof.
    inversion 1 as [| |? ? F]; subst. eapply Forall_impl; [|exact F]. intros kv [(A & B & C)|(A & _ & B & _)]; [left|right; auto].
    split; [exact A|]. destruct (snd kv) as [j gs| |]; try discriminate B. cbn in C. apply map_eq_nil in C. subst gs. exists j. auto.
  Qed.
  Lemma no_name_alone i n : ~ is_name (VNode i []) n.
  Proof. intros (j & fs & id & E & _ & Hd). injection E as <- <-. discriminate Hd. Qed.

  Lemma ctx_type i fs j gs : n_type i = n_type j -> is_ctx (VNode i fs) = true -> is_ctx (VNode j gs) = true.
  Proof. unfold is_ctx, isinst. cbn [vtype]. now intros ->. Qed.

  (** What a pattern fits, and what is in the places of its variables. *)
  Definition at_hole (x : label) (w : value) : Prop := exists n, is_name w n /\ holes n = Some (Named x MAnything).
  Lemma fits_stands e D : forall t p c occ, plain_tree t = true -> stands at_hole t p -> t <> TContext ->
    fits e holes p c occ -> regular D c ->
    map fst occ = tvars t /\ stands (fun x w => In (x, create_match (e_parsed e) w) occ /\ PatternSpec.inside c w) t c.
  Proof.
    assert (Hin : forall c v w, In v (vchildren c) -> PatternSpec.inside v w -> PatternSpec.inside c w).
    { intros c v w Hv (q & Hq). apply In_nth_error in Hv as (k & Hk). exists (k :: q). cbn [at_path]. now rewrite Hk. }
    induction t as [a|k| |l IH|ty fs IH] using tree_ind'; intros p c occ Hp S Hx F Rg.
    - inversion S as [? ? (nm & Hn & Eh)| | | |]; subst.
      inversion F as [? n x m ? rm Hn' Hhn Hpo|? n ? Hn' Hhn|? ? ? ? E|? ? ? ms ? FI|? ? j gs ? Hnn Ht FF]; subst.
      + rewrite (is_name_one _ _ _ Hn' Hn) in Hhn. rewrite Eh in Hhn. injection Hhn as <- <-. split; [reflexivity|].
        apply ST_var. specialize (Hpo []). cbn in Hpo. injection Hpo as <-. split; [now left|apply inside_refl].
      + rewrite (is_name_one _ _ _ Hn' Hn) in Hhn. rewrite Eh in Hhn. discriminate Hhn.
      + destruct Hn as (? & ? & ? & Hn & _). discriminate Hn.
      + destruct Hn as (? & ? & ? & Hn & _). discriminate Hn.
      + rewrite (Hnn _ Hn) in Eh. discriminate Eh.
    - inversion S as [|? id d Hc| | |]; subst.
      inversion F as [? n x m ? rm Hn' Hhn Hpo|? n ? Hn' Hhn|? ? ? d' E|? ? ? ms ? FI|? ? j gs ? Hnn Ht FF]; subst.
      1,2: destruct Hn' as (? & ? & ? & Hn' & _); discriminate Hn'.
      split; [reflexivity|]. apply ST_const. eapply const_eqb_trans; eassumption.
    - congruence.
    - cbn [plain_tree] in Hp. inversion S as [| | |? id ps K|]; subst.
      inversion F as [? n x m ? rm Hn' Hhn Hpo|? n ? Hn' Hhn|? ? ? d' E|? ? ? ms ? FI|? ? j gs ? Hnn Ht FF]; subst.
      1,2: destruct Hn' as (? & ? & ? & Hn' & _); discriminate Hn'.
      inversion Rg as [|? ? RL|]; subst.
      assert (Q : map fst occ = flat_map tvars l /\ Forall2 (stands (fun x w => In (x, create_match (e_parsed e) w) occ /\ exists y, In y ms /\ PatternSpec.inside y w)) l ms).
      { clear S F Rg. revert occ ms FI RL. induction K as [|x y l m S K IHK]; intros occ ms FI RL; inversion FI as [|? y' ? ms' o os FX FI']; subst.
        - split; [reflexivity|constructor].
        - inversion IH as [|? ? Hx1 Hl]; subst. inversion RL as [|? ? [Rc Rx] RL']; subst. cbn [forallb] in Hp. apply andb_prop in Hp as [Hp1 Hp2].
          assert (Nx : x <> TContext).
          { intros ->. inversion S as [| |k Hk| |]; subst. inversion FX as [? ? ? ? ? ? Hn'|? ? ? Hn'| | |? ? k' gs0 ? Hnn Ht FF0]; subst;
              [now apply no_name_alone in Hn'|now apply no_name_alone in Hn'|]. rewrite (ctx_type k [] k' gs0 Ht Hk) in Rc. discriminate Rc. }
          destruct (Hx1 _ _ _ Hp1 S Nx FX Rx) as [A1 A2].
          destruct (IHK Hl Hp2 ltac:(discriminate) _ _ FI' RL') as [B1 B2]. cbn [flat_map]. rewrite map_app, A1, B1. split; [reflexivity|].
          constructor; [eapply stands_mono; [|exact A2]; intros a w [Hw Iw]; split; [apply in_or_app; now left|exists y'; split; [now left|exact Iw]]|].
          eapply forall2_mono; [|exact B2]. intros ? ? Hs. eapply stands_mono; [|exact Hs]. intros a w [Hw (u & Iu & Iw)].
          split; [apply in_or_app; now right|exists u; split; [now right|exact Iw]]. }
      destruct Q as [Q1 Q2]. split; [exact Q1|]. apply ST_list. eapply forall2_mono; [|exact Q2]. intros ? ? Hs. eapply stands_mono; [|exact Hs].
      intros a w [Hw (u & Iu & Iw)]. split; [exact Hw|]. eapply Hin; [|exact Iw]. exact Iu.
    - pose proof S as S0. inversion S as [| | | |? ? i ps E K]; subst.
      inversion F as [? n x m ? rm Hn' Hhn Hpo|? n ? Hn' Hhn|? ? ? d' E|? ? ? ms ? FI|? ? j gs ? Hnn Ht FF]; subst.
      1,2: rewrite (node_is_no_hole _ _ _ _ _ Hp S0 Hn') in Hhn; discriminate Hhn.
      cbn [plain_tree] in Hp. apply andb_prop in Hp as [Hp Hp3]. apply andb_prop in Hp as [_ Hp2].
      assert (Q : map fst occ = flat_map (fun kv => tvars (snd kv)) fs
         /\ Forall2 (fun ft fv => fst ft = fst fv /\ stands (fun x w => In (x, create_match (e_parsed e) w) occ /\ exists y, In y gs /\ PatternSpec.inside (snd y) w) (snd ft) (snd fv)) fs gs).
      { apply regular_field in Rg. clear S S0 F Hnn Hx. revert FF K. generalize (n_type i). intros ty FF K. clear i j Ht. revert occ gs FF Rg.
        induction K as [|[f x] [g y] l m [Ef S] K IHK]; intros occ gs FF Rg; inversion FF as [|? ? ? y' ? gs' os Hc FF'|? ? ? y' ? gs' o os Hc FX FF']; subst; cbn [fst snd] in *.
        - split; [reflexivity|constructor].
        - subst g. inversion IH as [|? ? Hx1 Hl]; subst. inversion Rg as [|? ? R1 RL']; subst. cbn [forallb fst snd] in Hp2, Hp3.
          apply andb_prop in Hp2 as [Hp2 Hp2']. apply andb_prop in Hp3 as [Hp3 Hp3'].
          destruct (IHK Hl Hp2' Hp3' _ _ FF' RL') as [B1 B2]. destruct Hc as [_ ->]. cbn [fst snd] in *.
          assert (x = TContext) as -> by (destruct x; try discriminate Hp2; reflexivity).
          destruct R1 as [(_ & j & -> & Hj)|[N _]]; [|now elim N].
          split; [exact B1|]. constructor; [split; [reflexivity|now apply ST_context]|].
          eapply forall2_mono; [|exact B2]. intros ? ? [He Hs]. split; [exact He|]. eapply stands_mono; [|exact Hs]. intros a w [Hw (u & Iu & Iw)].
          split; [exact Hw|exists u; split; [now right|exact Iw]].
        - subst g. inversion IH as [|? ? Hx1 Hl]; subst. inversion Rg as [|? ? R1 RL']; subst. cbn [forallb fst snd] in Hp2, Hp3.
          apply andb_prop in Hp2 as [Hp2 Hp2']. apply andb_prop in Hp3 as [Hp3 Hp3'].
          destruct (IHK Hl Hp2' Hp3' _ _ FF' RL') as [B1 B2]. cbn [fst snd] in *. cbn [flat_map snd].
          assert (Q : map fst o = tvars x /\ stands (fun a w => In (a, create_match (e_parsed e) w) o /\ PatternSpec.inside y' w) x y').
          { assert (x = TContext \/ x <> TContext) as [->|Nx] by (destruct x; (now left) || (right; discriminate)).
            - inversion S as [| |k Hk| |]; subst. inversion FX as [? ? ? ? ? ? Hn'|? ? ? Hn'| | |? ? k' gs0 ? Hnn Ht FF0]; subst;
                [now apply no_name_alone in Hn'|now apply no_name_alone in Hn'|]. inversion FF0; subst. split; [reflexivity|]. apply ST_context.
              exact (ctx_type _ _ _ _ Ht Hk).
            - apply Hx1 with (p := y); auto. destruct R1 as [(-> & _)|[_ R1]]; [|exact R1].
              exfalso. destruct x; try discriminate Hp2. congruence. }
          destruct Q as [A1 A2]. rewrite map_app, A1, B1. split; [reflexivity|].
          constructor; [split; [reflexivity|eapply stands_mono; [|exact A2]; intros a w [Hw Iw]; split; [apply in_or_app; now left|exists (f, y'); split; [now left|exact Iw]]]|].
          eapply forall2_mono; [|exact B2]. intros ? ? [He Hs]. split; [exact He|]. eapply stands_mono; [|exact Hs]. intros a w [Hw (u & Iu & Iw)].
          split; [apply in_or_app; now right|exists u; split; [now right|exact Iw]]. }
      destruct Q as [Q1 Q2]. split; [exact Q1|]. apply ST_node; [congruence|]. eapply forall2_mono; [|exact Q2]. intros ? ? [He Hs]. split; [exact He|].
      eapply stands_mono; [|exact Hs]. intros a w [Hw (u & Iu & Iw)]. split; [exact Hw|]. eapply Hin; [|exact Iw]. cbn. now apply in_map.
  Qed.

  (** An instance of a pattern. *)
  Lemma instance_stands values D : forall t p c, plain_tree t = true -> stands at_hole t p -> t <> TContext ->
    instance holes values p c -> regular D c ->
    stands (fun x w => forall v, values x = Some v -> same_code v w) t c.
  Proof.
    induction t as [a|k| |l IH|ty fs IH] using tree_ind'; intros p c Hp S Hx F Rg.
    - inversion S as [? ? (nm & Hn & Eh)| | | |]; subst.
      inversion F as [? n x m ? Hn' Hhn Hv|? n ? Hn' Hhn|? ? ? ? E|? ? ? ms FI|? ? j gs Hnn Ht FF]; subst.
      + rewrite (is_name_one _ _ _ Hn' Hn) in Hhn. rewrite Eh in Hhn. injection Hhn as <- <-. now apply ST_var.
      + rewrite (is_name_one _ _ _ Hn' Hn) in Hhn. rewrite Eh in Hhn. discriminate Hhn.
      + destruct Hn as (? & ? & ? & Hn & _). discriminate Hn.
      + destruct Hn as (? & ? & ? & Hn & _). discriminate Hn.
      + rewrite (Hnn _ Hn) in Eh. discriminate Eh.
    - inversion S as [|? id d Hc| | |]; subst.
      inversion F as [? n x m ? Hn' Hhn Hv|? n ? Hn' Hhn|? ? ? ? E|? ? ? ms FI|? ? j gs Hnn Ht FF]; subst.
      1,2: destruct Hn' as (? & ? & ? & Hn' & _); discriminate Hn'.
      apply ST_const. eapply const_eqb_trans; eassumption.
    - congruence.
    - cbn [plain_tree] in Hp. inversion S as [| | |? id ps K|]; subst.
      inversion F as [? n x m ? Hn' Hhn Hv|? n ? Hn' Hhn|? ? ? ? E|? ? ? ms FI|? ? j gs Hnn Ht FF]; subst.
      1,2: destruct Hn' as (? & ? & ? & Hn' & _); discriminate Hn'.
      inversion Rg as [|? ? RL|]; subst. apply ST_list. clear S F Rg Hx. revert ms FI RL.
      induction K as [|x y l m S K IHK]; intros ms FI RL; inversion FI as [|? y' ? ms' FX FI']; subst; constructor;
        inversion IH as [|? ? Hx1 Hl]; subst; inversion RL as [|? ? [Rc Rx] RL']; subst; cbn [forallb] in Hp; apply andb_prop in Hp as [Hp1 Hp2].
      + eapply Hx1; eauto. intros ->. inversion S as [| |k Hk| |]; subst. inversion FX as [? ? ? ? ? Hn'|? ? ? Hn'| | |? ? k' gs0 Hnn Ht FF0]; subst;
              [now apply no_name_alone in Hn'|now apply no_name_alone in Hn'|]. rewrite (ctx_type k [] k' gs0 Ht Hk) in Rc. discriminate Rc.
      + now apply IHK.
    - pose proof S as S0. inversion S as [| | | |? ? i ps E K]; subst.
      inversion F as [? n x m ? Hn' Hhn Hv|? n ? Hn' Hhn|? ? ? ? E|? ? ? ms FI|? ? j gs Hnn Ht FF]; subst.
      1,2: rewrite (node_is_no_hole _ _ _ _ _ Hp S0 Hn') in Hhn; discriminate Hhn.
      cbn [plain_tree] in Hp. apply andb_prop in Hp as [Hp Hp3]. apply andb_prop in Hp as [_ Hp2].
      apply ST_node; [congruence|]. apply regular_field in Rg. clear S S0 F Hnn Hx. revert FF K. generalize (n_type i). intros ty FF K. clear i j Ht. revert gs FF Rg.
      induction K as [|[f x] [g y] l m [Ef S] K IHK]; intros gs FF Rg; inversion FF as [|? [f' y'] ? gs' [Ef' FX] FF']; subst; cbn [fst snd] in *; [constructor|].
      subst f' g. inversion IH as [|? ? Hx1 Hl]; subst. inversion Rg as [|? ? R1 RL']; subst. cbn [forallb fst snd] in Hp2, Hp3, R1, Hx1.
      apply andb_prop in Hp2 as [Hp2 Hp2']. apply andb_prop in Hp3 as [Hp3 Hp3']. constructor; [|now apply IHK]. split; [reflexivity|]. cbn [snd].
      assert (x = TContext \/ x <> TContext) as [->|Nx] by (destruct x; (now left) || (right; discriminate)).
      + apply text_eqb_eq in Hp2. subst f. destruct R1 as [(_ & j & -> & Hj)|[N _]]; [now apply ST_context|now elim N].
      + assert (Nf : f <> TX "ctx") by (destruct x; try congruence; now apply negb_true_iff, text_eqb_neq in Hp2).
        destruct R1 as [[R1 _]|[_ R1]]; [congruence|]. destruct FX as [[_ FX]|FX]; [congruence|]. now apply Hx1 with (p := y).
  Qed.
End Pattern.

(** *** Where the variables are *)
Definition is_tvar {A} (t : tree A) : bool := match t with TVar _ => true | _ => false end.
Definition pmem (x : text * text) (l : list (text * text)) : bool := existsb (fun y => text_eqb (fst x) (fst y) && text_eqb (snd x) (snd y)) l.
Lemma pmem_In x l : pmem x l = true -> In x l.
Proof.
  unfold pmem. intros H. apply existsb_exists in H as ([a b] & Hin & H). destruct x as [c d]. cbn in H. apply andb_prop in H as [H1 H2].
  apply text_eqb_eq in H1, H2. now subst.
Qed.
Fixpoint placed {A} (t : tree A) : bool :=
  match t with
  | TVar _ | TConst _ | TContext => true
  | TList l => forallb (fun t => match t with TList _ => false | _ => true end) l && forallb placed l
  | TNode ty fs =>
      forallb (fun kv => match snd kv with
                         | TVar _ => pmem (ty, fst kv) expr_fields
                         | TList l => negb (existsb is_tvar l) || pmem (ty, fst kv) expr_lists
                         | _ => true
                         end) fs
      && forallb (fun kv => placed (snd kv)) fs
  end.
Lemma code_placed {A} (c : code A) : placed (tree_of c) = true.
Proof.
  assert (K : forall (c : code A) b, b = true -> match tree_of c with TVar _ => b | TList l => negb (existsb is_tvar l) || b | _ => true end = true).
  { intros [] b ->; try reflexivity. }
  induction c as [a|n|n|e a IH|f args IHf IHa|o l r IHl IHr|e IH|e t i He Ht Hi|e t i He Ht Hi|l r IHl IHr|e IH|f args k e IHf IHa IH| | |t e Ht He|e IH] using code_ind'; try reflexivity.
  - cbn [tree_of placed forallb snd fst]. rewrite IH. rewrite !andb_true_r. destruct e; reflexivity.
  - cbn [tree_of placed forallb snd fst]. rewrite IHf. rewrite orb_true_r.
    assert (E : forallb placed (map tree_of args) = true).
    { rewrite forallb_forall. intros x Hx. apply in_map_iff in Hx as (y & <- & Hy). rewrite Forall_forall in IHa. auto. }
    assert (E' : forallb (fun t : tree A => match t with TList _ => false | _ => true end) (map tree_of args) = true).
    { rewrite forallb_forall. intros x Hx. apply in_map_iff in Hx as (y & <- & Hy). destruct y; reflexivity. }
    rewrite E, E'. destruct f; reflexivity.
  - cbn [tree_of placed forallb snd fst]. rewrite IHl, IHr. rewrite orb_true_r. destruct l, r; reflexivity.
  - cbn [tree_of placed forallb snd fst]. rewrite IH. destruct e; reflexivity.
  - cbn [tree_of placed forallb snd fst comprehension]. rewrite He, Ht, Hi. destruct e, t, i; reflexivity.
  - cbn [tree_of placed forallb snd fst comprehension]. rewrite He, Ht, Hi. destruct e, t, i; reflexivity.
  - cbn [tree_of placed forallb snd fst]. rewrite IHl, IHr. destruct l, r; reflexivity.
  - cbn [tree_of placed forallb snd fst]. rewrite IH. destruct e; reflexivity.
  - cbn [tree_of placed forallb snd fst]. rewrite IHf, IH. rewrite orb_true_r.
    assert (E : forallb placed (map tree_of args) = true).
    { rewrite forallb_forall. intros x Hx. apply in_map_iff in Hx as (y & <- & Hy). rewrite Forall_forall in IHa. auto. }
    assert (E' : forallb (fun t : tree A => match t with TList _ => false | _ => true end) (map tree_of args) = true).
    { rewrite forallb_forall. intros x Hx. apply in_map_iff in Hx as (y & <- & Hy). destruct y; reflexivity. }
    rewrite E, E'. destruct f, e; reflexivity.
  - cbn [tree_of placed forallb snd fst]. rewrite Ht, He. destruct t, e; reflexivity.
  - cbn [tree_of placed forallb snd fst]. rewrite IH. destruct e; reflexivity.
Qed.
Lemma stands_placed {A} (R : A -> value -> Prop) root : located_exprs root ->
  forall t v, placed t = true -> PatternSpec.inside root v -> (is_tvar t = true -> located_expr v) ->
    (forall l, t = TList l -> existsb is_tvar l = true -> forall w, In w (vchildren v) -> located_expr w) ->
    stands R t v -> stands (fun x w => R x w /\ located_expr w /\ PatternSpec.inside root w) t v.
Proof.
  intros HL.
  assert (Hin : forall v w, PatternSpec.inside root v -> In w (vchildren v) -> PatternSpec.inside root w).
  { intros v w (q & Hq) Hv. apply In_nth_error in Hv as (k & Hk). exists (q ++ [k]). rewrite at_path_app, Hq. cbn [at_path]. now rewrite Hk. }
  induction t as [a|c| |l IH|ty fs IH] using tree_ind'; intros v Hp Iv H1 H2 S; inversion S as [? ? K|? ? ? K|? K|? ? m K|? ? i gs E K]; subst.
  - apply ST_var. auto.
  - now apply ST_const.
  - now apply ST_context.
  - apply ST_list. cbn [placed] in Hp. specialize (H2 l eq_refl). cbn [vchildren] in H2.
    assert (Im : forall w, In w m -> PatternSpec.inside root w) by (intros; eapply Hin; [exact Iv|assumption]).
    apply andb_prop in Hp as [Hp0 Hp].
    clear S Iv H1. induction K as [|x y l m S K IHK]; constructor; inversion IH as [|? ? Hx Hl]; subst;
      cbn [forallb existsb] in *; apply andb_prop in Hp as [Hp1 Hp2]; apply andb_prop in Hp0 as [Hp3 Hp4].
    + apply Hx; auto.
      * apply Im. now left.
      * intros Ex. apply H2; [now rewrite Ex|now left].
      * intros l0 ->. discriminate Hp3.
    + apply IHK; auto.
      * intros Ex w Hw. apply H2; [rewrite Ex; apply orb_true_r|now right].
      * intros w Hw. apply Im. now right.
  - apply ST_node; [reflexivity|]. cbn [placed] in Hp. apply andb_prop in Hp as [Hp0 Hp].
    pose proof (HL i gs) as HF.
    assert (HF' : forall f v, In (f, v) gs -> PatternSpec.inside root v /\ (In (n_type i, f) expr_fields -> located_expr v)
       /\ (In (n_type i, f) expr_lists -> forall w, In w (vchildren v) -> located_expr w)).
    { intros f v Hf. split; [eapply Hin; [exact Iv|cbn; now apply (in_map snd) in Hf]|]. now apply HF. }
    clear S Iv H1 H2 HF. revert Hp0 HF'. generalize (n_type i). intros ty Hp0 HF'.
    induction K as [|[f x] [g y] l m [Ef S] K IHK]; constructor; inversion IH as [|? ? Hx Hl]; subst;
      cbn [forallb fst snd] in *; apply andb_prop in Hp as [Hp1 Hp2]; apply andb_prop in Hp0 as [Hp3 Hp4].
    + subst g. split; [reflexivity|]. destruct (HF' f y) as (I1 & I2 & I3); [now left|]. apply Hx; auto.
      * intros Ex. destruct x; try discriminate Ex. apply I2. now apply pmem_In.
      * intros l0 -> Hl0. apply I3. rewrite Hl0 in Hp3. now apply pmem_In.
    + apply IHK; auto. intros f0 v Hf. apply HF'. now right.
Qed.
