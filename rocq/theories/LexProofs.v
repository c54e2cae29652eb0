From Verif Require Import Py PyFacts Ast Template FromDiff PatTok PatSpec PatTokProofs.
From Coq Require Import Permutation Lia.

(** *** Reading metavariables *)

Fixpoint flagged (n : nat) (l : list (ptok * bool)) : list nat :=
  match l with
  | [] => []
  | (_, b) :: r => if b : bool then n :: flagged (S n) r else flagged (S n) r
  end.

Lemma retokenize_sound : forall toks n ts is_,
  retokenize toks n = Ok (ts, is_) -> exists l, marked toks l /\ ts = map fst l /\ is_ = flagged n l.
Proof.
  intros toks. remember (length toks) as k eqn:Hk.
  assert (Hle : (length toks <= k)%nat) by lia. clear Hk. revert toks Hle.
  induction k as [|k IH]; intros toks Hle n ts is_ H.
  - destruct toks; [|cbn in Hle; lia]. injection H as <- <-. exists []. repeat constructor.
  - destruct toks as [|t rest]; [injection H as <- <-; exists []; repeat constructor|].
    cbn [retokenize] in H. cbn [length] in Hle.
    destruct (text_eqb (pt_string t) [dollar]) eqn:Ed; cbn [negb] in H.
    + destruct ((pt_type t =? T_ERRORTOKEN) || (pt_type t =? T_OP)) eqn:Et; cbn [negb] in H; [|discriminate H].
      destruct rest as [|v rest']; [discriminate H|]. cbn [length] in Hle.
      destruct (is_variable (pt_string v)) eqn:Ev; cbn [negb] in H; [|discriminate H].
      destruct (snd (pt_start t) =? snd (pt_start v) - 1) eqn:Ec; cbn [negb] in H; [|discriminate H].
      destruct (retokenize rest' (S n)) as [[ts' is']|] eqn:E; cbn [bind fst snd] in H; [|discriminate H].
      injection H as <- <-. destruct (IH rest' ltac:(lia) _ _ _ E) as (l & Hl & -> & ->).
      exists ((takes_dollar v, true) :: l). split; [|split; reflexivity].
      apply text_eqb_eq in Ed. constructor; auto.
      * apply orb_true_iff in Et as [Et|Et]; apply Z.eqb_eq in Et; auto.
      * apply Z.eqb_eq in Ec. lia.
    + destruct (retokenize rest (S n)) as [[ts' is']|] eqn:E; cbn [bind fst snd] in H; [|discriminate H].
      injection H as <- <-. destruct (IH rest ltac:(lia) _ _ _ E) as (l & Hl & -> & ->).
      exists ((t, false) :: l). split; [|split; reflexivity].
      apply text_eqb_neq in Ed. constructor; auto.
Qed.

Lemma retokenize_complete toks l : marked toks l -> forall n,
  retokenize toks n = Ok (map fst l, flagged n l).
Proof.
  induction 1 as [|t r l Hd Hl IH|d v r l Hd Ht Hv Hc Hl IH]; intros n; [reflexivity| |].
  - cbn [retokenize]. replace (text_eqb (pt_string t) [dollar]) with false by (symmetry; now apply text_eqb_neq).
    cbn [negb]. rewrite IH. reflexivity.
  - cbn [retokenize]. replace (text_eqb (pt_string d) [dollar]) with true by (symmetry; now apply text_eqb_eq).
    cbn [negb].
    replace ((pt_type d =? T_ERRORTOKEN) || (pt_type d =? T_OP)) with true
      by (symmetry; apply orb_true_iff; destruct Ht as [->| ->]; [left|right]; apply Z.eqb_refl).
    cbn [negb]. rewrite Hv. cbn [negb].
    replace (snd (pt_start d) =? snd (pt_start v) - 1) with true by (symmetry; apply Z.eqb_eq; lia).
    cbn [negb]. rewrite IH. reflexivity.
Qed.

Lemma flagged_In l : forall n i, In i (flagged n l) <-> exists j, i = (n + j)%nat /\ meta_at l j.
Proof.
  induction l as [|[t b] r IH]; intros n i; cbn [flagged].
  - split; [intros [] | intros ([|j] & _ & t & H); discriminate H].
  - assert (E : In i (if b then n :: flagged (S n) r else flagged (S n) r) <->
                (b = true /\ i = n) \/ In i (flagged (S n) r)).
    { destruct b; cbn [In]; intuition congruence. }
    rewrite E, IH. split.
    + intros [[-> ->]|(j & -> & H)].
      * exists O. split; [lia|]. exists t. reflexivity.
      * exists (S j). split; [lia|]. exact H.
    + intros ([|j] & -> & (u & H)).
      * left. cbn in H. injection H as -> ->. split; [reflexivity|lia].
      * right. exists j. split; [lia|]. exists u. exact H.
Qed.
Lemma flagged_NoDup l : forall n, NoDup (flagged n l) /\ forall i, In i (flagged n l) -> (n <= i)%nat.
Proof.
  induction l as [|[t b] r IH]; intros n; cbn [flagged]; [split; [constructor|intros i []]|].
  destruct (IH (S n)) as [H1 H2].
  destruct b; [|split; [exact H1 | intros i Hi; apply H2 in Hi; lia]].
  split.
  - constructor; [intro H; apply H2 in H; lia | exact H1].
  - intros i [->|Hi]; [lia|]. apply H2 in Hi. lia.
Qed.

(** Dropping the added newline. *)
Lemma drop_newline_snoc r b a : drop_newline (r ++ [b; a]) =
  if text_eqb (pt_string b) [NL] then r ++ [a] else r ++ [b; a].
Proof. unfold drop_newline. rewrite rev_app_distr. cbn [rev app]. destruct (text_eqb _ _); [now rewrite rev_involutive|reflexivity]. Qed.


Lemma marked_end pre t l : is_variable (pt_string t) = false -> pt_string t <> TX "$" -> marked (pre ++ [t]) l -> exists l', l = l' ++ [(t, false)] /\ marked pre l'.
Proof.
  intros Ht Hnd H. remember (pre ++ [t]) as toks eqn:E. revert pre E.
  induction H as [|u r l Hd Hl IH|d v r l Hd Hty Hv Hc Hl IH]; intros pre E.
  - destruct pre; discriminate E.
  - destruct pre as [|x pre]; cbn in E; injection E as -> E.
    + subst r. inversion Hl; subst. exists []. split; [reflexivity|constructor].
    + destruct (IH _ E) as (l' & -> & Hl'). exists ((x, false) :: l'). split; [reflexivity|]. now constructor.
  - destruct pre as [|x pre]; cbn in E; injection E as -> E; [now destruct (Hnd Hd)|].
    destruct pre as [|y pre]; cbn in E; injection E as -> E.
    + congruence.
    + destruct (IH _ E) as (l' & -> & Hl'). exists ((takes_dollar y, true) :: l'). split; [reflexivity|]. now constructor.
Qed.

Lemma final_marks_fst added l : map fst (final_marks added l) = (if added then drop_newline (map fst l) else map fst l).
Proof.
  destruct added; [|reflexivity]. unfold final_marks, drop_newline. rewrite <- map_rev.
  destruct (rev l) as [|a [|b r]] eqn:E; cbn [map]; [reflexivity|reflexivity|].
  destruct (text_eqb _ _); [|reflexivity]. now rewrite map_app, map_rev.
Qed.
Lemma flagged_app l1 l2 n : flagged n (l1 ++ l2) = flagged n l1 ++ flagged (n + length l1) l2.
Proof.
  revert n. induction l1 as [|[t b] r IH]; intros n; cbn [flagged app length].
  - now rewrite Nat.add_0_r.
  - rewrite IH. replace (n + S (length r))%nat with (S n + length r)%nat by lia. now destruct b.
Qed.
Lemma marked_meta toks l t : marked toks l -> In (t, true) l -> is_variable (pt_string t) = true.
Proof.
  induction 1 as [|u r l Hd Hl IH|d v r l Hd Hty Hv Hc Hl IH]; [intros []| |].
  - intros [H|H]; [discriminate H | auto].
  - intros [H|H]; [injection H as <-; exact Hv | auto].
Qed.
Lemma final_marks_flagged added toks l : ends toks -> marked toks l ->
  flagged 0 (final_marks added l) = flagged 0 l.
Proof.
  intros (pre & t & -> & _ & Ht) Hl. destruct added; [|reflexivity].
  pose proof Hl as Hl0. apply marked_end in Hl as (l' & -> & Hl'); [|rewrite Ht; easy|rewrite Ht; easy].
  unfold final_marks. rewrite rev_app_distr. cbn [rev app].
  destruct (rev l') as [|[b c] r] eqn:E; [reflexivity|].
  destruct (text_eqb (pt_string (fst (b, c))) [NL]) eqn:En; [|reflexivity].
  assert (El : l' = rev r ++ [(b, c)]) by (rewrite <- (rev_involutive l'), E; reflexivity).
  apply text_eqb_eq in En. cbn [fst] in En.
  destruct c.
  - pose proof (marked_meta _ _ b Hl' ltac:(rewrite El; apply in_or_app; right; now left)) as Hv.
    rewrite En in Hv. discriminate Hv.
  - rewrite El, <- app_assoc. rewrite !flagged_app. cbn [flagged app]. reflexivity.
Qed.

(** [token_pattern]: a [SyntaxError] or the marked tokens. *)
Theorem token_pattern_spec tokenize pattern toks :
  let added := negb (endswith [NL] pattern) in
  tokenize (if added then pattern ++ [NL] else pattern) = Ok toks -> ends toks ->
  forall ts is_, token_pattern tokenize pattern = Ok (ts, is_) <->
  exists l, marked toks l /\ ts = map fst (final_marks added l) /\ is_ = flagged 0 (final_marks added l).
Proof.
  intros added Ht He ts is_. unfold token_pattern. cbv zeta. subst added. match goal with |- context [tokenize ?x] => replace (tokenize x) with (Ok toks) by (symmetry; exact Ht) end. set (added := negb (endswith [NL] pattern)).
  split.
  - intros H. destruct (retokenize toks 0) as [[ts' is']|] eqn:E; cbn [bind fst snd] in H; [|discriminate H].
    injection H as <- <-. apply retokenize_sound in E as (l & Hl & -> & ->).
    exists l. split; [exact Hl|]. rewrite final_marks_fst, (final_marks_flagged _ _ _ He Hl). auto.
  - intros (l & Hl & -> & ->). rewrite (retokenize_complete _ _ Hl). cbn [bind fst snd].
    rewrite final_marks_fst, (final_marks_flagged _ _ _ He Hl). reflexivity.
Qed.

(** *** Untokenizing *)

(** Only positions matter. *)
Inductive placed : Z -> Z * Z -> place -> list nat -> list (text * ptok) -> Prop :=
  | PL_nil p at_ ind w : placed w p at_ ind []
  | PL_end p at_ ind t w l : pt_type t = T_ENDMARKER -> placed w p at_ ind (([], t) :: l)
  | PL_word p at_ ind w g t l :
      is_word t -> blank at_ g -> pt_start t = after p g ->
      (w = 0 \/ exists i ind', ind = i :: ind' /\ Z.of_nat i <= snd (pt_start t)) ->
      placed 0 (pt_end t) Inside ind l ->
      placed w p at_ ind ((g, t) :: l)
  | PL_newline row col at_ ind k t l :
      is_newline t -> pt_start t = (row, col + Z.of_nat k) -> fst (pt_end t) = row ->
      placed 0 (row + 1, 0) LineStart ind l ->
      placed 0 (row, col) at_ ind ((spaces k, t) :: l)
  | PL_indent p at_ ind k t l :
      pt_type t = T_INDENT -> pt_string t = spaces k -> at_ <> Inside ->
      placed 0 p at_ (k :: ind) l -> placed 0 p at_ ind (([], t) :: l)
  | PL_dedent row i ind w t l :
      pt_type t = T_DEDENT -> fst (pt_end t) = row -> 0 <= snd (pt_end t) ->
      placed (snd (pt_end t)) (row, 0) LineStart ind l ->
      placed w (row, 0) LineStart (i :: ind) (([], t) :: l).

Definition agrees (w : Z) (p : Z * Z) (at_ : place) (ind : list nat) (st : unstate) : Prop :=
  u_row st = fst p /\ u_col st = snd p + w /\ u_indents st = map spaces ind /\ 0 <= w
  /\ match at_ with
     | Start => u_startline st = false /\ w = 0 /\ snd p = 0
     | LineStart => u_startline st = true /\ snd p = 0
     | Inside => (u_startline st = false \/ ind = []) /\ w = 0
     end.

Fixpoint upto_end (l : list (text * ptok)) : text :=
  match l with
  | [] => []
  | (g, t) :: r => if pt_type t =? T_ENDMARKER then [] else g ++ shown t ++ upto_end r
  end.

Lemma spaces_len k : tlen (spaces k) = Z.of_nat k.
Proof. unfold tlen, spaces. now rewrite repeat_length. Qed.
Lemma spaces_app a b : spaces a ++ spaces b = spaces (a + b).
Proof. unfold spaces. now rewrite repeat_app. Qed.

Lemma ws_same_row row col k c : c <= col + Z.of_nat k -> whitespace_before row c (row, col + Z.of_nat k)
   = Ok (spaces (Z.to_nat (col + Z.of_nat k - c))).
Proof.
  intros H. unfold whitespace_before. cbn [fst snd].
  replace ((row <? row) || ((row =? row) && (col + Z.of_nat k <? c))) with false.
  - rewrite Z.eqb_refl, Z.sub_diag. reflexivity.
  - symmetry. rewrite Z.ltb_irrefl, Z.eqb_refl. cbn. apply Z.ltb_ge. lia.
Qed.

Lemma after_app p a b : after p (a ++ b) = after (after p a) b.
Proof. revert p. induction a as [|c a IH]; intro p; cbn [app after]; [reflexivity|apply IH]. Qed.
Lemma after_spaces p k : after p (spaces k) = (fst p, snd p + Z.of_nat k).
Proof.
  revert p. unfold spaces. induction k as [|k IH]; intros [r c]; cbn [repeat after fst snd].
  - f_equal. lia.
  - change (32 =? NL) with false. cbv iota. rewrite IH. cbn [fst snd]. f_equal. lia.
Qed.
Lemma after_cont p n : after p (concat (repeat continuation (S n))) = (fst p + Z.of_nat (S n), 0).
Proof.
  revert p. induction n as [|n IH]; intros [r c].
  - reflexivity.
  - change (after (r, c) (continuation ++ concat (repeat continuation (S n))) = (fst (r, c) + Z.of_nat (S (S n)), 0)).
    rewrite after_app, IH. cbn. f_equal. lia.
Qed.
Lemma blank_cases at_ g : blank at_ g -> (exists k, g = spaces k) \/
  (at_ = Inside /\ exists n k, g = concat (repeat continuation (S n)) ++ spaces k).
Proof.
  intros (n & k & -> & H). destruct n as [|n]; [left; eexists; reflexivity|].
  right. destruct H as [H|H]; [discriminate H|]. split; [exact H|eauto].
Qed.
Lemma cont_NL n k : In NL (concat (repeat continuation (S n)) ++ spaces k).
Proof. cbn. tauto. Qed.
Lemma ws_next_row row col n k : whitespace_before row col (row + Z.of_nat (S n), Z.of_nat k)
   = Ok (concat (repeat continuation (S n)) ++ spaces k).
Proof.
  unfold whitespace_before. cbn [fst snd].
  replace (row + Z.of_nat (S n) <? row) with false by (symmetry; apply Z.ltb_ge; lia).
  replace (row + Z.of_nat (S n) =? row) with false by (symmetry; apply Z.eqb_neq; lia).
  cbn [orb andb]. do 3 f_equal; [do 2 f_equal; lia|unfold spaces; f_equal; lia].
Qed.

Lemma type_neq (t : Z) l x : ~ In t l -> In x l -> (t =? x) = false.
Proof. intros H1 H2. apply Z.eqb_neq. intros ->. contradiction. Qed.

Lemma word_shown t : is_word t -> shown t = pt_string t.
Proof.
  intros H. unfold shown. cbn [existsb].
  rewrite (type_neq _ _ T_ENDMARKER H), (type_neq _ _ T_INDENT H), (type_neq _ _ T_DEDENT H); cbn; tauto.
Qed.
Lemma newline_shown t : is_newline t -> shown t = pt_string t.
Proof. intros H. unfold shown. destruct H as [-> | ->]; reflexivity. Qed.

Lemma untok_placed w p at_ ind l : placed w p at_ ind l -> forall st, agrees w p at_ ind st ->
  untok_loop (map snd l) st = Ok (u_out st ++ upto_end l).
Proof.
  induction 1 as [p at_ ind w|p at_ ind t w l Ht|p at_ ind w g t l Hw Hbl Hs Hcol Hp IH
                 |row col at_ ind k t l Hn Hs Hr Hp IH|p at_ ind k t l Ht Hstr Hat Hp IH|row i ind w t l Ht Hr Hc Hp IH];
    intros st A; cbn [map snd untok_loop upto_end].
  - now rewrite app_nil_r.
  - unfold untok_one. rewrite Ht. cbn [Z.eqb T_ENDMARKER T_ENCODING]. cbn [bind]. now rewrite app_nil_r.
  - destruct A as (A1 & A2 & A3 & A4 & A5).
    unfold untok_one.
    rewrite (type_neq _ _ T_ENCODING Hw), (type_neq _ _ T_ENDMARKER Hw), (type_neq _ _ T_INDENT Hw),
      (type_neq _ _ T_DEDENT Hw), (type_neq _ _ T_NEWLINE Hw), (type_neq _ _ T_NL Hw) by (cbn; tauto).
    cbn [orb].
    set (x := if u_startline st then _ else _).
    assert (Hx : exists out c s' ws, x = (out, c, s') /\ (s' = false \/ ind = [])
              /\ whitespace_before (u_row st) c (pt_start t) = Ok ws /\ out ++ ws = u_out st ++ g).
    { unfold x. rewrite A3. apply blank_cases in Hbl as [(k & ->)|(-> & n & k & ->)].
      - rewrite after_spaces in Hs. destruct p as [row col]. cbn [fst snd] in *.
        assert (Hx : exists out c s', x = (out, c, s') /\ (s' = false \/ ind = [])
              /\ c <= col + Z.of_nat k /\ out ++ spaces (Z.to_nat (col + Z.of_nat k - c)) = u_out st ++ spaces k).
        { unfold x. rewrite A3. rewrite Hs in Hcol. cbn [snd] in Hcol. destruct (u_startline st) eqn:Es.
          - destruct ind as [|i ind]; cbn [map].
            + exists (u_out st), (u_col st), true. split; [reflexivity|]. split; [now right|].
              assert (w = 0) by (destruct Hcol as [|(i & ind' & H & _)]; [assumption|discriminate H]). subst w.
              split; [lia|]. do 2 f_equal. lia.
            + rewrite spaces_len, Hs. cbn [snd].
              assert (Hcol0 : at_ = Inside \/ col = 0).
              { destruct at_; [destruct A5 as [A5 _]; congruence | right; tauto | now left]. }
              destruct Hcol0 as [-> | ->].
              { destruct A5 as [[A5|A5] _]; [congruence|discriminate A5]. }
              destruct (Z.of_nat i <=? 0 + Z.of_nat k) eqn:El.
              * apply Z.leb_le in El. eexists _, _, _. split; [reflexivity|]. split; [now left|]. split; [lia|].
                rewrite <- app_assoc, spaces_app. do 2 f_equal. lia.
              * apply Z.leb_gt in El. eexists _, _, _. split; [reflexivity|]. split; [now left|].
                assert (w = 0).
                { destruct Hcol as [|(i' & ind' & H & H')]; [assumption|]. injection H as <- <-. lia. }
                subst w. split; [lia|]. do 2 f_equal. lia.
          - eexists _, _, _. split; [reflexivity|]. split; [now left|].
            assert (w = 0).
            { destruct at_; [tauto | destruct A5; congruence | tauto]. }
            subst w. split; [lia|]. do 2 f_equal. lia. }
        destruct Hx as (out & c & s' & Ex & Hs' & Hc & Hout). unfold x in Ex. rewrite A3 in Ex.
        exists out, c, s', (spaces (Z.to_nat (col + Z.of_nat k - c))). split; [exact Ex|]. split; [exact Hs'|]. split; [|exact Hout].
        rewrite A1, Hs. apply ws_same_row. exact Hc.
      - rewrite after_app, after_cont, after_spaces in Hs. cbn [fst snd] in Hs. rewrite Z.add_0_l in Hs.
        destruct A5 as [A5 _].
        exists (u_out st), (u_col st), (u_startline st), (concat (repeat continuation (S n)) ++ spaces k).
        split; [destruct A5 as [-> | ->]; [reflexivity|]; cbn [map]; now destruct (u_startline st)|].
        split; [exact A5|]. split; [|reflexivity]. rewrite A1, Hs. apply ws_next_row. }
    destruct Hx as (out & c & s' & ws & -> & Hs' & Hws & Hout).
    rewrite Hws. cbn [bind].
    replace (pt_type t =? T_ENDMARKER) with false by (symmetry; apply (type_neq _ _ T_ENDMARKER Hw); cbn; tauto).
    rewrite (word_shown _ Hw), IH.
    + cbn [u_out]. rewrite !app_assoc. do 2 f_equal. rewrite <- !app_assoc. rewrite !app_assoc. now rewrite Hout.
    + repeat split; cbn [u_row u_col u_indents u_startline]; auto; lia.
  - destruct A as (A1 & A2 & A3 & A4 & A5). cbn [fst snd] in *.
    assert (Hty : exists ty, pt_type t = ty /\ (ty =? T_ENCODING) = false /\ (ty =? T_ENDMARKER) = false
       /\ (ty =? T_INDENT) = false /\ (ty =? T_DEDENT) = false /\ ((ty =? T_NEWLINE) || (ty =? T_NL)) = true).
    { destruct Hn as [-> | ->]; eexists; (split; [reflexivity|]); repeat split; reflexivity. }
    destruct Hty as (ty & Et & E1 & E2 & E3 & E4 & E5).
    unfold untok_one. rewrite Et, E1, E2, E3, E4, E5.
    rewrite A1, Hs, A2, Z.add_0_r, ws_same_row by lia. cbn [bind].
    rewrite (newline_shown _ Hn), IH.
    + cbn [u_out]. rewrite <- !app_assoc. do 4 f_equal. lia.
    + repeat split; cbn [u_row u_col u_indents u_startline fst snd]; auto; lia.
  - unfold untok_one. rewrite Ht.
    change (T_INDENT =? T_ENCODING) with false. change (T_INDENT =? T_ENDMARKER) with false.
    change (T_INDENT =? T_INDENT) with true. cbn [bind app].
    replace (shown t) with (@nil char) by (unfold shown; now rewrite Ht). rewrite IH; [reflexivity|].
    destruct A as (A1 & A2 & A3 & A4 & A5). repeat split; cbn [u_row u_col u_indents u_startline map]; auto.
    + now rewrite Hstr, A3.
    + destruct at_; [tauto|tauto|congruence].
  - destruct A as (A1 & A2 & A3 & A4 & A5). cbn [map] in A3.
    unfold untok_one. rewrite Ht, A3.
    change (T_DEDENT =? T_ENCODING) with false. change (T_DEDENT =? T_ENDMARKER) with false.
    change (T_DEDENT =? T_INDENT) with false. change (T_DEDENT =? T_DEDENT) with true. cbn [bind app].
    replace (shown t) with (@nil char) by (unfold shown; now rewrite Ht). rewrite IH; [reflexivity|].
    repeat split; cbn [u_row u_col u_indents u_startline fst snd]; auto; try tauto; try lia.
Qed.

(** *** Substituting *)
Definition fill (value : text -> text) (tb : ptok * bool) : ptok :=
  if snd tb then with_string (fst tb) (value (pt_string (fst tb))) else fst tb.

Lemma spaces_not_var k : is_variable (spaces k) = false.
Proof. destruct k; reflexivity. Qed.
Lemma space_not_var s : forallb is_space s = true -> is_variable s = false.
Proof.
  destruct s as [|c r]; [reflexivity|]. cbn [forallb is_variable]. intros H. apply andb_true_iff in H as [H _].
  apply andb_false_iff. left. unfold is_space in H. unfold is_ident_start.
  repeat rewrite orb_true_iff in H. rewrite !orb_false_iff, !andb_false_iff.
  rewrite ?andb_true_iff, ?Z.eqb_eq, ?Z.leb_le in H. rewrite ?Z.eqb_neq, ?Z.leb_gt. lia.
Qed.
Lemma space_not_dollar s : forallb is_space s = true -> s <> TX "$".
Proof. intros H ->. discriminate H. Qed.

Lemma with_string_word t s : is_word t -> is_word (with_string t s).
Proof. exact (fun H => H). Qed.

(** The identifier of a metavariable directly follows the [$]. *)
Lemma dollar_gap at_ d v g l : blank at_ g -> same_line ((g, v) :: l) ->
  pt_start v = after (fst (pt_start d), snd (pt_start d) + 1) g -> snd (pt_start v) = snd (pt_start d) + 1 ->
  g = [] /\ pt_start v = (fst (pt_start d), snd (pt_start d) + 1).
Proof.
  intros Hb Hl Hs Hc. apply blank_cases in Hb as [(k & ->)|(_ & n & k & ->)]; [|exfalso; exact (Hl (cont_NL n k))].
  rewrite after_spaces in Hs. cbn [fst snd] in Hs. rewrite Hs in Hc. cbn [snd] in Hc.
  assert (k = 0%nat) by lia. subst k. split; [reflexivity|]. rewrite Hs. f_equal. lia.
Qed.
Lemma merge_placed w p at_ ind gl : spelled w p at_ ind gl -> forall l, marked (map snd gl) l ->
  exists gs, length gs = length l /\
    forall value, placed w p at_ ind (combine gs (map (fill value) l))
      /\ upto_end (combine gs (map (fill value) l)) = expand value gl.
Proof.
  intros H. remember (length gl) as n eqn:Hn. assert (Hle : (length gl <= n)%nat) by lia. clear Hn.
  revert w p at_ ind gl Hle H.
  induction n as [|n IH]; intros w p at_ ind gl Hle H l Hm; [destruct gl; [inversion H|cbn in Hle; lia]|].
  assert (Keep : forall g t gl' w' p' at' ind', gl = (g, t) :: gl' -> pt_string t <> TX "$" ->
     pt_type t <> T_ENDMARKER -> spelled w' p' at' ind' gl' ->
     (forall m, placed w' p' at' ind' m -> placed w p at_ ind ((g, t) :: m)) ->
     exists gs, length gs = length l /\ forall value, placed w p at_ ind (combine gs (map (fill value) l))
      /\ upto_end (combine gs (map (fill value) l)) = expand value gl).
  { intros g t gl' w' p' at' ind' -> Hd He Hsp Hpl. cbn [map snd] in Hm. cbn [length] in Hle.
    inversion Hm as [|? ? l0 ? Hl0|]; subst; [|congruence].
    destruct (IH _ _ _ _ gl' ltac:(lia) Hsp _ Hl0) as (gs & Hlen & Hgs).
    exists (g :: gs). split; [cbn; lia|]. intros value. destruct (Hgs value) as [G1 G2].
    cbn [map combine fill snd fst]. split; [now apply Hpl|].
    cbn [upto_end]. apply Z.eqb_neq in He. rewrite He, G2. cbn [expand].
    destruct gl' as [|[g2 v] gl'']; [inversion Hsp|].
    replace (text_eqb (pt_string t) (TX "$")) with false by (symmetry; now apply text_eqb_neq). reflexivity. }
  inversion H as [p0 a0 i0 t w0 Ht Hs0|p1 a0 i0 w0 g0 t gl' Hw Hbl Hs He Hcol Hsl Hsp|row col a0 i0 k t gl' Hnl Hspc Hs Hr Hsp
                 |p0 a0 i0 k t gl' Ht Hstr Hat Hsp|row i i0 w0 t gl' Ht Hs0 Hr Hc Hsp]; subst.
  - cbn [map snd] in Hm. inversion Hm as [|? ? l0 Hd Hl0|]; subst. inversion Hl0; subst.
    exists [[]]. split; [reflexivity|]. intros value. cbn [map combine fill snd fst]. split; [now constructor|].
    cbn [upto_end expand]. rewrite Ht. unfold shown. now rewrite Ht.
  - destruct (text_eqb (pt_string t) (TX "$")) eqn:Ed.
    + apply text_eqb_eq in Ed. cbn [map snd] in Hm.
      inversion Hm as [|? ? l0 Hd Hl0|d v r l0 Hd Hty Hv Hc Hl0]; subst; [congruence|].
      match goal with X : _ :: _ = map snd gl' |- _ => rename X into E1 end.
      destruct gl' as [|[g2 v'] gl'']; [discriminate E1|]. cbn [map snd] in E1. injection E1 as -> ->.
      rewrite Ed in He. cbn [s2t after] in He. change (_ =? NL) with false in He. cbn [after] in He.
      (* v *)
      rewrite He in Hsp.
      assert (Hv2 : is_word v' /\ g2 = [] /\ pt_start v' = (fst (pt_start t), snd (pt_start t) + 1)
                    /\ spelled 0 (pt_end v') Inside ind gl'').
      { inversion Hsp as [? ? ? ? ? ? Hs0'|? ? ? ? g3 ? ? Hw' Hbl' Hs' He' Hcol' Hsl' Hsp'|? ? ? ? k2 ? ? Hnl Hspc Hs' Hr Hsp'
                 |? ? ? k2 ? ? Ht Hstr Hat Hsp'|? ? ? ? ? ? Ht Hs0' Hr Hcc Hsp']; subst.
        - rewrite Hs0' in Hv. discriminate Hv.
        - destruct (dollar_gap _ _ _ _ _ Hbl' (Hsl Ed) Hs' Hc) as [-> Hs2]. repeat split; auto.
        - rewrite space_not_var in Hv by assumption. discriminate Hv.
        - rewrite Hstr, spaces_not_var in Hv. discriminate Hv. }
      destruct Hv2 as (Hw2 & -> & Hs2 & Hsp2). cbn [length] in Hle.
      destruct (IH _ _ _ _ gl'' ltac:(lia) Hsp2 _ Hl0) as (gs & Hlen & Hgs).
      exists (g0 :: gs). split; [cbn; lia|]. intros value. destruct (Hgs value) as [G1 G2].
      cbn [map combine fill snd fst]. split.
      * apply PL_word; auto; cbn [pt_start with_string takes_dollar with_start]; rewrite Hs2; cbn [fst snd];
          rewrite Z.add_simpl_r; [now rewrite <- surjective_pairing | exact Hcol].
      * cbn [upto_end]. cbn [pt_type with_string takes_dollar with_start].
        rewrite (type_neq _ _ T_ENDMARKER Hw2) by (cbn; tauto). rewrite G2. cbn [expand].
        rewrite Ed. change (text_eqb (TX "$") (TX "$")) with true. cbv iota. f_equal.
        rewrite word_shown by exact Hw2. reflexivity.
    + apply text_eqb_neq in Ed. eapply Keep; eauto.
      * intro E. apply Hw. rewrite E. cbn. tauto.
      * intros m Hmm. now constructor.
  - eapply Keep; eauto.
    + now apply space_not_dollar.
    + destruct Hnl as [-> | ->]; discriminate.
    + intros m Hmm. now constructor.
  - eapply Keep; eauto.
    + rewrite Hstr. destruct k; discriminate.
    + rewrite Ht. discriminate.
    + intros m Hmm. eapply PL_indent; eauto.
  - eapply Keep; eauto.
    + rewrite Hs0. discriminate.
    + rewrite Ht. discriminate.
    + intros m Hmm. now constructor.
Qed.

Lemma same_line_last w p at_ ind e : spelled w p at_ ind [e] -> same_line [e].
Proof.
  intros H. inversion H; subst; try (match goal with X : spelled _ _ _ _ [] |- _ => inversion X end). cbn [same_line]. tauto.
Qed.
Lemma spelled_cut w p at_ ind a n e : spelled w p at_ ind (a ++ [n; e]) -> spelled w p at_ ind (a ++ [e]).
Proof.
  intros H. remember (a ++ [n; e]) as gl eqn:E. revert a E.
  assert (Last : forall w p at_ ind e, spelled w p at_ ind [e] -> forall w' p' at' ind', spelled w' p' at' ind' [e]).
  { clear. intros w p at_ ind e H w' p' at' ind'. inversion H; subst;
      try (match goal with X : spelled _ _ _ _ [] |- _ => inversion X end); now constructor. }
  induction H; intros a E; destruct a as [|x a]; cbn [app] in E |- *; try discriminate E; injection E as ? E; subst;
    try (eapply Last; eassumption).
  - destruct a; discriminate E.
  - apply SL_word; auto. intros Ht. specialize (H4 Ht). destruct a as [|[g' t'] a]; [|exact H4].
    cbn [app] in *. apply (same_line_last 0 (pt_end t) Inside ind). eapply IHspelled with (a := []). reflexivity.
  - apply SL_newline; auto.
  - eapply SL_indent; eauto.
  - apply SL_dedent; auto.
Qed.

(** The tokens after all replacements. *)
Definition put (t : ptok) (o : option text) : ptok := match o with Some s => with_string t s | None => t end.

Lemma set_all_nth vars : forall toks var new i,
  nth_error (set_all toks vars var new) i =
  option_map (fun t => if existsb (fun vi => text_eqb (fst vi) var && Nat.eqb (snd vi) i) vars
                       then with_string t new else t) (nth_error toks i).
Proof.
  induction vars as [|[v j] r IH]; intros toks var new i; cbn [set_all existsb fst snd].
  - destruct (nth_error toks i); reflexivity.
  - rewrite IH. destruct (text_eqb v var) eqn:Ev; cbn [andb orb]; [|reflexivity].
    destruct (nth_error toks j) as [t|] eqn:Ej.
    + destruct (Nat.eqb_spec j i) as [->|Hne].
      * cbn [orb]. rewrite set_nth_same by (apply nth_error_Some; congruence). rewrite Ej. cbn [option_map].
        now destruct (existsb _ r).
      * rewrite set_nth_other by assumption. reflexivity.
    + destruct (Nat.eqb_spec j i) as [->|Hne]; [|reflexivity]. rewrite Ej. reflexivity.
Qed.

Lemma fill_all_nth vars v i : In (v, i) vars -> (forall v', In (v', i) vars -> v' = v) ->
  forall repl toks, dict_ok repl ->
  nth_error (fold_left (fun ts kv => set_all ts vars (fst kv) (snd kv)) repl toks) i =
  option_map (fun t => put t (dget repl v)) (nth_error toks i).
Proof.
  intros Hin Hu. induction repl as [|[k x] r IH]; intros toks Hok; cbn [fold_left fst snd].
  - cbn. destruct (nth_error toks i); reflexivity.
  - inversion Hok as [|? ? Hk Hr]; subst. rewrite IH by exact Hr. rewrite set_all_nth.
    destruct (nth_error toks i) as [t|]; [|reflexivity]. cbn [option_map]. f_equal. cbn [dget].
    destruct (text_eqb_spec k v) as [->|Hne].
    + replace (existsb _ vars) with true.
      * replace (dget r v) with (@None text); [reflexivity|]. symmetry. now apply dget_None.
      * symmetry. apply existsb_exists. exists (v, i). split; [exact Hin|]. cbn. now rewrite text_eqb_refl, Nat.eqb_refl.
    + replace (existsb _ vars) with false; [reflexivity|]. symmetry. apply not_true_is_false. intro H.
      apply existsb_exists in H as ([v' j] & Hj & E). apply andb_true_iff in E as [E1 E2]. cbn in E1, E2.
      apply text_eqb_eq in E1. apply Nat.eqb_eq in E2. subst. apply Hne. now apply Hu.
Qed.
Lemma fill_none_nth vars i : (forall v, ~ In (v, i) vars) ->
  forall repl toks,
  nth_error (fold_left (fun ts kv => set_all ts vars (fst kv) (snd kv)) repl toks) i = nth_error toks i.
Proof.
  intros Hu. induction repl as [|[k x] r IH]; intros toks; cbn [fold_left fst snd]; [reflexivity|].
  rewrite IH, set_all_nth. replace (existsb _ vars) with false.
  - destruct (nth_error toks i); reflexivity.
  - symmetry. apply not_true_is_false. intro H.
    apply existsb_exists in H as ([v' j] & Hj & E). apply andb_true_iff in E as [E1 E2]. cbn in E2.
    apply Nat.eqb_eq in E2. subst. eapply Hu; eauto.
Qed.

Lemma names_at_spec toks order vs : names_at toks order = Ok vs ->
  map snd vs = order /\ forall v i, In (v, i) vs -> string_at toks i v.
Proof.
  revert vs. induction order as [|i r IH]; intros vs H; cbn [names_at] in H.
  - injection H as <-. split; [reflexivity|]. intros v i [].
  - destruct (nth_error toks i) as [t|] eqn:E; [|discriminate H].
    destruct (names_at toks r) as [l|]; cbn [bind] in H; [|discriminate H]. injection H as <-.
    destruct (IH l eq_refl) as [H1 H2]. split; [cbn; congruence|].
    intros v j [Hj|Hj]; [injection Hj as <- <-; exists t; auto | auto].
Qed.
Lemma names_at_ok toks order : (forall i, In i order -> (i < length toks)%nat) -> exists vs, names_at toks order = Ok vs.
Proof.
  induction order as [|i r IH]; intros H; cbn [names_at]; [eauto|].
  destruct (nth_error toks i) eqn:E; [|apply nth_error_None in E; specialize (H i (or_introl eq_refl)); lia].
  destruct IH as [vs ->]; [intros; apply H; now right|]. cbn. eauto.
Qed.

Lemma nth_error_ext {A} (a b : list A) : (forall i, nth_error a i = nth_error b i) -> a = b.
Proof.
  revert b. induction a as [|x a IH]; intros [|y b] H; auto.
  - specialize (H O). discriminate H.
  - specialize (H O). discriminate H.
  - pose proof (H O) as H0. cbn in H0. injection H0 as ->. f_equal. apply IH. intros i. exact (H (S i)).
Qed.


(** All tokens at once. *)
Lemma fill_tokens l order vs repl :
  Permutation order (flagged 0 l) -> names_at (map fst l) order = Ok vs -> dict_ok repl ->
  (forall t, In (t, true) l -> dmem repl (pt_string t) = true) ->
  fold_left (fun ts kv => set_all ts vs (fst kv) (snd kv)) repl (map fst l) = map (fill (lookup repl)) l.
Proof.
  intros Hp Hn Hok Hall. destruct (names_at_spec _ _ _ Hn) as [E1 E2].
  apply nth_error_ext. intros i. rewrite (nth_error_map (fill (lookup repl))).
  destruct (nth_error l i) as [[t b]|] eqn:El.
  - cbn [option_map]. destruct b.
    + assert (Hi : In i order).
      { apply Permutation_sym in Hp. eapply Permutation_in; [exact Hp|]. apply flagged_In. exists i. split; [reflexivity|]. exists t. exact El. }
      rewrite <- E1 in Hi. apply in_map_iff in Hi as ([v j] & Hj & Hvi). cbn in Hj. subst j.
      assert (St : forall v', In (v', i) vs -> v' = pt_string t).
      { intros v' Hv'. apply E2 in Hv' as (u & Hu & <-). rewrite nth_error_map, El in Hu. now injection Hu as <-. }
      rewrite (St v Hvi) in Hvi. rewrite (fill_all_nth _ _ _ Hvi St) by exact Hok.
      rewrite nth_error_map, El. cbn [option_map fst]. f_equal. unfold fill, lookup, put. cbn [fst snd].
      pose proof (Hall t (nth_error_In _ _ El)) as H. unfold dmem in H.
      destruct (dget repl (pt_string t)); [reflexivity|discriminate H].
    + rewrite fill_none_nth; [rewrite nth_error_map, El; reflexivity|].
      intros v Hv. assert (Hi : In i order) by (rewrite <- E1; change i with (snd (v, i)); now apply in_map).
      apply (Permutation_in _ Hp) in Hi. apply flagged_In in Hi as (j & Hj & (u & Hu)). cbn in Hj. subst j. congruence.
  - cbn [option_map]. apply nth_error_None in El. apply nth_error_None.
    assert (Hlen : forall r toks, length (fold_left (fun ts kv => set_all ts vs (fst kv) (snd kv)) r toks) = length toks).
    { clear. assert (Hs : forall us toks (v x : text), length (set_all toks us v x) = length toks).
      { induction us as [|[v j] r IH]; intros toks v' x; cbn [set_all]; [reflexivity|]. rewrite IH.
        destruct (text_eqb v v'); [|reflexivity]. destruct (nth_error toks j); [apply set_nth_length|reflexivity]. }
      induction r as [|kv r IH]; intros toks; cbn [fold_left]; [reflexivity|]. now rewrite IH, Hs. }
    rewrite Hlen, map_length. exact El.
Qed.

Lemma marked_metavars toks l : marked toks l -> forall x, In x (metavars toks) <-> exists t, In (t, true) l /\ pt_string t = x.
Proof.
  induction 1 as [|t r l Hd Hl IH|d v r l Hd Hty Hv Hc Hl IH]; intros x.
  - split; [intros [] | intros (t & [] & _)].
  - assert (E : metavars (t :: r) = metavars r).
    { cbn [metavars]. destruct r as [|v r']; [reflexivity|].
      replace (text_eqb (pt_string t) (TX "$")) with false by (symmetry; now apply text_eqb_neq). reflexivity. }
    rewrite E, IH. split; intros (u & Hu & Hx); exists u; (split; [|exact Hx]); [now right|].
    destruct Hu as [Hu|Hu]; [discriminate Hu|exact Hu].
  - cbn [metavars]. rewrite Hd. change (text_eqb (TX "$") (TX "$")) with true. cbv iota. cbn [In]. rewrite IH. split.
    + intros [<-|(u & Hu & Hx)]; [exists (takes_dollar v); split; [now left|reflexivity] | exists u; split; [now right|exact Hx]].
    + intros (u & [Hu|Hu] & Hx); [injection Hu as <-; left; exact Hx | right; eauto].
Qed.

Lemma spelled_ends w p at_ ind gl : spelled w p at_ ind gl -> ends (map snd gl).
Proof.
  induction 1 as [p at_ ind t w Ht Hs|p at_ ind w g t l Hw Hbl Hs He Hcol Hsl Hp IH
                 |row col at_ ind k t l Hn Hsp Hs Hr Hp IH|p at_ ind k t l Ht Hstr Hat Hp IH|row i ind w t l Ht Hs0 Hr Hc Hp IH].
  - exists [], t. auto.
  - destruct IH as (pre & e & E & H). exists (t :: pre), e. cbn [map snd app]. rewrite E. auto.
  - destruct IH as (pre & e & E & H). exists (t :: pre), e. cbn [map snd app]. rewrite E. auto.
  - destruct IH as (pre & e & E & H). exists (t :: pre), e. cbn [map snd app]. rewrite E. auto.
  - destruct IH as (pre & e & E & H). exists (t :: pre), e. cbn [map snd app]. rewrite E. auto.
Qed.

(** Dropping the newline keeps everything. *)
Lemma drop_spelled gl l w p at_ ind : spelled w p at_ ind gl -> marked (map snd gl) l ->
  spelled w p at_ ind (without_newline gl) /\ marked (map snd (without_newline gl)) (final_marks true l)
  /\ forall t, In (t, true) (final_marks true l) <-> In (t, true) l.
Proof.
  intros Hs Hm. unfold without_newline.
  destruct (rev gl) as [|e [|n r]] eqn:E.
  - assert (gl = []) by (rewrite <- (rev_involutive gl), E; reflexivity). subst. inversion Hs.
  - assert (Eg : gl = [e]) by (rewrite <- (rev_involutive gl), E; reflexivity).
    assert (El : final_marks true l = l).
    { subst gl. cbn [map] in Hm. inversion Hm as [|? ? l0 ? Hl0|]; subst. inversion Hl0; subst. reflexivity. }
    rewrite El. tauto.
  - assert (Eg : gl = rev r ++ [n; e]).
    { rewrite <- (rev_involutive gl), E. cbn [rev]. now rewrite <- app_assoc. }
    assert (He : pt_string (snd e) = []).
    { destruct (spelled_ends _ _ _ _ _ Hs) as (pre & t & Ht & _ & Hst). rewrite Eg, map_app in Ht. cbn [map] in Ht.
      change [snd n; snd e] with ([snd n] ++ [snd e]) in Ht. rewrite app_assoc in Ht. apply app_inj_tail in Ht as [_ <-]. exact Hst. }
    rewrite Eg in Hm. rewrite map_app in Hm. cbn [map] in Hm.
    change [snd n; snd e] with ([snd n] ++ [snd e]) in Hm. rewrite app_assoc in Hm.
    apply marked_end in Hm as (l1 & -> & Hm1); [|rewrite He; easy|rewrite He; easy].
    destruct (text_eqb (pt_string (snd n)) [NL]) eqn:En.
    + apply text_eqb_eq in En.
      apply marked_end in Hm1 as (l2 & -> & Hm2); [|rewrite En; easy|rewrite En; easy].
      assert (Ef : final_marks true ((l2 ++ [(snd n, false)]) ++ [(snd e, false)]) = l2 ++ [(snd e, false)]).
      { unfold final_marks. rewrite !rev_app_distr. cbn [rev app fst]. rewrite En. cbn. now rewrite rev_involutive. }
      rewrite Ef. split; [|split].
      * rewrite Eg in Hs. eapply spelled_cut; eauto.
      * rewrite map_app. cbn [map]. clear - Hm2 He. induction Hm2; cbn [app]; try (constructor; assumption).
        constructor; [rewrite He; easy | constructor].
      * intros t. rewrite !in_app_iff. cbn [In]. intuition congruence.
    + assert (Ef : final_marks true (l1 ++ [(snd e, false)]) = l1 ++ [(snd e, false)]).
      { unfold final_marks. rewrite rev_app_distr. cbn [rev app].
        destruct (rev l1) as [|[b c] q] eqn:Eq; [reflexivity|]. cbn [fst].
        destruct (text_eqb (pt_string b) [NL]) eqn:Eb; [|reflexivity].
        (* the last mark comes from n *)
        assert (El1 : l1 = rev q ++ [(b, c)]) by (rewrite <- (rev_involutive l1), Eq; reflexivity).
        exfalso. subst l1. apply text_eqb_eq in Eb. apply text_eqb_neq in En.
        remember (map snd (rev r) ++ [snd n]) as toks eqn:Et.
        assert (Hlast : last toks (snd n) = b).
        { clear - Hm1 Eb. remember (rev q ++ [(b, c)]) as l eqn:El.
          assert (G : forall toks l, marked toks l -> forall q b c, l = q ++ [(b, c)] -> pt_string b = [NL] ->
                       exists pre, toks = pre ++ [b]).
          { clear. induction 1 as [|t r l Hd Hl IH|d v r l Hd Hty Hv Hc Hl IH]; intros q b c E Hb.
            - destruct q; discriminate E.
            - destruct q as [|x q]; injection E as E1 E2; subst.
              + inversion Hl; subst. exists []. reflexivity.
              + destruct (IH _ _ _ eq_refl Hb) as (pre & ->). exists (t :: pre). reflexivity.
            - destruct q as [|x q]; injection E as E1 E2; subst.
              + cbn in Hb. rewrite Hb in Hv. discriminate Hv.
              + destruct (IH _ _ _ eq_refl Hb) as (pre & ->). exists (d :: v :: pre). reflexivity. }
          destruct (G _ _ Hm1 _ _ _ El Eb) as (pre & ->). now rewrite last_last. }
        subst toks. rewrite last_last in Hlast. congruence. }
      rewrite Ef. split; [exact Hs|]. split; [|tauto].
      rewrite Eg, map_app. cbn [map]. change [snd n; snd e] with ([snd n] ++ [snd e]). rewrite app_assoc.
      clear - Hm1 He. induction Hm1; cbn [app]; try (constructor; assumption).
      constructor; [rewrite He; easy | constructor].
Qed.

Lemma combine_snd {A B} (a : list A) (b : list B) : length a = length b -> map snd (combine a b) = b.
Proof.
  revert b; induction a as [|x a IH]; intros [|y b] H; cbn in *; try lia; auto. f_equal. apply IH. lia.
Qed.

Theorem lex_template_spec tokenize order src gl :
  let added := negb (endswith [NL] src) in
  tokenize (if added then src ++ [NL] else src) = Ok (map snd gl) ->
  spelled 0 (1, 0) Start [] gl -> (forall l, Permutation (order l) l) ->
  ((exists lt, lexical_template tokenize order src = Ok lt) <-> exists l, marked (map snd gl) l)
  /\ forall lt, lexical_template tokenize order src = Ok lt ->
     (forall x, In x (lex_variables lt) <-> In x (metavars (map snd gl)))
     /\ forall repl, dict_ok repl -> src <> [] ->
        lex_substitute lt repl =
        if forallb (dmem repl) (metavars (map snd gl))
        then Ok (expand (lookup repl) (if added then without_newline gl else gl))
        else Err KeyError.
Proof.
  intros added Ht Hs Hp.
  pose proof (spelled_ends _ _ _ _ _ Hs) as He.
  pose proof (token_pattern_spec tokenize src (map snd gl) Ht He) as TP. cbv zeta in TP. fold added in TP.
  assert (Main : forall lt, lexical_template tokenize order src = Ok lt -> exists l vs, marked (map snd gl) l /\
     lt = LexT src (map fst (final_marks added l)) vs /\
     names_at (map fst (final_marks added l)) (order (flagged 0 (final_marks added l))) = Ok vs).
  { intros lt H. unfold lexical_template in H.
    destruct (token_pattern tokenize src) as [[ts is_]|] eqn:E; cbn [bind fst snd] in H; [|discriminate H].
    destruct (proj1 (TP ts is_) eq_refl) as (l & Hl & -> & ->).
    destruct (names_at _ _) as [vs|] eqn:Ev; cbn [bind] in H; [|discriminate H]. injection H as <-. eauto. }
  split; [split|].
  - intros [lt H]. destruct (Main lt H) as (l & vs & Hl & _). eauto.
  - intros [l Hl]. unfold lexical_template.
    rewrite (proj2 (TP _ _) (ex_intro _ l (conj Hl (conj eq_refl eq_refl)))). cbn [bind fst snd].
    destruct (names_at_ok (map fst (final_marks added l)) (order (flagged 0 (final_marks added l)))) as [vs ->].
    + intros i Hi. apply (Permutation_in _ (Hp _)) in Hi. apply flagged_In in Hi as (j & -> & (t & Ht')).
      rewrite map_length. apply nth_error_Some. cbn [Nat.add]. rewrite Ht'. discriminate.
    + cbn [bind]. eauto.
  - intros lt H. destruct (Main lt H) as (l & vs & Hl & -> & Hvs).
    assert (D : spelled 0 (1, 0) Start [] (if added then without_newline gl else gl)
                /\ marked (map snd (if added then without_newline gl else gl)) (final_marks added l)
                /\ forall t, In (t, true) (final_marks added l) <-> In (t, true) l).
    { destruct added; [now apply drop_spelled|]. cbn [final_marks]. tauto. }
    destruct D as (D1 & D2 & D3).
    destruct (names_at_spec _ _ _ Hvs) as [N1 N2].
    assert (Vars : forall x, In x (map fst vs) <-> In x (metavars (map snd gl))).
    { intros x. rewrite (marked_metavars _ _ Hl). split.
      - intros Hx. apply in_map_iff in Hx as ([v i] & Hx & Hvi). cbn in Hx. subst v.
        destruct (N2 _ _ Hvi) as (t & Hnt & <-). rewrite nth_error_map in Hnt.
        destruct (nth_error (final_marks added l) i) as [[t' b]|] eqn:En; [|discriminate Hnt]. injection Hnt as <-.
        assert (Hi : In i (map snd vs)) by (change i with (snd (pt_string t', i)); now apply in_map).
        rewrite N1 in Hi. apply (Permutation_in _ (Hp _)) in Hi. apply flagged_In in Hi as (j & Hj & (u & Hu)).
        cbn in Hj. subst j. rewrite En in Hu. injection Hu as <- ->. exists t'. split; [|reflexivity].
        apply D3. eapply nth_error_In; eauto.
      - intros (t & Hin & <-). apply D3 in Hin. apply In_nth_error in Hin as [i Hi].
        assert (In i (map snd vs)).
        { rewrite N1. eapply Permutation_in; [apply Permutation_sym, Hp|]. apply flagged_In. exists i. split; [reflexivity|]. exists t. exact Hi. }
        apply in_map_iff in H0 as ([v j] & Hj & Hvj). cbn in Hj. subst j. apply in_map_iff. exists (v, i). split; [|exact Hvj].
        destruct (N2 _ _ Hvj) as (u & Hu & <-). rewrite nth_error_map, Hi in Hu. injection Hu as <-. reflexivity. }
    split; [exact Vars|]. intros repl Hok Hsrc. unfold lex_substitute. cbn [lt_template lt_tokens lt_vars].
    destruct src as [|c src']; [congruence|].
    assert (Eall : forallb (dmem repl) (lex_variables (LexT (c :: src') (map fst (final_marks added l)) vs))
                   = forallb (dmem repl) (metavars (map snd gl))).
    { unfold lex_variables. cbn [lt_vars]. apply eq_true_iff_eq. rewrite !forallb_forall.
      split; intros F x Hx; apply F; now apply Vars. }
    rewrite Eall. destruct (forallb (dmem repl) (metavars (map snd gl))) eqn:Ea; [|reflexivity].
    rewrite (fill_tokens (final_marks added l) (order (flagged 0 (final_marks added l))) vs repl (Hp _) Hvs Hok).
    + destruct (merge_placed _ _ _ _ _ D1 _ D2) as (gs & Hlen & Hgs). destruct (Hgs (lookup repl)) as [G1 G2].
      unfold untokenize. rewrite <- G2.
      rewrite <- (combine_snd gs (map (fill (lookup repl)) (final_marks added l))) at 1 by (now rewrite map_length).
      rewrite (untok_placed _ _ _ _ _ G1); [reflexivity|].
      repeat split; cbn; lia.
    + intros t Hin. rewrite forallb_forall in Ea. apply Ea. apply (marked_metavars _ _ Hl). exists t. split; [now apply D3|reflexivity].
Qed.

Theorem token_pattern_marks tokenize pattern toks :
  let added := negb (endswith [NL] pattern) in
  tokenize (if added then pattern ++ [NL] else pattern) = Ok toks -> ends toks ->
  ((exists ts metas, token_pattern tokenize pattern = Ok (ts, metas)) <-> exists l, marked toks l)
  /\ forall ts metas, token_pattern tokenize pattern = Ok (ts, metas) ->
     NoDup metas /\ exists l, marked toks l /\ ts = map fst (final_marks added l)
       /\ forall i, In i metas <-> meta_at (final_marks added l) i.
Proof.
  intros added Ht He. pose proof (token_pattern_spec tokenize pattern toks Ht He) as TP. cbv zeta in TP. fold added in TP.
  split.
  - split.
    + intros (ts & metas & H). apply TP in H as (l & Hl & _). eauto.
    + intros (l & Hl). eexists _, _. apply TP. exists l. split; [exact Hl|]. split; reflexivity.
  - intros ts metas H. apply TP in H as (l & Hl & -> & ->). split; [apply flagged_NoDup|].
    exists l. split; [exact Hl|]. split; [reflexivity|]. intros i. rewrite flagged_In. cbn [Nat.add]. split.
    + intros (j & -> & H). exact H.
    + intros H. eauto.
Qed.

Theorem remap_pattern tokenize order pattern toks ts metas :
  let added := negb (endswith [NL] pattern) in
  tokenize (if added then pattern ++ [NL] else pattern) = Ok toks -> ends toks ->
  (forall l, Permutation (order l) l) ->
  token_pattern tokenize pattern = Ok (ts, metas) ->
  exists r f, remap_tokens order ts metas = Ok r /\ renames ts metas f r
     /\ forall i v, In i metas -> string_at ts i v -> is_variable (f i) = true.
Proof.
  intros added Ht He Hp H.
  destruct (token_pattern_marks tokenize pattern toks Ht He) as [_ M].
  destruct (M _ _ H) as (Hn & l & Hl & -> & Hi). cbv zeta in *. fold added in Hi |- *.
  destruct (remap_spec order (map fst (final_marks added l)) metas (Hp _) Hn) as (r & f & Hr & R).
  - intros i Hii. apply Hi in Hii as (t & Et). rewrite map_length. apply nth_error_Some. rewrite Et. discriminate.
  - exists r, f. split; [exact Hr|]. split; [exact R|]. intros i v Hii Sv. apply (rs_ident _ _ _ _ R i v); [exact Hii|exact Sv|].
    apply Hi in Hii as (t & Et). destruct Sv as (u & Hu & <-). rewrite nth_error_map, Et in Hu. injection Hu as <-.
    apply nth_error_In in Et. eapply marked_meta; [exact Hl|].
    destruct added; [|exact Et]. unfold final_marks in Et. destruct (rev l) as [|a [|b q]] eqn:E; [exact Et|exact Et|].
    destruct (text_eqb _ _); [|exact Et].
    rewrite (in_rev l), E. apply in_app_or in Et as [Et|[Et|[]]]; [right; right; now apply in_rev | left; exact Et].
Qed.

(** Replacing [$x] by itself gives the source text back. *)
Lemma expand_source w p at_ ind gl : spelled w p at_ ind gl -> forall l, marked (map snd gl) l ->
  expand (fun x => TX "$" ++ x) gl = spelling gl.
Proof.
  intros H. remember (length gl) as n eqn:Hn. assert (Hle : (length gl <= n)%nat) by lia. clear Hn.
  revert w p at_ ind gl Hle H.
  induction n as [|n IH]; intros w p at_ ind gl Hle H l Hm; [destruct gl; [inversion H|cbn in Hle; lia]|].
  assert (Keep : forall g t gl' w' p' at' ind', gl = (g, t) :: gl' -> pt_string t <> TX "$" ->
     spelled w' p' at' ind' gl' -> expand (fun x => TX "$" ++ x) gl = spelling gl).
  { intros g t gl' w' p' at' ind' -> Hd Hsp. cbn [map snd] in Hm. cbn [length] in Hle.
    inversion Hm as [|? ? l0 ? Hl0|]; subst; [|congruence].
    pose proof (IH _ _ _ _ gl' ltac:(lia) Hsp _ Hl0) as E.
    destruct gl' as [|[g2 v] gl'']; [inversion Hsp|].
    remember ((g2, v) :: gl'') as gl' eqn:Eg. cbn [expand]. rewrite Eg at 1.
    replace (text_eqb (pt_string t) (TX "$")) with false by (symmetry; now apply text_eqb_neq).
    rewrite E. unfold spelling. cbn [map concat fst snd]. now rewrite <- app_assoc. }
  inversion H as [p0 a0 i0 t w0 Ht Hs0|p1 a0 i0 w0 g0 t gl' Hw Hbl Hs He Hcol Hsl Hsp|row col a0 i0 k t gl' Hnl Hspc Hs Hr Hsp
                 |p0 a0 i0 k t gl' Ht Hstr Hat Hsp|row i i0 w0 t gl' Ht Hs0 Hr Hc Hsp]; subst.
  - cbn [expand]. unfold spelling. cbn [map concat fst snd]. now rewrite app_nil_r.
  - destruct (text_eqb (pt_string t) (TX "$")) eqn:Ed.
    + apply text_eqb_eq in Ed. cbn [map snd] in Hm.
      inversion Hm as [|? ? l0 Hd Hl0|d v r l0 Hd Hty Hv Hc Hl0]; subst; [congruence|].
      match goal with X : _ :: _ = map snd gl' |- _ => rename X into E1 end.
      destruct gl' as [|[g2 v'] gl'']; [discriminate E1|]. cbn [map snd] in E1. injection E1 as -> ->.
      rewrite Ed in He. cbn [s2t after] in He. change (_ =? NL) with false in He. cbn [after] in He.
      rewrite He in Hsp.
      assert (Hv2 : is_word v' /\ g2 = [] /\ spelled 0 (pt_end v') Inside ind gl'').
      { inversion Hsp as [? ? ? ? ? ? Hs0'|? ? ? ? g3 ? ? Hw' Hbl' Hs' He' Hcol' Hsl' Hsp'|? ? ? ? k2 ? ? Hnl Hspc Hs' Hr Hsp'
                 |? ? ? k2 ? ? Ht Hstr Hat Hsp'|? ? ? ? ? ? Ht Hs0' Hr Hcc Hsp']; subst.
        - rewrite Hs0' in Hv. discriminate Hv.
        - destruct (dollar_gap _ _ _ _ _ Hbl' (Hsl Ed) Hs' Hc) as [-> Hs2]. repeat split; auto.
        - rewrite space_not_var in Hv by assumption. discriminate Hv.
        - rewrite Hstr, spaces_not_var in Hv. discriminate Hv. }
      destruct Hv2 as (Hw2 & -> & Hsp2). cbn [length] in Hle.
      pose proof (IH _ _ _ _ gl'' ltac:(lia) Hsp2 _ Hl0) as E.
      cbn [expand]. rewrite Ed at 1. change (text_eqb (TX "$") (TX "$")) with true. cbv iota.
      rewrite E. unfold spelling. cbn [map concat fst snd app].
      rewrite (word_shown _ Hw), Ed, (word_shown _ Hw2). now rewrite <- !app_assoc.
    + apply text_eqb_neq in Ed. eapply Keep; eauto.
  - eapply Keep; eauto. now apply space_not_dollar.
  - eapply Keep; eauto. rewrite Hstr. destruct k; discriminate.
  - eapply Keep; eauto. rewrite Hs0. discriminate.
Qed.
