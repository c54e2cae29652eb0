(** UTF-8 and universal newlines. *)
From Verif Require Import Py PyFacts ApplySpec Subst Codec Runner RunnerSpec.

Ltac zb := repeat match goal with
  | H : (_ && _)%bool = true |- _ => apply andb_true_iff in H; destruct H
  | H : (_ || _)%bool = false |- _ => apply orb_false_iff in H; destruct H
  | H : (_ <? _) = true |- _ => apply Z.ltb_lt in H
  | H : (_ <? _) = false |- _ => apply Z.ltb_ge in H
  | H : (_ <=? _) = true |- _ => apply Z.leb_le in H
  | H : (_ <=? _) = false |- _ => apply Z.leb_gt in H
  end.

Lemma is_cont_range b : negb (is_cont b) = false -> 128 <= b <= 191.
Proof. unfold is_cont. intro H. apply negb_false_iff in H. zb. lia. Qed.

Lemma decode_encode bs t : utf8_decode bs = Some t -> utf8_encode t = Some bs.
Proof.
  assert (H : forall n bs t, (length bs <= n)%nat -> utf8_decode bs = Some t -> utf8_encode t = Some bs).
  2:{ now apply (H (length bs)). }
  clear bs t. induction n as [|n IH]; intros bs t Hn H.
  { destruct bs; [|cbn in Hn; lia]. cbn in H. injection H as <-. reflexivity. }
  destruct bs as [|b0 r0]; [cbn in H; injection H as <-; reflexivity|]. cbn [length] in Hn.
  cbn [utf8_decode] in H.
  destruct ((0 <=? b0) && (b0 <? 128)) eqn:E0.
  { destruct (utf8_decode r0) as [u|] eqn:Eu; [|discriminate]. injection H as <-.
    cbn [utf8_encode]. rewrite (IH r0 u) by (assumption || lia). unfold utf8_char. zb.
    destruct (Z.ltb_spec b0 0); [lia|]. destruct (Z.ltb_spec b0 128); [reflexivity|lia]. }
  destruct r0 as [|b1 r1]; [discriminate|]. cbn [length] in Hn.
  destruct (negb (is_cont b1)) eqn:C1; [discriminate|]. apply is_cont_range in C1.
  destruct ((194 <=? b0) && (b0 <=? 223)) eqn:E1.
  { destruct (utf8_decode r1) as [u|] eqn:Eu; [|discriminate]. injection H as <-.
    cbn [utf8_encode]. rewrite (IH r1 u) by (assumption || lia). unfold utf8_char. zb.
    set (c := (b0 - 192) * 64 + (b1 - 128)).
    assert (Hd : c / 64 = b0 - 192) by (symmetry; apply (Z.div_unique c 64 _ (b1 - 128)); unfold c; lia).
    assert (Hm : c mod 64 = b1 - 128) by (symmetry; apply (Z.mod_unique c 64 (b0 - 192)); unfold c; lia).
    assert (128 <= c < 2048) by (unfold c; lia).
    destruct (Z.ltb_spec c 0); [lia|]. destruct (Z.ltb_spec c 128); [lia|].
    destruct (Z.ltb_spec c 2048); [|lia]. rewrite Hd, Hm. cbn [app]. f_equal. f_equal; [lia|]. f_equal. lia. }
  destruct r1 as [|b2 r2]; [discriminate|]. cbn [length] in Hn.
  destruct (negb (is_cont b2)) eqn:C2; [discriminate|]. apply is_cont_range in C2.
  destruct ((224 <=? b0) && (b0 <=? 239)) eqn:E2.
  { set (c := (b0 - 224) * 4096 + (b1 - 128) * 64 + (b2 - 128)) in *.
    destruct ((c <? 2048) || ((55296 <=? c) && (c <=? 57343))) eqn:Ec; [discriminate|].
    destruct (utf8_decode r2) as [u|] eqn:Eu; [|discriminate]. injection H as <-.
    cbn [utf8_encode]. rewrite (IH r2 u) by (assumption || lia). unfold utf8_char.
    apply orb_false_iff in Ec. destruct Ec as [Ec Es]. rewrite Es. zb.
    assert (Hd2 : c / 4096 = b0 - 224)
      by (symmetry; apply (Z.div_unique c 4096 _ ((b1 - 128) * 64 + (b2 - 128))); unfold c; lia).
    assert (Hd1 : c / 64 = (b0 - 224) * 64 + (b1 - 128))
      by (symmetry; apply (Z.div_unique c 64 _ (b2 - 128)); unfold c; lia).
    assert (Hm1 : (c / 64) mod 64 = b1 - 128)
      by (rewrite Hd1; symmetry; apply (Z.mod_unique _ 64 (b0 - 224)); lia).
    assert (Hm : c mod 64 = b2 - 128)
      by (symmetry; apply (Z.mod_unique c 64 ((b0 - 224) * 64 + (b1 - 128))); unfold c; lia).
    assert (2048 <= c < 65536) by (unfold c in *; lia).
    destruct (Z.ltb_spec c 0); [lia|]. destruct (Z.ltb_spec c 128); [lia|].
    destruct (Z.ltb_spec c 2048); [lia|]. destruct (Z.ltb_spec c 65536); [|lia].
    rewrite Hd2, Hm1, Hm. cbn [app]. f_equal. f_equal; [lia|]. f_equal; [lia|]. f_equal. lia. }
  destruct r2 as [|b3 r3]; [discriminate|]. cbn [length] in Hn.
  destruct (negb (is_cont b3)) eqn:C3; [discriminate|]. apply is_cont_range in C3.
  destruct ((240 <=? b0) && (b0 <=? 244)) eqn:E3; [|discriminate].
  set (c := (b0 - 240) * 262144 + (b1 - 128) * 4096 + (b2 - 128) * 64 + (b3 - 128)) in *.
  destruct ((c <? 65536) || (1114111 <? c)) eqn:Ec; [discriminate|].
  destruct (utf8_decode r3) as [u|] eqn:Eu; [|discriminate]. injection H as <-.
  cbn [utf8_encode]. rewrite (IH r3 u) by (assumption || lia). unfold utf8_char. zb.
  assert (Hd3 : c / 262144 = b0 - 240)
    by (symmetry; apply (Z.div_unique c 262144 _ ((b1 - 128) * 4096 + (b2 - 128) * 64 + (b3 - 128))); unfold c; lia).
  assert (Hd2 : c / 4096 = (b0 - 240) * 64 + (b1 - 128))
    by (symmetry; apply (Z.div_unique c 4096 _ ((b2 - 128) * 64 + (b3 - 128))); unfold c; lia).
  assert (Hd1 : c / 64 = ((b0 - 240) * 64 + (b1 - 128)) * 64 + (b2 - 128))
    by (symmetry; apply (Z.div_unique c 64 _ (b3 - 128)); unfold c; lia).
  assert (Hm2 : (c / 4096) mod 64 = b1 - 128)
    by (rewrite Hd2; symmetry; apply (Z.mod_unique _ 64 (b0 - 240)); lia).
  assert (Hm1 : (c / 64) mod 64 = b2 - 128)
    by (rewrite Hd1; symmetry; apply (Z.mod_unique _ 64 ((b0 - 240) * 64 + (b1 - 128))); lia).
  assert (Hm : c mod 64 = b3 - 128)
    by (symmetry; apply (Z.mod_unique c 64 (((b0 - 240) * 64 + (b1 - 128)) * 64 + (b2 - 128))); unfold c; lia).
  destruct (Z.ltb_spec c 0); [lia|]. destruct (Z.ltb_spec c 128); [lia|].
  destruct (Z.ltb_spec c 2048); [lia|]. destruct (Z.ltb_spec c 65536); [lia|].
  destruct (Z.ltb_spec c 1114112); [|lia].
  rewrite Hd3, Hm2, Hm1, Hm. cbn [app]. f_equal. f_equal; [lia|]. f_equal; [lia|]. f_equal; [lia|].
  f_equal. lia.
Qed.

Lemma is_cont_true b : 128 <= b <= 191 -> negb (is_cont b) = false.
Proof.
  intro H. unfold is_cont. destruct (Z.leb_spec 128 b); [|lia]. destruct (Z.leb_spec b 191); [reflexivity|lia].
Qed.

Lemma div_mod_range c : 0 <= c mod 64 <= 63.
Proof. pose proof (Z.mod_pos_bound c 64). lia. Qed.

Lemma some_inj {A} (x y : A) : Some x = Some y -> y = x.
Proof. congruence. Qed.
Lemma encode_decode t bs : utf8_encode t = Some bs -> utf8_decode bs = Some t.
Proof.
  revert bs. induction t as [|c t IH]; intros bs H; cbn [utf8_encode] in H.
  { injection H as <-. reflexivity. }
  destruct (utf8_char c) as [a|] eqn:Ea; [|discriminate].
  destruct (utf8_encode t) as [b|]; [|discriminate]. injection H as <-. specialize (IH b eq_refl).
  unfold utf8_char in Ea.
  destruct (Z.ltb_spec c 0); [discriminate|].
  destruct (Z.ltb_spec c 128).
  { injection Ea as <-. cbn [app utf8_decode]. rewrite IH.
    destruct (Z.leb_spec 0 c); [|lia]. destruct (Z.ltb_spec c 128); [reflexivity|lia]. }
  pose proof (div_mod_range c) as R0. pose proof (div_mod_range (c / 64)) as R1.
  pose proof (div_mod_range (c / 4096)) as R2.
  pose proof (Z.div_mod c 64 ltac:(lia)) as D0.
  pose proof (Z.div_mod (c / 64) 64 ltac:(lia)) as D1.
  pose proof (Z.div_mod (c / 4096) 64 ltac:(lia)) as D2.
  assert (Q1 : c / 64 / 64 = c / 4096) by (rewrite Z.div_div by lia; reflexivity).
  assert (Q2 : c / 4096 / 64 = c / 262144) by (rewrite Z.div_div by lia; reflexivity).
  rewrite Q1 in D1. rewrite Q2 in D2.
  destruct (Z.ltb_spec c 2048).
  { apply some_inj in Ea. subst a. assert (2 <= c / 64 <= 31) by lia.
    remember (192 + c / 64) as b0. remember (128 + c mod 64) as b1.
    cbn [app utf8_decode]. rewrite IH.
    destruct (Z.ltb_spec b0 128); [lia|]. rewrite andb_false_r.
    rewrite is_cont_true by lia.
    destruct (Z.leb_spec 194 b0); [|lia]. destruct (Z.leb_spec b0 223); [|lia].
    cbn [andb]. f_equal. f_equal. lia. }
  destruct (Z.ltb_spec c 65536).
  { destruct ((55296 <=? c) && (c <=? 57343)) eqn:Es; [discriminate|].
    apply some_inj in Ea. subst a. assert (0 <= c / 4096 <= 15) by lia.
    remember (224 + c / 4096) as b0. remember (128 + (c / 64) mod 64) as b1. remember (128 + c mod 64) as b2.
    cbn [app utf8_decode]. rewrite IH.
    destruct (Z.ltb_spec b0 128); [lia|]. rewrite andb_false_r.
    rewrite !is_cont_true by lia.
    destruct (Z.leb_spec b0 223); [lia|]. rewrite andb_false_r.
    destruct (Z.leb_spec 224 b0); [|lia]. destruct (Z.leb_spec b0 239); [|lia].
    cbn [andb].
    replace ((b0 - 224) * 4096 + (b1 - 128) * 64 + (b2 - 128)) with c by lia.
    rewrite Es. destruct (Z.ltb_spec c 2048); [lia|]. reflexivity. }
  destruct (Z.ltb_spec c 1114112); [|discriminate].
  apply some_inj in Ea. subst a. assert (0 <= c / 262144 <= 4) by lia.
  remember (240 + c / 262144) as b0. remember (128 + (c / 4096) mod 64) as b1.
  remember (128 + (c / 64) mod 64) as b2. remember (128 + c mod 64) as b3.
  cbn [app utf8_decode]. rewrite IH.
  destruct (Z.ltb_spec b0 128); [lia|]. rewrite andb_false_r.
  rewrite !is_cont_true by lia.
  destruct (Z.leb_spec b0 223); [lia|]. rewrite andb_false_r.
  destruct (Z.leb_spec b0 239); [lia|]. rewrite andb_false_r.
  destruct (Z.leb_spec 240 b0); [|lia]. destruct (Z.leb_spec b0 244); [|lia].
  cbn [andb].
  replace ((b0 - 240) * 262144 + (b1 - 128) * 4096 + (b2 - 128) * 64 + (b3 - 128)) with c by lia.
  destruct (Z.ltb_spec c 65536); [lia|]. destruct (Z.ltb_spec 1114111 c); [lia|]. reflexivity.
Qed.

Lemma encode_app a b : utf8_encode (a ++ b) =
  match utf8_encode a, utf8_encode b with Some x, Some y => Some (x ++ y) | _, _ => None end.
Proof.
  induction a as [|c a IH]; cbn [app utf8_encode]; [now destruct (utf8_encode b)|].
  rewrite IH. destruct (utf8_char c), (utf8_encode a), (utf8_encode b); try reflexivity.
  now rewrite app_assoc.
Qed.

(** *** Newlines *)

(** Non-ASCII characters encode to bytes above 127. *)
Lemma utf8_char_high c a : utf8_char c = Some a -> (c < 128 /\ a = [c]) \/ (128 <= c /\ Forall (fun b => 128 <= b) a).
Proof.
  unfold utf8_char. intro H.
  destruct (Z.ltb_spec c 0); [discriminate|].
  destruct (Z.ltb_spec c 128); [injection H as <-; auto|]. right. split; [assumption|].
  pose proof (Z.mod_pos_bound c 64). pose proof (Z.mod_pos_bound (c / 64) 64).
  pose proof (Z.mod_pos_bound (c / 4096) 64).
  assert (0 <= c / 64) by (apply Z.div_pos; lia). assert (0 <= c / 4096) by (apply Z.div_pos; lia).
  assert (0 <= c / 262144) by (apply Z.div_pos; lia).
  destruct (Z.ltb_spec c 2048); [apply some_inj in H; subst a; repeat (apply Forall_cons; [lia|]); constructor|].
  destruct (Z.ltb_spec c 65536).
  { destruct (_ && _); [discriminate|]. apply some_inj in H. subst a. repeat (apply Forall_cons; [lia|]). constructor. }
  destruct (Z.ltb_spec c 1114112); [|discriminate]. apply some_inj in H. subst a. repeat (apply Forall_cons; [lia|]). constructor.
Qed.

Lemma un_high a rest : Forall (fun b => 128 <= b) a -> universal_newlines (a ++ rest) = a ++ universal_newlines rest.
Proof.
  induction 1 as [|b a Hb H IH]; [reflexivity|]. cbn. destruct (Z.eqb_spec b CR) as [->|]; [unfold CR in Hb; lia|].
  now rewrite IH.
Qed.

Lemma encode_newlines t bs :
  utf8_encode t = Some bs -> utf8_encode (universal_newlines t) = Some (universal_newlines bs).
Proof.
  assert (H : forall n t bs, (length t <= n)%nat -> utf8_encode t = Some bs ->
                utf8_encode (universal_newlines t) = Some (universal_newlines bs)).
  2:{ now apply (H (length t)). }
  clear t bs. induction n as [|n IH]; intros t bs Hn H.
  { destruct t; [|cbn in Hn; lia]. cbn in H. injection H as <-. reflexivity. }
  destruct t as [|c t]; [cbn in H; injection H as <-; reflexivity|]. cbn [length] in Hn.
  cbn [utf8_encode] in H. destruct (utf8_char c) as [a|] eqn:Ea; [|discriminate].
  destruct (utf8_encode t) as [b|] eqn:Eb; [|discriminate]. injection H as <-.
  destruct (utf8_char_high c a Ea) as [[Hc ->]|[Hc Ha]].
  - cbn [universal_newlines app]. destruct (Z.eqb_spec c CR) as [->|Hcr].
    + cbn [utf8_encode]. change (utf8_char NL) with (Some [NL]).
      destruct t as [|d t]; [cbn in Eb |- *; injection Eb as <-; reflexivity|].
      cbn [utf8_encode] in Eb. destruct (utf8_char d) as [a'|] eqn:Ea'; [|discriminate].
      destruct (utf8_encode t) as [b'|] eqn:Eb'; [|discriminate]. injection Eb as <-. cbn [length] in Hn.
      destruct (Z.eqb_spec d NL) as [->|Hd].
      * cbn in Ea'. injection Ea' as <-. cbn [app]. rewrite Z.eqb_refl.
        rewrite (IH t b') by (assumption || lia). reflexivity.
      * destruct (utf8_char_high d a' Ea') as [[Hd' ->]|[Hd' Ha']].
        -- cbn [app]. destruct (Z.eqb_spec d NL); [contradiction|].
           rewrite (IH (d :: t) (d :: b')); [reflexivity|cbn [length]; lia|].
           cbn [utf8_encode]. rewrite Ea', Eb'. reflexivity.
        -- assert (HIH : utf8_encode (universal_newlines (d :: t)) = Some (universal_newlines (a' ++ b'))).
           { apply IH; [cbn [length]; lia|]. cbn [utf8_encode]. rewrite Ea', Eb'. reflexivity. }
           rewrite HIH. destruct a' as [|x a']; [exfalso|].
           { unfold utf8_char in Ea'. repeat (destruct (_ <? _) in Ea'; try discriminate).
             destruct (_ && _) in Ea'; discriminate. }
           cbn [app]. inversion Ha'; subst. destruct (Z.eqb_spec x NL) as [->|]; [unfold NL in *; lia|]. reflexivity.
    + cbn [utf8_encode]. rewrite Ea, (IH t b) by (assumption || lia). reflexivity.
  - cbn [universal_newlines]. destruct (Z.eqb_spec c CR) as [->|Hcr]; [unfold CR in Hc; lia|].
    cbn [utf8_encode]. rewrite Ea, (IH t b) by (assumption || lia). now rewrite un_high.
Qed.

Lemma write_read bs t : codec_read bs = Some t -> codec_write t = Some (universal_newlines bs).
Proof.
  unfold codec_read, codec_write. destruct (utf8_decode bs) as [u|] eqn:E; [|discriminate].
  intro H. injection H as <-. apply encode_newlines. now apply decode_encode.
Qed.
Lemma un_no_cr (t : list Z) : ~ In CR t -> universal_newlines t = t.
Proof.
  induction t as [|c t IH]; intro H; [reflexivity|]. cbn.
  destruct (Z.eqb_spec c CR) as [->|]; [exfalso; apply H; now left|]. rewrite IH; [reflexivity|].
  intro. apply H. now right.
Qed.

(** *** Edits *)
Lemma enc_part t bs x y : utf8_encode t = Some bs -> t = x ++ y ->
  utf8_encode x = Some (enc x) /\ utf8_encode y = Some (enc y) /\ bs = enc x ++ enc y.
Proof.
  intros H ->. rewrite encode_app in H. unfold enc.
  destruct (utf8_encode x), (utf8_encode y); try discriminate. injection H as <-. auto.
Qed.

Lemma slice_mid {A} (x y z : list A) : slice (x ++ y ++ z) (tlen x) (tlen x + tlen y) = y.
Proof.
  pose proof (tlen_nonneg x). pose proof (tlen_nonneg y).
  rewrite slice_app_r by lia. rewrite Z.sub_diag. replace (tlen x + tlen y - tlen x) with (tlen y) by lia.
  rewrite slice_app_l by lia. apply slice_full.
Qed.

Lemma byte_slice t bs a b : utf8_encode t = Some bs -> 0 <= a -> a <= b ->
  slice bs (byte_offset t a) (byte_offset t b) = enc (slice t a b)
  /\ 0 <= byte_offset t a <= byte_offset t b
  /\ utf8_encode (slice t a b) = Some (enc (slice t a b)).
Proof.
  intros H Ha Hab. unfold byte_offset, slice_to.
  assert (Hsplit : t = slice t 0 a ++ slice t a b ++ slice t b (Z.max b (tlen t))).
  { rewrite slice_app by lia. rewrite slice_app by lia.
    rewrite slice_clamp by lia. symmetry. apply slice_full. }
  destruct (enc_part t bs _ _ H Hsplit) as (Hx & Hyz & E).
  destruct (enc_part _ _ (slice t a b) (slice t b (Z.max b (tlen t))) Hyz eq_refl) as (Hy & Hz & E2).
  assert (Hb : slice t 0 b = slice t 0 a ++ slice t a b) by (rewrite slice_app by lia; reflexivity).
  assert (Heb : enc (slice t 0 b) = enc (slice t 0 a) ++ enc (slice t a b)).
  { rewrite Hb. unfold enc at 1. rewrite encode_app, Hx, Hy. reflexivity. }
  rewrite Heb. unfold tlen at 2. rewrite app_length, Nat2Z.inj_add. fold (tlen (enc (slice t 0 a))) (tlen (enc (slice t a b))).
  split; [|split; [|assumption]].
  - rewrite E, E2. apply slice_mid.
  - pose proof (tlen_nonneg (enc (slice t 0 a))). pose proof (tlen_nonneg (enc (slice t a b))).
    unfold tlen at 3. rewrite app_length, Nat2Z.inj_add. unfold tlen in *. lia.
Qed.

Lemma edited_bytes t bs p es out :
  utf8_encode t = Some bs -> Edited t p es out ->
  Forall (fun e : edit => utf8_encode (fst (fst e)) <> None) es ->
  exists ob, utf8_encode out = Some ob /\ Edited bs (byte_offset t p) (map (byte_edit t) es) ob.
Proof.
  intros H HE. induction HE as [p Hp|p r a b es out Hp Hpa Hab HE IH]; intro Hr.
  - set (q := Z.max p (tlen t)).
    assert (Hs : slice_from t p = slice t p q).
    { unfold slice_from, q. rewrite <- (slice_clamp t p (Z.max p (tlen t))) by lia. reflexivity. }
    destruct (byte_slice t bs p q H Hp ltac:(unfold q; lia)) as (E1 & [E2 E2'] & E3).
    exists (enc (slice t p q)). rewrite Hs. split; [assumption|]. rewrite <- E1.
    assert (Hq : byte_offset t q = tlen bs).
    { unfold byte_offset. rewrite slice_to_full by (unfold q; lia). unfold enc. now rewrite H. }
    rewrite Hq. constructor. assumption.
  - inversion Hr as [|? ? Hr1 Hr2]; subst. destruct (IH Hr2) as (ob & Ho & HE').
    cbn [fst] in Hr1. destruct (utf8_encode r) as [rb|] eqn:Er; [|congruence].
    destruct (byte_slice t bs p a H Hp Hpa) as (E1 & E2 & E3).
    destruct (byte_slice t bs a b H ltac:(lia) Hab) as (_ & E5 & _).
    exists (enc (slice t p a) ++ rb ++ ob). split.
    + rewrite encode_app, E3, encode_app, Er, Ho. reflexivity.
    + cbn [map byte_edit]. rewrite <- E1. unfold enc at 1. rewrite Er. constructor; try lia; try assumption.
Qed.

Lemma edited_encodable t p es out : Edited t p es out -> utf8_encode out <> None ->
  Forall (fun e : edit => utf8_encode (fst (fst e)) <> None) es.
Proof.
  induction 1 as [|p r a b es out Hp Hpa Hab HE IH]; intro Hne; constructor.
  - cbn. intro E. apply Hne. rewrite encode_app. destruct (utf8_encode (slice t p a)); [|reflexivity].
    rewrite encode_app, E. reflexivity.
  - apply IH. intro E. apply Hne. rewrite encode_app. destruct (utf8_encode (slice t p a)); [|reflexivity].
    rewrite encode_app, E. now destruct (utf8_encode r).
Qed.
