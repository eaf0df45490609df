From Coq Require Import List ZArith Bool Lia ZifyBool ZifyNat.
From Verif Require Import JsonModel JsonSpec.
Import ListNotations.
Local Open Scope Z_scope.

Lemma hex_digit_ok : forall c v, hex_digit c = Some v <-> hex_char c v.
Proof.
  intros c v. unfold hex_digit, hex_char.
  destruct ((48 <=? c) && (c <=? 57)) eqn:E.
  - split; [intros H; injection H as <-; left; lia|]. intros [H|[H|H]]; f_equal; lia.
  - cbn zeta.
    assert (Hlow : 97 <= c <= 102 -> Z.lor c 32 = c).
    { intros H. assert (Hc : c = 97 \/ c = 98 \/ c = 99 \/ c = 100 \/ c = 101 \/ c = 102) by lia.
      repeat destruct Hc as [Hc|Hc]; subst c; reflexivity. }
    assert (Hup : 65 <= c <= 70 -> Z.lor c 32 = c + 32).
    { intros H. assert (Hc : c = 65 \/ c = 66 \/ c = 67 \/ c = 68 \/ c = 69 \/ c = 70) by lia.
      repeat destruct Hc as [Hc|Hc]; subst c; reflexivity. }
    assert (Hrev : 97 <= Z.lor c 32 <= 102 -> 97 <= c <= 102 \/ 65 <= c <= 70).
    { intros H. destruct (Z.testbit c 5) eqn:Et.
      - assert (Hc : Z.lor c (2 ^ 5) = c).
        { apply Z.bits_inj'. intros n Hn. rewrite Z.lor_spec, Z.pow2_bits_eqb by lia.
          destruct (5 =? n) eqn:En; [|apply orb_false_r]. assert (n = 5) as -> by lia. now rewrite Et. }
        change (2 ^ 5) with 32 in Hc. lia.
      - assert (Hc : Z.land c (2 ^ 5) = 0).
        { apply Z.bits_inj'. intros n Hn. rewrite Z.land_spec, Z.pow2_bits_eqb, Z.bits_0 by lia.
          destruct (5 =? n) eqn:En; [|apply andb_false_r]. assert (n = 5) as -> by lia. now rewrite Et. }
        change (2 ^ 5) with 32 in Hc. rewrite <- Z.lxor_lor in H by auto. rewrite <- Z.add_nocarry_lxor in H by auto. lia. }
    destruct ((97 <=? Z.lor c 32) && (Z.lor c 32 <=? 102)) eqn:E2.
    + split.
      * intros H. injection H as <-. destruct Hrev as [Hc|Hc]; [lia| |].
        -- rewrite (Hlow Hc). right. left. lia.
        -- rewrite (Hup Hc). right. right. lia.
      * intros [H|[[H ->]|[H ->]]]; [lia| |]; f_equal; [rewrite Hlow by auto|rewrite Hup by auto]; lia.
    + split; [discriminate|]. intros [H|[[H ->]|[H ->]]]; [lia| |]; [rewrite Hlow in E2 by auto|rewrite Hup in E2 by auto]; lia.
Qed.

Lemma hex_char_range : forall c v, hex_char c v -> 0 <= v < 16.
Proof. unfold hex_char. intros. lia. Qed.

(* or-ing a byte below the bit adds *)
Lemma lor_add : forall a b k, 0 <= a < 2 ^ k -> 0 <= k -> 0 <= b -> Z.lor a (b * 2 ^ k) = a + b * 2 ^ k.
Proof.
  intros a b k Ha Hk Hb. assert (H : Z.land a (b * 2 ^ k) = 0).
  { apply Z.bits_inj'. intros n Hn. rewrite Z.land_spec, Z.bits_0, <- Z.shiftl_mul_pow2 by auto.
    destruct (Z.ltb n k) eqn:E.
    - rewrite Z.shiftl_spec_low by lia. apply andb_false_r.
    - destruct (Z.eq_dec a 0) as [->|Hne]; [now rewrite Z.bits_0|].
      rewrite (Z.bits_above_log2 a n); auto; [lia|]. apply Z.log2_lt_pow2; [lia|].
      apply Z.lt_le_trans with (2 ^ k); [lia|]. apply Z.pow_le_mono_r; lia. }
  rewrite <- Z.lxor_lor by auto. now rewrite <- Z.add_nocarry_lxor.
Qed.

Lemma shiftr_div : forall a n, 0 <= n -> Z.shiftr a n = a / 2 ^ n.
Proof. intros. now apply Z.shiftr_div_pow2. Qed.
Lemma land_mod : forall a n, 0 <= n -> Z.land a (2 ^ n - 1) = a mod 2 ^ n.
Proof. intros a n Hn. rewrite <- Z.land_ones by auto. now rewrite Z.ones_equiv, <- Z.sub_1_r. Qed.

Lemma utf8_of_ok : forall ch, 0 <= ch < 65536 -> utf8 ch (utf8_of ch).
Proof.
  intros ch H. unfold utf8_of.
  assert (Hl : Z.lor (Z.land ch 63) 128 = 128 + ch mod 64).
  { change 63 with (2 ^ 6 - 1). rewrite land_mod by lia. change 128 with (2 * 2 ^ 6) at 1.
    pose proof (Z.mod_pos_bound ch (2 ^ 6) ltac:(lia)). rewrite lor_add by lia. change (2 ^ 6) with 64. lia. }
  pose proof (Z.mod_pos_bound ch 64 ltac:(lia)) as Hm. pose proof (Z.div_mod ch 64 ltac:(lia)) as Hd.
  destruct (ch <? 128) eqn:E1; [constructor; lia|]. destruct (ch <? 2048) eqn:E2.
  - assert (Hq : 0 <= ch / 64 < 32). { split; [apply Z.div_pos; lia|apply Z.div_lt_upper_bound; lia]. }
    rewrite Hl. rewrite shiftr_div by lia. change (2 ^ 6) with 64.
    assert (Hh : Z.lor (ch / 64) 192 = 192 + ch / 64).
    { change 192 with (3 * 2 ^ 6) at 1. rewrite lor_add by lia. lia. }
    rewrite Hh. rewrite Hd at 1. replace (64 * (ch / 64) + ch mod 64) with (ch / 64 * 64 + ch mod 64) by lia.
    constructor; lia.
  - pose proof (Z.mod_pos_bound (ch / 64) 64 ltac:(lia)) as Hm2. pose proof (Z.div_mod (ch / 64) 64 ltac:(lia)) as Hd2.
    assert (Hq : 0 <= ch / 4096 < 16). { split; [apply Z.div_pos; lia|apply Z.div_lt_upper_bound; lia]. }
    assert (Hdd : ch / 64 / 64 = ch / 4096). { rewrite Z.div_div by lia. reflexivity. }
    rewrite Hl. rewrite !shiftr_div by lia. change (2 ^ 12) with 4096. change (2 ^ 6) with 64.
    assert (Hl2 : Z.lor (Z.land (ch / 64) 63) 128 = 128 + (ch / 64) mod 64).
    { change 63 with (2 ^ 6 - 1). rewrite land_mod by lia. change 128 with (2 * 2 ^ 6) at 1. change (2 ^ 6) with 64 at 1.
      rewrite lor_add by lia. lia. }
    assert (Hh : Z.lor (ch / 4096) 224 = 224 + ch / 4096).
    { change 224 with (7 * 2 ^ 5) at 1. rewrite lor_add by lia. lia. }
    rewrite Hl2, Hh.
    replace ch with ((ch / 4096 * 64 + (ch / 64) mod 64) * 64 + ch mod 64) at 1 by lia. constructor; lia.
Qed.
Lemma utf8_len : forall x bs, utf8 x bs -> (1 <= length bs <= 3)%nat.
Proof. intros x bs H. inversion H; subst; cbn; lia. Qed.
Lemma utf8_det : forall x a, utf8 x a -> forall y b, utf8 y b -> x = y -> a = b.
Proof.
  intros x a Ha y b Hb E.
  destruct Ha as [x Hx|a1 b1 Ha1 Hb1 Hx|a1 b1 c1 Ha1 Hb1 Hc1 Hx], Hb as [y Hy|a2 b2 Ha2 Hb2 Hy|a2 b2 c2 Ha2 Hb2 Hc2 Hy]; try lia.
  - now subst.
  - assert (a1 = a2) as -> by lia. assert (b1 = b2) as -> by lia. reflexivity.
  - assert (a1 = a2) as -> by lia. assert (b1 = b2) as -> by lia. assert (c1 = c2) as -> by lia. reflexivity.
Qed.

Lemma short_escape_ok : forall c b, short_escape c = Some b <->
  In (c, b) [(34, 34); (92, 92); (47, 47); (98, 8); (102, 12); (110, 10); (114, 13); (116, 9)].
Proof.
  intros c b. unfold short_escape. cbn [In]. split.
  - repeat match goal with |- context [c =? ?k] => destruct (c =? k) eqn:?; [intros H; injection H as <-; assert (c = k) as -> by lia; tauto|] end.
    discriminate.
  - intros H. repeat destruct H as [H|H]; try injection H as <- <-; try reflexivity. contradiction.
Qed.

(* what a source starts with *)
Inductive look : list Z -> option (list Z * list Z) -> Prop :=
| l_some : forall t m r, piece t m -> look (t ++ r) (Some (t, m))
| l_none : forall s, s <> [] -> (forall t m r, piece t m -> s <> t ++ r) -> look s None.

Lemma piece_det : forall t m r t' m' r', piece t m -> piece t' m' -> t ++ r = t' ++ r' -> t = t' /\ m = m' /\ r = r'.
Proof.
  intros t m r t' m' r' H H' E.
  destruct H as [c1 Hc|c1 b1 Hi|a1 b1 c1 d1 va vb vc vd bs Ha Hb Hc Hd Hu],
    H' as [c2 Hc2|c2 b2 Hi2|a2 b2 c2 d2 wa wb wc wd bs2 Ha2 Hb2 Hc2 Hd2 Hu2]; cbn [app] in E; try congruence.
  - injection E as -> ->. auto.
  - apply short_escape_ok in Hi, Hi2. injection E as -> ->. rewrite Hi in Hi2. injection Hi2 as ->. auto.
  - apply short_escape_ok in Hi. injection E as -> _. discriminate.
  - apply short_escape_ok in Hi2. injection E as <- _. discriminate.
  - injection E as -> -> -> -> ->. split; auto. split; auto.
    assert (Hh : forall c v v', hex_char c v -> hex_char c v' -> v = v') by (unfold hex_char; intros; lia).
    apply (utf8_det _ _ Hu _ _ Hu2). rewrite (Hh _ _ _ Ha Ha2), (Hh _ _ _ Hb Hb2), (Hh _ _ _ Hc Hc2), (Hh _ _ _ Hd Hd2). reflexivity.
Qed.
Lemma piece_len : forall t m, piece t m -> (1 <= length m <= length t)%nat.
Proof. intros t m H. inversion H; subst; cbn; try lia. apply utf8_len in H4. lia. Qed.

Lemma put_mem : forall A junk t S bs post, (length bs <= length t)%nat ->
  put (A ++ junk ++ t ++ S ++ post) (length A) bs
    = (A ++ bs) ++ skipn (length bs) (junk ++ t) ++ S ++ post.
Proof.
  intros. unfold put. rewrite firstn_app, firstn_all, Nat.sub_diag. cbn [firstn]. rewrite app_nil_r, <- !app_assoc.
  f_equal. f_equal. rewrite skipn_app. replace (skipn (length A + length bs) A) with (@nil Z) by (symmetry; apply skipn_all2; lia).
  cbn [app]. replace (length A + length bs - length A)%nat with (length bs) by lia.
  rewrite (app_assoc junk t). rewrite skipn_app.
  replace (length bs - length (junk ++ t))%nat with O by (rewrite app_length; lia). reflexivity.
Qed.

Lemma nth_mid : forall (A junk r : list Z) i, nth_error (A ++ junk ++ r) (length A + length junk + i) = nth_error r i.
Proof.
  intros. rewrite app_assoc. rewrite nth_error_app2 by (rewrite app_length; lia). f_equal. rewrite app_length. lia.
Qed.

Lemma decode_step : forall n A junk S post cur fin, cur = (length A + length junk)%nat -> fin = (cur + length S)%nat ->
  S <> [] ->
  (exists t m S', piece t m /\ S = t ++ S' /\
     decode_loop (Datatypes.S n) (A ++ junk ++ S ++ post) cur fin (length A)
     = decode_loop n ((A ++ m) ++ skipn (length m) (junk ++ t) ++ S' ++ post) (cur + length t) fin (length (A ++ m))) \/
  ((forall t m r, piece t m -> S <> t ++ r) /\
     decode_loop (Datatypes.S n) (A ++ junk ++ S ++ post) cur fin (length A) = DBad).
Proof.
  intros n A junk S post cur fin Hcur Hfin Hne.
  assert (Hout : forall t m S', piece t m -> S = t ++ S' ->
    (if Nat.leb (length A + length m) (length (A ++ junk ++ S ++ post))
     then decode_loop n (put (A ++ junk ++ S ++ post) (length A) m) (cur + length t) fin (length A + length m) else DUB)
    = decode_loop n ((A ++ m) ++ skipn (length m) (junk ++ t) ++ S' ++ post) (cur + length t) fin (length (A ++ m))).
  { intros t m S' Hp ->. pose proof (piece_len _ _ Hp) as Hl.
    replace (Nat.leb _ _) with true by (symmetry; apply Nat.leb_le; rewrite !app_length; lia).
    rewrite <- (app_assoc t S' post). rewrite put_mem by lia. now rewrite (app_length A m). }
  assert (Hat : forall i, nth_error (A ++ junk ++ S ++ post) (cur + i) = nth_error (S ++ post) i).
  { intros i. rewrite Hcur. apply nth_mid. }
  remember (A ++ junk ++ S ++ post) as M eqn:EM. clear EM.
  cbn [decode_loop].
  assert (Hlt : Nat.ltb cur fin = true). { apply Nat.ltb_lt. destruct S; [congruence|]. cbn [length] in Hfin. lia. }
  rewrite Hlt. cbn zeta.
  destruct S as [|c S]; [congruence|].
  assert (H0 : nth_error M cur = Some c) by (rewrite <- (Nat.add_0_r cur), Hat; reflexivity). rewrite H0.
  destruct (c =? 92) eqn:E92; cbn [negb].
  2: { left. exists [c], [c], S. assert (Hp : piece [c] [c]) by (constructor; lia). split; auto. split; auto.
       exact (Hout _ _ S Hp eq_refl). }
  assert (c = 92) as -> by lia.
  assert (Hnp : forall t m, piece (92 :: t) m -> t <> []).
  { intros t m Hp. inversion Hp; subst; try discriminate. congruence. }
  destruct S as [|e S].
  { right. cbn [length] in Hfin. replace (Nat.leb fin (Datatypes.S cur)) with true by (symmetry; apply Nat.leb_le; lia).
    split; auto. intros t m r Hp E. pose proof (piece_len _ _ Hp). destruct t as [|x t]; [cbn in *; lia|].
    injection E as <- E. destruct t; [|discriminate]. exact (Hnp _ _ Hp eq_refl). }
  cbn [length] in Hfin. replace (Nat.leb fin (Datatypes.S cur)) with false by (symmetry; apply Nat.leb_gt; lia).
  assert (H1 : nth_error M (Datatypes.S cur) = Some e) by (rewrite <- Nat.add_1_r, Hat; reflexivity). rewrite H1.
  destruct (short_escape e) as [b|] eqn:Es.
  { left. exists [92; e], [b], S. assert (Hp : piece [92; e] [b]) by (constructor; now apply short_escape_ok).
    split; auto. split; auto. exact (Hout _ _ S Hp eq_refl). }
  assert (Hns : forall t m r, piece t m -> 92 :: e :: S = t ++ r ->
    exists a b c d va vb vc vd, e = 117 /\ S = a :: b :: c :: d :: r /\
      hex_char a va /\ hex_char b vb /\ hex_char c vc /\ hex_char d vd /\ utf8 (va * 4096 + vb * 256 + vc * 16 + vd) m
      /\ t = [92; 117; a; b; c; d]).
  { intros t m r Hp E. inversion Hp; subst; cbn [app] in E; injection E; intros; subst; [congruence| |].
    - apply short_escape_ok in H. congruence.
    - repeat eexists; eauto. }
  destruct (e =? 117) eqn:Eu.
  2: { right. split; auto. intros t m r Hp E. destruct (Hns _ _ _ Hp E) as (a & b & c & d & va & vb & vc & vd & He & _). lia. }
  assert (e = 117) as -> by lia.
  destruct (Nat.ltb fin (Datatypes.S cur + 5)) eqn:El.
  { apply Nat.ltb_lt in El. right. split; auto. intros t m r Hp E.
    destruct (Hns _ _ _ Hp E) as (a & b & c & d & va & vb & vc & vd & He & -> & _). cbn [length] in Hfin. lia. }
  apply Nat.ltb_ge in El.
  destruct S as [|a [|b [|c [|d S]]]]; cbn [length] in Hfin; try lia.
  rewrite !Hat. cbn [app nth_error].
  unfold hextoi4.
  destruct (hex_digit a) as [va|] eqn:Ea, (hex_digit b) as [vb|] eqn:Eb, (hex_digit c) as [vc|] eqn:Ec, (hex_digit d) as [vd|] eqn:Ed.
  1: { left. apply hex_digit_ok in Ea, Eb, Ec, Ed.
    pose proof (hex_char_range _ _ Ea). pose proof (hex_char_range _ _ Eb). pose proof (hex_char_range _ _ Ec). pose proof (hex_char_range _ _ Ed).
    replace (((va * 16 + vb) * 16 + vc) * 16 + vd) with (va * 4096 + vb * 256 + vc * 16 + vd) by lia.
    set (ch := va * 4096 + vb * 256 + vc * 16 + vd).
    assert (Hp : piece [92; 117; a; b; c; d] (utf8_of ch)).
    { apply p_unicode with va vb vc vd; auto. apply utf8_of_ok. unfold ch. lia. }
    exists [92; 117; a; b; c; d], (utf8_of ch), S. split; auto. split; auto. exact (Hout _ _ S Hp eq_refl). }
  all: right; split; auto; intros t m r Hp E;
    destruct (Hns _ _ _ Hp E) as (a' & b' & c' & d' & va' & vb' & vc' & vd' & _ & Es' & Ha & Hb & Hc & Hd & _);
    injection Es' as <- <- <- <- <-; apply hex_digit_ok in Ha, Hb, Hc, Hd; congruence.
Qed.

Lemma decodes_inv : forall s out, decodes s out -> s <> [] -> exists t m s' m', piece t m /\ decodes s' m' /\ s = t ++ s' /\ out = m ++ m'.
Proof. intros s out H Hne. inversion H; subst; [congruence|]. eauto 10. Qed.
Lemma decodes_nil : forall out, decodes [] out -> out = [].
Proof. intros out H. inversion H; subst; auto. apply piece_len in H1. destruct t; [cbn in H1; lia|discriminate]. Qed.

Lemma decode_loop_ok : forall n A junk S post cur fin, cur = (length A + length junk)%nat -> fin = (cur + length S)%nat ->
  (length S <= n)%nat ->
  (exists out junk', decodes S out /\ (forall o, decodes S o -> o = out) /\ (length out <= length S)%nat /\
     (length out + length junk' = length junk + length S)%nat /\
     decode_loop n (A ++ junk ++ S ++ post) cur fin (length A) = DOk (A ++ out ++ junk' ++ post) (length A + length out)) \/
  ((forall o, ~ decodes S o) /\ decode_loop n (A ++ junk ++ S ++ post) cur fin (length A) = DBad).
Proof.
  induction n as [|n IH]; intros A junk S post cur fin Hcur Hfin Hn.
  - destruct S; [|cbn in Hn; lia]. left. exists [], junk. cbn [app length decode_loop] in *.
    replace (Nat.ltb cur fin) with false by (symmetry; apply Nat.ltb_ge; lia).
    repeat split; try lia; [constructor|apply decodes_nil|f_equal; lia].
  - destruct S as [|c S].
    { left. exists [], junk. cbn [app length decode_loop] in *.
      replace (Nat.ltb cur fin) with false by (symmetry; apply Nat.ltb_ge; lia).
      repeat split; try lia; [constructor|apply decodes_nil|f_equal; lia]. }
    destruct (decode_step n A junk (c :: S) post cur fin Hcur Hfin ltac:(discriminate))
      as [(t & m & S' & Hp & E & ->)|[Hno ->]].
    + pose proof (piece_len _ _ Hp) as Hl. rewrite E in Hn, Hfin. rewrite app_length in Hn, Hfin.
      destruct (IH (A ++ m) (skipn (length m) (junk ++ t)) S' post (cur + length t)%nat fin)
        as [(out & junk' & Hd & Hu & Hle & Hlen & ->)|[Hno ->]]; try lia.
      * rewrite skipn_length, !app_length. lia.
      * left. exists (m ++ out), junk'. rewrite E. rewrite skipn_length, app_length in Hlen. rewrite !app_length. split; [now constructor|].
        split; [|split; [lia|split; [lia|f_equal; [now rewrite <- !app_assoc|lia]]]].
        intros o Ho. apply decodes_inv in Ho as (t2 & m2 & s2 & m2' & Hp2 & Hd2 & E2 & ->); [|rewrite <- E; discriminate].
        destruct (piece_det _ _ _ _ _ _ Hp Hp2 E2) as (<- & <- & <-). f_equal. auto.
      * right. split; auto. intros o Ho. apply decodes_inv in Ho as (t2 & m2 & s2 & m2' & Hp2 & Hd2 & E2 & ->); [|discriminate].
        rewrite E in E2. destruct (piece_det _ _ _ _ _ _ Hp Hp2 E2) as (<- & <- & <-). eapply Hno; eauto.
    + right. split; auto. intros o Ho. apply decodes_inv in Ho as (t2 & m2 & s2 & m2' & Hp2 & Hd2 & E2 & ->); [|discriminate].
      eapply Hno; eauto.
Qed.
