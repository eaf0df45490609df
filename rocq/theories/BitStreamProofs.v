From Coq Require Import List ZArith Bool Lia ZifyBool ZifyNat.
From Verif Require Import BitStreamModel BitStreamSpec.
Import ListNotations.
Local Open Scope Z_scope.
Ltac Zify.zify_post_hook ::= Z.to_euclidean_division_equations.

(* the position in bits *)
Definition bpos (s : bs) : Z := 8 * Z.of_nat (b_pos s) + 8 - b_left s.
Definition inv (s : bs) : Prop := 1 <= b_left s <= 8 /\ (b_last s <= length (b_buf s))%nat /\ (b_pos s <= b_last s)%nat
  /\ (b_pos s = b_last s -> b_left s = 8).

Lemma mask_bits : forall k i, 0 <= k <= 8 -> 0 <= i -> Z.testbit (Z.shiftr 255 (8 - k)) i = (i <? k).
Proof.
  intros k i Hk Hi. rewrite Z.shiftr_spec by lia. change 255 with (Z.ones 8). rewrite Z.testbit_ones by lia. lia.
Qed.

Lemma bits_ext : forall a b, (forall j, 0 <= j -> Z.testbit a j = Z.testbit b j) -> a = b.
Proof. intros. now apply Z.bits_inj'. Qed.

Lemma nonneg_bits_bound : forall x w, 0 <= w -> 0 <= x -> (forall j, w <= j -> Z.testbit x j = false) -> x < 2 ^ w.
Proof.
  intros x w Hw Hx H. assert (E : x = x mod 2 ^ w).
  { apply bits_ext. intros j Hj. destruct (Z_lt_le_dec j w).
    - now rewrite Z.mod_pow2_bits_low.
    - rewrite Z.mod_pow2_bits_high by lia. now apply H. }
  rewrite E. apply Z.mod_pos_bound. apply Z.pow_pos_nonneg; lia.
Qed.

Lemma nth_nth_error : forall (l : list Z) i x, nth_error l i = Some x -> nth i l 0 = x.
Proof. intros. now apply nth_error_nth. Qed.

Lemma read_loop_ok : forall f s v n p w, inv s -> bytes (b_buf s) -> 0 <= n <= w -> w <= 64 -> n <= Z.of_nat f -> 0 <= v ->
  bpos s = p + w - n ->
  (forall j, n <= j -> Z.testbit v j = (j <? w) && bit (b_buf s) (p + w - 1 - j)) ->
  (forall j, 0 <= j < n -> Z.testbit v j = false) ->
  b_err s = false ->
  exists x s', read_loop f s v n = BOk x s' /\ b_buf s' = b_buf s /\ b_last s' = b_last s /\ inv s' /\
  (p + w <= 8 * Z.of_nat (b_last s) -> b_err s' = false /\ bpos s' = p + w /\ field (b_buf s) p w x) /\
  (8 * Z.of_nat (b_last s) < p + w -> b_err s' = true).
Proof.
  induction f as [|f IH]; intros s v n p w (Hl & Hlast & Hpos & Hend) Hb Hn Hw Hf Hv Hp Hhi Hlo Herr.
  - assert (n = 0) by lia. subst n. cbn [read_loop Z.eqb]. eexists _, s. split; [reflexivity|].
    repeat (split; [reflexivity|]). split; [repeat split; auto; lia|]. split.
    + intros _. split; auto. split; [lia|]. split.
      * split; auto. apply nonneg_bits_bound; auto; [lia|]. intros j Hj. rewrite Hhi by lia. now replace (j <? w) with false by lia.
      * intros j Hj. rewrite Hhi by lia. now replace (j <? w) with true by lia.
    + intros Hc. unfold bpos in Hp. lia.
  - cbn [read_loop]. destruct (n =? 0) eqn:En.
    { assert (n = 0) by lia. subst n. eexists _, s. split; [reflexivity|].
      repeat (split; [reflexivity|]). split; [repeat split; auto; lia|]. split.
      - intros _. split; auto. split; [lia|]. split.
        + split; auto. apply nonneg_bits_bound; auto; [lia|]. intros j Hj. rewrite Hhi by lia. now replace (j <? w) with false by lia.
        + intros j Hj. rewrite Hhi by lia. now replace (j <? w) with true by lia.
      - intros Hc. unfold bpos in Hp. lia. }
    destruct (Nat.leb (b_last s) (b_pos s)) eqn:El.
    { apply Nat.leb_le in El. eexists _, _. split; [reflexivity|]. cbn [b_buf b_last b_err]. repeat (split; [reflexivity|]).
      split; [repeat split; cbn; auto; lia|]. split; [|auto].
      intros Hc. unfold bpos in Hp. specialize (Hend ltac:(lia)). lia. }
    apply Nat.leb_gt in El.
    destruct (nth_error (b_buf s) (b_pos s)) as [byte|] eqn:Eb; [|apply nth_error_None in Eb; lia].
    assert (Hbyte : 0 <= byte < 256). { eapply Forall_forall in Hb; [|eapply nth_error_In; eauto]. exact Hb. }
    cbn zeta. set (k := Z.min (b_left s) n). set (n' := n - k). set (left := b_left s - k).
    assert (Hk : 1 <= k <= 8) by lia. assert (Hkn : k <= n) by lia.
    destruct (n' >=? 64) eqn:E64; [lia|].
    set (cv := Z.land _ _).
    assert (Hcv : forall i, 0 <= i -> Z.testbit cv i = Z.testbit byte (i + left) && (i <? k)).
    { intros i Hi. unfold cv. rewrite Z.land_spec, Z.shiftr_spec, mask_bits by lia. reflexivity. }
    set (v' := Z.lor v _).
    assert (Hbit : forall j, n' <= j < n -> bit (b_buf s) (p + w - 1 - j) = Z.testbit byte (j - n' + left)).
    { intros j Hj. unfold bit. unfold bpos in Hp.
      replace (p + w - 1 - j) with (8 * Z.of_nat (b_pos s) + (7 - (j - n' + left))) by lia.
      assert (0 <= 7 - (j - n' + left) < 8) by lia.
      replace ((8 * Z.of_nat (b_pos s) + (7 - (j - n' + left))) / 8) with (Z.of_nat (b_pos s)) by lia.
      replace ((8 * Z.of_nat (b_pos s) + (7 - (j - n' + left))) mod 8) with (7 - (j - n' + left)) by lia.
      rewrite Nat2Z.id. rewrite (nth_nth_error _ _ _ Eb). f_equal. lia. }
    assert (Hv' : forall j, 0 <= j -> Z.testbit v' j = Z.testbit v j || ((j <? 64) && (n' <=? j) && Z.testbit byte (j - n' + left) && (j - n' <? k))).
    { intros j Hj. unfold v'. rewrite Z.lor_spec. f_equal. destruct (j <? 64) eqn:E.
      - rewrite Z.mod_pow2_bits_low by lia. destruct (n' <=? j) eqn:E2.
        + rewrite Z.shiftl_spec by lia. rewrite Hcv by lia. reflexivity.
        + rewrite Z.shiftl_spec_low by lia. reflexivity.
      - rewrite Z.mod_pow2_bits_high by lia. reflexivity. }
    assert (Hv0 : 0 <= v').
    { unfold v'. apply Z.lor_nonneg. split; auto. apply Z.mod_pos_bound. lia. }
    assert (Hhi' : forall j, n' <= j -> Z.testbit v' j = (j <? w) && bit (b_buf s) (p + w - 1 - j)).
    { intros j Hj. rewrite Hv' by lia. destruct (Z_lt_le_dec j n) as [Hjn|Hjn].
      - rewrite Hlo by lia. rewrite Hbit by lia. replace (j <? 64) with true by lia. replace (n' <=? j) with true by lia.
        replace (j - n' <? k) with true by lia. replace (j <? w) with true by lia. cbn. now rewrite andb_true_r.
      - replace (j - n' <? k) with false by lia. rewrite andb_false_r, orb_false_r. apply Hhi. lia. }
    assert (Hlo' : forall j, 0 <= j < n' -> Z.testbit v' j = false).
    { intros j Hj. rewrite Hv' by lia. rewrite Hlo by lia. replace (n' <=? j) with false by lia. now rewrite andb_false_r. }
    destruct (left >? 0) eqn:Eleft.
    + assert (n' = 0) by lia. eexists _, _. split; [reflexivity|]. cbn [b_buf b_last b_err].
      repeat (split; [reflexivity|]). split; [repeat split; cbn; auto; lia|]. unfold bpos in *. cbn [b_pos b_left]. split.
      * intros _. split; auto. split; [lia|]. split.
        -- split; auto. apply nonneg_bits_bound; auto; [lia|]. intros j Hj. rewrite Hhi' by lia. now replace (j <? w) with false by lia.
        -- intros j Hj. rewrite Hhi' by lia. now replace (j <? w) with true by lia.
      * intros Hc. lia.
    + destruct (IH (mk_bs (b_buf s) (S (b_pos s)) (b_last s) 8 false) v' n' p w) as (x & s' & E & H1 & H2 & H3 & H4 & H5); auto.
      * repeat split; cbn; auto; lia.
      * lia.
      * lia.
      * unfold bpos in *. cbn [b_pos b_left]. lia.
      * cbn [b_buf b_last] in *. exists x, s'. split; [exact E|]. repeat (split; [assumption|]). assumption.
Qed.

Lemma bs_read_ok : forall s w, inv s -> bytes (b_buf s) -> 0 <= w <= 64 -> b_err s = false ->
  exists x s', bs_read s w = BOk x s' /\ b_buf s' = b_buf s /\ b_last s' = b_last s /\ inv s' /\
  (bpos s + w <= 8 * Z.of_nat (b_last s) -> b_err s' = false /\ bpos s' = bpos s + w /\ field (b_buf s) (bpos s) w x) /\
  (8 * Z.of_nat (b_last s) < bpos s + w -> b_err s' = true).
Proof.
  intros s w Hi Hb Hw He. unfold bs_read. rewrite He.
  apply read_loop_ok; auto; try lia.
  - intros j Hj. rewrite Z.bits_0. now replace (j <? w) with false by lia.
  - intros j Hj. apply Z.bits_0.
Qed.

(* --- writing --- *)
Lemma upd_length : forall l i x, (i < length l)%nat -> length (upd l i x) = length l.
Proof. intros. unfold upd. rewrite !app_length, firstn_length, skipn_length. cbn [length]. lia. Qed.
Lemma upd_nth : forall l i x j, (i < length l)%nat -> nth j (upd l i x) 0 = if Nat.eqb j i then x else nth j l 0.
Proof.
  intros l i x j Hi. unfold upd. destruct (Nat.eqb j i) eqn:E.
  - apply Nat.eqb_eq in E. subst j. rewrite app_nth2 by (rewrite firstn_length; lia). rewrite firstn_length.
    replace (i - Nat.min i (length l))%nat with O by lia. reflexivity.
  - apply Nat.eqb_neq in E. destruct (Nat.lt_ge_cases j i).
    + rewrite app_nth1 by (rewrite firstn_length; lia). rewrite <- (firstn_skipn i l) at 2.
      rewrite app_nth1; auto. rewrite firstn_length. lia.
    + rewrite app_nth2 by (rewrite firstn_length; lia). rewrite firstn_length.
      replace (j - Nat.min i (length l))%nat with (S (j - S i)) by lia. cbn [app nth].
      rewrite <- (firstn_skipn (S i) l) at 2. rewrite app_nth2 by (rewrite firstn_length; lia).
      rewrite firstn_length. f_equal. lia.
Qed.
Lemma upd_bytes : forall l i x, bytes l -> 0 <= x < 256 -> bytes (upd l i x).
Proof.
  intros l i x H Hx. unfold upd, bytes. apply Forall_app. split.
  - apply Forall_forall. intros y Hy. eapply Forall_forall in H; eauto. eapply (firstn_skipn i l) || idtac.
    rewrite <- (firstn_skipn i l). apply in_or_app. now left.
  - apply Forall_app. split; [now constructor|]. apply Forall_forall. intros y Hy. eapply Forall_forall in H; eauto.
    rewrite <- (firstn_skipn (S i) l). apply in_or_app. now right.
Qed.

(* the bits of v, most significant first, at p *)
Definition wbit (v p w q : Z) : bool := (p <=? q) && (q <? p + w) && Z.testbit v (w - 1 - (q - p)).

Lemma wbit_past : forall v p w q b, p + w <= b -> (b <=? q) && wbit v p w q = false.
Proof.
  intros v p w q b H. unfold wbit. destruct (b <=? q) eqn:E; [|reflexivity].
  replace (q <? p + w) with false by lia. now rewrite andb_false_r.
Qed.

Lemma write_loop_ok : forall f s v n p w, inv s -> bytes (b_buf s) -> 0 <= n <= w -> w <= 64 -> n <= Z.of_nat f ->
  bpos s = p + w - n -> 0 <= p -> b_err s = false ->
  exists s', write_loop f s v n = BOk tt s' /\ length (b_buf s') = length (b_buf s) /\ bytes (b_buf s') /\
  b_last s' = b_last s /\ inv s' /\
  (forall q, 8 * Z.of_nat (b_last s) <= q -> bit (b_buf s') q = bit (b_buf s) q) /\
  (p + w <= 8 * Z.of_nat (b_last s) -> b_err s' = false /\ bpos s' = p + w /\
    (forall q, 0 <= q -> bit (b_buf s') q = bit (b_buf s) q || ((bpos s <=? q) && wbit v p w q))) /\
  (8 * Z.of_nat (b_last s) < p + w -> b_err s' = true).
Proof.
  induction f as [|f IH]; intros s v n p w (Hl & Hlast & Hpos & Hend) Hb Hn Hw Hf Hp Hp0 Herr.
  - assert (n = 0) by lia. subst n. cbn [write_loop Z.eqb]. exists s. split; [reflexivity|].
    do 3 (split; [now auto|]). split; [repeat split; auto; lia|]. split; [auto|]. split.
    + intros _. split; auto. split; [lia|]. intros q Hq.
      rewrite (wbit_past v p w q (bpos s)) by lia. now rewrite orb_false_r.
    + intros Hc. unfold bpos in Hp. lia.
  - cbn [write_loop]. destruct (n =? 0) eqn:En.
    { assert (n = 0) by lia. subst n. exists s. split; [reflexivity|].
      do 3 (split; [now auto|]). split; [repeat split; auto; lia|]. split; [auto|]. split.
      + intros _. split; auto. split; [lia|]. intros q Hq.
        rewrite (wbit_past v p w q (bpos s)) by lia. now rewrite orb_false_r.
      + intros Hc. unfold bpos in Hp. lia. }
    destruct (Nat.leb (b_last s) (b_pos s)) eqn:El.
    { apply Nat.leb_le in El. eexists. split; [reflexivity|]. cbn [b_buf b_last b_err]. do 3 (split; [now auto|]).
      split; [repeat split; cbn; auto; lia|]. split; [auto|]. split; [|auto].
      intros Hc. unfold bpos in Hp. specialize (Hend ltac:(lia)). lia. }
    apply Nat.leb_gt in El.
    destruct (nth_error (b_buf s) (b_pos s)) as [byte|] eqn:Eb; [|apply nth_error_None in Eb; lia].
    assert (Hbyte : 0 <= byte < 256). { eapply Forall_forall in Hb; [|eapply nth_error_In; eauto]. exact Hb. }
    pose proof (nth_nth_error _ _ _ Eb) as Hnth.
    cbn zeta. set (k := Z.min (b_left s) n). set (n' := n - k). set (left := b_left s - k).
    assert (Hk : 1 <= k <= 8) by lia. assert (Hkn : k <= n) by lia.
    destruct (n' >=? 64) eqn:E64; [lia|].
    set (cv := Z.land _ _ mod 256).
    assert (Hcv : forall i, 0 <= i -> Z.testbit cv i = Z.testbit v (i + n') && (i <? k)).
    { intros i Hi. unfold cv. change 256 with (2 ^ 8). destruct (Z_lt_le_dec i 8).
      - rewrite Z.mod_pow2_bits_low by lia. rewrite Z.land_spec, Z.shiftr_spec, mask_bits by lia. reflexivity.
      - rewrite Z.mod_pow2_bits_high by lia. replace (i <? k) with false by lia. now rewrite andb_false_r. }
    set (byte' := Z.lor _ _ mod 256).
    assert (Hbyte' : forall i, 0 <= i < 8 -> Z.testbit byte' i = Z.testbit byte i || ((left <=? i) && (i <? left + k) && Z.testbit v (i - left + n'))).
    { intros i Hi. unfold byte'. change 256 with (2 ^ 8). rewrite Z.mod_pow2_bits_low by lia. rewrite Z.lor_spec. f_equal.
      destruct (left <=? i) eqn:E.
      - rewrite Z.shiftl_spec by lia. rewrite Hcv by lia. replace (i <? left + k) with (i - left <? k) by lia. cbn. apply andb_comm.
      - rewrite Z.shiftl_spec_low by lia. reflexivity. }
    assert (Hr' : 0 <= byte' < 256) by (apply Z.mod_pos_bound; lia).
    set (buf := upd (b_buf s) (b_pos s) byte').
    assert (Hblen : length buf = length (b_buf s)) by (apply upd_length; lia).
    assert (Hbb : bytes buf) by now apply upd_bytes.
    assert (Hbit : forall q, 0 <= q -> bit buf q = bit (b_buf s) q || ((bpos s <=? q) && (q <? bpos s + k) && wbit v p w q)).
    { intros q Hq. unfold bit at 1. unfold buf. rewrite upd_nth by lia. unfold bpos in *.
      destruct (Nat.eqb (Z.to_nat (q / 8)) (b_pos s)) eqn:Ei.
      - apply Nat.eqb_eq in Ei. assert (Hqd : q / 8 = Z.of_nat (b_pos s)) by lia.
        rewrite Hbyte' by lia. unfold bit. rewrite Ei, Hnth. f_equal. unfold wbit.
        replace (left <=? 7 - q mod 8) with (q <? 8 * Z.of_nat (b_pos s) + 8 - b_left s + k) by lia.
        replace (7 - q mod 8 <? left + k) with (8 * Z.of_nat (b_pos s) + 8 - b_left s <=? q) by lia.
        replace (7 - q mod 8 - left + n') with (w - 1 - (q - p)) by lia.
        destruct (q <? 8 * Z.of_nat (b_pos s) + 8 - b_left s + k) eqn:Ea, (8 * Z.of_nat (b_pos s) + 8 - b_left s <=? q) eqn:Ec; try reflexivity.
        replace (p <=? q) with true by lia. replace (q <? p + w) with true by lia. reflexivity.
      - apply Nat.eqb_neq in Ei. unfold bit.
        replace ((8 * Z.of_nat (b_pos s) + 8 - b_left s <=? q) && (q <? 8 * Z.of_nat (b_pos s) + 8 - b_left s + k)) with false by lia.
        now rewrite orb_false_r. }
    destruct (left >? 0) eqn:Eleft.
    + assert (n' = 0) by lia. eexists. split; [reflexivity|]. cbn [b_buf b_last b_err].
      do 3 (split; [now auto|]). split; [repeat split; cbn; auto; lia|]. unfold bpos in *. cbn [b_pos b_left]. split.
      { intros q Hq. rewrite Hbit by lia. replace (q <? _) with false by lia. rewrite andb_false_r. now rewrite orb_false_r. }
      split.
      * intros _. split; auto. split; [lia|]. intros q Hq. rewrite Hbit by lia. f_equal. unfold wbit.
        destruct (8 * Z.of_nat (b_pos s) + 8 - b_left s <=? q) eqn:Ea; [|reflexivity]. cbn [andb].
        destruct (q <? 8 * Z.of_nat (b_pos s) + 8 - b_left s + k) eqn:Ec; [reflexivity|].
        replace (q <? p + w) with false by lia. now rewrite andb_false_r.
      * intros Hc. lia.
    + destruct (IH (mk_bs buf (S (b_pos s)) (b_last s) 8 false) v n' p w) as (s' & E & H1 & H2 & H3 & H4 & H5 & H6 & H7); auto.
      * repeat split; cbn; auto; lia.
      * lia.
      * lia.
      * unfold bpos in *. cbn [b_pos b_left]. lia.
      * cbn [b_buf b_last] in *. exists s'. split; auto. split; [congruence|]. split; [assumption|]. split; [assumption|]. split; [assumption|]. split.
        { intros q Hq. rewrite H5 by auto. rewrite Hbit by lia. unfold bpos. replace (q <? _) with false by lia.
          rewrite andb_false_r. now rewrite orb_false_r. }
        split; auto.
        intros Hc. destruct (H6 Hc) as (G1 & G2 & G3). split; auto. split; auto. intros q Hq. rewrite G3 by auto.
        rewrite Hbit by auto. rewrite <- orb_assoc. f_equal. unfold bpos in *. cbn [b_pos b_left].
        destruct (wbit v p w q); [|now rewrite !andb_false_r].
        rewrite !andb_true_r. lia.
Qed.
Lemma bs_write_ok : forall s w v, inv s -> bytes (b_buf s) -> 0 <= w <= 64 -> b_err s = false ->
  exists s', bs_write s w v = BOk tt s' /\ length (b_buf s') = length (b_buf s) /\ bytes (b_buf s') /\
  b_last s' = b_last s /\ inv s' /\
  (forall q, 8 * Z.of_nat (b_last s) <= q -> bit (b_buf s') q = bit (b_buf s) q) /\
  (bpos s + w <= 8 * Z.of_nat (b_last s) -> b_err s' = false /\ bpos s' = bpos s + w /\
    (forall q, 0 <= q -> bit (b_buf s') q = bit (b_buf s) q || wbit v (bpos s) w q)) /\
  (8 * Z.of_nat (b_last s) < bpos s + w -> b_err s' = true).
Proof.
  intros s w v Hi Hb Hw He. unfold bs_write. rewrite He.
  assert (Hp0 : 0 <= bpos s) by (destruct Hi as (Hl & _); unfold bpos; lia).
  destruct (write_loop_ok (Z.to_nat w) s v w (bpos s) w) as (s' & H1 & H2 & H3 & H4 & H5 & H6 & H7 & H8); auto; try lia.
  exists s'. do 6 (split; [assumption|]). split; auto. intros Hc. destruct (H7 Hc) as (G1 & G2 & G3). split; auto. split; auto.
  intros q Hq. rewrite G3 by auto. f_equal. unfold wbit. destruct (bpos s <=? q); reflexivity.
Qed.

Lemma write_fields_err : forall fs s, b_err s = true -> write_fields s fs = BOk tt s.
Proof.
  induction fs as [|[w v] fs IH]; intros s H; cbn [write_fields]; auto. unfold bs_write. rewrite H. now apply IH.
Qed.
Lemma read_fields_err : forall ws s, b_err s = true -> read_fields s ws = BOk (map (fun _ => 0) ws) s.
Proof.
  induction ws as [|w ws IH]; intros s H; cbn [read_fields map]; auto. unfold bs_read. rewrite H. now rewrite (IH s H).
Qed.

Lemma inv_pos : forall s, inv s -> bpos s <= 8 * Z.of_nat (b_last s) /\ 0 <= bpos s.
Proof. intros s (H1 & H2 & H3 & H4). unfold bpos. destruct (Nat.eq_dec (b_pos s) (b_last s)) as [E|E]; [specialize (H4 E)|]; lia. Qed.

Lemma width_nonneg : forall fs, Forall (fun f => 0 <= fst f <= 64) fs -> 0 <= width fs.
Proof. induction 1; cbn [width fold_right]; [lia|]. fold (width l). lia. Qed.

(* the bit of the fields laid one after the other from p *)
Fixpoint fbit (fs : list (Z * Z)) (p q : Z) : bool :=
  match fs with
  | [] => false
  | (w, v) :: fs => wbit v p w q || fbit fs (p + w) q
  end.
Lemma fbit_before : forall fs p q, Forall (fun f => 0 <= fst f <= 64) fs -> q < p -> fbit fs p q = false.
Proof.
  induction fs as [|[w v] fs IH]; intros p q Hf Hq; cbn [fbit]; auto. inversion Hf; subst. cbn [fst] in *.
  rewrite IH by (auto; lia). unfold wbit. now replace (p <=? q) with false by lia.
Qed.
Lemma fbit_after : forall fs p q, Forall (fun f => 0 <= fst f <= 64) fs -> p + width fs <= q -> fbit fs p q = false.
Proof.
  induction fs as [|[w v] fs IH]; intros p q Hf Hq; cbn [fbit]; auto. inversion Hf; subst. cbn [fst width fold_right] in *.
  fold (width fs) in *. pose proof (width_nonneg fs H2).
  rewrite IH by (auto; lia). unfold wbit. replace (q <? p + w) with false by lia. now rewrite andb_false_r.
Qed.

Lemma write_fields_ok : forall fs s, inv s -> bytes (b_buf s) -> b_err s = false ->
  Forall (fun f => 0 <= fst f <= 64) fs ->
  exists s', write_fields s fs = BOk tt s' /\ length (b_buf s') = length (b_buf s) /\ bytes (b_buf s') /\
  b_last s' = b_last s /\ inv s' /\
  (forall q, 8 * Z.of_nat (b_last s) <= q -> bit (b_buf s') q = bit (b_buf s) q) /\
  (bpos s + width fs <= 8 * Z.of_nat (b_last s) -> b_err s' = false /\ bpos s' = bpos s + width fs /\
    (forall q, 0 <= q -> bit (b_buf s') q = bit (b_buf s) q || fbit fs (bpos s) q)) /\
  (8 * Z.of_nat (b_last s) < bpos s + width fs -> b_err s' = true).
Proof.
  induction fs as [|[w v] fs IH]; intros s Hi Hb He Hf.
  - exists s. cbn [write_fields width fold_right fbit]. split; [reflexivity|]. split; [reflexivity|]. split; [assumption|].
    split; [reflexivity|]. split; [assumption|]. split; [reflexivity|]. pose proof (inv_pos s Hi). split.
    + intros _. split; auto. split; [lia|]. intros q Hq. now rewrite orb_false_r.
    + intros Hc. lia.
  - inversion Hf as [|x y Hw Hf']; subst. cbn [fst] in Hw. cbn [write_fields width fold_right fst fbit]. fold (width fs).
    pose proof (width_nonneg fs Hf') as Hw0.
    destruct (bs_write_ok s w v Hi Hb Hw He) as (s1 & E1 & A1 & A2 & A3 & A4 & A5 & A6 & A7).
    rewrite E1. destruct (Z_le_gt_dec (bpos s + w) (8 * Z.of_nat (b_last s))) as [Hfit|Hfit].
    + destruct (A6 Hfit) as (G1 & G2 & G3).
      destruct (IH s1 A4 A2 G1 Hf') as (s2 & E2 & B1 & B2 & B3 & B4 & B5 & B6 & B7). rewrite A3 in *. rewrite G2 in *.
      exists s2. split; [exact E2|]. split; [congruence|]. split; [assumption|]. split; [congruence|]. split; [assumption|].
      split; [intros q Hq; rewrite B5 by auto; now apply A5|]. split.
      * intros Hc. destruct B6 as (C1 & C2 & C3); [lia|]. split; auto. split; [lia|]. intros q Hq. rewrite C3, G3 by auto.
        now rewrite <- orb_assoc.
      * intros Hc. apply B7. lia.
    + specialize (A7 ltac:(lia)). rewrite write_fields_err by auto. exists s1. split; [reflexivity|]. split; [assumption|].
      split; [assumption|]. split; [assumption|]. split; [assumption|]. split; [assumption|]. split; [intros Hc; lia|auto].
Qed.

(* the values read are the fields at their places *)
Fixpoint fields_at (buf : list Z) (p : Z) (ws vs : list Z) : Prop :=
  match ws, vs with
  | [], [] => True
  | w :: ws, v :: vs => field buf p w v /\ fields_at buf (p + w) ws vs
  | _, _ => False
  end.
Definition total (ws : list Z) : Z := fold_right Z.add 0 ws.

Lemma total_nonneg : forall ws, Forall (fun w => 0 <= w <= 64) ws -> 0 <= total ws.
Proof. induction 1; cbn [total fold_right]; [lia|]. fold (total l). lia. Qed.

Lemma read_fields_ok : forall ws s, inv s -> bytes (b_buf s) -> b_err s = false -> Forall (fun w => 0 <= w <= 64) ws ->
  exists vs s', read_fields s ws = BOk vs s' /\ b_buf s' = b_buf s /\ b_last s' = b_last s /\ inv s' /\
  (bpos s + total ws <= 8 * Z.of_nat (b_last s) -> b_err s' = false /\ bpos s' = bpos s + total ws /\ fields_at (b_buf s) (bpos s) ws vs) /\
  (8 * Z.of_nat (b_last s) < bpos s + total ws -> b_err s' = true).
Proof.
  induction ws as [|w ws IH]; intros s Hi Hb He Hf.
  - exists [], s. cbn [read_fields total fold_right fields_at]. pose proof (inv_pos s Hi).
    split; [reflexivity|]. split; [reflexivity|]. split; [reflexivity|]. split; [assumption|]. split.
    + intros _. split; auto. split; [lia|auto].
    + intros Hc. lia.
  - inversion Hf as [|x y Hw Hf']; subst. cbn [read_fields total fold_right]. fold (total ws).
    pose proof (total_nonneg ws Hf') as Hw0.
    destruct (bs_read_ok s w Hi Hb Hw He) as (v & s1 & E1 & A1 & A2 & A3 & A4 & A5). rewrite E1.
    destruct (Z_le_gt_dec (bpos s + w) (8 * Z.of_nat (b_last s))) as [Hfit|Hfit].
    + destruct (A4 Hfit) as (G1 & G2 & G3). rewrite <- A1 in Hb.
      destruct (IH s1 A3 Hb G1 Hf') as (vs & s2 & E2 & B1 & B2 & B3 & B4 & B5). rewrite E2.
      rewrite A1, A2, G2 in *. exists (v :: vs), s2. split; [reflexivity|]. split; [congruence|]. split; [congruence|]. split; [assumption|].
      split.
      * intros Hc. destruct B4 as (C1 & C2 & C3); [lia|]. split; auto. split; [lia|]. cbn [fields_at]. auto.
      * intros Hc. apply B5. lia.
    + specialize (A5 ltac:(lia)). rewrite read_fields_err by auto. eexists _, s1. split; [reflexivity|].
      split; [assumption|]. split; [assumption|]. split; [assumption|]. split; [intros Hc; lia|auto].
Qed.

Lemma field_unique : forall buf p w x y, field buf p w x -> field buf p w y -> 0 <= w -> x = y.
Proof.
  intros buf p w x y [Hx1 Hx2] [Hy1 Hy2] Hw. apply bits_ext. intros j Hj. destruct (Z_lt_le_dec j w).
  - now rewrite Hx2, Hy2 by lia.
  - rewrite <- (Z.mod_small x (2 ^ w)), <- (Z.mod_small y (2 ^ w)) by lia. now rewrite !Z.mod_pow2_bits_high by lia.
Qed.

Lemma fields_written : forall fs pre p buf,
  Forall (fun f => 0 <= fst f <= 64) fs -> 0 <= p ->
  (forall q, p <= q -> bit buf q = fbit fs p q) ->
  forall vs, fields_at buf p (map fst fs) vs -> pre = p -> vs = map (fun f => snd f mod 2 ^ fst f) fs.
Proof.
  induction fs as [|[w v] fs IH]; intros pre p buf Hf Hp Hbit vs Hvs _; destruct vs as [|x vs]; cbn [map fields_at fst snd] in *; try contradiction; auto.
  inversion Hf as [|a b Hw Hf']; subst. cbn [fst] in Hw. destruct Hvs as [Hx Hvs]. f_equal.
  - apply (field_unique buf p w); auto; [|lia]. split.
    + apply Z.mod_pos_bound. apply Z.pow_pos_nonneg; lia.
    + intros j Hj. rewrite Z.mod_pow2_bits_low by lia. rewrite Hbit by lia. cbn [fbit].
      rewrite fbit_before by (auto; lia). rewrite orb_false_r. unfold wbit.
      replace (p <=? p + w - 1 - j) with true by lia. replace (p + w - 1 - j <? p + w) with true by lia. cbn [andb].
      f_equal. lia.
  - apply (IH (p + w) (p + w) buf); auto; [lia|]. intros q Hq. rewrite Hbit by lia. cbn [fbit]. unfold wbit.
    replace (q <? p + w) with false by lia. now rewrite andb_false_r.
Qed.

Lemma width_total : forall fs, width fs = total (map fst fs).
Proof. induction fs as [|[w v] fs IH]; cbn; auto. unfold width, total in *. now rewrite IH. Qed.

Lemma inv_init : forall buf len, (len <= length buf)%nat -> inv (bs_init buf len).
Proof. intros. repeat split; cbn; lia. Qed.
Lemma bpos_init : forall buf len, bpos (bs_init buf len) = 0.
Proof. reflexivity. Qed.

Lemma bit_zero : forall n q, bit (repeat 0 n) q = false.
Proof. intros. unfold bit. rewrite nth_repeat. apply Z.bits_0. Qed.
Lemma bytes_zero : forall n, bytes (repeat 0 n).
Proof. induction n; cbn [repeat]; constructor; auto; lia. Qed.

Lemma skipn_bits : forall b1 b2 n, length b1 = length b2 -> bytes b1 -> bytes b2 ->
  (forall q, 8 * Z.of_nat n <= q -> bit b1 q = bit b2 q) -> skipn n b1 = skipn n b2.
Proof.
  intros b1 b2 n Hl H1 H2 H. apply nth_ext with (d := 0) (d' := 0).
  - rewrite !skipn_length. lia.
  - intros i Hi. rewrite skipn_length in Hi.
    assert (E : forall l, (n + i < length l)%nat -> nth i (skipn n l) 0 = nth (n + i) l 0).
    { intros l Hl2. rewrite <- (firstn_skipn n l) at 2. rewrite app_nth2 by (rewrite firstn_length; lia).
      rewrite firstn_length. f_equal. lia. }
    rewrite !E by lia.
    assert (P1 : 0 <= nth (n + i) b1 0 < 256) by (eapply Forall_forall in H1; [exact H1|apply nth_In; lia]).
    assert (P2 : 0 <= nth (n + i) b2 0 < 256) by (eapply Forall_forall in H2; [exact H2|apply nth_In; lia]).
    apply bits_ext. intros j Hj. destruct (Z_lt_le_dec j 8) as [J|J].
    + specialize (H (8 * Z.of_nat (n + i) + (7 - j)) ltac:(lia)). unfold bit in H.
      replace ((8 * Z.of_nat (n + i) + (7 - j)) / 8) with (Z.of_nat (n + i)) in H by lia.
      replace (7 - (8 * Z.of_nat (n + i) + (7 - j)) mod 8) with j in H by lia. now rewrite Nat2Z.id in H.
    + rewrite <- (Z.mod_small (nth (n + i) b1 0) (2 ^ 8)), <- (Z.mod_small (nth (n + i) b2 0) (2 ^ 8)) by (change (2 ^ 8) with 256; lia).
      now rewrite !Z.mod_pow2_bits_high by lia.
Qed.

Lemma read_one_read : forall s, 1 <= b_left s <= 8 -> read_one s = bs_read s 1.
Proof.
  intros s Hl. unfold read_one, bs_read. destruct (b_err s) eqn:He; [reflexivity|].
  change (Z.to_nat 1) with 1%nat. cbn [read_loop]. change (1 =? 0) with false. cbv iota.
  destruct (Nat.leb (b_last s) (b_pos s)); [reflexivity|].
  destruct (nth_error (b_buf s) (b_pos s)) as [byte|]; [|reflexivity].
  cbn zeta. rewrite Z.min_r by lia. change (1 - 1) with 0. change (0 >=? 64) with false. cbv iota.
  change (Z.shiftr 255 (8 - 1)) with 1. rewrite Z.lor_0_l, Z.shiftl_0_r.
  assert (E : Z.land (Z.shiftr byte (b_left s - 1)) 1 mod 2 ^ 64 = Z.land (Z.shiftr byte (b_left s - 1)) 1).
  { apply Z.mod_small. change 1 with (Z.ones 1) at 2 4. rewrite Z.land_ones by lia.
    pose proof (Z.mod_pos_bound (Z.shiftr byte (b_left s - 1)) (2 ^ 1)). change (2 ^ 1) with 2 in *. change (2 ^ 64) with 18446744073709551616. lia. }
  rewrite E. destruct (b_left s - 1 <=? 0) eqn:A, (b_left s - 1 >? 0) eqn:B; try lia; reflexivity.
Qed.
Lemma write_one_write : forall s v, 1 <= b_left s <= 8 -> write_one s v = bs_write s 1 v.
Proof.
  intros s v Hl. unfold write_one, bs_write. destruct (b_err s) eqn:He; [reflexivity|].
  change (Z.to_nat 1) with 1%nat. cbn [write_loop]. change (1 =? 0) with false. cbv iota.
  destruct (Nat.leb (b_last s) (b_pos s)); [reflexivity|].
  destruct (nth_error (b_buf s) (b_pos s)) as [byte|]; [|reflexivity].
  cbn zeta. rewrite Z.min_r by lia. change (1 - 1) with 0. change (0 >=? 64) with false. cbv iota.
  change (Z.shiftr 255 (8 - 1)) with 1. rewrite Z.shiftr_0_r.
  assert (E : Z.land v 1 mod 256 = Z.land v 1).
  { apply Z.mod_small. change 1 with (Z.ones 1). rewrite Z.land_ones by lia.
    pose proof (Z.mod_pos_bound v (2 ^ 1)). change (2 ^ 1) with 2 in *. lia. }
  rewrite E. destruct (b_left s - 1 <=? 0) eqn:A, (b_left s - 1 >? 0) eqn:B; try lia; reflexivity.
Qed.
