(* Skipped fields. *)
From Coq Require Import ZArith List Bool Lia ZifyBool Arith.
From Verif Require Import Bytes NameModel NameProofs AscSpec AscProofs RbspModel RbspSpec RbspProofs RbspSkipModel.
Import ListNotations.
Open Scope Z_scope.

Lemma schar_id x : -128 <= x < 128 -> schar x = x.
Proof. intros H. unfold schar. rewrite Z.mod_small; lia. Qed.
Lemma skipn_lows w : forall k c, skipn w (lows k c) = lows (k - w) c.
Proof. induction w as [|w IH]; intros k c; [rewrite Nat.sub_0_r; reflexivity|]. destruct k as [|k]; [reflexivity|]. cbn [lows skipn]. rewrite IH. reflexivity. Qed.
Lemma skipn_add {A} m : forall j (l : list A), skipn (m + j) l = skipn j (skipn m l).
Proof. induction m as [|m IH]; intros j l; [reflexivity|]. destruct l as [|a l]; [cbn [skipn Nat.add]; rewrite skipn_nil; reflexivity|]. cbn [Nat.add skipn]. apply IH. Qed.
Lemma skipn_bytes m : forall l, skipn (8 * m) (concat (map (lows 8) l)) = concat (map (lows 8) (skipn m l)).
Proof.
  induction m as [|m IH]; intros l; [reflexivity|]. destruct l as [|b l]; [rewrite !skipn_nil; reflexivity|].
  replace (8 * S m)%nat with (8 + 8 * m)%nat by lia. rewrite skipn_add. cbn [map concat]. rewrite skipn_app, lows_length, Nat.sub_diag, skipn_O. rewrite (skipn_lows 8 8). cbn [Nat.sub lows app]. rewrite IH. reflexivity.
Qed.
Lemma concat_length8 l : length (concat (map (lows 8) l)) = (8 * length l)%nat.
Proof. induction l as [|b l IH]; [reflexivity|]. cbn [map concat]. rewrite app_length, IH, lows_length. cbn [length]. lia. Qed.
Lemma skip_ok w s : rd_ok s -> (w <= 120)%nat -> (w <= length (rbits s))%nat ->
  rbits (skip (Z.of_nat w) s) = skipn w (rbits s) /\ r_eof (skip (Z.of_nat w) s) = r_eof s /\ rd_ok (skip (Z.of_nat w) s).
Proof.
  intros K W L. unfold rd_ok in K. unfold skip. rewrite (schar_id (r_bit s - (Z.of_nat w - 1))) by lia.
  destruct (r_bit s - (Z.of_nat w - 1) <? 0) eqn:Q.
  - set (b := r_bit s - (Z.of_nat w - 1)) in *. set (sb := (- b + 7) / 8) in *.
    assert (8 * sb <= - b + 7 < 8 * sb + 8) as SB by (subst sb; lia).
    assert (1 <= sb) as S1 by lia. unfold rbits in L. rewrite app_length, lows_length, concat_length8 in L.
    assert (sb <= Z.of_nat (length (r_rest s))) as S2 by (subst b; lia).
    unfold stream_skip. assert (Z.of_nat (length (r_rest s)) <? sb - 1 = false) as -> by lia.
    pose proof (skipn_length (Z.to_nat (sb - 1)) (r_rest s)) as SL. pose proof (skipn_bytes (Z.to_nat (sb - 1)) (r_rest s)) as SBy.
    destruct (skipn (Z.to_nat (sb - 1)) (r_rest s)) as [|c rest]; [cbn [length] in SL; lia|].
    cbn [r_eof]. unfold rd_ok. cbn [r_bit]. rewrite (schar_id (b + sb * 8)), (schar_id (b + sb * 8 - 1)) by (subst b; lia).
    split; [|split; [reflexivity | subst b; lia]]. unfold rbits. cbn [r_bit r_cur r_rest].
    rewrite skipn_app, lows_length, skipn_lows. replace (Z.to_nat (r_bit s + 1) - w)%nat with O by (subst b; lia). change (lows 0 (r_cur s)) with (@nil bool). rewrite app_nil_l.
    replace (w - Z.to_nat (r_bit s + 1))%nat with (8 * Z.to_nat (sb - 1) + Z.to_nat (Z.of_nat w - r_bit s - 1 - 8 * (sb - 1)))%nat by (subst b; lia).
    rewrite skipn_add, SBy. cbn [map concat]. rewrite skipn_app, lows_length, skipn_lows.
    replace (Z.to_nat (Z.of_nat w - r_bit s - 1 - 8 * (sb - 1)) - 8)%nat with O by (subst b; lia). rewrite skipn_O. f_equal. f_equal. subst b; lia.
  - unfold rd_ok. cbn [r_bit r_eof]. rewrite schar_id by lia. split; [|split; [reflexivity | lia]]. unfold rbits. cbn [r_bit r_cur r_rest].
    rewrite skipn_app, lows_length, skipn_lows. replace (w - Z.to_nat (r_bit s + 1))%nat with O by lia. rewrite skipn_O. f_equal. f_equal. lia.
Qed.
Lemma skip_exp_ok v s R : rd_ok s -> r_eof s = false -> rbits s = ue v ++ R -> 0 <= v < 2 ^ 120 ->
  rbits (skip_unsigned_exp s) = R /\ r_eof (skip_unsigned_exp s) = false /\ rd_ok (skip_unsigned_exp s).
Proof.
  intros K E H V. unfold ue in H. set (k := Z.to_nat (Z.log2 (v + 1))) in *.
  assert (0 < v + 1) as VP by lia. pose proof (Z.log2_nonneg (v + 1)) as P0.
  assert (Z.of_nat k = Z.log2 (v + 1)) as KE by (subst k; lia).
  assert (Z.log2 (v + 1) <= 120) as KL. { rewrite <- (Z.log2_pow2 120) by lia. apply Z.log2_le_mono. lia. }
  assert (bits (S k) (v + 1) = true :: bits k (v + 1)) as B. { cbn [bits]. f_equal. rewrite KE. apply Z.bit_log2. lia. }
  rewrite B in H. rewrite <- app_assoc in H. cbn [app] in H. pose proof (rbits_length s K) as RL. pose proof H as HL. apply (f_equal (@length bool)) in HL. rewrite !app_length, repeat_length in HL. cbn [length] in HL.
  destruct (zero_count_ok k (8 * length (r_rest s) + 9) s 0 _ K E H ltac:(clear - HL RL; lia)) as (s1 & Z1 & Z2 & Z3 & Z4).
  unfold skip_unsigned_exp. rewrite Z1. cbn [Nat.add]. pose proof (bits_length k (v + 1)) as BL.
  destruct (skip_ok k s1 Z4 ltac:(lia) ltac:(rewrite Z2, app_length, BL; lia)) as (G1 & G2 & G3).
  split; [|split; [congruence | exact G3]]. rewrite G1, Z2, skipn_app, BL, Nat.sub_diag, skipn_O. rewrite <- BL at 1. rewrite skipn_all. reflexivity.
Qed.

(* ----- ceil_log2 *)
Lemma ceil_loop_ok fuel : forall v r, 0 <= v < 2 ^ Z.of_nat fuel -> exists n, ceil_loop fuel v r = r + n /\ 0 <= n /\ v < 2 ^ n /\ (0 < n -> 2 ^ (n - 1) <= v).
Proof.
  induction fuel as [|fuel IH]; intros v r H.
  - exists 0. cbn [ceil_loop]. change (2 ^ Z.of_nat 0) with 1 in H. change (2 ^ 0) with 1. lia.
  - cbn [ceil_loop]. destruct (v =? 0) eqn:Q; [exists 0; change (2 ^ 0) with 1; lia|].
    replace (Z.of_nat (S fuel)) with (Z.succ (Z.of_nat fuel)) in H by lia. rewrite Z.pow_succ_r in H by lia.
    destruct (IH (v / 2) (r + 1) ltac:(lia)) as (n & E & N & U & D). exists (n + 1). rewrite E. split; [lia|]. split; [lia|].
    split; [rewrite Z.pow_add_r by lia; change (2 ^ 1) with 2; lia|]. intros _. replace (n + 1 - 1) with n by lia.
    destruct (Z.eq_dec n 0) as [-> | NZ]; [change (2 ^ 0) with 1; lia|]. specialize (D ltac:(lia)). replace n with (Z.succ (n - 1)) by lia. rewrite Z.pow_succ_r by lia. lia.
Qed.
