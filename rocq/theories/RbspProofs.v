(* Emulation prevention and exp-Golomb codes. *)
From Coq Require Import ZArith List Bool Lia ZifyBool Arith.
From Verif Require Import Bytes NameModel NameProofs AscSpec AscProofs CcSpec RbspModel RbspSpec.
Import ListNotations.
Open Scope Z_scope.

(* ----- decode *)
Lemma strip_none l : requires_strip l = false -> strip l = l.
Proof.
  induction l as [|a l IH]; [reflexivity|]. cbn [requires_strip strip]. destruct l as [|b [|c l]]; try reflexivity.
  destruct ((a =? 0) && (b =? 0) && (c =? 3)); [discriminate|]. intros H. rewrite (IH H). reflexivity.
Qed.
Lemma un21 l : match l with c :: _ => c <> 3 | [] => True end -> unescape 2 l = unescape 1 l.
Proof.
  destruct l as [|b r]; [reflexivity|]. intros H. cbn [unescape]. assert (b =? 3 = false) as -> by lia. rewrite !andb_false_r.
  unfold zeros. destruct (b =? 0); reflexivity.
Qed.
Lemma un10 l : match l with b :: c :: _ => b = 0 -> c <> 3 | _ => True end -> unescape 1 l = unescape 0 l.
Proof.
  destruct l as [|b r]; [reflexivity|]. intros H. cbn [unescape]. cbn [Nat.eqb andb]. unfold zeros. destruct (b =? 0) eqn:Q; [|reflexivity].
  cbn [Nat.min]. f_equal. apply un21. destruct r as [|c r]; [exact I|]. apply H. lia.
Qed.
Lemma strip_unescape n : forall l, (length l <= n)%nat -> strip l = unescape 0 l.
Proof.
  induction n as [|n IH]; intros l L; [destruct l; [reflexivity | cbn [length] in L; lia]|].
  destruct l as [|a l1]; [reflexivity|]. cbn [length] in L.
  assert (forall l', (length l' <= n)%nat -> match l' with b :: c :: _ => (a =? 0) && (b =? 0) && (c =? 3) = false | _ => True end -> a :: strip l' = unescape 0 (a :: l')) as G.
  { intros l' L' C. cbn [unescape]. cbn [Nat.eqb andb]. rewrite (IH l' L'). f_equal. unfold zeros. destruct (a =? 0) eqn:Q; [|reflexivity]. cbn [Nat.min]. symmetry. apply un10. destruct l' as [|b [|c r]]; try exact I. intros ->. cbn in C. lia. }
  cbn [strip]. destruct l1 as [|b [|c l2]]; [apply G; [exact (Nat.le_0_l n) | exact I] | apply G; [cbn [length] in *; lia | exact I]|].
  destruct ((a =? 0) && (b =? 0) && (c =? 3)) eqn:Q; [|apply G; [cbn [length] in *; lia | exact Q]].
  assert (a = 0 /\ b = 0 /\ c = 3) as (-> & -> & ->) by lia. cbn [length] in L. rewrite (IH l2) by lia. reflexivity.
Qed.
Lemma decode_unescape l : prevention_decode l = unescape 0 l.
Proof. unfold prevention_decode. rewrite <- (strip_unescape (length l) l (le_n _)). destruct (requires_strip l) eqn:Q; [reflexivity|]. symmetry. apply strip_none, Q. Qed.

(* ----- the number of emulation prevention bytes *)
Lemma es21 l : match l with c :: _ => (c <=? 3) = false | [] => True end -> escape 2 l = escape 1 l.
Proof.
  destruct l as [|b r]; [reflexivity|]. intros H. cbn [escape]. rewrite H, !andb_false_r. unfold zeros. destruct (b =? 0); reflexivity.
Qed.
Lemma es10 l : match l with b :: c :: _ => b = 0 -> (c <=? 3) = false | _ => True end -> escape 1 l = escape 0 l.
Proof.
  destruct l as [|b r]; [reflexivity|]. intros H. cbn [escape]. cbn [Nat.eqb andb]. unfold zeros. destruct (b =? 0) eqn:Q; [|reflexivity].
  cbn [Nat.min]. f_equal. apply es21. destruct r as [|c r]; [exact I|]. apply H. lia.
Qed.
Lemma encode_bytes_ok n : forall l, (length l <= n)%nat -> (forall a b, l <> a ++ [0; 0; 0] ++ b) -> Z.of_nat (length (escape 0 l)) = Z.of_nat (length l) + encode_bytes l.
Proof.
  induction n as [|n IH]; intros l L N; [destruct l; [reflexivity | cbn [length] in L; lia]|].
  destruct l as [|a l1]; [reflexivity|]. cbn [length] in L.
  assert (forall x q, a :: l1 = x ++ q -> forall a b, q <> a ++ [0; 0; 0] ++ b) as NS. { intros x q E a0 b0 ->. apply (N (x ++ a0) b0). rewrite E, <- app_assoc. reflexivity. }
  assert (match l1 with b :: c :: _ => (a =? 0) && (b =? 0) && (c <=? 3) = false | _ => True end -> Z.of_nat (length (escape 0 (a :: l1))) = Z.of_nat (length (a :: l1)) + encode_bytes l1) as G.
  { intros C. cbn [escape]. cbn [Nat.eqb andb length]. assert (escape (zeros 0 a) l1 = escape 0 l1) as ->. { unfold zeros. destruct (a =? 0) eqn:Q; [|reflexivity]. cbn [Nat.min]. apply es10. destruct l1 as [|b [|c r]]; try exact I. intros ->. cbn in C. exact C. }
    pose proof (IH l1 ltac:(lia) (NS [a] l1 eq_refl)). lia. }
  cbn [encode_bytes]. destruct l1 as [|b [|c l2]]; [exact (G I) | exact (G I)|].
  destruct ((a =? 0) && (b =? 0) && (c <=? 3)) eqn:Q; [|exact (G eq_refl)].
  assert (a = 0 /\ b = 0) as (-> & ->) by lia. assert (c <> 0) as NC by (intros ->; exact (N [] l2 eq_refl)).
  cbn [length] in L. pose proof (IH l2 ltac:(lia) (NS [0; 0; c] l2 eq_refl)) as H.
  assert (escape 0 (0 :: 0 :: c :: l2) = 0 :: 0 :: 3 :: c :: escape 0 l2) as ->. { cbn [escape]. change (zeros 0 0) with 1%nat. change (zeros 1 0) with 2%nat. cbn [Nat.eqb andb]. assert (c <=? 3 = true) as -> by lia. unfold zeros. assert (c =? 0 = false) as -> by lia. reflexivity. }
  cbn [length]. lia.
Qed.

(* ----- exp-Golomb codes *)
Lemma zero_count_ok k : forall fuel s n R, rd_ok s -> r_eof s = false -> rbits s = repeat false k ++ true :: R -> (k < fuel)%nat ->
  exists s', zero_count fuel s n = ((n + k)%nat, s') /\ rbits s' = R /\ r_eof s' = false /\ rd_ok s'.
Proof.
  induction k as [|k IH]; intros fuel s n R K E H F; (destruct fuel as [|fuel]; [lia|]); cbn [zero_count repeat app] in *.
  - destruct (get_one_ok s true R K H) as (s1 & G1 & G2 & G3 & G4). rewrite G1. change (Z.b2z true =? 0) with false. cbn [andb]. exists s1. rewrite Nat.add_0_r, G3. auto.
  - destruct (get_one_ok s false _ K H) as (s1 & G1 & G2 & G3 & G4). rewrite G1, G3, E. change (Z.b2z false =? 0) with true. cbn [andb negb]. rewrite E in G3.
    destruct (IH fuel s1 (S n) R G4 G3 G2 ltac:(lia)) as (s2 & I1 & I2). exists s2. rewrite I1. split; [f_equal; lia | exact I2].
Qed.
Lemma rbits_length s : rd_ok s -> (length (rbits s) <= 8 * length (r_rest s) + 8)%nat.
Proof.
  intros K. unfold rbits, rd_ok in *. rewrite app_length, lows_length.
  assert (length (concat (map (lows 8) (r_rest s))) = 8 * length (r_rest s))%nat as ->; [|lia].
  induction (r_rest s) as [|b l IH]; [reflexivity|]. cbn [map concat]. rewrite app_length, IH, lows_length. cbn [length]. lia.
Qed.
Lemma unsigned_ok v s R : rd_ok s -> r_eof s = false -> rbits s = ue v ++ R -> 0 <= v < 2 ^ 31 - 1 ->
  exists s', unsigned_exp s = Some (v, s') /\ rbits s' = R /\ r_eof s' = false /\ rd_ok s'.
Proof.
  intros K E H V. unfold ue in H. set (k := Z.to_nat (Z.log2 (v + 1))) in *.
  assert (0 < v + 1) as VP by lia. pose proof (Z.log2_spec (v + 1) VP) as (P1 & P2). pose proof (Z.log2_nonneg (v + 1)) as P0.
  assert (Z.of_nat k = Z.log2 (v + 1)) as KE by (subst k; lia). rewrite <- KE in P1, P2.
  assert (Z.of_nat k < 31) as KL. { apply (Z.pow_lt_mono_r_iff 2); lia. }
  assert (bits (S k) (v + 1) = true :: bits k (v + 1)) as B. { cbn [bits]. f_equal. rewrite KE. apply Z.bit_log2. lia. }
  rewrite B in H. rewrite <- app_assoc in H. cbn [app] in H. pose proof (rbits_length s K) as RL. pose proof H as HL. apply (f_equal (@length bool)) in HL. rewrite !app_length, repeat_length in HL. cbn [length] in HL.
  destruct (zero_count_ok k (8 * length (r_rest s) + 9) s 0 _ K E H ltac:(lia)) as (s1 & Z1 & Z2 & Z3 & Z4).
  unfold unsigned_exp. rewrite Z1. cbn [Nat.add]. assert ((31 <=? k)%nat = false) as -> by lia.
  pose proof (bits_length k (v + 1)) as BL.
  destruct (read_ok k s1 Z4 ltac:(lia) ltac:(rewrite Z2, app_length, BL; lia)) as (s2 & G1 & G2 & G3 & G4). assert ((32 <? k)%nat = false) as QW by lia. rewrite QW in G1. rewrite G1.
  assert (firstn k (rbits s1) = bits k (v + 1)) as F by (rewrite Z2, firstn_app, BL, Nat.sub_diag, firstn_O, app_nil_r; rewrite <- BL at 1; apply firstn_all).
  assert (skipn k (rbits s1) = R) as SK by (rewrite Z2, skipn_app, BL, Nat.sub_diag, skipn_O; rewrite <- BL at 1; rewrite skipn_all; reflexivity).
  exists s2. rewrite F, bits_lows, numf_lows. split; [|split; [congruence|]; split; [congruence | exact G4]].
  f_equal. f_equal. replace (Z.succ (Z.of_nat k)) with (Z.of_nat k + 1) in P2 by lia. rewrite Z.pow_add_r in P2 by lia. change (2 ^ 1) with 2 in P2.
  clear - V P1 P2. revert P1 P2. generalize (2 ^ Z.of_nat k). intros p P1 P2.
  assert (v + 1 - p = (v + 1) mod p) as <- by (apply (Z.mod_unique_pos (v + 1) p 1 (v + 1 - p)); lia).
  change (2 ^ 31 - 1) with 2147483647 in V. change (2 ^ 32) with 4294967296. rewrite Z.mod_small; lia.
Qed.
Lemma signed_ok x s R : rd_ok s -> r_eof s = false -> rbits s = se x ++ R -> - 2 ^ 30 < x < 2 ^ 30 ->
  exists s', signed_exp s = Some (x, s') /\ rbits s' = R /\ r_eof s' = false /\ rd_ok s'.
Proof.
  intros K E H V. unfold se in H. destruct (unsigned_ok _ s R K E H ltac:(destruct (0 <? x) eqn:Q; lia)) as (s' & U & I). unfold signed_exp. rewrite U. exists s'. split; [|exact I]. f_equal. f_equal. rewrite Z.bit0_odd.
  destruct (0 <? x) eqn:Q.
  - assert (Z.odd (2 * x - 1) = true) as -> by (replace (2 * x - 1) with (1 + 2 * (x - 1)) by lia; rewrite Z.odd_add_mul_2; reflexivity).
    assert (0 <? 2 * x - 1 = true) as -> by lia. lia.
  - assert (Z.odd (-2 * x) = false) as -> by (rewrite Z.odd_mul; reflexivity). destruct (0 <? -2 * x) eqn:Q2; lia.
Qed.
