(* Byte-level helpers shared by the models: fixed width integers in memory.
   Little endian is the layout of the x86-64/arm64 targets of the code (structs
   are copied with memcpy); big endian is used by the network formats. *)
From Coq Require Import ZArith List Lia.
From Coq Require Import ZifyBool ZifyNat ZifyN.
Ltac Zify.zify_post_hook ::= Z.div_mod_to_equations.
Import ListNotations.
Open Scope Z_scope.

Definition is_byte (b : Z) : Prop := 0 <= b < 256.

(* the n low bytes of z, least significant first *)
Fixpoint le (n : nat) (z : Z) : list Z :=
  match n with
  | O => []
  | S n' => z mod 256 :: le n' (z / 256)
  end.

Fixpoint unle (l : list Z) : Z :=
  match l with
  | [] => 0
  | b :: r => b + 256 * unle r
  end.

Definition be (n : nat) (z : Z) : list Z := rev (le n z).
Definition unbe (l : list Z) : Z := unle (rev l).

(* truncation to an unsigned type of n bits *)
Definition u32 (z : Z) : Z := z mod 2 ^ 32.
Definition u64 (z : Z) : Z := z mod 2 ^ 64.

Lemma le_length n z : length (le n z) = n.
Proof. revert z; induction n as [|n IH]; intros z; cbn; [reflexivity|]. rewrite IH; reflexivity. Qed.

Lemma be_length n z : length (be n z) = n.
Proof. unfold be. rewrite rev_length. apply le_length. Qed.

Lemma le_bytes n z : Forall is_byte (le n z).
Proof.
  revert z; induction n as [|n IH]; intros z; cbn; constructor; [|apply IH].
  unfold is_byte. apply Z.mod_pos_bound. lia.
Qed.

Lemma pow256_S n : 256 ^ Z.of_nat (S n) = 256 * 256 ^ Z.of_nat n.
Proof. rewrite Nat2Z.inj_succ, Z.pow_succ_r by lia. reflexivity. Qed.

Lemma unle_le n z : unle (le n z) = z mod 256 ^ Z.of_nat n.
Proof.
  revert z; induction n as [|n IH]; intros z; cbn [le unle].
  - rewrite Z.mod_1_r. reflexivity.
  - rewrite IH, pow256_S, Z.rem_mul_r; [reflexivity|lia|].
    apply Z.pow_pos_nonneg; lia.
Qed.

Lemma unle_le_small n z : 0 <= z < 256 ^ Z.of_nat n -> unle (le n z) = z.
Proof. intros H. rewrite unle_le. apply Z.mod_small. exact H. Qed.

Lemma unbe_be n z : unbe (be n z) = z mod 256 ^ Z.of_nat n.
Proof. unfold unbe, be. rewrite rev_involutive. apply unle_le. Qed.

Lemma unle_bound l : Forall is_byte l -> 0 <= unle l < 256 ^ Z.of_nat (length l).
Proof.
  induction 1 as [|b r Hb Hr IH]; [cbn; lia|].
  cbn [unle length]. rewrite pow256_S. unfold is_byte in Hb. lia.
Qed.

Lemma unbe_bound l : Forall is_byte l -> 0 <= unbe l < 256 ^ Z.of_nat (length l).
Proof.
  intros H. unfold unbe. rewrite <- rev_length. apply unle_bound.
  apply Forall_rev. exact H.
Qed.

Lemma le_unle l : Forall is_byte l -> le (length l) (unle l) = l.
Proof.
  induction 1 as [|b r Hb Hr IH]; [reflexivity|].
  cbn [unle length le]. unfold is_byte in Hb.
  replace ((b + 256 * unle r) mod 256) with b by (rewrite Z.mul_comm, Z.mod_add by lia; symmetry; apply Z.mod_small; lia).
  replace ((b + 256 * unle r) / 256) with (unle r).
  - rewrite IH. reflexivity.
  - rewrite Z.mul_comm, Z.div_add, Z.div_small by lia. reflexivity.
Qed.

Lemma be_unbe l : Forall is_byte l -> be (length l) (unbe l) = l.
Proof.
  intros H. unfold be, unbe. rewrite <- rev_length, le_unle, rev_involutive; [reflexivity|].
  apply Forall_rev; exact H.
Qed.

Lemma le_inj n a b : 0 <= a < 256 ^ Z.of_nat n -> 0 <= b < 256 ^ Z.of_nat n ->
  le n a = le n b -> a = b.
Proof.
  intros Ha Hb H. rewrite <- (unle_le_small n a), <- (unle_le_small n b) by assumption.
  rewrite H. reflexivity.
Qed.

(* disjoint bit fields *)
Lemma lor_add a k n : 0 <= n -> 0 <= a < 2 ^ n -> Z.lor a (k * 2 ^ n) = a + k * 2 ^ n.
Proof.
  intros Hn Ha. symmetry. rewrite <- Z.lxor_lor.
  - apply Z.add_nocarry_lxor. apply Z.bits_inj'. intros i Hi.
    rewrite Z.land_spec, Z.bits_0. destruct (Z.lt_ge_cases i n) as [Hlt|Hge].
    + rewrite Z.mul_pow2_bits_low by lia. apply Bool.andb_false_r.
    + replace a with (a mod 2 ^ n) by (apply Z.mod_small; lia).
      rewrite Z.mod_pow2_bits_high by lia. reflexivity.
  - apply Z.bits_inj'. intros i Hi.
    rewrite Z.land_spec, Z.bits_0. destruct (Z.lt_ge_cases i n) as [Hlt|Hge].
    + rewrite Z.mul_pow2_bits_low by lia. apply Bool.andb_false_r.
    + replace a with (a mod 2 ^ n) by (apply Z.mod_small; lia).
      rewrite Z.mod_pow2_bits_high by lia. reflexivity.
Qed.

Lemma land_mask a n : 0 <= n -> Z.land a (2 ^ n - 1) = a mod 2 ^ n.
Proof. intros H. rewrite <- Z.land_ones by lia. rewrite Z.ones_equiv, <- Z.sub_1_r. reflexivity. Qed.
