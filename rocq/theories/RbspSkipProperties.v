(* The properties of the fields that are skipped: C118. *)
From Coq Require Import ZArith List Bool Lia.
From Verif Require Import Bytes NameModel NameProofs AscSpec AscProofs RbspModel RbspSpec RbspProofs RbspSkipModel RbspSkipProofs.
Import ListNotations.
Open Scope Z_scope.

(* C118.  After a field, a code and another field were skipped, wherever they start in a byte,
   the next field is read.  Missing: fields of more than 120 bits and codes of more than 120
   zeros (see [long_skip_refuted]). *)
Theorem skipped_fields_partial A v B w n d more : bits_of_bytes d = A ++ ue v ++ B ++ bits w n ++ more ->
  (length A <= 120)%nat -> (length B <= 120)%nat -> 0 <= v < 2 ^ 120 -> (w <= 32)%nat -> 0 <= n < 2 ^ Z.of_nat w ->
  let s := skip (Z.of_nat (length B)) (skip_unsigned_exp (skip (Z.of_nat (length A)) (rd_init d))) in
  r_eof s = false /\ fst (get w s) = n /\ r_eof (snd (get w s)) = false.
Proof.
  intros H LA LB V W N s. destruct (init_bits d) as (I1 & I2 & _).
  assert (rbits (rd_init d) = A ++ ue v ++ B ++ bits w n ++ more) as I3 by (rewrite I1, <- H; reflexivity).
  assert (forall X Y : list bool, skipn (length X) (X ++ Y) = Y) as SK by (intros X Y; rewrite skipn_app, skipn_all, Nat.sub_diag; reflexivity).
  destruct (skip_ok (length A) _ I2 LA ltac:(rewrite I3, app_length; lia)) as (A1 & A2 & A3). rewrite I3, SK in A1.
  destruct (skip_exp_ok v _ _ A3 A2 A1 V) as (B1 & B2 & B3).
  destruct (skip_ok (length B) _ B3 LB ltac:(rewrite B1, app_length; lia)) as (C1 & C2 & C3). rewrite B1, SK in C1. rewrite B2 in C2. fold s in C1, C2, C3.
  split; [exact C2|].
  assert (st [] s (bits w n ++ more)) as T by (split; [exact C3 | right; split; [exact C2 | rewrite app_nil_r; exact C1]]).
  destruct (get_st [] s w n more T W N) as (_ & [(_ & C) | (E1 & E2 & _)]); [exfalso; apply C; reflexivity | split; assumption].
Qed.
Print Assumptions skipped_fields_partial.
(* 43 bits, 00111 (6), 3 bits, then 13 bits *)
Example skipped_example : bits_of_bytes [1; 2; 3; 4; 5; 7; 85; 90] = firstn 43 (bits_of_bytes [1; 2; 3; 4; 5; 7]) ++ ue 6 ++ [false; true; false] ++ bits 13 5466
  /\ fst (get 13 (skip 3 (skip_unsigned_exp (skip 43 (rd_init [1; 2; 3; 4; 5; 7; 85; 90]))))) = 5466.
Proof. split; vm_compute; reflexivity. Qed.

(* C118.  The length of a field for numbers below [v]: the least one that has a place for all. *)
Theorem field_length_is_least v : 1 <= v < 2 ^ 32 ->
  v <= 2 ^ ceil_log2 v /\ forall n, 0 <= n < ceil_log2 v -> 2 ^ n < v.
Proof.
  intros H. unfold ceil_log2. rewrite Z.mod_small by lia. destruct (ceil_loop_ok 32 (v - 1) 0) as (n & -> & N & U & D); [change (Z.of_nat 32) with 32; lia|].
  rewrite Z.add_0_l. split; [lia|]. intros m M. specialize (D ltac:(lia)). assert (2 ^ m <= 2 ^ (n - 1)) by (apply Z.pow_le_mono_r; lia). lia.
Qed.
Print Assumptions field_length_is_least.
Example field_length_example : ceil_log2 8160 = 13 /\ ceil_log2 8 = 3 /\ ceil_log2 9 = 4 /\ ceil_log2 1 = 0.
Proof. split; [vm_compute; reflexivity|]. split; [vm_compute; reflexivity|]. split; vm_compute; reflexivity. Qed.

(* C118 is false for long codes: the position in the byte is a signed char.  After a code of 167
   zeros it is 88, and the next bit is read with an undefined shift of a byte by 88. *)
Theorem long_skip_refuted : exists d v more, bits_of_bytes d = ue v ++ more /\ r_eof (skip_unsigned_exp (rd_init d)) = false /\ r_bit (skip_unsigned_exp (rd_init d)) = 88.
Proof. exists (repeat 0 20 ++ [1] ++ repeat 0 30), (2 ^ 167 - 1), (repeat false 73). split; [vm_compute; reflexivity|]. split; vm_compute; reflexivity. Qed.
Print Assumptions long_skip_refuted.
