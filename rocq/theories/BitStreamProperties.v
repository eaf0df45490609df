(* C39: the bit stream of the MPEG-TS module. *)
From Coq Require Import List ZArith Bool Lia ZifyBool ZifyNat.
From Verif Require Import BitStreamModel BitStreamSpec BitStreamProofs.
Import ListNotations.
Local Open Scope Z_scope.

(* fields of any widths up to 64 bits written into a zeroed buffer that holds them are read back
   modulo their width; the size is the number of bytes begun; the bits after the last field stay 0 *)
Theorem C39_roundtrip : forall fs len,
  Forall (fun f => 0 <= fst f <= 64) fs -> width fs <= 8 * Z.of_nat len ->
  exists s1 s2, write_fields (bs_init (repeat 0 len) len) fs = BOk tt s1 /\ b_err s1 = false /\
    length (b_buf s1) = len /\ bs_size s1 = (width fs + 7) / 8 /\
    (forall q, width fs <= q -> bit (b_buf s1) q = false) /\
    read_fields (bs_init (b_buf s1) len) (map fst fs) = BOk (map (fun f => snd f mod 2 ^ fst f) fs) s2 /\ b_err s2 = false.
Proof.
  intros fs len Hf Hw.
  destruct (write_fields_ok fs (bs_init (repeat 0 len) len)) as (s1 & E1 & A1 & A2 & A3 & A4 & A5 & A6 & A7); auto.
  { apply inv_init. now rewrite repeat_length. }
  { apply bytes_zero. }
  rewrite bpos_init in *. cbn [bs_init b_last b_buf] in *. rewrite repeat_length in A1.
  destruct A6 as (G1 & G2 & G3); [lia|].
  assert (Hf2 : Forall (fun w => 0 <= w <= 64) (map fst fs)).
  { apply Forall_forall. intros w Hin. apply in_map_iff in Hin. destruct Hin as ([a b] & E & Hin). subst. eapply Forall_forall in Hf; eauto. }
  destruct (read_fields_ok (map fst fs) (bs_init (b_buf s1) len)) as (vs & s2 & E2 & B1 & B2 & B3 & B4 & B5); auto.
  { apply inv_init. lia. }
  rewrite bpos_init in *. cbn [bs_init b_last b_buf] in *. rewrite <- width_total in *.
  destruct B4 as (C1 & C2 & C3); [lia|].
  assert (Hbits : forall q, 0 <= q -> bit (b_buf s1) q = fbit fs 0 q).
  { intros q Hq. rewrite G3 by auto. now rewrite bit_zero. }
  exists s1, s2. split; [exact E1|]. split; [exact G1|]. split; [exact A1|]. split.
  { destruct A4 as (I1 & I2 & I3 & I4). unfold bs_size, bpos in *. rewrite Z.add_0_l in G2. destruct (b_left s1 <? 8) eqn:E; lia. }
  split.
  { intros q Hq. pose proof (width_nonneg fs Hf). rewrite Hbits by lia. apply fbit_after; auto. }
  split; [|exact C1].
  rewrite E2. f_equal. apply (fields_written fs 0 0 (b_buf s1)); auto. lia.
Qed.
Print Assumptions C39_roundtrip.

(* what the reader returns on any buffer: each value is the number written in the bits at its place *)
Theorem C39_read : forall ws buf len, bytes buf -> (len <= length buf)%nat ->
  Forall (fun w => 0 <= w <= 64) ws -> fold_right Z.add 0 ws <= 8 * Z.of_nat len ->
  exists vs s, read_fields (bs_init buf len) ws = BOk vs s /\ b_err s = false /\ length vs = length ws /\
    forall i, (i < length ws)%nat -> field buf (fold_right Z.add 0 (firstn i ws)) (nth i ws 0) (nth i vs 0).
Proof.
  intros ws buf len Hb Hl Hf Hw.
  destruct (read_fields_ok ws (bs_init buf len)) as (vs & s2 & E2 & B1 & B2 & B3 & B4 & B5); auto.
  { now apply inv_init. }
  rewrite bpos_init in *. cbn [bs_init b_last b_buf] in *.
  destruct B4 as (C1 & C2 & C3); [unfold total; lia|].
  exists vs, s2. split; [exact E2|]. split; [exact C1|].
  assert (G : forall ws vs p, fields_at buf p ws vs -> length vs = length ws /\
     forall i, (i < length ws)%nat -> field buf (p + fold_right Z.add 0 (firstn i ws)) (nth i ws 0) (nth i vs 0)).
  { clear. induction ws as [|w ws IH]; intros [|v vs] p H; cbn [fields_at] in H; try contradiction.
    - split; [reflexivity|]. cbn [length]. intros i Hi. lia.
    - destruct H as [H1 H2]. destruct (IH _ _ H2) as [L G]. split; [cbn [length]; lia|]. intros [|i] Hi.
      + cbn [firstn fold_right nth]. now rewrite Z.add_0_r.
      + cbn [firstn fold_right nth length] in *. rewrite Z.add_assoc. apply G. lia. }
  apply (G ws vs 0 C3).
Qed.
Print Assumptions C39_read.

(* more bits than the buffer has: the error is set; nothing beyond the end of the buffer is
   touched, whatever memory follows it *)
Theorem C39_overrun_write : forall fs buf len, bytes buf -> (len <= length buf)%nat ->
  Forall (fun f => 0 <= fst f <= 64) fs ->
  exists s, write_fields (bs_init buf len) fs = BOk tt s /\ length (b_buf s) = length buf /\
    skipn len (b_buf s) = skipn len buf /\ (b_err s = true <-> 8 * Z.of_nat len < width fs).
Proof.
  intros fs buf len Hb Hl Hf.
  destruct (write_fields_ok fs (bs_init buf len)) as (s1 & E1 & A1 & A2 & A3 & A4 & A5 & A6 & A7); auto.
  { now apply inv_init. }
  rewrite bpos_init in *. cbn [bs_init b_last b_buf] in *. exists s1. split; [exact E1|]. split; [exact A1|]. split.
  - apply skipn_bits; auto.
  - split; [|intros H; apply A7; lia]. intros H. destruct (Z_lt_le_dec (8 * Z.of_nat len) (width fs)) as [|Hc]; auto.
    destruct A6 as (G1 & _); [lia|congruence].
Qed.
Print Assumptions C39_overrun_write.

Theorem C39_overrun_read : forall ws buf len, bytes buf -> (len <= length buf)%nat ->
  Forall (fun w => 0 <= w <= 64) ws ->
  exists vs s, read_fields (bs_init buf len) ws = BOk vs s /\ b_buf s = buf /\
    (b_err s = true <-> 8 * Z.of_nat len < fold_right Z.add 0 ws).
Proof.
  intros ws buf len Hb Hl Hf.
  destruct (read_fields_ok ws (bs_init buf len)) as (vs & s2 & E2 & B1 & B2 & B3 & B4 & B5); auto.
  { now apply inv_init. }
  rewrite bpos_init in *. cbn [bs_init b_last b_buf] in *. unfold total in *. exists vs, s2. split; [exact E2|]. split; [exact B1|].
  split; [|intros H; apply B5; lia]. intros H. destruct (Z_lt_le_dec (8 * Z.of_nat len) (fold_right Z.add 0 ws)) as [|Hc]; auto.
  destruct B4 as (G1 & _); [lia|congruence].
Qed.
Print Assumptions C39_overrun_read.

(* the single bit variants are the general ones with width 1 *)
Theorem C39_one : forall s, 1 <= b_left s <= 8 ->
  read_one s = bs_read s 1 /\ forall v, write_one s v = bs_write s 1 v.
Proof. intros s H. split; [now apply read_one_read|]. intros v. now apply write_one_write. Qed.
Print Assumptions C39_one.

(* the writer ors into what is there: in a buffer that is not zeroed a field may not be read back *)
Theorem C39_dirty_refuted : exists buf fs s1 s2 vs,
  bytes buf /\ Forall (fun f => 0 <= fst f <= 64) fs /\ width fs <= 8 * Z.of_nat (length buf) /\
  write_fields (bs_init buf (length buf)) fs = BOk tt s1 /\ b_err s1 = false /\
  read_fields (bs_init (b_buf s1) (length buf)) (map fst fs) = BOk vs s2 /\
  vs <> map (fun f => snd f mod 2 ^ fst f) fs.
Proof.
  exists [255; 255], [(4, 3)]. eexists _, _, _. split; [repeat constructor; lia|]. split; [repeat constructor; cbn; lia|].
  split; [cbn; lia|]. split; [reflexivity|]. split; [reflexivity|]. split; [reflexivity|]. cbn. discriminate.
Qed.
Print Assumptions C39_dirty_refuted.

(* the widths of a PES header time stamp: 4 3 1 15 1 15 1 *)
Example C39_pts : exists s1 s2,
  write_fields (bs_init (repeat 0 5) 5) [(4, 2); (3, 5); (1, 1); (15, 4097); (1, 1); (15, 70000); (1, 1)] = BOk tt s1 /\
  b_buf s1 = [43; 32; 3; 34; 225] /\
  read_fields (bs_init (b_buf s1) 5) [4; 3; 1; 15; 1; 15; 1] = BOk [2; 5; 1; 4097; 1; 4464; 1] s2.
Proof. eexists _, _. split; [vm_compute; reflexivity|]. split; vm_compute; reflexivity. Qed.
Example C39_over : exists s, write_fields (bs_init [0; 0; 7; 9] 2) [(10, 1023); (7, 127)] = BOk tt s /\ b_err s = true /\ skipn 2 (b_buf s) = [7; 9].
Proof. eexists. split; [vm_compute; reflexivity|]. split; reflexivity. Qed.
