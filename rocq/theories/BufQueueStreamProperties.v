(* C03: reading, skipping and overwriting through a buffer queue stream
   (nginx-common/src/ngx_buf_queue_stream.c). *)
From Coq Require Import ZArith List Bool Arith Lia.
From Verif Require Import BufQueueStreamModel BufQueueStreamSpec BufQueueStreamProofs.
Import ListNotations.

(* C03: a read inside the data returns exactly the bytes at the position and
   advances by as many bytes. *)
Theorem C03_read : forall n nodes s size,
  uniform n nodes -> usable nodes s ->
  in_data nodes (position nodes s + size) ->
  exists s', bqs_read nodes s size =
      SOk s' (firstn size (skipn (position nodes s) (flat nodes))) /\
    usable nodes s' /\ position nodes s' = position nodes s + size.
Proof. exact read_ok. Qed.

(* C03: any other read is refused (the stream must never stand at the end). *)
Theorem C03_read_refused : forall n nodes s size,
  uniform n nodes -> usable nodes s ->
  ~ in_data nodes (position nodes s + size) ->
  exists s' out, bqs_read nodes s size = SFail s' out /\ bqs_pos s' = bqs_pos s.
Proof.
  intros n nodes s size Hu Hus H. unfold in_data in H.
  destruct (read_fail n nodes s size Hu Hus) as (s' & E & Hp & _); [lia|].
  eexists. eexists. split; [exact E|exact Hp].
Qed.

(* C03: the digest helper consumes the same bytes. *)
Theorem C03_md5 : forall n nodes s size,
  uniform n nodes -> usable nodes s ->
  in_data nodes (position nodes s + size) ->
  exists s', bqs_md5 nodes s size =
      SOk s' (firstn size (skipn (position nodes s) (flat nodes))) /\
    usable nodes s' /\ position nodes s' = position nodes s + size.
Proof. exact read_ok. Qed.

(* C03: skip succeeds exactly inside the data and advances by that amount. *)
Theorem C03_skip : forall n nodes s size,
  uniform n nodes -> usable nodes s ->
  in_data nodes (position nodes s + size) ->
  exists s', bqs_skip nodes s size = SOk s' tt /\
    usable nodes s' /\ position nodes s' = position nodes s + size.
Proof. exact skip_ok. Qed.

Theorem C03_skip_refused : forall n nodes s size,
  uniform n nodes -> usable nodes s ->
  ~ in_data nodes (position nodes s + size) ->
  exists s', bqs_skip nodes s size = SFail s' tt /\ bqs_pos s' = bqs_pos s.
Proof.
  intros n nodes s size Hu Hus H. apply (skip_fail n nodes s size Hu Hus).
  unfold in_data in H. lia.
Qed.

(* C03: a write changes exactly the addressed bytes; buffer sizes do not
   change. *)
Theorem C03_write : forall n nodes s data,
  uniform n nodes -> usable nodes s ->
  in_data nodes (position nodes s + length data) ->
  exists s' nodes', bqs_write nodes s data = SOk s' nodes' /\
    flat nodes' = stored (flat nodes) data (position nodes s) /\
    map (@length Z) nodes' = map (@length Z) nodes /\
    bqs_node s' = fst (bqs_pos s') /\
    position nodes s' = position nodes s + length data /\ usable nodes s'.
Proof. exact write_ok. Qed.

(* C03: a refused write may have stored the part that fits, nothing else. *)
Theorem C03_write_refused : forall n nodes s data,
  uniform n nodes -> usable nodes s ->
  ~ in_data nodes (position nodes s + length data) ->
  exists s' nodes', bqs_write nodes s data = SFail s' nodes' /\
    flat nodes' = stored (flat nodes) data (position nodes s) /\
    map (@length Z) nodes' = map (@length Z) nodes /\ bqs_pos s' = bqs_pos s.
Proof.
  intros n nodes s data Hu Hus H. apply (write_fail n nodes s data Hu Hus).
  unfold in_data in H. lia.
Qed.

(* C03: where a fresh stream stands. *)
Theorem C03_init : forall n nodes,
  uniform n nodes ->
  (forall s, bqs_init_head nodes = Some s -> usable nodes s /\ position nodes s = 0) /\
  (forall off s, off < n -> bqs_init_tail nodes off = Some s ->
     usable nodes s /\ position nodes s + (n - off) = length (flat nodes)).
Proof.
  intros n nodes Hu. split; intros.
  - eapply init_head_spec; eassumption.
  - eapply init_tail_spec; eassumption.
Qed.

(* Finding: after a refused read that crossed a buffer boundary the stream is
   broken (node and pos disagree): using it again is undefined behaviour, so
   callers must restore it. *)
Theorem C03_refused_read_breaks_stream : forall n nodes s size s' out size',
  uniform n nodes -> usable nodes s -> 0 < size' ->
  fst (bqs_pos s) <> length nodes - 1 ->
  bqs_read nodes s size = SFail s' out ->
  bqs_read nodes s' size' = SUB.
Proof. exact read_after_failure. Qed.

Definition ex_nodes : list (list Z) := [[1; 2; 3]; [4; 5; 6]; [7; 8; 9]]%Z.
Definition ex_s := mk_bqs 0 (0, 2).

Example C03_example :
  uniform 3 ex_nodes /\ usable ex_nodes ex_s /\ in_data ex_nodes (position ex_nodes ex_s + 5) /\
  bqs_read ex_nodes ex_s 5 = SOk (mk_bqs 2 (2, 1)) [3; 4; 5; 6; 7]%Z /\
  bqs_write ex_nodes ex_s [0; 0]%Z =
    SOk (mk_bqs 1 (1, 1)) [[1; 2; 0]; [0; 5; 6]; [7; 8; 9]]%Z /\
  bqs_read ex_nodes ex_s 7 = SFail (mk_bqs 2 (0, 2)) [3; 4; 5; 6; 7; 8; 9]%Z.
Proof.
  repeat split; try reflexivity.
  - lia.
  - repeat constructor.
  - exists [1; 2; 3]%Z. split; [reflexivity|cbn; lia].
  - unfold in_data. cbn. lia.
Qed.

Print Assumptions C03_read.
Print Assumptions C03_read_refused.
Print Assumptions C03_md5.
Print Assumptions C03_skip.
Print Assumptions C03_skip_refused.
Print Assumptions C03_write.
Print Assumptions C03_write_refused.
Print Assumptions C03_init.
Print Assumptions C03_refused_read_breaks_stream.
