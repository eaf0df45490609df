(* The properties of the segment index: C71 to C77.

   What is seen of a channel is the list s_out, the last event first, so what
   follows an event in the list came before it. *)

From Coq Require Import ZArith List Bool Lia ZifyBool Permutation.
From Verif Require Import IdxModel IdxSpec IdxProofs IdxProofs2 IdxProofs3 IdxProofs4 IdxProofs5
  IdxProofs6 IdxProofs7 IdxProofs8 IdxProofs9 IdxProofs10 IdxProofs11 IdxProofs12 IdxProofs13
  IdxProofs14.
Import ListNotations.
Open Scope Z_scope.

(* ------------------------------------------------------------------ *)
(* The cases the examples look at                                       *)

(* A segment: its index, its snapshot, and its end. *)
Definition seg (k : Z) : list op := [ICreate k; ISnap true; IReady true].

(* Two segments in a media file, two segments stay in memory, deltas of up to
   three segments. *)
Definition conf2 : conf := Conf 2 2 3 true 1.
Definition day : list op :=
  seg 1 ++ seg 2 ++ seg 3 ++ [IMediaDone 0 true; IMediaDone 1 true; IWriteDone true true] ++
  seg 4 ++ seg 5 ++ [IMediaDone 2 true; IWriteDone true true; IHist] ++
  seg 6 ++ seg 7 ++ [IMediaDone 3 true; IExpire 4; IWriteDone true true].
Definition day_out : list ev :=
  [EStart (File false 4 7 1); EStored (File true 4 5 0); EAck 5; EDrop 6; EMedia 7; EMedia 6;
   EFree 5; EReady 7 true; ESnap 7; EFree 4; EReady 6 true; ESnap 6; EStart (File true 4 5 0);
   EStored (File false 1 3 0); EAck 3; EDrop 4; EMedia 5; EMedia 4; EFree 3; EReady 5 true;
   ESnap 5; EFree 2; EReady 4 true; ESnap 4; EStart (File false 1 3 0);
   EStored (File false 1 1 0); EAck 1; EDrop 2; EMedia 3; EMedia 2; EStart (File false 1 1 0);
   EFree 1; EMedia 1; EReady 3 true; ESnap 3; EReady 2 true; ESnap 2; EReady 1 true; ESnap 1].

(* One segment in a media file. *)
Definition conf1 : conf := Conf 1 2 3 true 1.

Example conf_sane : sane conf2 /\ sane conf1.
Proof. unfold sane. cbn. lia. Qed.

Example day_ex : exists s, reach_calm conf2 s /\
  (s_out s, s_ub s, restore conf2 (s_index s) (s_delta s)) =
  (day_out, false, Some ([(1, 3); (4, 5)], 6)).
Proof.
  apply (ex_calm _ (fun s => (s_out s, s_ub s, restore conf2 (s_index s) (s_delta s))) conf2 day);
    vm_compute; reflexivity.
Qed.

(* ------------------------------------------------------------------ *)
(* C71: nothing is in an index before its media is dealt with            *)

(* When the write of an index or delta file starts, every segment it covers
   that was or ever will be closed has been written to a media file, or failed to
   be, or was freed as it is not needed.  Files are started in the order of what
   they cover. *)
Theorem C71_media_before_index : forall c s,
  sane c -> c_init c < 4294967295 -> reach c s ->
  forall l1 f l2, s_out s = l1 ++ EStart f :: l2 ->
  (forall k ex, In (EReady k ex) (s_out s) -> k <= fi_max f ->
     In (EMedia k) l2 \/ In (ELost k) l2 \/ In (EFree k) l2) /\
  (forall g, In (EStart g) l2 -> fi_max g < fi_max f).
Proof. intros c s HS HM HR. exact (reach_ord c s HS HM HR). Qed.
Print Assumptions C71_media_before_index.

(* No memory error. *)
Theorem C71_no_memory_error : forall c s,
  sane c -> c_init c < 4294967295 -> reach c s -> s_ub s = false.
Proof. intros c s HS HM HR. exact (v_ub _ _ _ (reach_inv c s HS HM HR)). Qed.
Print Assumptions C71_no_memory_error.

(* With failures: the media file of segment 2 is done before that of segment 1. *)
Example C71_ex : exists s, reach conf1 s /\
  s_out s = [EAck 2; EStart (File false 1 2 0); EMedia 1; EDrop 1; EMedia 2;
             EReady 2 true; ESnap 2; EReady 1 true; ESnap 1].
Proof.
  destruct (ex_reach _ (fun s => s_out s) conf1 []
    (seg 1 ++ seg 2 ++ [IMediaDone 2 true; IMediaDone 1 true; IWriteDone false false])
    [EAck 2; EStart (File false 1 2 0); EMedia 1; EDrop 1; EMedia 2;
     EReady 2 true; ESnap 2; EReady 1 true; ESnap 1]) as (s & A & B);
    [vm_compute; reflexivity|vm_compute; reflexivity|]. exists s. split; assumption.
Qed.

(* ------------------------------------------------------------------ *)
(* C72: every snapshot of the frames is closed once                      *)

Lemma tot_len : forall l, tot one l = Z.of_nat (length l).
Proof.
  induction l as [|k l IH]; [reflexivity|]. rewrite tot_cons, IH, one_1. cbn [length]. lia.
Qed.

Theorem C72_closed_once : forall c s,
  sane c -> c_init c < 4294967295 -> reach c s ->
  NoDup (taken (s_out s)) /\
  Permutation (taken (s_out s)) (kept s ++ closed (s_out s)) /\
  s_snaps s = Z.of_nat (length (kept s)).
Proof.
  intros c s HS HM HR. split; [exact (reach_uniq c s HS HM HR)|].
  destruct (reach_bal c s HS HM HR) as [A B]. cbn [map tot fold_right] in A, B. split.
  - apply tot_perm. intros w. rewrite tot_app, kept_tot, A. lia.
  - rewrite <- tot_len, kept_tot. change (tot one []) with 0 in B. lia.
Qed.
Print Assumptions C72_closed_once.

(* All frames are acknowledged only when no snapshot is kept. *)
Theorem C72_ack_all : forall c s,
  sane c -> c_init c < 4294967295 -> reach c s ->
  forall l1 l2, s_out s = l1 ++ EAckAll :: l2 -> Permutation (taken l2) (closed l2).
Proof.
  intros c s HS HM HR l1 l2 E. apply tot_perm. exact (reach_settled c s HS HM HR l1 l2 E).
Qed.
Print Assumptions C72_ack_all.

Example C72_ex : exists s, reach conf1 s /\
  (taken (s_out s), closed (s_out s), kept s, s_snaps s) = ([3; 2; 1], [1], [3; 2], 2).
Proof.
  apply (ex_reach _ (fun s => (taken (s_out s), closed (s_out s), kept s, s_snaps s)) conf1 []
    (seg 1 ++ seg 2 ++ [IMediaDone 2 true] ++ seg 3 ++ [IMediaDone 1 true]));
    vm_compute; reflexivity.
Qed.

(* Nothing is acknowledged at once while snapshots are used, and this happens. *)
Example C72_ex_all : exists s, reach conf1 s /\
  s_out s = [EAckAll; EReady 2 true; EAck 1; ELost 1; EReady 1 true; ESnap 1].
Proof.
  apply (ex_reach _ s_out conf1 []
    (seg 1 ++ [IMediaDone 1 false; ICreate 2; IReady true]));
    vm_compute; reflexivity.
Qed.

(* ------------------------------------------------------------------ *)
(* C73: when a segment leaves memory                                     *)

Theorem C73_freed_once : forall c s,
  sane c -> c_init c < 4294967295 -> reach c s -> NoDup (freed (s_out s)).
Proof. intros c s HS HM HR. exact (z_nodup _ (reach_frz c s HS HM HR)). Qed.
Print Assumptions C73_freed_once.

Theorem C73_freed_for_a_reason : forall c s o,
  sane c -> c_init c < 4294967295 -> reach c s -> fits s o ->
  exists L, s_out (step c s o) = L ++ s_out s /\
    forall k, In (EFree k) L -> why c s o (step c s o) k /\ cut o s (step c s o) L k.
Proof.
  intros c s o HS HM HR HF. pose proof (reach_inv c s HS HM HR) as HI.
  pose proof (reach_frz c s HS HM HR) as HZ. destruct HS as (HB & _ & _ & HC).
  exact (step_free c s o HB HC HI HZ HF).
Qed.
Print Assumptions C73_freed_for_a_reason.

(* When a segment was closed, no older segment than the ones to keep stays, if its
   media file was dealt with. *)
Theorem C73_freed_in_time : forall c s ex,
  sane c -> c_init c < 4294967295 -> reach c s -> fits s (IReady ex) ->
  s_err (step c s (IReady ex)) = false ->
  forall k, saved (step c s (IReady ex)) k -> k + c_force c <= s_next s ->
  In (EFree k) (s_out (step c s (IReady ex))).
Proof.
  intros c s ex HS HM HR HF. pose proof (reach_inv c s HS HM HR) as HI.
  pose proof (reach_frz c s HS HM HR) as HZ. destruct HS as (HB & _ & _ & HC).
  exact (ready_free c s ex HB HC HI HZ HF).
Qed.
Print Assumptions C73_freed_in_time.

(* Who reads a segment keeps it in memory, until it is read, or until memory is
   short and the reader is told. *)
Theorem C73_reader_keeps : forall c s o,
  sane c -> c_init c < 4294967295 -> reach c s -> fits s o ->
  forall k i, reading s k i -> o <> IUnlock i ->
  reading (step c s o) k i \/ (o = IWatermark /\ In (ECut i) (s_out (step c s o))).
Proof.
  intros c s o HS HM HR HF. pose proof (reach_inv c s HS HM HR) as HI.
  destruct HS as (HB & _ & _ & HC). exact (step_reading c s o HB HC HI HF).
Qed.
Print Assumptions C73_reader_keeps.

Definition rush : list op :=
  seg 1 ++ seg 2 ++ [ILock 1 7; IMediaDone 1 true; IMediaDone 2 false] ++ seg 3 ++ seg 4.

Example C73_ex : exists s, reach conf1 s /\ fits s IWatermark /\ reading s 1 7 /\
  (freed (s_out s), s_out (step conf1 s IWatermark)) =
  ([2; 1],
   [ETrunc 4; EFree 4; EDrop 3; ELost 4; EFree 3; EDrop 2; ELost 3; ECut 7] ++ s_out s).
Proof.
  exists (runs conf1 (init conf1 [true; true; true; true; true; true; true; true]) rush).
  split; [apply allb_reach; [apply reach_init|vm_compute; reflexivity]|].
  split; [apply fitb_ok; vm_compute; reflexivity|].
  split; [|vm_compute; reflexivity].
  exists (Idx 1 POk None false true [CRead 7]).
  split; [vm_compute; left; reflexivity|]. split; [reflexivity|left; reflexivity].
Qed.

(* A segment that could not be written is cut from the timelines when it is freed,
   but for the segment 0: 0 stands for 'nothing to cut'. *)
Theorem C73_segment_0_refuted :
  ~ (forall c s o, sane c -> c_init c < 4294967295 -> reach c s -> fits s o ->
     exists L, s_out (step c s o) = L ++ s_out s /\
       forall k, In (EFree k) L ->
       (exists m, o = IExpire m) \/ (o = IReady false /\ k = s_next s) \/
       In (EMedia k) (s_out (step c s o)) \/ exists t, k <= t /\ In (ETrunc t) L).
Proof.
  intros H.
  pose (c := Conf 1 0 3 true 0). pose (s := runs c (init c []) (seg 0)).
  assert (HR : reach c s) by (apply allb_reach; [apply reach_init|vm_compute; reflexivity]).
  assert (HF : fits s (IMediaDone 0 false)) by (apply fitb_ok; vm_compute; reflexivity).
  assert (HS : sane c) by (unfold sane; cbn; lia).
  destruct (H c s (IMediaDone 0 false) HS ltac:(cbn; lia) HR HF) as (L & E & HL).
  assert (E2 : s_out (step c s (IMediaDone 0 false)) = [EAck 0; EFree 0; ELost 0] ++ s_out s)
    by (vm_compute; reflexivity).
  rewrite E2 in E. apply app_inv_tail in E. subst L.
  destruct (HL 0 (or_intror (or_introl eq_refl))) as [(m & A)|[(A & _)|[A|(t & _ & A)]]].
  - discriminate A.
  - discriminate A.
  - rewrite E2 in A. vm_compute in A. decompose [or] A; try discriminate; contradiction.
  - cbn in A. decompose [or] A; try discriminate; contradiction.
Qed.
Print Assumptions C73_segment_0_refuted.

(* ------------------------------------------------------------------ *)
(* C74: a restart continues where the last file ended                    *)

(* When a write that is reported as failed left the file as it was, a restart
   reads the file that was reported as written last, with the index file it
   follows if it is a delta, and no segment in between is missing. *)
Theorem C74_restart_partial : forall c s,
  sane c -> 1 <= c_init c < 4294967295 -> reach_honest c s ->
  match last_stored (s_out s) with
  | None => restore c (s_index s) (s_delta s) = Some ([], c_init c)
  | Some f =>
      if fi_delta f
      then exists i, s_index s = Some i /\ fi_min f = fi_max i + 1 /\
        restore c (s_index s) (s_delta s) =
          Some ([(fi_min i, fi_max i); (fi_min f, fi_max f)], fi_max f + 1)
      else restore c (s_index s) (s_delta s) = Some ([(fi_min f, fi_max f)], fi_max f + 1)
  end.
Proof.
  intros c s HS HM HR. exact (restore_last c s (reach_rst c s HS HM HR) (proj1 HM)).
Qed.
Print Assumptions C74_restart_partial.

(* So a restart never goes back before a file that was reported as written. *)
Theorem C74_restart_after_stored_partial : forall c s g,
  sane c -> 1 <= c_init c < 4294967295 -> reach_honest c s -> In (EStored g) (s_out s) ->
  exists l n, restore c (s_index s) (s_delta s) = Some (l, n) /\ fi_max g < n.
Proof.
  intros c s g HS HM HR HG.
  pose proof (reach_rst c s HS HM HR) as HT.
  destruct (r_last _ _ HT g HG) as (f & EF & HL).
  pose proof (restore_last c s HT (proj1 HM)) as H. rewrite EF in H.
  destruct (fi_delta f).
  - destruct H as (i & _ & _ & H). eexists; eexists; split; [exact H|lia].
  - eexists; eexists; split; [exact H|lia].
Qed.
Print Assumptions C74_restart_after_stored_partial.

Example C74_ex : exists s, reach_honest conf1 s /\
  (last_stored (s_out s), restore conf1 (s_index s) (s_delta s)) =
  (Some (File true 4 5 0), Some ([(1, 3); (4, 5)], 6)).
Proof.
  apply (ex_honest _ (fun s => (last_stored (s_out s), restore conf1 (s_index s) (s_delta s)))
    conf1 []
    (seg 1 ++ seg 2 ++ [IMediaDone 1 true] ++ seg 3 ++ [IWriteDone false false] ++
     [IMediaDone 2 true; IMediaDone 3 true; IWriteDone true true; IWriteDone true true] ++
     seg 4 ++ seg 5 ++ [IMediaDone 4 false; IMediaDone 5 true; IWriteDone true true]));
    vm_compute; reflexivity.
Qed.

(* A write that was reported as failed, but replaced the index file: the delta that
   is written next follows the file before that one, and is not read. *)
Theorem C74_failed_but_stored_refuted :
  ~ (forall c s g, sane c -> 1 <= c_init c < 4294967295 -> reach c s ->
     In (EStored g) (s_out s) ->
     exists l n, restore c (s_index s) (s_delta s) = Some (l, n) /\ fi_max g < n).
Proof.
  intros H.
  destruct (ex_reach _ (fun s => (s_out s, restore (Conf 1 10 2 true 1) (s_index s) (s_delta s)))
    (Conf 1 10 2 true 1) []
    (seg 1 ++ [IMediaDone 1 true; IWriteDone true true] ++
     seg 2 ++ [IMediaDone 2 true; IWriteDone true true] ++ [IHist] ++
     seg 3 ++ [IMediaDone 3 true; IWriteDone false true] ++
     seg 4 ++ [IMediaDone 4 true; IWriteDone true true])
    ([EStored (File true 3 4 1); EAck 4; EStart (File true 3 4 1); EMedia 4; EReady 4 true; ESnap 4;
      EAck 3; EStart (File false 1 3 1); EMedia 3; EReady 3 true; ESnap 3;
      EStored (File false 1 2 0); EAck 2; EStart (File false 1 2 0); EMedia 2; EReady 2 true;
      ESnap 2; EStored (File false 1 1 0); EAck 1; EStart (File false 1 1 0); EMedia 1;
      EReady 1 true; ESnap 1], Some ([(1, 3)], 4))) as (s & HR & E);
    [vm_compute; reflexivity|vm_compute; reflexivity|].
  apply pair_equal_spec in E. destruct E as [E1 E2].
  destruct (H (Conf 1 10 2 true 1) s (File true 3 4 1) ltac:(unfold sane; cbn; lia) ltac:(cbn; lia) HR) as (l & n & E & L).
  - rewrite E1. left. reflexivity.
  - rewrite E2 in E. injection E as _ <-. cbn in L. lia.
Qed.
Print Assumptions C74_failed_but_stored_refuted.

(* A channel whose first segment is 0: its first file can be a delta, which
   nothing is read from, as there is no index file. *)
Theorem C74_first_delta_refuted :
  ~ (forall c s g, sane c -> c_init c < 4294967295 -> reach_calm c s ->
     In (EStored g) (s_out s) ->
     exists l n, restore c (s_index s) (s_delta s) = Some (l, n) /\ fi_max g < n).
Proof.
  intros H.
  destruct (ex_calm _ (fun s => (hd_error (s_out s), restore (Conf 4 10 3 true 0) (s_index s) (s_delta s)))
    (Conf 4 10 3 true 0)
    (seg 0 ++ seg 1 ++ seg 2 ++ seg 3 ++ [IMediaDone 0 true; IWriteDone true true])
    (Some (EStored (File true 1 3 0)), Some ([], 0))) as (s & HR & E);
    [vm_compute; reflexivity|vm_compute; reflexivity|].
  apply pair_equal_spec in E. destruct E as [E1 E2].
  destruct (H (Conf 4 10 3 true 0) s (File true 1 3 0) ltac:(unfold sane; cbn; lia) ltac:(cbn; lia) HR) as (l & n & E & L).
  - destruct (s_out s) as [|v r]; [discriminate E1|]. injection E1 as ->. left. reflexivity.
  - rewrite E2 in E. injection E as _ <-. cbn in L. lia.
Qed.
Print Assumptions C74_first_delta_refuted.

(* ------------------------------------------------------------------ *)
(* C75: changes of the past are not lost                                 *)

(* A delta has nothing about segments before it.  When storage works, the index
   file a restart reads before a delta has all the changes that had been made to
   older segments when the delta was written. *)
Theorem C75_history_partial : forall c s,
  sane c -> 1 <= c_init c < 4294967295 -> reach_calm c s ->
  forall f, last_stored (s_out s) = Some f ->
  exists i, s_index s = Some i /\ fi_hv i = fi_hv f.
Proof. intros c s HS HM HR. exact (h_st _ _ (reach_hst c s HS HM HR)). Qed.
Print Assumptions C75_history_partial.

Example C75_ex : exists s, reach_calm (Conf 1 10 2 true 1) s /\
  (last_stored (s_out s), s_index s) = (Some (File true 4 4 1), Some (File false 1 3 1)).
Proof.
  apply (ex_calm _ (fun s => (last_stored (s_out s), s_index s)) (Conf 1 10 2 true 1)
    (seg 1 ++ [IMediaDone 1 true; IWriteDone true true] ++
     seg 2 ++ [IMediaDone 2 true; IWriteDone true true] ++ [IHist] ++
     seg 3 ++ [IMediaDone 3 true; IWriteDone true false] ++
     seg 4 ++ [IMediaDone 4 true; IWriteDone true true]));
    vm_compute; reflexivity.
Qed.

(* The change is forgotten when the write of the index file is started: if it
   fails, a delta is written after the old index file. *)
Theorem C75_failed_write_refuted :
  ~ (forall c s, sane c -> 1 <= c_init c < 4294967295 -> reach_honest c s ->
     forall f, last_stored (s_out s) = Some f ->
     exists i, s_index s = Some i /\ fi_hv i = fi_hv f).
Proof.
  intros H.
  destruct (ex_honest _ (fun s => (last_stored (s_out s), s_index s)) (Conf 1 10 2 true 1) []
    (seg 1 ++ [IMediaDone 1 true; IWriteDone true true] ++
     seg 2 ++ [IMediaDone 2 true; IWriteDone true true] ++ [IHist] ++
     seg 3 ++ [IMediaDone 3 true; IWriteDone false false] ++
     seg 4 ++ [IMediaDone 4 true; IWriteDone true true])
    (Some (File true 3 4 1), Some (File false 1 2 0))) as (s & HR & E);
    [vm_compute; reflexivity|vm_compute; reflexivity|].
  apply pair_equal_spec in E. destruct E as [E1 E2].
  destruct (H (Conf 1 10 2 true 1) s ltac:(unfold sane; cbn; lia) ltac:(cbn; lia) HR _ E1) as (i & E & L).
  rewrite E2 in E. injection E as <-. discriminate L.
Qed.
Print Assumptions C75_failed_write_refuted.

(* ------------------------------------------------------------------ *)
(* C76: the end of a channel                                            *)

(* When a channel is freed while no media file is being written, whoever reads
   its segments is cut off, and every snapshot is let go once. *)
Theorem C76_channel_free_partial : forall c s,
  sane c -> c_init c < 4294967295 -> reach c s ->
  (forall x b, In x (s_all s) -> ~ In (CWrite b) (x_cln x)) ->
  s_ub (channel_free c s) = false /\
  Permutation (taken (s_out (channel_free c s))) (closed (s_out (channel_free c s))).
Proof. exact channel_free_ok. Qed.
Print Assumptions C76_channel_free_partial.

Example C76_ex : exists s, reach conf1 s /\
  (forall x b, In x (s_all s) -> ~ In (CWrite b) (x_cln x)) /\
  s_out (channel_free conf1 s) =
    [EDrop 1; EDrop 3; ECut 7] ++ s_out s.
Proof.
  exists (runs conf1 (init conf1 [])
    (seg 1 ++ seg 2 ++ [ILock 2 7; IMediaDone 2 false; IMediaDone 1 true; ICreate 3; ISnap true])).
  split; [apply allb_reach; [apply reach_init|vm_compute; reflexivity]|]. split.
  - intros x b Hx. vm_compute in Hx. decompose [or] Hx; subst; try contradiction;
      cbn; intros HC; decompose [or] HC; try discriminate; contradiction.
  - vm_compute. reflexivity.
Qed.

(* While a media file is being written, a snapshot can be let go twice.  The
   index of segment 1, kept for its reader, has the snapshot of segment 2.  It is
   let go but still pointed to; then the write of segment 3 is cancelled, its
   snapshot is moved to that index, and what is there is let go again. *)
Theorem C76_channel_free_refuted :
  ~ (forall c s, sane c -> c_init c < 4294967295 -> reach c s ->
     s_ub (channel_free c s) = false).
Proof.
  intros H.
  destruct (ex_reach _ (fun s => s_ub (channel_free conf1 s)) conf1 []
    ([ICreate 1; ILock 1 7; IReady false] ++ seg 2 ++ [IMediaDone 2 true] ++
     seg 3 ++ seg 4 ++ [IMediaDone 4 true]) true) as (s & HR & E);
    [vm_compute; reflexivity|vm_compute; reflexivity|].
  rewrite (H conf1 s (proj2 conf_sane) ltac:(cbn; lia) HR) in E. discriminate E.
Qed.
Print Assumptions C76_channel_free_refuted.

(* When there is no memory for a snapshot, the segment keeps a pointer that is not
   one, and its end follows it. *)
Theorem C76_no_memory_refuted :
  ~ (forall c s, sane c -> c_init c < 4294967295 -> reach c s ->
     forall k, fits s (ICreate k) ->
     s_ub (runs c s [ICreate k; ISnap false; IReady true]) = false).
Proof.
  intros H.
  assert (E : s_ub (runs conf1 (init conf1 []) [ICreate 1; ISnap false; IReady true]) = true)
    by (vm_compute; reflexivity).
  rewrite (H conf1 (init conf1 []) (proj2 conf_sane) ltac:(cbn; lia) (reach_init conf1 []) 1) in E;
    [discriminate E|]. apply fitb_ok. vm_compute. reflexivity.
Qed.
Print Assumptions C76_no_memory_refuted.

(* ------------------------------------------------------------------ *)
(* C77: what is acknowledged is in storage                               *)

(* When storage works: if the frames up to the end of segment m were
   acknowledged, the media of every closed segment up to m is in a file, and m
   left the timelines or is in a file a restart would read. *)
Theorem C77_acked_is_stored_partial : forall c s m,
  sane c -> 1 <= c_init c < 4294967295 -> reach_calm c s -> In (EAck m) (s_out s) ->
  (forall k ex, In (EReady k ex) (s_out s) -> k <= m -> In (EMedia k) (s_out s)) /\
  (m < s_min s \/
   exists l n, restore c (s_index s) (s_delta s) = Some (l, n) /\ m < n).
Proof.
  intros c s m HS HM HR HA.
  destruct (calm_acked c s m HS (proj2 HM) HR HA) as [A B]. split; [exact A|].
  destruct B as [B|(f & HF & EF)]; [left; exact B|right].
  destruct (C74_restart_after_stored_partial c s f HS HM (calm_honest c s HR) HF)
    as (l & n & E & L). exists l, n. split; [exact E|lia].
Qed.
Print Assumptions C77_acked_is_stored_partial.

(* When the media file of segment 2 fails, the frames up to its end are
   acknowledged, though the media file of segment 1 is still being written. *)
Theorem C77_failed_media_refuted :
  ~ (forall c s m, sane c -> 1 <= c_init c < 4294967295 -> reach_honest c s ->
     In (EAck m) (s_out s) ->
     forall k ex, In (EReady k ex) (s_out s) -> k <= m ->
     In (EMedia k) (s_out s) \/ In (ELost k) (s_out s)).
Proof.
  intros H.
  destruct (ex_honest _ s_out conf1 [] (seg 1 ++ seg 2 ++ [IMediaDone 2 false])
    [EAck 2; ELost 2; EReady 2 true; ESnap 2; EReady 1 true; ESnap 1]) as (s & HR & E);
    [vm_compute; reflexivity|vm_compute; reflexivity|].
  destruct (H conf1 s 2 (proj2 conf_sane) ltac:(cbn; lia) HR) with (k := 1) (ex := true) as [A|A].
  - rewrite E. left. reflexivity.
  - rewrite E. do 4 right. left. reflexivity.
  - lia.
  - rewrite E in A. cbn in A. decompose [or] A; try discriminate; contradiction.
  - rewrite E in A. cbn in A. decompose [or] A; try discriminate; contradiction.
Qed.
Print Assumptions C77_failed_media_refuted.
