(* The properties of the MPEG-TS encoder: C78 to C80. *)

From Coq Require Import ZArith List Bool Lia.
From Verif Require Import Lists TsModel TsSpec TsProofs TsProofs2 TsProofs3 TsProofs4 TsProofs5
  TsProofs6 TsProofs7 TsProofs8 TsProofs9 TsProofs10 TsProofs11 TsProofs12.
Import ListNotations.
Open Scope Z_scope.

(* ------------------------------------------------------------------ *)
(* The cases the examples look at                                       *)

Definition video : strm := Strm Video 256 224 true 0.
Definition audio : strm := Strm Audio 257 192 false 0.
Definition av (inter align : bool) : conf := Conf inter align [video; audio].
Definition bytes (x n : nat) : list Z := repeat (Z.of_nat x) n.

Definition av_ops : list op :=
  [OStart 0 (Frame 1000 900 300 6); OWrite 0 (bytes 1 300); OFlush 0 false;
   OStart 1 (Frame 1000 1000 100 1); OWrite 1 (bytes 2 100);
   OSub 1 (Frame 1100 1100 200 1); OWrite 1 (bytes 3 260); OFlush 1 false;
   OStart 1 (Frame 2000 2000 100 1); OWrite 1 (bytes 4 500); OFlush 1 true;
   OStart 0 (Frame 1100 1050 300 6); OWrite 0 (bytes 5 900); OFlush 0 true].

Fixpoint distinct (l : list Z) : bool :=
  match l with [] => true | a :: l => negb (existsb (Z.eqb a) l) && distinct l end.

Lemma nodup_pids (c : conf) : distinct (map t_pid (c_strms c)) = true ->
  forallb (fun t => (0 <=? t_pid t) && (t_pid t <? 8192) && (0 <=? t_sid t) && (t_sid t <? 256))
    (c_strms c) = true ->
  good_conf c.
Proof.
  intros H1 H2. split.
  - clear H2. induction (map t_pid (c_strms c)) as [|a l IH]; [constructor|].
    cbn [distinct] in H1. apply andb_true_iff in H1. destruct H1 as [H1 H2].
    constructor; [|exact (IH H2)]. intros H. apply negb_true_iff in H1.
    rewrite (proj2 (existsb_exists _ _)) in H1; [discriminate|].
    exists a. split; [exact H|apply Z.eqb_refl].
  - rewrite forallb_forall in H2. apply Forall_forall. intros t Ht.
    specialize (H2 t Ht). rewrite !andb_true_iff in H2. lia.
Qed.

Lemma done_all c ops ps : phases c ops = Some ps ->
  forallb (fun p => match p with New | Done => true | _ => false end) ps = true -> finished c ops.
Proof.
  intros H1 H2. exists ps. split; [exact H1|]. rewrite forallb_forall in H2.
  apply Forall_forall. intros p Hp. specialize (H2 p Hp). destruct p; auto; discriminate.
Qed.

Example av_good : forall inter align,
  good_conf (av inter align) /\ finished (av inter align) av_ops.
Proof.
  intros inter align. split.
  - apply nodup_pids; vm_compute; reflexivity.
  - apply (done_all _ _ [Done; Done]); destruct inter, align; vm_compute; reflexivity.
Qed.

(* What a player gets, in short: the counters, and of each PES packet the clock, the
   length, if it begins with a frame, pts, dts, and how much data. *)
Definition short (pid : Z) (q : list slot) :=
  match contents q with
  | Some out =>
      match demux pid out with
      | Some (ccs, l) =>
          Some (ccs, map (fun r => (fst r, p_len (snd r), p_aligned (snd r), p_pts (snd r),
                                    p_dts (snd r), length (p_data (snd r)))) l)
      | None => None
      end
  | None => None
  end.

(* ------------------------------------------------------------------ *)
(* C78: a player gets what was pushed                                   *)

(* Any number of streams, any frames, pushed in any order the filters above may use,
   with data cut anywhere.  When all streams had their last frame, every packet of
   the queue is complete, is 188 bytes of well formed MPEG-TS of one of the streams,
   and for every stream: the counters go up by one from the initial one, and end such
   that the next segment can start from zero (but for metadata); the data of the PES
   packets is the data that was pushed; there is a PES packet per frame, with its
   clocks, its length, and the pts of the first frame that begins in it. *)
Theorem C78_player_gets_frames : forall c ops,
  good_conf c -> finished c ops ->
  exists out ps,
    contents (q_slots (s_q (run c (init c) ops))) = Some out /\
    parse_all out = Some ps /\
    Forall (fun p => In (x_pid p) (map t_pid (c_strms c))) ps /\
    forall i t, nth_error (c_strms c) i = Some t ->
    exists ccs l,
      demux (t_pid t) out = Some (ccs, l) /\
      counts (t_cc0 t) ccs /\
      (is_other t = false -> l <> [] ->
       (t_cc0 t + Z.of_nat (length ccs)) mod 16 = 0) /\
      concat (map (fun r => p_data (snd r)) l) = h_data (pushed i ops) /\
      good_all c t (h_marks (pushed i ops)) 0 l (h_frames (pushed i ops)).
Proof. exact player. Qed.
Print Assumptions C78_player_gets_frames.

(* Frames are not aligned: the end of a frame is at the start of the PES packet of
   the next one. *)
Example C78_ex :
  (short 256 (q_slots (s_q (run (av true false) (init (av true false)) av_ops))),
   short 257 (q_slots (s_q (run (av true false) (init (av true false)) av_ops)))) =
  (Some ([0; 1; 2; 3; 4; 5; 6; 7; 8; 9; 10; 11; 12; 13; 14; 15],
         [(Some 5490, 0, true, 10090, Some 9990, 157%nat);
          (Some 5640, 0, false, 10190, Some 10140, 1043%nat)]),
   Some ([0; 1; 2; 3; 4; 5; 6; 7; 8; 9; 10; 11; 12; 13; 14; 15],
         [(None, 362, true, 10090, None, 354%nat);
          (None, 514, false, 11090, None, 506%nat)])).
Proof. vm_compute. reflexivity. Qed.

(* With aligned frames every frame has a PES packet of its own: it begins and ends
   with it, and has its timestamps. *)
Fixpoint starts (off : Z) (l : list (option Z * pes)) : list Z :=
  match l with
  | [] => []
  | r :: l => off :: starts (off + Z.of_nat (length (p_data (snd r)))) l
  end.

Theorem C78_one_pes_per_frame : forall c ops i t,
  good_conf c -> finished c ops -> c_align c = true -> nth_error (c_strms c) i = Some t ->
  exists out ccs l,
    contents (q_slots (s_q (run c (init c) ops))) = Some out /\
    demux (t_pid t) out = Some (ccs, l) /\
    concat (map (fun r => p_data (snd r)) l) = h_data (pushed i ops) /\
    starts 0 l = map fst (h_frames (pushed i ops)).
Proof.
  intros c ops i t Hc Hf Ha Ht.
  destruct (player c ops Hc Hf) as (out & ps & Ho & _ & _ & H).
  destruct (H i t Ht) as (ccs & l & Hd & _ & _ & Hb & Hg).
  exists out, ccs, l. split; [exact Ho|]. split; [exact Hd|]. split; [exact Hb|].
  clear - Ha Hg. revert Hg. generalize (h_marks (pushed i ops)), (h_frames (pushed i ops)), 0.
  intros marks. induction l as [|r l IH]; intros ss off Hg; destruct ss as [|[pos f] ss];
    cbn [good_all starts map fst] in *; try contradiction; [reflexivity|].
  destruct Hg as [Hg Hr]. destruct r as [pcr p].
  destruct Hg as (_ & _ & _ & _ & _ & _ & G1 & G2).
  rewrite (G1 (G2 Ha)). f_equal. rewrite <- (G1 (G2 Ha)). exact (IH _ _ Hr).
Qed.
Print Assumptions C78_one_pes_per_frame.

Example C78_aligned_ex :
  (short 257 (q_slots (s_q (run (av false true) (init (av false true)) av_ops))),
   map fst (h_frames (pushed 1 av_ops))) =
  (Some ([0; 1; 2; 3; 4; 5; 6; 7; 8; 9; 10; 11; 12; 13; 14; 15],
         [(None, 368, true, 10090, None, 360%nat); (None, 508, true, 11090, None, 500%nat)]),
   [0; 360]).
Proof. vm_compute. reflexivity. Qed.

(* The counters of audio and video start from zero in every segment
   (mpegts_encoder_filter.c:1368-1374), and go on from segment to segment. *)
Theorem C78_counters_continue : forall c1 c2 ops1 ops2 i1 i2 t,
  good_conf c1 -> good_conf c2 -> finished c1 ops1 -> finished c2 ops2 ->
  nth_error (c_strms c1) i1 = Some t -> nth_error (c_strms c2) i2 = Some t ->
  is_other t = false -> t_cc0 t = 0 -> h_frames (pushed i1 ops1) <> [] ->
  exists out1 out2 ccs1 ccs2 l1 l2,
    contents (q_slots (s_q (run c1 (init c1) ops1))) = Some out1 /\
    contents (q_slots (s_q (run c2 (init c2) ops2))) = Some out2 /\
    demux (t_pid t) out1 = Some (ccs1, l1) /\
    demux (t_pid t) out2 = Some (ccs2, l2) /\
    counts 0 (ccs1 ++ ccs2).
Proof.
  intros c1 c2 ops1 ops2 i1 i2 t Hc1 Hc2 Hf1 Hf2 Ht1 Ht2 Ho Hz Hn.
  destruct (player c1 ops1 Hc1 Hf1) as (out1 & ps1 & Ho1 & _ & _ & H1).
  destruct (player c2 ops2 Hc2 Hf2) as (out2 & ps2 & Ho2 & _ & _ & H2).
  destruct (H1 i1 t Ht1) as (ccs1 & l1 & Hd1 & Hk1 & He1 & _ & Hg1).
  destruct (H2 i2 t Ht2) as (ccs2 & l2 & Hd2 & Hk2 & _).
  exists out1, out2, ccs1, ccs2, l1, l2.
  split; [exact Ho1|]. split; [exact Ho2|]. split; [exact Hd1|]. split; [exact Hd2|].
  assert (Hl : l1 <> []).
  { intros ->. destruct (h_frames (pushed i1 ops1)); [congruence|exact Hg1]. }
  specialize (He1 Ho Hl). rewrite Hz in *.
  assert (Hmod : forall l x y, x mod 16 = y mod 16 -> counts x l -> counts y l).
  { clear. induction l as [|a l IH]; intros x y E; cbn [counts]; [auto|]. intros [A B].
    split; [congruence|]. apply (IH (x + 1)); [|exact B].
    rewrite Z.add_mod, E, <- Z.add_mod by lia. reflexivity. }
  assert (Happ : forall a x, counts x a -> counts (x + Z.of_nat (length a)) ccs2 ->
    counts x (a ++ ccs2)).
  { clear. induction a as [|b a IH]; intros x A B; cbn [counts app length] in *.
    - rewrite Z.add_0_r in B. exact B.
    - destruct A as [A1 A2]. split; [exact A1|]. apply IH; [exact A2|].
      replace (x + 1 + Z.of_nat (length a)) with (x + Z.of_nat (S (length a))) by lia.
      exact B. }
  apply Happ; [exact Hk1|]. apply (Hmod _ 0); [|exact Hk2].
  rewrite Z.add_0_l in *. rewrite He1. reflexivity.
Qed.
Print Assumptions C78_counters_continue.

(* Metadata starts from the number of the segment, whatever the segment before it
   had (line 1373): when the metadata of a segment needs two packets, the counter of
   the second is used again. *)
Definition id3 (segment : Z) : strm := Strm Other 258 189 false (segment mod 16).
Definition id3_ops : list op :=
  [OStart 0 (Frame 1000 1000 300 0); OWrite 0 (bytes 7 300); OFlush 0 true].

Theorem C78_metadata_counters_refuted :
  exists c1 c2 ops,
    c_strms c1 = [id3 5] /\ c_strms c2 = [id3 6] /\
    good_conf c1 /\ good_conf c2 /\ finished c1 ops /\ finished c2 ops /\
    short 258 (q_slots (s_q (run c1 (init c1) ops))) =
      Some ([5; 6], [(None, 308, true, 10090, None, 300%nat)]) /\
    short 258 (q_slots (s_q (run c2 (init c2) ops))) =
      Some ([6; 7], [(None, 308, true, 10090, None, 300%nat)]).
Proof.
  exists (Conf false true [id3 5]), (Conf false true [id3 6]), id3_ops.
  split; [reflexivity|]. split; [reflexivity|].
  split; [apply nodup_pids; vm_compute; reflexivity|].
  split; [apply nodup_pids; vm_compute; reflexivity|].
  split; [apply (done_all _ _ [Done]); vm_compute; reflexivity|].
  split; [apply (done_all _ _ [Done]); vm_compute; reflexivity|].
  split; vm_compute; reflexivity.
Qed.
Print Assumptions C78_metadata_counters_refuted.

(* The header of a frame is zero for audio that is not AAC (mpegts_muxer.c:585, and
   no filter changes it).  Without alignment the PES header of the second frame is
   then put in front of the PES header of the first one, which is in the same packet:
   a player gets a single PES packet, with the header of the other one as data. *)
Definition with_header (h : Z) (o : op) : op :=
  match o with OStart i f => OStart i (Frame (f_pts f) (f_dts f) (f_size f) h) | _ => o end.
Definition mp3_ops : list op :=
  [OStart 0 (Frame 1000 1000 100 0); OWrite 0 (bytes 2 100); OFlush 0 false;
   OStart 0 (Frame 2000 2000 100 0); OWrite 0 (bytes 4 100); OFlush 0 true].

Theorem C78_no_header_unaligned_refuted :
  exists c ops,
    good_conf c /\ c_align c = false /\ finished c (map (with_header 1) ops) /\
    Forall (fun o => with_header 0 o = o) ops /\
    short 257 (q_slots (s_q (run c (init c) ops))) =
      Some ([0; 1; 2; 3; 4; 5; 6; 7; 8; 9; 10; 11; 12; 13; 14; 15],
            [(None, 222, false, 11090, None, 214%nat)]) /\
    length (h_data (pushed 0 ops)) = 200%nat /\ length (h_frames (pushed 0 ops)) = 2%nat.
Proof.
  exists (Conf false false [audio]), mp3_ops.
  split; [apply nodup_pids; vm_compute; reflexivity|].
  split; [reflexivity|].
  split; [apply (done_all _ _ [Done]); vm_compute; reflexivity|].
  split; [repeat constructor|].
  split; [vm_compute; reflexivity|]. split; vm_compute; reflexivity.
Qed.
Print Assumptions C78_no_header_unaligned_refuted.

(* ------------------------------------------------------------------ *)
(* C79: the size that is announced is the size that is sent             *)

(* The simulation makes the same calls in advance, knowing only sizes; it comes to
   the number of packets that are made. *)
Theorem C79_announced_size : forall c ops,
  good_conf c -> finished c ops ->
  q_count (z_q (sim_run c (sim_init c) ops)) =
  Z.of_nat (length (q_slots (s_q (run c (init c) ops)))).
Proof. exact size_is. Qed.
Print Assumptions C79_announced_size.

Example C79_ex :
  map (fun c => (q_count (z_q (sim_run c (sim_init c) av_ops)),
                 length (q_slots (s_q (run c (init c) av_ops)))))
    [av false false; av true false; av true true; Conf true true [id3 3]] =
  [(32, 32%nat); (32, 32%nat); (32, 32%nat); (7, 7%nat)].
Proof. vm_compute. reflexivity. Qed.

(* ------------------------------------------------------------------ *)
(* C80: what was sent is not changed any more                           *)

(* The packets that may be sent after some calls are complete, and no later call
   changes them. *)
Theorem C80_sent_is_final : forall c ops1 ops2 ps n,
  good_conf c -> phases c (ops1 ++ ops2) = Some ps ->
  (n < send_limit (run c (init c) ops1))%nat ->
  exists j b,
    nth_error (q_slots (s_q (run c (init c) ops1))) n = Some (j, Some b) /\
    nth_error (q_slots (s_q (run c (init c) (ops1 ++ ops2)))) n = Some (j, Some b).
Proof. exact sent_final. Qed.
Print Assumptions C80_sent_is_final.

(* A frame in the works holds back what comes after the last packet of its stream. *)
Example C80_ex :
  map (fun k => let s := run (av true true) (init (av true true)) (firstn k av_ops) in
                (send_limit s, length (q_slots (s_q s)))) [5; 8; 10; 11; 13; 14]%nat =
  [(0, 2); (5, 5); (4, 7); (18, 18); (1, 23); (32, 32)]%nat.
Proof. vm_compute. reflexivity. Qed.
