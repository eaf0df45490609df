(* The properties of the MPEG-TS muxer. *)

From Coq Require Import ZArith List Bool Lia ZifyBool.
From Verif Require Import Lists TsModel TsSpec MuxModel MuxSpec MuxProofs9.
Import ListNotations.
Open Scope Z_scope.

(* ------------------------------------------------------------------ *)
(* An example: video of two frames, audio of four, a metadata frame      *)

Definition unit_of (h : Z) (n : nat) : list Z := [0; 0; Z.of_nat n / 256; Z.of_nat n mod 256] ++ h :: repeat (h + 1) (n - 1).
Definition ex_extra : list Z := [0; 0; 0; 1; 103; 100; 31; 0; 0; 0; 1; 104; 238].
(* A delimiter, a key picture; another picture in two units.  The reads cut a length. *)
Definition ex_key : iframe :=
  Iframe 327 true 3000 600 [firstn 8 (unit_of 9 2 ++ unit_of 101 317); skipn 8 (unit_of 9 2 ++ unit_of 101 317)].
Definition ex_pic : iframe :=
  Iframe 200 false 3000 0 [unit_of 65 40 ++ firstn 3 (unit_of 65 152); skipn 3 (unit_of 65 152)].
Definition ex_aac (n : nat) : iframe := Iframe (Z.of_nat n * 5) true 1920 0 [repeat 7 n; repeat 8 (n * 4)].
Definition ex_text : iframe := Iframe 11 true 0 0 [[123; 34; 97; 34; 58; 34; 98; 34; 125; 32; 32]].

Definition ex_chans : list chan :=
  [Chan (Strm Video 256 224 true 0) (TVideo (avc 4 ex_extra)) 90000 (ex_key :: repeat ex_pic 18);
   Chan (Strm Audio 257 192 false 5) (TAac (Aconf 2 3 2)) 71000 (map ex_aac (seq 1 48));
   Chan (Strm Other 258 189 false 0) TId3 91000 [ex_text]].

Lemma ex_conf inter align : good_conf (conf_of inter align ex_chans).
Proof.
  split; cbn.
  - repeat constructor; cbn; lia.
  - repeat constructor; cbn; lia.
Qed.

Lemma ex_good inter align : Forall (good_chan inter align) ex_chans.
Proof.
  assert (GF : forall fr, (1 <=? i_size fr) && (zlen (data_of fr) =? i_size fr) &&
    forallb (fun b => match b with [] => false | _ => true end) (i_chunks fr) = true -> good_frame fr).
  { intros fr H. apply andb_true_iff in H as [H H3]. apply andb_true_iff in H as [H1 H2].
    split; [lia|]. split; [lia|]. apply Forall_forall. intros x Hx ->. rewrite forallb_forall in H3. discriminate (H3 _ Hx). }
  assert (GL : forall l, forallb (fun fr => (1 <=? i_size fr) && (zlen (data_of fr) =? i_size fr) &&
    forallb (fun b => match b with [] => false | _ => true end) (i_chunks fr)) l = true -> Forall good_frame l).
  { intros l H. apply Forall_forall. intros fr Hfr. apply GF. rewrite forallb_forall in H. exact (H _ Hfr). }
  apply Forall_cons; [|apply Forall_cons; [|apply Forall_cons; [|constructor]]].
  - split; [apply GL; vm_compute; reflexivity|].
    split; [|discriminate]. cbn [good_top ch_top ch_strm t_kind]. split; [reflexivity|]. split; [discriminate|].
    split; [cbn; lia|left; reflexivity].
  - split; [apply GL; vm_compute; reflexivity|].
    split.
    + cbn [good_top ch_top ch_strm t_kind ac_object ac_rate ac_chan]. do 4 (split; [try reflexivity; lia|]).
      apply Forall_forall. intros fr Hfr. apply in_map_iff in Hfr as (n & <- & Hn). apply in_seq in Hn. cbn [ex_aac i_size]. lia.
    + intros _ _ _ a x b y c E _ _. assert (HS : forall (l : list (iframe * Z)) a b, Forall (fun p => 0 <= i_size (fst p)) (a ++ l ++ b) ->
        fold_right (fun p n => i_size (fst p) + 7 + n) 0 l <= fold_right (fun p n => i_size (fst p) + 7 + n) 0 (a ++ l ++ b)).
      { clear. intros l a b H. rewrite !fold_right_app. apply Forall_app in H as [H1 H2]. apply Forall_app in H2 as [H2 H3].
        set (g := fun (p : iframe * Z) n => i_size (fst p) + 7 + n) in *.
        assert (Hge : forall z, Forall (fun p : iframe * Z => 0 <= i_size (fst p)) z -> forall s, s <= fold_right g s z).
        { intros z Hz. induction Hz as [|p z Hp Hz IH]; intros s; cbn [fold_right]; [lia|]. specialize (IH s). unfold g at 1. lia. }
        assert (Hmono : forall z s t, s <= t -> fold_right g s z <= fold_right g t z).
        { induction z as [|p z IH]; intros s t Hs; cbn [fold_right]; [exact Hs|]. specialize (IH s t Hs). unfold g at 1 3. lia. }
        etransitivity; [|apply Hge; exact H1]. apply Hmono. apply Hge. exact H3. }
      etransitivity; [apply (HS (x :: b) a c)|]; rewrite <- E.
      * apply Forall_forall. intros y0 Hy. assert (HB : forallb (fun p => 0 <=? i_size (fst p)) (timed 71000 (map ex_aac (seq 1 48))) = true)
          by (vm_compute; reflexivity). rewrite forallb_forall in HB. specialize (HB _ Hy). lia.
      * vm_compute. discriminate.
  - split; [apply GL; vm_compute; reflexivity|].
    split; [|discriminate]. cbn [good_top ch_top ch_strm t_kind ch_frames]. split; [reflexivity|]. split; [right; cbn; lia|].
    repeat constructor; cbn; lia.
Qed.

Lemma ex_readable : Forall readable ex_chans.
Proof.
  assert (U : forall h n l us, (1 <= n)%nat -> nal_frame 4 l us ->
    nal_frame 4 (unit_of h n ++ l) ((h :: repeat (h + 1) (n - 1)) :: us)).
  { intros h n l us Hn H. unfold unit_of. rewrite <- app_assoc. constructor; [reflexivity| |discriminate|exact H].
    cbn [fold_left]. unfold zlen. cbn [length]. rewrite repeat_length.
    pose proof (Z.div_mod (Z.of_nat n) 256 ltac:(lia)). lia. }
  constructor; [|constructor; [exact I|constructor; [exact I|constructor]]].
  unfold readable. cbn [ch_top ch_frames avc vc_nal]. constructor; [|apply Forall_forall; intros fr Hfr; apply repeat_spec in Hfr; subst fr].
  - eexists. change (data_of ex_key) with (unit_of 9 2 ++ unit_of 101 317 ++ []).
    apply U; [lia|]. apply U; [lia|constructor].
  - eexists. change (data_of ex_pic) with (unit_of 65 40 ++ unit_of 65 152 ++ []).
    apply U; [lia|]. apply U; [lia|constructor].
Qed.

(* ------------------------------------------------------------------ *)
(* C81: the size of a segment                                           *)

(* Whenever a segment is muxed after a simulation, as many bytes are sent as were
   announced: 188 for the PAT, the PMT and every packet of the encoder. *)
Theorem C81_content_length : forall inter align chs s ops,
  good_conf (conf_of inter align chs) -> Forall (good_chan inter align) chs ->
  supported chs = true ->
  segment inter align chs = Some (s, ops) ->
  announced inter align chs = 188 * (2 + Z.of_nat (length (q_slots (s_q s)))).
Proof. exact size_announced. Qed.
Print Assumptions C81_content_length.

Example C81_ex :
  supported ex_chans = true /\
  map (fun x => (announced (fst x) (snd x) ex_chans,
                 option_map (fun r => length (q_slots (s_q (fst r)))) (segment (fst x) (snd x) ex_chans)))
    [(false, false); (false, true); (true, false); (true, true)] =
  [(14664, Some 76%nat); (17672, Some 92%nat); (14664, Some 76%nat); (17672, Some 92%nat)].
Proof. split; vm_compute; reflexivity. Qed.

(* ------------------------------------------------------------------ *)
(* C82: what a player gets                                              *)

(* A segment of well formed streams can be muxed, and every packet is of one of the
   streams.  The data that a demuxer finds for a stream is that of its frames, one
   after the other, as they have to be in MPEG-TS (Annex B with delimiters and
   parameter sets, ADTS, ID3); every PES packet has the clocks of a frame and the pts of the first
   frame that begins in it; video and metadata have a PES packet for each frame. *)
Theorem C82_segment : forall inter align chs,
  good_conf (conf_of inter align chs) -> Forall (good_chan inter align) chs -> Forall readable chs ->
  exists s ops out ps,
    segment inter align chs = Some (s, ops) /\
    contents (q_slots (s_q s)) = Some out /\
    parse_all out = Some ps /\
    Forall (fun p => In (x_pid p) (map (fun ch => t_pid (ch_strm ch)) chs)) ps /\
    forall i ch, nth_error chs i = Some ch ->
      exists es ccs l starts,
        Forall2 (encodes (ch_top ch)) (ch_frames ch) es /\
        demux (t_pid (ch_strm ch)) out = Some (ccs, l) /\
        counts (t_cc0 (ch_strm ch)) ccs /\
        (t_kind (ch_strm ch) <> Other -> l <> [] ->
         (t_cc0 (ch_strm ch) + Z.of_nat (length ccs)) mod 16 = 0) /\
        concat (map (fun r => p_data (snd r)) l) = concat es /\
        good_all (conf_of inter align chs) (ch_strm ch)
          (marks_of (begins 0 (timed (ch_dts ch) (ch_frames ch)) es)) 0 l starts /\
        sublist (map (fun x => (fst x, (f_pts (snd x), f_dts (snd x)))) starts)
          (begins 0 (timed (ch_dts ch) (ch_frames ch)) es) /\
        (t_kind (ch_strm ch) <> Audio ->
         map (fun x => (fst x, (f_pts (snd x), f_dts (snd x)))) starts =
         begins 0 (timed (ch_dts ch) (ch_frames ch)) es).
Proof.
  intros inter align chs H1 H2 H3.
  destruct (player_gets inter align chs H1 H2 H3) as (s & ops & out & ps & A1 & A2 & A3 & A4 & A5).
  exists s, ops, out, ps. split; [exact A1|]. split; [exact A2|]. split; [exact A3|].
  split; [cbn [conf_of c_strms] in A4; rewrite map_map in A4; exact A4|].
  intros i ch Hi. destruct (A5 i ch Hi) as (es & ccs & l & st & B1 & B2 & B3 & B4 & B5 & B6 & B7 & B8).
  exists es, ccs, l, st. do 3 (split; [assumption|]).
  split; [intros Hk; apply B4; unfold is_other; destruct (t_kind (ch_strm ch)); congruence|].
  do 3 (split; [assumption|]). intros Hk. apply B8. unfold merged. destruct (t_kind (ch_strm ch)); congruence.
Qed.
Print Assumptions C82_segment.

(* Number of packets, and pts, dts and size of the PES packets. *)
Definition ex_short (inter align : bool) (pid : Z) :=
  match segment inter align ex_chans with
  | Some (s, _) =>
      match contents (q_slots (s_q s)) with
      | Some out =>
          match demux pid out with
          | Some (ccs, l) => Some (length ccs, map (fun r => (p_pts (snd r), p_dts (snd r), length (p_data (snd r)))) l)
          | None => None
          end
      | None => None
      end
  | None => None
  end.


Definition first3 (r : option (nat * list (Z * option Z * nat))) :=
  match r with Some (n, l) => Some (n, length l, firstn 3 l) | None => None end.

(* Audio is collected: 3 and 2 PES packets for 48 frames. *)
Example C82_ex :
  map (fun pid => first3 (ex_short false true pid)) [256; 257; 258] =
  [Some (48%nat, 19%nat, [(99690, Some 99090, 346%nat); (102090, Some 102090, 206%nat);
                          (105090, Some 105090, 206%nat)]);
   Some (43%nat, 3%nat, [(80090, None, 981%nat); (114650, None, 2414%nat); (147290, None, 2821%nat)]);
   Some (1%nat, 1%nat, [(100090, None, 32%nat)])] /\
  map (fun pid => first3 (ex_short true false pid)) [256; 257; 258] =
  [Some (32%nat, 19%nat, [(99690, Some 99090, 341%nat); (102090, Some 102090, 157%nat);
                          (105090, Some 105090, 157%nat)]);
   Some (43%nat, 2%nat, [(80090, None, 2930%nat); (143450, None, 3286%nat)]);
   Some (1%nat, 1%nat, [(100090, None, 32%nat)])].
Proof. split; vm_compute; reflexivity. Qed.

Example C82_ex_hyps : forall inter align,
  good_conf (conf_of inter align ex_chans) /\ Forall (good_chan inter align) ex_chans /\ Forall readable ex_chans.
Proof. intros inter align. split; [apply ex_conf|]. split; [apply ex_good|exact ex_readable]. Qed.

(* ------------------------------------------------------------------ *)
(* C83: the streams are together                                        *)

(* When a frame of video or metadata with dts d begins, the encoder has been given, of
   every other stream, its first n frames and nothing else; these have a dts of at most
   d, and the others of at least d - 31500 (0.35 seconds). *)
Theorem C83_streams_together : forall inter align chs s ops i chi,
  Forall (good_chan inter align) chs -> Forall readable chs ->
  Forall (fun ch => Forall (fun fr => 0 <= i_dur fr) (ch_frames ch)) chs ->
  segment inter align chs = Some (s, ops) ->
  nth_error chs i = Some chi -> t_kind (ch_strm chi) <> Audio ->
  forall a f b, ops = a ++ OStart i f :: b ->
  forall j ch, j <> i -> nth_error chs j = Some ch ->
  exists es n,
    Forall2 (encodes (ch_top ch)) (ch_frames ch) es /\
    h_data (pushed j a) = concat (firstn n es) /\
    Forall (fun x => snd x <= f_dts f) (firstn n (timed (ch_dts ch) (ch_frames ch))) /\
    Forall (fun x => f_dts f - 31500 <= snd x) (skipn n (timed (ch_dts ch) (ch_frames ch))).
Proof.
  intros inter align chs s ops i chi HG HR HD ES Hi Hk a f b EQ j ch Hne Hj.
  assert (Hm : merged chi = false) by (unfold merged; destruct (t_kind (ch_strm chi)); congruence).
  destruct (segment_order inter align chs s ops i chi HG HD ES Hi Hm a f b EQ j ch Hne Hj) as (n & _ & H1 & H2 & H3).
  exists (map (enc (ch_top ch)) (timed (ch_dts ch) (ch_frames ch))), n.
  split; [|auto]. rewrite Forall_forall in HG, HR. pose proof (nth_error_In _ _ Hj) as Hin.
  destruct (HG _ Hin) as (G1 & G2 & _). exact (enc_encodes _ _ ch G1 G2 (HR _ Hin)).
Qed.
Print Assumptions C83_streams_together.

(* The starts of video frames, and the bytes of audio and metadata before them. *)
Fixpoint ex_before (done rest : list op) : list (Z * Z * Z) :=
  match rest with
  | [] => []
  | OStart O f :: rest =>
      (f_dts f, zlen (h_data (pushed 1 done)), zlen (h_data (pushed 2 done))) ::
      ex_before (done ++ [OStart O f]) rest
  | o :: rest => ex_before (done ++ [o]) rest
  end.

Example C83_ex :
  option_map (fun r => ex_before [] (snd r)) (segment false true ex_chans) =
  Some
    [(90000, 0, 0); (93000, 0, 32); (96000, 0, 32); (99000, 0, 32); (102000, 0, 32);
     (105000, 981, 32); (108000, 981, 32); (111000, 981, 32); (114000, 981, 32);
     (117000, 981, 32); (120000, 981, 32); (123000, 981, 32); (126000, 981, 32);
     (129000, 981, 32); (132000, 981, 32); (135000, 981, 32); (138000, 3395, 32);
     (141000, 3395, 32); (144000, 3395, 32)].
Proof. vm_compute. reflexivity. Qed.

Example C83_ex_hyps :
  Forall (fun ch => Forall (fun fr => 0 <= i_dur fr) (ch_frames ch)) ex_chans /\
  map (fun ch => t_kind (ch_strm ch)) ex_chans = [Video; Audio; Other].
Proof.
  assert (G : forall l, forallb (fun fr => 0 <=? i_dur fr) l = true -> Forall (fun fr => 0 <= i_dur fr) l).
  { intros l H. apply Forall_forall. intros fr Hfr. rewrite forallb_forall in H. specialize (H _ Hfr). lia. }
  split; [|reflexivity]. repeat (apply Forall_cons; [apply G; vm_compute; reflexivity|]). constructor.
Qed.
