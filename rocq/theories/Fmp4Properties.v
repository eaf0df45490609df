(* C84-C89: the fragmented mp4 segments of the packager.  See Fmp4Spec.v for the player. *)

From Coq Require Import ZArith List Bool Lia.
From Verif Require Import Lists Bytes Fmp4Model Fmp4Spec Fmp4Proofs Fmp4Proofs2 Fmp4Proofs3
  Fmp4Proofs4 Fmp4Proofs5 Fmp4Proofs6.
Import ListNotations.
Open Scope Z_scope.

(* C84: of each track a player gets all frames in their order, with their bytes, their
   presentation times, durations and sync flags, however the tracks are interleaved; the
   tracks have the ids 1, 2, ... *)
Theorem C84_player_gets_tracks : forall mem s, good_segm s ->
  exists total body,
    plain_segment mem s = Ok (total, body) /\
    demux body =
    Some (combine (map Z.of_nat (seq 1 (length (s_tracks s)))) (map (expected mem) (s_tracks s))).
Proof.
  intros mem s G. destruct (plain_ok mem s G) as (h & ys & body & P & _ & D & _). eauto.
Qed.
Print Assumptions C84_player_gets_tracks.

(* C85: the announced size is the size of the body, and it is the same when only the size
   is asked for. *)
Theorem C85_announced_size : forall mem s, good_segm s ->
  exists total body,
    plain_segment mem s = Ok (total, body) /\ total = zlen body /\
    build_header s 1 no_ext true = Ok ([], total).
Proof.
  intros mem s G. destruct (plain_ok mem s G) as (h & ys & body & P & S & _). eauto 6.
Qed.
Print Assumptions C85_announced_size.

(* C86: in a segment of one track, the segment index says how many bytes there are from
   the moof to the end, when the first frame is shown, and how long all frames last. *)
Theorem C86_segment_index : forall mem s t total body,
  good_segm s -> s_tracks s = [t] -> durations (t_frames t) < 2 ^ 32 ->
  plain_segment mem s = Ok (total, body) ->
  exists front rest,
    body = front ++ rest /\ slice 4 4 rest = MOOF /\
    sidx_says body =
    Some (zlen rest, match expected mem t with w :: _ => w_pts w | [] => t_dts t end,
          durations (t_frames t)).
Proof. intros mem s t total_ body G E D P. exact (sidx_plain mem s t body total_ G E D P). Qed.
Print Assumptions C86_segment_index.

(* A segment of a video and an audio track. *)
Definition mem0 (a : Z) : Z := a mod 251.
Definition video0 : track :=
  Track Video 90000 880000
    [Fr 30 true 3000 3000; Fr 7 false 33000 9000; Fr 5 false 3000 0; Fr 0 false 3000 3000] 1000 42.
Definition audio0 : track :=
  Track Audio 90000 890000
    [Fr 4 true 11000 0; Fr 6 true 11000 0; Fr 5 true 31000 0; Fr 3 true 40000 0] 2000 18.
Definition segm0 : segm := Segm 7 [video0; audio0] [104; 105].
Definition segm1 : segm := Segm 8 [video0] [].

Lemma segm0_good : good_segm segm0.
Proof.
  split; [|vm_compute; reflexivity]. unfold segm0. cbn [s_tracks].
  constructor; [|constructor; [|constructor]].
  - split; [|split; [vm_compute; discriminate|split; [|vm_compute; split; [discriminate|reflexivity]]]];
      cbn [video0 t_frames]; repeat constructor; vm_compute; congruence.
  - split; [|split; [vm_compute; discriminate|vm_compute; split; [discriminate|reflexivity]]];
      cbn [audio0 t_frames]; repeat constructor; vm_compute; congruence.
Qed.

Lemma segm1_good : good_segm segm1.
Proof.
  split; [|vm_compute; reflexivity]. unfold segm1. cbn [s_tracks]. constructor; [|constructor].
  split; [|split; [vm_compute; discriminate|split; [|vm_compute; split; [discriminate|reflexivity]]]];
    cbn [video0 t_frames]; repeat constructor; vm_compute; congruence.
Qed.

(* The frames are stored in this order, so there are two runs of video and three of audio. *)
Example C84_ex_order : map fst (frames_of segm0) = [1; 1; 0; 0; 1; 0; 0; 1]%nat.
Proof. vm_compute. reflexivity. Qed.

Example C84_ex :
  match plain_segment mem0 segm0 with
  | Ok (total, body) => (total, zlen body, demux body)
  | Err => (0, 0, None)
  end = (487, 487, Some [(1, expected mem0 video0); (2, expected mem0 audio0)]).
Proof. vm_compute. reflexivity. Qed.

Example C84_ex_shown :
  map (fun w => (w_pts w, w_dur w, w_sync w, length (w_data w))) (expected mem0 video0) =
  [(883000, 3000, Some true, 30%nat); (892000, 33000, Some false, 7%nat);
   (916000, 3000, Some false, 5%nat); (922000, 3000, Some false, 0%nat)].
Proof. vm_compute. reflexivity. Qed.

Example C86_ex :
  match plain_segment mem0 segm1 with
  | Ok (total, body) => (zlen body, sidx_says body)
  | Err => (0, None)
  end = (274, Some (206, 883000, 42000)).
Proof. vm_compute. reflexivity. Qed.

(* C87: the times of WebVTT cues.  A cue that follows another one in the segment is
   shown too late: the durations in the run already put it after the cues before it, and
   the time between the cues is added again (mp4_muxer.c:253-260 and 426-501).  Here the
   second cue should be shown at 93000. *)
Definition cues0 : track :=
  Track Webvtt 1000 90000 [Fr 5 true 3000 2000; Fr 6 true 0 1500] 3000 11.

Theorem C87_second_cue_time_refuted :
  ~ (forall mem s,
       Forall (fun t => t_type t = Webvtt /\ 0 <= t_dts t < 2 ^ 31 /\ sizes (t_frames t) <= t_len t /\
                 (length (t_frames t) <= 2)%nat /\
                 Forall (fun f => 0 <= f_size f < 1000 /\ 0 <= f_dur f < 10000 /\ 0 <= f_delay f < 10000)
                   (t_frames t)) (s_tracks s) ->
       length (s_tracks s) = 1%nat -> s_meta s = [] ->
       exists total body, plain_segment mem s = Ok (total, body) /\
         demux body = Some (combine (map Z.of_nat (seq 1 (length (s_tracks s))))
                                    (map (expected mem) (s_tracks s)))).
Proof.
  intro H. destruct (H mem0 (Segm 1 [cues0] [])) as (total & body & P & D).
  - constructor; [|constructor]. cbn. repeat constructor; cbn; lia.
  - reflexivity.
  - reflexivity.
  - assert (E : match plain_segment mem0 (Segm 1 [cues0] []) with
                | Ok (_, b) => match demux b with
                               | Some [(_, [_; w])] => Some (w_pts w)
                               | _ => None
                               end
                | Err => None
                end = Some 95000) by (vm_compute; reflexivity).
    rewrite P, D in E. vm_compute in E. discriminate E.
Qed.
Print Assumptions C87_second_cue_time_refuted.

(* The first cue is shown when it should be. *)
Theorem C87_one_cue_partial : forall mem s,
  good_segm s -> Forall (fun t => t_type t = Webvtt /\ (length (t_frames t) <= 1)%nat) (s_tracks s) ->
  exists total body, plain_segment mem s = Ok (total, body) /\
    demux body = Some (combine (map Z.of_nat (seq 1 (length (s_tracks s))))
                               (map (expected mem) (s_tracks s))).
Proof. intros mem s G _. exact (C84_player_gets_tracks mem s G). Qed.
Print Assumptions C87_one_cue_partial.

Example C87_ex :
  let t := Track Webvtt 1000 90000 [Fr 5 true 3000 2000] 3000 11 in
  match plain_segment mem0 (Segm 1 [t] []) with
  | Ok (total, body) => match demux body with
                        | Some [(1, [w])] => Some (w_pts w, w_dur w)
                        | _ => None end
  | Err => None
  end = Some (90000, 2000).
Proof. vm_compute. reflexivity. Qed.

(* C88: the tracks are together in the data.  The data is frames of the tracks one after
   the other (L has the number of the track, the frame, its decoding time and its
   address), each track in its order, and a frame is put before another one only if it is
   at most a quarter of a second later for each further track (q is the largest quarter
   of a second of the tracks). *)
Theorem C88_tracks_together : forall mem s q total body,
  good_segm s -> 0 <= q < 2 ^ 62 ->
  Forall (fun t => 0 <= t_scale t / 4 <= q /\ 0 <= t_dts t /\
            t_dts t + durations (t_frames t) < 2 ^ 63) (s_tracks s) ->
  plain_segment mem s = Ok (total, body) ->
  exists (h : list Z) (L : list (nat * (fr * Z * Z))),
    body = h ++ concat (map (fun p => bytes mem (snd (snd p)) (f_size (fst (fst (snd p))))) L) /\
    Forall (fun p => (fst p < length (s_tracks s))%nat) L /\
    (forall i t, nth_error (s_tracks s) i = Some t ->
       map snd (filter (fun p => Nat.eqb (fst p) i) L) =
       placed (t_dts t) (t_base t) (t_frames t)) /\
    (forall A x B y, L = A ++ x :: B -> In y B ->
       snd (fst (snd x)) <= snd (fst (snd y)) + q * (zlen (s_tracks s) - 1)).
Proof. intros mem s q total_ body G Hq F P. exact (interleaved mem s q total_ body G Hq F P). Qed.
Print Assumptions C88_tracks_together.

Example C88_ex :
  good_segm segm0 /\
  Forall (fun t => 0 <= t_scale t / 4 <= 22500 /\ 0 <= t_dts t /\
            t_dts t + durations (t_frames t) < 2 ^ 63) (s_tracks segm0).
Proof.
  split; [exact segm0_good|]. constructor; [|constructor; [|constructor]];
    (split; [split; vm_compute; discriminate|split; [vm_compute; discriminate|vm_compute; reflexivity]]).
Qed.

(* C89: the metadata of a segment is an event at the time of its first frame, whose id is
   the index of the segment and which has the text. *)
Theorem C89_metadata : forall mem s t ts total body,
  good_segm s -> s_tracks s = t :: ts -> t_frames t <> [] ->
  s_meta s <> [] -> zlen (s_meta s) + 11 < 2 ^ 28 ->
  0 <= t_dts t < 2 ^ 63 -> is_u32 (t_scale t) -> is_u32 (s_index s) ->
  plain_segment mem s = Ok (total, body) ->
  event_says body = Some (s_index s, t_dts t, t_scale t, s_meta s).
Proof.
  intros mem s t ts total_ body G E Nf Nm Hz Hd Hs Hi P.
  exact (event_plain mem s t ts total_ body G E Nf Nm Hz Hd Hs Hi P).
Qed.
Print Assumptions C89_metadata.

Example C89_ex :
  match plain_segment mem0 segm0 with Ok (_, body) => event_says body | Err => None end =
  Some (7, 880000, 90000, [104; 105]).
Proof. vm_compute. reflexivity. Qed.
