(* Model of nginx-live-module/src/ngx_live_syncer.c: the corrections added to the time stamps of
   the frames of a channel.

   int64_t arithmetic that leaves the range, and a division by 0, are SUB.  Not modelled: the log
   messages and pts_jump_time, which only limits them; the statistics in JSON; the persist blocks. *)
From Coq Require Import List ZArith Bool.
Import ListNotations.
Local Open Scope Z_scope.

Definition LLONG_MIN : Z := - 2 ^ 63.
(* nginx-common/src/ngx_ksmp.h:71 and ngx_live_channel.h:28: LLONG_MAX *)
Definition INVALID : Z := 2 ^ 63 - 1.
(* ngx_live_syncer.c:10 NGX_LIVE_SYNCER_LOG_COUNT *)
Definition LOG_COUNT : nat := 3.

Definition chk (x : Z) : option Z := if (- 2 ^ 63 <=? x) && (x <? 2 ^ 63) then Some x else None.
Definition u64 (x : Z) : Z := x mod 2 ^ 64.
Definition i64 (x : Z) : Z := (x + 2 ^ 63) mod 2 ^ 64 - 2 ^ 63.
Notation "'do' x <- e ; f" := (match e with None => None | Some x => f end) (at level 200, x name, e at level 100, f at level 200).

(* ngx_live_syncer.c:21-31 ngx_live_syncer_preset_conf_t, in seconds, and channel->timescale *)
Record conf := mk_conf { f_jump_log : Z; f_jump : Z; f_sync_frames : Z; f_back : Z; f_fwd : Z; f_reuse : Z; f_scale : Z }.
(* ngx_live_syncer.c:34-38 ngx_live_syncer_log_t *)
Record slog := mk_slog { l_frame : Z; l_corr : Z; l_seq : Z }.
(* ngx_live_syncer.c:41-50 ngx_live_syncer_track_ctx_t, and track->media_type *)
Record trk := mk_trk {
  t_video : bool; t_last_pts : Z; t_last_dts : Z; t_corr : Z; t_force : Z; t_count : Z;
  t_log : list slog; t_index : nat }.
(* ngx_live_syncer.c:53-57 ngx_live_syncer_channel_ctx_t, and the tracks of the channel *)
Record chan := mk_chan { c_corr : Z; c_count : Z; c_seq : Z; c_tracks : list trk }.

(* kmp_frame_t, with the frame id of the event *)
Record frame := mk_frame { fr_id : Z; fr_created : Z; fr_dts : Z; fr_delay : Z; fr_key : bool; fr_split : bool }.

Inductive sres (A : Type) := SOk (a : A) | SUB.
Arguments SOk {A} _.
Arguments SUB {A}.

Definition set_nth {A} (l : list A) (i : nat) (x : A) : list A :=
  if Nat.ltb i (length l) then firstn i l ++ x :: skipn (S i) l else l.

(* ngx_live_syncer.c:192-212 ngx_live_syncer_log_add; [seq] is the sequence after the increment *)
Definition log_add (t : trk) (seq frame_id : Z) : trk :=
  let index := S (t_index t) in
  mk_trk (t_video t) (t_last_pts t) (t_last_dts t) (t_corr t) (t_force t) (t_count t)
    (set_nth (t_log t) (t_index t) (mk_slog frame_id (t_corr t) seq))
    (if Nat.leb LOG_COUNT index then 0%nat else index).

(* ngx_live_syncer.c:215-235 ngx_live_syncer_enable_sync_flag; the tracks are those other than
   number [skip] *)
Definition set_force (n : Z) (t : trk) : trk :=
  mk_trk (t_video t) (t_last_pts t) (t_last_dts t) (t_corr t) n (t_count t) (t_log t) (t_index t).
Definition enable_sync (ts : list trk) (skip : nat) (n : Z) : list trk :=
  map (fun it => if Nat.eqb (fst it) skip then snd it else set_force n (snd it)) (combine (seq 0 (length ts)) ts).

(* ngx_live_syncer.c:16-17 ngx_live_syncer_wraparound_value: timescale is unsigned *)
Definition wrap_value (scale : Z) : Z := u64 (2 ^ 32 * (scale / 1000)).

(* ngx_live.h:37,40 ngx_round_to_multiple of a signed number and the unsigned wrap around value:
   the sum is unsigned *)
Definition round_multiple (n m : Z) : option Z :=
  if m =? 0 then None else Some (u64 (u64 (u64 n + m / 2) / m * m)).

(* ngx_live_syncer.c:238-307 ngx_live_syncer_sync_track of track [i], whose context is [t] *)
Definition sync_track (cf : conf) (c : chan) (i : nat) (t : trk) (pts created frame_id sync_frames min_corr : Z)
  : option (chan * trk) :=
  do tc0 <- chk (created - pts);
  let low := tc0 <? min_corr in
  let tc := if low then min_corr else tc0 in
  let force := if low then 0 else t_force t in
  do diff <- chk (tc - c_corr c);
  do r <- round_multiple diff (wrap_value (f_scale cf));
  let cc := i64 (c_corr c + r) in
  do d <- chk (cc - tc);
  do ad <- (if 0 <=? d then Some d else chk (- d));
  let reuse := (ad <? u64 (f_reuse cf * f_scale cf)) && (min_corr <=? cc) in
  let corr := if reuse then cc else tc in
  let tracks := if reuse then c_tracks c
                else if (force =? 0) && (0 <? sync_frames) then enable_sync (c_tracks c) i sync_frames
                else c_tracks c in
  let cseq := (c_seq c + 1) mod 2 ^ 32 in
  let t := mk_trk (t_video t) (t_last_pts t) (t_last_dts t) corr 0 ((t_count t + 1) mod 2 ^ 32) (t_log t) (t_index t) in
  Some (mk_chan (if reuse then c_corr c else tc) (if reuse then c_count c else (c_count c + 1) mod 2 ^ 32) cseq tracks,
        log_add t cseq frame_id).

(* ngx_live_syncer.c:424-431, the label done *)
Definition finish (c : chan) (i : nat) (t : trk) (pts : Z) (fr : frame) : sres (chan * frame) :=
  match chk (fr_dts fr + t_corr t) with
  | None => SUB
  | Some dts =>
      let t := mk_trk (t_video t) pts dts (t_corr t) (t_force t) (t_count t) (t_log t) (t_index t) in
      SOk (mk_chan (c_corr c) (c_count c) (c_seq c) (set_nth (c_tracks c) i t),
           mk_frame (fr_id fr) (fr_created fr) dts (fr_delay fr) (fr_key fr) (fr_split fr))
  end.

(* ngx_live_syncer.c:415-422, the label sync *)
Definition force_sync (cf : conf) (c : chan) (i : nat) (t : trk) (pts sync_frames : Z) (fr : frame) : sres (chan * frame) :=
  let fr := mk_frame (fr_id fr) (fr_created fr) (fr_dts fr) (fr_delay fr) (fr_key fr) true in
  match sync_track cf c i t pts (fr_created fr) (fr_id fr) sync_frames LLONG_MIN with
  | None => SUB
  | Some (c, t) => finish c i t pts fr
  end.

(* ngx_live.h:46-47 ngx_abs_diff *)
Definition abs_diff (a b : Z) : option Z := if b >? a then chk (b - a) else chk (a - b).

(* ngx_live_syncer.c:310-432 ngx_live_syncer_add_frame of track [i]; returns the frame as passed
   on *)
Definition add_frame (cf : conf) (c : chan) (i : nat) (fr : frame) : sres (chan * frame) :=
  match nth_error (c_tracks c) i with
  | None => SUB
  | Some t0 =>
      let t := if 1 <? t_force t0 then set_force (t_force t0 - 1) t0 else t0 in
      match (if t_video t then chk (fr_dts fr + fr_delay fr) else Some (fr_dts fr)) with
      | None => SUB
      | Some pts =>
          if t_video t && negb (fr_key fr) then
            match abs_diff pts (t_last_pts t) with
            | None => SUB
            | Some diff =>
                if (diff <=? u64 (f_jump_log cf * f_scale cf)) || (t_last_pts t =? INVALID) then finish c i t pts fr
                else if diff <=? u64 (f_jump cf * f_scale cf) then finish c i t pts fr
                else
                  match (if negb (t_last_dts t =? INVALID)
                         then do a <- chk (t_last_dts t + 1); chk (a - fr_dts fr)
                         else Some LLONG_MIN) with
                  | None => SUB
                  | Some min_corr =>
                      match sync_track cf c i t pts (fr_created fr) (fr_id fr) (f_sync_frames cf) min_corr with
                      | None => SUB
                      | Some (c, t) => finish c i t pts fr
                      end
                  end
            end
          else if t_force t =? 1 then force_sync cf c i t pts 0 fr
          else if t_last_pts t =? INVALID then force_sync cf c i t pts 0 fr
          else
            match (do b <- chk (f_back cf * f_scale cf); do lo <- chk (fr_created fr - b);
                   do o <- chk (pts + t_corr t); Some (o <? lo)) with
            | None => SUB
            | Some true => force_sync cf c i t pts (f_sync_frames cf) fr
            | Some false =>
                match (do b <- chk (f_fwd cf * f_scale cf); do hi <- chk (fr_created fr + b);
                       do o <- chk (pts + t_corr t); Some (o >? hi)) with
                | None => SUB
                | Some true => force_sync cf c i t pts (f_sync_frames cf) fr
                | Some false => finish c i t pts fr
                end
            end
      end
  end.

(* ngx_live_syncer.c:172-189 ngx_live_syncer_track_reset *)
Definition track_reset (t : trk) : trk :=
  mk_trk (t_video t) INVALID INVALID (t_corr t) 0 (t_count t) (t_log t) (t_index t).
Definition track_new (video : bool) : trk := track_reset (mk_trk video 0 0 0 0 0 (repeat (mk_slog 0 0 0) LOG_COUNT) 0).

(* ngx_live_syncer.c:537-565 ngx_live_syncer_get_log *)
Definition get_log (t : trk) (next : Z) : option slog :=
  fold_left (fun best cur =>
    if l_seq cur =? 0 then best
    else if next <=? l_frame cur then best
    else match best with
         | None => Some cur
         | Some b => if l_frame b <? l_frame cur then Some cur else best
         end) (t_log t) None.

(* ngx_live_syncer.c:568-584 ngx_live_syncer_remove_future_logs *)
Definition remove_future (logs : list slog) (next : Z) : list slog :=
  map (fun cur => if next <=? l_frame cur then mk_slog (l_frame cur) (l_corr cur) 0 else cur) logs.

(* ngx_live_syncer.c:785-829 ngx_live_syncer_track_reconnect; [next], [last_pts] and [last_dts] are
   track->next_frame_id, last_frame_pts and last_frame_dts, set by the segmenter *)
Definition track_reconnect (t : trk) (next last_pts last_dts : Z) : sres trk :=
  match get_log t next with
  | None => SOk (track_reset t)
  | Some l =>
      match (if last_pts =? INVALID then Some INVALID else chk (last_pts - l_corr l)) with
      | None => SUB
      | Some p => SOk (mk_trk (t_video t) p last_dts (l_corr l) 0 (t_count t) (remove_future (t_log t) next) (t_index t))
      end
  end.
