(* What the syncer is expected to do with the time stamps. *)
From Coq Require Import List ZArith Bool.
From Verif Require Import SyncerModel.
Import ListNotations.
Local Open Scope Z_scope.

(* the presentation time of a frame: the decode time, plus the delay on a video track *)
Definition pts_of (video : bool) (fr : frame) : Z := if video then fr_dts fr + fr_delay fr else fr_dts fr.

(* a frame that the syncer may sync on its own: audio and subtitles, and key frames of video *)
Definition syncable (video : bool) (fr : frame) : Prop := video = true -> fr_key fr = true.

(* out: the presentation time given out; created: the clock of the encoder *)
Definition within_drift (cf : conf) (out created : Z) : Prop :=
  created - f_back cf * f_scale cf <= out <= created + f_fwd cf * f_scale cf.
Definition within_reuse (cf : conf) (out created : Z) : Prop :=
  Z.abs (out - created) < f_reuse cf * f_scale cf.

(* the configured times fit in the unsigned multiplications *)
Definition conf_ok (cf : conf) : Prop :=
  0 <= f_jump_log cf /\ 0 <= f_jump cf /\ 0 <= f_back cf /\ 0 <= f_fwd cf /\ 0 <= f_reuse cf /\ 0 < f_scale cf /\
  f_jump_log cf * f_scale cf < 2 ^ 60 /\ f_jump cf * f_scale cf < 2 ^ 60 /\
  f_back cf * f_scale cf < 2 ^ 60 /\ f_fwd cf * f_scale cf < 2 ^ 60 /\ f_reuse cf * f_scale cf < 2 ^ 60.

Definition small (x : Z) : Prop := - 2 ^ 59 <= x <= 2 ^ 59.

(* --- the correction given to each frame of a track, newest first --- *)
Definition history := list (Z * Z).  (* frame id, correction *)

(* the correction given to the last frame before [next] *)
Definition before (h : history) (next : Z) : option Z := option_map snd (find (fun e => fst e <? next) h).

(* The life of a channel, with the history of track [i]: frames come with increasing frame ids,
   a reconnect goes back to a given frame id.  The first video frame after a reset is a key frame
   (the KMP input drops the others, C18); there are fewer than 2^32 syncs.
   With [strict] every reconnect finds a logged correction, or there never was a sync. *)
Inductive life (strict : bool) (cf : conf) (i : nat) : chan -> history -> Prop :=
| life_new : forall ts corr, (forall t, In t ts -> exists v, t = track_new v) ->
    life strict cf i (mk_chan corr 0 0 ts) []
| life_frame : forall c h t fr c' fr', life strict cf i c h -> nth_error (c_tracks c) i = Some t ->
    (forall e, In e h -> fst e < fr_id fr) -> 0 <= fr_id fr ->
    (t_last_pts t = INVALID -> syncable (t_video t) fr) -> c_seq c + 1 < 2 ^ 32 ->
    add_frame cf c i fr = SOk (c', fr') ->
    life strict cf i c' ((fr_id fr, fr_dts fr' - fr_dts fr) :: h)
| life_other : forall c h j fr c' fr', life strict cf i c h -> j <> i -> c_seq c + 1 < 2 ^ 32 ->
    add_frame cf c j fr = SOk (c', fr') -> life strict cf i c' h
| life_reset : forall c h j t, life strict cf i c h -> nth_error (c_tracks c) j = Some t ->
    life strict cf i (mk_chan (c_corr c) (c_count c) (c_seq c) (set_nth (c_tracks c) j (track_reset t))) h
| life_reconnect : forall c h t next pts dts t', life strict cf i c h -> nth_error (c_tracks c) i = Some t ->
    (strict = true -> get_log t next <> None \/ Forall (fun l => l_seq l = 0) (t_log t)) ->
    track_reconnect t next pts dts = SOk t' ->
    life strict cf i (mk_chan (c_corr c) (c_count c) (c_seq c) (set_nth (c_tracks c) i t'))
         (filter (fun e => fst e <? next) h)
| life_reconnect_other : forall c h j t next pts dts t', life strict cf i c h -> j <> i -> nth_error (c_tracks c) j = Some t ->
    track_reconnect t next pts dts = SOk t' ->
    life strict cf i (mk_chan (c_corr c) (c_count c) (c_seq c) (set_nth (c_tracks c) j t')) h.
