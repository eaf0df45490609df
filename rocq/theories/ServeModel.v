(* Model of the part of nginx-live-module/src/ngx_live_timeline.c that writes a timeline for the packager.

   The tree of the nodes of the segment list is a binary tree over their positions, as in SegListModel.v.  A
   block that is written is kept as its header and its list of durations with counts; the bytes are the matter of
   PersistModel.v.  Writing does not fail.  Numbers are unbounded, except where a definition says so. *)
From Coq Require Import List ZArith Bool.
From Verif Require Import SegListModel TimelineModel.
Import ListNotations.
Local Open Scope Z_scope.

(* nginx-common/src/ngx_ksmp.h ngx_ksmp_period_header_t, followed by ngx_ksmp_segment_repeat_t: (duration, count) *)
Record block := mk_sb { sb_time : Z; sb_index : Z; sb_elts : list (Z * Z) }.
(* nginx-common/src/ngx_ksmp.h:122-141 ngx_ksmp_timeline_header_t *)
Record header := mk_hd { hd_first_index : Z; hd_init_time : Z; hd_init_index : Z; hd_sequence : Z; hd_target : Z; hd_end : bool;
  hd_periods : Z; hd_skipped_periods : Z; hd_skipped_segs : Z; hd_last_skipped : Z }.
(* the members of ngx_live_track_t that are used: has_pending_segment, pending_index *)
Record track := mk_track { tr_pending : bool; tr_index : Z }.

(* ngx_live_timeline.c:3201-3255 ngx_live_timeline_serve_end_list; next_segment_index - 1 is not wrapped *)
Definition serve_end_list (h : channel) (t : timeline) (tk : option track) (max : Z) : option bool :=
  match mc_end (m_conf (t_m t)) with
  | EndOff => Some false
  | EndForced =>
      do (_, p) <- unsnoc (t_periods t);
      let last := p_key p + p_count p - 1 in
      Some (negb ((max <? ch_next h - 1) && (max <? last)))
  | EndOn =>
      do (_, p) <- unsnoc (t_periods t);
      let last := p_key p + p_count p - 1 in
      if max <? last then Some false
      else if ch_pending h && (last =? ch_last h) then Some false
      else
        let pending := match tk with Some k => tr_index k | None => 0 end in
        if ch_next h + pending <=? last then Some false else Some true
  end.

(* ngx_live_timeline.c:3363-3367 and 3552-3555: the last segment asked for is pending on the track *)
Definition pending_on (h : channel) (tk : option track) (max : Z) : bool :=
  match tk with Some k => tr_pending k && (ch_next h + tr_index k <=? max) | None => false end.

(* ngx_live_timeline.c:3378-3411, the loop over the periods, last one first: the period, the ones before it, the
   duration of what it has below the index, the numbers of periods and segments behind it, the duration from the
   index on *)
Fixpoint skip_pending (c : chlist) (nt : tree) (rps : list period) (max tp ts pd : Z) : option (period * list period * Z * Z * Z * Z) :=
  match rps with
  | [] => None
  | p :: r =>
      if p_key p + p_count p <=? max then Some (p, r, p_dur p, tp, ts, pd)
      else if max <? p_key p then skip_pending c nt r max (tp + 1) (ts + p_count p) (pd + p_dur p)
      else
        do (_, time) <- iter_init (cl_list c) nt max true;
        let d := time - p_time p in
        Some (p, r, d, tp, ts, pd + (p_dur p - d))
  end.
(* ngx_live_timeline.c:3419-3435, the loop that finds the first period to output *)
Fixpoint skip_back (r : list period) (p : period) (pdur out tp ts : Z) : option (period * list period * Z * Z * Z * Z) :=
  if pdur <? out then
    match r with
    | [] => None
    | p' :: r' => skip_back r' p' (p_dur p') (out - pdur) (tp + 1) (ts + p_count p)
    end
  else Some (p, r, pdur, out, tp, ts).

(* ngx_live.h:37-40 ngx_round_to_multiple *)
Definition round_to_multiple (n m : Z) : Z := (n + m / 2) / m * m.
(* ngx_live_timeline.c:3346-3350, the duration that has to be left *)
Definition output_duration (scale pct target : Z) : Z := pct * round_to_multiple target scale / 100.

(* ngx_live_timeline.c:3331-3488 ngx_live_timeline_serve_skip_segments: the period to start with, the pointer to
   the next one, and the header; inner None: nothing is skipped *)
Definition skip_segments (h : channel) (t : timeline) (nt : tree) (tk : option track) (max pct : Z) (hd : header)
  : option (option (period * option nat * header)) :=
  let c := ch_list h in
  let m := t_m t in
  let out := output_duration (ch_scale h) pct (m_target m) in
  if (m_dur m <=? out) || (out <=? 0) then Some None
  else
    let max := if pending_on h tk max then u32 (max - 1) else max in
    match skip_pending c nt (rev (t_periods t)) max 0 0 0 with
    | None => Some None
    | Some (p, r, pdur, tp, ts, pd) =>
        if m_dur m <=? out + pd then Some None
        else
          match skip_back r p pdur out tp ts with
          | None => Some None
          | Some (p, r, pdur, out, tp, ts) =>
              let time := p_time p + pdur - out in
              match get_segment_index (cl_list c) nt time false with
              | None => Some None
              | Some (it, index, otime) =>
                  do (_, nx) <- deref (t_periods t) (p_id p);
                  let count := p_key p + p_count p - index in
                  let sps := m_pcount m - tp - 1 in
                  let last :=
                    if p_key p <? index then index
                    else match r with [] => hd_last_skipped hd | q :: _ => p_key q + p_count q - 1 end in
                  let first := if sps =? 0 then (hd_first_index hd, hd_init_time hd, hd_init_index hd)
                               else (hd_first_index hd + sps, p_time p, p_key p) in
                  Some (Some (mk_period 0 index (to_abs (cl_base c) it) otime 0 0 count, nx,
                    mk_hd (fst (fst first)) (snd (fst first)) (snd first) (hd_sequence hd) (hd_target hd) (hd_end hd) (hd_periods hd)
                      sps (m_count m - ts - count) last))
              end
          end
    end.

(* ngx_live_timeline.c:3573-3600, the loop over the elements of the segment list *)
Fixpoint write_elts (fuel : nat) (c : chlist) (it : iter) (left : Z) : option (list (Z * Z)) :=
  match fuel with
  | O => None
  | S f =>
      do (d, n, it) <- cl_get_element c it;
      if left <=? n then Some [(d, left)] else do r <- write_elts f c it (left - n); Some ((d, n) :: r)
  end.

(* ngx_live_timeline.c:3526-3634, the loop over the periods *)
Fixpoint write_periods (fuel : nat) (c : chlist) (ps : list period) (max : Z) (pend : bool) (p : period) (nx : option nat) : option (list block) :=
  match fuel with
  | O => None
  | S f =>
      if max <? p_key p then Some []
      else
        let last := p_key p + p_count p - 1 in
        if (max <=? last) && pend then
          if max <=? p_key p then Some [mk_sb (p_time p) (p_key p) [(0, 1)]]
          else do es <- write_elts (Z.to_nat (max - p_key p)) c (p_iter p) (max - 1 - p_key p + 1); Some [mk_sb (p_time p) (p_key p) (es ++ [(0, 1)])]
        else
          let last := if max <=? last then max else last in
          do es <- write_elts (Z.to_nat (last - p_key p + 1)) c (p_iter p) (last - p_key p + 1);
          let b := mk_sb (p_time p) (p_key p) es in
          match nx with
          | None => Some [b]
          | Some id => do (p, nx) <- deref ps id; do r <- write_periods f c ps max pend p nx; Some (b :: r)
          end
  end.

(* ngx_live_timeline.c:3258-3328 ngx_live_timeline_serve_write and 3491-3655 ngx_live_timeline_serve_write_periods;
   [skip] is the percentage when skipping was asked for, [seg_dur] the segment duration of the channel *)
Definition serve (h : channel) (t : timeline) (nt : tree) (tk : option track) (max : Z) (skip : option Z) (seg_dur : Z) : option (header * list block) :=
  let m := t_m t in
  do e <- serve_end_list h t tk max;
  let hd := mk_hd (m_pindex m) (m_init_time m) (m_init_index m) (m_seq m - m_count m) (if m_target m <=? 0 then seg_dur else m_target m) e 0 0 0 INVALID in
  do start <- (match skip with
               | Some pct => if (e : bool) then Some None else skip_segments h t nt tk max pct hd
               | None => Some None
               end);
  let '(p, nx, hd) := match start with Some s => s | None => (m_first m, m_next m, hd) end in
  do bs <- write_periods (S (length (t_periods t))) (ch_list h) (t_periods t) max (pending_on h tk max) p nx;
  Some (mk_hd (hd_first_index hd) (hd_init_time hd) (hd_init_index hd) (hd_sequence hd) (hd_target hd) (hd_end hd) (Z.of_nat (length bs))
          (hd_skipped_periods hd) (hd_skipped_segs hd) (hd_last_skipped hd), bs).
