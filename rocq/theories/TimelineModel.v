(* Model of nginx-live-module/src/ngx_live_timeline.c: the timelines of a channel, that is, the windows of
   segments that viewers can play.

   The segments of the channel are in a segment list (SegListModel.v).  A period holds an iterator into that
   list, a pointer to a node of the list; here the nodes are counted from the first one ever made, so that an
   iterator stays the same when old nodes are freed, and an iterator to a freed node is recognised.  Periods
   have identities that are never used again, so that a pointer to a freed period is recognised.  None is
   undefined behaviour: following a pointer to something freed or beyond the end of a queue.  The red-black
   tree over the periods is a binary tree over their positions, as in SegListModel.v.

   Numbers are unbounded, except where a definition says so.  Left out: logging, the notifications of waiting
   requests, the timer of the cleanup and the validations. *)
From Coq Require Import List ZArith Bool.
From Verif Require Import SegListModel.
Import ListNotations.
Local Open Scope Z_scope.

Notation "'do' X <- A ; B" := (match A with Some X => B | None => None end)
  (at level 200, X pattern, A at level 100, B at level 200, right associativity).

(* nginx-common/src/ngx_ksmp.h NGX_KSMP_INVALID_SEGMENT_INDEX *)
Definition INVALID : Z := 4294967295.
Definition u32 (x : Z) : Z := x mod 4294967296.

(* --- the segment list, with the number of the nodes freed so far --- *)
Record chlist := mk_cl { cl_list : slist; cl_base : nat }.
Definition to_rel (b : nat) (it : iter) : option iter :=
  if Nat.ltb (i_node it) b then None else Some (mk_iter (i_node it - b) (i_elt it) (i_off it)).
Definition to_abs (b : nat) (it : iter) : iter := mk_iter (i_node it + b) (i_elt it) (i_off it).

(* ngx_live_segment_list.c:993-1001 ngx_live_segment_iter_get_one *)
Definition cl_get_one (c : chlist) (it : iter) : option (Z * iter) :=
  do r <- to_rel (cl_base c) it; do (d, r') <- get_one (cl_list c) r; Some (d, to_abs (cl_base c) r').
(* ngx_live_segment_list.c:984-990 ngx_live_segment_iter_peek *)
Definition cl_peek (c : chlist) (it : iter) : option (Z * iter) :=
  do r <- to_rel (cl_base c) it; do (d, r') <- peek (cl_list c) r; Some (d, to_abs (cl_base c) r').
(* ngx_live_segment_list.c:1004-1016 ngx_live_segment_iter_get_element *)
Definition cl_get_element (c : chlist) (it : iter) : option (Z * Z * iter) :=
  do r <- to_rel (cl_base c) it; do (dc, r') <- get_element (cl_list c) r; Some (dc, to_abs (cl_base c) r').
(* ngx_live_segment_list.c:946-959 ngx_live_segment_iter_last *)
Definition cl_last (c : chlist) : option iter :=
  do r <- iter_last (cl_list c); Some (to_abs (cl_base c) r).
(* ngx_live_segment_list.c:221-262 ngx_live_segment_list_free_nodes *)
Definition cl_free (c : chlist) (min : Z) : chlist :=
  let l := free_nodes (cl_list c) min in
  mk_cl l (cl_base c + (length (l_nodes (cl_list c)) - length (l_nodes l))).

(* --- types --- *)
(* ngx_live_timeline.h:24-32 ngx_live_timeline_conf_t *)
Record conf := mk_conf { c_start : Z; c_end : Z; c_gap : Z; c_max_dur : Z; c_max_segs : Z; c_active : bool; c_no_trunc : bool }.
(* ngx_live_timeline.h:14-21 ngx_live_end_list_e *)
Inductive end_list := EndOff | EndOn | EndForced.
(* ngx_live_timeline.h:35-41 ngx_live_timeline_manifest_conf_t *)
Record mconf := mk_mconf { mc_max_dur : Z; mc_max_segs : Z; mc_expiry : Z; mc_target_segs : Z; mc_end : end_list }.
(* ngx_live_timeline.h:46-55 ngx_live_period_t; p_id is its address *)
Record period := mk_period { p_id : nat; p_key : Z; p_iter : iter; p_time : Z; p_corr : Z; p_dur : Z; p_count : Z }.
(* ngx_live_timeline.h:58-79 ngx_live_manifest_timeline_t; m_next is first_period.queue.next, None for the
   sentinel *)
Record manifest := mk_m { m_conf : mconf; m_avail : Z; m_first : period; m_next : option nat; m_init_time : Z; m_init_index : Z;
  m_pindex : Z; m_target : Z; m_target_segs : Z; m_seq : Z; m_modified : Z; m_durs : list Z;
  m_dur : Z; m_count : Z; m_pcount : Z }.
(* ngx_live_timeline.h:82-112 ngx_live_timeline_s *)
Record timeline := mk_tl { t_id : nat; t_periods : list period; t_init_time : Z; t_last_time : Z; t_conf : conf;
  t_created : Z; t_m : manifest; t_removed : Z; t_dur : Z; t_count : Z; t_pcount : Z }.
(* ngx_live_timeline.c:27-45 ngx_live_timeline_channel_ctx_t and the members of the channel that are used *)
Record channel := mk_ch { ch_list : chlist; ch_tls : list timeline; ch_last : Z; ch_pending : bool; ch_middle : Z;
  ch_truncate : Z; ch_next : Z; ch_min : Z; ch_active : bool; ch_scale : Z; ch_pid : nat }.

(* --- periods --- *)
(* ngx_live_timeline.c:218-223 ngx_live_period_add_segment *)
Definition period_add (p : period) (dur : Z) : period :=
  mk_period (p_id p) (p_key p) (p_iter p) (p_time p) (p_corr p) (p_dur p + dur) (p_count p + 1).
(* ngx_live_timeline.c:226-243 ngx_live_period_pop_segment *)
Definition period_pop (c : chlist) (p : period) : option (Z * period) :=
  if p_count p <=? 0 then Some (0, p)
  else
    do (d, it) <- cl_get_one c (p_iter p);
    Some (d, mk_period (p_id p) (p_key p + 1) it (p_time p + d) (p_corr p) (p_dur p - d) (p_count p - 1)).
Definition set_key (p : period) (k : Z) : period := mk_period (p_id p) k (p_iter p) (p_time p) (p_corr p) (p_dur p) (p_count p).
Definition set_iter (p : period) (it : iter) : period := mk_period (p_id p) (p_key p) it (p_time p) (p_corr p) (p_dur p) (p_count p).

(* a pointer to the queue link of a period: the period, and its own next pointer *)
Fixpoint deref (ps : list period) (id : nat) : option (period * option nat) :=
  match ps with
  | [] => None
  | p :: r => if Nat.eqb (p_id p) id then Some (p, match r with [] => None | n :: _ => Some (p_id n) end) else deref r id
  end.

(* --- manifest --- *)
Definition set_first (m : manifest) (p : period) : manifest :=
  mk_m (m_conf m) (m_avail m) p (m_next m) (m_init_time m) (m_init_index m) (m_pindex m) (m_target m) (m_target_segs m)
    (m_seq m) (m_modified m) (m_durs m) (m_dur m) (m_count m) (m_pcount m).
(* ngx_live_timeline.c:340-376 ngx_live_manifest_timeline_remove_segment *)
Definition m_remove_segment (c : chlist) (ps : list period) (now : Z) (m : manifest) : option manifest :=
  do (d, fp) <- period_pop c (m_first m);
  let cnt := m_count m - 1 in
  let dur := m_dur m - d in
  if 0 <? p_count fp then
    Some (mk_m (m_conf m) (m_avail m) fp (m_next m) (m_init_time m) (m_init_index m) (m_pindex m) (m_target m) (m_target_segs m)
            (m_seq m) now (m_durs m) dur cnt (m_pcount m))
  else
    match m_next m with
    | None =>
        Some (mk_m (m_conf m) (m_avail m) (set_key fp INVALID) None (m_init_time m) (m_init_index m) (m_pindex m + 1) (m_target m)
                (m_target_segs m) (m_seq m) now (m_durs m) dur cnt (m_pcount m - 1))
    | Some id =>
        do (p, nx) <- deref ps id;
        Some (mk_m (m_conf m) (m_avail m) p nx (p_time p) (p_key p) (m_pindex m + 1) (m_target m)
                (m_target_segs m) (m_seq m) now (m_durs m) dur cnt (m_pcount m - 1))
    end.

(* ngx_live_timeline.c:379-408 ngx_live_manifest_timeline_remove_segments; the 32 bit products and sums of
   durations are not wrapped *)
Fixpoint m_remove_segments (fuel : nat) (c : chlist) (ps : list period) (now base_count base_dur : Z) (m : manifest) : option manifest :=
  if m_count m <=? 0 then Some m
  else
    match fuel with
    | O => None
    | S f =>
        if (m_count m + base_count <=? mc_max_segs (m_conf m)) && (m_dur m + base_dur <=? mc_max_dur (m_conf m)) then Some m
        else
          match mc_end (m_conf m) with
          | EndOff =>
              do (last, it) <- cl_peek c (p_iter (m_first m));
              let m := set_first m (set_iter (m_first m) it) in
              if m_dur m <? m_target m * 3 + last then Some m
              else do m <- m_remove_segment c ps now m; m_remove_segments f c ps now base_count base_dur m
          | _ => do m <- m_remove_segment c ps now m; m_remove_segments f c ps now base_count base_dur m
          end
    end.

(* ngx_live_timeline.c:411-438 ngx_live_manifest_timeline_add_first_period *)
Definition m_add_first_period (c : chlist) (m : manifest) (time index : Z) : option manifest :=
  do it <- cl_last c;
  Some (mk_m (m_conf m) (if m_avail m =? 0 then time else m_avail m)
          (mk_period (p_id (m_first m)) index it time (p_corr (m_first m)) 0 0) None time index (m_pindex m) (m_target m)
          (m_target_segs m) (m_seq m) (m_modified m) (m_durs m) (m_dur m) (m_count m) 1).
(* ngx_live_timeline.c:441-458 ngx_live_manifest_timeline_add_period *)
Definition m_add_period (c : chlist) (m : manifest) (p : period) : option manifest :=
  if m_pcount m =? 0 then m_add_first_period c m (p_time p) (p_key p)
  else
    Some (mk_m (m_conf m) (m_avail m) (m_first m) (if m_pcount m =? 1 then Some (p_id p) else m_next m) (m_init_time m) (m_init_index m)
            (m_pindex m) (m_target m) (m_target_segs m) (m_seq m) (m_modified m) (m_durs m) (m_dur m) (m_count m) (m_pcount m + 1)).
(* ngx_live_timeline.c:461-474 ngx_live_manifest_timeline_add_segment *)
Definition m_add_segment (m : manifest) (now dur : Z) : manifest :=
  mk_m (m_conf m) (m_avail m) (if m_pcount m =? 1 then period_add (m_first m) dur else m_first m) (m_next m) (m_init_time m) (m_init_index m)
    (m_pindex m) (m_target m) (m_target_segs m) (m_seq m) now (m_durs m) (m_dur m + dur) (m_count m + 1) (m_pcount m).

Fixpoint set_nth (l : list Z) (i : nat) (x : Z) : list Z :=
  match l, i with
  | [], _ => []
  | _ :: r, O => x :: r
  | y :: r, S i => y :: set_nth r i x
  end.
(* ngx_live_timeline.c:477-494 ngx_live_manifest_timeline_post_add_segment *)
Definition m_post_add (m : manifest) (dur : Z) : manifest :=
  let upd := (mc_target_segs (m_conf m) <=? 0) || (m_target_segs m <? mc_target_segs (m_conf m)) in
  mk_m (m_conf m) (m_avail m) (m_first m) (m_next m) (m_init_time m) (m_init_index m) (m_pindex m)
    (if upd && (m_target m <? dur) then dur else m_target m) (if upd then m_target_segs m + 1 else m_target_segs m) (m_seq m)
    (m_modified m) (set_nth (m_durs m) (Z.to_nat (m_seq m mod 3)) dur) (m_dur m) (m_count m) (m_pcount m).
(* ngx_live_timeline.c:1848, the next sequence number *)
Definition m_next_seq (m : manifest) : manifest :=
  mk_m (m_conf m) (m_avail m) (m_first m) (m_next m) (m_init_time m) (m_init_index m) (m_pindex m) (m_target m) (m_target_segs m) (m_seq m + 1)
    (m_modified m) (m_durs m) (m_dur m) (m_count m) (m_pcount m).
(* ngx_live_timeline.c:497-504 ngx_live_manifest_timeline_truncate *)
Fixpoint m_truncate (fuel : nat) (c : chlist) (ps : list period) (now index : Z) (m : manifest) : option manifest :=
  if (0 <? m_count m) && (p_key (m_first m) <=? index) then
    match fuel with
    | O => None
    | S f => do m <- m_remove_segment c ps now m; m_truncate f c ps now index m
    end
  else Some m.

(* --- timeline --- *)
Definition set_m (t : timeline) (m : manifest) : timeline :=
  mk_tl (t_id t) (t_periods t) (t_init_time t) (t_last_time t) (t_conf t) (t_created t) m (t_removed t) (t_dur t) (t_count t) (t_pcount t).

(* ngx_live_timeline.c:554-608 ngx_live_timeline_conf_validate; 0 stands for no limit, and a value that is not an
   end_list is refused before *)
Definition conf_validate (c : conf) (m : mconf) : option (conf * mconf) :=
  let c_e := if c_end c =? 0 then 9223372036854775807 else c_end c in
  if c_e <=? c_start c then None
  else
    let cs := if c_max_segs c =? 0 then 4294967295 else c_max_segs c in
    let cd := if c_max_dur c =? 0 then 18446744073709551615 else c_max_dur c in
    let ms := if mc_max_segs m =? 0 then cs else mc_max_segs m in
    let md := if mc_max_dur m =? 0 then cd else mc_max_dur m in
    if cs <? ms then None
    else if cd <? md then None
    else Some (mk_conf (c_start c) c_e (c_gap c) cd cs (c_active c) (c_no_trunc c), mk_mconf md ms (mc_expiry m) (mc_target_segs m) (mc_end m)).

Definition deactivate (c : conf) : conf := mk_conf (c_start c) (c_end c) (c_gap c) (c_max_dur c) (c_max_segs c) false (c_no_trunc c).

(* ngx_live_timeline.c:662-706 of ngx_live_timeline_create, the new timeline *)
Definition new_tl (id : nat) (c : conf) (mc : mconf) (next now : Z) : timeline :=
  let fp := mk_period 0 INVALID (mk_iter 0 0 0) 0 0 0 0 in
  mk_tl id [] 0 0 c 0 (mk_m mc 0 fp None 0 0 0 0 0 next now [0; 0; 0] 0 0 0) 0 0 0 0.

(* ngx_live_timeline.c:1146-1180 ngx_live_timeline_remove_segment *)
Definition t_remove_segment (c : chlist) (t : timeline) : option timeline :=
  match t_periods t with
  | [] => None
  | p :: r =>
      do (d, p') <- period_pop c p;
      if 0 <? p_count p' then
        Some (mk_tl (t_id t) (p' :: r) (t_init_time t) (t_last_time t) (t_conf t) (t_created t) (t_m t) (t_removed t + d) (t_dur t - d)
                (t_count t - 1) (t_pcount t))
      else
        Some (mk_tl (t_id t) r (match r with [] => t_init_time t | n :: _ => p_time n end) (t_last_time t) (t_conf t) (t_created t) (t_m t)
                (t_removed t + d) (t_dur t - d) (t_count t - 1) (t_pcount t - 1))
  end.

(* ngx_live_timeline.c:1196-1216, the loop of ngx_live_timeline_remove_segments *)
Fixpoint t_remove_loop (fuel : nat) (c : chlist) (base_count base_dur : Z) (t : timeline) : option timeline :=
  match t_periods t with
  | [] => Some t
  | _ :: _ =>
      if t_count t <=? m_count (t_m t) then Some t
      else if (t_count t + base_count <=? c_max_segs (t_conf t)) && (t_dur t + base_dur <=? c_max_dur (t_conf t)) then Some t
      else
        match fuel with
        | O => None
        | S f => do t <- t_remove_segment c t; t_remove_loop f c base_count base_dur t
        end
  end.
(* ngx_live_timeline.c:1218-1222 and 1239-1247: the lowest index in use *)
Definition lower_min (t : timeline) (min : Z) : Z :=
  match t_periods t with
  | [] => min
  | p :: _ => if p_key p <? min then p_key p else min
  end.
(* ngx_live_timeline.c:1183-1225 ngx_live_timeline_remove_segments *)
Definition t_remove_segments (c : chlist) (now base_count base_dur : Z) (t : timeline) (min : Z) : option (timeline * Z) :=
  do m <- m_remove_segments (Z.to_nat (m_count (t_m t))) c (t_periods t) now base_count base_dur (t_m t);
  do t <- t_remove_loop (Z.to_nat (t_count t)) c base_count base_dur (set_m t m);
  Some (t, lower_min t min).

(* ngx_live_timeline.c:1228-1262 ngx_live_timeline_inactive_remove_segments; the 64 bit product and the 32 bit
   count are not wrapped *)
Definition t_inactive_remove (c : chlist) (scale now : Z) (t : timeline) (min : Z) : option (timeline * Z) :=
  if (now <=? t_created t) || (t_dur t <=? 0) then Some (t, lower_min t min)
  else
    let base_dur := (now - t_created t) * scale in
    t_remove_segments c now (base_dur * t_count t / t_dur t) base_dur t min.

(* ngx_live_timeline.c:1265-1280 ngx_live_timeline_add_segment *)
Definition t_add_segment (t : timeline) (now dur : Z) : option timeline :=
  do (pre, p) <- unsnoc (t_periods t);
  Some (mk_tl (t_id t) (pre ++ [period_add p dur]) (t_init_time t) (t_last_time t) (t_conf t) (t_created t) (m_add_segment (t_m t) now dur)
          (t_removed t) (t_dur t + dur) (t_count t + 1) (t_pcount t)).

(* ngx_live_timeline.c:1655-1683 ngx_live_timeline_truncate *)
Fixpoint t_truncate_loop (fuel : nat) (c : chlist) (index : Z) (t : timeline) : option timeline :=
  match t_periods t with
  | [] => Some t
  | p :: _ =>
      if index <? p_key p then Some t
      else match fuel with O => None | S f => do t <- t_remove_segment c t; t_truncate_loop f c index t end
  end.
Definition t_truncate (c : chlist) (now index : Z) (t : timeline) : option timeline :=
  if c_no_trunc (t_conf t) then Some t
  else
    do m <- m_truncate (Z.to_nat (m_count (t_m t))) c (t_periods t) now index (t_m t);
    t_truncate_loop (Z.to_nat (t_count t)) c index (set_m t m).

(* --- the timelines of a channel --- *)
Inductive rc := RcOk | RcDone | RcError.

Definition set_list (h : channel) (c : chlist) : channel :=
  mk_ch c (ch_tls h) (ch_last h) (ch_pending h) (ch_middle h) (ch_truncate h) (ch_next h) (ch_min h) (ch_active h) (ch_scale h) (ch_pid h).
Definition set_tls (h : channel) (tls : list timeline) : channel :=
  mk_ch (ch_list h) tls (ch_last h) (ch_pending h) (ch_middle h) (ch_truncate h) (ch_next h) (ch_min h) (ch_active h) (ch_scale h) (ch_pid h).
(* ngx_live_timeline.c:1688-1706 ngx_live_timelines_free_old_segments; the event that frees the media of the
   segments below ch_min is not modelled *)
Definition free_old_segments (h : channel) (min : Z) : channel :=
  mk_ch (cl_free (ch_list h) min) (ch_tls h) (ch_last h) (ch_pending h) (ch_middle h) (ch_truncate h) (ch_next h) min (ch_active h) (ch_scale h) (ch_pid h).

(* ngx_live_timeline.c:1774-1833, the period that takes a new segment: the timeline, the next identity, and
   whether the allocation of a period failed *)
Definition add_to_period (c : chlist) (alloc : bool) (pid : nat) (time index : Z) (force : bool) (t : timeline) : option (timeline * nat * bool) :=
  let last := option_map snd (unsnoc (t_periods t)) in
  let new_period :=
    match last with
    | Some p => force || negb (time =? p_time p + p_dur p) || negb (index =? p_key p + p_count p)
    | None => true
    end in
  let init_time := match last with Some _ => t_init_time t | None => time end in
  let t := mk_tl (t_id t) (t_periods t) init_time (t_last_time t) (t_conf t) (t_created t) (t_m t) (t_removed t) (t_dur t) (t_count t) (t_pcount t) in
  if new_period then
    if negb alloc then Some (t, pid, true)
    else
      do it <- cl_last c;
      let corr := if negb (c_gap (t_conf t) =? -1) && negb (t_last_time t =? 0) then t_last_time t + c_gap (t_conf t) - time else 0 in
      let p := mk_period pid index it time corr 0 0 in
      do m <- m_add_period c (t_m t) p;
      Some (mk_tl (t_id t) (t_periods t ++ [p]) (t_init_time t) (t_last_time t) (t_conf t) (t_created t) m (t_removed t) (t_dur t) (t_count t)
              (t_pcount t + 1), S pid, false)
  else if m_pcount (t_m t) =? 0 then
    do m <- m_add_first_period c (t_m t) time index; Some (set_m t m, pid, false)
  else Some (t, pid, false).

Definition set_last_time (t : timeline) (x : Z) : timeline :=
  mk_tl (t_id t) (t_periods t) (t_init_time t) x (t_conf t) (t_created t) (t_m t) (t_removed t) (t_dur t) (t_count t) (t_pcount t).
Definition set_created (t : timeline) (x : Z) : timeline :=
  mk_tl (t_id t) (t_periods t) (t_init_time t) (t_last_time t) (t_conf t) x (t_m t) (t_removed t) (t_dur t) (t_count t) (t_pcount t).
Definition set_conf (t : timeline) (c : conf) (mc : mconf) : timeline :=
  let m := t_m t in
  mk_tl (t_id t) (t_periods t) (t_init_time t) (t_last_time t) c (t_created t)
    (mk_m mc (m_avail m) (m_first m) (m_next m) (m_init_time m) (m_init_index m) (m_pindex m) (m_target m) (m_target_segs m)
       (m_seq m) (m_modified m) (m_durs m) (m_dur m) (m_count m) (m_pcount m)) (t_removed t) (t_dur t) (t_count t) (t_pcount t).

(* ngx_live_timeline.c:1752-1853, the body of the loop over the timelines: the timeline, the lowest index, whether
   the segment is in the timeline, the next identity, whether to give up *)
Definition add_one (c : chlist) (scale middle now : Z) (alloc : bool) (pid : nat) (time index dur : Z) (force : bool) (t : timeline) (min : Z)
  : option (timeline * Z * bool * nat * bool) :=
  if negb (c_active (t_conf t)) || (middle <? c_start (t_conf t)) then
    do (t, min) <- t_inactive_remove c scale now t min; Some (t, min, false, pid, false)
  else if c_end (t_conf t) <=? middle then
    do (t, min) <- t_inactive_remove c scale now (set_conf t (deactivate (t_conf t)) (m_conf (t_m t))) min; Some (t, min, false, pid, false)
  else
    do (t, pid, failed) <- add_to_period c alloc pid time index force t;
    if (failed : bool) then Some (t, min, false, pid, true)
    else
      do (_, p) <- unsnoc (t_periods t);
      let t := set_last_time t (time + dur + p_corr p) in
      do t <- t_add_segment t now dur;
      do (t, min) <- t_remove_segments c now 0 0 t min;
      if m_count (t_m t) <=? 0 then Some (t, min, false, pid, false)
      else
        let m := if 0 <? dur then m_post_add (t_m t) dur else t_m t in
        Some (set_created (set_m t (m_next_seq m)) now, min, true, pid, false).

(* ngx_live_timeline.c:1754-1853, the loop; [allocs] tells which allocations of periods succeed *)
Fixpoint add_loop (c : chlist) (scale middle now : Z) (allocs : list bool) (pid : nat) (time index dur : Z) (force : bool) (tls : list timeline) (min : Z)
  : option (list timeline * Z * bool * nat * bool) :=
  match tls with
  | [] => Some ([], min, false, pid, false)
  | t :: r =>
      do (t, min, ex, pid, failed) <- add_one c scale middle now (hd true allocs) pid time index dur force t min;
      if (failed : bool) then Some (t :: r, min, ex, pid, true)
      else
        do (r, min, ex', pid, failed) <- add_loop c scale middle now (tl allocs) pid time index dur force r min;
        Some (t :: r, min, ex || ex', pid, failed)
  end.

(* ngx_live_timeline.c:1709-1867 ngx_live_timelines_add_segment *)
Definition add_segment (h : channel) (now : Z) (nalloc : bool) (allocs : list bool) (time index dur : Z) (force : bool) : option (channel * rc) :=
  if ch_pending h then Some (h, RcError)
  else
    match seg_add (cl_list (ch_list h)) nalloc index time dur with
    | None => Some (h, RcError)
    | Some l =>
        let c := mk_cl l (cl_base (ch_list h)) in
        let middle := time + dur / 2 in
        do (tls, min, ex, pid, failed) <- add_loop c (ch_scale h) middle now allocs (ch_pid h) time index dur force (ch_tls h) (ch_next h);
        let h := mk_ch c tls index (dur =? PENDING) middle (ch_truncate h) (ch_next h) (ch_min h) (ch_active h) (ch_scale h) pid in
        if (failed : bool) then Some (h, RcError)
        else Some (free_old_segments h min, if (ex : bool) then RcOk else RcDone)
    end.

(* ngx_live_timeline.c:1870-1933 ngx_live_timeline_update_last_segment *)
Definition update_one (c : chlist) (last dur : Z) (t : timeline) : option timeline :=
  match unsnoc (t_periods t) with
  | None => Some t
  | Some (pre, p) =>
      if negb (p_key p + p_count p - 1 =? last) then Some t
      else
        do it <- (if p_count p =? 1 then cl_last c else Some (p_iter p));
        let p := mk_period (p_id p) (p_key p) it (p_time p) (p_corr p) (p_dur p + dur) (p_count p) in
        let m := t_m t in
        do m <- (if 0 <? m_count m then
                   do f <- (if m_pcount m =? 1 then
                              let f := m_first m in
                              do it <- (if p_count f =? 1 then cl_last c else Some (p_iter f));
                              Some (mk_period (p_id f) (p_key f) it (p_time f) (p_corr f) (p_dur f + dur) (p_count f))
                            else Some (m_first m));
                   Some (m_post_add (mk_m (m_conf m) (m_avail m) f (m_next m) (m_init_time m) (m_init_index m) (m_pindex m) (m_target m)
                           (m_target_segs m) (m_seq m) (m_modified m) (m_durs m) (m_dur m + dur) (m_count m) (m_pcount m)) dur)
                 else Some m);
        Some (mk_tl (t_id t) (pre ++ [p]) (t_init_time t) (t_last_time t + dur) (t_conf t) (t_created t) m (t_removed t) (t_dur t + dur)
                (t_count t) (t_pcount t))
  end.
Fixpoint map_opt {A} (f : A -> option A) (l : list A) : option (list A) :=
  match l with
  | [] => Some []
  | x :: r => do x <- f x; do r <- map_opt f r; Some (x :: r)
  end.
(* ngx_live_timeline.c:1936-1976 ngx_live_timelines_update_last_segment *)
Definition update_last_segment (h : channel) (dur : Z) : option (channel * rc) :=
  if negb (ch_pending h) then Some (h, RcError)
  else
    match update_last (cl_list (ch_list h)) dur with
    | None => Some (h, RcError)
    | Some l =>
        let c := mk_cl l (cl_base (ch_list h)) in
        do tls <- map_opt (update_one c (ch_last h) dur) (ch_tls h);
        Some (mk_ch c tls (ch_last h) false (ch_middle h) (ch_truncate h) (ch_next h) (ch_min h) (ch_active h) (ch_scale h) (ch_pid h), RcOk)
    end.

(* ngx_live_timeline.c:1980-2001 ngx_live_timelines_truncate *)
Definition truncate (h : channel) (now index : Z) : option channel :=
  do tls <- map_opt (t_truncate (ch_list h) now index) (ch_tls h);
  Some (mk_ch (ch_list h) tls (ch_last h) (ch_pending h) (ch_middle h) index (ch_next h) (ch_min h) (ch_active h) (ch_scale h) (ch_pid h)).

(* ngx_live_timeline.c:2068-2083, the loop of the cleanup *)
Fixpoint cleanup_loop (c : chlist) (scale now : Z) (tls : list timeline) (min : Z) : option (list timeline * Z) :=
  match tls with
  | [] => Some ([], min)
  | t :: r =>
      do (t, min) <- t_inactive_remove c scale now t min;
      do (r, min) <- cleanup_loop c scale now r min;
      Some (t :: r, min)
  end.
(* ngx_live_timeline.c:2046-2091 ngx_live_timelines_cleanup: the channel and the result *)
Definition cleanup (h : channel) (now : Z) : option (channel * bool) :=
  if ch_active h then Some (h, true)
  else
    do (tls, min) <- cleanup_loop (ch_list h) (ch_scale h) now (ch_tls h) (ch_next h);
    Some (free_old_segments (set_tls h tls) min, negb (min =? ch_next h)).

Fixpoint find_tl (id : nat) (tls : list timeline) : option timeline :=
  match tls with
  | [] => None
  | t :: r => if Nat.eqb (t_id t) id then Some t else find_tl id r
  end.
Definition put_tl (t : timeline) (tls : list timeline) : list timeline :=
  map (fun x => if Nat.eqb (t_id x) (t_id t) then t else x) tls.

(* ngx_live_timeline.c:762-784 ngx_live_timeline_get; None: not found.  A timeline is named by a number *)
Definition get (h : channel) (now : Z) (id : nat) : option (option (channel * timeline)) :=
  match find_tl id (ch_tls h) with
  | None => Some None
  | Some t =>
      if negb (c_active (t_conf t)) || negb (ch_active h) then
        do (t, _) <- t_inactive_remove (ch_list h) (ch_scale h) now t 0;
        Some (Some (set_tls h (put_tl t (ch_tls h)), t))
      else Some (Some (h, t))
  end.
(* ngx_live_timeline.c:634-715 ngx_live_timeline_create; None: refused *)
Definition create (h : channel) (now : Z) (id : nat) (c : conf) (mc : mconf) : option channel :=
  match conf_validate c mc, find_tl id (ch_tls h) with
  | Some (c, mc), None =>
      let c := if c_end c <=? ch_middle h then deactivate c else c in
      Some (set_tls h (ch_tls h ++ [new_tl id c mc (ch_next h) now]))
  | _, _ => None
  end.
(* ngx_live_timeline.c:993-1033 ngx_live_timeline_update *)
Definition update (h : channel) (id : nat) (c : conf) (mc : mconf) : option channel :=
  match conf_validate c mc, find_tl id (ch_tls h) with
  | Some (c, mc), Some t =>
      let c := if c_end c <=? ch_middle h then deactivate c else c in
      Some (set_tls h (put_tl (set_conf t c mc) (ch_tls h)))
  | _, _ => None
  end.
(* ngx_live_timeline.c:718-759 ngx_live_timeline_free *)
Definition remove (h : channel) (id : nat) : channel := set_tls h (filter (fun t => negb (Nat.eqb (t_id t) id)) (ch_tls h)).

(* --- lookups --- *)
Inductive info := InfoOk (correction : Z) | InfoEmpty | InfoRemoved | InfoNotFound.
(* ngx_live_timeline.c:803-829, the walk down the tree of periods *)
Fixpoint walk_periods (ps : list period) (tr : tree) (index : Z) : option (option nat) :=
  match tr with
  | Leaf => Some None
  | Node l i r =>
      do p <- nth_error ps i;
      if index <? p_key p then walk_periods ps l index
      else if index <? p_key p + p_count p then Some (Some i)
      else walk_periods ps r index
  end.
(* ngx_live_timeline.c:787-848 ngx_live_timeline_get_segment_info; [initial] is the initial segment index of the
   channel, [relative] the flag NGX_KSMP_FLAG_RELATIVE_DTS *)
Definition get_segment_info (t : timeline) (tr : tree) (initial index : Z) (relative : bool) : option info :=
  do w <- walk_periods (t_periods t) tr index;
  match w with
  | None =>
      match t_periods t with
      | [] => Some InfoEmpty
      | p :: _ => if (initial <=? index) && (index <? p_key p) then Some InfoRemoved else Some InfoNotFound
      end
  | Some i =>
      do p <- nth_error (t_periods t) i;
      Some (InfoOk (if relative then (if Nat.eqb i 0 then - t_init_time t else - p_time p) else p_corr p))
  end.

(* ngx_live_timeline.c:885-900, over the periods, last one first *)
Fixpoint seq_loop (rps : list period) (cur seq : Z) : option Z :=
  match rps with
  | [] => None
  | p :: r =>
      let cur := u32 (cur - p_count p) in
      if cur <=? seq then Some (u32 (p_key p + seq - cur))
      else match r with [] => Some (u32 (p_key p + seq - cur)) | _ => seq_loop r cur seq end
  end.
(* ngx_live_timeline.c:851-901 ngx_live_timeline_sequence_to_index; 32 bit arithmetic *)
Definition sequence_to_index (h : channel) (t : timeline) (seq : Z) : option Z :=
  let cur := u32 (m_seq (t_m t)) in
  if cur <=? seq then
    let next := u32 (ch_last h + 1) in
    let next := if next <? ch_next h then ch_next h else next in
    Some (u32 (next + seq - cur))
  else seq_loop (rev (t_periods t)) cur seq.
(* ngx_live_timeline.c:903-933 ngx_live_timeline_index_to_sequence: the sequence number and whether the segment
   exists *)
Fixpoint index_loop (rps : list period) (seq index : Z) : Z * bool :=
  match rps with
  | [] => (seq, false)
  | p :: r =>
      if p_key p + p_count p <=? index then (seq, false)
      else
        let seq := u32 (seq - p_count p) in
        if p_key p <=? index then (u32 (seq + index - p_key p), true)
        else index_loop r seq index
  end.
Definition index_to_sequence (t : timeline) (index : Z) : Z * bool := index_loop (rev (t_periods t)) (u32 (m_seq (t_m t))) index.

(* ngx_live_timeline.c:936-962 ngx_live_timeline_is_expired *)
Definition is_expired (t : timeline) (scale now : Z) : bool :=
  if mc_expiry (m_conf (t_m t)) <=? 0 then false
  else t_created t + fold_left Z.max (m_durs (t_m t)) 0 * mc_expiry (m_conf (t_m t)) / (scale * 100) <? now.

(* ngx_live_timeline.c:1300-1326 ngx_live_timeline_get_start_relative_time *)
Fixpoint start_relative (ps : list period) (gap offset : Z) : option Z :=
  match ps with
  | [] => None
  | p :: r =>
      let d := p_dur p + gap in
      match r with
      | [] => Some (p_time p + offset)
      | _ => if offset <? d then Some (p_time p + offset) else start_relative r gap (offset - d)
      end
  end.
(* ngx_live_timeline.c:1329-1355 ngx_live_timeline_get_end_relative_time, over the periods, last one first *)
Fixpoint end_relative (rps : list period) (gap offset : Z) : option Z :=
  match rps with
  | [] => None
  | p :: r =>
      let d := p_dur p + gap in
      match r with
      | [] => Some (p_time p + d - offset)
      | _ => if offset <? d then Some (p_time p + d - offset) else end_relative r gap (offset - d)
      end
  end.
Inductive time_mode := TAbs | TStart | TEnd.
(* ngx_live_timeline.c:1358-1392 ngx_live_timeline_get_time; None inside: there are no periods *)
Definition get_time (t : timeline) (use_gap : bool) (mode : time_mode) (time : Z) : option (option Z) :=
  match t_periods t with
  | [] => Some None
  | _ =>
      let gap := if use_gap then Z.max (c_gap (t_conf t)) 0 else 0 in
      match mode with
      | TAbs => Some (Some time)
      | TStart => do x <- start_relative (t_periods t) gap time; Some (Some x)
      | TEnd => do x <- end_relative (rev (t_periods t)) gap (time + gap); Some (Some x)
      end
  end.
