(* A model of the tracks of an RTMP upstream: how their frames wait, in which
   order they are written, and when.

   Modelled: nginx-kmp-rtmp-module/src/ngx_kmp_rtmp_track.c:72-245 (the list of
   frames), 455-521 (add_frame), 524-533 (close), 536-595 (write_frame), 598-626
   (process_frame), 629-653 (process_expired), 656-667 (stream_ready), 670-699
   (remove_pending_frames), 713-727 (disconnected), 790-890 (connect);
   ngx_kmp_rtmp_stream.c:157-242 (write_meta), 351-382 (attach_track, detach_track);
   ngx_kmp_rtmp_upstream.c:440-505 (process_expired, process).

   The red-black trees of nginx are lists in the order of their keys: a node is
   inserted behind those with the same key.  Timers are those of nginx: a timer
   that is set is only moved when it moves by 300 ms or more.

   Simplified: what is written is the pair of track and frame (EncModel.v and
   UpModel.v model the bytes); a frame has an identity in place of its data; the
   buffers of the input (InputBufs*.v) are not part of the model; times are
   unbounded, except for the keys of trees.  An upstream that is finalized is
   gone at once.  A use of freed memory is the result Ub. *)

From Coq Require Import List ZArith Bool Arith.
Import ListNotations.
Open Scope Z_scope.

(* ngx_kmp_rtmp_encoder.h:60-68 ngx_kmp_rtmp_frame_t; f_id stands for created,
   pts_delay, flags, size and data *)
Record frame := Frame { f_added : Z; f_dts : Z; f_id : Z }.

(* ---- the list of frames ---- *)

(* track.c:14 NGX_KMP_RTMP_FRAME_PART_COUNT *)
Definition part_count : nat := 21.

(* track.c:37-48 ngx_kmp_rtmp_frame_list_t: the parts from part to last, each with
   its nelts elements; the number of parts in free; offset and count *)
Record flist := Fl { l_parts : list (list frame); l_free : nat; l_off : nat; l_cnt : nat }.

(* track.c:95-116 ngx_kmp_rtmp_frame_list_init *)
Definition fl_init : flist := Fl [[]] 0 0 0.

(* track.c:180-215 ngx_kmp_rtmp_frame_list_push, and the caller fills the frame;
   alloc says whether alloc_part (74-92) succeeds; None is NULL *)
Definition fl_push (l : flist) (f : frame) (alloc : bool) : option flist :=
  if (part_count <=? length (last (l_parts l) []))%nat then
    match l_free l with
    | O => if alloc then Some (Fl (l_parts l ++ [[f]]) O (l_off l) (S (l_cnt l))) else None
    | S n => Some (Fl (l_parts l ++ [[f]]) n (l_off l) (S (l_cnt l)))
    end
  else Some (Fl (removelast (l_parts l) ++ [last (l_parts l) [] ++ [f]]) (l_free l) (l_off l) (S (l_cnt l))).

(* track.c:218-246 ngx_kmp_rtmp_frame_list_pop; None: count is 0 *)
Definition fl_pop (l : flist) : option flist :=
  match l_cnt l with
  | O => None
  | S c =>
      if (S (l_off l) <? part_count)%nat then Some (Fl (l_parts l) (l_free l) (S (l_off l)) c)
      else
        match l_parts l with
        | [] => None
        | [_] => Some (Fl [[]] (l_free l) 0 c)
        | _ :: r => Some (Fl r (S (l_free l)) 0 c)
        end
  end.

(* track.c:249-253 ngx_kmp_rtmp_frame_list_head; None: no frame was put there *)
Definition fl_head (l : flist) : option frame :=
  match l_parts l with [] => None | p :: _ => nth_error p (l_off l) end.

(* ---- trees and timers ---- *)

(* ngx_rbtree_insert with ngx_rbtree_insert_value (nginx, src/core/ngx_rbtree.c),
   as a list in the order of the keys: (key, track) *)
Fixpoint ins (k : Z) (t : nat) (l : list (Z * nat)) : list (Z * nat) :=
  match l with
  | [] => [(k, t)]
  | (k', t') :: r => if k <? k' then (k, t) :: l else (k', t') :: ins k t r
  end.

(* ngx_rbtree_delete *)
Definition del (t : nat) (l : list (Z * nat)) : list (Z * nat) := filter (fun x => negb (snd x =? t)%nat) l.

(* a key is an ngx_uint_t *)
Definition ukey (z : Z) : Z := z mod 2 ^ 64.

(* ngx_event_add_timer (nginx, src/event/ngx_event_timer.h): a timer that is set
   keeps its time when the new one differs by less than 300 ms *)
Definition add_timer (now after : Z) (old : option Z) : option Z :=
  match old with
  | Some d => if Z.abs (now + after - d) <? 300 then Some d else Some (now + after)
  | None => Some (now + after)
  end.

(* ---- the state ---- *)

(* ngx_kmp_rtmp_stream_t: wrote_meta; is it in u->streams; the write_meta timer *)
Record stream := Stream { s_meta : bool; s_live : bool; s_timer : option Z }.

(* track.c:51-70 ngx_kmp_rtmp_track_t: its stream and media type, the frames, the
   keys of dts_node and added_node, whether input is set; active is the bit of
   the track in stream->active_tracks *)
Record track := Track { t_sid : nat; t_media : nat; t_fl : flist; t_dkey : Z; t_akey : Z; t_input : bool; t_active : bool }.

(* dts and added are the trees u->tracks.dts_rbtree and added_rbtree; timer is
   u->process; out is what was written *)
Record ups := Ups { u_streams : list stream; u_tracks : list track; u_dts : list (Z * nat); u_added : list (Z * nat);
                    u_timer : option Z; u_out : list (nat * frame) }.

Definition ups0 : ups := Ups [] [] [] [] None [].

(* ngx_kmp_rtmp.h:38-39 and write_meta_timeout *)
Record conf := Conf { min_delay : Z; max_delay : Z; meta_timeout : Z }.

Fixpoint upd {A} (l : list A) (i : nat) (x : A) : list A :=
  match l, i with
  | [], _ => []
  | _ :: r, O => x :: r
  | a :: r, S i' => a :: upd r i' x
  end.

Definition set_tracks (u : ups) (ts : list track) : ups := Ups (u_streams u) ts (u_dts u) (u_added u) (u_timer u) (u_out u).
Definition set_streams (u : ups) (ss : list stream) : ups := Ups ss (u_tracks u) (u_dts u) (u_added u) (u_timer u) (u_out u).
Definition set_trees (u : ups) (d a : list (Z * nat)) : ups := Ups (u_streams u) (u_tracks u) d a (u_timer u) (u_out u).
Definition set_timer (u : ups) (t : option Z) : ups := Ups (u_streams u) (u_tracks u) (u_dts u) (u_added u) t (u_out u).
Definition set_out (u : ups) (o : list (nat * frame)) : ups := Ups (u_streams u) (u_tracks u) (u_dts u) (u_added u) (u_timer u) o.

Definition set_fl (t : track) (l : flist) : track := Track (t_sid t) (t_media t) l (t_dkey t) (t_akey t) (t_input t) (t_active t).
Definition set_dkey (t : track) (k : Z) : track := Track (t_sid t) (t_media t) (t_fl t) k (t_akey t) (t_input t) (t_active t).
Definition set_akey (t : track) (k : Z) : track := Track (t_sid t) (t_media t) (t_fl t) (t_dkey t) k (t_input t) (t_active t).
Definition set_input (t : track) (b : bool) : track := Track (t_sid t) (t_media t) (t_fl t) (t_dkey t) (t_akey t) b (t_active t).
Definition set_active (t : track) (b : bool) : track := Track (t_sid t) (t_media t) (t_fl t) (t_dkey t) (t_akey t) (t_input t) b.

(* Go: the upstream lives on; Gone: it was freed; Ub: freed memory was used, or
   a frame that is not there *)
Inductive res := Go (u : ups) | Gone | Ub.

(* ---- the code ---- *)

(* ngx_kmp_rtmp_stream.c:384-416 ngx_kmp_rtmp_stream_detach_track, in
   track.c:524-533 ngx_kmp_rtmp_track_close: unpub says whether unpublish finds a
   buffer.  If not, detach_track frees the upstream with the track in it, and
   close goes on with the buffers of the track. *)
Definition close (u : ups) (i : nat) (t : track) (unpub : bool) : res :=
  let ts := upd (u_tracks u) i (set_active t false) in
  let u1 := set_tracks u ts in
  if existsb (fun x => (t_sid x =? t_sid t)%nat && t_active x) ts then Go u1
  else if unpub then
    match nth_error (u_streams u) (t_sid t) with
    | Some s => Go (set_streams u1 (upd (u_streams u) (t_sid t) (Stream (s_meta s) false None)))
    | None => Ub
    end
  else Ub.

(* track.c:536-595 ngx_kmp_rtmp_track_write_frame; ok says whether
   ngx_kmp_rtmp_stream_write_frame succeeds *)
Definition write_frame (u : ups) (i : nat) (ok unpub : bool) : res :=
  match nth_error (u_tracks u) i with
  | None => Ub
  | Some t =>
      match fl_head (t_fl t) with
      | None => Ub
      | Some f =>
          if negb ok then Gone
          else
            match fl_pop (t_fl t) with
            | None => Ub
            | Some l =>
                let u1 := set_out u (u_out u ++ [(i, f)]) in
                let t1 := set_fl t l in
                let d := del i (u_dts u) in
                if (l_cnt l =? 0)%nat then
                  let u2 := set_trees (set_tracks u1 (upd (u_tracks u) i t1)) d (del i (u_added u)) in
                  if t_input t then Go u2 else close u2 i t1 unpub
                else
                  match fl_head l with
                  | None => Ub
                  | Some f' =>
                      let t2 := set_dkey t1 (ukey (f_dts f')) in
                      let d2 := ins (t_dkey t2) i d in
                      if 100 <? Z.abs (f_added f' - t_akey t) then
                        Go (set_trees (set_tracks u1 (upd (u_tracks u) i (set_akey t2 (f_added f')))) d2 (ins (f_added f') i (del i (u_added u))))
                      else Go (set_trees (set_tracks u1 (upd (u_tracks u) i t2)) d2 (u_added u))
                  end
            end
      end
  end.

Definition head_of (u : ups) (i : nat) : option frame :=
  match nth_error (u_tracks u) i with Some t => fl_head (t_fl t) | None => None end.

(* upstream.c:440-470 ngx_kmp_rtmp_upstream_process_expired, with track.c:629-653;
   oks are the results of writing the frames *)
Fixpoint process_expired (fuel : nat) (c : conf) (now : Z) (u : ups) (oks : list bool) (unpub : bool) : res :=
  match u_added u with
  | [] => Go u
  | (_, i) :: _ =>
      match fuel with
      | O => Ub
      | S fuel' =>
          match head_of u i with
          | None => Ub
          | Some f =>
              if now <? f_added f + max_delay c then Go u
              else
                match write_frame u i (hd true oks) unpub with
                | Go u' => process_expired fuel' c now u' (tl oks) unpub
                | r => r
                end
          end
      end
  end.

(* track.c:16 NGX_KMP_RTMP_FRAME_READY_MARGIN *)
Definition ready_margin : Z := 50.

(* upstream.c:473-512 ngx_kmp_rtmp_upstream_process, with track.c:598-626 *)
Fixpoint process (fuel : nat) (c : conf) (now : Z) (u : ups) (oks : list bool) (unpub : bool) : res :=
  match u_dts u with
  | [] => Go u
  | (_, i) :: _ =>
      match fuel with
      | O => Ub
      | S fuel' =>
          match head_of u i with
          | None => Ub
          | Some f =>
              if now + ready_margin <? f_added f + min_delay c then
                match process_expired fuel c now u oks unpub with
                | Go u' => Go (set_timer u' (add_timer now (f_added f + min_delay c - now) (u_timer u')))
                | r => r
                end
              else
                match write_frame u i (hd true oks) unpub with
                | Go u' => process fuel' c now u' (tl oks) unpub
                | r => r
                end
          end
      end
  end.

(* track.c:656-667 ngx_kmp_rtmp_track_stream_ready *)
Definition stream_ready (i : nat) (u : ups) : ups :=
  match nth_error (u_tracks u) i with
  | Some t =>
      if (0 <? l_cnt (t_fl t))%nat then set_trees u (ins (t_dkey t) i (u_dts u)) (ins (t_akey t) i (u_added u)) else u
  | None => u
  end.

(* the tracks of a stream *)
Definition tracks_of (u : ups) (sid : nat) : list nat :=
  filter (fun i => match nth_error (u_tracks u) i with Some t => (t_sid t =? sid)%nat | None => false end) (seq 0 (length (u_tracks u))).

Definition total (u : ups) : nat := fold_right (fun t n => (l_cnt (t_fl t) + n)%nat) 0%nat (u_tracks u).

(* track.c:11 NGX_KMP_RTMP_MAX_FRAME_COUNT *)
Definition max_frames : Z := 16384.

(* the events: a stream is created; a track connects to a stream; a frame
   arrives; the input of a track disconnects; the write_meta timer of a stream
   fires, and the metadata is written; the process timer fires *)
Inductive top :=
  | TStream
  | TConn (sid media : nat)
  | TAdd (i : nat) (dts id : Z) (alloc : bool)
  | TDisc (i : nat) (unpub : bool)
  | TMeta (sid : nat)
  | TProc (oks : list bool) (unpub : bool).

(* the track of a stream with a media type: stream->tracks[] *)
Definition find_track (u : ups) (sid media : nat) : option nat :=
  find (fun i => match nth_error (u_tracks u) i with Some t => (t_sid t =? sid)%nat && (t_media t =? media)%nat | None => false end)
    (seq 0 (length (u_tracks u))).

(* ngx_kmp_rtmp_stream.c:351-382 ngx_kmp_rtmp_stream_attach_track, after the
   tracks are ts; both media types are active *)
Definition attach (c : conf) (now : Z) (u : ups) (sid : nat) (s : stream) (ts : list track) : ups :=
  let s' := if s_meta s then s
            else if existsb (fun x => (t_sid x =? sid)%nat && (t_media x =? 0)%nat && t_active x) ts
                 && existsb (fun x => (t_sid x =? sid)%nat && (t_media x =? 1)%nat && t_active x) ts
            then Stream (s_meta s) (s_live s) (add_timer now 0 (s_timer s))
            else Stream (s_meta s) (s_live s) (add_timer now (meta_timeout c) (s_timer s)) in
  set_streams (set_tracks u ts) (upd (u_streams u) sid s').

(* one event at a time; the flag says whether it was accepted *)
Definition top_step (c : conf) (now : Z) (u : ups) (op : top) : res * bool :=
  match op with
  | TStream => (Go (set_streams u (u_streams u ++ [Stream false true None])), true)
  | TConn sid media =>
      match nth_error (u_streams u) sid with
      | Some s =>
          if negb (s_live s) then (Go u, false)
          else
            match find_track u sid media with
            | Some i =>
                match nth_error (u_tracks u) i with
                | Some t =>
                    if t_input t then (Go u, false)
                    else
                      (* track.c:670-699 ngx_kmp_rtmp_track_remove_pending_frames *)
                      let drop := (0 <? l_cnt (t_fl t))%nat && s_meta s in
                      let u1 := if drop then set_trees u (del i (u_dts u)) (del i (u_added u)) else u in
                      let t1 := Track (t_sid t) (t_media t)
                                  (* the list after as many pops as there are frames *)
                                  ((fix pops n l := match n with O => l | S n' => match fl_pop l with Some l' => pops n' l' | None => l end end)
                                     (l_cnt (t_fl t)) (t_fl t))
                                  (t_dkey t) (t_akey t) true true in
                      (Go (attach c now u1 sid s (upd (u_tracks u1) i t1)), true)
                | None => (Ub, false)
                end
            | None =>
                if s_meta s then (Go u, false)
                else (Go (attach c now u sid s (u_tracks u ++ [Track sid media fl_init 0 0 true true])), true)
            end
      | None => (Go u, false)
      end
  | TAdd i dts id alloc =>
      match nth_error (u_tracks u) i with
      | Some t =>
          if negb (t_input t) then (Go u, false)
          else if max_frames <=? Z.of_nat (l_cnt (t_fl t)) then (Go u, false)
          else
            match fl_push (t_fl t) (Frame now dts id) alloc with
            | None => (Gone, false)
            | Some l =>
                let t1 := set_fl t l in
                if (0 <? l_cnt (t_fl t))%nat then (Go (set_tracks u (upd (u_tracks u) i t1)), true)
                else
                  let t2 := set_akey (set_dkey t1 (ukey dts)) now in
                  let u1 := set_tracks u (upd (u_tracks u) i t2) in
                  match nth_error (u_streams u) (t_sid t) with
                  | Some s =>
                      if s_meta s then
                        (Go (set_timer (set_trees u1 (ins (t_dkey t2) i (u_dts u)) (ins (t_akey t2) i (u_added u))) (add_timer now 0 (u_timer u))), true)
                      else (Go u1, true)
                  | None => (Ub, false)
                  end
            end
      | None => (Go u, false)
      end
  | TDisc i unpub =>
      match nth_error (u_tracks u) i with
      | Some t =>
          if negb (t_input t) then (Go u, false)
          else
            let t1 := set_input t false in
            let u1 := set_tracks u (upd (u_tracks u) i t1) in
            if (l_cnt (t_fl t) =? 0)%nat then (close u1 i t1 unpub, true) else (Go u1, true)
      | None => (Go u, false)
      end
  | TMeta sid =>
      match nth_error (u_streams u) sid with
      | Some s =>
          match s_timer s with
          | Some d =>
              if now <? d then (Go u, false)
              else
                let u1 := set_streams u (upd (u_streams u) sid (Stream true (s_live s) None)) in
                (Go (let u2 := fold_left (fun u i => stream_ready i u) (tracks_of u1 sid) u1 in set_timer u2 (add_timer now 0 (u_timer u2))), true)
          | None => (Go u, false)
          end
      | None => (Go u, false)
      end
  | TProc oks unpub =>
      match u_timer u with
      | Some d => if now <? d then (Go u, false) else (process (S (total u)) c now (set_timer u None) oks unpub, true)
      | None => (Go u, false)
      end
  end.
