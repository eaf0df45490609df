(* The segments a live channel holds in memory, their way to storage and the
   snapshots of the channel index (nginx-live-module/src):
     ngx_live_segment_index.c, persist/ngx_live_persist_index.c,
     persist/ngx_live_persist_snap_frames.c and the callers of these in
     persist/ngx_live_persist_media.c.

   A segment is known by its number, its 'key'.  What a segment, an index file
   or a snapshot contains is not modelled, only which segments it covers.
   Numbers are Z; that they fit in 32 bits is not modelled, except in the
   subtraction that decides between an index and a delta file.

   The memory errors that the code could make are recorded in the flag s_ub:
   once it is set the state means nothing.  s_err is set when the code gives
   up on the channel, which is then freed by its caller. *)

From Coq Require Import ZArith List Bool Lia.
Import ListNotations.
Open Scope Z_scope.

(* ngx_live_segment_persist_e, ngx_live_segment_index.h:9-13. *)
Inductive pst := PNone | POk | PErr.

(* A snapshot of the index, ngx_live_persist_snap_index_t: the last segment it
   covers (scope.max_index) and the frames snapshot in it, which may have been
   exchanged for a later one (ngx_live_persist_index.c:183-192).  A frames
   snapshot is known by the segment it was made for. *)
Record isnap := Isnap { sn_max : Z; sn_fr : Z }.

(* An entry of index->cleanup: somebody who reads the segment, or the write of
   the media file of a bucket. *)
Inductive cln := CRead (id : Z) | CWrite (b : Z).

(* ngx_live_segment_index_t, ngx_live_segment_index.c:17-27.  x_bad: index->snap
   is not NULL, but does not point to a snapshot. *)
Record idx := Idx {
  x_key : Z;
  x_per : pst;
  x_snap : option isnap;
  x_bad : bool;
  x_free : bool;
  x_cln : list cln
}.

(* The scope of an index or a delta file (ngx_live_persist_index_scope_t), and
   the number of changes to the history of the channel that preceded it. *)
Record file := File { fi_delta : bool; fi_min : Z; fi_max : Z; fi_hv : Z }.

(* What can be seen from outside: a segment is closed; a snapshot is taken;
   frames are acknowledged up to the segment the frames snapshot was taken for
   (ngx_live_persist_snap_frames_close), or up to now (..._ack_frames); a frames
   snapshot is let go with no acknowledgment; a segment is freed; the timelines
   are truncated; the media of a segment is in a file, or could not be written (in
   the log, ngx_live_persist_media.c:1131, 1184, 1220); the write of an index
   or delta file is started, or reported as done; a reader is cut off. *)
Inductive ev :=
| EReady (k : Z) (exists_ : bool)
| ESnap (k : Z)
| EAck (k : Z)
| EAckAll
| EDrop (k : Z)
| EFree (k : Z)
| ETrunc (k : Z)
| EMedia (k : Z)
| ELost (k : Z)
| EStart (f : file)
| EStored (f : file)
| ECut (id : Z).

(* The channel: ngx_live_segment_index_channel_ctx_t (s_all stands for both the
   tree and the queue of all indexes), ngx_live_persist_index_channel_ctx_t,
   ngx_live_channel_t (next_segment_index, min_segment_index, snapshots), the
   last bucket of ngx_live_persist_media_channel_ctx_t, and the two files in
   storage.  s_top (the last index that was created) and s_hv (how many times
   the history changed) are not in the code.  s_orc says what the world does
   next; when it is empty, everything works. *)
Record st := St {
  s_all : list idx;
  s_pend : list Z;
  s_done : list Z;
  s_last : option Z;
  s_next : Z;
  s_min : Z;
  s_top : Z;
  s_bucket : option Z;
  s_wr : option file;
  s_wfr : option Z;
  s_psnap : option isnap;
  s_succ : Z;
  s_succd : Z;
  s_hist : Z;
  s_hv : Z;
  s_snaps : Z;
  s_index : option file;
  s_delta : option file;
  s_orc : list bool;
  s_out : list ev;
  s_err : bool;
  s_ub : bool
}.

(* The configuration: persist_bucket_size, force_memory_segments,
   persist_max_delta_segments, whether there is a path for delta files, and
   the initial_segment_index of the channel. *)
Record conf := Conf {
  c_bucket : Z;
  c_force : Z;
  c_maxd : Z;
  c_delta : bool;
  c_init : Z
}.

Definition set_all (s : st) (l : list idx) : st :=
  St l (s_pend s) (s_done s) (s_last s) (s_next s) (s_min s) (s_top s)
     (s_bucket s) (s_wr s) (s_wfr s) (s_psnap s) (s_succ s) (s_succd s)
     (s_hist s) (s_hv s) (s_snaps s) (s_index s) (s_delta s) (s_orc s)
     (s_out s) (s_err s) (s_ub s).

Definition set_queues (s : st) (p d : list Z) : st :=
  St (s_all s) p d (s_last s) (s_next s) (s_min s) (s_top s)
     (s_bucket s) (s_wr s) (s_wfr s) (s_psnap s) (s_succ s) (s_succd s)
     (s_hist s) (s_hv s) (s_snaps s) (s_index s) (s_delta s) (s_orc s)
     (s_out s) (s_err s) (s_ub s).

Definition set_last (s : st) (k : Z) : st :=
  St (s_all s) (s_pend s) (s_done s) (Some k) (s_next s) (s_min s) (s_top s)
     (s_bucket s) (s_wr s) (s_wfr s) (s_psnap s) (s_succ s) (s_succd s)
     (s_hist s) (s_hv s) (s_snaps s) (s_index s) (s_delta s) (s_orc s)
     (s_out s) (s_err s) (s_ub s).

Definition set_next (s : st) (n : Z) : st :=
  St (s_all s) (s_pend s) (s_done s) (s_last s) n (s_min s) (s_top s)
     (s_bucket s) (s_wr s) (s_wfr s) (s_psnap s) (s_succ s) (s_succd s)
     (s_hist s) (s_hv s) (s_snaps s) (s_index s) (s_delta s) (s_orc s)
     (s_out s) (s_err s) (s_ub s).

Definition set_min (s : st) (n : Z) : st :=
  St (s_all s) (s_pend s) (s_done s) (s_last s) (s_next s) n (s_top s)
     (s_bucket s) (s_wr s) (s_wfr s) (s_psnap s) (s_succ s) (s_succd s)
     (s_hist s) (s_hv s) (s_snaps s) (s_index s) (s_delta s) (s_orc s)
     (s_out s) (s_err s) (s_ub s).

Definition set_top (s : st) (k : Z) : st :=
  St (s_all s) (s_pend s) (s_done s) (s_last s) (s_next s) (s_min s) k
     (s_bucket s) (s_wr s) (s_wfr s) (s_psnap s) (s_succ s) (s_succd s)
     (s_hist s) (s_hv s) (s_snaps s) (s_index s) (s_delta s) (s_orc s)
     (s_out s) (s_err s) (s_ub s).

Definition set_bucket (s : st) (b : option Z) : st :=
  St (s_all s) (s_pend s) (s_done s) (s_last s) (s_next s) (s_min s) (s_top s)
     b (s_wr s) (s_wfr s) (s_psnap s) (s_succ s) (s_succd s)
     (s_hist s) (s_hv s) (s_snaps s) (s_index s) (s_delta s) (s_orc s)
     (s_out s) (s_err s) (s_ub s).

Definition set_write (s : st) (w : option file) (f : option Z) : st :=
  St (s_all s) (s_pend s) (s_done s) (s_last s) (s_next s) (s_min s) (s_top s)
     (s_bucket s) w f (s_psnap s) (s_succ s) (s_succd s)
     (s_hist s) (s_hv s) (s_snaps s) (s_index s) (s_delta s) (s_orc s)
     (s_out s) (s_err s) (s_ub s).

Definition set_psnap (s : st) (p : option isnap) : st :=
  St (s_all s) (s_pend s) (s_done s) (s_last s) (s_next s) (s_min s) (s_top s)
     (s_bucket s) (s_wr s) (s_wfr s) p (s_succ s) (s_succd s)
     (s_hist s) (s_hv s) (s_snaps s) (s_index s) (s_delta s) (s_orc s)
     (s_out s) (s_err s) (s_ub s).

Definition set_succ (s : st) (a d : Z) : st :=
  St (s_all s) (s_pend s) (s_done s) (s_last s) (s_next s) (s_min s) (s_top s)
     (s_bucket s) (s_wr s) (s_wfr s) (s_psnap s) a d
     (s_hist s) (s_hv s) (s_snaps s) (s_index s) (s_delta s) (s_orc s)
     (s_out s) (s_err s) (s_ub s).

Definition set_hist (s : st) (h v : Z) : st :=
  St (s_all s) (s_pend s) (s_done s) (s_last s) (s_next s) (s_min s) (s_top s)
     (s_bucket s) (s_wr s) (s_wfr s) (s_psnap s) (s_succ s) (s_succd s)
     h v (s_snaps s) (s_index s) (s_delta s) (s_orc s)
     (s_out s) (s_err s) (s_ub s).

Definition set_snaps (s : st) (n : Z) : st :=
  St (s_all s) (s_pend s) (s_done s) (s_last s) (s_next s) (s_min s) (s_top s)
     (s_bucket s) (s_wr s) (s_wfr s) (s_psnap s) (s_succ s) (s_succd s)
     (s_hist s) (s_hv s) n (s_index s) (s_delta s) (s_orc s)
     (s_out s) (s_err s) (s_ub s).

Definition set_files (s : st) (i d : option file) : st :=
  St (s_all s) (s_pend s) (s_done s) (s_last s) (s_next s) (s_min s) (s_top s)
     (s_bucket s) (s_wr s) (s_wfr s) (s_psnap s) (s_succ s) (s_succd s)
     (s_hist s) (s_hv s) (s_snaps s) i d (s_orc s)
     (s_out s) (s_err s) (s_ub s).

Definition set_orc (s : st) (o : list bool) : st :=
  St (s_all s) (s_pend s) (s_done s) (s_last s) (s_next s) (s_min s) (s_top s)
     (s_bucket s) (s_wr s) (s_wfr s) (s_psnap s) (s_succ s) (s_succd s)
     (s_hist s) (s_hv s) (s_snaps s) (s_index s) (s_delta s) o
     (s_out s) (s_err s) (s_ub s).

Definition emit (s : st) (e : ev) : st :=
  St (s_all s) (s_pend s) (s_done s) (s_last s) (s_next s) (s_min s) (s_top s)
     (s_bucket s) (s_wr s) (s_wfr s) (s_psnap s) (s_succ s) (s_succd s)
     (s_hist s) (s_hv s) (s_snaps s) (s_index s) (s_delta s) (s_orc s)
     (e :: s_out s) (s_err s) (s_ub s).

Definition fail (s : st) : st :=
  St (s_all s) (s_pend s) (s_done s) (s_last s) (s_next s) (s_min s) (s_top s)
     (s_bucket s) (s_wr s) (s_wfr s) (s_psnap s) (s_succ s) (s_succd s)
     (s_hist s) (s_hv s) (s_snaps s) (s_index s) (s_delta s) (s_orc s)
     (s_out s) true (s_ub s).

Definition ub (s : st) : st :=
  St (s_all s) (s_pend s) (s_done s) (s_last s) (s_next s) (s_min s) (s_top s)
     (s_bucket s) (s_wr s) (s_wfr s) (s_psnap s) (s_succ s) (s_succd s)
     (s_hist s) (s_hv s) (s_snaps s) (s_index s) (s_delta s) (s_orc s)
     (s_out s) (s_err s) true.

Definition idx_per (p : pst) (x : idx) : idx :=
  Idx (x_key x) p (x_snap x) (x_bad x) (x_free x) (x_cln x).
Definition idx_snap (n : option isnap) (x : idx) : idx :=
  Idx (x_key x) (x_per x) n false (x_free x) (x_cln x).
Definition idx_bad (x : idx) : idx :=
  Idx (x_key x) (x_per x) (x_snap x) true (x_free x) (x_cln x).
Definition idx_free (x : idx) : idx :=
  Idx (x_key x) (x_per x) (x_snap x) (x_bad x) true (x_cln x).
Definition idx_cln (l : list cln) (x : idx) : idx :=
  Idx (x_key x) (x_per x) (x_snap x) (x_bad x) (x_free x) l.

Definition is_none (p : pst) : bool := match p with PNone => true | _ => false end.
Definition is_ok (p : pst) : bool := match p with POk => true | _ => false end.

(* ngx_live_segment_index_get, ngx_live_segment_index.c:344-375. *)
Fixpoint find (k : Z) (l : list idx) : option idx :=
  match l with
  | [] => None
  | x :: r => if x_key x =? k then Some x else find k r
  end.

(* ngx_live_segment_index_get_first, ngx_live_segment_index.c:378-425: the first
   index whose key is not less than the argument. *)
Fixpoint first_ge (k : Z) (l : list idx) : option idx :=
  match l with
  | [] => None
  | x :: r => if k <=? x_key x then Some x else first_ge k r
  end.

(* A field of one index is set. *)
Definition upd (k : Z) (f : idx -> idx) (s : st) : st :=
  set_all s (map (fun x => if x_key x =? k then f x else x) (s_all s)).

Definition drop_key (k : Z) (l : list Z) : list Z :=
  filter (fun a => negb (a =? k)) l.

(* The index is removed from the tree and from its two queues,
   ngx_live_segment_index.c:132-134. *)
Definition remove (k : Z) (s : st) : st :=
  set_queues (set_all s (filter (fun x => negb (x_key x =? k)) (s_all s)))
    (drop_key k (s_pend s)) (drop_key k (s_done s)).

(* What the world does next. *)
Definition pop (s : st) : bool * st :=
  match s_orc s with
  | [] => (true, s)
  | b :: r => (b, set_orc s r)
  end.

(* ngx_live_persist_snap_frames_free, ngx_live_persist_snap_frames.c:19-34. *)
Definition frames_free (s : st) : st :=
  if s_snaps s <=? 0 then s else set_snaps s (s_snaps s - 1).

(* ngx_live_persist_snap_frames_close, ngx_live_persist_snap_frames.c:37-90: with
   close_ack and close_write the frames are acknowledged, with close_free they
   are not.  (A snapshot that was not updated yet, as its segment was not closed
   yet, acknowledges nothing, lines 52-54; this is not modelled.) *)
Definition frames_ack (s : st) (fr : Z) : st := frames_free (emit s (EAck fr)).
Definition frames_drop (s : st) (fr : Z) : st := frames_free (emit s (EDrop fr)).

(* ngx_live_persist_index_snap_free, ngx_live_persist_index.c:153-159, and
   ngx_live_persist_index_snap_close with close_free, 180-182. *)
Definition close_free (s : st) (n : isnap) : st := frames_drop s (sn_fr n).

(* ngx_live_persist_index_snap_close with close_ack,
   ngx_live_persist_index.c:184-201. *)
Definition close_ack (s : st) (n : isnap) : st :=
  match s_psnap s with
  | Some p =>
      set_psnap (frames_drop s (sn_fr p)) (Some (Isnap (sn_max p) (sn_fr n)))
  | None =>
      match s_wr s, s_wfr s with
      | Some w, Some f => set_write (frames_drop s f) (Some w) (Some (sn_fr n))
      | Some w, None => ub s
      | None, _ => frames_ack s (sn_fr n)
      end
  end.

Definition sub32 (a b : Z) : Z := (a - b) mod 4294967296.

(* Which file is written: ngx_live_persist_index.c:233-252. *)
Definition scope_of (c : conf) (s : st) (m : Z) : file :=
  if c_delta c && (c_maxd c <? m - s_min s + 1)
     && (sub32 m (s_succ s) <=? c_maxd c) && (s_hist s =? 0)
  then File true (s_succ s + 1) m (s_hv s)
  else File false (s_min s) m (s_hv s).

(* ngx_live_persist_index_snap_close with close_write,
   ngx_live_persist_index.c:208-275.  The write is started when the world says
   so: ngx_live_persist_core_write_file fails when memory is short. *)
Definition close_write (c : conf) (s : st) (n : isnap) : st :=
  match s_wr s with
  | Some _ =>
      let s := match s_psnap s with Some p => close_free s p | None => s end in
      set_psnap s (Some n)
  | None =>
      if sn_max n <? s_min s then frames_ack s (sn_fr n)
      else
        let f := scope_of c s (sn_max n) in
        let s := if fi_delta f then s
                 else if s_hist s <=? sn_max n then set_hist s 0 (s_hv s) else s in
        let '(b, s) := pop s in
        if b then set_write (emit s (EStart f)) (Some f) (Some (sn_fr n))
        else frames_ack s (sn_fr n)
  end.

(* ngx_live_segment_index_free, ngx_live_segment_index.c:98-140; t is what
   'truncate' points to. *)
Definition free_idx (nofree : bool) (s : st) (t : Z) (k : Z) : st * Z :=
  if nofree then (s, t) else
  match find k (s_all s) with
  | None => (ub s, t)
  | Some x =>
      let t' := if x_free x then t else if is_ok (x_per x) then t else k in
      let s := if x_free x then s else emit (upd k idx_free s) (EFree k) in
      let s := if x_bad x then ub s else s in
      let s := match x_snap x with
               | Some n => upd k (idx_snap None) (close_ack s n)
               | None => s
               end in
      match x_cln x with
      | [] => (remove k s, t')
      | _ => (s, t')
      end
  end.

(* The loop in ngx_live_segment_index_free_non_forced,
   ngx_live_segment_index.c:167-178. *)
Fixpoint free_upto (nofree : bool) (lim : Z) (ks : list Z) (s : st) (t : Z) : st * Z :=
  match ks with
  | [] => (s, t)
  | k :: r =>
      if lim <? k then (s, t)
      else let '(s, t) := free_idx nofree s t k in free_upto nofree lim r s t
  end.

(* if (truncate) { ... }: ngx_live_segment_index.c:180-186 and 653-659. *)
Definition truncate (s : st) (t : Z) : st :=
  if t =? 0 then s else emit s (ETrunc t).

(* ngx_live_segment_index_free_non_forced, ngx_live_segment_index.c:143-187. *)
Definition free_non_forced (c : conf) (nofree : bool) (s : st) : st :=
  match s_last s with
  | None => s
  | Some l =>
      if l <? c_force c then s
      else let '(s, t) := free_upto nofree (l - c_force c) (s_done s) s 0 in
           truncate s t
  end.

(* ngx_live_segment_index_get_insert_pos, ngx_live_segment_index.c:428-447: the
   queue is cut after the last entry with a lower key. *)
Fixpoint ins_pos (k : Z) (l : list Z) : list Z * list Z :=
  match l with
  | [] => ([], [])
  | a :: r =>
      let '(p, q) := ins_pos k r in
      match p with
      | [] => if a <? k then ([a], q) else ([], a :: q)
      | _ => (a :: p, q)
      end
  end.

(* The entry before k in the queue of pending indexes,
   ngx_live_segment_index.c:507-513. *)
Fixpoint before (k : Z) (prev : option Z) (l : list Z) : option Z :=
  match l with
  | [] => None
  | a :: r => if a =? k then prev else before k (Some a) r
  end.

(* The loop in ngx_live_segment_index_persisted, ngx_live_segment_index.c:525-551,
   but for the queues: every index of the range gets its result, and the last
   snapshot in the range is taken out. *)
Fixpoint mark (ok : bool) (ks : list Z) (s : st) (cur : option isnap) : st * option isnap :=
  match ks with
  | [] => (s, cur)
  | k :: r =>
      let s := upd k (idx_per (if ok then POk else PErr)) s in
      let s := emit s (if ok then EMedia k else ELost k) in
      match find k (s_all s) with
      | None => mark ok r s cur
      | Some x =>
          let s := if x_bad x then ub s else s in
          match x_snap x with
          | None => mark ok r s cur
          | Some n =>
              let s := match cur with Some m => close_free s m | None => s end in
              mark ok r (upd k (idx_snap None) s) (Some n)
          end
      end
  end.

(* ngx_live_segment_index_persisted, ngx_live_segment_index.c:456-577.  The
   segments are [lo, hi).  Moving an index that is in the queue 'done' already
   would insert it next to itself. *)
Definition persisted (c : conf) (nofree : bool) (s : st) (lo hi : Z) (ok : bool) : st :=
  match first_ge lo (s_all s) with
  | None => s
  | Some x =>
      if hi <=? x_key x then s
      else if negb (is_none (x_per x)) then s
      else
        let range := filter (fun y => (x_key x <=? x_key y) && (x_key y <? hi)) (s_all s) in
        let ks := map x_key range in
        let s := if existsb (fun y => negb (is_none (x_per y))) range then ub s else s in
        let prev := before (x_key x) None (s_pend s) in
        let '(p, q) := ins_pos (x_key x) (s_done s) in
        let s := set_queues s
                   (filter (fun k => negb (existsb (Z.eqb k) ks)) (s_pend s))
                   (p ++ ks ++ q) in
        let '(s, snap) := mark ok ks s None in
        let s := free_non_forced c nofree s in
        match snap with
        | None => s
        | Some n =>
            if negb ok && negb (hi <=? sn_max n) then close_ack s n
            else
              match prev with
              | None => close_write c s n
              | Some k =>
                  match find k (s_all s) with
                  | None => ub s
                  | Some y =>
                      let s := if x_bad y then ub s else s in
                      let s := match x_snap y with
                               | Some m => close_free s m
                               | None => s
                               end in
                      upd k (idx_snap (Some n)) s
                  end
              end
        end
  end.

(* ngx_live_segment_index_create, ngx_live_segment_index.c:190-221. *)
Definition create (s : st) (k : Z) : st :=
  let s := set_all s (s_all s ++ [Idx k PNone None false false []]) in
  set_top (set_queues s (s_pend s ++ [k]) (s_done s)) k.

Definition last_idx (l : list idx) : option idx :=
  match rev l with [] => None | x :: _ => Some x end.

(* ngx_live_segment_index_create_snap, ngx_live_segment_index.c:224-254, with
   ngx_live_persist_index_snap_create, ngx_live_persist_index.c:306-365.  ok:
   there was memory for the snapshot; if not, NGX_LIVE_PERSIST_INVALID_SNAP
   stays in index->snap. *)
Definition create_snap (s : st) (ok : bool) : st :=
  match last_idx (s_all s) with
  | None => ub s
  | Some x =>
      if x_bad x then fail s else
      match x_snap x with
      | Some _ => fail s
      | None =>
          let k := x_key x in
          if ok then
            set_snaps (emit (upd k (idx_snap (Some (Isnap k k))) s) (ESnap k))
              (s_snaps s + 1)
          else fail (upd k idx_bad s)
      end
  end.

(* Where the write of a media file leaves its cleanup entry,
   ngx_live_persist_media.c:985-1052: at the first index of the bucket that has
   a segment.  (An index that was not freed has one.) *)
Definition media_holder (lo hi : Z) (l : list idx) : option Z :=
  match filter (fun x => (lo <=? x_key x) && (x_key x <? hi) && negb (x_free x)) l with
  | [] => None
  | x :: _ => Some (x_key x)
  end.

(* ngx_live_persist_media_write_file, ngx_live_persist_media.c:1173-1235.  The
   write is not started when memory is low or when there is nothing to write. *)
Definition write_file (c : conf) (s : st) (b : Z) : st :=
  let lo := b * c_bucket c in
  let hi := lo + c_bucket c in
  let '(go, s) := pop s in
  match media_holder lo hi (s_all s) with
  | Some k =>
      if go then
        upd k (fun x => idx_cln (x_cln x ++ [CWrite b]) x) s
      else persisted c false s lo hi false
  | None => persisted c false s lo hi false
  end.

(* ngx_live_persist_media_write_segment_created,
   ngx_live_persist_media.c:1238-1290. *)
Definition segment_created (c : conf) (s : st) (ex : bool) : st :=
  let k := s_next s in
  let b := k / c_bucket c in
  let s := match s_bucket s with
           | Some l => if l =? b then s
                       else set_bucket (write_file c s l) None
           | None => s
           end in
  if negb ((k + 1) mod c_bucket c =? 0)
  then if ex then set_bucket s (Some b) else s
  else
    match s_bucket s, ex with
    | None, false => s
    | _, _ => set_bucket (write_file c s b) None
    end.

(* ngx_live_segment_index_ready, ngx_live_segment_index.c:257-321, and the
   increment of next_segment_index in its callers, ngx_live_segmenter.c:3088 and
   ngx_live_segmenter_ll.c:2057.  (That the snapshot can fail to be updated,
   line 301, is not modelled.) *)
Definition ready (c : conf) (s : st) (ex : bool) : st :=
  match find (s_next s) (s_all s) with
  | None => fail s
  | Some x =>
      let late := match s_last s with Some l => x_key x <=? l | None => false end in
      if late then fail s
      else
        let k := x_key x in
        let s := emit (set_last s k) (EReady k ex) in
        let s := if ex then (if x_bad x then ub s else s)
                 else fst (free_idx false s 0 k) in
        let s := free_non_forced c false s in
        let s := if s_snaps s <=? 0 then emit s EAckAll else s in
        let s := segment_created c s ex in
        set_next s (s_next s + 1)
  end.

Definition is_cw (b : Z) (e : cln) : bool :=
  match e with CWrite a => a =? b | CRead _ => false end.
Definition is_cr (i : Z) (e : cln) : bool :=
  match e with CRead a => a =? i | CWrite _ => false end.

(* An entry is taken off the cleanup queue of the index it is in:
   ngx_live_segment_index_unlock, ngx_live_segment_index.c:715-727. *)
Definition unlock (p : cln -> bool) (s : st) : st :=
  set_all s (map (fun x => idx_cln (filter (fun e => negb (p e)) (x_cln x)) x) (s_all s)).

(* ngx_live_persist_media_write_complete, ngx_live_persist_media.c:1118-1152:
   destroying the write context takes its entry off the queue. *)
Definition media_done (c : conf) (nofree : bool) (s : st) (b : Z) (ok : bool) : st :=
  persisted c nofree (unlock (is_cw b) s) (b * c_bucket c)
    (b * c_bucket c + c_bucket c) ok.

(* ngx_live_segment_index_cleanup, ngx_live_segment_index.c:580-597: the write of
   a media file is cancelled (ngx_live_persist_media.c:1155-1170), a reader is
   cut off. *)
Fixpoint cleanup (c : conf) (l : list cln) (s : st) : st :=
  match l with
  | [] => s
  | CWrite b :: r => cleanup c r (media_done c true s b false)
  | CRead i :: r => cleanup c r (emit (unlock (is_cr i) s) (ECut i))
  end.

(* The loop in ngx_live_segment_index_watermark,
   ngx_live_segment_index.c:615-651.  The world says whether memory is still
   below the low watermark. *)
Fixpoint watermark_loop (c : conf) (ks : list Z) (s : st) (t : Z) : st * Z :=
  match ks with
  | [] => (s, t)
  | k :: r =>
      let '(low, s) := pop s in
      if negb low then (s, t)
      else if s_next s <=? k then (s, t)
      else
        match find k (s_all s) with
        | None => (ub s, t)
        | Some x =>
            let s := cleanup c (x_cln x) s in
            match find k (s_all s) with
            | None => (ub s, t)
            | Some y =>
                match x_cln y with
                | [] => let '(s, t) := free_idx false s t k in watermark_loop c r s t
                | _ => (s, t)
                end
            end
        end
  end.

(* ngx_live_segment_index_watermark, ngx_live_segment_index.c:600-662. *)
Definition watermark (c : conf) (s : st) : st :=
  let '(s, t) := watermark_loop c (map x_key (s_all s)) s 0 in
  truncate s t.

(* The loop in ngx_live_segment_index_segment_free,
   ngx_live_segment_index.c:678-692. *)
Fixpoint free_below (m : Z) (ks : list Z) (s : st) : st :=
  match ks with
  | [] => s
  | k :: r => if m <=? k then s else free_below m r (fst (free_idx false s 0 k))
  end.

(* ngx_live_timelines_free_old_segments, ngx_live_timeline.c:1688-1706, and
   ngx_live_segment_index_segment_free, ngx_live_segment_index.c:665-695. *)
Definition expire (s : st) (m : Z) : st :=
  let s := set_min s m in
  free_below m (map x_key (s_all s)) s.

(* ngx_live_persist_index_write_complete, ngx_live_persist_index.c:684-738.  The
   file in storage is replaced when the write is reported as done; when it is
   reported as failed, it may have been replaced (stored). *)
Definition write_done (c : conf) (s : st) (ok stored : bool) : st :=
  match s_wr s, s_wfr s with
  | Some f, Some fr =>
      let s := set_write (frames_ack s fr) None None in
      let s := if ok || stored
               then if fi_delta f then set_files s (s_index s) (Some f)
                    else set_files s (Some f) (s_delta s)
               else s in
      let s := if ok
               then emit (if fi_delta f then set_succ s (s_succ s) (fi_max f)
                          else set_succ s (fi_max f) (s_succd s)) (EStored f)
               else s in
      match s_psnap s with
      | Some n => close_write c (set_psnap s None) n
      | None => s
      end
  | _, _ => ub s
  end.

(* ngx_round_up_to_multiple. *)
Definition round_up (n b : Z) : Z := (n + b - 1) / b * b.

(* ngx_live_persist_media_channel_inactive, ngx_live_persist_media.c:1587-1640. *)
Definition inactive (c : conf) (s : st) : st :=
  let s := match s_bucket s with
           | Some b => set_bucket (write_file c s b) None
           | None => s
           end in
  set_next s (round_up (s_next s) (c_bucket c)).

(* ngx_live_persist_index_channel_history_changed,
   ngx_live_persist_index.c:872-887. *)
Definition history_changed (s : st) : st := set_hist s (s_next s) (s_hv s + 1).

(* The loop in ngx_live_segment_index_channel_free,
   ngx_live_segment_index.c:804-821.  index->snap is not set to NULL. *)
Fixpoint free_loop (c : conf) (ks : list Z) (s : st) : st :=
  match ks with
  | [] => s
  | k :: r =>
      match find k (s_all s) with
      | None => ub s
      | Some x =>
          let s := cleanup c (x_cln x) s in
          match find k (s_all s) with
          | None => ub s
          | Some y =>
              let s := if x_bad y then ub s else s in
              let s := match x_snap y with
                       | Some n => upd k idx_bad (close_free s n)
                       | None => s
                       end in
              free_loop c r s
          end
      end
  end.

(* ngx_live_segment_index_channel_free, ngx_live_segment_index.c:790-824, then
   ngx_live_persist_index_channel_free, ngx_live_persist_index.c:834-869 (the
   order of the modules in nginx-live-module/config:37-44). *)
Definition channel_free (c : conf) (s : st) : st :=
  let s := free_loop c (map x_key (s_all s)) s in
  let s := match s_wfr s with
           | Some f => set_write (frames_drop s f) None None
           | None => s
           end in
  match s_psnap s with
  | Some n => set_psnap (close_free s n) None
  | None => s
  end.

(* What can happen to a channel: an index is created ahead of its segment being
   closed (low latency, ngx_live_segmenter_ll.c:911) or with it
   (ngx_live_segmenter.c:3083); a snapshot is taken; a segment is closed; the
   write of a media file ends; a reader comes and goes; the write of an index
   or delta file ends; memory is short; old segments leave the timelines; the
   history of a timeline changes; no track is active any more; the channel is
   freed. *)
Inductive op :=
| ICreate (k : Z)
| ISnap (ok : bool)
| IReady (ex : bool)
| IMediaDone (b : Z) (ok : bool)
| ILock (k : Z) (id : Z)
| IUnlock (id : Z)
| IWriteDone (ok stored : bool)
| IWatermark
| IExpire (m : Z)
| IHist
| IInactive
| IFree.

Definition step (c : conf) (s : st) (o : op) : st :=
  match o with
  | ICreate k => create s k
  | ISnap ok => create_snap s ok
  | IReady ex => ready c s ex
  | IMediaDone b ok => media_done c false s b ok
  | ILock k i => upd k (fun x => idx_cln (x_cln x ++ [CRead i]) x) s
  | IUnlock i => unlock (is_cr i) s
  | IWriteDone ok stored => write_done c s ok stored
  | IWatermark => watermark c s
  | IExpire m => expire s m
  | IHist => history_changed s
  | IInactive => inactive c s
  | IFree => channel_free c s
  end.

(* A new channel, ngx_live_channel.c:372 and the channel_init handlers.  s_min is
   0 until the first segment is added to a timeline, which is before anything
   looks at it (ngx_live_segmenter.c:3065, 3083); it starts at the first segment
   here. *)
Definition init (c : conf) (orc : list bool) : st :=
  St [] [] [] None (c_init c) (c_init c) (c_init c - 1) None None None None 0 0 0 0 0
     None None orc [] false false.

(* What a restart makes of the two files: ngx_live_persist_core.c (setup, then
   index, then delta; no index file, no delta) and
   ngx_live_persist_index_read_channel, ngx_live_persist_index.c:402-474.  The
   result is the list of the ranges of segments that were read, or nothing when
   a file is refused. *)
Definition read_file (c : conf) (next : Z) (f : file) : option (list (Z * Z) * Z) :=
  if fi_max f <? fi_min f then None
  else if negb (next =? c_init c) && negb (fi_min f =? next) then Some ([], next)
  else Some ([(fi_min f, fi_max f)], fi_max f + 1).

Definition restore (c : conf) (i d : option file) : option (list (Z * Z) * Z) :=
  match i with
  | None => Some ([], c_init c)
  | Some f =>
      match read_file c (c_init c) f with
      | None => None
      | Some (l, n) =>
          match d with
          | None => Some (l, n)
          | Some g =>
              match read_file c n g with
              | None => None
              | Some (l', n') => Some (l ++ l', n')
              end
          end
      end
  end.
