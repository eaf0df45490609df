(* Model of the sending side of KMP: nginx-kmp-out-module/src/
   ngx_kmp_out_upstream.c (one connection to a receiver) and
   ngx_kmp_out_track.c (the buffers of a track and its receivers).

   The bytes of a track are kept in a queue of buffers of equal size.  Here
   they are one list, [t_stream], of every byte written so far, and a position
   is an offset in it: buffer number i holds the bytes [i*size, (i+1)*size).
   [t_nbufs] buffers were taken from the allocator and the first [t_base] of
   them were released.  ngx_buf_queue_stream_t is an offset: reading through it
   succeeds when a byte follows in an allocated buffer (BufQueueStreamModel has
   the node by node version).  Reading a released buffer or a byte that was not
   written is the outcome [RdFreed]/[RdUnwritten].

   Left out: logging, statistics other than last_frame_written, the JSON
   status, name resolution, the HTTP body of a publish/republish call, the
   timers (each may fire at any time), pool allocation failures, and the
   ngx_chain_t links of the unsent data (kept as one byte string).  The header
   of a frame written with ngx_kmp_out_track_write_frame_start/_end is filled in
   at the end, when nothing can have looked at it; here it is written at once.
   Frame ids and offsets do not wrap around. *)
From Coq Require Import ZArith List Bool.
From Verif Require Import Bytes KmpInModel.
Import ListNotations.
Open Scope Z_scope.

Definition zlen {A} (l : list A) : Z := Z.of_nat (length l).

(* the bytes [from, to) of l *)
Definition slice (from to : Z) (l : list Z) : list Z :=
  firstn (Z.to_nat (to - from)) (skipn (Z.to_nat from) l).

(* ngx_kmp_out_upstream.h:13-17 ngx_kmp_out_resume_from_e *)
Inductive mode := LastAcked | LastSent | LastWritten.
Definition is_acked (m : mode) : bool := match m with LastAcked => true | _ => false end.
Definition is_written (m : mode) : bool := match m with LastWritten => true | _ => false end.

(* ngx_kmp_out_upstream.h:20-86 ngx_kmp_out_upstream_t.  [u_out] is history:
   the bytes the current connection has accepted. *)
Record upstream := mkUp {
  u_id : nat;
  u_mode : mode;                 (* resume_from *)
  u_required : bool;
  u_reader : Z;                  (* acked_reader *)
  u_acked_id : Z;                (* acked_frame_id *)
  u_up_id : Z;                   (* acked_upstream_frame_id *)
  u_offset : Z;                  (* acked_offset *)
  u_media_info : list Z;         (* acked_media_info *)
  u_acked_bytes : Z;
  u_sent_base : Z;
  u_connect_data : list Z;
  u_conn : option Z;             (* peer.connection, with connection->sent *)
  u_queued : bool;               (* last != NULL: the connect packet was queued *)
  u_busy : list Z;               (* the unsent data *)
  u_calling : bool;              (* republish_call != NULL || republish.timer_set *)
  u_no_republish : bool;
  u_out : list Z }.

(* The configuration, and the fields of the connect packet that are set when
   the track is created and published (ngx_kmp_out_track.c:386-391, 1622). *)
Record conf := mkConf {
  c_bufsize : Z;                 (* buf_queue.used_size *)
  c_names : list Z;              (* channel_id, track_id *)
  c_flags : Z;
  c_initial : Z;                 (* initial_frame_id *)
  c_initial_up : Z;              (* initial_upstream_frame_id *)
  c_republish_url : bool }.      (* ctrl_republish_url != NULL *)

(* ngx_kmp_out_track.h ngx_kmp_out_track_t *)
Record track := mkTrack {
  t_stream : list Z;
  t_appended : Z;                (* position of active_buf.pos *)
  t_nbufs : Z;
  t_base : Z;
  t_last_frame : Z;              (* stats.last_frame_written *)
  t_ups : list upstream;         (* upstreams *)
  t_next : nat;
  t_published : bool;
  t_active : bool;               (* state == NGX_KMP_TRACK_ACTIVE *)
  t_dead : bool }.               (* reported an error to its owner *)

(* What the outside world answers during one event: how much memory is missing
   at each turn of the watermark loop, whether the allocator has another
   buffer, which sockets take how many bytes (None: failure), and whether a
   reconnection is within its limits, immediate, and its HTTP call can be made. *)
Record world := mkWorld {
  w_mem : list Z;
  w_get : Z -> bool;
  w_pending : bool;
  w_send : nat -> option nat;
  w_allowed : nat -> bool;
  w_now : nat -> bool;
  w_http : nat -> bool }.

Inductive rd := RdOk (b : list Z) | RdFail | RdUnwritten | RdFreed.

(* ngx_buf_queue_stream.c:127-218 ngx_buf_queue_stream_read, _skip: the reader
   must end inside an allocated buffer *)
Definition stream_read (c : conf) (t : track) (off n : Z) : rd :=
  if off <? t_base t * c_bufsize c then RdFreed
  else if t_nbufs t * c_bufsize c <=? off + n then RdFail
  else if zlen (t_stream t) <? off + n then RdUnwritten
  else RdOk (slice off (off + n) (t_stream t)).

(* setters *)
Definition set_reader (u : upstream) (r : Z) : upstream :=
  mkUp (u_id u) (u_mode u) (u_required u) r (u_acked_id u) (u_up_id u) (u_offset u)
    (u_media_info u) (u_acked_bytes u) (u_sent_base u) (u_connect_data u) (u_conn u)
    (u_queued u) (u_busy u) (u_calling u) (u_no_republish u) (u_out u).
Definition set_acked (u : upstream) (r id : Z) (mi : list Z) (bytes : Z) : upstream :=
  mkUp (u_id u) (u_mode u) (u_required u) r id (u_up_id u) (u_offset u)
    mi bytes (u_sent_base u) (u_connect_data u) (u_conn u)
    (u_queued u) (u_busy u) (u_calling u) (u_no_republish u) (u_out u).
Definition set_up_id (u : upstream) (id off : Z) : upstream :=
  mkUp (u_id u) (u_mode u) (u_required u) (u_reader u) (u_acked_id u) id off
    (u_media_info u) (u_acked_bytes u) (u_sent_base u) (u_connect_data u) (u_conn u)
    (u_queued u) (u_busy u) (u_calling u) (u_no_republish u) (u_out u).
Definition set_io (u : upstream) (base : Z) (cn : option Z) (q : bool) (busy out : list Z)
    : upstream :=
  mkUp (u_id u) (u_mode u) (u_required u) (u_reader u) (u_acked_id u) (u_up_id u)
    (u_offset u) (u_media_info u) (u_acked_bytes u) base (u_connect_data u) cn
    q busy (u_calling u) (u_no_republish u) out.
Definition set_calling (u : upstream) (b : bool) : upstream :=
  mkUp (u_id u) (u_mode u) (u_required u) (u_reader u) (u_acked_id u) (u_up_id u)
    (u_offset u) (u_media_info u) (u_acked_bytes u) (u_sent_base u) (u_connect_data u)
    (u_conn u) (u_queued u) (u_busy u) b (u_no_republish u) (u_out u).
Definition set_data (u : upstream) (d : list Z) : upstream :=
  mkUp (u_id u) (u_mode u) (u_required u) (u_reader u) (u_acked_id u) (u_up_id u)
    (u_offset u) (u_media_info u) (u_acked_bytes u) (u_sent_base u) d
    (u_conn u) (u_queued u) (u_busy u) (u_calling u) (u_no_republish u) (u_out u).
Definition set_no_republish (u : upstream) : upstream :=
  mkUp (u_id u) (u_mode u) (u_required u) (u_reader u) (u_acked_id u) (u_up_id u)
    (u_offset u) (u_media_info u) (u_acked_bytes u) (u_sent_base u) (u_connect_data u)
    (u_conn u) (u_queued u) (u_busy u) (u_calling u) true (u_out u).

(* header_size + data_size is computed on 32 bits *)
Definition packet_size (h : list Z) : Z := u32 (h_header_size h + h_data_size h).

Inductive pk_res := PkOk (u : upstream) | PkDone (u : upstream) | PkErr (u : upstream) | PkBug.

(* ngx_kmp_out_upstream.c:751-822 ngx_kmp_out_upstream_ack_packet *)
Definition ack_packet (c : conf) (t : track) (u : upstream) (h : list Z) : pk_res :=
  let size := packet_size h in
  let body := size - Z.of_nat packet_header_size in
  if h_type h =? pt_media_info then
    match stream_read c t (u_reader u) body with
    | RdOk b => PkOk (set_acked u (u_reader u + body) (u_acked_id u) (h ++ b)
                        (u_acked_bytes u + size))
    | RdFail => PkErr u
    | RdUnwritten | RdFreed => PkBug
    end
  else if h_type h =? pt_frame then
    match stream_read c t (u_reader u) body with
    | RdOk _ => PkOk (set_acked u (u_reader u + body) (u_acked_id u + 1) (u_media_info u)
                        (u_acked_bytes u + size))
    | RdFail => PkErr u
    | RdUnwritten | RdFreed => PkBug
    end
  else if h_type h =? pt_null then
    PkOk (set_acked u (u_reader u) (u_acked_id u) (u_media_info u) (u_acked_bytes u + size))
  else if h_type h =? pt_end then PkDone u
  else PkErr u.

Inductive rp_res := RpOk (u : upstream) (h : list Z) | RpDeclined | RpErr (u : upstream) | RpBug.

(* ngx_kmp_out_upstream.c:825-853 ngx_kmp_out_upstream_read_packet *)
Definition read_packet (c : conf) (t : track) (u : upstream) (limit : Z) : rp_res :=
  let hs := Z.of_nat packet_header_size in
  if limit <? u_acked_bytes u + hs then RpDeclined
  else
    match stream_read c t (u_reader u) hs with
    | RdOk h =>
        if limit <? u_acked_bytes u + packet_size h then RpDeclined
        else RpOk (set_reader u (u_reader u + hs)) h
    | RdFail => RpErr (set_no_republish u)
    | RdUnwritten | RdFreed => RpBug
    end.

Inductive loop_res :=
| LpDeclined (u : upstream) (left count : Z)
| LpDone (u : upstream) (count : Z)
| LpErr (u : upstream)
| LpBug.

(* ngx_kmp_out_upstream.c:878-930, the loop of ngx_kmp_out_upstream_auto_ack
   without the reconnection.  The fuel is the number of packets that may be
   passed; running out of it is a bug. *)
Fixpoint ack_loop (fuel : nat) (c : conf) (t : track) (u : upstream)
    (limit left count : Z) : loop_res :=
  match fuel with
  | O => LpBug
  | S fuel' =>
      match read_packet c t u limit with
      | RpDeclined => LpDeclined u left count
      | RpErr u' => LpErr u'
      | RpBug => LpBug
      | RpOk u1 h =>
          match ack_packet c t u1 h with
          | PkOk u2 =>
              if left <=? packet_size h then LpDone u2 count
              else ack_loop fuel' c t u2 limit (left - packet_size h) (count + 1)
          | PkDone u2 => LpDone u2 count
          | PkErr u2 => LpErr (set_no_republish u2)
          | PkBug => LpBug
          end
      end
  end.

Definition loop_fuel (t : track) : nat := S (length (t_stream t)).

(* NGX_MAX_SIZE_T_VALUE *)
Definition max_size : Z := 2 ^ 64 - 1.

Definition conn_sent (u : upstream) : Z := match u_conn u with Some n => n | None => 0 end.

(* ngx_kmp_out_upstream.c:866-871 *)
Definition ack_limit (t : track) (u : upstream) : Z :=
  if u_queued u then u_sent_base u + conn_sent u else t_last_frame t.

Inductive aa_res := AaOk (u : upstream) (count : Z) | AaErr (u : upstream) | AaBug.

(* ngx_kmp_out_upstream.c:856-938 ngx_kmp_out_upstream_auto_ack with force = 0 *)
Definition auto_ack (c : conf) (t : track) (u : upstream) (left : Z) : aa_res :=
  match ack_loop (loop_fuel t) c t u (ack_limit t u) left 0 with
  | LpDeclined u' _ n | LpDone u' n => AaOk u' n
  | LpErr u' => AaErr u'
  | LpBug => AaBug
  end.

Inductive rep_res := RepOk (u : upstream) | RepDeclined (u : upstream) | RepErr (u : upstream) | RepBug.

(* ngx_kmp_out_upstream.c:600-633 ngx_kmp_out_upstream_republish_send *)
Definition republish_send (w : world) (u : upstream) : rep_res :=
  if w_http w (u_id u) then RepOk (set_calling u true) else RepErr u.

(* ngx_kmp_out_upstream.c:646-730 ngx_kmp_out_upstream_republish *)
Definition republish (c : conf) (t : track) (w : world) (u : upstream) : rep_res :=
  if negb (t_active t) then RepDeclined u
  else if negb (c_republish_url c) || u_no_republish u then RepDeclined u
  else if negb (w_allowed w (u_id u)) then RepDeclined u
  else
    let u1 := set_io u (u_sent_base u) None (u_queued u) (u_busy u) (u_out u) in
    let go (u2 : upstream) :=
      let send (u3 : upstream) :=
        if w_now w (u_id u) then republish_send w u3 else RepOk (set_calling u3 true) in
      if is_written (u_mode u2) then
        match auto_ack c t u2 max_size with
        | AaOk u3 _ => send u3
        | AaErr u3 => RepErr u3
        | AaBug => RepBug
        end
      else send u2 in
    if u_queued u then
      let u2 := set_io u1 (u_sent_base u) None false [] (u_out u) in
      match u_busy u with
      | [] => RepOk u2
      | _ => go u2
      end
    else go u1.

(* ngx_kmp_out_upstream.c:856-938 ngx_kmp_out_upstream_auto_ack with force = 1 *)
Definition auto_ack_force (c : conf) (t : track) (w : world) (u : upstream) (left : Z) : aa_res :=
  match ack_loop (loop_fuel t) c t u (ack_limit t u) left 0 with
  | LpDeclined u1 left1 n =>
      if u_queued u1 then
        match republish c t w u1 with
        | RepErr u2 => AaErr u2
        | RepBug => AaBug
        | RepOk u2 | RepDeclined u2 =>
            if u_queued u2 then AaOk u2 n
            else
              match ack_loop (loop_fuel t) c t u2 (t_last_frame t) left1 (n + 1) with
              | LpDeclined u3 _ m | LpDone u3 m => AaOk u3 m
              | LpErr u3 => AaErr u3
              | LpBug => AaBug
              end
        end
      else AaOk u1 n
  | LpDone u1 n => AaOk u1 n
  | LpErr u1 => AaErr u1
  | LpBug => AaBug
  end.

Inductive up_res := UpOk (u : upstream) | UpErr (u : upstream) | UpBug.

(* ngx_kmp_out_upstream.c:941-992 ngx_kmp_out_upstream_ack_frames *)
Fixpoint ack_frames_loop (fuel : nat) (c : conf) (t : track) (u : upstream)
    (sent frame_id : Z) : up_res :=
  match fuel with
  | O => UpBug
  | S fuel' =>
      if frame_id <=? u_acked_id u then UpOk u
      else if sent <? u_acked_bytes u + Z.of_nat packet_header_size then
        UpErr (set_no_republish u)
      else
        match stream_read c t (u_reader u) (Z.of_nat packet_header_size) with
        | RdFail => UpErr (set_no_republish u)
        | RdUnwritten | RdFreed => UpBug
        | RdOk h =>
            let u1 := set_reader u (u_reader u + Z.of_nat packet_header_size) in
            if sent <? u_acked_bytes u + packet_size h then UpErr (set_no_republish u1)
            else
              match ack_packet c t u1 h with
              | PkOk u2 => ack_frames_loop fuel' c t u2 sent frame_id
              | PkDone u2 | PkErr u2 => UpErr (set_no_republish u2)
              | PkBug => UpBug
              end
        end
  end.

Definition ack_frames (c : conf) (t : track) (u : upstream) (frame_id up_id off : Z) : up_res :=
  match ack_frames_loop (loop_fuel t) c t u (u_sent_base u + conn_sent u) frame_id with
  | UpOk u' => UpOk (set_up_id u' up_id off)
  | r => r
  end.

(* ngx_kmp_out_upstream.c:1099-1178 ngx_kmp_out_upstream_send_chain; the socket
   takes [n] bytes *)
Definition send_chain (c : conf) (t : track) (u : upstream) (n : option nat) : up_res :=
  if negb (u_queued u) then UpOk u
  else
    match n with
    | None => UpErr u
    | Some k =>
        let u1 := set_io u (u_sent_base u)
                    (Some (conn_sent u + zlen (firstn k (u_busy u)))) true
                    (skipn k (u_busy u)) (u_out u ++ firstn k (u_busy u)) in
        if is_acked (u_mode u) then UpOk u1
        else
          match auto_ack c t u1 max_size with
          | AaOk u2 _ => UpOk u2
          | AaErr u2 => UpErr u2
          | AaBug => UpBug
          end
    end.

(* ngx_kmp_out_upstream.c:1181-1201 ngx_kmp_out_upstream_send *)
Definition send (c : conf) (t : track) (w : world) (u : upstream) : up_res :=
  match u_conn u with
  | None => UpOk u
  | Some _ =>
      match send_chain c t u (w_send w (u_id u)) with
      | UpOk u1 => UpOk u1
      | UpBug => UpBug
      | UpErr u1 =>
          match republish c t w u1 with
          | RepOk u2 => UpOk u2
          | RepDeclined u2 | RepErr u2 => UpErr u2
          | RepBug => UpBug
          end
      end
  end.

(* ngx_live_kmp.h kmp_connect_packet_t as filled by
   ngx_kmp_out_upstream.c:1229-1234 *)
Definition connect_packet (c : conf) (u : upstream) : list Z :=
  le 4 pt_connect ++ le 4 (Z.of_nat connect_packet_size)
  ++ le 4 (zlen (u_connect_data u)) ++ le 4 0
  ++ c_names c ++ le 8 (u_acked_id u) ++ le 8 (u_up_id u)
  ++ le 4 (u_offset u) ++ le 4 (c_flags c).

(* ngx_kmp_out_upstream.c:1204-1312 ngx_kmp_out_upstream_send_buffered *)
Definition send_buffered (c : conf) (t : track) (u : upstream) : up_res :=
  if u_reader u <? t_base t * c_bufsize c then UpBug
  else
    UpOk (set_io u
            (u_acked_bytes u - conn_sent u - Z.of_nat connect_packet_size
             - zlen (u_connect_data u) - zlen (u_media_info u))
            (u_conn u) true
            (connect_packet c u ++ u_connect_data u ++ u_media_info u
             ++ slice (u_reader u) (t_appended t) (t_stream t))
            (u_out u)).

(* ngx_kmp_out_upstream.c:1364-1418 ngx_kmp_out_upstream_append_buffer; [data]
   is [active_buf.pos, active_buf.last) *)
Definition append_buffer (c : conf) (t : track) (w : world) (u : upstream) (data : list Z)
    : up_res :=
  if u_queued u then
    UpOk (set_io u (u_sent_base u) (u_conn u) true (u_busy u ++ data) (u_out u))
  else
    let start (u1 : upstream) :=
      match u_conn u1 with
      | None =>
          if u_calling u1 then UpOk u1
          else match republish_send w u1 with
               | RepOk u2 => UpOk u2
               | RepDeclined u2 | RepErr u2 => UpErr u2
               | RepBug => UpBug
               end
      | Some _ => UpOk u1
      end in
    if is_written (u_mode u) then
      match auto_ack c t u max_size with
      | AaOk u1 _ => start u1
      | AaErr u1 => UpErr u1
      | AaBug => UpBug
      end
    else start u.

(* track setters *)
Definition set_ups (t : track) (us : list upstream) : track :=
  mkTrack (t_stream t) (t_appended t) (t_nbufs t) (t_base t) (t_last_frame t) us
    (t_next t) (t_published t) (t_active t) (t_dead t).
Definition set_dead (t : track) : track :=
  mkTrack (t_stream t) (t_appended t) (t_nbufs t) (t_base t) (t_last_frame t) (t_ups t)
    (t_next t) (t_published t) (t_active t) true.
Definition set_base (t : track) (b : Z) : track :=
  mkTrack (t_stream t) (t_appended t) (t_nbufs t) b (t_last_frame t) (t_ups t)
    (t_next t) (t_published t) (t_active t) (t_dead t).
Definition set_appended (t : track) (a : Z) : track :=
  mkTrack (t_stream t) a (t_nbufs t) (t_base t) (t_last_frame t) (t_ups t)
    (t_next t) (t_published t) (t_active t) (t_dead t).
Definition set_stream (t : track) (s : list Z) : track :=
  mkTrack s (t_appended t) (t_nbufs t) (t_base t) (t_last_frame t) (t_ups t)
    (t_next t) (t_published t) (t_active t) (t_dead t).
Definition set_nbufs (t : track) (n : Z) : track :=
  mkTrack (t_stream t) (t_appended t) n (t_base t) (t_last_frame t) (t_ups t)
    (t_next t) (t_published t) (t_active t) (t_dead t).
Definition set_last_frame (t : track) (n : Z) : track :=
  mkTrack (t_stream t) (t_appended t) (t_nbufs t) (t_base t) n (t_ups t)
    (t_next t) (t_published t) (t_active t) (t_dead t).

Inductive out := Next (t : track) | Bug.

(* ngx_buf_queue.c:177-252 ngx_buf_queue_free: release buffers from the oldest
   up to the one that holds the position; the last one stays if none does *)
Definition free_upto (c : conf) (t : track) (pos : Z) : track :=
  let b := pos / c_bufsize c in
  set_base t (if (t_base t <=? b) && (b <? t_nbufs t) then b else t_nbufs t - 1).

(* ngx_kmp_out_track.c:922-941 ngx_kmp_out_track_min_acked_upstream *)
Fixpoint min_from (us : list upstream) (m : upstream) : upstream :=
  match us with
  | [] => m
  | u :: r => min_from r (if u_acked_id u <? u_acked_id m then u else m)
  end.
Definition min_acked (us : list upstream) : option upstream :=
  match us with
  | [] => None
  | u :: r => Some (min_from r u)
  end.

(* Apply an update to every upstream in turn, ngx_kmp_out_track.c:816-840,
   861-877: stop at the first failure. *)
Inductive all_res := AllOk (us : list upstream) | AllErr | AllBug.
Fixpoint for_all (f : upstream -> up_res) (us : list upstream) : all_res :=
  match us with
  | [] => AllOk []
  | u :: r =>
      match f u with
      | UpOk u' =>
          match for_all f r with
          | AllOk r' => AllOk (u' :: r')
          | x => x
          end
      | UpErr _ => AllErr
      | UpBug => AllBug
      end
  end.

(* ngx_kmp_out_track.c:802-849 ngx_kmp_out_track_append_all; the first upstream
   with the smallest acked_frame_id decides what is released (an id of
   ULLONG_MAX does not occur) *)
Definition append_all (c : conf) (t : track) (w : world) : out :=
  if zlen (t_stream t) <=? t_appended t then Next t
  else
    let data := slice (t_appended t) (zlen (t_stream t)) (t_stream t) in
    match for_all (fun u => append_buffer c t w u data) (t_ups t) with
    | AllBug => Bug
    | AllErr => Next (set_dead t)
    | AllOk us =>
        let t1 := set_appended (set_ups t us) (zlen (t_stream t)) in
        match min_acked us with
        | None => Next t1
        | Some m => Next (free_upto c t1 (u_reader m))
        end
    end.

(* ngx_kmp_out_track.c:852-880 ngx_kmp_out_track_send_all *)
Definition send_all (c : conf) (t : track) (w : world) : out :=
  if negb (w_pending w) then Next t
  else
    match for_all (send c t w) (t_ups t) with
    | AllBug => Bug
    | AllErr => Next (set_dead t)
    | AllOk us => Next (set_ups t us)
    end.

(* replace the upstream with the same id *)
Definition replace (us : list upstream) (u : upstream) : list upstream :=
  map (fun v => if Nat.eqb (u_id v) (u_id u) then u else v) us.
Definition remove (us : list upstream) (id : nat) : list upstream :=
  List.filter (fun v => negb (Nat.eqb (u_id v) id)) us.
Definition get (us : list upstream) (id : nat) : option upstream :=
  List.find (fun v => Nat.eqb (u_id v) id) us.

(* ngx_kmp_out_track.c:1012-1048 ngx_kmp_out_track_mem_watermark; each element
   of [needs] is mem_low_watermark - mem_left at one turn of the loop *)
Fixpoint mem_watermark (c : conf) (t : track) (w : world) (needs : list Z) : out :=
  match needs with
  | [] => Next t
  | need :: more =>
      match min_acked (t_ups t) with
      | None => Next t
      | Some u =>
          match auto_ack_force c t w u need with
          | AaBug => Bug
          | AaErr _ => Next (set_dead t)
          | AaOk u' n =>
              let t1 := set_ups t (replace (t_ups t) u') in
              if n =? 0 then Next t1
              else
                match min_acked (t_ups t1) with
                | None => Next t1
                | Some m => mem_watermark c (free_upto c t1 (u_reader m)) w more
                end
          end
      end
  end.

(* ngx_kmp_out_track.c:1127-1188, the loop of ngx_kmp_out_track_write_chain *)
Fixpoint write_loop (fuel : nat) (c : conf) (t : track) (w : world) (data : list Z) : out :=
  match fuel with
  | O => Bug
  | S fuel' =>
      match data with
      | [] => send_all c t w
      | _ =>
          let room := Z.to_nat (t_nbufs t * c_bufsize c - zlen (t_stream t)) in
          let t1 := set_stream t (t_stream t ++ firstn room data) in
          let rest := skipn room data in
          if t_nbufs t * c_bufsize c <=? zlen (t_stream t1) then
            match append_all c t1 w with
            | Bug => Bug
            | Next t2 =>
                if t_dead t2 then Next t2
                else if w_get w (t_nbufs t2) then
                  write_loop fuel' c (set_nbufs t2 (t_nbufs t2 + 1)) w rest
                else Next (set_dead t2)
            end
          else write_loop fuel' c t1 w rest
      end
  end.

(* ngx_kmp_out_track.c:1114-1194 ngx_kmp_out_track_write_chain; [w_mem] is
   empty when mem_left >= mem_high_watermark *)
Definition write_chain (c : conf) (t : track) (w : world) (data : list Z) : out :=
  match mem_watermark c t w (w_mem w) with
  | Bug => Bug
  | Next t1 =>
      if t_dead t1 then Next t1
      else write_loop (S (S (length data))) c t1 w data
  end.

(* ngx_kmp_out_track.c:883-899 ngx_kmp_out_track_flush *)
Definition flush (c : conf) (t : track) (w : world) : out :=
  match append_all c t w with
  | Bug => Bug
  | Next t1 => if t_dead t1 then Next t1 else send_all c t1 w
  end.

(* ngx_kmp_out_upstream.c:368-384 ngx_kmp_out_upstream_free_notify *)
Definition free_notify (t : track) (u : upstream) : track :=
  let us := remove (t_ups t) (u_id u) in
  let t1 := set_ups t us in
  if u_required u then set_dead t1
  else match us with [] => set_dead t1 | _ => t1 end.

(* ngx_kmp_out_upstream.c:733-748 ngx_kmp_out_upstream_error *)
Definition upstream_error (c : conf) (t : track) (w : world) (u : upstream) : out :=
  match republish c t w u with
  | RepOk u' => Next (set_ups t (replace (t_ups t) u'))
  | RepDeclined u' | RepErr u' => Next (free_notify t u')
  | RepBug => Bug
  end.

(* ngx_kmp_out_upstream.c:1315-1361 ngx_kmp_out_upstream_write_handler *)
Definition write_handler (c : conf) (t : track) (w : world) (u : upstream) : out :=
  match (if u_queued u then UpOk u else send_buffered c t u) with
  | UpBug => Bug
  | UpErr u1 => upstream_error c t w u1
  | UpOk u1 =>
      match send_chain c t u1 (w_send w (u_id u)) with
      | UpBug => Bug
      | UpErr u2 => upstream_error c t w u2
      | UpOk u2 => Next (set_ups t (replace (t_ups t) u2))
      end
  end.

(* ngx_kmp_out_upstream.c:995-1096, a complete and well formed acknowledgement
   packet was read (ngx_kmp_out_upstream_read_handler, _parse_ack_packet) *)
Definition ack_handler (c : conf) (t : track) (w : world) (u : upstream)
    (frame_id up_id off : Z) : out :=
  if negb (is_acked (u_mode u)) then Next t
  else
    match ack_frames c t u frame_id up_id off with
    | UpBug => Bug
    | UpErr u1 => upstream_error c t w u1
    | UpOk u1 => Next (set_ups t (replace (t_ups t) u1))
    end.

(* ngx_kmp_out_upstream.c:136-198, 388-441 ngx_kmp_out_upstream_create, _copy
   and _from_json: a new upstream has a connection from the start.  (If the
   connection is made at once its first write happens before resume_from is
   set.) *)
Definition new_upstream (c : conf) (t : track) (src : option upstream) (m : mode)
    (required : bool) (data : list Z) : upstream :=
  match src with
  | Some s =>
      mkUp (t_next t) m required (u_reader s) (u_acked_id s) (u_up_id s) (u_offset s)
        (u_media_info s) (u_acked_bytes s) 0 data (Some 0) false [] false false []
  | None =>
      mkUp (t_next t) m required (t_base t * c_bufsize c) (c_initial c) (c_initial_up c) 0
        [] 0 0 data (Some 0) false [] false false []
  end.

Definition add_upstream (t : track) (u : upstream) : track :=
  mkTrack (t_stream t) (t_appended t) (t_nbufs t) (t_base t) (t_last_frame t)
    (t_ups t ++ [u]) (S (t_next t)) (t_published t) (t_active t) (t_dead t).

(* ngx_kmp_out_track.c:402-440, the upstreams of the publish response *)
Fixpoint publish (c : conf) (t : track) (l : list (mode * bool * list Z)) : track :=
  match l with
  | [] => t
  | (m, r, d) :: rest => publish c (add_upstream t (new_upstream c t None m r d)) rest
  end.

Inductive op :=
| OWrite (data : list Z) (w : world)           (* ngx_kmp_out_track_write_chain *)
| OFrameDone                                   (* ngx_kmp_out_track_update_frame_stats *)
| OFlush (w : world)                           (* the flush timer *)
| OPublish (l : list (mode * bool * list Z))   (* the publish response *)
| OAdd (src : option nat) (m : mode) (required : bool) (data : list Z)
| ODel (id : nat)
| OWritable (id : nat) (w : world)             (* write event *)
| OAck (id : nat) (frame_id up_id off : Z) (w : world)
| OClosed (id : nat) (w : world)               (* read error, timeout, bad packet *)
| OConnected (id : nat) (data : option (list Z))   (* the republish response *)
| ORepublishFailed (id : nat).

Definition init_track : track := mkTrack [] 0 0 0 0 [] 0%nat false false false.

Definition step (c : conf) (t : track) (o : op) : out :=
  if t_dead t then Next t
  else
    match o with
    | OWrite data w => write_chain c t w data
    (* ngx_kmp_out_track.c:1281 *)
    | OFrameDone => Next (set_last_frame t (zlen (t_stream t)))
    | OFlush w => flush c t w
    (* ngx_kmp_out_track.c:402-447; a publish call is made once, after the first
       media info was written *)
    | OPublish l =>
        if t_published t || (t_nbufs t =? 0) then Next t
        else
          match l with
          | [] => Next (set_dead t)
          | _ =>
              let t1 := publish c t l in
              Next (mkTrack (t_stream t1) (t_appended t1) (t_nbufs t1) (t_base t1)
                      (t_last_frame t1) (t_ups t1) (t_next t1) true true false)
          end
    (* ngx_kmp_out_track.c:966-991 ngx_kmp_out_track_add_upstream *)
    | OAdd src m r d =>
        let s := match src with
                 | Some id => get (t_ups t) id
                 | None => min_acked (t_ups t)
                 end in
        match s with
        | None => Next t
        | Some s => Next (add_upstream t (new_upstream c t (Some s) m r d))
        end
    (* ngx_kmp_out_track.c:994-1020 ngx_kmp_out_track_del_upstream *)
    | ODel id =>
        match get (t_ups t) id with
        | None => Next t
        | Some _ =>
            let us := remove (t_ups t) id in
            match us with
            | [] => Next (set_dead (set_ups t us))
            | _ => Next (set_ups t us)
            end
        end
    | OWritable id w =>
        match get (t_ups t) id with
        | Some u => match u_conn u with
                    | Some _ => write_handler c t w u
                    | None => Next t
                    end
        | None => Next t
        end
    | OAck id f up off w =>
        match get (t_ups t) id with
        | Some u => match u_conn u with
                    | Some _ => ack_handler c t w u f up off
                    | None => Next t
                    end
        | None => Next t
        end
    | OClosed id w =>
        match get (t_ups t) id with
        | Some u => match u_conn u with
                    | Some _ => upstream_error c t w u
                    | None => Next t
                    end
        | None => Next t
        end
    (* ngx_kmp_out_upstream.c:503-597 ngx_kmp_out_upstream_republish_handle *)
    | OConnected id d =>
        match get (t_ups t) id with
        | Some u =>
            match u_conn u, u_calling u with
            | None, true =>
                let u1 := match d with Some d => set_data u d | None => u end in
                Next (set_ups t (replace (t_ups t)
                  (set_calling (set_io u1 (u_sent_base u) (Some 0) (u_queued u)
                                  (u_busy u) []) false)))
            | _, _ => Next t
            end
        | None => Next t
        end
    | ORepublishFailed id =>
        match get (t_ups t) id with
        | Some u =>
            match u_conn u, u_calling u with
            | None, true => Next (free_notify t u)
            | _, _ => Next t
            end
        | None => Next t
        end
    end.

Fixpoint run (c : conf) (t : track) (ops : list op) : out :=
  match ops with
  | [] => Next t
  | o :: rest =>
      match step c t o with
      | Next t' => run c t' rest
      | Bug => Bug
      end
  end.
