(* Model of nginx-kmp-in-module/src/ngx_kmp_in.c: the receiving side of a KMP
   connection (the connect packet, the packet parser, the frame filter and the
   acknowledgement writer).

   Left out: logging, the dump file, the latency statistics, timers, and the
   conversion of the channel and track names to JSON strings. *)
From Coq Require Import ZArith List Bool Arith.
From Verif Require Import Bytes.
Import ListNotations.
Open Scope Z_scope.

(* nginx-common/src/ngx_live_kmp.h:6-7 *)
Definition max_header_size : Z := 64 * 1024.
Definition max_data_size : Z := 16 * 1024 * 1024.
(* ngx_live_kmp.h:9 KMP_INVALID_FRAME_ID *)
Definition invalid_frame_id : Z := 2 ^ 64 - 1.
(* ngx_live_kmp.h:17-18 *)
Definition flag_key : Z := 1.
Definition flag_mask : Z := flag_key.
(* ngx_live_kmp.h:69-79, packet types *)
Definition pt_connect : Z := 1952673379.        (* 0x74636e63 *)
Definition pt_media_info : Z := 1718511981.     (* 0x666e696d *)
Definition pt_frame : Z := 1835102822.          (* 0x6d617266 *)
Definition pt_null : Z := 1819047278.           (* 0x6c6c756e *)
Definition pt_end : Z := 1953722213.            (* 0x74736f65 *)
Definition pt_ack : Z := 1718313825.            (* 0x666b6361 *)
(* ngx_live_kmp.h:82-87, media types *)
Definition media_video : Z := 0.
Definition media_subtitle : Z := 2.
(* sizes of the structs of ngx_live_kmp.h:128-230 *)
Definition packet_header_size : nat := 16.
Definition connect_packet_size : nat := 104.
Definition media_info_size : nat := 32.
Definition frame_size : nat := 24.
Definition ack_packet_size : nat := 40.

(* a slice of a struct read as an unsigned little endian integer *)
Definition field (off len : nat) (b : list Z) : Z := unle (firstn len (skipn off b)).
Definition i32 (z : Z) : Z := if z <? 2 ^ 31 then z else z - 2 ^ 32.
Definition i64 (z : Z) : Z := if z <? 2 ^ 63 then z else z - 2 ^ 64.

(* kmp_packet_header_t, ngx_live_kmp.h:199-204 *)
Definition h_type (h : list Z) : Z := field 0 4 h.
Definition h_header_size (h : list Z) : Z := field 4 4 h.
Definition h_data_size (h : list Z) : Z := field 8 4 h.

(* kmp_connect_t.initial_frame_id, ngx_live_kmp.h:131-138 *)
Definition c_initial_frame_id (h : list Z) : Z := field 80 8 h.

(* kmp_media_info_t, ngx_live_kmp.h:170-176; the bytes are kept whole *)
Definition mi_media_type (m : list Z) : Z := field 0 4 m.
Definition mi_timescale (m : list Z) : Z := field 8 4 m.

(* kmp_frame_t, ngx_live_kmp.h:180-185 *)
Record frame := mkFrame { f_created : Z; f_dts : Z; f_flags : Z; f_pts_delay : Z }.
Definition parse_frame (b : list Z) : frame :=
  mkFrame (i64 (field 0 8 b)) (i64 (field 8 8 b)) (field 16 4 b) (i32 (field 20 4 b)).

(* ngx_buf_chain_t: an identity (the link allocated by the caller's
   alloc_chain), the address of the data, the data *)
Record node := mkNode { n_id : nat; n_addr : Z; n_data : list Z }.

(* ngx_buf_chain.c:21-44 ngx_buf_chain_skip, on links: success, the links
   passed over, and the chain *head_ptr afterwards (its first link is trimmed
   in place).  The byte-level model is BufChainModel.chain_skip. *)
Fixpoint node_skip (head : list node) (size : nat) : bool * list node * list node :=
  match size with
  | O => (true, [], head)
  | S _ =>
      match head with
      | [] => (false, [], [])
      | f :: rest =>
          if Nat.ltb size (length (n_data f)) then
            (true, [], mkNode (n_id f) (n_addr f + Z.of_nat size) (skipn size (n_data f)) :: rest)
          else
            match node_skip rest (size - length (n_data f)) with
            | (ok, passed, h) => (ok, f :: passed, h)
            end
      end
  end.

(* ngx_buf_chain.c:47-74 ngx_buf_chain_copy, on links: success, the bytes
   copied, the links passed over, and the chain *head_ptr afterwards *)
Fixpoint node_copy (head : list node) (size : nat)
    : bool * list Z * list node * list node :=
  match size with
  | O => (true, [], [], head)
  | S _ =>
      match head with
      | [] => (false, [], [], [])
      | f :: rest =>
          if Nat.ltb size (length (n_data f)) then
            (true, firstn size (n_data f), [],
             mkNode (n_id f) (n_addr f + Z.of_nat size) (skipn size (n_data f)) :: rest)
          else
            match node_copy rest (size - length (n_data f)) with
            | (ok, out, passed, h) => (ok, n_data f ++ out, f :: passed, h)
            end
      end
  end.

(* What the connection's owner is told: the callbacks of
   ngx_kmp_in.h:72-99 with the structs of ngx_kmp_in.h:42-70. *)
Inductive callback :=
| CConnectData (data : list node)
| CMediaInfo (media_info : list Z) (extra_data : list node) (extra_data_size : Z)
| CFrame (frame_id : Z) (fr : frame) (data : list node) (size : Z)
| CEndStream.

(* The same with the data as one byte string. *)
Inductive event :=
| EConnectData (data : list Z)
| EMediaInfo (media_info : list Z) (extra_data : list Z) (extra_data_size : Z)
| EFrame (frame_id : Z) (fr : frame) (data : list Z) (size : Z)
| EEndStream.

Definition node_bytes (c : list node) : list Z := concat (map n_data c).
Definition event_of (c : callback) : event :=
  match c with
  | CConnectData d => EConnectData (node_bytes d)
  | CMediaInfo m d s => EMediaInfo m (node_bytes d) s
  | CFrame i f d s => EFrame i f (node_bytes d) s
  | CEndStream => EEndStream
  end.

(* What a callback answers, ngx_kmp_in.h:82-96. *)
Inductive answer := AOk | ADone | AAbort | AError.

(* The result codes of the read handler, ngx_kmp_in.c:10-13: NGX_OK,
   NGX_KMP_IN_OK, NGX_KMP_IN_BAD_REQUEST, NGX_KMP_IN_INTERNAL_SERVER_ERROR; a
   connected handler may return a code of its own; RFuel is the model's own. *)
Inductive rc := ROk | RClosed | RBadRequest | RServerError | RHandler (code : Z) | RFuel.

(* The owner of the connection.  A handler's answer may depend on everything it
   was told so far (newest first, the current event at the head), seen as byte
   strings.  The connected handler gets the 104 bytes of the connect packet and
   answers the skip count and the skip_wait_key flag, or an error code. *)
Record owner := mkOwner {
  o_connected : list Z -> (Z * bool) + Z;
  o_has_connect_data : bool;
  o_connect_data : list event -> answer;
  o_media_info : list event -> answer;
  o_frame : list event -> answer;
  o_alloc : nat -> bool          (* does the n-th alloc_chain succeed? *)
}.

(* The fields of ngx_kmp_in_ctx_t (ngx_kmp_in.h:102-169) used by the frame
   filter, and the statistics *)
Record fltr := mkFilter {
  timescale : Z;
  media_type : Z;
  cur_frame_id : Z;
  skip_left : Z;
  wait_key : bool;
  skip_wait_key : bool;
  received_frames : Z;
  received_key_frames : Z;
  received_data_bytes : Z;
  skipped_duplicate : Z;
  skipped_empty : Z;
  skipped_empty_duration : Z;
  skipped_no_media_info : Z;
  skipped_no_key : Z
}.

(* ngx_kmp_in_create, ngx_kmp_in.c:1107-1145: the context is zeroed *)
Definition filter0 : fltr :=
  mkFilter 0 0 0 0 false false 0 0 0 0 0 0 0 0.

(* Memory of links: how many were allocated, which were passed to
   free_chain_list, and which were kept by a handler that answered NGX_OK *)
Record links := mkLinks { l_next : nat; l_freed : list nat; l_given : list nat }.

Definition free_list (m : links) (c : list node) : links :=
  mkLinks (l_next m) (l_freed m ++ map n_id c) (l_given m).
Definition give_list (m : links) (c : list node) : links :=
  mkLinks (l_next m) (l_freed m) (l_given m ++ map n_id c).

(* The parser: packet_header (16 bytes), packet_header_pos as an offset,
   packet_left, packet_data_first..packet_data_last ([] when packet_data_last is
   NULL), the filter, the links, and the callbacks made, newest first. *)
Record parser := mkParser {
  p_header : list Z;
  p_header_pos : nat;
  p_left : Z;
  p_data : list node;
  p_filter : fltr;
  p_links : links;
  p_calls : list callback
}.

Definition set_filter (p : parser) (f : fltr) : parser :=
  mkParser (p_header p) (p_header_pos p) (p_left p) (p_data p) f (p_links p) (p_calls p).
Definition set_data (p : parser) (d : list node) (m : links) : parser :=
  mkParser (p_header p) (p_header_pos p) (p_left p) d (p_filter p) m (p_calls p).
Definition add_call (p : parser) (c : callback) : parser :=
  mkParser (p_header p) (p_header_pos p) (p_left p) (p_data p) (p_filter p) (p_links p)
    (c :: p_calls p).

Definition events (p : parser) : list event := map event_of (p_calls p).

(* ngx_kmp_in.c:192-237 ngx_kmp_in_connect_data.  Skipping moves a local
   pointer, so packet_data_first still has the links passed over. *)
Definition connect_data (o : owner) (p : parser) : parser * rc :=
  if negb (o_has_connect_data o) then (p, ROk)
  else
    let hs := h_header_size (p_header p) in
    let skipped :=
      if Z.of_nat connect_packet_size <? hs then
        node_skip (p_data p) (Z.to_nat (hs - Z.of_nat connect_packet_size))
      else (true, [], p_data p) in
    match skipped with
    | (ok, passed, data) =>
        let p1 := set_data p (passed ++ data) (p_links p) in
        if negb ok then (p1, RServerError)
        else
          let p2 := add_call p1 (CConnectData data) in
          match o_connect_data o (events p2) with
          | AOk => (p2, ROk)
          | AAbort => (p2, RServerError)
          | _ => (p2, RBadRequest)
          end
    end.

(* ngx_kmp_in.c:240-300 ngx_kmp_in_copy_packet_header: the struct read and the
   rest of the chain (also left in packet_data_first), or an error *)
Definition copy_packet_header (p : parser) (size : nat) : parser * (list Z + rc) :=
  let header_left := u32 (h_header_size (p_header p) - Z.of_nat packet_header_size) in
  if header_left <? Z.of_nat size then (p, inr RBadRequest)
  else
    match node_copy (p_data p) size with
    | (ok, buf, passed1, data1) =>
        if negb ok then (set_data p (passed1 ++ data1) (p_links p), inr RServerError)
        else
          let header_left1 := header_left - Z.of_nat size in
          match (if 0 <? header_left1 then node_skip data1 (Z.to_nat header_left1)
                 else (true, [], data1)) with
          | (ok2, passed2, data) =>
              if negb ok2 then
                (set_data p (passed1 ++ passed2 ++ data) (p_links p), inr RServerError)
              else
                match passed1 ++ passed2 with
                | [] => (set_data p data (p_links p), inl buf)
                | passed => (set_data p data (free_list (p_links p) passed), inl buf)
                end
          end
    end.

(* ngx_kmp_in.c:303-356 ngx_kmp_in_media_info *)
Definition media_info (o : owner) (p : parser) : parser * rc :=
  match copy_packet_header p media_info_size with
  | (p1, inr e) => (p1, e)
  | (p1, inl mi) =>
      if mi_timescale mi <=? 0 then (p1, RBadRequest)
      else
        let p2 := add_call p1 (CMediaInfo mi (p_data p1) (h_data_size (p_header p1))) in
        let f := p_filter p2 in
        let f' := mkFilter (mi_timescale mi) (mi_media_type mi) (cur_frame_id f)
                    (skip_left f) (mi_media_type mi =? media_video) (skip_wait_key f)
                    (received_frames f) (received_key_frames f) (received_data_bytes f)
                    (skipped_duplicate f) (skipped_empty f) (skipped_empty_duration f)
                    (skipped_no_media_info f) (skipped_no_key f) in
        match o_media_info o (events p2) with
        | AOk =>
            (set_filter (set_data p2 [] (give_list (p_links p2) (p_data p2))) f', ROk)
        | ADone => (set_filter p2 f', ROk)
        | AAbort => (p2, RServerError)
        | AError => (p2, RBadRequest)
        end
  end.

Definition is_key (fr : frame) : bool := negb (Z.land (f_flags fr) flag_key =? 0).

(* ngx_kmp_in.c:376-441: the part of ngx_kmp_in_frame before the frame is
   passed on.  The flag is whether it is. *)
Definition frame_filter (f : fltr) (fr : frame) (data_size : Z) : fltr * bool :=
  match f with
  | mkFilter ts mt cur sl wk swk rf rk rd sd se sed sm sk =>
      if 0 <? sl then
        let sl' := sl - 1 in
        let wk' := if (sl' <=? 0) && swk then false else wk in
        (mkFilter ts mt cur sl' wk' swk rf rk rd (sd + 1) se sed sm sk, false)
      else if ts <=? 0 then
        (mkFilter ts mt cur sl wk swk rf rk rd sd se sed (sm + 1) sk, false)
      else if data_size =? 0 then
        (mkFilter ts mt cur sl wk swk rf rk rd sd (se + 1) sed sm sk, false)
      else if (mt =? media_subtitle) && (f_pts_delay fr <=? 0) then
        (mkFilter ts mt cur sl wk swk rf rk rd sd se (sed + 1) sm sk, false)
      else if wk && negb (is_key fr) then
        (mkFilter ts mt cur sl wk swk rf rk rd sd se sed sm (sk + 1), false)
      else
        (mkFilter ts mt cur sl false swk (rf + 1) (if is_key fr then rk + 1 else rk)
           (rd + data_size) sd se sed sm sk, true)
  end.

(* ngx_kmp_in.c:499-503, the label done *)
Definition next_frame (f : fltr) : fltr :=
  match f with
  | mkFilter ts mt cur sl wk swk rf rk rd sd se sed sm sk =>
      mkFilter ts mt (u64 (cur + 1)) sl wk swk rf rk rd sd se sed sm sk
  end.

Definition mask_flags (fr : frame) : frame :=
  mkFrame (f_created fr) (f_dts fr) (Z.land (f_flags fr) flag_mask) (f_pts_delay fr).

(* ngx_kmp_in.c:359-504 ngx_kmp_in_frame *)
Definition frame_packet (o : owner) (p : parser) : parser * rc :=
  match copy_packet_header p frame_size with
  | (p1, inr e) => (p1, e)
  | (p1, inl buf) =>
      let fr := parse_frame buf in
      let data_size := h_data_size (p_header p1) in
      match frame_filter (p_filter p1) fr data_size with
      | (f', false) => (set_filter p1 (next_frame f'), ROk)
      | (f', true) =>
          let p2 := add_call (set_filter p1 f')
                      (CFrame (cur_frame_id f') (mask_flags fr) (p_data p1) data_size) in
          match o_frame o (events p2) with
          | AOk =>
              (set_filter (set_data p2 [] (give_list (p_links p2) (p_data p2)))
                 (next_frame f'), ROk)
          | ADone => (set_filter p2 (next_frame f'), ROk)
          | AAbort => (p2, RServerError)
          | AError => (p2, RBadRequest)
          end
      end
  end.

(* ngx_kmp_in.c:630-690: a whole packet is there; dispatch on its type, and
   release the links still attached to it *)
Definition packet (o : owner) (p : parser) : parser * rc :=
  let t := h_type (p_header p) in
  let r :=
    if t =? pt_connect then connect_data o p
    else if t =? pt_media_info then media_info o p
    else if t =? pt_frame then frame_packet o p
    else if t =? pt_null then (p, ROk)
    else if t =? pt_end then (add_call p CEndStream, RClosed)
    else (p, RBadRequest) in
  match r with
  | (p1, ROk) =>
      match p_data p1 with
      | [] => (p1, ROk)
      | d => (set_data p1 [] (free_list (p_links p1) d), ROk)
      end
  | (p1, e) => (p1, e)
  end.

(* ngx_kmp_in.c:533-574: checks on the 16 byte packet header *)
Definition header_ok (h : list Z) : bool :=
  let t := h_type h in
  ((t =? pt_connect) || (t =? pt_media_info) || (t =? pt_frame) || (t =? pt_null)
   || (t =? pt_end))
  && negb (h_header_size h <? Z.of_nat packet_header_size)
  && negb (max_header_size <? h_header_size h)
  && negb (max_data_size <? h_data_size h).

(* memcpy of [src] at offset [pos] of the header struct *)
Definition overwrite (h : list Z) (pos : nat) (src : list Z) : list Z :=
  firstn pos h ++ src ++ skipn (pos + length src) h.

(* The unread part of the active buffer: the address of pos, the bytes up to
   last. *)
Record buf := mkBuf { b_addr : Z; b_bytes : list Z }.
Definition buf_skip (b : buf) (n : nat) : buf :=
  mkBuf (b_addr b + Z.of_nat n) (skipn n (b_bytes b)).

Inductive header_result :=
| HMore (p : parser)                 (* break: the header is not complete *)
| HFail (p : parser) (e : rc)
| HGo (p : parser) (b : buf).

(* ngx_kmp_in.c:521-578: packet_left is 0, read the packet header *)
Definition read_packet_header (p : parser) (b : buf) : header_result :=
  let header_left := (packet_header_size - p_header_pos p)%nat in
  let buf_left := length (b_bytes b) in
  if Nat.ltb buf_left header_left then
    HMore (mkParser (overwrite (p_header p) (p_header_pos p) (b_bytes b))
             (p_header_pos p + buf_left) (p_left p) (p_data p) (p_filter p) (p_links p)
             (p_calls p))
  else
    let h := overwrite (p_header p) (p_header_pos p) (firstn header_left (b_bytes b)) in
    let p1 := mkParser h 0 (p_left p) (p_data p) (p_filter p) (p_links p) (p_calls p) in
    if negb (header_ok h) then HFail p1 RBadRequest
    else
      HGo (mkParser h 0 (u32 (h_header_size h + h_data_size h - Z.of_nat packet_header_size))
             (p_data p) (p_filter p) (p_links p) (p_calls p))
          (buf_skip b header_left).

(* ngx_kmp_in.c:585-590: the data is adjacent to the end of the last link *)
Fixpoint extend_last (c : list node) (addr : Z) (chunk : list Z) : option (list node) :=
  match c with
  | [] => None
  | [n] =>
      if n_addr n + Z.of_nat (length (n_data n)) =? addr then
        Some [mkNode (n_id n) (n_addr n) (n_data n ++ chunk)]
      else None
  | n :: r =>
      match extend_last r addr chunk with
      | Some r' => Some (n :: r')
      | None => None
      end
  end.

(* ngx_kmp_in.c:584-613: link [chunk], at address [addr], to the packet data;
   None when alloc_chain fails *)
Definition link_data (o : owner) (p : parser) (addr : Z) (chunk : list Z)
    : option parser :=
  match extend_last (p_data p) addr chunk with
  | Some c => Some (set_data p c (p_links p))
  | None =>
      let m := p_links p in
      if o_alloc o (l_next m) then
        Some (set_data p (p_data p ++ [mkNode (l_next m) addr chunk])
                (mkLinks (S (l_next m)) (l_freed m) (l_given m)))
      else None
  end.

Definition set_left (p : parser) (n : Z) : parser :=
  mkParser (p_header p) (p_header_pos p) n (p_data p) (p_filter p) (p_links p) (p_calls p).

(* ngx_kmp_in.c:580-628: add what the buffer has of the packet; the flag is
   whether the packet is complete *)
Definition read_packet_data (o : owner) (p : parser) (b : buf)
    : (parser * buf * bool) + parser :=
  let size := Nat.min (length (b_bytes b)) (Z.to_nat (p_left p)) in
  if Nat.ltb 0 size then
    match link_data o p (b_addr b) (firstn size (b_bytes b)) with
    | None => inr p
    | Some p1 =>
        let p2 := set_left p1 (p_left p1 - Z.of_nat size) in
        inl (p2, buf_skip b size, negb (0 <? p_left p2))
    end
  else inl (p, b, negb (0 <? p_left p)).

(* ngx_kmp_in.c:507-694 ngx_kmp_in_process_buffer, one turn of the loop:
   continue with the rest of the buffer, or return *)
Definition turn (o : owner) (p : parser) (b : buf) : (parser * buf) + (parser * rc) :=
  let go p1 b1 :=
    match read_packet_data o p1 b1 with
    | inr p2 => inr (p2, RServerError)
    | inl (p2, b2, false) => inr (p2, ROk)
    | inl (p2, b2, true) =>
        match packet o p2 with
        | (p3, ROk) => inl (p3, b2)
        | (p3, e) => inr (p3, e)
        end
    end in
  if p_left p <=? 0 then
    match read_packet_header p b with
    | HMore p1 => inr (p1, ROk)
    | HFail p1 e => inr (p1, e)
    | HGo p1 b1 => go p1 b1
    end
  else go p b.

Fixpoint process_loop (o : owner) (fuel : nat) (p : parser) (b : buf) : parser * rc :=
  match fuel with
  | O => (p, RFuel)
  | S fuel' =>
      match b_bytes b with
      | [] => (p, ROk)
      | _ :: _ =>
          match turn o p b with
          | inl (p1, b1) => process_loop o fuel' p1 b1
          | inr r => r
          end
      end
  end.

Definition process_buffer (o : owner) (p : parser) (b : buf) : parser * rc :=
  process_loop o (S (length (b_bytes b))) p b.

(* The connection: connection->buffer while the connect packet is read, then
   the active buffer (the address of last and the room left in it). *)
Record conn := mkConn {
  c_header_read : bool;
  c_buffer : list Z;
  c_parser : parser;
  c_last : Z;
  c_room : nat
}.

(* ngx_kmp_in.c:1107-1145 ngx_kmp_in_create *)
Definition conn0 : conn :=
  mkConn false [] (mkParser (repeat 0 packet_header_size) 0 0 [] filter0 (mkLinks 0 [] []) [])
    0 0.

(* ngx_kmp_in.c:896-1037 ngx_kmp_in_read_header, after a recv that returned
   [data] (at most what was missing); None is NGX_AGAIN *)
Definition read_header (o : owner) (c : conn) (data : list Z) : conn * option rc :=
  let b := c_buffer c ++ data in
  let c1 := mkConn false b (c_parser c) (c_last c) (c_room c) in
  if Nat.ltb (length b) connect_packet_size then (c1, None)
  else if negb (h_type b =? pt_connect) then (c1, Some RBadRequest)
  else if (h_header_size b <? Z.of_nat connect_packet_size)
          || (max_header_size <? h_header_size b) then (c1, Some RBadRequest)
  else if max_data_size <? h_data_size b then (c1, Some RBadRequest)
  else if invalid_frame_id <=? c_initial_frame_id b then (c1, Some RBadRequest)
  else
    match o_connected o b with
    | inr code => (c1, Some (RHandler code))
    | inl (skip_count, swk) =>
        let p := c_parser c in
        let f := p_filter p in
        let f1 := mkFilter (timescale f) (media_type f) (cur_frame_id f)
                    skip_count (wait_key f) swk
                    (received_frames f) (received_key_frames f) (received_data_bytes f)
                    (skipped_duplicate f) (skipped_empty f) (skipped_empty_duration f)
                    (skipped_no_media_info f) (skipped_no_key f) in
        let p1 := mkParser (firstn packet_header_size b) 0
                    (u32 (h_header_size b + h_data_size b - Z.of_nat connect_packet_size))
                    (p_data p) f1 (p_links p) (p_calls p) in
        let c2 q := mkConn true b q (c_last c) (c_room c) in
        match (if p_left p1 <=? 0 then connect_data o p1 else (p1, ROk)) with
        | (p2, ROk) =>
            let g := p_filter p2 in
            let g1 := mkFilter (timescale g) (media_type g) (c_initial_frame_id b)
                        (skip_left g) (wait_key g) (skip_wait_key g)
                        (received_frames g) (received_key_frames g) (received_data_bytes g)
                        (skipped_duplicate g) (skipped_empty g) (skipped_empty_duration g)
                        (skipped_no_media_info g) (skipped_no_key g) in
            (c2 (set_filter p2 g1), Some ROk)
        | (p2, e) => (c2 p2, Some e)
        end
    end.

(* One recv of the connection: the socket has [avail] for us; [fresh] is the
   buffer get_input_buf answers if a new one is needed (address and size), None
   if it fails.  Returns the number of bytes received and the outcome: None to
   wait for more, Some e when the connection is done.
   ngx_kmp_in.c:163-190 ngx_kmp_in_recv, 697-747 ngx_kmp_in_read_packets,
   1040-1104 ngx_kmp_in_read_handler.  No bytes available is NGX_AGAIN. *)
Definition recv (o : owner) (c : conn) (fresh : option (Z * nat)) (avail : list Z)
    : conn * nat * option rc :=
  if negb (c_header_read c) then
    let n := Nat.min (length avail) (connect_packet_size - length (c_buffer c)) in
    if Nat.eqb n 0 then (c, 0%nat, None)
    else
      match read_header o c (firstn n avail) with
      | (c1, None) => (c1, n, None)
      | (c1, Some ROk) => (c1, n, None)
      | (c1, Some e) => (c1, n, Some e)
      end
  else
    match (if Nat.eqb (c_room c) 0 then fresh else Some (c_last c, c_room c)) with
    | None => (c, 0%nat, Some RServerError)
    | Some (last, room) =>
        let n := Nat.min (length avail) room in
        if Nat.eqb n 0 then (mkConn true (c_buffer c) (c_parser c) last room, 0%nat, None)
        else
          match process_buffer o (c_parser c) (mkBuf last (firstn n avail)) with
          | (p1, e) =>
              (mkConn true (c_buffer c) p1 (last + Z.of_nat n) (room - n), n,
               match e with ROk => None | _ => Some e end)
          end
    end.

(* A schedule: for each recv, how many bytes have arrived, and the buffer
   get_input_buf would answer. *)
Definition schedule := list (nat * option (Z * nat)).

(* Run a schedule on the bytes the client sends; returns also the bytes not
   received yet. *)
Fixpoint run (o : owner) (c : conn) (s : schedule) (stream : list Z)
    : conn * list Z * option rc :=
  match s with
  | [] => (c, stream, None)
  | (k, fresh) :: s' =>
      match recv o c fresh (firstn k stream) with
      | (c1, n, None) => run o c1 s' (skipn n stream)
      | (c1, n, Some e) => (c1, skipn n stream, Some e)
      end
  end.

(* ngx_kmp_in.c:138-160 ngx_kmp_in_cleanup *)
Definition cleanup (c : conn) : links :=
  match p_data (c_parser c) with
  | [] => p_links (c_parser c)
  | d => free_list (p_links (c_parser c)) d
  end.

(* nginx-live-module/src/ngx_live_segmenter.c:3328-3357
   ngx_live_segmenter_start_stream: the skip count and the track's next frame
   id afterwards *)
Definition start_stream (next_frame_id initial max_skip_frames : Z) : Z * Z :=
  if initial <? next_frame_id then
    if max_skip_frames <? next_frame_id - initial then (0, initial)
    else (next_frame_id - initial, next_frame_id)
  else (0, next_frame_id).

(* nginx-live-module/src/ngx_live_segmenter_ll.c:3334-3364, the end of
   ngx_live_lls_start_stream: skip count and skip_wait_key.  [active] is
   "ctx->frames.count > 0 || ctx->sstate == ngx_live_lls_ss_started". *)
Definition lls_start_stream (next_frame_id initial max_skip_frames : Z)
    (consistent active : bool) : Z * bool :=
  let skip :=
    if initial <? next_frame_id then
      if max_skip_frames <? next_frame_id - initial then 0
      else next_frame_id - initial
    else 0 in
  (skip, consistent && (u64 (initial + skip) =? next_frame_id) && active).

(* The acknowledgement writer: ack_packet (only its frame id varies),
   ack_packet_pos as an offset, acked_frame_id, writing, and all the bytes the
   socket has accepted. *)
Record acker := mkAcker {
  a_packet_id : Z;
  a_pos : nat;
  a_acked : Z;
  a_writing : bool;
  a_sent : list Z
}.

(* kmp_ack_frames_packet_t, ngx_live_kmp.h:189-194, 225-228: header (type, size
   of the packet, no data, reserved), frame_id, upstream_frame_id, offset,
   padding; set up in ngx_kmp_in.c:1023-1027 on a zeroed context *)
Definition ack_packet (frame_id : Z) : list Z :=
  le 4 pt_ack ++ le 4 (Z.of_nat ack_packet_size) ++ le 4 0 ++ le 4 0
  ++ le 8 frame_id ++ le 8 0 ++ le 4 0 ++ le 4 0.

(* ngx_kmp_in.c:1023-1027, the end of ngx_kmp_in_read_header *)
Definition acker0 (initial : Z) : acker := mkAcker 0 0 initial false [].

(* ngx_kmp_in.c:830-855 ngx_kmp_in_ack_frames *)
Definition ack_frames (a : acker) (next_frame_id : Z) : acker :=
  if next_frame_id <=? a_acked a then a
  else if a_writing a then
    mkAcker (a_packet_id a) (a_pos a) next_frame_id true (a_sent a)
  else mkAcker next_frame_id 0 next_frame_id true (a_sent a).

(* ngx_kmp_in.c:771-812, the loop of ngx_kmp_in_write_handler; each ngx_send
   accepts as many bytes as the socket has room for, 0 standing for NGX_AGAIN *)
Fixpoint write_loop (a : acker) (sends : list nat) : acker :=
  match sends with
  | [] => a
  | k :: rest =>
      let packet := ack_packet (a_packet_id a) in
      let size := (ack_packet_size - a_pos a)%nat in
      let n := Nat.min k size in
      let sent := a_sent a ++ firstn n (skipn (a_pos a) packet) in
      if Nat.ltb 0 n then
        if Nat.ltb n size then
          mkAcker (a_packet_id a) (a_pos a + n) (a_acked a) true sent
        else if negb (a_packet_id a =? a_acked a) then
          write_loop (mkAcker (a_acked a) 0 (a_acked a) true sent) rest
        else mkAcker (a_packet_id a) (a_pos a) (a_acked a) false sent
      else a
  end.

(* ngx_kmp_in.c:751-827 ngx_kmp_in_write_handler *)
Definition write_handler (a : acker) (sends : list nat) : acker :=
  if negb (a_writing a) then a else write_loop a sends.
