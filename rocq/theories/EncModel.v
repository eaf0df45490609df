(* A model of the RTMP encoder: how the connect command, the commands that open
   and close a stream, the metadata, the codec headers and the frames that are
   pushed to an RTMP server are written as RTMP chunks.

   Modelled: nginx-kmp-rtmp-module/src/ngx_kmp_rtmp_encoder.c:10-90 (constants)
   and 487-1175 (everything but the AMF field tables), ngx_kmp_rtmp_stream.c:81-
   258 (publish, unpublish, write_meta), 273-354 (onfi, write_frame), 452-504
   (create), ngx_kmp_rtmp_upstream.c:1201-1235 (write_connect) and the macros of
   ngx_kmp_rtmp_amf.h:21-32.

   The contents of the AMF messages are arguments: the same fields are measured
   and written (ngx_kmp_rtmp_amf with and without a buffer), so one list of
   bytes stands for both.  How the upstream collects what is written and sends
   it is in UpModel.v; here the output is the bytes in the order in which they
   are written.  Failing allocations, logging and timers are not modelled.

   Numbers are Z; fields wrap at their width.  A write outside the memory that
   was asked for is the result None, and so is a size that does not match. *)

From Coq Require Import List ZArith Lia Bool.
From Verif Require Import Lists Bytes RtmpModel.
Import ListNotations.
Open Scope Z_scope.

Definition u8 (z : Z) : Z := z mod 256.

(* ngx_kmp_rtmp_encoder.c:58-59: ngx_kmp_rtmp_chunk_count *)
Definition chunk_count (mlen chunk : Z) : Z := (mlen + chunk - 1) / chunk.

(* ngx_kmp_rtmp_encoder.c:8-11, 84-89: ngx_kmp_rtmp_header_size *)
Definition header_size (fmt : Z) : Z :=
  if fmt =? 0 then 12 else if fmt =? 1 then 8 else if fmt =? 2 then 4 else 1.

(* ngx_kmp_rtmp_encoder.c:62-69: ngx_kmp_rtmp_header_t *)
Record ehdr := EHdr {
  h_fmt : Z;
  h_csid : Z;
  h_ts : Z;
  h_mlen : Z;
  h_type : Z;
  h_msid : Z
}.

(* memory: a write of some bytes at an offset *)
Definition poke (mem : list Z) (p : Z) (l : list Z) : option (list Z) :=
  if (0 <=? p) && (p + len l <=? len mem) then Some (take p mem ++ l ++ drop (p + len l) mem) else None.

(* memmove inside the memory *)
Definition move (mem : list Z) (dst src n : Z) : option (list Z) :=
  if (0 <=? src) && (0 <=? n) && (src + n <=? len mem) then poke mem dst (take n (drop src mem)) else None.

(* ngx_kmp_rtmp_encoder.c:487-505: ngx_kmp_rtmp_encoder_write_header *)
Definition write_header (h : ehdr) : list Z :=
  u8 (Z.lor (Z.shiftl (h_fmt h) 6) (h_csid h)) ::
  (if h_fmt h <=? 2 then
     be 3 (h_ts h) ++
     (if h_fmt h <=? 1 then
        be 3 (h_mlen h) ++ [h_type h] ++
        (if h_fmt h <=? 0 then le 4 (h_msid h) else [])
      else [])
   else []).

(* ngx_kmp_rtmp_encoder.c:524-534: the loop of add_chunk_headers *)
Fixpoint chunk_loop (i : nat) (mem : list Z) (p cur chunk csid : Z) : option (list Z) :=
  match i with
  | O => Some mem
  | S i' =>
      let src := p + Z.of_nat i * chunk in
      let dst := src + Z.of_nat i in
      match move mem dst src cur with
      | Some mem1 =>
          match poke mem1 (dst - 1) [u8 (Z.lor 192 csid)] with
          | Some mem2 => chunk_loop i' mem2 p chunk chunk csid
          | None => None
          end
      | None => None
      end
  end.

(* ngx_kmp_rtmp_encoder.c:508-537: ngx_kmp_rtmp_encoder_add_chunk_headers; an
   empty message makes chunks - 1 overflow *)
Definition add_chunk_headers (mem : list Z) (p mlen chunk csid : Z) : option (list Z * Z) :=
  if mlen <=? 0 then None
  else
    let chunks := chunk_count mlen chunk in
    match chunk_loop (Z.to_nat (chunks - 1)) mem p (mlen - (chunks - 1) * chunk) chunk csid with
    | Some mem1 => Some (mem1, p + mlen + (chunks - 1))
    | None => None
    end.

(* the size of a message with a header of type fmt, as in
   ngx_kmp_rtmp_encoder.c:540-551 (amf_get_size), 862-873, 918-929 and 967-978 *)
Definition msg_size (fmt mlen chunk : Z) : Z :=
  header_size fmt + mlen + (chunk_count mlen chunk - 1) * 1.

(* ngx_kmp_rtmp_encoder.c:554-572: ngx_kmp_rtmp_encoder_amf_write *)
Definition amf_write (x : list Z * Z) (body : list Z) (fmt csid ts type msid chunk : Z) : option (list Z * Z) :=
  let '(mem, p) := x in
  let b := p + header_size fmt in
  match poke mem b body with
  | Some mem1 =>
      match poke mem1 p (write_header (EHdr fmt csid ts (u32 (len body)) type msid)) with
      | Some mem2 => add_chunk_headers mem2 b (u32 (len body)) chunk csid
      | None => None
      end
  | None => None
  end.

(* the rest of ngx_kmp_rtmp_stream_publish and of the other callers: memory of
   the size that was computed is filled (it holds the byte fill before), and the
   size that was written has to match *)
Definition alloc (fill size : Z) : list Z * Z := (repeat fill (Z.to_nat size), 0).
Definition written (size : Z) (x : option (list Z * Z)) : option (list Z) :=
  match x with
  | Some (mem, p) => if p =? size then Some mem else None
  | None => None
  end.

(* ngx_kmp_rtmp_encoder.c:13-25: constants *)
Definition ext_timestamp : Z := 16777215.
Definition enc_default_chunk : Z := 128.
Definition csid_ctrl : Z := 2.
Definition csid_ini : Z := 3.
Definition ty_chunk_size : Z := 1.
Definition ty_audio : Z := 8.
Definition ty_video : Z := 9.
Definition ty_meta : Z := 18.
Definition ty_cmd : Z := 20.

Definition obind {A B} (x : option A) (f : A -> option B) : option B :=
  match x with Some a => f a | None => None end.

(* ngx_kmp_rtmp_encoder.c:575-619 and ngx_kmp_rtmp_upstream.c:1201-1235: the
   connect command and the chunk size message *)
Definition connect_write (fill chunk : Z) (body : list Z) : option (list Z) :=
  let size := msg_size 0 (len body) enc_default_chunk + (12 + 4) in
  written size
    (obind (amf_write (alloc fill size) body 0 csid_ini 0 ty_cmd 0 enc_default_chunk) (fun x =>
     let '(mem, p) := x in
     obind (poke mem p (write_header (EHdr 0 csid_ctrl 0 4 ty_chunk_size 0))) (fun mem1 =>
     obind (poke mem1 (p + 12) (be 4 chunk)) (fun mem2 =>
     Some (mem2, p + 12 + 4))))).

(* ngx_kmp_rtmp_stream_ctx_t (encoder.h) and the fields of ngx_kmp_rtmp_stream_t
   that matter here: k_meta is wrote_meta, k_onfi is last_onfi_time, and k_open
   says that the stream was not removed *)
Record sctx := Sctx {
  k_msid : Z;
  k_csid : Z;
  k_last : Z;
  k_sound : Z;
  k_wrote : bool;
  k_meta : bool;
  k_open : bool;
  k_onfi : Z
}.

(* ngx_kmp_rtmp_encoder.c:622-684 and ngx_kmp_rtmp_stream.c:81-112: publish *)
Definition publish (fill chunk : Z) (sc : sctx) (rel fcp cre pub : list Z) : option (list Z) :=
  let size := msg_size 1 (len rel) chunk + msg_size 1 (len fcp) chunk + msg_size 1 (len cre) chunk + msg_size 0 (len pub) chunk in
  written size
    (obind (amf_write (alloc fill size) rel 1 csid_ini 0 ty_cmd 0 chunk) (fun x =>
     obind (amf_write x fcp 1 csid_ini 0 ty_cmd 0 chunk) (fun x =>
     obind (amf_write x cre 1 csid_ini 0 ty_cmd 0 chunk) (fun x =>
     amf_write x pub 0 (k_csid sc) 0 ty_cmd (k_msid sc) chunk)))).

(* ngx_kmp_rtmp_encoder.c:687-738 and ngx_kmp_rtmp_stream.c:115-147: unpublish *)
Definition unpublish (fill chunk : Z) (fc del : list Z) : option (list Z) :=
  let size := msg_size 1 (len fc) chunk + msg_size 1 (len del) chunk in
  written size
    (obind (amf_write (alloc fill size) fc 1 csid_ini 0 ty_cmd 0 chunk) (fun x =>
     amf_write x del 1 csid_ini 0 ty_cmd 0 chunk)).

(* ngx_kmp_rtmp_encoder.c:843-859: ngx_kmp_rtmp_encoder_avc_header_write *)
Definition avc_header (packet key pts_delay : Z) : list Z :=
  let ft := if key =? 0 then 2 else 1 in
  [u8 (Z.lor (Z.shiftl ft 4) 7); packet] ++ be 3 (u32 pts_delay).

(* ngx_kmp_rtmp_encoder.h:17: NGX_RTMP_EXT_FOURCC_HVC1 *)
Definition hvc1 : Z := 828601960.   (* 0x31637668 *)

(* ngx_kmp_rtmp_encoder.c:902-920: ngx_kmp_rtmp_encoder_ext_header_write *)
Definition ext_header (packet key fourcc pts_delay : Z) : list Z :=
  let ft := if key =? 0 then 2 else 1 in
  [u8 (Z.lor (Z.lor 128 (Z.shiftl ft 4)) packet)] ++ le 4 fourcc ++ (if packet =? 1 then be 3 (u32 pts_delay) else []).

(* ngx_kmp_rtmp_encoder.c:967-975: ngx_kmp_rtmp_encoder_aac_header_write *)
Definition aac_header (sound packet : Z) : list Z := [sound; packet].

(* ngx_kmp_rtmp_encoder.c:876-899, 940-964 and 990-1013: the writers of the
   codec headers: the chunk header, the header of the packet, the extra data *)
Definition seq_write (x : list Z * Z) (hs : Z) (head extra : list Z) (type chunk : Z) (sc : sctx) : option (list Z * Z) :=
  let '(mem, p) := x in
  let mlen := u32 (hs + len extra) in
  obind (poke mem p (write_header (EHdr 0 (k_csid sc) 0 mlen type (k_msid sc)))) (fun mem1 =>
  let b := p + 12 in
  obind (poke mem1 b head) (fun mem2 =>
  obind (poke mem2 (b + len head) extra) (fun mem3 =>
  add_chunk_headers mem3 b mlen chunk (k_csid sc)))).

(* the video track when the metadata is written, with its extra data *)
Inductive video := VNone | VAvc (extra : list Z) | VHevc (extra : list Z).
(* the audio track; MP3 has no codec header *)
Inductive audio := ANone | AMp3 | AAac (extra : list Z).

(* ngx_kmp_rtmp_encoder.c:741-783 and ngx_kmp_rtmp_stream.c:150-246: the
   metadata and the codec headers; meta is the metadata message *)
Definition write_meta (fill chunk : Z) (sc : sctx) (meta : list Z) (v : video) (a : audio) : option (list Z) :=
  let size := msg_size 0 (len meta) chunk
    + (match v with VNone => 0 | VAvc e => msg_size 0 (5 + len e) chunk | VHevc e => msg_size 0 (5 + len e) chunk end)
    + (match a with AAac e => msg_size 0 (2 + len e) chunk | _ => 0 end) in
  written size
    (obind (amf_write (alloc fill size) meta 0 (k_csid sc) 0 ty_meta (k_msid sc) chunk) (fun x =>
     obind (match v with
            | VNone => Some x
            | VAvc e => seq_write x 5 (avc_header 0 1 0) e ty_video chunk sc
            | VHevc e => seq_write x 5 (ext_header 0 1 hvc1 0) e ty_video chunk sc
            end) (fun x =>
     match a with
     | AAac e => seq_write x 2 (aac_header (k_sound sc) 0) e ty_audio chunk sc
     | _ => Some x
     end))).

(* ngx_kmp_rtmp_encoder.c:786-840: ngx_kmp_rtmp_encoder_update_media_info, for
   an audio track *)
Definition sound_info (codec rate bits channels : Z) : Z :=
  let fmt := codec - 1000 in
  let r := if rate <=? 8000 then 0 else if rate <=? 16000 then 1 else if rate <=? 32000 then 2 else 3 in
  let s := if bits =? 8 then 0 else 1 in
  let t := if channels =? 1 then 0 else 1 in
  u8 (Z.lor (Z.lor (Z.lor (Z.shiftl fmt 4) (Z.shiftl r 2)) (Z.shiftl s 1)) t).

(* ngx_kmp_rtmp_encoder.c:1016-1046 and ngx_kmp_rtmp_stream.c:273-320: onfi;
   body is the message for a time *)
Definition onfi_write (fill chunk : Z) (sc : sctx) (body : list Z) : option (list Z) :=
  let size := msg_size 1 (len body) chunk in
  written size (amf_write (alloc fill size) body 1 (k_csid sc) 0 ty_meta (k_msid sc) chunk).

(* the codecs that validate_media_info lets through *)
Inductive codec := H264 | H265 | MP3 | AAC.

(* ngx_kmp_rtmp_frame_t; the data is a chain of buffers, size is their total *)
Record frame := Frame {
  f_created : Z;
  f_dts : Z;
  f_pts_delay : Z;
  f_flags : Z;
  f_data : list (list Z)
}.
Definition f_size (f : frame) : Z := len (concat (f_data f)).

(* ngx_kmp_rtmp_encoder.c:1089-1129: the header of the packet, and its size and
   type as they are used for the chunk header *)
Definition packet_header (c : codec) (sound : Z) (f : frame) : list Z :=
  match c with
  | H264 => avc_header 1 (Z.land (f_flags f) 1) (f_pts_delay f)
  | H265 => ext_header 1 (Z.land (f_flags f) 1) hvc1 (f_pts_delay f)
  | MP3 => [sound]
  | AAC => aac_header sound 1
  end.
Definition packet_header_size (c : codec) : Z :=
  match c with H264 => 5 | H265 => 8 | MP3 => 1 | AAC => 2 end.
Definition packet_type (c : codec) : Z :=
  match c with H264 | H265 => ty_video | MP3 | AAC => ty_audio end.

(* ngx_kmp_rtmp_encoder.c:1063-1136: buf[NGX_RTMP_FRAME_HEADER_MAX_SIZE] is
   filled and its first p - buf bytes are written *)
Definition frame_head (fill : Z) (sc : sctx) (f : frame) (c : codec) : option (list Z) :=
  let buf := repeat fill 24 in
  let fmt := if k_wrote sc then 1 else 0 in
  let ts := if k_wrote sc then u32 (u32 (f_dts f) - k_last sc) else u32 (f_dts f) in
  let p := header_size fmt in
  obind (if ts >=? ext_timestamp then
           obind (poke buf p (be 4 ts)) (fun b => Some (b, p + 4, ext_timestamp))
         else Some (buf, p, ts)) (fun x =>
  let '(b, p, ts) := x in
  obind (poke b p (packet_header c (k_sound sc) f)) (fun b1 =>
  let p := p + len (packet_header c (k_sound sc) f) in
  obind (poke b1 0 (write_header (EHdr fmt (k_csid sc) ts (u32 (packet_header_size c + f_size f)) (packet_type c) (k_msid sc)))) (fun b2 =>
  Some (take p b2)))).

(* ngx_kmp_rtmp_encoder.c:1145-1190: the loop over the data; every step writes
   a byte or goes to the next buffer, unless there is no space left in the
   first chunk *)
Fixpoint frame_loop (fuel : nat) (hd chunk left : Z) (chain : list (list Z)) : option (list Z) :=
  match fuel with
  | O => None
  | S fuel' =>
      match chain with
      | [] => None
      | c :: r =>
          if len c >? left then
            obind (frame_loop fuel' hd chunk chunk (drop left c :: r)) (fun o => Some (take left c ++ hd :: o))
          else
            match r with
            | [] => Some c
            | _ => obind (frame_loop fuel' hd chunk (left - len c) r) (fun o => Some (c ++ o))
            end
      end
  end.

(* ngx_kmp_rtmp_encoder.c:1049-1195: ngx_kmp_rtmp_encoder_frame_write *)
Definition frame_write (fill chunk : Z) (sc : sctx) (f : frame) (c : codec) : option (sctx * list Z) :=
  obind (frame_head fill sc f c) (fun h =>
  obind (frame_loop (2 * Z.to_nat (f_size f) + length (f_data f) + 2) (u8 (Z.lor 192 (k_csid sc))) chunk
           (chunk - packet_header_size c) (f_data f)) (fun o =>
  Some (Sctx (k_msid sc) (k_csid sc) (u32 (f_dts f)) (k_sound sc) true (k_meta sc) (k_open sc) (k_onfi sc), h ++ o))).

(* the configuration: chunk_size, onfi_period, and the onfi message for a time *)
Record ecfg := ECfg {
  ec_chunk : Z;
  ec_period : Z;
  ec_onfi : Z -> list Z
}.

(* ngx_kmp_rtmp_stream.c:323-354: ngx_kmp_rtmp_stream_write_frame *)
Definition stream_write_frame (fill : Z) (cf : ecfg) (sc : sctx) (f : frame) (c : codec) : option (sctx * list Z) :=
  obind (frame_write fill (ec_chunk cf) sc f c) (fun x =>
  let '(sc, o) := x in
  if ec_period cf <=? 0 then Some (sc, o)
  else if (f_created f <? k_onfi sc) || (f_created f >=? k_onfi sc + ec_period cf) then
    obind (onfi_write fill (ec_chunk cf) sc (ec_onfi cf (f_created f))) (fun o2 =>
    Some (Sctx (k_msid sc) (k_csid sc) (k_last sc) (k_sound sc) (k_wrote sc) (k_meta sc) (k_open sc) (f_created f), o ++ o2))
  else Some (sc, o)).

(* the state of an upstream: last_msid and the streams in the order in which
   they were created *)
Record est := Est {
  e_last : Z;
  e_streams : list sctx
}.

(* what happens on an upstream after the connect command:
   EOpen: the first track of a stream comes (stream_create), with the contents
     of the releaseStream, FCPublish, createStream and publish commands;
   EInfo: an audio track gets a media info;
   EMeta: the timer to write the metadata of stream k expires;
   EFrame: a frame of stream k is written;
   EClose: the last track of stream k goes, with the contents of the
     FCUnpublish and deleteStream commands *)
Inductive eop :=
  | EOpen (rel fcp cre pub : list Z)
  | EInfo (k : nat) (codec rate bits channels : Z)
  | EMeta (k : nat) (meta : list Z) (v : video) (a : audio)
  | EFrame (k : nat) (f : frame) (c : codec)
  | EClose (k : nat) (fc del : list Z).

Definition set_sound (sc : sctx) (v : Z) : sctx :=
  Sctx (k_msid sc) (k_csid sc) (k_last sc) v (k_wrote sc) (k_meta sc) (k_open sc) (k_onfi sc).
Definition set_meta (sc : sctx) : sctx :=
  Sctx (k_msid sc) (k_csid sc) (k_last sc) (k_sound sc) (k_wrote sc) true (k_open sc) (k_onfi sc).
Definition set_closed (sc : sctx) : sctx :=
  Sctx (k_msid sc) (k_csid sc) (k_last sc) (k_sound sc) (k_wrote sc) (k_meta sc) false (k_onfi sc).

(* one event.  Nothing is written for a stream that is not there any more; the
   metadata is written once (ngx_kmp_rtmp_stream.c:370-372); frames wait for it
   (ngx_kmp_rtmp_track.c:501-504, 659-668). *)
Definition enc_op (fill : Z) (cf : ecfg) (e : est) (op : eop) : option (est * list Z) :=
  let with_stream (k : nat) (f : sctx -> option (sctx * list Z)) :=
    match nth_error (e_streams e) k with
    | Some sc =>
        if k_open sc then
          obind (f sc) (fun x => let '(sc1, o) := x in Some (Est (e_last e) (set_nth (e_streams e) k sc1), o))
        else Some (e, [])
    | None => Some (e, [])
    end in
  match op with
  | EOpen rel fcp cre pub =>
      (* ngx_kmp_rtmp_stream.c:452-504: ngx_kmp_rtmp_stream_create *)
      let msid := u32 (e_last e + 1) in
      let sc := Sctx msid (u8 (3 + msid)) 0 0 false false true 0 in
      obind (publish fill (ec_chunk cf) sc rel fcp cre pub) (fun o =>
      Some (Est msid (e_streams e ++ [sc]), o))
  | EInfo k codec rate bits channels =>
      with_stream k (fun sc => Some (set_sound sc (sound_info codec rate bits channels), []))
  | EMeta k meta v a =>
      with_stream k (fun sc =>
        if k_meta sc then Some (sc, [])
        else obind (write_meta fill (ec_chunk cf) sc meta v a) (fun o => Some (set_meta sc, o)))
  | EFrame k f c =>
      with_stream k (fun sc =>
        if k_meta sc then stream_write_frame fill cf sc f c else Some (sc, []))
  | EClose k fc del =>
      with_stream k (fun sc =>
        obind (unpublish fill (ec_chunk cf) fc del) (fun o => Some (set_closed sc, o)))
  end.

Fixpoint enc_ops (fill : Z) (cf : ecfg) (e : est) (ops : list eop) : option (list Z) :=
  match ops with
  | [] => Some []
  | op :: r =>
      obind (enc_op fill cf e op) (fun x =>
      let '(e1, o) := x in
      obind (enc_ops fill cf e1 r) (fun o2 => Some (o ++ o2)))
  end.

(* all that an upstream writes *)
Definition encode (fill : Z) (cf : ecfg) (connect : list Z) (ops : list eop) : option (list Z) :=
  obind (connect_write fill (ec_chunk cf) connect) (fun o =>
  obind (enc_ops fill cf (Est 0 []) ops) (fun o2 => Some (o ++ o2))).
