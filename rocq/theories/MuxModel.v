(* How a segment becomes MPEG-TS: which frame is next, and what is done to it before
   it is cut into packets (nginx-pckg-module/src/media/mpegts):
     mpegts_muxer.c, mp4_to_annexb_filter.c, adts_encoder_filter.c,
     id3_encoder_filter.c, buffer_filter.c, frame_joiner_filter.c.
   The packets are those of TsModel.v.

   A stream has a filter at the top (it makes a byte stream of the frames), maybe one
   that collects frames, and the encoder.  Filters only call the next one, and use
   nothing but its success, so a filter is a function that gives the calls it makes.
   None is an error of the filter; the request fails then.  Allocations do not fail.
   Encryption is not modelled (mpegts_muxer.c:351-392, SAMPLE-AES).

   The parts of a list of frames are put together (mpegts_muxer.c:471-481); parts are
   never empty in the code.  segment_limit is not used (ULLONG_MAX). *)

From Coq Require Import ZArith List Bool Lia.
From Verif Require Import Lists TsModel.
Import ListNotations.
Open Scope Z_scope.

(* input_frame_t, and what the reads of the frames source give for it, one list per
   read (mpegts_muxer.c:643-668). *)
Record iframe := Iframe {
  i_size : Z; i_key : bool; i_dur : Z; i_delay : Z; i_chunks : list (list Z)
}.

(* The fixed part of mp4_to_annexb_state_t, mp4_to_annexb_filter.c:14-29. *)
Record vconf := Vconf {
  vc_mask : Z; vc_audt : Z; vc_aud : list Z; vc_nal : nat; vc_extra : list Z
}.

(* mp4_to_annexb_set_media_info, mp4_to_annexb_filter.c:66-96. *)
Definition avc (nal : nat) (extra : list Z) : vconf :=
  Vconf 31 9 [0; 0; 0; 1; 9; 240] nal extra.
Definition hevc (nal : nat) (extra : list Z) : vconf :=
  Vconf 126 70 [0; 0; 0; 1; 70; 1; 80] nal extra.

(* mp4a_config_t, as far as it is used. *)
Record aconf := Aconf { ac_object : Z; ac_rate : Z; ac_chan : Z }.

(* The filter at the top, mpegts_muxer.c:287-349. *)
Inductive top := TVideo (v : vconf) | TAac (a : aconf) | TPlain | TId3.

(* The calls of a filter. *)
Inductive call := CStart (f : frame) | CWrite (b : list Z) | CFlush (last : bool).

(* ------------------------------------------------------------------ *)
(* Video                                                                *)

(* The states of lines 40-44 that last (STATE_NAL_TYPE does not). *)
Inductive nstate := NSize | NCopy | NSkip.

(* The state of mp4_to_annexb_state_t, lines 31-35. *)
Record nst := Nst {
  ns_state : nstate; ns_first : bool; ns_len : nat; ns_left : Z; ns_size : Z
}.

(* mp4_to_annexb_start_frame, mp4_to_annexb_filter.c:126-177; the frame has its
   size from the input. *)
Definition nal_start (v : vconf) (key : bool) (f : frame) : option (nst * list call) :=
  if (0 <? f_size f) && (f_size f <=? Z.of_nat (vc_nal v)) then None
  else
    let f' := Frame (f_pts f) (f_dts f)
                (f_size f + zlen (vc_aud v) + (if key then zlen (vc_extra v) else 0))
                (f_header f + zlen (vc_aud v)) in
    Some (Nst NSize true (vc_nal v) 0 (f_size f),
          CStart f' :: CWrite (vc_aud v) :: (if key then [CWrite (vc_extra v)] else [])).

(* STATE_COPY_PACKET and STATE_SKIP_PACKET, lines 251-272: what is left of the
   buffer comes with it. *)
Definition nal_body (v : vconf) (copy : bool) (s : nst) (buf : list Z)
  : nst * list call * list Z :=
  let w := Nat.min (Z.to_nat (ns_left s)) (length buf) in
  let size := if copy then ns_size s - Z.of_nat w else ns_size s in
  let left := ns_left s - Z.of_nat w in
  (if left <=? 0
   then Nst NSize (ns_first s) (vc_nal v) 0 size
   else Nst (if copy then NCopy else NSkip) (ns_first s) (ns_len s) left size,
   if copy then [CWrite (firstn w buf)] else [],
   skipn w buf).

(* mp4_to_annexb_write, mp4_to_annexb_filter.c:180-276.  A round of the loop takes
   at least a byte (the round that only finds out that a packet is to be skipped is
   put together with the next one), so n is at least the size of the buffer. *)
Fixpoint nal_write (n : nat) (v : vconf) (s : nst) (buf : list Z) : option (nst * list call) :=
  match n, buf with
  | _, [] | O, _ => Some (s, [])
  | S n, _ :: _ =>
      match ns_state s with
      | NSize =>
          let k := Nat.min (ns_len s) (length buf) in
          let left := fold_left (fun a x => a * 256 + x) (firstn k buf) (ns_left s) in
          let s := Nst NSize (ns_first s) (ns_len s - k) left (ns_size s) in
          match skipn k buf with
          | [] => Some (s, [])
          | (x :: _) as buf =>
              if left <=? 0 then None
              else
                let copy := negb (Z.land x (vc_mask v) =? vc_audt v) in
                let '(s, calls) :=
                  if copy then
                    if ns_first s
                    then (Nst NCopy false (ns_len s) left (ns_size s - 4), [CWrite [0; 0; 0; 1]])
                    else (Nst NCopy false (ns_len s) left (ns_size s - 3), [CWrite [0; 0; 1]])
                  else (Nst NSkip (ns_first s) (ns_len s) left (ns_size s), []) in
                let '(s, calls1, buf) := nal_body v copy s buf in
                match nal_write n v s buf with
                | Some (s, calls2) => Some (s, calls ++ calls1 ++ calls2)
                | None => None
                end
          end
      | st =>
          let '(s, calls1, buf) :=
            nal_body v (match st with NCopy => true | _ => false end) s buf in
          match nal_write n v s buf with
          | Some (s, calls2) => Some (s, calls1 ++ calls2)
          | None => None
          end
      end
  end.

(* Zeros, 64 at a time: the loop in lines 296-307. *)
Definition zeros (n : Z) : list call :=
  repeat (CWrite (repeat 0 64)) (Z.to_nat (n / 64)) ++
  (if n mod 64 =? 0 then [] else [CWrite (repeat 0 (Z.to_nat (n mod 64)))]).

(* mp4_to_annexb_flush_frame, mp4_to_annexb_filter.c:279-311. *)
Definition nal_flush (v : vconf) (last : bool) (s : nst) : option (list call) :=
  if (vc_nal v =? 4)%nat then
    if ns_size s <? 0 then None else Some (zeros (ns_size s) ++ [CFlush last])
  else Some [CFlush last].

Fixpoint nal_writes (v : vconf) (s : nst) (chunks : list (list Z)) : option (nst * list call) :=
  match chunks with
  | [] => Some (s, [])
  | b :: chunks =>
      match nal_write (length b) v s b with
      | Some (s, calls1) =>
          match nal_writes v s chunks with
          | Some (s, calls2) => Some (s, calls1 ++ calls2)
          | None => None
          end
      | None => None
      end
  end.

(* ------------------------------------------------------------------ *)
(* Audio and metadata                                                   *)

(* The header, adts_encoder_filter.c:36-41 and 67, with the fields of
   bit_fields.h:6-34. *)
Definition adts (a : aconf) (len : Z) : list Z :=
  [255; 241;
   (ac_object a - 1) mod 4 * 64 + ac_rate a mod 16 * 4 + ac_chan a / 4 mod 2;
   ac_chan a mod 4 * 64 + len / 2048 mod 4;
   len / 8 mod 256;
   len mod 8 * 32 + 31;
   252].

(* write_be32_synchsafe, id3_defs.h:8-14. *)
Definition synchsafe (x : Z) : list Z :=
  [x / 2 ^ 21 mod 128; x / 2 ^ 14 mod 128; x / 2 ^ 7 mod 128; x mod 128].

(* id3_text_frame_template, id3_defs.c, with the sizes of id3_encoder_filter.c:24-31. *)
Definition id3_header (size : Z) : list Z :=
  [73; 68; 51; 4; 0; 0] ++ synchsafe (size + 1 + 10) ++
  [84; 69; 88; 84] ++ synchsafe (size + 1) ++ [0; 0; 3].

(* The calls of a whole frame: mpegts_muxer_start_frame's start (lines 577-600), the
   reads and writes of mpegts_muxer_process (641-668), and the flush (670); and in the
   filters adts_encoder_start_frame, adts_encoder_filter.c:53-70, and
   id3_encoder_start_frame, id3_encoder_filter.c:7-34. *)
Definition top_frame (tp : top) (fr : iframe) (dts : Z) (last : bool) : option (list call) :=
  let f := Frame (dts + i_delay fr) dts (i_size fr) 0 in
  let body := map CWrite (i_chunks fr) ++ [CFlush last] in
  match tp with
  | TVideo v =>
      match nal_start v (i_key fr) f with
      | Some (s, calls1) =>
          match nal_writes v s (i_chunks fr) with
          | Some (s, calls2) =>
              match nal_flush v last s with
              | Some calls3 => Some (calls1 ++ calls2 ++ calls3)
              | None => None
              end
          | None => None
          end
      | None => None
      end
  | TAac a =>
      let n := i_size fr + 7 in
      Some (CStart (Frame (f_pts f) (f_dts f) n 1) :: CWrite (adts a n) :: body)
  | TPlain => Some (CStart f :: body)
  | TId3 =>
      Some (CStart (Frame (f_pts f) (f_dts f) (i_size fr + 21) 0) ::
            CWrite (id3_header (i_size fr)) :: body)
  end.

(* ------------------------------------------------------------------ *)
(* Collecting frames: the buffer                                        *)

Inductive bphase := BInit | BStarted | BFlushed | BDirect.

(* buffer_filter_t, buffer_filter.c:23-43.  bf_data is what is between start_pos and
   cur_pos, bf_fl is last_flush_pos - start_pos; the positions in the queue of frames
   are relative to start_pos, too.  bf_used and bf_fsz belong to the simulation. *)
Record buf := Buf {
  bf_phase : bphase;
  bf_cur : frame;
  bf_last : frame;
  bf_data : list Z;
  bf_fl : nat;
  bf_ring : list (frame * nat);
  bf_w : nat;
  bf_r : nat;
  bf_full : bool;
  bf_used : Z;
  bf_fsz : Z
}.

Definition frame0 : frame := Frame 0 0 0 0.

(* BUFFERED_FRAMES_QUEUE_SIZE, buffer_filter.c:8, and DEFAULT_PES_PAYLOAD_SIZE,
   mpegts_muxer.c:12-13. *)
Definition ring_size : nat := 28.
Definition buf_size : Z := 2930.

Definition inc (n : nat) : nat := if (ring_size <=? S n)%nat then O else S n.

(* The loop of buffer_filter_force_flush, buffer_filter.c:118-149. *)
Fixpoint ring_out (n : nat) (ring : list (frame * nat)) (w r p : nat) (data : list Z)
  : list call :=
  match n with
  | O => []
  | S n =>
      if (w =? r)%nat then []
      else
        let '(f, np) := nth r ring (frame0, O) in
        (if (0 <? p)%nat then [CStart f] else []) ++
        CWrite (firstn (np - p) (skipn p data)) :: ring_out n ring w (inc r) np data
  end.

(* A call that starts a frame inside of another one starts a sub frame,
   mpegts_encoder_start_sub_frame. *)
Fixpoint emit (i : nat) (first : bool) (l : list call) : list op :=
  match l with
  | [] => []
  | CStart f :: l => (if first then OStart i f else OSub i f) :: emit i false l
  | CWrite b :: l => OWrite i b :: emit i first l
  | CFlush last :: l => OFlush i last :: emit i true l
  end.

(* buffer_filter_force_flush, buffer_filter.c:78-182. *)
Definition buf_force (i : nat) (align last : bool) (b : buf) : buf * list op :=
  if (bf_fl b =? 0)%nat then (b, [])
  else
    let r := if bf_full b then inc (bf_w b) else bf_r b in
    let body :=
      if align then [CWrite (firstn (bf_fl b) (bf_data b))]
      else ring_out ring_size (bf_ring b) (bf_w b) r O (bf_data b) in
    let '(ph, cur) :=
      match bf_phase b with
      | BStarted => (BStarted, bf_last b)
      | BFlushed => (BInit, bf_cur b)
      | p => (p, bf_cur b)
      end in
    (Buf ph cur (bf_last b) (skipn (bf_fl b) (bf_data b)) 0 (bf_ring b) (bf_w b)
       (if align then bf_r b else bf_w b) (if align then bf_full b else false)
       (bf_used b) (bf_fsz b),
     emit i true (CStart (bf_cur b) :: body ++ [CFlush last])).

(* buffer_filter_start_frame, buffer_filter.c:52-76. *)
Definition buf_start (f : frame) (b : buf) : option buf :=
  match bf_phase b with
  | BInit | BFlushed =>
      Some (Buf BStarted (match bf_phase b with BInit => f | _ => bf_cur b end) f
              (bf_data b) (bf_fl b) (bf_ring b) (bf_w b) (bf_r b) (bf_full b)
              (bf_used b) (bf_fsz b))
  | _ => None
  end.

Definition set_data (b : buf) (ph : bphase) (data : list Z) : buf :=
  Buf ph (bf_cur b) (bf_last b) data (bf_fl b) (bf_ring b) (bf_w b) (bf_r b) (bf_full b)
    (bf_used b) (bf_fsz b).

(* buffer_filter_write, buffer_filter.c:185-249. *)
Definition buf_write (i : nat) (align : bool) (x : list Z) (b : buf) : option (buf * list op) :=
  match bf_phase b with
  | BDirect => Some (b, [OWrite i x])
  | BStarted =>
      let '(b, ops) :=
        if buf_size <? zlen (bf_data b) + zlen x then buf_force i align false b else (b, []) in
      if zlen (bf_data b) + zlen x <=? buf_size
      then Some (set_data b BStarted (bf_data b ++ x), ops)
      else
        Some (set_data b BDirect [],
              ops ++ OStart i (bf_cur b) ::
                (match bf_data b with [] => [] | d => [OWrite i d] end) ++ [OWrite i x])
  | _ => None
  end.

(* buffer_filter_flush_frame, buffer_filter.c:252-302. *)
Definition buf_flush (i : nat) (align last : bool) (b : buf) : buf * list op :=
  match bf_phase b with
  | BStarted =>
      let w := if align then bf_w b else inc (bf_w b) in
      let b :=
        Buf BFlushed (bf_cur b) (bf_last b) (bf_data b) (length (bf_data b))
          (if align then bf_ring b
           else set_nth (bf_ring b) (bf_w b) (bf_last b, length (bf_data b)))
          w (bf_r b)
          (if align then bf_full b else bf_full b || (w =? bf_r b)%nat)
          (bf_used b) (bf_fsz b) in
      if last then buf_force i align true b else (b, [])
  | BDirect => (set_data b BInit (bf_data b), [OFlush i last])
  | _ => (b, [])
  end.

(* buffer_filter_get_dts, buffer_filter.c:304-316. *)
Definition buf_dts (b : buf) : option Z :=
  match bf_phase b with BInit => None | _ => Some (f_dts (bf_cur b)) end.

(* buffer_filter_init, buffer_filter.c:407-454. *)
Definition buf0 : buf :=
  Buf BInit frame0 frame0 [] 0 (repeat (frame0, O) ring_size) 0 0 false 0 0.

(* ------------------------------------------------------------------ *)
(* The filters between the top and the encoder                          *)

Inductive mid := MNone | MBuf | MJoin.

(* mpegts_muxer.c:287-329. *)
Definition mid_of (c : conf) (tp : top) : mid :=
  match tp with
  | TVideo _ | TId3 => MNone
  | TAac _ | TPlain => if c_inter c then MJoin else MBuf
  end.

(* The buffer, and frame_dts of the joiner (nothing for NO_TIMESTAMP),
   frame_joiner_filter.c:21. *)
Record fil := Fil { fl_buf : buf; fl_join : option Z }.

(* FRAME_OUTPUT_INTERVAL, frame_joiner_filter.c:10. *)
Definition join_time : Z := 63000.

Definition with_buf (m : fil) (r : buf * list op) : fil * list op :=
  (Fil (fst r) (fl_join m), snd r).

(* frame_joiner_start_frame and frame_joiner_flush_frame,
   frame_joiner_filter.c:25-78. *)
Definition mid_call (c : conf) (i : nat) (k : mid) (m : fil) (x : call)
  : option (fil * list op) :=
  match k, x with
  | MNone, CStart f => Some (m, [OStart i f])
  | MNone, CFlush last => Some (m, [OFlush i last])
  | MNone, CWrite b | MJoin, CWrite b => Some (m, [OWrite i b])
  | MBuf, CStart f =>
      match buf_start f (fl_buf m) with
      | Some b => Some (with_buf m (b, []))
      | None => None
      end
  | MBuf, CWrite b =>
      match buf_write i (c_align c) b (fl_buf m) with
      | Some r => Some (with_buf m r)
      | None => None
      end
  | MBuf, CFlush last => Some (with_buf m (buf_flush i (c_align c) last (fl_buf m)))
  | MJoin, CStart f =>
      match fl_join m with
      | Some d =>
          if d + join_time <=? f_dts f
          then Some (Fil (fl_buf m) (Some (f_dts f)), [OFlush i false; OStart i f])
          else Some (m, [OSub i f])
      | None => Some (Fil (fl_buf m) (Some (f_dts f)), [OStart i f])
      end
  | MJoin, CFlush last =>
      if last then Some (Fil (fl_buf m) None, [OFlush i true]) else Some (m, [])
  end.

Fixpoint mid_calls (c : conf) (i : nat) (k : mid) (m : fil) (l : list call)
  : option (fil * list op) :=
  match l with
  | [] => Some (m, [])
  | x :: l =>
      match mid_call c i k m x with
      | Some (m, ops1) =>
          match mid_calls c i k m l with
          | Some (m, ops2) => Some (m, ops1 ++ ops2)
          | None => None
          end
      | None => None
      end
  end.

(* ------------------------------------------------------------------ *)
(* The muxer                                                            *)

(* A stream: the encoder's part, the filter at the top, start_dts, the frames. *)
Record chan := Chan { ch_strm : strm; ch_top : top; ch_dts : Z; ch_frames : list iframe }.

(* mpegts_muxer_stream_state_t, mpegts_muxer.h: the frames to come,
   next_frame_time_offset, and the filters. *)
Record mst := Mst { ms_frames : list iframe; ms_time : Z; ms_fil : fil }.

(* mpegts_muxer_choose_stream, mpegts_muxer.c:462-502: j is the number of the first
   stream of the list. *)
Fixpoint choose (j : nat) (best : option (nat * Z)) (l : list mst) : option (nat * Z) :=
  match l with
  | [] => best
  | s :: l =>
      choose (S j)
        (match ms_frames s, best with
         | [], _ => best
         | _, None => Some (j, ms_time s)
         | _, Some (_, t) => if ms_time s <? t then Some (j, ms_time s) else best
         end) l
  end.

(* MPEGTS_DELAY, mpegts_encoder_filter.h:12. *)
Definition delay : Z := 63000.

(* The streams that wait for too long are flushed, mpegts_muxer.c:553-576; j is the
   number of the first stream of the list, k the one that is next. *)
Fixpoint flush_late (c : conf) (chs : list chan) (k j : nat) (dts : Z) (l : list mst)
  : list mst * list op :=
  match l, chs with
  | s :: l, ch :: chs =>
      let '(s, ops1) :=
        match mid_of c (ch_top ch), buf_dts (fl_buf (ms_fil s)) with
        | MBuf, Some d =>
            if negb (j =? k)%nat && (d + delay / 2 <? dts) then
              let '(m, ops) :=
                with_buf (ms_fil s) (buf_force j (c_align c) false (fl_buf (ms_fil s))) in
              (Mst (ms_frames s) (ms_time s) m, ops)
            else (s, [])
        | _, _ => (s, [])
        end in
      let '(l, ops2) := flush_late c chs k (S j) dts l in
      (s :: l, ops1 ++ ops2)
  | _, _ => (l, [])
  end.

(* mpegts_muxer_start_frame and what mpegts_muxer_process does with the frame,
   mpegts_muxer.c:505-609 and 630-700. *)
Definition mux_frame (c : conf) (chs : list chan) (k : nat) (l : list mst)
  : option (list mst * list op) :=
  match nth_error l k, nth_error chs k with
  | Some s, Some ch =>
      match ms_frames s with
      | fr :: frs =>
          let '(l, ops1) := flush_late c chs k 0 (ms_time s) l in
          let last := match frs with [] => true | _ => false end in
          match top_frame (ch_top ch) fr (ms_time s) last with
          | Some calls =>
              match mid_calls c k (mid_of c (ch_top ch)) (ms_fil s) calls with
              | Some (m, ops2) =>
                  Some (set_nth l k (Mst frs (ms_time s + i_dur fr) m), ops1 ++ ops2)
              | None => None
              end
          | None => None
          end
      | [] => None
      end
  | _, _ => None
  end.

(* At most n frames: mpegts_muxer_process, mpegts_muxer.c:630-705. *)
Fixpoint mux (n : nat) (c : conf) (chs : list chan) (l : list mst)
  : option (list mst * list op) :=
  match choose 0 None l with
  | None => Some (l, [])
  | Some (k, _) =>
      match n with
      | O => None
      | S n =>
          match mux_frame c chs k l with
          | Some (l, ops1) =>
              match mux n c chs l with
              | Some (l, ops2) => Some (l, ops1 ++ ops2)
              | None => None
              end
          | None => None
          end
      end
  end.

Definition frames_left (l : list mst) : nat :=
  fold_right (fun s n => (length (ms_frames s) + n)%nat) O l.

(* mpegts_muxer_init_track, mpegts_muxer.c:34-75. *)
Definition mst0 (ch : chan) : mst := Mst (ch_frames ch) (ch_dts ch) (Fil buf0 None).

(* ------------------------------------------------------------------ *)
(* The simulation                                                       *)

Inductive scall := ZStart (f : frame) | ZWrite (n : Z) | ZFlush (last : bool).
Inductive sop := SStart (i : nat) (f : frame) | SWrite (i : nat) (n : Z) | SFlush (i : nat) (last : bool).

(* What the encoder's simulation does with them, see sim_step in TsModel.v. *)
Definition sstep (c : conf) (s : sst) (o : sop) : sst :=
  match o with
  | SStart i f => son c (sim_close_other c s i) i (fun t => sim_start i t f)
  | SWrite i n => son c s i (fun _ => sim_write i n)
  | SFlush i last => son c s i (fun t => sim_flush c i t last)
  end.

(* mpegts_muxer_simulation_write_frame, mpegts_muxer.c:738-752, and in the filters
   mp4_to_annexb_simulated_start_frame, mp4_to_annexb_filter.c:314-329,
   adts_encoder_simulated_start_frame, adts_encoder_filter.c:73-82, and
   id3_encoder_simulated_start_frame, id3_encoder_filter.c:37-44.  (pts and size are
   not set in the code; nothing uses them.) *)
Definition sim_top (tp : top) (fr : iframe) (dts : Z) (last : bool) : list scall :=
  let body := [ZWrite (i_size fr); ZFlush last] in
  match tp with
  | TVideo v =>
      ZStart (Frame 0 dts 0 (zlen (vc_aud v))) ::
      ZWrite (zlen (vc_aud v) + (if i_key fr then zlen (vc_extra v) else 0)) :: body
  | TAac _ => ZStart (Frame 0 dts 0 1) :: ZWrite 7 :: body
  | TPlain => ZStart (Frame 0 dts 0 0) :: body
  | TId3 => ZStart (Frame 0 dts 0 0) :: ZWrite 21 :: body
  end.

Definition set_used (b : buf) (ph : bphase) (cur last : frame) (used fsz : Z) : buf :=
  Buf ph cur last (bf_data b) (bf_fl b) (bf_ring b) (bf_w b) (bf_r b) (bf_full b) used fsz.

(* buffer_filter_simulated_force_flush, buffer_filter.c:319-346. *)
Definition sbuf_force (i : nat) (last : bool) (b : buf) : buf * list sop :=
  if bf_fsz b <=? 0 then (b, [])
  else
    let '(ph, cur) :=
      match bf_phase b with
      | BStarted => (BStarted, bf_last b)
      | BFlushed => (BInit, bf_cur b)
      | p => (p, bf_cur b)
      end in
    (set_used b ph cur (bf_last b) (bf_used b - bf_fsz b) 0,
     [SStart i (bf_cur b); SWrite i (bf_fsz b); SFlush i last]).

(* buffer_filter_simulated_start_frame, buffer_filter.c:349-366. *)
Definition sbuf_start (f : frame) (b : buf) : buf :=
  set_used b BStarted (match bf_phase b with BInit => f | _ => bf_cur b end) f
    (bf_used b) (bf_fsz b).

(* buffer_filter_simulated_write, buffer_filter.c:369-402. *)
Definition sbuf_write (i : nat) (n : Z) (b : buf) : buf * list sop :=
  match bf_phase b with
  | BDirect => (b, [SWrite i n])
  | _ =>
      let '(b, ops) :=
        if buf_size <? bf_used b + n then sbuf_force i false b else (b, []) in
      if bf_used b + n <=? buf_size
      then (set_used b (bf_phase b) (bf_cur b) (bf_last b) (bf_used b + n) (bf_fsz b), ops)
      else (set_used b BDirect (bf_cur b) (bf_last b) 0 (bf_fsz b),
            ops ++ [SStart i (bf_cur b); SWrite i (bf_used b + n)])
  end.

(* buffer_filter_simulated_flush_frame, buffer_filter.c:405-428. *)
Definition sbuf_flush (i : nat) (last : bool) (b : buf) : buf * list sop :=
  match bf_phase b with
  | BStarted =>
      let b := set_used b BFlushed (bf_cur b) (bf_last b) (bf_used b) (bf_used b) in
      if last then sbuf_force i true b else (b, [])
  | BDirect =>
      (set_used b BInit (bf_cur b) (bf_last b) (bf_used b) (bf_fsz b), [SFlush i last])
  | _ => (b, [])
  end.

Definition swith_buf (m : fil) (r : buf * list sop) : fil * list sop :=
  (Fil (fst r) (fl_join m), snd r).

(* frame_joiner_simulated_start_frame and frame_joiner_simulated_flush_frame,
   frame_joiner_filter.c:81-115. *)
Definition sim_mid (i : nat) (k : mid) (m : fil) (x : scall) : fil * list sop :=
  match k, x with
  | MNone, ZStart f => (m, [SStart i f])
  | MNone, ZFlush last => (m, [SFlush i last])
  | MNone, ZWrite n | MJoin, ZWrite n => (m, [SWrite i n])
  | MBuf, ZStart f => swith_buf m (sbuf_start f (fl_buf m), [])
  | MBuf, ZWrite n => swith_buf m (sbuf_write i n (fl_buf m))
  | MBuf, ZFlush last => swith_buf m (sbuf_flush i last (fl_buf m))
  | MJoin, ZStart f =>
      match fl_join m with
      | Some d =>
          if d + join_time <=? f_dts f
          then (Fil (fl_buf m) (Some (f_dts f)), [SFlush i false; SStart i f])
          else (m, [])
      | None => (Fil (fl_buf m) (Some (f_dts f)), [SStart i f])
      end
  | MJoin, ZFlush last =>
      if last then (Fil (fl_buf m) None, [SFlush i true]) else (m, [])
  end.

Fixpoint sim_mids (i : nat) (k : mid) (m : fil) (l : list scall) : fil * list sop :=
  match l with
  | [] => (m, [])
  | x :: l =>
      let '(m, ops1) := sim_mid i k m x in
      let '(m, ops2) := sim_mids i k m l in
      (m, ops1 ++ ops2)
  end.

(* mpegts_muxer_simulation_flush_delayed_streams, mpegts_muxer.c:707-735. *)
Fixpoint sim_late (c : conf) (chs : list chan) (k j : nat) (dts : Z) (l : list mst)
  : list mst * list sop :=
  match l, chs with
  | s :: l, ch :: chs =>
      let '(s, ops1) :=
        match mid_of c (ch_top ch), buf_dts (fl_buf (ms_fil s)) with
        | MBuf, Some d =>
            if negb (j =? k)%nat && (d + delay / 2 <? dts) then
              let '(m, ops) :=
                swith_buf (ms_fil s) (sbuf_force j false (fl_buf (ms_fil s))) in
              (Mst (ms_frames s) (ms_time s) m, ops)
            else (s, [])
        | _, _ => (s, [])
        end in
      let '(l, ops2) := sim_late c chs k (S j) dts l in
      (s :: l, ops1 ++ ops2)
  | _, _ => (l, [])
  end.

(* mpegts_muxer_simulate_get_segment_size, mpegts_muxer.c:755-821: one frame. *)
Definition sim_frame (c : conf) (chs : list chan) (k : nat) (l : list mst)
  : list mst * list sop :=
  match nth_error l k, nth_error chs k with
  | Some s, Some ch =>
      match ms_frames s with
      | fr :: frs =>
          let '(l, ops1) := sim_late c chs k 0 (ms_time s) l in
          let last := match frs with [] => true | _ => false end in
          let '(m, ops2) :=
            sim_mids k (mid_of c (ch_top ch)) (ms_fil s)
              (sim_top (ch_top ch) fr (ms_time s) last) in
          (set_nth l k (Mst frs (ms_time s + i_dur fr) m), ops1 ++ ops2)
      | [] => (l, [])
      end
  | _, _ => (l, [])
  end.

Fixpoint sim_mux (n : nat) (c : conf) (chs : list chan) (l : list mst)
  : list mst * list sop :=
  match choose 0 None l with
  | None => (l, [])
  | Some (k, _) =>
      match n with
      | O => (l, [])
      | S n =>
          let '(l, ops1) := sim_frame c chs k l in
          let '(l, ops2) := sim_mux n c chs l in
          (l, ops1 ++ ops2)
      end
  end.

(* ------------------------------------------------------------------ *)
(* A segment                                                            *)

(* mpegts_muxer_conf_t, and the streams. *)
Definition conf_of (inter align : bool) (chs : list chan) : conf :=
  Conf inter align (map ch_strm chs).

(* mpegts_muxer_simulation_supported, mpegts_muxer.c:78-107, and
   mp4_to_annexb_simulation_supported, mp4_to_annexb_filter.c:108-123. *)
Definition supported (chs : list chan) : bool :=
  forallb (fun ch => match ch_top ch with TVideo v => (vc_nal v =? 4)%nat | _ => true end) chs.

(* The simulation of a segment. *)
Definition simulate (inter align : bool) (chs : list chan) : list mst * sst :=
  let c := conf_of inter align chs in
  let l := map mst0 chs in
  let '(l, ops) := sim_mux (frames_left l) c chs l in
  (l, fold_left (sstep c) ops (sim_init c)).

(* The size that is announced: the PAT, the PMT and the packets. *)
Definition announced (inter align : bool) (chs : list chan) : Z :=
  188 * (2 + q_count (z_q (snd (simulate inter align chs)))).

(* mpegts_muxer_simulation_reset, mpegts_muxer.c:824-842: the filters are as the
   simulation left them, and so is the counter of the encoder. *)
Definition reset (ch : chan) (s : mst) : mst := Mst (ch_frames ch) (ch_dts ch) (ms_fil s).

Fixpoint map2 {A B C} (f : A -> B -> C) (l : list A) (m : list B) : list C :=
  match l, m with a :: l, b :: m => f a b :: map2 f l m | _, _ => [] end.

(* mpegts_muxer_init_segment and mpegts_muxer_process, mpegts_muxer.c:409-459 and
   630-705: the encoder after the last frame, and what it was called with. *)
Definition segment (inter align : bool) (chs : list chan) : option (st * list op) :=
  let c := conf_of inter align chs in
  let '(l, s) :=
    if supported chs then
      let '(l, z) := simulate inter align chs in
      (map2 reset chs l,
       St (map2 (fun t m => set_cc (enc0 t) (m_cc m)) (c_strms c) (z_sims z)) (Queue [] None))
    else (map mst0 chs, init c) in
  match mux (frames_left l) c chs l with
  | Some (_, ops) => Some (run c s ops, ops)
  | None => None
  end.
