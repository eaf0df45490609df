(* How frames become MPEG-TS packets:
     nginx-pckg-module/src/media/mpegts/mpegts_encoder_filter.c:192-384 (bytes),
     708-1190 (the filter) and 1193-1335 (the simulation that computes the size of
     a segment in advance).

   A packet that is being made is the list of the bytes before cur_pos; what is
   after it is not known.  It is kept in the state of its stream, and put in its
   place when it is complete: nobody else looks at the place until then (C80).
   The queue of write buffers is the list of the packets that were taken from it,
   with the stream that did.  Getting a buffer does not fail.  Counters are not
   bounded (uint32_t in the code). *)

From Coq Require Import ZArith List Bool Lia.
From Verif Require Import Lists.
Import ListNotations.
Open Scope Z_scope.

Inductive kind := Video | Audio | Other.

(* mpegts_stream_info_t, mpegts_encoder_filter.h:18-23, and initial_cc. *)
Record strm := Strm {
  t_kind : kind;
  t_pid : Z;
  t_sid : Z;
  t_pcr : bool;
  t_cc0 : Z
}.

(* The options, mpegts_encoder_filter.h:32-33, and the streams. *)
Record conf := Conf { c_inter : bool; c_align : bool; c_strms : list strm }.

(* output_frame_t, media_filter.h:26-32. *)
Record frame := Frame { f_pts : Z; f_dts : Z; f_size : Z; f_header : Z }.

(* Where the packet that is being made is: in the queue, or in temp_packet. *)
Inductive place := Temp | Slot (n : nat).

(* mpegts_encoder_state_t, mpegts_encoder_filter.h:25-67, but for the simulation.
   e_cur is nothing when cur_pos >= cur_packet_end; cur_packet_start is not
   temp_packet then.  e_ptr is cur_pes_size_ptr; e_pts is last_frame_pts; e_send is
   send_queue_offset in packets, nothing for VOD_MAX_OFF_T_VALUE; e_lastq is
   last_queue_offset in packets. *)
Record enc := Enc {
  e_cc : Z;
  e_cur : option (place * list Z);
  e_ptr : place * nat;
  e_wr : Z;
  e_fl : Z;
  e_left : Z;
  e_hdr : Z;
  e_pts : option Z;
  e_send : option nat;
  e_lastq : nat
}.

(* write_buffer_queue_t, write_buffer_queue.h:16-30: the packets that were taken
   from it, and last_writer_context. *)
Notation slot := (nat * option (list Z))%type.
Record queue := Queue { q_slots : list slot; q_last : option nat }.

Definition zlen (l : list Z) : Z := Z.of_nat (length l).
Definition byte (x : Z) : Z := x mod 256.

Definition is_video (t : strm) : bool := match t_kind t with Video => true | _ => false end.
Definition is_other (t : strm) : bool := match t_kind t with Other => true | _ => false end.

(* mpegts_write_pcr, mpegts_encoder_filter.c:193-204.  Bits that do not overlap
   are added here and below. *)
Definition pcr_bytes (pcr : Z) : list Z :=
  [byte (pcr / 2 ^ 25); byte (pcr / 2 ^ 17); byte (pcr / 2 ^ 9); byte (pcr / 2);
   pcr mod 2 * 128 + 126; 0].

(* mpegts_write_pts, mpegts_encoder_filter.c:207-224. *)
Definition pts_bytes (fb pts : Z) : list Z :=
  let v1 := pts / 2 ^ 15 mod 2 ^ 15 * 2 + 1 in
  let v2 := pts mod 2 ^ 15 * 2 + 1 in
  [fb * 16 + pts / 2 ^ 30 mod 8 * 2 + 1; v1 / 256; byte v1; v2 / 256; byte v2].

(* mpegts_write_packet_header, mpegts_encoder_filter.c:227-236. *)
Definition header (t : strm) (cc : Z) : list Z :=
  [71; byte (t_pid t / 256); byte (t_pid t); 16 + cc mod 16].

(* mpegts_get_pes_header_size, mpegts_encoder_filter.c:239-257. *)
Definition hsize (t : strm) : nat :=
  (14 + (if t_pcr t then 8 else 0) + (if is_video t then 5 else 0))%nat.

(* mpegts_write_pes_header, mpegts_encoder_filter.c:260-315: the bytes from
   cur_packet_start + 4 on.  The two bytes of the size are what was there before;
   0 here. *)
Definition pes_header (t : strm) (f : frame) (aligned : bool) : list Z :=
  (if t_pcr t then 7 :: 16 :: pcr_bytes (f_dts f + 4590) else []) ++
  [0; 0; 1; byte (t_sid t); 0; 0;
   if aligned then 132 else 128;
   if is_video t then 192 else 128;
   if is_video t then 10 else 5] ++
  pts_bytes (if is_video t then 3 else 2) (f_pts f + 9090) ++
  (if is_video t then pts_bytes 1 (f_dts f + 9090) else []).

(* The bits it sets in the packet header, lines 272 and 276. *)
Definition set_start (t : strm) (b : list Z) : list Z :=
  match b with
  | b0 :: b1 :: b2 :: b3 :: r =>
      b0 :: Z.lor b1 64 :: b2 :: (if t_pcr t then Z.lor b3 32 else b3) :: r
  | _ => b
  end.

(* pes_size_ptr, line 301, from the start of the packet. *)
Definition size_off (t : strm) : nat := (8 + (if t_pcr t then 8 else 0))%nat.

(* mpegts_add_stuffing, mpegts_encoder_filter.c:318-344, and mpegts_copy_and_stuff,
   347-384, which does the same while copying. *)
Definition add_stuffing (b : list Z) (n : nat) : list Z :=
  match b with
  | b0 :: b1 :: b2 :: b3 :: r =>
      if Z.land b3 32 =? 0 then
        b0 :: b1 :: b2 :: Z.lor b3 32 ::
          (Z.of_nat n - 1 :: (if (2 <=? n)%nat then 0 :: repeat 255 (n - 2) else [])) ++ r
      else
        match r with
        | b4 :: r' =>
            b0 :: b1 :: b2 :: b3 :: byte (b4 + Z.of_nat n) ::
              firstn (Z.to_nat b4) r' ++ repeat 255 n ++ skipn (Z.to_nat b4) r'
        | [] => b
        end
  | _ => b
  end.

(* Two bytes are stored, and read. *)
Definition put16 (b : list Z) (o : nat) (v : Z) : list Z :=
  firstn o b ++ [byte (v / 256); byte v] ++ skipn (o + 2) b.
Definition get16 (b : list Z) (o : nat) : Z := nth o b 0 * 256 + nth (o + 1) b 0.

Definition set_cur (e : enc) (x : option (place * list Z)) : enc :=
  Enc (e_cc e) x (e_ptr e) (e_wr e) (e_fl e) (e_left e) (e_hdr e) (e_pts e) (e_send e) (e_lastq e).
Definition set_ptr (e : enc) (p : place * nat) : enc :=
  Enc (e_cc e) (e_cur e) p (e_wr e) (e_fl e) (e_left e) (e_hdr e) (e_pts e) (e_send e) (e_lastq e).
Definition set_wr (e : enc) (x : Z) : enc :=
  Enc (e_cc e) (e_cur e) (e_ptr e) x (e_fl e) (e_left e) (e_hdr e) (e_pts e) (e_send e) (e_lastq e).
Definition set_fl (e : enc) (x l : Z) : enc :=
  Enc (e_cc e) (e_cur e) (e_ptr e) (e_wr e) x l (e_hdr e) (e_pts e) (e_send e) (e_lastq e).
Definition set_pts (e : enc) (x : option Z) : enc :=
  Enc (e_cc e) (e_cur e) (e_ptr e) (e_wr e) (e_fl e) (e_left e) (e_hdr e) x (e_send e) (e_lastq e).
Definition set_send (e : enc) (x : option nat) : enc :=
  Enc (e_cc e) (e_cur e) (e_ptr e) (e_wr e) (e_fl e) (e_left e) (e_hdr e) (e_pts e) x (e_lastq e).
Definition set_hdr (e : enc) (x : Z) : enc :=
  Enc (e_cc e) (e_cur e) (e_ptr e) (e_wr e) (e_fl e) (e_left e) x (e_pts e) (e_send e) (e_lastq e).
Definition set_lastq (e : enc) (x : nat) : enc :=
  Enc (e_cc e) (e_cur e) (e_ptr e) (e_wr e) (e_fl e) (e_left e) (e_hdr e) (e_pts e) (e_send e) x.
Definition set_cc (e : enc) (x : Z) : enc :=
  Enc x (e_cur e) (e_ptr e) (e_wr e) (e_fl e) (e_left e) (e_hdr e) (e_pts e) (e_send e) (e_lastq e).

(* write_buffer_queue_get_buffer, write_buffer_queue.c:27-94; x is what will be in
   the packet, if it is complete. *)
Definition get_buffer (i : nat) (q : queue) (x : option (list Z)) : queue :=
  Queue (q_slots q ++ [(i, x)]) (Some i).

(* The packet n is complete, or changed. *)
Definition fill (n : nat) (b : list Z) (q : queue) : queue :=
  match nth_error (q_slots q) n with
  | Some (i, _) => Queue (set_nth (q_slots q) n (i, Some b)) (q_last q)
  | None => q
  end.

Definition same (a b : place) : bool :=
  match a, b with Temp, Temp => true | Slot n, Slot m => (n =? m)%nat | _, _ => false end.

(* The packet that the pointer points to, and a write through it.  A pointer to
   temp_packet while temp_packet is not in use: nothing is seen of the write. *)
Definition pointed (e : enc) (q : queue) : list Z :=
  match e_cur e with
  | Some (p, b) =>
      if same p (fst (e_ptr e)) then b
      else match fst (e_ptr e) with
           | Slot n => match nth_error (q_slots q) n with Some (_, Some b) => b | _ => [] end
           | Temp => []
           end
  | None =>
      match fst (e_ptr e) with
      | Slot n => match nth_error (q_slots q) n with Some (_, Some b) => b | _ => [] end
      | Temp => []
      end
  end.

Definition patch (e : enc) (q : queue) (v : Z) : enc * queue :=
  let b := put16 (pointed e q) (snd (e_ptr e)) v in
  match e_cur e with
  | Some (p, _) =>
      if same p (fst (e_ptr e)) then (set_cur e (Some (p, b)), q)
      else match fst (e_ptr e) with Slot n => (e, fill n b q) | Temp => (e, q) end
  | None => match fst (e_ptr e) with Slot n => (e, fill n b q) | Temp => (e, q) end
  end.

(* mpegts_encoder_init_packet, mpegts_encoder_filter.c:708-734. *)
Definition init_packet (c : conf) (i : nat) (t : strm) (direct : bool) (e : enc) (q : queue)
  : enc * queue :=
  let e1 := set_cc (set_pts e None) (e_cc e + 1) in
  if direct || negb (c_inter c) then
    let n := length (q_slots q) in
    (set_cur (set_lastq e1 n) (Some (Slot n, header t (e_cc e))), get_buffer i q None)
  else (set_cur e1 (Some (Temp, header t (e_cc e))), q).

(* mpegts_encoder_stuff_cur_packet, mpegts_encoder_filter.c:737-799. *)
Definition stuff_cur (c : conf) (i : nat) (t : strm) (e : enc) (q : queue) : enc * queue :=
  let '(e, q) :=
    if negb (e_wr e =? 0) && negb (is_video t) then
      let v := get16 (pointed e q) (snd (e_ptr e)) + e_wr e in
      let '(e, q) := patch e q (if 65535 <? v then 0 else v) in
      (set_wr e 0, q)
    else (e, q) in
  match e_cur e with
  | None => (set_send e None, q)
  | Some (p, b) =>
      let n := (188 - length b)%nat in
      let b' := if (0 <? n)%nat then add_stuffing b n else b in
      match p with
      | Temp =>
          (set_send (set_cur (set_lastq e (length (q_slots q))) None) None,
           get_buffer i q (Some b'))
      | Slot m => (set_send (set_cur e None) None, fill m b' q)
      end
  end.

(* mpegts_encoder_start_frame, mpegts_encoder_filter.c:825-952. *)
Definition start_frame (c : conf) (i : nat) (t : strm) (f : frame) (e : enc) (q : queue)
  : enc * queue :=
  let e := set_send (set_hdr (set_fl e 0 (e_left e)) (f_header f)) (Some (e_lastq e)) in
  let h := hsize t in
  match e_cur e with
  | None =>
      let '(e, q) := init_packet c i t (184 <=? Z.of_nat h + f_size f) e q in
      match e_cur e with
      | Some (p, b) =>
          let b := set_start t b ++ pes_header t f true in
          (set_fl (set_ptr (set_cur e (Some (p, b))) (p, size_off t)) (e_fl e) (188 - zlen b), q)
      | None => (e, q)
      end
  | Some (p, b) =>
      let f := match e_pts e with
               | Some x => Frame x (f_dts f) (f_size f) (f_header f)
               | None => f
               end in
      let head := firstn 4 (set_start t b) ++ pes_header t f false in
      if (length b + h <? 188)%nat then
        let b := head ++ skipn 4 b in
        (set_fl (set_ptr (set_cur e (Some (p, b))) (p, size_off t)) (e_fl e) (188 - zlen b), q)
      else
        let excess := (length b + h - 188)%nat in
        let full := head ++ firstn (184 - h) (skipn 4 b) in
        let '(e, q, n) :=
          match p with
          | Temp => (set_lastq e (length (q_slots q)), get_buffer i q (Some full),
                     length (q_slots q))
          | Slot n => (e, fill n full q, n)
          end in
        let e := set_ptr e (Slot n, size_off t) in
        if (0 <? excess)%nat then
          let '(e, q) := init_packet c i t (184 <=? Z.of_nat excess + f_size f) e q in
          match e_cur e with
          | Some (p, b0) =>
              let b := b0 ++ skipn (length b - excess) b in
              (set_fl (set_cur e (Some (p, b))) (e_fl e) (188 - zlen b), q)
          | None => (e, q)
          end
        else (set_fl (set_cur e None) (e_fl e) 184, q)
  end.

(* The loop in mpegts_encoder_write, mpegts_encoder_filter.c:1033-1044: n full
   packets. *)
Fixpoint write_full (c : conf) (i : nat) (t : strm) (n : nat) (buf : list Z) (e : enc) (q : queue)
  : enc * queue :=
  match n with
  | O => (e, q)
  | S n =>
      let '(e, q) := init_packet c i t true e q in
      match e_cur e with
      | Some (Slot m, b) =>
          write_full c i t n (skipn 184 buf) (set_cur e None) (fill m (b ++ firstn 184 buf) q)
      | _ => (e, q)
      end
  end.

(* mpegts_encoder_write, mpegts_encoder_filter.c:955-1063. *)
Definition write (c : conf) (i : nat) (t : strm) (buf : list Z) (e : enc) (q : queue)
  : enc * queue :=
  let e := set_wr e (e_wr e + zlen buf) in
  let '(e, q) := match e_cur e with
                 | None => init_packet c i t (184 <=? zlen buf) e q
                 | Some _ => (e, q)
                 end in
  match e_cur e with
  | None => (e, q)
  | Some (p, b) =>
      if (length b + length buf <? 188)%nat then (set_cur e (Some (p, b ++ buf)), q)
      else
        let k := (188 - length b)%nat in
        let full := b ++ firstn k buf in
        let rest := skipn k buf in
        let '(e, q) :=
          match p with
          | Temp =>
              let n := length (q_slots q) in
              (set_ptr (set_lastq e n)
                 (match fst (e_ptr e) with Temp => (Slot n, snd (e_ptr e)) | _ => e_ptr e end),
               get_buffer i q (Some full))
          | Slot n => (e, fill n full q)
          end in
        let n := (length rest / 184)%nat in
        let e := set_fl (set_cur e None) (e_fl e + e_left e + Z.of_nat (n * 184)) 184 in
        let '(e, q) := write_full c i t n rest e q in
        let last := skipn (n * 184) rest in
        match last with
        | [] => (set_cur e None, q)
        | _ =>
            let '(e, q) := init_packet c i t false e q in
            match e_cur e with
            | Some (p, b) => (set_cur e (Some (p, b ++ last)), q)
            | None => (e, q)
            end
        end
  end.

(* mpegts_append_null_packet, mpegts_encoder_filter.c:1066-1084. *)
Definition append_null (c : conf) (i : nat) (t : strm) (e : enc) (q : queue) : enc * queue :=
  let '(e, q) := init_packet c i t true e q in
  match e_cur e with
  | Some (Slot n, [b0; b1; b2; b3]) =>
      (set_cur e None, fill n (b0 :: b1 :: b2 :: Z.lor b3 32 :: 183 :: 0 :: repeat 255 182) q)
  | _ => (e, q)
  end.

Fixpoint append_nulls (c : conf) (i : nat) (t : strm) (n : nat) (e : enc) (q : queue)
  : enc * queue :=
  match n with
  | O => (e, q)
  | S n => let '(e, q) := append_null c i t e q in append_nulls c i t n e q
  end.

(* mpegts_encoder_flush_frame, mpegts_encoder_filter.c:1087-1160. *)
Definition flush_frame (c : conf) (i : nat) (t : strm) (last : bool) (e : enc) (q : queue)
  : enc * queue :=
  let stuff := c_align c || (match e_cur e with None => true | Some _ => false end)
               || (e_fl e <? e_hdr e) || last in
  let '(e, v) :=
    if is_video t && negb (c_align c) then (e, 0)
    else
      let v := 8 + e_wr e + (if is_video t then 5 else 0) in
      let v := if 65535 <? v then 0 else v in
      match stuff, e_cur e with
      | false, Some (_, b) => (set_wr e (zlen b - 4), v - (zlen b - 4))
      | _, _ => (set_wr e 0, v)
      end in
  let '(e, q) := patch e q v in
  let '(e, q) := if stuff then stuff_cur c i t e q else (e, q) in
  if last && negb (is_other t) then
    let '(e, q) := append_nulls c i t (Z.to_nat ((- e_cc e) mod 16)) e q in
    (set_cur e None, q)
  else (e, q).

(* mpegts_encoder_start_sub_frame, mpegts_encoder_filter.c:1162-1190. *)
Definition start_sub (c : conf) (i : nat) (t : strm) (f : frame) (e : enc) (q : queue)
  : enc * queue :=
  match e_cur e with
  | None =>
      let '(e, q) := init_packet c i t (184 <=? f_size f) e q in (set_pts e (Some (f_pts f)), q)
  | Some _ =>
      match e_pts e with
      | None => (set_pts e (Some (f_pts f)), q)
      | Some _ => (e, q)
      end
  end.

(* The encoders of a segment, and the queue they share. *)
Record st := St { s_encs : list enc; s_q : queue }.

(* What the filters above call. *)
Inductive op :=
| OStart (i : nat) (f : frame)
| OSub (i : nat) (f : frame)
| OWrite (i : nat) (b : list Z)
| OFlush (i : nat) (last : bool).

Definition upd (s : st) (i : nat) (r : enc * queue) : st :=
  St (set_nth (s_encs s) i (fst r)) (snd r).

Definition on (c : conf) (s : st) (i : nat)
  (g : strm -> enc -> queue -> enc * queue) : st :=
  match nth_error (c_strms c) i, nth_error (s_encs s) i with
  | Some t, Some e => upd s i (g t e (s_q s))
  | _, _ => s
  end.

(* Lines 815-823: the last packet of another stream is closed. *)
Definition close_other (c : conf) (s : st) (i : nat) : st :=
  match q_last (s_q s) with
  | Some j => if negb (c_inter c) && negb (j =? i)%nat then on c s j (stuff_cur c j) else s
  | None => s
  end.

Definition step (c : conf) (s : st) (o : op) : st :=
  match o with
  | OStart i f => on c (close_other c s i) i (fun t => start_frame c i t f)
  | OSub i f => on c s i (fun t => start_sub c i t f)
  | OWrite i b => on c s i (fun t => write c i t b)
  | OFlush i last => on c s i (fun t => flush_frame c i t last)
  end.

Definition run (c : conf) (s : st) (ops : list op) : st := fold_left (step c) ops s.

(* mpegts_encoder_init, mpegts_encoder_filter.c:1346-1402: all zeros. *)
Definition enc0 (t : strm) : enc := Enc (t_cc0 t) None (Temp, O) 0 0 0 0 None (Some O) O.
Definition init (c : conf) : st := St (map enc0 (c_strms c)) (Queue [] None).

(* ------------------------------------------------------------------ *)
(* The simulation                                                       *)

(* The fields of mpegts_encoder_state_t that it uses (the positions of frames are
   left out: nothing reads them). *)
Record sim := Sim { m_temp : Z; m_fl : Z; m_left : Z; m_hdr : Z; m_cc : Z }.

(* cur_offset in packets, without the PAT and the PMT, and last_writer_context. *)
Record squeue := Squeue { q_count : Z; q_who : option nat }.

(* mpegts_encoder_simulated_stuff_cur_packet, mpegts_encoder_filter.c:1201-1224. *)
Definition sim_stuff (i : nat) (m : sim) (q : squeue) : sim * squeue :=
  if 0 <? m_temp m
  then (Sim 0 (m_fl m) (m_left m) (m_hdr m) (m_cc m + 1), Squeue (q_count q + 1) (Some i))
  else (m, q).

(* mpegts_encoder_simulated_start_frame, mpegts_encoder_filter.c:1247-1268. *)
Definition sim_start (i : nat) (t : strm) (f : frame) (m : sim) (q : squeue) : sim * squeue :=
  let x := m_temp m + Z.of_nat (hsize t) in
  if 184 <=? x
  then (Sim (x - 184) 0 (184 - (x - 184)) (f_header f) (m_cc m + 1),
        Squeue (q_count q + 1) (Some i))
  else (Sim x 0 (184 - x) (f_header f) (m_cc m), q).

(* mpegts_encoder_simulated_write, mpegts_encoder_filter.c:1271-1306. *)
Definition sim_write (i : nat) (size : Z) (m : sim) (q : squeue) : sim * squeue :=
  let x := size + m_temp m in
  let n := x / 184 in
  if n <=? 0 then (Sim (x - n * 184) (m_fl m) (m_left m) (m_hdr m) (m_cc m), q)
  else (Sim (x - n * 184) (m_fl m + m_left m + (n - 1) * 184) 184 (m_hdr m) (m_cc m + n),
        Squeue (q_count q + n) (Some i)).

(* mpegts_encoder_simulated_flush_frame, mpegts_encoder_filter.c:1309-1334. *)
Definition sim_flush (c : conf) (i : nat) (t : strm) (last : bool) (m : sim) (q : squeue)
  : sim * squeue :=
  let '(m, q) :=
    if c_align c || (m_temp m =? 0) || (m_fl m <? m_hdr m) || last
    then sim_stuff i m q else (m, q) in
  if last then
    let q := if negb (m_cc m mod 16 =? 0) && negb (is_other t)
             then Squeue (q_count q + (16 - m_cc m mod 16)) (Some i) else q in
    (Sim (m_temp m) (m_fl m) (m_left m) (m_hdr m) (t_cc0 t), q)
  else (m, q).

Record sst := Sst { z_sims : list sim; z_q : squeue }.

Definition son (c : conf) (s : sst) (i : nat)
  (g : strm -> sim -> squeue -> sim * squeue) : sst :=
  match nth_error (c_strms c) i, nth_error (z_sims s) i with
  | Some t, Some m => let r := g t m (z_q s) in Sst (set_nth (z_sims s) i (fst r)) (snd r)
  | _, _ => s
  end.

(* Lines 1239-1245. *)
Definition sim_close_other (c : conf) (s : sst) (i : nat) : sst :=
  match q_who (z_q s) with
  | Some j =>
      if negb (c_inter c) && negb (j =? i)%nat then son c s j (fun _ => sim_stuff j) else s
  | None => s
  end.

(* The calls of the simulation that belong to the same frames. *)
Definition sim_step (c : conf) (s : sst) (o : op) : sst :=
  match o with
  | OStart i f => son c (sim_close_other c s i) i (fun t => sim_start i t f)
  | OSub _ _ => s
  | OWrite i b => son c s i (fun _ => sim_write i (zlen b))
  | OFlush i last => son c s i (fun t => sim_flush c i t last)
  end.

Definition sim_run (c : conf) (s : sst) (ops : list op) : sst := fold_left (sim_step c) ops s.
Definition sim0 (t : strm) : sim := Sim 0 0 0 0 (t_cc0 t).
Definition sim_init (c : conf) : sst := Sst (map sim0 (c_strms c)) (Squeue 0 None).

(* What mpegts_muxer_send lets out, mpegts_muxer.c:612-628: the packets before the
   lowest send_queue_offset.  (write_buffer_queue_send sends whole buffers, so
   maybe less.) *)
Definition send_limit (s : st) : nat :=
  fold_right (fun e m => match e_send e with Some n => Nat.min n m | None => m end)
    (length (q_slots (s_q s))) (s_encs s).
