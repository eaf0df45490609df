(* Model of transcoder/ackHandler: audioAckMap.cpp, videoAckMap.cpp and the
   wrappers of ackHandlerInternal.cpp that turn exceptions into a default.

   Integers are Z.  Sums and products of durations are not wrapped: they are
   64 bit, or 32 bit products of one run, and wrap only after 2^31 samples of one
   duration without an acknowledgement.  The casts of frame ids are modelled. *)
From Coq Require Import List ZArith Bool.
Import ListNotations.
Local Open Scope Z_scope.

Inductive ares (A : Type) := AOk (a : A) | AThrow | AUB.
Arguments AOk {A} _.
Arguments AThrow {A}.
Arguments AUB {A}.

(* conversions to uint64_t, uint32_t and int *)
Definition w64 (z : Z) : Z := z mod 2 ^ 64.
Definition w32 (z : Z) : Z := z mod 2 ^ 32.
Definition s32 (z : Z) : Z := (z + 2 ^ 31) mod 2 ^ 32 - 2 ^ 31.

(* ---- audioAckMap.cpp ---- *)

(* audioAckMap.cpp:7-28 Repeated: a duration and how often it is repeated *)
Definition run : Type := Z * Z.

(* audioAckMap.cpp:34-43 class FrameHistory (m_total and m_name are for logs) *)
Record history := mk_hist { h_q : list run; h_base : Z; h_last : Z; h_off : Z }.

(* audioAckMap.cpp:68 constructor *)
Definition hist_new (id : Z) : history := mk_hist [] id id 0.

(* audioAckMap.cpp:45-65 handleFrameDiscontinuity; back() of an empty deque is
   undefined *)
Definition handle_disc (q : list run) (c dur : Z) : ares (list run) :=
  if c <? 0 then
    if c =? -1 then
      match rev q with
      | [] => AUB
      | (v, k) :: r =>
          if k >? 1 then AOk (rev r ++ [(v, k - 1); (v + dur, 1)])
          else AOk (rev r ++ [(v + dur, 1)])
      end
    else AThrow
  else if c >? 1 then AOk (q ++ [(0, c - 1)])
  else AOk q.

(* audioAckMap.cpp:75-77: a new run unless the last one has this duration, and
   one more frame in it *)
Definition push_dur (q : list run) (dur : Z) : list run :=
  match rev q with
  | (v, k) :: r => if v =? dur then rev r ++ [(v, k + 1)] else q ++ [(dur, 1)]
  | [] => [(dur, 1)]
  end.

(* audioAckMap.cpp:71-79 addFrame *)
Definition add_frame (h : history) (fd dur : Z) : ares history :=
  let c := s32 (fd - h_last h) in
  match handle_disc (h_q h) c dur with
  | AOk q => AOk (mk_hist (push_dur q dur) (h_base h) (w64 (h_last h + c)) (h_off h))
  | AThrow => AThrow
  | AUB => AUB
  end.

(* audioAckMap.cpp:80-93 frameByOffset; [off] relative to the first run *)
Fixpoint frame_by_loop (q : list run) (off walker : Z) : ares (Z * Z) :=
  match q with
  | [] => AThrow
  | (v, k) :: r =>
      if off <=? k * v then
        if v =? 0 then AUB
        else let c := w64 (Z.quot off v) in AOk (w64 (walker + c), off - Z.quot off v * v)
      else frame_by_loop r (off - v * k) (w64 (walker + k))
  end.
Definition frame_by_offset (h : history) (off : Z) : ares (Z * Z) :=
  frame_by_loop (h_q h) (off - h_off h) (h_base h).

(* audioAckMap.cpp:102-110, the loop of offsetByFrame *)
Fixpoint offset_loop (q : list run) (fd lo hi : Z) : Z * Z :=
  match q with
  | [] => (lo, hi)
  | (v, k) :: r =>
      if k >=? fd then (lo + fd * v, lo + fd * v + v)
      else offset_loop r (fd - k) (lo + v * k) hi
  end.
(* audioAckMap.cpp:94-112 offsetByFrame *)
Definition offset_by_frame (h : history) (fd : Z) : ares (Z * Z) :=
  if (fd <? h_base h) || (fd >? h_last h) then AThrow
  else AOk (offset_loop (h_q h) (fd - h_base h) (h_off h) (h_off h)).

(* audioAckMap.cpp:116-128, the loop of removeFrames *)
Fixpoint remove_loop (q : list run) (base off fd : Z) : list run * Z * Z :=
  match q with
  | [] => ([], base, off)
  | (v, k) :: r =>
      if w64 (base + k - 1) >=? fd then
        let c := fd - base + 1 in ((v, k - c) :: r, fd + 1, off + c * v)
      else remove_loop r (base + k) (off + k * v) fd
  end.
(* audioAckMap.cpp:113-130 removeFrames *)
Definition remove_frames (h : history) (fd : Z) : history :=
  if (fd <? h_base h) || (fd >=? h_last h) then h
  else
    let '(q, base, off) := remove_loop (h_q h) (h_base h) (h_off h) fd in
    mk_hist q base (h_last h) off.

(* audioAckMap.cpp:152-171 adjustLastFrameDuration *)
Definition adjust_last (h : history) (by_ : Z) : ares history :=
  if by_ =? 0 then AOk h
  else
    match rev (h_q h) with
    | [] => AUB
    | (v, k) :: r =>
        let q :=
          if k =? 1 then
            match r with
            | (v', k') :: r' => if v' =? v + by_ then rev r' ++ [(v', k' + 1)] else rev r ++ [(v + by_, k)]
            | [] => [(v + by_, k)]
            end
          else rev r ++ [(v, k - 1); (by_, 1)] in
        AOk (mk_hist q (h_base h) (h_last h) (h_off h))
    end.

(* audioAckMap.cpp:181-196 struct AudioAckMap *)
Record amap := mk_amap { a_in : history; a_filtered : list (Z * Z); a_out : history }.
Definition audio_new (id_in id_out : Z) : amap := mk_amap (hist_new id_in) [] (hist_new id_out).

(* audioAckMap.cpp:206-210 addIn *)
Definition audio_in (m : amap) (id samples : Z) : ares amap :=
  match add_frame (a_in m) id samples with
  | AOk h => AOk (mk_amap h (a_filtered m) (a_out m))
  | AThrow => AThrow
  | AUB => AUB
  end.

(* audioAckMap.cpp:211-222 addFiltered; [None] is INVALID_FRAME_ID *)
Definition audio_filtered (m : amap) (id : option Z) (samples : Z) : amap :=
  let id := match id with Some i => i | None => h_last (a_in m) end in
  let f := match rev (a_filtered m) with
           | (i, s) :: r => if i =? id then rev r ++ [(i, w32 (s + samples))]
                            else a_filtered m ++ [(id, samples)]
           | [] => [(id, samples)]
           end in
  mk_amap (a_in m) f (a_out m).

(* audioAckMap.cpp:233-256, the loop of addOut.  It runs at most once: either the
   front of m_filtered is used up, and the loop is left, or the samples of the
   output frame are.  The flag says that an exception was thrown, after the front
   was reduced. *)
Definition out_loop (hin : history) (f : list (Z * Z)) (out : history) (n : Z)
  : ares (list (Z * Z) * history * bool) :=
  match f with
  | [] => AOk ([], out, false)
  | (id, s) :: r =>
      if n >? 0 then
        let k := Z.min n s in
        match offset_by_frame hin id, offset_by_frame out (h_last out) with
        | AOk (i1, i2), AOk (o1, _) =>
            match (if o1 <? i1 then adjust_last out (i1 - o1)
                   else if o1 >? i2 then adjust_last out (i2 - o1)
                   else AOk out)
            with
            | AOk out' => AOk (if s - k =? 0 then r else (id, s - k) :: r, out', false)
            | _ => AUB
            end
        | _, _ => AOk ((id, s - k) :: r, out, true)
        end
      else AOk (f, out, false)
  end.

(* audioAckMap.cpp:224-257 addOut, with what is left when an exception is thrown
   (ackHandlerInternal.cpp:29-40 catches it) *)
Definition audio_out (m : amap) (samples : Z) : ares (amap * bool) :=
  match add_frame (a_out m) (h_last (a_out m) + 1) samples with
  | AOk out =>
      match out_loop (a_in m) (a_filtered m) out samples with
      | AOk (f, out', thrown) => AOk (mk_amap (a_in m) f out', thrown)
      | AThrow => AThrow
      | AUB => AUB
      end
  | AThrow => AThrow
  | AUB => AUB
  end.

(* audioAckMap.cpp:259-276 map *)
Definition audio_map (m : amap) (id : Z) : ares (Z * Z * amap) :=
  match offset_by_frame (a_out m) id with
  | AOk (o, _) =>
      match frame_by_offset (a_in m) o with
      | AOk (fid, rem) =>
          AOk (fid, rem,
               mk_amap (remove_frames (a_in m) (w64 (fid - 1))) (a_filtered m)
                 (remove_frames (a_out m) (w64 (id - 1))))
      | AThrow => AThrow
      | AUB => AUB
      end
  | AThrow => AThrow
  | AUB => AUB
  end.

(* ---- videoAckMap.cpp ---- *)

Definition sigma : Z := 450.

(* videoAckMap.cpp:10-19: inputs are a timestamp and the key frame id and offset
   reported for it, outputs an output frame id and the same *)
Record vmap := mk_vmap {
  v_input : list (Z * (Z * Z)); v_output : list (Z * (Z * Z)); v_key : Z
}.
(* videoAckMap.cpp:22-24 constructor *)
Definition video_new (id : Z) : vmap := mk_vmap [] [] id.

(* videoAckMap.cpp:25-35 addIn; offset is uint32_t *)
Definition video_in (m : vmap) (id pts : Z) (key : bool) : vmap :=
  let k := if key then id else v_key m in
  let fd := if key then (id, 0) else (k, w32 (k - id)) in
  mk_vmap (v_input m ++ [(pts, fd)]) (v_output m) k.

(* the entries before the first that satisfies [p], and the rest *)
Fixpoint find_split {A} (p : A -> bool) (l : list A) : option (A * list A) :=
  match l with
  | [] => None
  | x :: r => if p x then Some (x, l) else find_split p r
  end.

(* videoAckMap.cpp:36-48 addOut; the pts are uint64_t, cast to int64_t *)
Definition s64 (z : Z) : Z := (z + 2 ^ 63) mod 2 ^ 64 - 2 ^ 63.
Definition video_out (m : vmap) (id pts : Z) (key : bool) : ares vmap :=
  if key then
    match find_split (fun f => Z.abs (s64 (fst f - pts)) <? sigma) (v_input m) with
    | None => AThrow
    | Some (f, rest) => AOk (mk_vmap rest (v_output m ++ [(id, snd f)]) (v_key m))
    end
  else AOk m.

(* videoAckMap.cpp:50-68 map; when the id is not found and the deque is empty,
   front() and back() of the log message are undefined *)
Definition video_map (m : vmap) (ack : Z) : ares (Z * Z * vmap) :=
  match find_split (fun o => fst o =? ack) (v_output m) with
  | None => match v_output m with [] => AUB | _ => AThrow end
  | Some (o, rest) => AOk (fst (snd o), snd (snd o), mk_vmap (v_input m) rest (v_key m))
  end.

(* ackHandlerInternal.cpp:43-58 ack_map_ack: an exception acknowledges the same
   id with offset 0 *)
Definition ack_default {A} (r : ares (Z * Z * A)) (m : A) (ack : Z) : ares (Z * Z * A) :=
  match r with
  | AThrow => AOk (ack, 0, m)
  | _ => r
  end.
