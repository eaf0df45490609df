(* The encryption of fragmented mp4 segments with the scheme cbcs:
     nginx-pckg-module/src/media/mp4/mp4_cbcs_encrypt.c,
     nginx-pckg-module/src/media/write_buffer.c.
   One track; failures of allocations and of OpenSSL are not modelled.  The block cipher
   under the key is a parameter E.  The parsers of slice headers (avc_parser.c,
   hevc_parser.c) are the parameters
     slice : the first byte of a unit -> is it a slice (None: an error),
     hdr   : the first bytes of a slice, at most 128 -> the size of its header, with the
             first byte (None: an error). *)
From Coq Require Import ZArith List Bool.
From Verif Require Import Bytes HlsModel.
Import ListNotations.
Open Scope Z_scope.

(* ------------------------------------------------------------------ *)
(* write_buffer.c                                                       *)

(* What was passed to the writer behind, and the buffer: None before the first write and
   after the last flush.  [cap] is the size of a buffer: WRITE_BUFFER_SIZE (line 5) or
   that of the pool. *)
Record wb := Wb { w_sent : list Z; w_buf : option (list Z) }.

(* write_buffer_flush, lines 22-66, with and without a new buffer; reuse_buffers is false
   (mp4_cbcs_encrypt.c:904-909) *)
Definition w_flush (new : bool) (w : wb) : wb :=
  Wb (w_sent w ++ match w_buf w with Some b => b | None => [] end) (if new then Some [] else None).

Definition w_used (w : wb) : Z := match w_buf w with Some b => len b | None => 0 end.
(* the size of the buffer that is there *)
Definition w_cap (cap : Z) (w : wb) : Z := match w_buf w with Some _ => cap | None => 0 end.

(* write_buffer_get_bytes, lines 68-104, with [n] bytes asked for, and then [o] written
   to the result *)
Definition w_add (cap : Z) (w : wb) (n : Z) (o : list Z) : res wb :=
  let w := if w_cap cap w <? w_used w + n then w_flush true w else w in
  if w_cap cap w <? n then Err
  else if n <? len o then Ub
  else Ok (match w_buf w with Some b => Wb (w_sent w) (Some (b ++ o)) | None => w end).

(* write_buffer_write, lines 106-137, byte by byte: a byte that does not fit flushes the
   buffer first *)
Fixpoint w_write (cap : Z) (w : wb) (l : list Z) : wb :=
  match l with
  | [] => w
  | x :: l =>
      let w := if w_cap cap w <=? w_used w then w_flush true w else w in
      w_write cap (match w_buf w with Some b => Wb (w_sent w) (Some (b ++ [x])) | None => w end) l
  end.

(* ------------------------------------------------------------------ *)
(* Common parts                                                         *)

(* mp4_cbcs_encrypt_write_encrypted, lines 162-196; aes_round_up_to_block_exact,
   aes_defs.h:19 *)
Definition write_encrypted (E : list Z -> list Z) (cap : Z) (w : wb) (c : cbc) (l : list Z) : res (wb * cbc) :=
  let (o, c) := cbc_update E c l in
  bind (w_add cap w (round_down (len l + 15)) o) (fun w => Ok (w, c)).

(* mp4_cbcs_encrypt_move_to_next_frame, lines 239-264: [fs] are the sizes of the frames
   left; the parts of the list of frames are not modelled *)
Fixpoint next_frame (fs : list Z) : list Z :=
  match fs with
  | s :: r => if 0 <? s then fs else next_frame r
  | [] => []
  end.

(* ------------------------------------------------------------------ *)
(* Audio                                                                *)

Record aud := Aud { a_frames : list Z; a_left : Z; a_trail : Z; a_cbc : cbc; a_wb : wb }.

(* mp4_cbcs_encrypt_audio_write_buffer, lines 709-780; every round takes bytes of the
   buffer *)
Fixpoint aud_loop (E : list Z -> list Z) (iv : list Z) (cap : Z) (fuel : nat) (st : aud) (buf : list Z) : res aud :=
  match buf with
  | [] => Ok st
  | _ =>
    match fuel with
    | O => Err
    | S fuel =>
      (* lines 721-737 *)
      bind (if a_left st <=? 0 then
              match a_frames st with
              | [] => Err
              | s :: fs => Ok (Aud fs s (Z.land s 15) (cbc_init iv) (a_wb st))
              end
            else Ok st) (fun st =>
      (* lines 739-758 *)
      bind (if a_trail st <? a_left st then
              let k := Z.to_nat (Z.min (a_left st - a_trail st) (len buf)) in
              bind (write_encrypted E cap (a_wb st) (a_cbc st) (firstn k buf)) (fun r =>
                Ok (Aud (a_frames st) (a_left st - Z.of_nat k) (a_trail st) (snd r) (fst r), skipn k buf))
            else Ok (st, buf)) (fun r =>
      let '(st, buf) := r in
      (* lines 760-774 *)
      let '(st, buf) :=
        if a_left st <=? a_trail st then
          let k := Z.to_nat (Z.min (len buf) (a_left st)) in
          (Aud (a_frames st) (a_left st - Z.of_nat k) (a_trail st) (a_cbc st) (w_write cap (a_wb st) (firstn k buf)), skipn k buf)
        else (st, buf) in
      if 0 <? a_left st then Ok st
      else
        (* lines 781-785 *)
        match next_frame (a_frames st) with
        | [] => Ok (Aud [] (a_left st) (a_trail st) (a_cbc st) (w_flush false (a_wb st)))
        | fs => aud_loop E iv cap fuel (Aud fs (a_left st) (a_trail st) (a_cbc st) (a_wb st)) buf
        end))
    end
  end.

Fixpoint aud_writes (E : list Z -> list Z) (iv : list Z) (cap : Z) (st : aud) (l : list (list Z)) : res aud :=
  match l with
  | [] => Ok st
  | b :: l => bind (aud_loop E iv cap (length b) st b) (fun st => aud_writes E iv cap st l)
  end.

(* A segment of an audio track with frames of the given sizes, written in the buffers
   [l] (mp4_cbcs_encrypt_audio_get_fragment_writer, lines 789-826). The result: what was
   sent, and what is left in the buffer. *)
Definition cbcs_audio (E : list Z -> list Z) (iv : list Z) (cap : Z) (sizes : list Z) (l : list (list Z)) : res (list Z * option (list Z)) :=
  bind (aud_writes E iv cap (Aud (next_frame sizes) 0 0 (cbc_init iv) (Wb [] None)) l) (fun st =>
    Ok (w_sent (a_wb st), w_buf (a_wb st))).

(* ------------------------------------------------------------------ *)
(* Video                                                                *)

Inductive vphase := VSize | VType | VHeader | VEncrypt | VCopy.
(* lines 63-82: the frame sizes left, frame_size_left, cur_state, length_bytes_left,
   packet_size_left, next_block_size_left, the bytes of the slice header so far and how
   many are wanted *)
Record vid := Vid {
  v_frames : list Z; v_left : Z; v_phase : vphase; v_len : nat; v_pkt : Z; v_next : Z;
  v_hdr : list Z; v_want : nat; v_cbc : cbc; v_wb : wb }.

(* what a case of the switch does: go on with the loop, or return *)
Inductive act := Go (st : vid) (buf : list Z) | Return (st : vid).

(* STATE_PACKET_COPY, lines 602-640 *)
Definition v_copy (cap : Z) (nl : nat) (st : vid) (buf : list Z) : act :=
  let k := Z.to_nat (Z.min (u32 (v_pkt st - v_next st)) (len buf)) in
  let w := w_write cap (v_wb st) (firstn k buf) in
  let pkt := v_pkt st - Z.of_nat k in
  let buf := skipn k buf in
  if 0 <? pkt then Go (Vid (v_frames st) (v_left st) (v_phase st) (v_len st) pkt (v_next st) (v_hdr st) (v_want st) (v_cbc st) w) buf
  else if 0 <? v_left st then Go (Vid (v_frames st) (v_left st) VSize nl 0 (v_next st) (v_hdr st) (v_want st) (v_cbc st) w) buf
  else
    match next_frame (v_frames st) with
    | [] => Return (Vid [] (v_left st) VSize nl 0 (v_next st) (v_hdr st) (v_want st) (v_cbc st) (w_flush false w))
    | fs => Go (Vid fs (v_left st) VSize nl 0 (v_next st) (v_hdr st) (v_want st) (v_cbc st) w) buf
    end.

(* lines 551-561 and 587-597 *)
Definition next_block (n : Z) : Z := if (10 + 1) * 16 <=? n then n - 10 * 16 else 0.

(* STATE_PACKET_ENCRYPT, lines 567-600 *)
Definition v_encrypt (E : list Z -> list Z) (cap : Z) (nl : nat) (st : vid) (buf : list Z) : res act :=
  if (0 <? v_pkt st) && (v_pkt st <=? v_next st) then
    let k := Z.to_nat (Z.min (u32 (v_pkt st - u32 (v_next st - 16))) (len buf)) in
    bind (write_encrypted E cap (v_wb st) (v_cbc st) (firstn k buf)) (fun r =>
      let pkt := v_pkt st - Z.of_nat k in
      let buf := skipn k buf in
      if u32 (v_next st - 16) <? pkt then
        Ok (Go (Vid (v_frames st) (v_left st) (v_phase st) (v_len st) pkt (v_next st) (v_hdr st) (v_want st) (snd r) (fst r)) buf)
      else
        Ok (v_copy cap nl (Vid (v_frames st) (v_left st) (v_phase st) (v_len st) pkt (next_block (v_next st)) (v_hdr st) (v_want st) (snd r) (fst r)) buf))
  else Ok (v_copy cap nl st buf).

(* STATE_SLICE_HEADER, lines 474-565 *)
Definition v_header (E : list Z -> list Z) (hdr : list Z -> option nat) (iv : list Z) (cap : Z) (nl : nat) (st : vid) (buf : list Z) : res act :=
  let k := Nat.min (v_want st - length (v_hdr st)) (length buf) in
  let h := v_hdr st ++ firstn k buf in
  let buf := skipn k buf in
  if (length h <? v_want st)%nat then
    Ok (Go (Vid (v_frames st) (v_left st) VHeader (v_len st) (v_pkt st) (v_next st) h (v_want st) (v_cbc st) (v_wb st)) buf)
  else
    match hdr h with
    | None => Err
    | Some s =>
        if (length h <? s)%nat then Ub else
        let s := (s - 1)%nat in
        let d := skipn 1 h in
        if u32 (v_pkt st - Z.of_nat s) <? 16 then
          Ok (Go (Vid (v_frames st) (v_left st) VCopy (v_len st) (v_pkt st - len d) (v_next st) h (v_want st) (v_cbc st) (w_write cap (v_wb st) d)) buf)
        else
          let next := v_pkt st - Z.of_nat s in
          let w := w_write cap (v_wb st) (firstn s d) in
          let e := skipn s d in
          bind (write_encrypted E cap w (cbc_init iv) (firstn 16 e)) (fun r =>
            let '(w, next) :=
              if (16 <=? length e)%nat then (w_write cap (fst r) (skipn 16 e), next_block next) else (fst r, next) in
            v_encrypt E cap nl (Vid (v_frames st) (v_left st) VEncrypt (v_len st) (v_pkt st - len d) next h (v_want st) (snd r) w) buf)
    end.

(* STATE_NAL_TYPE, lines 431-472 *)
Definition v_type (E : list Z -> list Z) (slice : Z -> option bool) (hdr : list Z -> option nat) (iv : list Z) (cap : Z) (nl : nat) (st : vid) (buf : list Z) : res act :=
  let t := hd 0 buf in
  let buf := skipn 1 buf in
  bind (w_add cap (v_wb st) (Z.of_nat nl + 1) (be nl (v_pkt st) ++ [t])) (fun w =>
    let pkt := v_pkt st - 1 in
    match slice t with
    | None => Err
    | Some sl =>
        if negb sl || (pkt <? 1 + 16) then
          Ok (Go (Vid (v_frames st) (v_left st) VCopy (v_len st) pkt (v_next st) (v_hdr st) (v_want st) (v_cbc st) w) buf)
        else
          v_header E hdr iv cap nl
            (Vid (v_frames st) (v_left st) VHeader (v_len st) pkt (v_next st) [t] (Z.to_nat (Z.min 128 (pkt + 1))) (v_cbc st) w) buf
    end).

(* lines 380-383 *)
Fixpoint take_len (n : nat) (v : Z) (buf : list Z) : nat * Z * list Z :=
  match n, buf with
  | S m, b :: r => take_len m (u32 (v * 256) + b) r
  | _, _ => (n, v, buf)
  end.

(* STATE_PACKET_SIZE, lines 358-429; [mh] is the size of the header of a unit, so that
   min_packet_size is nl + mh (avc_parser.c:498, hevc_parser.c:1366) *)
Definition v_size (E : list Z -> list Z) (slice : Z -> option bool) (hdr : list Z -> option nat) (iv : list Z) (cap : Z) (nl : nat) (mh : Z) (st : vid) (buf : list Z) : res act :=
  bind (if v_left st <=? 0 then
          match v_frames st with
          | [] => Err
          | s :: fs => if s <? Z.of_nat nl + mh then Err else Ok (fs, s)
          end
        else Ok (v_frames st, v_left st)) (fun f =>
  let (fs, left) := f in
  let '(n, pkt, buf) := take_len (v_len st) (v_pkt st) buf in
  match n with
  | S _ => Ok (Go (Vid fs left VSize n pkt (v_next st) (v_hdr st) (v_want st) (v_cbc st) (v_wb st)) buf)
  | O =>
      if pkt <=? 0 then Err
      else if u32 (left - Z.of_nat nl) <? pkt then Err
      else
        let left := left - (Z.of_nat nl + pkt) in
        if (0 <? left) && (left <? Z.of_nat nl + mh) then Err
        else
          let st := Vid fs left VType n pkt (v_next st) (v_hdr st) (v_want st) (v_cbc st) (v_wb st) in
          match buf with
          | [] => Ok (Go st buf)
          | _ => v_type E slice hdr iv cap nl st buf
          end
  end).

(* mp4_cbcs_encrypt_video_write_buffer, lines 333-646: the loop; two rounds take at least
   one byte *)
Fixpoint v_loop (E : list Z -> list Z) (slice : Z -> option bool) (hdr : list Z -> option nat) (iv : list Z) (cap : Z) (nl : nat) (mh : Z) (fuel : nat) (st : vid) (buf : list Z) : res vid :=
  match buf with
  | [] => Ok st
  | _ =>
    match fuel with
    | O => Err
    | S fuel =>
      bind (match v_phase st with
            | VSize => v_size E slice hdr iv cap nl mh st buf
            | VType => v_type E slice hdr iv cap nl st buf
            | VHeader => v_header E hdr iv cap nl st buf
            | VEncrypt => v_encrypt E cap nl st buf
            | VCopy => Ok (v_copy cap nl st buf)
            end) (fun a =>
        match a with
        | Go st buf => v_loop E slice hdr iv cap nl mh fuel st buf
        | Return st => Ok st
        end)
    end
  end.

Fixpoint v_writes (E : list Z -> list Z) (slice : Z -> option bool) (hdr : list Z -> option nat) (iv : list Z) (cap : Z) (nl : nat) (mh : Z) (st : vid) (l : list (list Z)) : res vid :=
  match l with
  | [] => Ok st
  | b :: l => bind (v_loop E slice hdr iv cap nl mh (2 * length b) st b) (fun st => v_writes E slice hdr iv cap nl mh st l)
  end.

(* A segment of a video track (mp4_cbcs_encrypt_video_get_fragment_writer, lines 649-705). *)
Definition cbcs_video (E : list Z -> list Z) (slice : Z -> option bool) (hdr : list Z -> option nat) (iv : list Z) (cap : Z) (nl : nat) (mh : Z) (sizes : list Z) (l : list (list Z)) : res (list Z * option (list Z)) :=
  bind (v_writes E slice hdr iv cap nl mh (Vid (next_frame sizes) 0 VSize nl 0 0 [] 0 (cbc_init iv) (Wb [] None)) l) (fun st =>
    Ok (w_sent (v_wb st), w_buf (v_wb st))).
