(* The encryption of HLS segments:
     nginx-pckg-module/src/media/aes_cbc_encrypt.c   (AES-128: the whole segment),
     nginx-pckg-module/src/media/mpegts/sample_aes_avc_filter.c,
     nginx-pckg-module/src/media/mpegts/frame_encrypt_filter.c,
     nginx-pckg-module/src/media/mpegts/eac3_encrypt_filter.c  (SAMPLE-AES: parts of
   the frames), and the loop of mp4_to_annexb_filter.c as it is used with SAMPLE-AES.
   The block cipher under the key is a parameter E; failures of allocations and of
   OpenSSL are not modelled.  The calls to the next filter are its input, in order,
   as a list of bytes. *)
From Coq Require Import ZArith List Bool.
From Verif Require Import Bytes.
Import ListNotations.
Open Scope Z_scope.

(* VOD_OK with a result, an error, or undefined behaviour *)
Inductive res (A : Type) : Type := Ok (a : A) | Err | Ub.
Arguments Ok {A} a. Arguments Err {A}. Arguments Ub {A}.

Definition bind {A B} (r : res A) (f : A -> res B) : res B :=
  match r with Ok a => f a | Err => Err | Ub => Ub end.

Definition len (l : list Z) : Z := Z.of_nat (length l).

(* ------------------------------------------------------------------ *)
(* OpenSSL: EVP_aes_128_cbc with padding.  The library, not code of /repo: *)
(* EVP_EncryptUpdate puts out every block that is full, EVP_EncryptFinal_ex *)
(* pads what is left.                                                   *)

Record cbc := Cbc { c_chain : list Z; c_buf : list Z }.

Fixpoint xors (a b : list Z) : list Z :=
  match a, b with x :: a, y :: b => Z.lxor x y :: xors a b | _, _ => [] end.

Fixpoint blocks (E : list Z -> list Z) (n : nat) (chain l : list Z) : list Z * list Z :=
  match n with
  | O => ([], chain)
  | S n =>
      let c := E (xors chain (firstn 16 l)) in
      let (o, chain) := blocks E n c (skipn 16 l) in (c ++ o, chain)
  end.

Definition cbc_init (iv : list Z) : cbc := Cbc iv [].

Definition cbc_update (E : list Z -> list Z) (st : cbc) (l : list Z) : list Z * cbc :=
  let b := c_buf st ++ l in
  let n := (length b / 16)%nat in
  let (o, chain) := blocks E n (c_chain st) b in (o, Cbc chain (skipn (16 * n) b)).

Definition cbc_final (E : list Z -> list Z) (st : cbc) : list Z :=
  let p := (16 - length (c_buf st))%nat in
  E (xors (c_chain st) (c_buf st ++ repeat (Z.of_nat p) p)).

(* ------------------------------------------------------------------ *)
(* aes_cbc_encrypt.c                                                    *)

(* aes_round_up_to_block, aes_defs.h:17-18 *)
Definition round_down (n : Z) : Z := n - n mod 16.
Definition round_up (n : Z) : Z := round_down (n + 16).

(* aes_cbc_encrypt_write, aes_cbc_encrypt.c:132-184, and aes_cbc_encrypt_flush, lines
   112-129; the sizes are of 32 bits.  [pool] is the size of the buffers of the pool
   if there is one, buffer_pool_alloc (buffer_pool.c:73-112): without a pool just the
   requested size is allocated.  Output that does not fit the buffer is Ub. *)
Definition cbc_write (E : list Z -> list Z) (pool : option Z) (st : cbc) (buf : list Z) : res (list Z * cbc) :=
  let size := u32 (len buf) in
  if size <=? 0 then Ok (cbc_final E st, st)
  else
    let required := round_down (u32 (size + 16)) in
    let buffer := match pool with Some s => s | None => required end in
    if buffer <? required then Err
    else
      let (o, st) := cbc_update E st buf in
      if len o <=? buffer then Ok (o, st) else Ub.

(* the writes of a segment, and the last one with size 0
   (ngx_http_pckg_core_module.c:1206) *)
Fixpoint cbc_writes (E : list Z -> list Z) (pool : option Z) (st : cbc) (l : list (list Z)) : res (list Z) :=
  match l with
  | [] => bind (cbc_write E pool st []) (fun r => Ok (fst r))
  | b :: l => bind (cbc_write E pool st b) (fun r => bind (cbc_writes E pool (snd r) l) (fun o => Ok (fst r ++ o)))
  end.

(* ngx_http_pckg_mpegts.c:182-200 and ngx_http_pckg_fmp4.c:329-344 *)
Definition aes128 (E : list Z -> list Z) (iv : list Z) (pool : option Z) (l : list (list Z)) : res (list Z) :=
  cbc_writes E pool (cbc_init iv) l.

(* the size announced for a segment of [n] bytes: ngx_http_pckg_mpegts.c:214-217 and
   ngx_http_pckg_fmp4.c:403-406 *)
Definition announced (n : Z) : Z := if n =? 0 then 0 else round_up n.

(* The packets of an MPEG-TS segment in the buffers of a write_buffer_queue
   (write_buffer_queue.c:26-100): a packet that does not fit the current buffer starts
   the next one.  Each buffer is written at once (lines 102-175).  Simplified: when the
   buffers are sent does not matter for what is in them. *)
Fixpoint buffers (s : Z) (cur : list Z) (ps : list (list Z)) : list (list Z) :=
  match ps with
  | [] => match cur with [] => [] | _ => [cur] end
  | p :: ps =>
      if len cur + len p <=? s then buffers s (cur ++ p) ps
      else cur :: buffers s p ps
  end.

(* write_buffer_queue.c:4 *)
Definition BUFFER_SIZE : Z := 188 * 16 * 32.

(* an MPEG-TS segment with AES-128: the buffers of the queue come from the same pool *)
Definition ts_aes128 (E : list Z -> list Z) (iv : list Z) (pool : option Z) (ps : list (list Z)) : res (list Z) :=
  aes128 E iv pool (buffers (match pool with Some s => s | None => BUFFER_SIZE end) [] ps).

(* aes_cbc_encrypt with flush, aes_cbc_encrypt.c:67-108.  [data] is what the source
   points to: None for a pointer that was never set. *)
Definition cbc_once (E : list Z -> list Z) (st : cbc) (data : option (list Z)) (n : Z) : res (list Z) :=
  match data with
  | None => if 0 <? n then Ub else Ok (cbc_final E st)
  | Some l =>
      let (o, st) := cbc_update E st l in
      let o := o ++ cbc_final E st in
      if len o <=? round_up n + 16 then Ok o else Ub
  end.

(* The answer to a request for an initialization segment [s] with AES-128,
   ngx_http_pckg_fmp4_handle_init_segment, ngx_http_pckg_fmp4.c:222-263:
   mp4_init_segment_build (mp4_init_segment.c:1070-1075) sets only the size for a HEAD
   request, and the response is not set before. *)
Definition init_aes128 (E : list Z -> list Z) (iv : list Z) (head : bool) (s : list Z) : res (list Z) :=
  cbc_once E (cbc_init iv) (if head then None else Some s) (len s).

(* ------------------------------------------------------------------ *)
(* sample_aes_avc_filter.c                                              *)

(* The state of lines 24-29, and the cipher. *)
Record nal := Nal { n_encrypt : bool; n_cur : Z; n_next : Z; n_max : Z; n_zero : Z; n_cbc : cbc }.

(* sample_aes_avc_write_emulation_prevention, lines 93-144, over the rest of the buffer *)
Fixpoint escape (zero : Z) (l : list Z) : list Z * Z :=
  match l with
  | [] => ([], zero)
  | b :: l =>
      if zero <? 2 then
        let (o, zero) := escape (if b =? 0 then zero + 1 else 0) l in (b :: o, zero)
      else
        let (o, zero) := escape (if b =? 0 then 1 else 0) l in
        ((if Z.land b (Z.lnot 3) =? 0 then [3] else []) ++ b :: o, zero)
  end.

(* sample_aes_avc_start_nal_unit, lines 146-175: AVC_NAL_SLICE is 1, AVC_NAL_IDR_SLICE
   is 5 (avc_defs.h) *)
Definition start_nal (iv : list Z) (st : nal) (unit_type unit_size : Z) : nal :=
  if negb ((unit_type =? 1) || (unit_type =? 5)) || (unit_size <=? 48)
  then Nal false (n_cur st) (n_next st) (n_max st) (n_zero st) (n_cbc st)
  else Nal true 0 32 (u32 (unit_size - 16)) 0 (cbc_init iv).

(* sample_aes_avc_filter_write_nal_body, lines 177-242: the loop; every round but the
   last takes bytes of the buffer.  EVP_EncryptUpdate writes to a buffer of 16 bytes; the
   block is written whole. *)
Fixpoint body_loop (E : list Z -> list Z) (fuel : nat) (end_ : Z) (st : nal) (buf : list Z) : res (list Z * nal) :=
  if negb (n_cur st <? end_) then Ok ([], st)
  else
    match fuel with
    | O => Err
    | S fuel =>
        if n_cur st <? n_next st then
          let k := Z.to_nat (Z.min (n_next st) end_ - n_cur st) in
          let (o, zero) := escape (n_zero st) (firstn k buf) in
          bind (body_loop E fuel end_ (Nal true (u32 (n_cur st + Z.of_nat k)) (n_next st) (n_max st) zero (n_cbc st)) (skipn k buf))
            (fun r => Ok (o ++ fst r, snd r))
        else
          let k := Z.to_nat (Z.min (u32 (n_next st + 16)) end_ - n_cur st) in
          let (b, c) := cbc_update E (n_cbc st) (firstn k buf) in
          let cur := u32 (n_cur st + Z.of_nat k) in
          if 16 <? len b then Ub
          else if len b <=? 0 then
            body_loop E fuel end_ (Nal true cur (n_next st) (n_max st) (n_zero st) c) (skipn k buf)
          else
            let (o, zero) := escape (n_zero st) b in
            let next := u32 (n_next st + 10 * 16) in
            let next := if n_max st <=? next then 2 ^ 32 - 1 else next in
            bind (body_loop E fuel end_ (Nal true cur next (n_max st) zero c) (skipn k buf))
              (fun r => Ok (o ++ fst r, snd r))
    end.

Definition write_body (E : list Z -> list Z) (st : nal) (buf : list Z) : res (list Z * nal) :=
  if n_encrypt st then body_loop E (length buf) (u32 (n_cur st + len buf)) st buf
  else Ok (buf, st).

Fixpoint write_bodies (E : list Z -> list Z) (st : nal) (l : list (list Z)) : res (list Z * nal) :=
  match l with
  | [] => Ok ([], st)
  | b :: l => bind (write_body E st b) (fun r => bind (write_bodies E (snd r) l) (fun s => Ok (fst r ++ fst s, snd s)))
  end.

(* ------------------------------------------------------------------ *)
(* frame_encrypt_filter.c                                               *)

(* The state of lines 22-25. *)
Record frm := Frm { r_cur : Z; r_max : Z; r_cbc : cbc }.

(* frame_encrypt_start_frame, lines 28-48; without an encrypted part the cipher is left
   as it was *)
Definition start_frame (iv : list Z) (st : frm) (size : Z) : frm :=
  let max := size - size mod 16 in
  Frm 0 max (if 16 <? max then cbc_init iv else r_cbc st).

(* frame_encrypt_start_sub_frame, lines 50-57 *)
Definition start_sub_frame (st : frm) (size : Z) : frm := Frm 0 (size - size mod 16) (r_cbc st).

(* frame_encrypt_write, lines 60-124: the loop of lines 89-115, with a buffer of 256
   bytes *)
Fixpoint enc_loop (E : list Z -> list Z) (fuel : nat) (limit : Z) (st : frm) (buf : list Z) : res (list Z * frm * list Z) :=
  if negb (r_cur st <? limit) then Ok ([], st, buf)
  else
    match fuel with
    | O => Err
    | S fuel =>
        let k := Z.to_nat (Z.min 256 (limit - r_cur st)) in
        let (o, c) := cbc_update E (r_cbc st) (firstn k buf) in
        if 256 <? len o then Ub
        else
          bind (enc_loop E fuel limit (Frm (u32 (r_cur st + Z.of_nat k)) (r_max st) c) (skipn k buf))
            (fun r => Ok (o ++ fst (fst r), snd (fst r), snd r))
    end.

(* the clear bytes at the end do not count in the offset (line 120) *)
Definition write_frame (E : list Z -> list Z) (st : frm) (buf : list Z) : res (list Z * frm) :=
  let end_ := u32 (r_cur st + len buf) in
  let k := if r_cur st <? 16 then Z.to_nat (Z.min (len buf) (16 - r_cur st)) else O in
  let st := Frm (r_cur st + Z.of_nat k) (r_max st) (r_cbc st) in
  bind (enc_loop E (length buf) (Z.min end_ (r_max st)) st (skipn k buf)) (fun r =>
    let '(o, st, rest) := r in
    Ok (firstn k buf ++ o ++ (if r_cur st <? end_ then firstn (Z.to_nat (end_ - r_cur st)) rest else []), st)).

Fixpoint write_frames (E : list Z -> list Z) (st : frm) (l : list (list Z)) : res (list Z * frm) :=
  match l with
  | [] => Ok ([], st)
  | b :: l => bind (write_frame E st b) (fun r => bind (write_frames E (snd r) l) (fun s => Ok (fst r ++ fst s, snd s)))
  end.

(* ------------------------------------------------------------------ *)
(* eac3_encrypt_filter.c                                                *)

(* The state of lines 18-22: e_head are the bytes of the header so far, None once it
   is complete. *)
Record eac3 := Eac3 { e_head : option (list Z); e_left : Z; e_sync : Z; e_frm : frm }.

(* eac3_encrypt_start_frame, lines 25-41, before frame_encrypt_start_frame *)
Definition eac3_start (iv : list Z) (st : eac3) (size : Z) : res eac3 :=
  if size <? 7 then Err
  else Ok (Eac3 (Some []) size (e_sync st) (start_frame iv (e_frm st) size)).

(* lines 65-83 *)
Definition sync_size (h : list Z) : Z :=
  (Z.land (nth 2 h 0 * 256 + nth 3 h 0) 2047 + 1) * 2.

(* eac3_encrypt_write, lines 44-134 *)
Fixpoint eac3_loop (E : list Z -> list Z) (fuel : nat) (st : eac3) (buf : list Z) : res (list Z * eac3) :=
  match fuel with
  | O => Err
  | S fuel =>
      (* lines 109-131 *)
      let rest (o : list Z) (left sync : Z) (f : frm) (buf : list Z) : res (list Z * eac3) :=
        let k := Z.to_nat (Z.min sync (len buf)) in
        bind (write_frame E f (firstn k buf)) (fun r =>
          let sync := sync - Z.of_nat k in
          if 0 <? sync then Ok (o ++ fst r, Eac3 None left sync (snd r))
          else if len buf - Z.of_nat k <=? 0 then Ok (o ++ fst r, Eac3 (Some []) left sync (snd r))
          else bind (eac3_loop E fuel (Eac3 (Some []) left sync (snd r)) (skipn k buf))
                 (fun s => Ok (o ++ fst r ++ fst s, snd s)))
      in
      match e_head st with
      | Some h =>
          (* lines 54-107 *)
          let k := Z.to_nat (Z.min (7 - len h) (len buf)) in
          let h := h ++ firstn k buf in
          if 0 <? 7 - len h then Ok ([], Eac3 (Some h) (e_left st) (e_sync st) (e_frm st))
          else if negb ((nth 0 h 0 =? 11) && (nth 1 h 0 =? 119)) then Err
          else
            let size := sync_size h in
            if (size <? 7) || (e_left st <? size) then Err
            else
              let left := e_left st - size in
              if (0 <? left) && (left <? 7) then Err
              else
                bind (write_frame E (start_sub_frame (e_frm st) size) h) (fun r =>
                  rest (fst r) left (size - 7) (snd r) (skipn k buf))
      | None => rest [] (e_left st) (e_sync st) (e_frm st) buf
      end
  end.

Definition eac3_write (E : list Z -> list Z) (st : eac3) (buf : list Z) : res (list Z * eac3) :=
  eac3_loop E (S (length buf)) st buf.

Fixpoint eac3_writes (E : list Z -> list Z) (st : eac3) (l : list (list Z)) : res (list Z * eac3) :=
  match l with
  | [] => Ok ([], st)
  | b :: l => bind (eac3_write E st b) (fun r => bind (eac3_writes E (snd r) l) (fun s => Ok (fst r ++ fst s, snd s)))
  end.

(* ------------------------------------------------------------------ *)
(* mp4_to_annexb_filter.c with SAMPLE-AES (AVC only: lines 78-85)       *)

Inductive phase := PSize | PCopy | PSkip.
(* The state of lines 31-35; the size of the frame is not used with SAMPLE-AES (line
   294). *)
Record anx := Anx { x_phase : phase; x_first : bool; x_bytes : nat; x_left : Z; x_nal : nal }.

(* mp4_to_annexb_start_frame, lines 126-177: the access unit delimiter, the parameter
   sets [extra] before a key frame; [nl] is the size of a length *)
Definition anx_start (nl : nat) (extra : list Z) (key : bool) (size : Z) (n : nal) : res (list Z * anx) :=
  if (0 <? size) && (size <=? Z.of_nat nl) then Err
  else Ok ([0; 0; 0; 1; 9; 240] ++ (if key then extra else []), Anx PSize true nl 0 n).

Fixpoint take_size (n : nat) (v : Z) (buf : list Z) : nat * Z * list Z :=
  match n, buf with
  | S m, b :: r => take_size m (u32 (v * 256) + b) r
  | _, _ => (n, v, buf)
  end.

(* mp4_to_annexb_write, lines 179-279: a round of the loop takes bytes of the buffer *)
Fixpoint anx_loop (E : list Z -> list Z) (iv : list Z) (nl : nat) (fuel : nat) (st : anx) (buf : list Z) : res (list Z * anx) :=
  match buf with
  | [] => Ok ([], st)
  | _ =>
      match fuel with
      | O => Err
      | S fuel =>
          (* lines 256-279 *)
          let copy (o : list Z) (st : anx) (buf : list Z) : res (list Z * anx) :=
            let k := Z.to_nat (Z.min (x_left st) (len buf)) in
            bind (match x_phase st with
                  | PCopy => write_body E (x_nal st) (firstn k buf)
                  | _ => Ok ([], x_nal st)
                  end) (fun r =>
              let left := x_left st - Z.of_nat k in
              let st := if left <=? 0 then Anx PSize (x_first st) nl 0 (snd r)
                        else Anx (x_phase st) (x_first st) (x_bytes st) left (snd r) in
              bind (anx_loop E iv nl fuel st (skipn k buf)) (fun s => Ok (o ++ fst r ++ fst s, snd s)))
          in
          match x_phase st with
          | PSize =>
              let '(n, v, rest) := take_size (x_bytes st) (x_left st) buf in
              match rest with
              | [] => Ok ([], Anx PSize (x_first st) n v (x_nal st))
              | b :: _ =>
                  if v <=? 0 then Err
                  else
                    let t := Z.land b 31 in
                    if t =? 9 then anx_loop E iv nl fuel (Anx PSkip (x_first st) n v (x_nal st)) rest
                    else copy (if x_first st then [0; 0; 0; 1] else [0; 0; 1])
                           (Anx PCopy false n v (start_nal iv (x_nal st) t v)) rest
              end
          | _ => copy [] st buf
          end
      end
  end.

Fixpoint anx_writes (E : list Z -> list Z) (iv : list Z) (nl : nat) (st : anx) (l : list (list Z)) : res (list Z * anx) :=
  match l with
  | [] => Ok ([], st)
  | b :: l => bind (anx_loop E iv nl (S (length b)) st b) (fun r =>
      bind (anx_writes E iv nl (snd r) l) (fun s => Ok (fst r ++ fst s, snd s)))
  end.

(* all of a frame *)
Definition sample_aes_frame (E : list Z -> list Z) (iv : list Z) (nl : nat) (extra : list Z) (key : bool) (size : Z) (n : nal) (l : list (list Z)) : res (list Z) :=
  bind (anx_start nl extra key size n) (fun r =>
    bind (anx_writes E iv nl (snd r) l) (fun s => Ok (fst r ++ fst s))).

(* The frames of an audio track, each with the buffers in which it is read
   (frame_encrypt_filter.c, and eac3_encrypt_filter.c before it).  The cipher has no
   vector before the first frame that starts it: that state is never used. *)
Fixpoint audio_frames (E : list Z -> list Z) (iv : list Z) (st : frm) (fs : list (list (list Z))) : res (list (list Z)) :=
  match fs with
  | [] => Ok []
  | f :: fs =>
      bind (write_frames E (start_frame iv st (len (concat f))) f) (fun r =>
        bind (audio_frames E iv (snd r) fs) (fun s => Ok (fst r :: s)))
  end.
Definition audio_track (E : list Z -> list Z) (iv : list Z) (fs : list (list (list Z))) : res (list (list Z)) :=
  audio_frames E iv (Frm 0 0 (cbc_init iv)) fs.

Fixpoint eac3_frames (E : list Z -> list Z) (iv : list Z) (st : eac3) (fs : list (list (list Z))) : res (list (list Z)) :=
  match fs with
  | [] => Ok []
  | f :: fs =>
      bind (eac3_start iv st (len (concat f))) (fun st =>
        bind (eac3_writes E st f) (fun r =>
          bind (eac3_frames E iv (snd r) fs) (fun s => Ok (fst r :: s))))
  end.
Definition eac3_track (E : list Z -> list Z) (iv : list Z) (fs : list (list (list Z))) : res (list (list Z)) :=
  eac3_frames E iv (Eac3 (Some []) 0 0 (Frm 0 0 (cbc_init iv))) fs.
