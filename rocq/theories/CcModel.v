(* Closed captions out of the SEI units of video frames:
     nginx-kmp-cc-module/src/ngx_buf_chain_reader.c, nginx-kmp-cc-module/src/ngx_kmp_cc.c.
   A chain of buffers is a list of lists of bytes, the first is the current one.  Failures of
   allocations, the limit of packets and the decoders of the captions are not modelled. *)
From Coq Require Import ZArith List Bool.
From Verif Require Import Bytes.
Import ListNotations.
Open Scope Z_scope.

Definition chain := list (list Z).

(* ngx_buf_chain_reader_read, ngx_buf_chain_reader.c:4-28; None: NGX_ERROR.  An empty list
   is not a chain. *)
Fixpoint chain_read (r : chain) (size : nat) : option (list Z * chain) :=
  match r with
  | [] => None
  | b :: next =>
      if (size <=? length b)%nat then Some (firstn size b, skipn size b :: next)
      else match next with
           | [] => None
           | _ => match chain_read next (size - length b) with
                  | None => None
                  | Some (d, r) => Some (b ++ d, r)
                  end
           end
  end.
(* ngx_buf_chain_reader_skip, lines 31-53 *)
Fixpoint chain_skip (r : chain) (size : nat) : option chain :=
  match r with
  | [] => None
  | b :: next =>
      if (size <=? length b)%nat then Some (skipn size b :: next)
      else match next with [] => None | _ => chain_skip next (size - length b) end
  end.

(* ngx_buf_chain_reader_ep_t, ngx_buf_chain_reader.h:11-15 *)
Record ep := Ep { e_base : chain; e_three : Z; e_left : Z }.
(* ngx_buf_chain_reader_ep_init, lines 56-62, with the assignment of left *)
Definition ep_init (src : chain) (left : Z) : ep := Ep src 1 left.
(* lines 81-94: the next byte *)
Fixpoint next_byte (r : chain) : option (Z * chain) :=
  match r with
  | [] => None
  | (b :: d) :: next => Some (b, d :: next)
  | [] :: next => match next with [] => None | _ => next_byte next end
  end.
(* the loop of ngx_buf_chain_reader_ep_read, lines 78-107.  The shift, or and mask of line 96
   are written as arithmetic.  Every round takes a byte of the chain (fuel). *)
Fixpoint ep_loop (fuel size : nat) (e : ep) (dst : list Z) : option (list Z * ep) :=
  match size, fuel with
  | O, _ => Some (dst, e)
  | _, O => None
  | S n, S fuel =>
      match next_byte (e_base e) with
      | None => None
      | Some (b, base) =>
          let three := (e_three e * 256 + b) mod 2 ^ 24 in
          if three =? 3 then
            if e_left e <=? 0 then None
            else ep_loop fuel size (Ep base three (e_left e - 1)) dst
          else ep_loop fuel n (Ep base three (e_left e)) (dst ++ [b])
      end
  end.
(* ngx_buf_chain_reader_ep_read, lines 65-110 *)
Definition ep_read (e : ep) (size : nat) : option (list Z * ep) :=
  if e_left e <? Z.of_nat size then None
  else ep_loop (length (concat (e_base e))) size (Ep (e_base e) (e_three e) (e_left e - Z.of_nat size)) [].
(* ngx_buf_chain_reader_ep_skip, lines 113-155: the same loop, the bytes are not stored *)
Definition ep_skip (e : ep) (size : nat) : option ep :=
  match ep_read e size with None => None | Some (_, e) => Some e end.

(* ----- captions, ngx_kmp_cc.c *)
(* lines 158-161: country, provider, GA94, type 3 *)
Definition payload_header : list Z := [181; 0; 49; 71; 65; 57; 52; 3].
Definition USER_DATA_REGISTERED : Z := 4.

(* ngx_kmp_cc_process_udr_sei, lines 995-1064: the data of the packet, if there is one
   (NGX_OK without a packet and NGX_DECLINED are the same for the caller) *)
Definition udr_sei (e : ep) : option (list Z) :=
  match ep_read e (length payload_header) with
  | None => None
  | Some (buf, e) =>
      if negb (if list_eq_dec Z.eq_dec buf payload_header then true else false) then None
      else
        match ep_read e 1 with
        | None => None
        | Some (b, e) =>
            let b := hd 0 b in
            if Z.land b 64 =? 0 then None
            else
              let cc_count := Z.land b 31 in
              if cc_count <=? 0 then None
              else
                match ep_read e 1 with
                | None => None
                | Some (_, e) =>
                    match ep_read e (Z.to_nat (cc_count * 3)) with
                    | None => None
                    | Some (d, _) => Some d
                    end
                end
        end
  end.

(* lines 1079-1090 and 1092-1103: a number in bytes of 255 and a last byte *)
Fixpoint read_ff (fuel : nat) (e : ep) (v : Z) : option (Z * ep) :=
  match fuel with
  | O => None
  | S fuel =>
      match ep_read e 1 with
      | None => None
      | Some (b, e) =>
          let b := hd 0 b in
          let v := u32 (v + b) in
          if b =? 255 then read_ff fuel e v else Some (v, e)
      end
  end.
(* ngx_kmp_cc_process_sei_nal, lines 1067-1127: the packets.  The number of bytes bounds the
   rounds (fuel). *)
Fixpoint sei_nal (fuel : nat) (e : ep) : list (list Z) :=
  match fuel with
  | O => []
  | S fuel =>
      if e_left e <? 2 then []
      else
        match read_ff (S (Z.to_nat (e_left e))) e 0 with
        | None => []
        | Some (payload_type, e) =>
            match read_ff (S (Z.to_nat (e_left e))) e 0 with
            | None => []
            | Some (payload_size, e) =>
                match ep_skip e (Z.to_nat payload_size) with
                | None => []
                | Some e' =>
                    if negb (payload_type =? USER_DATA_REGISTERED) then sei_nal fuel e'
                    else
                      match udr_sei (Ep (e_base e) (e_three e) payload_size) with
                      | None => []
                      | Some d => [d]
                      end ++ sei_nal fuel e'
                end
            end
        end
  end.

(* lines 125-129, set in lines 1253-1257 and 1286-1292 *)
Record conf := Conf { c_size_bytes : nat; c_header : nat; c_shift : Z; c_mask : Z; c_sei : Z }.
Definition avc_conf (nal_length_size : nat) : conf := Conf nal_length_size 1 0 31 (2 ^ 6).
Definition hevc_conf (nal_length_size : nat) : conf := Conf nal_length_size 2 1 63 (2 ^ 39 + 2 ^ 40).
(* line 1187-1188 *)
Definition is_sei (c : conf) (h : Z) : bool :=
  Z.testbit (c_sei c) (Z.land (Z.shiftr h (c_shift c)) (c_mask c)).

(* ngx_kmp_cc_process_frame, lines 1130-1200: the packets.  Every round takes a byte (fuel). *)
Fixpoint process_frame (fuel : nat) (c : conf) (reader : chain) : list (list Z) :=
  match fuel with
  | O => []
  | S fuel =>
      match chain_read reader (c_size_bytes c) with
      | None => []
      | Some (s, reader) =>
          let size := unbe s in
          if size <? Z.of_nat (c_header c) then []
          else
            let nal := ep_init reader size in
            match chain_skip reader (Z.to_nat size) with
            | None => []
            | Some reader =>
                match ep_read nal (c_header c) with
                | None => []
                | Some (h, nal) =>
                    (if is_sei c (hd 0 h) then sei_nal (Z.to_nat size) nal else []) ++ process_frame fuel c reader
                end
            end
      end
  end.
Definition frame_packets (c : conf) (in_ : chain) : list (list Z) :=
  if (c_size_bytes c =? 0)%nat then [] else process_frame (length (concat in_)) c in_.

(* ----- the order of the packets, ngx_kmp_cc.c *)
(* a packet: its pts and its data *)
Notation packet := (Z * list Z)%type.
(* ngx_kmp_cc_packet_insert, lines 966-991: from the last packet back *)
Fixpoint ins (p : packet) (back : list packet) : list packet :=
  match back with
  | [] => [p]
  | c :: r => if fst c <=? fst p then p :: c :: r else c :: ins p r
  end.
Definition packet_insert (p : packet) (pending : list packet) : list packet := rev (ins p (rev pending)).

Record frame_evt := FrameEvt { f_key : bool; f_dts : Z; f_delay : Z; f_data : chain }.
Record cc_ctx := CcCtx { x_max_pts : Z; x_pending : list packet }.
(* zeroed when it is allocated *)
Definition cc_init : cc_ctx := CcCtx 0 [].
(* ngx_kmp_cc_add_frame, lines 1203-1228, with ngx_kmp_cc_packet_push_all, lines 938-963: the
   packets that are pushed to the decoders.  The sum of dts and delay does not overflow. *)
Definition add_frame (c : conf) (x : cc_ctx) (f : frame_evt) : list packet * cc_ctx :=
  let pts := f_dts f + f_delay f in
  let '(pushed, x) :=
    if f_key f || (x_max_pts x <? pts) then (x_pending x, CcCtx pts []) else ([], x) in
  (pushed, CcCtx (x_max_pts x) (fold_left (fun l d => packet_insert (pts, d) l) (frame_packets c (f_data f)) (x_pending x))).
(* all the frames: what is pushed, and what is pending at the end *)
Fixpoint add_frames (c : conf) (x : cc_ctx) (fs : list frame_evt) : list packet * cc_ctx :=
  match fs with
  | [] => ([], x)
  | f :: r => let '(a, x) := add_frame c x f in let '(b, x) := add_frames c x r in (a ++ b, x)
  end.
