(* Encryption of fragmented mp4 segments in place, scheme "cenc" (AES in counter mode):
     nginx-pckg-module/src/media/mp4/mp4_cenc_encrypt.c,
     nginx-pckg-module/src/media/mp4/mp4_aes_ctr.c,
     nginx-pckg-module/src/media/mp4/mp4_dash_encrypt.c:1-213,
     nginx-pckg-module/src/media/write_buffer.c.

   The cipher of one block, AES-128 in ECB mode with the key of the track
   (mp4_aes_ctr.c:11-48), is a parameter E.  Allocation and the cipher do not fail.
   The single_nalu_per_frame functions (mp4_cenc_encrypt.c:182-371) are never used:
   ngx_http_pckg_fmp4.c:366-374 passes FALSE.
   There is one track (ngx_http_pckg_fmp4.c:360-365); its frames are in one part of the
   list, as in Fmp4Model. *)

From Coq Require Import ZArith List Bool Lia.
From Verif Require Import Lists Bytes Fmp4Model.
Import ListNotations.
Open Scope Z_scope.

(* VOD_CODEC_ID_AVC and VOD_CODEC_ID_HEVC; others are refused,
   mp4_cenc_encrypt.c:148-162. *)
Inductive codec := Avc | Hevc.

Definition bind {A B} (r : res A) (f : A -> res B) : res B :=
  match r with Ok a => f a | Err => Err end.

(* ------------------------------------------------------------------ *)
(* Counter mode                                                         *)

(* mp4_aes_ctr_increment_be64, mp4_aes_ctr.c:61-74, on the bytes from the last. *)
Fixpoint bump (l : list Z) : list Z :=
  match l with
  | [] => []
  | b :: l => let b' := (b + 1) mod 256 in if b' =? 0 then b' :: bump l else b' :: l
  end.
Definition incr (l : list Z) : list Z := rev (bump (rev l)).

(* mp4_aes_ctr_state_t, mp4_aes_ctr.h:13-20: the first block of counter, and the bytes
   from encrypted_pos to encrypted_end. *)
Record aes := Aes { a_ctr : list Z; a_left : list Z }.

(* mp4_aes_ctr_set_iv, mp4_aes_ctr.c:50-59. *)
Definition set_iv (iv : list Z) : aes := Aes (iv ++ repeat 0 8) [].

(* The next counter: mp4_aes_ctr.c:100-106 and 122-127. *)
Definition next_ctr (c : list Z) : list Z := firstn 8 c ++ incr (skipn 8 c).

Fixpoint counters (n : nat) (c : list Z) : list (list Z) :=
  match n with O => [] | S n => c :: counters n (next_ctr c) end.

Fixpoint xors (a b : list Z) : list Z :=
  match a, b with x :: a, y :: b => Z.lxor x y :: xors a b | _, _ => [] end.

(* mp4_aes_ctr_process, mp4_aes_ctr.c:76-154.  64 blocks of counters at most
   (mp4_aes_ctr.h:10). *)
Fixpoint process (E : list Z -> list Z) (fuel : nat) (st : aes) (src : list Z)
    : list Z * aes :=
  match fuel with
  | O => ([], st)
  | S fuel =>
      match src with
      | [] => ([], st)
      | _ =>
          let '(ks, c) :=
            match a_left st with
            | [] =>
                let n := Nat.min ((length src + 15) / 16) 64 in
                (concat (map E (counters n (a_ctr st))), Nat.iter n next_ctr (a_ctr st))
            | l => (l, a_ctr st)
            end in
          let k := Nat.min (length ks) (length src) in
          let '(o, st) := process E fuel (Aes c (skipn k ks)) (skipn k src) in
          (xors (firstn k src) ks ++ o, st)
      end
  end.

(* ------------------------------------------------------------------ *)
(* The write buffer                                                     *)

(* write_buffer_state_t, write_buffer.h: what was passed to write_callback, the bytes
   from start_pos to cur_pos, and end_pos - start_pos. *)
Record wb := Wb { w_out : list Z; w_buf : list Z; w_size : Z }.

(* write_buffer_init, write_buffer.c:7-20. *)
Definition wb_init : wb := Wb [] [] 0.

(* write_buffer_flush, write_buffer.c:22-67, reuse_buffers is FALSE
   (mp4_cenc_encrypt.c:79-85).  cap is the size of the buffers. *)
Definition wb_flush (cap : Z) (realloc : bool) (w : wb) : wb :=
  Wb (w_out w ++ w_buf w) [] (if realloc then cap else 0).

(* write_buffer_get_bytes, write_buffer.c:69-105: the caller puts at least n bytes. *)
Definition wb_get (cap n : Z) (w : wb) : res wb :=
  let w := if zlen (w_buf w) + n >? w_size w then wb_flush cap true w else w in
  if n >? w_size w then Err else Ok w.

Definition wb_put (l : list Z) (w : wb) : wb := Wb (w_out w) (w_buf w ++ l) (w_size w).

(* write_buffer_write, write_buffer.c:107-139. *)
Fixpoint wb_write (cap : Z) (fuel : nat) (l : list Z) (w : wb) : res wb :=
  match fuel with
  | O => Err
  | S fuel =>
      let n := Z.to_nat (Z.min (w_size w - zlen (w_buf w)) (zlen l)) in
      let w := wb_put (firstn n l) w in
      match skipn n l with
      | [] => Ok w
      | l => wb_write cap fuel l (wb_flush cap true w)
      end
  end.

(* mp4_aes_ctr_write_encrypted, mp4_aes_ctr.c:156-194; MIN_ALLOC_SIZE is 16. *)
Fixpoint write_encrypted (E : list Z -> list Z) (cap : Z) (fuel : nat) (l : list Z)
    (w : wb) (st : aes) : res (wb * aes) :=
  match l with
  | [] => Ok (w, st)
  | _ =>
      match fuel with
      | O => Err
      | S fuel =>
          bind (wb_get cap 16 w) (fun w =>
            let n := Z.to_nat (Z.min (w_size w - zlen (w_buf w)) (zlen l)) in
            let '(o, st) := process E (S (length l)) st (firstn n l) in
            write_encrypted E cap fuel (skipn n l) (wb_put o w) st)
      end
  end.

(* ------------------------------------------------------------------ *)
(* The boxes                                                            *)

(* mp4_cenc_encrypt_video_write_saiz_saio, mp4_cenc_encrypt.c:479-499, and
   mp4_cenc_encrypt_audio_write_saiz_saio, 872-891. *)
Definition saiz (def count : Z) (sizes : list Z) : list Z :=
  let l := if def =? 0 then sizes else [] in
  atom_header (17 + zlen l) [115; 97; 105; 122] ++ be 4 0 ++ [def] ++ be 4 count ++ l.
Definition saio (off : Z) : list Z :=
  atom_header 20 [115; 97; 105; 111] ++ be 4 0 ++ be 4 1 ++ be 4 off.

(* The senc box, mp4_dash_encrypt.c:25-29 and 80-84. *)
Definition senc (flags count : Z) (aux : list Z) : list Z :=
  atom_header (16 + zlen aux) [115; 101; 110; 99] ++ be 4 flags ++ be 4 count ++ aux.

(* mp4_cenc_encrypt_video_calc_default_auxiliary_sample_size,
   mp4_cenc_encrypt.c:444-465. *)
Definition default_size (sizes : list Z) : Z :=
  match sizes with
  | [] => 0
  | z :: l => if forallb (fun y => y =? z) l then z else 0
  end.

(* mp4_dash_encrypt_video_build_fragment_header and its callback,
   mp4_dash_encrypt.c:15-64, with mp4_cenc_encrypt_video_prepare_saiz_saio,
   mp4_cenc_encrypt.c:468-477. *)
Definition video_ext (count : Z) (aux sizes : list Z) : ext :=
  let def := default_size sizes in
  let saiz_size := 17 + (if def =? 0 then zlen sizes else 0) in
  Ext (saiz_size + 20 + 16 + zlen aux)
      (fun moof => saiz def (zlen sizes) sizes ++ saio (moof - zlen aux) ++ senc 2 count aux).

(* mp4_cenc_encrypt_audio_write_auxiliary_data, mp4_cenc_encrypt.c:855-870. *)
Fixpoint audio_aux (n : nat) (iv : list Z) : list Z :=
  match n with O => [] | S n => iv ++ audio_aux n (incr iv) end.

(* mp4_dash_encrypt_audio_build_fragment_header and its callback,
   mp4_dash_encrypt.c:69-129. *)
Definition audio_ext (count : Z) (iv : list Z) : ext :=
  Ext (17 + 20 + 16 + 8 * count)
      (fun moof => saiz 8 count [] ++ saio (moof - 8 * count) ++
                   senc 0 count (audio_aux (Z.to_nat count) iv)).

(* mp4_cenc_encrypt_init_state, mp4_cenc_encrypt.c:87-92: enc_iv has 8 bytes;
   MAX_FRAME_RATE is 60. *)
Definition first_iv (enc_iv : list Z) (t : track) : list Z :=
  be 8 (u64 (unbe enc_iv + Z.quot (t_dts t * 60) (t_scale t))).

(* ------------------------------------------------------------------ *)
(* Video                                                                *)

(* STATE_NAL_TYPE is not kept from one round of the loop to the next. *)
Inductive vstate := PacketSize | EncryptData | CopyData.

(* mp4_cenc_encrypt_video_state_t, mp4_cenc_encrypt.h:46-70: v_frames has the sizes of
   the frames from cur_frame, v_head what was passed to write_head. *)
Record vst := Vst {
  v_state : vstate;
  v_len : nat;
  v_packet : Z;
  v_frame : Z;
  v_frames : list Z;
  v_iv : list Z;
  v_aes : aes;
  v_aux : list Z;
  v_sizes : list Z;
  v_subs : Z;
  v_wb : wb;
  v_head : option (list Z)
}.

(* mp4_cenc_encrypt_start_frame and mp4_cenc_encrypt_video_start_frame,
   mp4_cenc_encrypt.c:124-144 and 374-402.  The two bytes for the count are not
   initialized. *)
Definition start_frame (v : vst) : res vst :=
  match v_frames v with
  | [] => Err
  | n :: l =>
      Ok (Vst (v_state v) (v_len v) (v_packet v) n l (incr (v_iv v)) (set_iv (v_iv v))
            (v_aux v ++ v_iv v ++ [0; 0]) (v_sizes v) 0 (v_wb v) (v_head v))
  end.

(* mp4_cenc_encrypt_video_add_subsample, mp4_cenc_encrypt.c:405-422; subsample_count is
   uint16_t. *)
Definition add_subsample (clear enc : Z) (v : vst) : vst :=
  Vst (v_state v) (v_len v) (v_packet v) (v_frame v) (v_frames v) (v_iv v) (v_aes v)
    (v_aux v ++ be 2 clear ++ be 4 enc) (v_sizes v) ((v_subs v + 1) mod 65536)
    (v_wb v) (v_head v).

(* mp4_cenc_encrypt_video_end_frame, mp4_cenc_encrypt.c:425-441. *)
Definition end_frame (v : vst) : vst :=
  let size := 10 + v_subs v * 6 in
  let p := Z.to_nat (zlen (v_aux v) - size + 8) in
  Vst (v_state v) (v_len v) (v_packet v) (v_frame v) (v_frames v) (v_iv v) (v_aes v)
    (firstn p (v_aux v) ++ be 2 (v_subs v) ++ skipn (p + 2) (v_aux v))
    (v_sizes v ++ [size mod 256]) (v_subs v) (v_wb v) (v_head v).

(* The type of a nal unit says whether it is encrypted, mp4_cenc_encrypt.c:610-629. *)
Definition encrypts (cd : codec) (b : Z) : bool :=
  match cd with
  | Avc => negb ((Z.land b 31 <? 1) || (Z.land b 31 >? 5))
  | Hevc => negb (Z.land (b / 2) 63 >=? 32)
  end.

(* The bytes of the length of a packet, mp4_cenc_encrypt.c:544-547. *)
Fixpoint read_len (n : nat) (acc : Z) (src : list Z) : nat * Z * list Z :=
  match n, src with
  | S m, b :: src => read_len m (u32 (acc * 256 + b)) src
  | _, _ => (n, acc, src)
  end.

(* What is the same for all the segment: the cipher, the size of the write buffers, the
   codec, nal_packet_size_length (1 to 4), and build_fragment_header. *)
Record cfg := Cfg {
  c_E : list Z -> list Z;
  c_cap : Z;
  c_codec : codec;
  c_len : Z;
  c_header : list Z -> list Z -> res (list Z)
}.

(* STATE_COPY_DATA and STATE_ENCRYPT_DATA, mp4_cenc_encrypt.c:648-721. *)
Definition data_step (g : cfg) (v : vst) (src : list Z) : res (vst * list Z) :=
  let n := Z.to_nat (Z.min (zlen src) (v_packet v)) in
  bind
    (match v_state v with
     | EncryptData =>
         write_encrypted (c_E g) (c_cap g) (S n) (firstn n src) (v_wb v) (v_aes v)
     | _ =>
         bind (wb_write (c_cap g) (S (S n)) (firstn n src) (v_wb v)) (fun w => Ok (w, v_aes v))
     end)
    (fun '(w, a) =>
       let left := v_packet v - Z.of_nat n in
       let rest := skipn n src in
       if left >? 0
       then Ok (Vst (v_state v) (v_len v) left (v_frame v) (v_frames v) (v_iv v) a
                  (v_aux v) (v_sizes v) (v_subs v) w (v_head v), rest)
       else
         let v := Vst PacketSize (Z.to_nat (c_len g)) 0 (v_frame v) (v_frames v) (v_iv v) a
                    (v_aux v) (v_sizes v) (v_subs v) w (v_head v) in
         if v_frame v >? 0 then Ok (v, rest)
         else
           let v := end_frame v in
           match v_frames v with
           | _ :: _ => Ok (v, rest)
           | [] =>
               let w := wb_flush (c_cap g) false (v_wb v) in
               bind (c_header g (v_aux v) (v_sizes v)) (fun h =>
                 Ok (Vst (v_state v) (v_len v) (v_packet v) (v_frame v) (v_frames v)
                       (v_iv v) (v_aes v) (v_aux v) (v_sizes v) (v_subs v) w (Some h), rest))
           end).

(* STATE_NAL_TYPE, mp4_cenc_encrypt.c:583-646. *)
Definition nal_step (g : cfg) (v : vst) (src : list Z) : res (vst * list Z) :=
  match src with
  | [] => Err
  | b :: src =>
      bind (wb_get (c_cap g) (c_len g + 1) (v_wb v)) (fun w =>
        let w := wb_put (be (Z.to_nat (c_len g)) (v_packet v) ++ [b]) w in
        if v_packet v <=? 0 then Err
        else
          let left := v_packet v - 1 in
          let enc := encrypts (c_codec g) b in
          let v := Vst (if enc then EncryptData else CopyData) (v_len v) left (v_frame v)
                     (v_frames v) (v_iv v) (v_aes v) (v_aux v) (v_sizes v) (v_subs v) w
                     (v_head v) in
          let v := if enc then add_subsample (c_len g + 1) left v
                   else add_subsample (c_len g + 1 + left) 0 v in
          data_step g v src)
  end.

(* STATE_PACKET_SIZE after the start of the frame, mp4_cenc_encrypt.c:544-581. *)
Definition packet_step (g : cfg) (v : vst) (src : list Z) : res (vst * list Z) :=
  let '(k, p, src) := read_len (v_len v) (v_packet v) src in
  let v := Vst (v_state v) k p (v_frame v) (v_frames v) (v_iv v) (v_aes v)
             (v_aux v) (v_sizes v) (v_subs v) (v_wb v) (v_head v) in
  match src with
  | [] => Ok (v, [])
  | _ =>
      if p <=? 0 then Err
      else if p >? v_frame v - c_len g then Err
      else
        let left := v_frame v - (c_len g + p) in
        if (left >? 0) && (left <=? c_len g) then Err
        else
          nal_step g
            (Vst (v_state v) k p left (v_frames v) (v_iv v) (v_aes v)
               (v_aux v) (v_sizes v) (v_subs v) (v_wb v) (v_head v)) src
  end.

(* One round of the loop of mp4_cenc_encrypt_video_write_buffer,
   mp4_cenc_encrypt.c:516-723; the start of a frame is 520-542. *)
Definition step (g : cfg) (v : vst) (src : list Z) : res (vst * list Z) :=
  match v_state v with
  | PacketSize =>
      if v_frame v <=? 0 then
        bind (start_frame v) (fun v =>
          if v_frame v <=? c_len g then
            if v_frame v <=? 0
            then Ok (Vst EncryptData (v_len v) (v_packet v) (v_frame v) (v_frames v) (v_iv v)
                       (v_aes v) (v_aux v) (v_sizes v) (v_subs v) (v_wb v) (v_head v), src)
            else Err
          else packet_step g v src)
      else packet_step g v src
  | _ => data_step g v src
  end.

(* mp4_cenc_encrypt_video_write_buffer, mp4_cenc_encrypt.c:502-728. *)
Fixpoint rounds (g : cfg) (fuel : nat) (v : vst) (src : list Z) : res vst :=
  match src with
  | [] => Ok v
  | _ =>
      match fuel with
      | O => Err
      | S fuel => bind (step g v src) (fun '(v, src) => rounds g fuel v src)
      end
  end.
Definition video_write (g : cfg) (v : vst) (src : list Z) : res vst :=
  rounds g (S (length src + 2 * length (v_frames v))) v src.

Fixpoint video_writes (g : cfg) (v : vst) (l : list (list Z)) : res vst :=
  match l with
  | [] => Ok v
  | b :: l => bind (video_write g v b) (fun v => video_writes g v l)
  end.

Definition video_init (nl : Z) (iv : list Z) (sizes : list Z) : vst :=
  Vst PacketSize (Z.to_nat nl) 0 0 sizes iv (Aes [] []) [] [] 0 wb_init None.

(* A segment of video: mp4_dash_encrypt_get_fragment_writer, mp4_dash_encrypt.c:134-213,
   mp4_cenc_encrypt_video_get_fragment_writer, mp4_cenc_encrypt.c:730-845, and the
   response: what write_head got, in front (ngx_http_pckg_core_module.c:1128-1174), then
   what write_tail got.  The size is not announced. *)
Definition video_header (s : segm) (aux sizes : list Z) : res (list Z) :=
  bind (build_header s 0
          (video_ext (zlen (concat (map t_frames (s_tracks s)))) aux sizes) false)
       (fun p => Ok (fst p)).

Definition cenc_video (E : list Z -> list Z) (cap : Z) (cd : codec) (nl : Z)
    (enc_iv : list Z) (mem : Z -> Z) (s : segm) : res (list Z) :=
  match s_tracks s with
  | [t] =>
      match t_frames t with
      | [] => video_header s [] []
      | l =>
          let g := Cfg E cap cd nl (video_header s) in
          let '(ws, ok) := segment_writes true s in
          if ok then
            bind (video_writes g (video_init nl (first_iv enc_iv t) (map f_size l))
                    (map (fun w => bytes mem (fst w) (snd w)) ws)) (fun v =>
              Ok (match v_head v with Some h => h | None => [] end ++ w_out (v_wb v)))
          else Err
      end
  | _ => Err
  end.

(* ------------------------------------------------------------------ *)
(* Audio                                                                *)

(* mp4_cenc_encrypt_state_t, mp4_cenc_encrypt.h:22-44. *)
Record ast := Ast {
  y_frame : Z;
  y_frames : list Z;
  y_iv : list Z;
  y_aes : aes;
  y_wb : wb
}.

(* mp4_cenc_encrypt_audio_write_buffer, mp4_cenc_encrypt.c:894-944. *)
Fixpoint audio_rounds (E : list Z -> list Z) (cap : Z) (fuel : nat) (y : ast) (src : list Z)
    : res ast :=
  match src with
  | [] => Ok y
  | _ =>
      match fuel with
      | O => Err
      | S fuel =>
          bind
            (if y_frame y <=? 0 then
               match y_frames y with
               | [] => Err
               | n :: l => Ok (Ast n l (incr (y_iv y)) (set_iv (y_iv y)) (y_wb y))
               end
             else Ok y)
            (fun y =>
               let n := Z.to_nat (Z.min (zlen src) (y_frame y)) in
               bind (write_encrypted E cap (S n) (firstn n src) (y_wb y) (y_aes y))
                 (fun '(w, a) =>
                    let left := y_frame y - Z.of_nat n in
                    if left >? 0 then Ok (Ast left (y_frames y) (y_iv y) a w)
                    else
                      let w := match y_frames y with
                               | [] => wb_flush cap false w
                               | _ => w
                               end in
                      audio_rounds E cap fuel (Ast left (y_frames y) (y_iv y) a w)
                        (skipn n src)))
      end
  end.

Fixpoint audio_writes (E : list Z -> list Z) (cap : Z) (y : ast) (l : list (list Z)) : res ast :=
  match l with
  | [] => Ok y
  | b :: l =>
      bind (audio_rounds E cap (S (length b + length (y_frames y))) y b)
        (fun y => audio_writes E cap y l)
  end.

(* A segment of audio: the announced size and the body.
   mp4_cenc_encrypt_audio_get_fragment_writer, mp4_cenc_encrypt.c:946-982. *)
Definition cenc_audio (E : list Z -> list Z) (cap : Z) (enc_iv : list Z) (mem : Z -> Z)
    (s : segm) : res (Z * list Z) :=
  match s_tracks s with
  | [t] =>
      let iv := first_iv enc_iv t in
      match build_header s 0 (audio_ext (zlen (t_frames t)) iv) false with
      | Err => Err
      | Ok (h, total) =>
          let '(ws, ok) := segment_writes true s in
          if ok then
            bind (audio_writes E cap (Ast 0 (map f_size (t_frames t)) iv (Aes [] []) wb_init)
                    (map (fun w => bytes mem (fst w) (snd w)) ws)) (fun y =>
              Ok (total, h ++ w_out (y_wb y)))
          else Err
      end
  | _ => Err
  end.
