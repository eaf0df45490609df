(* Codec names and the configuration of AAC: nginx-pckg-module/src/media/codec_config.c and
   bit_read_stream.h.  Texts are lists of characters. *)
From Coq Require Import ZArith List Bool.
From Verif Require Import Bytes.
From Verif Require M3u8Model.
Import ListNotations.
Open Scope Z_scope.

(* ----- bit_reader_state_t, bit_read_stream.h:8-12; the bytes from cur_pos to end_pos *)
Record rd := Rd { r_rest : list Z; r_eof : bool; r_cur : Z; r_bit : Z }.
(* bit_read_stream_init, lines 15-23 *)
Definition rd_init (d : list Z) : rd := Rd d false 0 (-1).
(* bit_read_stream_get_one, lines 26-41, with read_stream_get_byte, read_stream.h:27-36 *)
Definition get_one (s : rd) : Z * rd :=
  let s := if r_bit s <? 0
           then match r_rest s with [] => Rd [] true 0 7 | b :: r => Rd r (r_eof s) b 7 end
           else s in
  (Z.land (Z.shiftr (r_cur s) (r_bit s)) 1, Rd (r_rest s) (r_eof s) (r_cur s) (r_bit s - 1)).
(* the loops of bit_read_stream_get, lines 61-79, and of bit_read_stream_get_long, lines 82-100:
   [width] is 32 or 64 *)
Fixpoint get_loop (width : Z) (count : nat) (s : rd) (result : Z) : Z * rd :=
  match count with
  | O => (result, s)
  | S count => let '(b, s) := get_one s in get_loop width count s ((result * 2 + b) mod 2 ^ width)
  end.
Definition get (count : nat) (s : rd) : Z * rd := get_loop 32 count s 0.
Definition get_long (count : nat) (s : rd) : Z * rd := get_loop 64 count s 0.
(* one read after another; only codec_config.c:254 reads more than 32 bits, with get_long *)
Fixpoint gets (ws : list nat) (s : rd) : list Z * rd :=
  match ws with
  | [] => ([], s)
  | w :: ws =>
      let '(v, s) := if (32 <? w)%nat then get_long w s else get w s in
      let '(vs, s) := gets ws s in (v :: vs, s)
  end.

(* ----- ngx_sprintf: %D of numbers that are not negative, %xD, %02xD *)
Definition dec (n : Z) : list Z := M3u8Model.dec n.
Definition hexd (n : Z) : Z := if n <? 10 then 48 + n else 87 + n.
Fixpoint hex_f (fuel : nat) (n : Z) : list Z :=
  match fuel with
  | O => []
  | S fuel => if n <? 16 then [hexd n] else hex_f fuel (n / 16) ++ [hexd (n mod 16)]
  end.
Definition hex (n : Z) : list Z := hex_f 8 n.
Definition hex02 (n : Z) : list Z := if n <? 16 then 48 :: hex n else hex n.
Definition dot : Z := 46.

(* codec_config_get_avc_codec_name, lines 298-326; format: four characters *)
Definition avc_name (format d : list Z) : option (list Z) :=
  if (length d <? 5)%nat then None
  else Some (format ++ [dot] ++ hex02 (nth 1 d 0) ++ hex02 (nth 2 d 0) ++ hex02 (nth 3 d 0)).

(* codec_config_flip_bits_32, lines 329-341 *)
Fixpoint flip_loop (k : nat) (res n : Z) : Z :=
  match k with O => res | S k => flip_loop k ((res * 2 + n mod 2) mod 2 ^ 32) (n / 2) end.
Definition flip32 (n : Z) : Z := flip_loop 32 0 n.

(* codec_config_hevc_config_parse, lines 234-295: the widths of the fields, in order *)
Definition hevc_widths : list nat :=
  [8; 2; 1; 5; 32; 1; 1; 1; 1; 44; 8; 4; 12; 6; 2; 6; 2; 5; 3; 5; 3; 16; 2; 3; 1; 2]%nat.
Definition hevc_parse (d : list Z) : option (list Z) :=
  let '(vs, s) := gets hevc_widths (rd_init d) in if r_eof s then None else Some vs.

(* the loop of lines 384-391; [k] bytes are left, shift is 8 (k - 1) *)
Fixpoint constraints_loop (k : nat) (flags : Z) : list Z :=
  match k with
  | O => []
  | S k' =>
      let shift := 8 * Z.of_nat k' in
      if Z.land flags (2 ^ (shift + 8) - 1) =? 0 then []
      else [dot] ++ hex02 (Z.land (Z.shiftr flags shift) 255) ++ constraints_loop k' flags
  end.
(* codec_config_get_hevc_codec_name, lines 344-397 *)
Definition hevc_name (format d : list Z) : option (list Z) :=
  match hevc_parse d with
  | Some (_ :: space :: tier :: idc :: compat :: progressive :: interlaced :: non_packed :: frame_only :: flags :: level :: _) =>
      let c := Z.lor (Z.lor (Z.lor (Z.lor (Z.shiftl progressive 7) (Z.shiftl interlaced 6)) (Z.shiftl non_packed 5)) (Z.shiftl frame_only 4)) (Z.shiftr flags 40) in
      Some (format ++ [dot] ++ (if 0 <? space then [65 + (space - 1)] else []) ++ dec idc ++ [dot] ++ hex (flip32 compat) ++ [dot]
            ++ [if tier =? 0 then 76 else 72] ++ dec level ++ [dot] ++ hex02 (c mod 256) ++ constraints_loop 5 flags)
  | _ => None
  end.

(* codec_config_get_mp4a_codec_name, lines 426-451 *)
Definition mp4a_name (format : list Z) (object_type_id : Z) (d : list Z) : list Z :=
  match d with
  | [] => format ++ [dot] ++ hex02 object_type_id
  | b :: _ => format ++ [dot] ++ hex02 object_type_id ++ [dot] ++ dec (Z.shiftr (Z.land b 248) 3)
  end.
