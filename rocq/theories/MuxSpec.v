(* What the streams of a segment should look like to a player that has taken the PES
   packets apart (TsSpec.v): Annex B of H.264 and H.265, ADTS, ID3.  Nothing here
   uses the functions of the model. *)

From Coq Require Import ZArith List Bool Lia.
From Verif Require Import Lists TsModel TsSpec MuxModel.
Import ListNotations.
Open Scope Z_scope.

(* ------------------------------------------------------------------ *)
(* The input                                                            *)

Definition data_of (fr : iframe) : list Z := concat (i_chunks fr).

(* The frames with their dts. *)
Fixpoint timed (d : Z) (l : list iframe) : list (iframe * Z) :=
  match l with [] => [] | fr :: l => (fr, d) :: timed (d + i_dur fr) l end.

(* A frame of length-prefixed NAL units, n bytes for a length. *)
Inductive nal_frame (n : nat) : list Z -> list (list Z) -> Prop :=
| nf_nil : nal_frame n [] []
| nf_unit h u l us : length h = n -> fold_left (fun a x => a * 256 + x) h 0 = zlen u ->
    u <> [] -> nal_frame n l us -> nal_frame n (h ++ u ++ l) (u :: us).

(* An access unit delimiter. *)
Definition is_aud (v : vconf) (u : list Z) : bool :=
  match u with x :: _ => Z.land x (vc_mask v) =? vc_audt v | [] => false end.

(* The size of all reads is the size of the frame; neither the frame nor a read is
   empty. *)
Definition good_frame (fr : iframe) : Prop :=
  1 <= i_size fr /\ zlen (data_of fr) = i_size fr /\ Forall (fun b => b <> []) (i_chunks fr).

Definition good_top (align : bool) (tp : top) (k : kind) (l : list iframe) : Prop :=
  match tp with
  | TVideo v =>
      k = Video /\ vc_extra v <> [] /\ (1 <= vc_nal v <= 4)%nat /\
      (v = avc (vc_nal v) (vc_extra v) \/ v = hevc (vc_nal v) (vc_extra v))
  | TAac a =>
      k = Audio /\ 1 <= ac_object a <= 4 /\ 0 <= ac_rate a < 16 /\ 0 <= ac_chan a < 8 /\
      Forall (fun fr => i_size fr + 7 < 8192) l
  | TPlain => k = Audio /\ align = true
  | TId3 =>
      k = Other /\ (align = true \/ (length l <= 1)%nat) /\
      Forall (fun fr => i_size fr + 11 < 2 ^ 28 /\ (align = true \/ i_size fr + 21 <= 65343)) l
  end.

(* Interleaved audio that is not aligned: the ADTS frames of 0.7 seconds fit in a PES
   packet. *)
Definition small_frames (ch : chan) : Prop :=
  forall a x b y c,
    timed (ch_dts ch) (ch_frames ch) = a ++ (x :: b) ++ c -> last (x :: b) x = y ->
    snd y < snd x + 63000 ->
    fold_right (fun p n => i_size (fst p) + 7 + n) 0 (x :: b) <= 65343.

Definition good_chan (inter align : bool) (ch : chan) : Prop :=
  Forall good_frame (ch_frames ch) /\
  good_top align (ch_top ch) (t_kind (ch_strm ch)) (ch_frames ch) /\
  (inter = true -> align = false -> t_kind (ch_strm ch) = Audio -> small_frames ch).

(* The video is well formed. *)
Definition readable (ch : chan) : Prop :=
  match ch_top ch with
  | TVideo v => Forall (fun fr => exists us, nal_frame (vc_nal v) (data_of fr) us) (ch_frames ch)
  | _ => True
  end.

(* ------------------------------------------------------------------ *)
(* The output                                                           *)

(* Annex B: NAL units after start codes, with zeros before a start code and at the
   end.  (Units have no start codes inside, so a reader finds the units.) *)
Inductive byte_stream : list Z -> list (list Z) -> Prop :=
| bs_end k : byte_stream (repeat 0 k) []
| bs_unit k u l us : byte_stream l us -> byte_stream (repeat 0 k ++ [0; 0; 1] ++ u ++ l) (u :: us).

(* Object type, index of the rate, channels, and the length of the frame. *)
Definition parse_adts (h : list Z) : option (Z * Z * Z * Z) :=
  match h with
  | [255; 241; b2; b3; b4; b5; 252] =>
      if b5 mod 32 =? 31
      then Some (b2 / 64 + 1, b2 / 4 mod 16, b2 mod 2 * 4 + b3 / 64,
                 b3 mod 4 * 2048 + b4 * 8 + b5 / 32)
      else None
  | _ => None
  end.

Definition synch (l : list Z) : option Z :=
  match l with
  | [a; b; c; d] =>
      if (a <? 128) && (b <? 128) && (c <? 128) && (d <? 128)
      then Some (((a * 128 + b) * 128 + c) * 128 + d) else None
  | _ => None
  end.

(* An ID3 tag with one TEXT frame in UTF-8. *)
Definition parse_id3 (l : list Z) : option (list Z) :=
  match l with
  | 73 :: 68 :: 51 :: 4 :: 0 :: 0 :: a :: b :: c :: d ::
    84 :: 69 :: 88 :: 84 :: a' :: b' :: c' :: d' :: 0 :: 0 :: 3 :: text =>
      match synch [a; b; c; d], synch [a'; b'; c'; d'] with
      | Some n, Some m => if (n =? zlen text + 11) && (m =? zlen text + 1) then Some text else None
      | _, _ => None
      end
  | _ => None
  end.

(* e is the frame as it should be in the stream.  Video: a delimiter, the parameter
   sets before a key frame, and the units of the frame but for its delimiters. *)
Definition encodes (tp : top) (fr : iframe) (e : list Z) : Prop :=
  match tp with
  | TVideo v =>
      (forall us eus, nal_frame (vc_nal v) (data_of fr) us -> byte_stream (vc_extra v) eus ->
         byte_stream e ((if vc_mask v =? 31 then [9; 240] else [70; 1; 80]) ::
                        (if i_key fr then eus else []) ++ filter (fun u => negb (is_aud v u)) us)) /\
      (vc_nal v = 4%nat ->
         zlen e = zlen (vc_aud v) + (if i_key fr then zlen (vc_extra v) else 0) + i_size fr)
  | TAac a =>
      exists h, e = h ++ data_of fr /\
        parse_adts h = Some (ac_object a, ac_rate a, ac_chan a, zlen e)
  | TPlain => e = data_of fr
  | TId3 => parse_id3 e = Some (data_of fr)
  end.

(* Where frames begin, with pts and dts. *)
Fixpoint begins (off : Z) (l : list (iframe * Z)) (es : list (list Z)) : list (Z * (Z * Z)) :=
  match l, es with
  | (fr, d) :: l, e :: es => (off, (d + i_delay fr, d)) :: begins (off + zlen e) l es
  | _, _ => []
  end.

Definition marks_of (l : list (Z * (Z * Z))) : list (Z * Z) := map (fun x => (fst x, fst (snd x))) l.

Inductive sublist {A} : list A -> list A -> Prop :=
| sl_nil : sublist [] []
| sl_skip x a b : sublist a b -> sublist a (x :: b)
| sl_take x a b : sublist a b -> sublist (x :: a) (x :: b).

(* How many bytes the frames of a list that satisfy a condition have. *)
Fixpoint size_of (p : Z -> bool) (l : list (iframe * Z)) (es : list (list Z)) : Z :=
  match l, es with
  | (_, d) :: l, e :: es => (if p d then zlen e else 0) + size_of p l es
  | _, _ => 0
  end.
