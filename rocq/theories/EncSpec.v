(* The messages that an RTMP server is expected to get from an upstream: the
   connect command, the chunk size, and then for every event its messages,
   complete and with the right times.  Written from the RTMP and FLV formats.
   Only the types of the events come from the model. *)

From Coq Require Import List ZArith Bool.
From Verif Require Import Lists Bytes RtmpSpec EncModel.
Import ListNotations.
Open Scope Z_scope.

(* an open stream: has its metadata been sent, which sound does it have, when
   was the last onfi message *)
Record xst := XSt {
  y_open : bool;
  y_meta : bool;
  y_sound : Z;
  y_onfi : Z
}.

(* FLV: the frame type and the codec of a video packet *)
Definition flv_key (flags : Z) : Z := if Z.odd flags then 1 else 2.
Definition flv_avc (frame_type packet delay : Z) : list Z := [frame_type * 16 + 7; packet] ++ be 3 delay.
(* "hvc1" *)
Definition flv_hvc (frame_type packet : Z) : list Z := [128 + frame_type * 16 + packet; 104; 118; 99; 49].

(* FLV: the format, rate, size and channels of a sound *)
Definition flv_sound (codec rate bits channels : Z) : Z :=
  (codec - 1000) * 16
  + (if rate <=? 8000 then 0 else if rate <=? 16000 then 1 else if rate <=? 32000 then 2 else 3) * 4
  + (if bits =? 8 then 0 else 1) * 2
  + (if channels =? 1 then 0 else 1).

Definition flv_packet (c : codec) (sound : Z) (f : frame) : list Z :=
  match c with
  | H264 => flv_avc (flv_key (f_flags f)) 1 (f_pts_delay f)
  | H265 => flv_hvc (flv_key (f_flags f)) 1 ++ be 3 (f_pts_delay f)
  | MP3 => [sound]
  | AAC => [sound; 1]
  end ++ concat (f_data f).

(* message stream k is sent on chunk stream k + 3 *)
Definition on_stream (k : Z) (time type : Z) (body : list Z) : smsg := SMsg (k + 3) time type k body.
Definition command (body : list Z) : smsg := SMsg 3 0 20 0 body.

Definition expect_op (cf : ecfg) (x : list xst) (op : eop) : list xst * list smsg :=
  let with_stream (k : nat) (f : xst -> xst * list smsg) :=
    match nth_error x k with
    | Some y => if y_open y then let '(y1, m) := f y in (set_nth x k y1, m) else (x, [])
    | None => (x, [])
    end in
  match op with
  | EOpen rel fcp cre pub =>
      (x ++ [XSt true false 0 0],
       [command rel; command fcp; command cre; on_stream (Z.of_nat (length x) + 1) 0 20 pub])
  | EInfo k codec rate bits channels =>
      with_stream k (fun y => (XSt true (y_meta y) (flv_sound codec rate bits channels) (y_onfi y), []))
  | EMeta k meta v a =>
      with_stream k (fun y =>
        if y_meta y then (y, [])
        else (XSt true true (y_sound y) (y_onfi y),
              let s := Z.of_nat k + 1 in
              [on_stream s 0 18 meta] ++
              match v with
              | VNone => []
              | VAvc e => [on_stream s 0 9 (flv_avc 1 0 0 ++ e)]
              | VHevc e => [on_stream s 0 9 (flv_hvc 1 0 ++ e)]
              end ++
              match a with
              | AAac e => [on_stream s 0 8 ([y_sound y; 0] ++ e)]
              | _ => []
              end))
  | EFrame k f c =>
      with_stream k (fun y =>
        if y_meta y then
          let s := Z.of_nat k + 1 in
          let m := on_stream s (u32 (f_dts f)) (match c with H264 | H265 => 9 | MP3 | AAC => 8 end) (flv_packet c (y_sound y) f) in
          if (0 <? ec_period cf) && ((f_created f <? y_onfi y) || (y_onfi y + ec_period cf <=? f_created f)) then
            (XSt true true (y_sound y) (f_created f), [m; on_stream s (u32 (f_dts f)) 18 (ec_onfi cf (f_created f))])
          else (y, [m])
        else (y, []))
  | EClose k fc del =>
      with_stream k (fun y => (XSt false (y_meta y) (y_sound y) (y_onfi y), [command fc; command del]))
  end.

Fixpoint expect_ops (cf : ecfg) (x : list xst) (ops : list eop) : list smsg :=
  match ops with
  | [] => []
  | op :: r => let '(x1, m) := expect_op cf x op in m ++ expect_ops cf x1 r
  end.

Definition expect (cf : ecfg) (connect : list Z) (ops : list eop) : list smsg :=
  command connect :: SMsg 2 0 1 0 (be 4 (ec_chunk cf)) :: expect_ops cf [] ops.

(* ---- what the events may look like ---- *)

(* a message has a byte at least, and room for the number of its bytes; room is
   what the header of a packet needs *)
Definition body_ok (max room : Z) (l : list Z) : Prop :=
  Forall is_byte l /\ 0 < room + zlen l < 2 ^ 24 /\ room + zlen l <= max.

Definition eop_ok (max : Z) (op : eop) : Prop :=
  match op with
  | EOpen rel fcp cre pub => body_ok max 0 rel /\ body_ok max 0 fcp /\ body_ok max 0 cre /\ body_ok max 0 pub
  | EInfo _ codec rate bits channels => codec = 1002 \/ codec = 1010
  | EMeta _ meta v a =>
      body_ok max 0 meta /\
      match v with VNone => True | VAvc e | VHevc e => body_ok max 5 e end /\
      match a with AAac e => body_ok max 2 e | _ => True end
  | EFrame _ f c => f_data f <> [] /\ body_ok max 8 (concat (f_data f))
  | EClose _ fc del => body_ok max 0 fc /\ body_ok max 0 del
  end.

Definition opens (ops : list eop) : Z :=
  zlen (flat_map (fun op => match op with EOpen _ _ _ _ => [0] | _ => [] end) ops).

Definition ecfg_ok (max : Z) (cf : ecfg) : Prop :=
  128 <= ec_chunk cf <= 10485760 /\ forall t, body_ok max 0 (ec_onfi cf t).
