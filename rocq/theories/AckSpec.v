(* What the ack maps of the transcoder should say. *)
From Coq Require Import List ZArith Bool.
From Verif Require Import AckModel.
Import ListNotations.
Local Open Scope Z_scope.

Definition zsum (l : list Z) : Z := fold_right Z.add 0 l.

(* The durations of all the frames added so far, in order; frame [id + i] has
   duration number i.  Samples before frame [fd]: *)
Definition samples_before (id : Z) (ds : list Z) (fd : Z) : Z :=
  zsum (firstn (Z.to_nat (fd - id)) ds).
Definition duration (id : Z) (ds : list Z) (fd : Z) : Z :=
  nth (Z.to_nat (fd - id)) ds 0.

(* Histories of a FrameHistory with initial id [id].  Frame ids increase; ids that
   are skipped are lost frames, with no samples.  [first] is the id passed with the
   first frame: [id] for the input, [id + 1] for the output, whose caller passes
   the id after the frame (audioAckMap.cpp:225). *)
Inductive reach (e id : Z) : history -> list Z -> Prop :=
| r_new : reach e id (hist_new id) []
| r_first : forall dur h', 0 < dur ->
    add_frame (hist_new id) (id + e) dur = AOk h' -> reach e id h' [dur]
| r_add : forall h ds fd dur h',
    reach e id h ds -> ds <> [] -> h_last h < fd < 2 ^ 64 - 1 -> fd - h_last h < 2 ^ 31 -> 0 <= dur ->
    add_frame h fd dur = AOk h' ->
    reach e id h' (ds ++ repeat 0 (Z.to_nat (fd - h_last h - 1)) ++ [dur])
| r_remove : forall h ds fd,
    reach e id h ds -> reach e id (remove_frames h fd) ds.

(* Histories of an audio ack map, with the durations of all input and all output
   frames, and the acks answered: output id and input id.  The filter may report any frames, as long as no correction of the
   output durations results (the last premise of ra_out). *)
Inductive areach (id_in id_out : Z) : amap -> list Z -> list Z -> list (Z * Z) -> Prop :=
| ra_new : areach id_in id_out (audio_new id_in id_out) [] [] []
| ra_first : forall m dout acks dur m', areach id_in id_out m [] dout acks -> 0 < dur ->
    audio_in m id_in dur = AOk m' -> areach id_in id_out m' [dur] dout acks
| ra_in : forall m din dout acks fd dur m', areach id_in id_out m din dout acks -> din <> [] ->
    h_last (a_in m) < fd < 2 ^ 64 - 1 -> fd - h_last (a_in m) < 2 ^ 31 -> 0 <= dur ->
    audio_in m fd dur = AOk m' ->
    areach id_in id_out m' (din ++ repeat 0 (Z.to_nat (fd - h_last (a_in m) - 1)) ++ [dur]) dout acks
| ra_filtered : forall m din dout acks id n, areach id_in id_out m din dout acks ->
    areach id_in id_out (audio_filtered m id n) din dout acks
| ra_out : forall m din dout acks n m' t, areach id_in id_out m din dout acks -> 0 < n ->
    h_last (a_out m) + 1 < 2 ^ 64 - 1 ->
    audio_out m n = AOk (m', t) ->
    add_frame (a_out m) (h_last (a_out m) + 1) n = AOk (a_out m') ->
    areach id_in id_out m' din (dout ++ [n]) acks
| ra_ack : forall m din dout acks ack fid rem m', areach id_in id_out m din dout acks ->
    audio_map m ack = AOk (fid, rem, m') -> areach id_in id_out m' din dout (acks ++ [(ack, fid)]).

(* Frame [fid] and [rem] samples are the position of sample [off]: [fid] is the
   first frame that starts at [off], or the frame [off] is inside of *)
Definition position (id : Z) (ds : list Z) (off fid rem : Z) : Prop :=
  samples_before id ds fid + rem = off /\ 0 <= rem /\
  (rem = 0 \/ rem < duration id ds fid).

(* ---- video ---- *)

(* Histories of a video ack map with what the caller did: input frames (id, pts,
   key), output key frames (id, pts), and the acks answered. *)
Inductive vreach (id0 : Z) : vmap -> list (Z * Z * bool) -> list (Z * Z) -> list (Z * Z) -> Prop :=
| vr_new : vreach id0 (video_new id0) [] [] []
| vr_in : forall m ins outs acks id pts key,
    vreach id0 m ins outs acks ->
    (forall i p k, In (i, p, k) ins -> i < id) -> id0 <= id -> id < 2 ^ 64 ->
    vreach id0 (video_in m id pts key) (ins ++ [(id, pts, key)]) outs acks
| vr_out : forall m ins outs acks id pts key m',
    vreach id0 m ins outs acks ->
    video_out m id pts key = AOk m' ->
    vreach id0 m' ins (if key then outs ++ [(id, pts)] else outs) acks
| vr_ack : forall m ins outs acks ack id off m',
    vreach id0 m ins outs acks ->
    video_map m ack = AOk (id, off, m') ->
    vreach id0 m' ins outs (acks ++ [(ack, id)]).

(* the last key frame at or before an input frame *)
Fixpoint last_key (id0 : Z) (ins : list (Z * Z * bool)) (id : Z) : Z :=
  match ins with
  | [] => id0
  | (i, _, k) :: r => last_key (if k && (i <=? id) then i else id0) r id
  end.

Definition close (p q : Z) : Prop := Z.abs (s64 (p - q)) < sigma.

(* what the caller did, as a program, to build example histories *)
Inductive vop := VIn (id pts : Z) (key : bool) | VOut (id pts : Z) (key : bool) | VAck (id : Z).
Fixpoint vrun (m : vmap) (ins : list (Z * Z * bool)) (outs acks : list (Z * Z)) (ops : list vop)
  : option (vmap * list (Z * Z * bool) * list (Z * Z) * list (Z * Z)) :=
  match ops with
  | [] => Some (m, ins, outs, acks)
  | VIn id pts key :: r => vrun (video_in m id pts key) (ins ++ [(id, pts, key)]) outs acks r
  | VOut id pts key :: r =>
      match video_out m id pts key with
      | AOk m' => vrun m' ins (if key then outs ++ [(id, pts)] else outs) acks r
      | _ => None
      end
  | VAck id :: r =>
      match video_map m id with
      | AOk (i, _, m') => vrun m' ins outs (acks ++ [(id, i)]) r
      | _ => None
      end
  end.

(* The calls a transcoder makes on an audio ack map: a frame goes into the filter,
   the filter reports a frame, the encoder gives a frame, an ack arrives.  The log
   of the answers; a call that throws leaves the map as it was, but for addOut. *)
Inductive aop := AIn (id n : Z) | AFilt (id n : Z) | AOut (n : Z) | AAck (id : Z).
Fixpoint arun (m : amap) (acks : list (Z * Z)) (ops : list aop) : ares (amap * list (Z * Z)) :=
  match ops with
  | [] => AOk (m, acks)
  | AIn id n :: r =>
      match audio_in m id n with AOk m' => arun m' acks r | AThrow => arun m acks r | AUB => AUB end
  | AFilt id n :: r => arun (audio_filtered m (Some id) n) acks r
  | AOut n :: r =>
      match audio_out m n with AOk (m', _) => arun m' acks r | AThrow => arun m acks r | AUB => AUB end
  | AAck id :: r =>
      match audio_map m id with
      | AOk (i, _, m') => arun m' (acks ++ [(id, i)]) r
      | AThrow => arun m (acks ++ [(id, id)]) r
      | AUB => AUB
      end
  end.
