(* The captions of a frame, as an encoder puts them there: H.264/H.265 NAL units with SEI
   messages, and ATSC A/53 captions in messages of type 4.
   Nothing here uses the functions of the model. *)
From Coq Require Import ZArith List Bool.
From Verif Require Import Bytes.
Import ListNotations.
Open Scope Z_scope.

(* ----- emulation prevention; z is the number of zeros before, up to 2 *)
Definition zeros (z : nat) (b : Z) : nat := if b =? 0 then Nat.min 2 (S z) else O.
(* a byte 3 is put before a byte up to 3 that follows two zeros *)
Fixpoint escape (z : nat) (l : list Z) : list Z :=
  match l with
  | [] => []
  | b :: r => if (z =? 2)%nat && (b <=? 3) then 3 :: b :: escape (zeros 0 b) r else b :: escape (zeros z b) r
  end.
Fixpoint unescape (z : nat) (l : list Z) : list Z :=
  match l with
  | [] => []
  | b :: r => if (z =? 2)%nat && (b =? 3) then unescape 0 r else b :: unescape (zeros z b) r
  end.

(* ----- SEI messages: type and payload *)
Definition ff (n : Z) : list Z := repeat 255 (Z.to_nat (n / 255)) ++ [n mod 255].
Definition message (m : Z * list Z) : list Z := ff (fst m) ++ ff (Z.of_nat (length (snd m))) ++ snd m.
Definition rbsp (ms : list (Z * list Z)) : list Z := concat (map message ms) ++ [128].

(* Captions: itu_t_t35 country and provider, user identifier GA94 and type 3, flags with the
   number of captions, em_data, three bytes for each caption, anything. *)
Definition cc_header : list Z := [181; 0; 49; 71; 65; 57; 52; 3].
Definition captions_of (p : list Z) : option (list Z) :=
  if list_eq_dec Z.eq_dec (firstn 8 p) cc_header then
    match skipn 8 p with
    | flags :: _ :: d =>
        let n := Z.to_nat (3 * Z.land flags 31) in
        if Z.testbit flags 6 && (0 <? Z.land flags 31) && (n <=? length d)%nat then Some (firstn n d) else None
    | _ => None
    end
  else None.
Definition captions (ms : list (Z * list Z)) : list (list Z) :=
  concat (map (fun m => if fst m =? 4 then match captions_of (snd m) with Some d => [d] | None => [] end else []) ms).

(* ----- NAL units and frames *)
Inductive unit_ := Sei (header : list Z) (ms : list (Z * list Z)) | Other (bytes : list Z).
Definition unit_bytes (u : unit_) : list Z :=
  match u with Sei h ms => h ++ escape 0 (rbsp ms) | Other d => d end.
Definition frame (size_bytes : nat) (us : list unit_) : list Z :=
  concat (map (fun u => be size_bytes (Z.of_nat (length (unit_bytes u))) ++ unit_bytes u) us).
Definition frame_captions (us : list unit_) : list (list Z) :=
  concat (map (fun u => match u with Sei _ ms => captions ms | Other _ => [] end) us).
(* the type of a unit: bits 0-4 of the first byte in H.264, bits 1-6 in H.265 *)
Definition avc_type (h : Z) : Z := h mod 32.
Definition hevc_type (h : Z) : Z := (h / 2) mod 64.

(* The captions of a message come with at most as many emulation prevention bytes in the
   message as there are bytes after the captions. *)
Definition room_for_escapes (p : list Z) : Prop :=
  forall d, captions_of p = Some d -> (10 + length d + (length (escape 0 p) - length p) <= length p)%nat.
Definition message_ok (m : Z * list Z) : Prop :=
  0 <= fst m < 2 ^ 32 /\ Z.of_nat (length (snd m)) < 2 ^ 32 /\ Forall is_byte (snd m) /\ room_for_escapes (snd m).
(* Units have a header of [hs] bytes, whose last byte is not 0 in SEI units, and their size
   fits. *)
Definition unit_ok (hs size_bytes : nat) (is_sei : Z -> bool) (u : unit_) : Prop :=
  Z.of_nat (length (unit_bytes u)) < 256 ^ Z.of_nat size_bytes
  /\ match u with
     | Sei h ms => length h = hs /\ Forall is_byte h /\ last h 0 <> 0 /\ is_sei (hd 0 h) = true /\ Forall message_ok ms
     | Other d => (hs <= length d)%nat /\ Forall is_byte d /\ is_sei (hd 0 d) = false
     end.

(* ----- the order of presentation *)
(* A frame: key frame or not, pts, captions.  A group starts at a key frame and at a frame that
   is after the start of the last group; groups do not overlap: no frame before the start of a
   group is presented after the start or a frame that follows it. *)
Definition timed_frame := (bool * Z * list (list Z))%type.
Fixpoint groups (start : Z) (before : list Z) (fs : list timed_frame) : Prop :=
  match fs with
  | [] => True
  | (key, pts, _) :: r =>
      if key || (start <? pts)
      then (forall p q, In p before -> In q (pts :: map (fun f => snd (fst f)) r) -> p <= q) /\ groups pts (before ++ [pts]) r
      else groups start (before ++ [pts]) r
  end.
Definition all_captions (fs : list timed_frame) : list (Z * list Z) :=
  concat (map (fun f => map (pair (snd (fst f))) (snd f)) fs).
Definition of_time (t : Z) (l : list (Z * list Z)) : list (Z * list Z) := filter (fun x => fst x =? t) l.

(* ----- reads of given sizes, up to the first that fails *)
Fixpoint pieces (text : list Z) (sizes : list nat) : list (option (list Z)) :=
  match sizes with
  | [] => []
  | n :: r => if (n <=? length text)%nat then Some (firstn n text) :: pieces (skipn n text) r else [None]
  end.

(* ----- the frames of a stream: key frame or not, pts, units *)
Definition stream_frame := (bool * Z * list unit_)%type.
Definition with_captions (f : stream_frame) : timed_frame := (fst f, frame_captions (snd f)).
