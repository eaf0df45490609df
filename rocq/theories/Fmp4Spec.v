(* What a player makes of a fragmented mp4 segment, by ISO/IEC 14496-12: the boxes
   (4.2), track fragment headers (8.8.7), decode times (8.8.12) and track runs (8.8.8).
   Nothing here uses the functions of the model but for the data of the input. *)

From Coq Require Import ZArith List Bool Lia.
From Verif Require Import Lists Bytes Fmp4Model.
Import ListNotations.
Open Scope Z_scope.

(* ------------------------------------------------------------------ *)
(* Boxes                                                                *)

Definition slice (off n : Z) (l : list Z) : list Z := firstn (Z.to_nat n) (skipn (Z.to_nat off) l).

(* A box is its place in the file, its name and what is in it. *)
Definition box := (Z * list Z * list Z)%type.
Definition b_pos (b : box) : Z := fst (fst b).
Definition b_name (b : box) : list Z := snd (fst b).
Definition b_body (b : box) : list Z := snd b.

(* The boxes that l consists of; l starts at pos. *)
Fixpoint boxes_from (fuel : nat) (pos : Z) (l : list Z) : option (list box) :=
  match l with
  | [] => Some []
  | _ =>
      match fuel with
      | O => None
      | S fuel =>
          let size := unbe (slice 0 4 l) in
          if (8 <=? size) && (size <=? zlen l) then
            match boxes_from fuel (pos + size) (skipn (Z.to_nat size) l) with
            | Some bs => Some ((pos, slice 4 4 l, slice 8 (size - 8) l) :: bs)
            | None => None
            end
          else None
      end
  end.
Definition boxes (l : list Z) : option (list box) := boxes_from (length l) 0 l.

Definition name_eqb (a b : list Z) : bool :=
  if list_eq_dec Z.eq_dec a b then true else false.
Definition named (n : list Z) (bs : list box) : list box :=
  filter (fun b => name_eqb (b_name b) n) bs.

Definition MOOF := [109; 111; 111; 102].
Definition MDAT := [109; 100; 97; 116].
Definition TRAF := [116; 114; 97; 102].
Definition TFHD := [116; 102; 104; 100].
Definition TFDT := [116; 102; 100; 116].
Definition TRUN := [116; 114; 117; 110].
Definition SIDX := [115; 105; 100; 120].

(* ------------------------------------------------------------------ *)
(* Samples                                                              *)

(* A sample of a run: where it is in the file, its size, duration and flags, and what
   is added to its decode time. *)
Record sample := Sample { m_at : Z; m_size : Z; m_dur : Z; m_flags : option Z; m_cts : Z }.

Definition signed (v : Z) : Z := if v <? 2 ^ 31 then v else v - 2 ^ 32.

(* One field that may be missing. *)
Definition field (present : bool) (l : list Z) : option (option Z * list Z) :=
  if present then
    if 4 <=? zlen l then Some (Some (unbe (firstn 4 l)), skipn 4 l) else None
  else Some (None, l).

(* The samples of a run of n: duration, size, flags and composition time offset, the
   flags of the box say which; duration and size are always needed here. *)
Fixpoint run_samples (v1 : bool) (flags at_ : Z) (n : nat) (l : list Z) : option (list sample) :=
  match n with
  | O => match l with [] => Some [] | _ => None end
  | S n =>
      match field (Z.testbit flags 8) l with
      | Some (Some d, l) =>
          match field (Z.testbit flags 9) l with
          | Some (Some z, l) =>
              match field (Z.testbit flags 10) l with
              | Some (fl, l) =>
                  match field (Z.testbit flags 11) l with
                  | Some (c, l) =>
                      match run_samples v1 flags (at_ + z) n l with
                      | Some r =>
                          let c := match c with Some c => if v1 then signed c else c | None => 0 end in
                          Some (Sample at_ z d fl c :: r)
                      | None => None
                      end
                  | None => None
                  end
              | None => None
              end
          | _ => None
          end
      | _ => None
      end
  end.

(* A run: the version is the first byte; there must be a data offset and no flags for
   the first sample only.  moof is where the moof box starts. *)
Definition run (moof : Z) (b : list Z) : option (list sample) :=
  let flags := unbe (slice 1 3 b) in
  if (12 <=? zlen b) && Z.testbit flags 0 && negb (Z.testbit flags 2) then
    run_samples (unbe (slice 0 1 b) =? 1) flags (moof + signed (unbe (slice 8 4 b)))
      (Z.to_nat (unbe (slice 4 4 b))) (skipn 12 b)
  else None.

Fixpoint all {A B} (f : A -> option B) (l : list A) : option (list B) :=
  match l with
  | [] => Some []
  | a :: l =>
      match f a, all f l with Some b, Some r => Some (b :: r) | _, _ => None end
  end.

(* What is shown: when, for how long, whether decoding can start there (nothing if the
   flags are not there), and the bytes. *)
Record shown := Shown { w_pts : Z; w_dur : Z; w_sync : option bool; w_data : list Z }.

(* The samples of a track one after the other from time t. *)
Fixpoint play (file : list Z) (t : Z) (l : list sample) : list shown :=
  match l with
  | [] => []
  | m :: l =>
      Shown (t + m_cts m) (m_dur m) (option_map (fun f => negb (Z.testbit f 16)) (m_flags m))
        (slice (m_at m) (m_size m) file) :: play file (t + m_dur m) l
  end.

(* A track fragment: the id of the track and what is shown.  tfhd must say that the
   offsets are relative to the moof box and have no other defaults but the index of the
   sample description; tfdt has a time of 64 bits. *)
Definition traf (file : list Z) (moof : Z) (b : list Z) : option (Z * list shown) :=
  match boxes b with
  | Some bs =>
      match named TFHD bs, named TFDT bs, all (fun x => run moof (b_body x)) (named TRUN bs) with
      | [h], [d], Some rs =>
          let fl := unbe (slice 0 4 (b_body h)) in
          if ((fl =? 131074) || (fl =? 131072)) && (unbe (slice 0 4 (b_body d)) =? 16777216)
          then Some (unbe (slice 4 4 (b_body h)),
                     play file (unbe (slice 4 8 (b_body d))) (concat rs))
          else None
      | _, _, _ => None
      end
  | None => None
  end.

(* A segment: one moof, one mdat. *)
Definition demux (file : list Z) : option (list (Z * list shown)) :=
  match boxes file with
  | Some bs =>
      match named MOOF bs, named MDAT bs with
      | [m], [_] =>
          match boxes (b_body m) with
          | Some ms => all (fun x => traf file (b_pos m) (b_body x)) (named TRAF ms)
          | None => None
          end
      | _, _ => None
      end
  | None => None
  end.

(* ------------------------------------------------------------------ *)
(* What was put in                                                      *)

Definition sizes (l : list fr) : Z := fold_right (fun f n => f_size f + n) 0 l.
Definition durations (l : list fr) : Z := fold_right (fun f n => f_dur f + n) 0 l.

(* The frames of a track with their time and where they are in memory. *)
Fixpoint placed (t a : Z) (l : list fr) : list (fr * Z * Z) :=
  match l with
  | [] => []
  | f :: l => (f, t, a) :: placed (t + f_dur f) (a + f_size f) l
  end.

(* What should be shown of a track.  pts_delay of a frame of subtitles is how long it
   is shown. *)
Definition expected (mem : Z -> Z) (t : track) : list shown :=
  map (fun p =>
         let '(f, d, a) := p in
         let data := bytes mem a (f_size f) in
         match t_type t with
         | Video => Shown (d + f_delay f) (f_dur f) (Some (f_key f)) data
         | Audio => Shown d (f_dur f) None data
         | Webvtt => Shown d (f_delay f) None data
         end)
    (placed (t_dts t) (t_base t) (t_frames t)).

Definition is_u32 (v : Z) : Prop := 0 <= v < 2 ^ 32.

Definition first_delay (l : list fr) : Z := match l with f :: _ => f_delay f | [] => 0 end.

Definition good_track (t : track) : Prop :=
  Forall (fun f => is_u32 (f_size f) /\ is_u32 (f_dur f) /\ is_u32 (f_delay f)) (t_frames t) /\
  sizes (t_frames t) <= t_len t /\
  match t_type t with
  | Video =>
      Forall (fun f => - 2 ^ 31 <= f_delay f - first_delay (t_frames t) < 2 ^ 31) (t_frames t) /\
      0 <= t_dts t + first_delay (t_frames t) < 2 ^ 63
  | Audio => 0 <= t_dts t < 2 ^ 63
  | Webvtt => 0 <= t_dts t < 2 ^ 63 /\ (length (t_frames t) <= 1)%nat
  end.

(* The segment is smaller than 2 GB: the header has less than 200 bytes for each track
   and for each frame, and 200 more with the metadata. *)
Definition good_segm (s : segm) : Prop :=
  Forall good_track (s_tracks s) /\
  fold_right (fun t n => sizes (t_frames t) + 200 * zlen (t_frames t) + 200 + n) 0 (s_tracks s) +
    zlen (s_meta s) + 200 < 2 ^ 31.

(* The segment index: what it says of the size, the time and the duration of what
   follows. *)
Definition sidx_says (file : list Z) : option (Z * Z * Z) :=
  match boxes file with
  | Some bs =>
      match named SIDX bs with
      | [b] =>
          let p := b_body b in
          if unbe (slice 0 1 p) =? 0
          then Some (unbe (slice 24 4 p), unbe (slice 12 4 p), unbe (slice 28 4 p))
          else Some (unbe (slice 32 4 p), unbe (slice 12 8 p), unbe (slice 36 4 p))
      | _ => None
      end
  | None => None
  end.

(* Timed metadata: an event message (ISO/IEC 23009-1, 5.10.3.3, version 1): time scale,
   time, id, and the two strings that say what is in it; then an ID3 tag with one frame,
   whose lengths have 7 bits in a byte. *)
Definition EMSG := [101; 109; 115; 103].

Fixpoint cstring (l : list Z) : option (list Z * list Z) :=
  match l with
  | [] => None
  | b :: l =>
      if b =? 0 then Some ([], l)
      else match cstring l with Some (s, r) => Some (b :: s, r) | None => None end
  end.

Definition base128 (l : list Z) : Z := fold_left (fun a b => a * 128 + b) l 0.

(* The text of a tag of one TEXT frame in UTF-8. *)
Definition id3_text_of (l : list Z) : option (list Z) :=
  let n := base128 (slice 6 4 l) in
  let m := base128 (slice 14 4 l) in
  if name_eqb (slice 0 3 l) [73; 68; 51] && (zlen l =? 10 + n) &&
     name_eqb (slice 10 4 l) [84; 69; 88; 84] && (n =? 10 + m) && name_eqb (slice 20 1 l) [3]
  then Some (slice 21 (m - 1) l) else None.

(* "https://developer.apple.com/streaming/emsg-id3" *)
Definition id3_scheme : list Z :=
  [104; 116; 116; 112; 115; 58; 47; 47; 100; 101; 118; 101; 108; 111; 112; 101; 114; 46;
   97; 112; 112; 108; 101; 46; 99; 111; 109; 47; 115; 116; 114; 101; 97; 109; 105; 110;
   103; 47; 101; 109; 115; 103; 45; 105; 100; 51].

(* The id, the time, its scale, and the text. *)
Definition event_says (file : list Z) : option (Z * Z * Z * list Z) :=
  match boxes file with
  | Some bs =>
      match named EMSG bs with
      | [b] =>
          let p := b_body b in
          if unbe (slice 0 4 p) =? 16777216 then
            match cstring (skipn 24 p) with
            | Some (scheme, r) =>
                match cstring r with
                | Some (_, r) =>
                    match id3_text_of r with
                    | Some text =>
                        if name_eqb scheme id3_scheme
                        then Some (unbe (slice 20 4 p), unbe (slice 8 8 p), unbe (slice 4 4 p), text)
                        else None
                    | None => None
                    end
                | None => None
                end
            | None => None
            end
          else None
      | _ => None
      end
  | None => None
  end.
