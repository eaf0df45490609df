(* What a player with the key makes of a segment encrypted by the scheme "cenc":
   ISO/IEC 23001-7, clauses 7 (sample encryption information), 9 (encryption in counter
   mode, subsamples) and 10.1, and ISO/IEC 14496-12, 8.7.8 and 8.7.9 (auxiliary
   information).  Nothing here uses the functions of the model but for the data of the
   input. *)

From Coq Require Import ZArith List Bool Lia.
From Verif Require Import Lists Bytes Fmp4Model Fmp4Spec CencModel.
Import ListNotations.
Open Scope Z_scope.

(* ------------------------------------------------------------------ *)
(* Counter mode                                                         *)

(* Byte i of the key stream of a sample: the counter is the initialization vector of 8
   bytes and the number of the block, in 8 bytes. *)
Definition key_byte (E : list Z -> list Z) (iv : list Z) (i : Z) : Z :=
  nth (Z.to_nat (i mod 16)) (E (iv ++ be 8 (i / 16))) 0.

Fixpoint ctr (E : list Z -> list Z) (iv : list Z) (i : Z) (l : list Z) : list Z :=
  match l with
  | [] => []
  | b :: l => Z.lxor b (key_byte E iv i) :: ctr E iv (i + 1) l
  end.

(* ------------------------------------------------------------------ *)
(* What says how the samples are encrypted                              *)

(* Of one sample: the initialization vector, and the subsamples, how many bytes are
   clear and how many follow that are encrypted; without subsamples all is
   encrypted. *)
Definition entry := (list Z * option (list (Z * Z)))%type.

Fixpoint subsamples (n : nat) (l : list Z) : option (list (Z * Z) * list Z) :=
  match n with
  | O => Some ([], l)
  | S n =>
      if 6 <=? zlen l then
        match subsamples n (skipn 6 l) with
        | Some (r, l') => Some ((unbe (slice 0 2 l), unbe (slice 2 4 l)) :: r, l')
        | None => None
        end
      else None
  end.

Definition read_entry (sub : bool) (l : list Z) : option (entry * list Z) :=
  if 8 <=? zlen l then
    if sub then
      if 10 <=? zlen l then
        match subsamples (Z.to_nat (unbe (slice 8 2 l))) (skipn 10 l) with
        | Some (r, l') => Some ((slice 0 8 l, Some r), l')
        | None => None
        end
      else None
    else Some ((slice 0 8 l, None), skipn 8 l)
  else None.

Fixpoint read_entries (sub : bool) (n : nat) (l : list Z) : option (list entry) :=
  match n with
  | O => match l with [] => Some [] | _ => None end
  | S n =>
      match read_entry sub l with
      | Some (e, l) =>
          match read_entries sub n l with Some r => Some (e :: r) | None => None end
      | None => None
      end
  end.

Definition SAIZ := [115; 97; 105; 122].
Definition SAIO := [115; 97; 105; 111].
Definition SENC := [115; 101; 110; 99].

(* By the senc box: bit 1 of the flags says that there are subsamples. *)
Definition by_senc (file : list Z) (moof : Z) (b : list Z) : option (list entry) :=
  match boxes b with
  | Some bs =>
      match named SENC bs with
      | [x] =>
          let p := b_body x in
          if 8 <=? zlen p then
            read_entries (Z.testbit (unbe (slice 0 4 p)) 1) (Z.to_nat (unbe (slice 4 4 p)))
              (skipn 8 p)
          else None
      | _ => None
      end
  | None => None
  end.

(* By saiz and saio: the sizes of the entries of the samples, one for all if it is not
   0, and where they are in the file, from the start of the moof box.  An entry of more
   than 8 bytes has subsamples. *)
Fixpoint cut_entries (file : list Z) (off : Z) (sizes : list Z) : option (list entry) :=
  match sizes with
  | [] => Some []
  | n :: sizes =>
      match read_entry (8 <? n) (slice off n file) with
      | Some (e, []) =>
          match cut_entries file (off + n) sizes with
          | Some r => Some (e :: r)
          | None => None
          end
      | _ => None
      end
  end.

Definition by_saiz (file : list Z) (moof : Z) (b : list Z) : option (list entry) :=
  match boxes b with
  | Some bs =>
      match named SAIZ bs, named SAIO bs with
      | [z], [o] =>
          let p := b_body z in
          let q := b_body o in
          let def := unbe (slice 4 1 p) in
          let count := Z.to_nat (unbe (slice 5 4 p)) in
          if (unbe (slice 0 4 p) =? 0) && (unbe (slice 0 4 q) =? 0) &&
             (unbe (slice 4 4 q) =? 1) && (zlen q =? 12)
          then
            if def =? 0
            then if zlen p =? 9 + Z.of_nat count
                 then cut_entries file (moof + unbe (slice 8 4 q)) (skipn 9 p)
                 else None
            else cut_entries file (moof + unbe (slice 8 4 q)) (repeat def count)
          else None
      | _, _ => None
      end
  | None => None
  end.

(* ------------------------------------------------------------------ *)
(* Decryption                                                           *)

(* The key stream goes on from one subsample to the next. *)
Fixpoint decrypt_subs (E : list Z -> list Z) (iv : list Z) (i : Z) (subs : list (Z * Z))
    (l : list Z) : option (list Z) :=
  match subs with
  | [] => match l with [] => Some [] | _ => None end
  | (c, e) :: subs =>
      if c + e <=? zlen l then
        match decrypt_subs E iv (i + e) subs (skipn (Z.to_nat (c + e)) l) with
        | Some r => Some (slice 0 c l ++ ctr E iv i (slice c e l) ++ r)
        | None => None
        end
      else None
  end.

Definition decrypt (E : list Z -> list Z) (e : entry) (l : list Z) : option (list Z) :=
  match snd e with
  | Some subs => decrypt_subs E (fst e) 0 subs l
  | None => Some (ctr E (fst e) 0 l)
  end.

Fixpoint decrypt_all (E : list Z -> list Z) (es : list entry) (l : list shown)
    : option (list shown) :=
  match es, l with
  | [], [] => Some []
  | e :: es, w :: l =>
      match decrypt E e (w_data w), decrypt_all E es l with
      | Some d, Some r => Some (Shown (w_pts w) (w_dur w) (w_sync w) d :: r)
      | _, _ => None
      end
  | _, _ => None
  end.

(* What is shown of the tracks of a segment (Fmp4Spec.demux), decrypted; info finds the
   entries of a track fragment. *)
Definition clear_demux (info : list Z -> Z -> list Z -> option (list entry))
    (E : list Z -> list Z) (file : list Z) : option (list (Z * list shown)) :=
  match boxes file with
  | Some bs =>
      match named MOOF bs, named MDAT bs with
      | [m], [_] =>
          match boxes (b_body m) with
          | Some ms =>
              all (fun x =>
                     match traf file (b_pos m) (b_body x), info file (b_pos m) (b_body x) with
                     | Some (id, l), Some es =>
                         match decrypt_all E es l with Some r => Some (id, r) | None => None end
                     | _, _ => None
                     end) (named TRAF ms)
          | None => None
          end
      | _, _ => None
      end
  | None => None
  end.

(* The entries of the tracks. *)
Definition entries_of (info : list Z -> Z -> list Z -> option (list entry)) (file : list Z)
    : option (list (list entry)) :=
  match boxes file with
  | Some bs =>
      match named MOOF bs with
      | [m] =>
          match boxes (b_body m) with
          | Some ms => all (fun x => info file (b_pos m) (b_body x)) (named TRAF ms)
          | None => None
          end
      | _ => None
      end
  | None => None
  end.

(* ------------------------------------------------------------------ *)
(* What was put in                                                      *)

(* The nal units of a frame; their lengths have nl bytes. *)
Fixpoint nals_from (fuel : nat) (nl : Z) (l : list Z) : option (list (list Z)) :=
  match l with
  | [] => Some []
  | _ =>
      match fuel with
      | O => None
      | S fuel =>
          let n := unbe (slice 0 nl l) in
          if (nl <? zlen l) && (1 <=? n) && (nl + n <=? zlen l) then
            match nals_from fuel nl (skipn (Z.to_nat (nl + n)) l) with
            | Some r => Some (slice nl n l :: r)
            | None => None
            end
          else None
      end
  end.
Definition nals (nl : Z) (l : list Z) : option (list (list Z)) := nals_from (length l) nl l.

(* The nal units with the data of slices: of AVC the types 1 to 5, of HEVC 0 to 31. *)
Definition slice_nal (cd : codec) (n : list Z) : bool :=
  match n with
  | [] => false
  | b :: _ =>
      match cd with
      | Avc => (1 <=? b mod 32) && (b mod 32 <=? 5)
      | Hevc => b / 2 mod 64 <? 32
      end
  end.

(* What has to be protected of a nal unit: of a slice all but the length and the type,
   of others nothing. *)
Definition protect (cd : codec) (nl : Z) (n : list Z) : Z * Z :=
  if slice_nal cd n then (nl + 1, zlen n - 1) else (nl + zlen n, 0).

Definition frame_data (mem : Z -> Z) (t : track) : list (list Z) :=
  map (fun p => let '(f, _, a) := p in bytes mem a (f_size f))
    (placed (t_dts t) (t_base t) (t_frames t)).

(* A frame of nal units: not 65536 of them, and others than slices smaller than
   65536 bytes with their length. *)
Definition good_frame (cd : codec) (nl : Z) (d : list Z) : Prop :=
  exists ns, nals nl d = Some ns /\ zlen ns < 65536 /\
    Forall (fun n => slice_nal cd n = false -> nl + zlen n < 65536) ns.

(* The segment is smaller than 256 MB. *)
Definition good_size (s : segm) : Prop :=
  fold_right (fun t n => 4 * sizes (t_frames t) + 200 * zlen (t_frames t) + n) 0 (s_tracks s) +
    zlen (s_meta s) + 400 < 2 ^ 30.

(* The last frame has data. *)
Definition ends_with_data (l : list fr) : Prop :=
  match rev l with f :: _ => 0 < f_size f | [] => True end.

(* The cipher. *)
Definition block_cipher (E : list Z -> list Z) : Prop :=
  forall b, length b = 16%nat -> length (E b) = 16%nat.
