(* What a player with the key makes of an encrypted HLS segment.
     - AES-128 (RFC 8216, 4.3.2.4): the segment is encrypted with AES in the mode CBC,
       with the padding of PKCS #7 (RFC 5652, 6.3);
     - SAMPLE-AES: "MPEG-2 Stream Encryption Format for HTTP Live Streaming": the
       syntax of an encrypted NAL unit, and of an encrypted AAC, AC-3 or Enhanced AC-3
       frame;
     - emulation prevention: H.264, 7.3.1 and 7.4.1.
   Nothing here uses the functions of the model. *)
From Coq Require Import ZArith List Bool.
From Verif Require Import Bytes.
Import ListNotations.
Open Scope Z_scope.

(* A block cipher under a key: it maps blocks of 16 bytes to blocks, and D undoes E. *)
Definition is_block (l : list Z) : Prop := length l = 16%nat /\ Forall is_byte l.
Definition cipher (E D : list Z -> list Z) : Prop :=
  forall b, is_block b -> is_block (E b) /\ D (E b) = b.

Definition xor (a b : list Z) : list Z := map (fun p => Z.lxor (fst p) (snd p)) (combine a b).

(* The blocks of a text: all of 16 bytes but the last. *)
Fixpoint cut (n : nat) (l : list Z) : list (list Z) :=
  match n with
  | O => []
  | S n => match l with [] => [] | _ => firstn 16 l :: cut n (skipn 16 l) end
  end.
Definition in_blocks (l : list Z) : list (list Z) := cut (length l) l.

(* ----- AES-128 *)

(* CBC: each block is decrypted and combined with the encrypted block before it. *)
Fixpoint cbc_decrypt (D : list Z -> list Z) (prev : list Z) (bs : list (list Z)) : list Z :=
  match bs with [] => [] | b :: bs => xor (D b) prev ++ cbc_decrypt D b bs end.

(* The padding: the last byte says how many bytes there are, and all are the same. *)
Definition unpad (l : list Z) : option (list Z) :=
  let p := last l 0 in
  let n := (length l - Z.to_nat p)%nat in
  if (1 <=? p) && (p <=? 16) && (p <=? Z.of_nat (length l)) && forallb (Z.eqb p) (skipn n l)
  then Some (firstn n l) else None.

Definition decrypt_segment (D : list Z -> list Z) (iv l : list Z) : option (list Z) :=
  if (length l mod 16 =? 0)%nat then unpad (cbc_decrypt D iv (in_blocks l)) else None.

(* ----- emulation prevention *)

(* A byte 3 after two zeros is dropped; z is the number of zeros before. *)
Fixpoint unescape (z : nat) (l : list Z) : list Z :=
  match l with
  | [] => []
  | b :: l =>
      if (2 <=? z)%nat && (b =? 3) then unescape 0 l
      else b :: unescape (if b =? 0 then S z else O) l
  end.

(* Two zeros and a byte of at most 2: a start code, or what is not allowed inside of a
   NAL unit. *)
Definition no_start_code (l : list Z) : Prop :=
  forall a b c, l = a ++ [0; 0; b] ++ c -> 3 <= b.

(* ----- SAMPLE-AES, video *)

(* After 32 bytes that are clear: a block is encrypted if more than 16 bytes remain, and
   up to 144 bytes after it are clear.
     Encrypted_nal_unit () {
       nal_unit_type_byte; unencrypted_leader (31 bytes)
       while (bytes_remaining() > 0) {
         if (bytes_remaining() > 16) encrypted_block (16 bytes)
         unencrypted_block (MIN(144, bytes_remaining()) bytes)
       } } *)
Fixpoint nal_blocks (D : list Z -> list Z) (n : nat) (prev l : list Z) : list Z :=
  match n with
  | O => l
  | S n =>
      if (16 <? length l)%nat
      then xor (D (firstn 16 l)) prev ++ firstn 144 (skipn 16 l)
             ++ nal_blocks D n (firstn 16 l) (skipn 160 l)
      else l
  end.

(* Only slices (types 1 and 5) of more than 48 bytes are encrypted, and these have
   emulation prevention bytes after the encryption. *)
Definition read_nal (D : list Z -> list Z) (iv x : list Z) : list Z :=
  let t := Z.land (hd 0 x) 31 in
  if ((t =? 1) || (t =? 5)) && (48 <? Z.of_nat (length x)) then
    let u := unescape 0 x in firstn 32 u ++ nal_blocks D (length u) iv (skipn 32 u)
  else x.

(* ----- SAMPLE-AES, audio *)

(* 16 bytes are clear, then all whole blocks are encrypted, with one chain of blocks over
   the frame; the vector is the result of the last one *)
Definition read_audio (D : list Z -> list Z) (prev x : list Z) : list Z :=
  let n := (16 * ((length x - 16) / 16))%nat in
  firstn 16 x ++ cbc_decrypt D prev (in_blocks (firstn n (skipn 16 x))) ++ skipn n (skipn 16 x).

(* A frame of Enhanced AC-3 is a sequence of sync frames.  Each one starts with 16 clear
   bytes; the chain of blocks goes on over the sync frames. *)
Definition last_block (prev x : list Z) : list Z :=
  let n := (16 * ((length x - 16) / 16))%nat in
  last (in_blocks (firstn n (skipn 16 x))) prev.
Fixpoint read_sync (D : list Z -> list Z) (prev : list Z) (xs : list (list Z)) : list Z :=
  match xs with [] => [] | x :: xs => read_audio D prev x ++ read_sync D (last_block prev x) xs end.

(* The sync word 0x0b77, and in 11 bits after 5 the size in words of 16 bits less one;
   there is at least a header of 7 bytes. *)
Definition sync_frame (x : list Z) : Prop :=
  exists b c r, x = 11 :: 119 :: b :: c :: r
    /\ Z.of_nat (length x) = 2 * ((b mod 8) * 256 + c + 1) /\ (7 <= length x)%nat.

(* ----- a frame of AVC, as it is stored *)
(* NAL units with their size before, in n bytes *)
Definition stored (n : nat) (us : list (list Z)) : list Z :=
  flat_map (fun u => be n (Z.of_nat (length u)) ++ u) us.
Definition delimiter (u : list Z) : bool := Z.land (hd 0 u) 31 =? 9.

(* a unit that is encrypted if it is large enough *)
Definition coded_slice (u : list Z) : bool := (Z.land (hd 0 u) 31 =? 1) || (Z.land (hd 0 u) 31 =? 5).

(* The same units in a byte stream (H.264, annex B), each after a start code: first a
   delimiter, then the parameter sets of a key frame. *)
Definition byte_stream (extra : list Z) (key : bool) (xs : list (list Z)) : list Z :=
  [0; 0; 0; 1; 9; 240] ++ (if key then extra else []) ++
  match xs with
  | [] => []
  | x :: xs => [0; 0; 0; 1] ++ x ++ flat_map (fun x => [0; 0; 1] ++ x) xs
  end.
