(* What a player with the key makes of a segment that is encrypted with the scheme cbcs
   (ISO/IEC 23001-7, 10.4): AES in the mode CBC with a constant vector.
     - Audio: all whole blocks of a frame are encrypted, what is left at the end is clear.
     - Video: in a slice the header is clear; of what follows one block out of ten is
       encrypted, as long as there is a whole block.
   Nothing here uses the functions of the model. *)
From Coq Require Import ZArith List Bool.
From Verif Require Import Bytes HlsSpec.
Import ListNotations.
Open Scope Z_scope.

Definition read_frame (D : list Z -> list Z) (iv x : list Z) : list Z :=
  let n := (16 * (length x / 16))%nat in
  cbc_decrypt D iv (in_blocks (firstn n x)) ++ skipn n x.

(* one block out of ten; n is at least the number of these *)
Fixpoint pattern (D : list Z -> list Z) (n : nat) (prev l : list Z) : list Z :=
  match n with
  | O => l
  | S n =>
      if (16 <=? length l)%nat
      then xor (D (firstn 16 l)) prev ++ firstn 144 (skipn 16 l)
             ++ pattern D n (firstn 16 l) (skipn 160 l)
      else l
  end.

(* a unit of which c bytes are clear *)
Definition read_unit (D : list Z -> list Z) (iv : list Z) (c : nat) (x : list Z) : list Z :=
  firstn c x ++ pattern D (length x) iv (skipn c x).

(* How much is clear: all of a unit that is not a slice or too small, the header of
   others.  The header of a slice is in its first 128 bytes. *)
Definition clear_size (slice : Z -> option bool) (hdr : list Z -> option nat) (u : list Z) : nat :=
  match slice (hd 0 u), hdr (firstn 128 u) with
  | Some true, Some h => if (18 <=? length u)%nat && (16 <=? length u - h)%nat then h else length u
  | _, _ => length u
  end.

(* A unit that can be encrypted: its parsers succeed, and the header is in the unit. *)
Definition good_unit (slice : Z -> option bool) (hdr : list Z -> option nat) (nl : nat) (mh : Z) (u : list Z) : Prop :=
  Forall is_byte u /\ mh <= Z.of_nat (length u) < 2 ^ 31 /\ Z.of_nat (length u) < 256 ^ Z.of_nat nl
  /\ exists b, slice (hd 0 u) = Some b
     /\ (b = true -> (18 <= length u)%nat -> exists h, hdr (firstn 128 u) = Some h /\ (1 <= h <= length (firstn 128 u))%nat).

(* A unit of one byte, or a slice that has no encrypted block and fits the 128 bytes. *)
Definition short_unit (slice : Z -> option bool) (hdr : list Z -> option nat) (u : list Z) : bool :=
  (length u =? 1)%nat ||
  match slice (hd 0 u), hdr (firstn 128 u) with
  | Some true, Some h => (18 <=? length u)%nat && (length u <=? 128)%nat && (length u - h <? 16)%nat
  | _, _ => false
  end.
