(* What the parsers of parameter sets and slice headers of H.264 and H.265 read with:
   nginx-pckg-module/src/media/avc_hevc_parser.c and avc_hevc_parser.h, over the bit reader of
   NameModel.v.  Left out: allocation failures. *)
From Coq Require Import ZArith List Bool.
From Verif Require Import Bytes NameModel.
Import ListNotations.
Open Scope Z_scope.

(* avc_hevc_parser_emulation_prevention_decode, avc_hevc_parser.c:92-155.  The search, lines
   107-114. *)
Fixpoint requires_strip (l : list Z) : bool :=
  match l with
  | a :: ((b :: c :: _) as l1) => if (a =? 0) && (b =? 0) && (c =? 3) then true else requires_strip l1
  | _ => false
  end.
(* the copy, lines 132-151 *)
Fixpoint strip (l : list Z) : list Z :=
  match l with
  | a :: l1 =>
      match l1 with
      | b :: c :: l2 => if (a =? 0) && (b =? 0) && (c =? 3) then 0 :: 0 :: strip l2 else a :: strip l1
      | _ => a :: strip l1
      end
  | [] => []
  end.
(* the whole of it: the bytes that the reader is for *)
Definition prevention_decode (l : list Z) : list Z := if requires_strip l then strip l else l.

(* avc_hevc_parser_emulation_prevention_encode_bytes, avc_hevc_parser.c:72-90 *)
Fixpoint encode_bytes (l : list Z) : Z :=
  match l with
  | a :: l1 =>
      match l1 with
      | b :: c :: l2 => if (a =? 0) && (b =? 0) && (c <=? 3) then 1 + encode_bytes l2 else encode_bytes l1
      | _ => 0
      end
  | [] => 0
  end.

(* the loop over the zeros of a code, avc_hevc_parser.h:38 *)
Fixpoint zero_count (fuel : nat) (s : rd) (n : nat) : nat * rd :=
  match fuel with
  | O => (n, s)
  | S fuel => let '(b, s) := get_one s in
      if (b =? 0) && negb (r_eof s) then zero_count fuel s (S n) else (n, s)
  end.
(* bit_read_stream_get_unsigned_exp, avc_hevc_parser.h:33-41.  None: undefined, the int 1 is
   shifted into or beyond its sign.  The loop ends with the bytes. *)
Definition unsigned_exp (s : rd) : option (Z * rd) :=
  let '(n, s) := zero_count (8 * length (r_rest s) + 9) s O in
  if (31 <=? n)%nat then None
  else let '(x, s) := get n s in Some ((2 ^ Z.of_nat n - 1 + x) mod 2 ^ 32, s).
(* bit_read_stream_get_signed_exp, avc_hevc_parser.h:44-60; the values fit into 31 bits *)
Definition signed_exp (s : rd) : option (Z * rd) :=
  match unsigned_exp s with
  | None => None
  | Some (v, s) =>
      Some (if 0 <? v then if Z.testbit v 0 then (v + 1) / 2 else - (v / 2) else v, s)
  end.
