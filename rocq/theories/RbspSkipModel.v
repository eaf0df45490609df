(* The fields that the parsers of parameter sets and slice headers skip:
   nginx-pckg-module/src/media/bit_read_stream.h and avc_hevc_parser.h. *)
From Coq Require Import ZArith List Bool.
From Verif Require Import Bytes NameModel RbspModel.
Import ListNotations.
Open Scope Z_scope.

(* read_stream_skip, read_stream.h:56-68, on the bytes from cur_pos on *)
Definition stream_skip (bytes : Z) (rest : list Z) (eof : bool) : list Z * bool :=
  if Z.of_nat (length rest) <? bytes then ([], true) else (skipn (Z.to_nat bytes) rest, eof).
(* signed char *)
Definition schar (x : Z) : Z := (x + 128) mod 256 - 128.
(* bit_read_stream_skip, bit_read_stream.h:44-58, with read_stream_get_byte, read_stream.h:27-36 *)
Definition skip (count : Z) (s : rd) : rd :=
  let bit := schar (r_bit s - (count - 1)) in
  if bit <? 0 then
    let skip_bytes := (- bit + 7) / 8 in
    let '(rest, eof) := stream_skip (skip_bytes - 1) (r_rest s) (r_eof s) in
    let '(c, rest, eof) := match rest with [] => (0, [], true) | c :: rest => (c, rest, eof) end in
    Rd rest eof c (schar (schar (bit + skip_bytes * 8) - 1))
  else Rd (r_rest s) (r_eof s) (r_cur s) (schar (bit - 1)).
(* bit_read_stream_skip_unsigned_exp, avc_hevc_parser.h:22-30 *)
Definition skip_unsigned_exp (s : rd) : rd :=
  let '(n, s) := zero_count (8 * length (r_rest s) + 9) s O in skip (Z.of_nat n) s.
(* avc_hevc_parser_ceil_log2, avc_hevc_parser.c:157-169; unsigned is 32 bits *)
Fixpoint ceil_loop (fuel : nat) (val result : Z) : Z :=
  match fuel with
  | O => result
  | S fuel => if val =? 0 then result else ceil_loop fuel (val / 2) (result + 1)
  end.
Definition ceil_log2 (val : Z) : Z := ceil_loop 32 ((val - 1) mod 2 ^ 32) 0.
