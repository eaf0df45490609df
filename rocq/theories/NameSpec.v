(* Codec names (RFC 6381, ISO/IEC 14496-15 annex E).  Nothing here uses the functions of the
   model. *)
From Coq Require Import ZArith List Bool.
From Verif Require Import Bytes.
Import ListNotations.
Open Scope Z_scope.

(* a number in decimal digits, or in lower case hexadecimal digits, without leading zeros *)
Definition digit_value (c : Z) : Z := if c <? 58 then c - 48 else c - 87.
Definition digit_ok (base c : Z) : Prop := (48 <= c <= 57 \/ 97 <= c <= 102) /\ digit_value c < base.
Definition number_text (base n : Z) (l : list Z) : Prop :=
  l <> [] /\ Forall (digit_ok base) l /\ fold_left (fun v c => v * base + digit_value c) l 0 = n /\ (hd 0 l = 48 -> l = [48]).
(* two hexadecimal digits *)
Definition hex_char (n : Z) : Z := nth (Z.to_nat n) [48; 49; 50; 51; 52; 53; 54; 55; 56; 57; 97; 98; 99; 100; 101; 102] 0.
Definition hex2 (b : Z) : list Z := [hex_char (b / 16); hex_char (b mod 16)].

(* the bits of a 32 bit number in reverse order *)
Definition reversed32 (n m : Z) : Prop := 0 <= m < 2 ^ 32 /\ forall i, 0 <= i < 32 -> Z.testbit m i = Z.testbit n (31 - i).
(* without the zeros at the end *)
Fixpoint strip (l : list Z) : list Z :=
  match l with [] => [] | b :: r => if forallb (Z.eqb 0) (b :: r) then [] else b :: strip r end.

(* the start of HEVCDecoderConfigurationRecord *)
Definition hevc_head (version space : Z) (tier : bool) (idc : Z) (compat : Z) (constraints : list Z) (level : Z) : list Z :=
  [version; space * 64 + (if tier then 32 else 0) + idc] ++ be 4 compat ++ constraints ++ [level].
(* The name: the profile space as a letter or nothing, the profile; the compatibility flags in
   reverse order; the tier and level; the constraint bytes, the first one always. *)
Definition hevc_text (format : list Z) (space : Z) (tier : bool) (idc : Z) (compat : Z) (constraints : list Z) (level : Z) (name : list Z) : Prop :=
  exists p x m l, number_text 10 idc p /\ reversed32 compat m /\ number_text 16 m x /\ number_text 10 level l
    /\ name = format ++ [46] ++ nth (Z.to_nat space) [[]; [65]; [66]; [67]] [] ++ p ++ [46] ++ x ++ [46] ++ [if tier then 72 else 76] ++ l
              ++ [46] ++ hex2 (hd 0 constraints) ++ concat (map (fun b => [46] ++ hex2 b) (strip (tl constraints))).
