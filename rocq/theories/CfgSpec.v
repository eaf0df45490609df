(* The decoder configuration records of ISO/IEC 14496-15.  Nothing here uses the functions of
   the model. *)
From Coq Require Import ZArith List Bool.
From Verif Require Import Bytes.
Import ListNotations.
Open Scope Z_scope.

(* units with sizes of two bytes, and with start codes *)
Definition sized (us : list (list Z)) : list Z := concat (map (fun u => be 2 (Z.of_nat (length u)) ++ u) us).
Definition start_codes (us : list (list Z)) : list Z := concat (map (fun u => [0; 0; 0; 1] ++ u) us).
Definition small (us : list (list Z)) : Prop := Forall (fun u => Z.of_nat (length u) < 65536) us.

(* AVCDecoderConfigurationRecord: 5 bytes, the number of sequence parameter sets in 5 bits, the
   sets, the number of picture parameter sets, the sets, more *)
Definition avc_record (head : list Z) (a : Z) (sps : list (list Z)) (b : Z) (pps : list (list Z)) (more : list Z) : list Z :=
  head ++ [a] ++ sized sps ++ [b] ++ sized pps ++ more.
(* HEVCDecoderConfigurationRecord: 22 bytes, the number of arrays, the arrays: type, number of
   units, units *)
Definition array_bytes (a : Z * list (list Z)) : list Z := [fst a] ++ be 2 (Z.of_nat (length (snd a))) ++ sized (snd a).
Definition hevc_record (head : list Z) (arrays : list (Z * list (list Z))) (more : list Z) : list Z :=
  head ++ [Z.of_nat (length arrays)] ++ concat (map array_bytes arrays) ++ more.
Definition array_units (arrays : list (Z * list (list Z))) : list (list Z) := concat (map snd arrays).
Definition array_ok (a : Z * list (list Z)) : Prop := Z.of_nat (length (snd a)) < 65536 /\ small (snd a).
