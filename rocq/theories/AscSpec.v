(* AudioSpecificConfig, ISO/IEC 14496-3 1.6.2.1.  Nothing here uses the functions of the
   model. *)
From Coq Require Import ZArith List Bool.
From Verif Require Import Bytes.
Import ListNotations.
Open Scope Z_scope.

(* [w] bits of a number, and the bits of bytes, the most significant one first *)
Fixpoint bits (w : nat) (n : Z) : list bool :=
  match w with O => [] | S w => Z.testbit n (Z.of_nat w) :: bits w n end.
Definition bits_of_bytes (d : list Z) : list bool := concat (map (bits 8) d).

(* an object type: 5 bits, or 31 and 6 bits *)
Definition type_ok (t : Z) : Prop := 0 <= t < 31 \/ 32 <= t < 96.
Definition type_bits (t : Z) : list bool := if t <? 31 then bits 5 t else bits 5 31 ++ bits 6 (t - 32).
(* a rate: an index, or 15 and the rate *)
Inductive rate := Index (i : Z) | Explicit (hz : Z).
Definition rate_ok (r : rate) : Prop := match r with Index i => 0 <= i < 15 | Explicit hz => 0 <= hz < 2 ^ 24 end.
Definition rate_bits (r : rate) : list bool := match r with Index i => bits 4 i | Explicit hz => bits 4 15 ++ bits 24 hz end.
Definition rate_index (r : rate) : Z := match r with Index i => i | Explicit _ => 15 end.

(* a configuration: the type, the rate, the channels; with SBR (5) or PS (29) first, the
   rate of the extension and the type follow *)
Inductive config := Plain (t : Z) (r : rate) (c : Z) | Extended (ps : bool) (r : rate) (c : Z) (ext : rate) (t : Z).
Definition config_bits (x : config) : list bool :=
  match x with
  | Plain t r c => type_bits t ++ rate_bits r ++ bits 4 c
  | Extended ps r c ext t => type_bits (if ps then 29 else 5) ++ rate_bits r ++ bits 4 c ++ rate_bits ext ++ type_bits t
  end.
Definition config_says (x : config) : Z * Z * Z :=
  match x with Plain t r c => (t, rate_index r, c) | Extended _ r c _ t => (t, rate_index r, c) end.
(* With PS the rate of the extension is an index, and the type is not a multiple of 8. *)
Definition config_ok (x : config) : Prop :=
  match x with
  | Plain t r c => type_ok t /\ t <> 5 /\ t <> 29 /\ rate_ok r /\ 0 <= c < 16
  | Extended ps r c ext t => type_ok t /\ rate_ok r /\ rate_ok ext /\ 0 <= c < 16
      /\ (ps = true -> match ext with Index _ => t < 31 /\ t mod 8 <> 0 | Explicit _ => False end)
  end.
