(* Exp-Golomb codes, ITU-T H.264 9.1.  The emulation prevention is that of CcSpec.v.  Nothing
   here uses the functions of the model. *)
From Coq Require Import ZArith List Bool.
From Verif Require Import Bytes AscSpec.
Import ListNotations.
Open Scope Z_scope.

(* ue(v): v + 1 in binary, after as many zeros as it has digits but one *)
Definition ue (v : Z) : list bool :=
  let k := Z.to_nat (Z.log2 (v + 1)) in repeat false k ++ bits (S k) (v + 1).
(* se(v): 0, 1, -1, 2, -2, ... are 0, 1, 2, 3, 4, ... *)
Definition se (x : Z) : list bool := ue (if 0 <? x then 2 * x - 1 else - 2 * x).
