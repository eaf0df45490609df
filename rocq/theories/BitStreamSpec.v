(* Bits of a buffer, the first one the most significant bit of the first byte. *)
From Coq Require Import List ZArith Bool.
Import ListNotations.
Local Open Scope Z_scope.

Definition bit (buf : list Z) (q : Z) : bool := Z.testbit (nth (Z.to_nat (q / 8)) buf 0) (7 - q mod 8).

(* the number whose [w] bits, most significant first, are at [p] *)
Definition field (buf : list Z) (p w x : Z) : Prop :=
  0 <= x < 2 ^ w /\ forall j, 0 <= j < w -> Z.testbit x j = bit buf (p + w - 1 - j).

Definition bytes (buf : list Z) : Prop := Forall (fun b => 0 <= b < 256) buf.

(* total width *)
Definition width (fs : list (Z * Z)) : Z := fold_right (fun f n => fst f + n) 0 fs.
