(* The properties of the reading of parameter sets and slice headers: C117. *)
From Coq Require Import ZArith List Bool Lia.
From Verif Require Import Bytes NameModel NameProofs AscSpec AscProofs CcSpec CcProofs2 RbspModel RbspSpec RbspProofs.
Import ListNotations.
Open Scope Z_scope.

(* C117.  What is parsed is what the encoder wrote before it put the emulation prevention
   bytes in; and for any bytes, it is the bytes without them. *)
Theorem parsed_is_unescaped p : prevention_decode (escape 0 p) = p /\ forall l, prevention_decode l = unescape 0 l.
Proof. split; [rewrite decode_unescape; apply unescape_escape | exact decode_unescape]. Qed.
Print Assumptions parsed_is_unescaped.
Example parsed_example : escape 0 [0; 0; 0; 0; 3; 7; 0; 0; 1] = [0; 0; 3; 0; 0; 3; 3; 7; 0; 0; 3; 1] /\ prevention_decode [0; 0; 3; 0; 0; 3; 3; 7; 0; 0; 3; 1] = [0; 0; 0; 0; 3; 7; 0; 0; 1].
Proof. split; vm_compute; reflexivity. Qed.

(* C117.  Numbers are read back: two of them, one after the other, then what follows.
   Missing: numbers from 2^31 - 1 on (see [long_codes_refuted]). *)
Theorem numbers_read_back_partial v x d more : bits_of_bytes d = ue v ++ se x ++ more -> 0 <= v < 2 ^ 31 - 1 -> - 2 ^ 30 < x < 2 ^ 30 ->
  exists s1 s2, unsigned_exp (rd_init d) = Some (v, s1) /\ signed_exp s1 = Some (x, s2) /\ r_eof s2 = false
    /\ forall w n rest, more = bits w n ++ rest -> (w <= 32)%nat -> 0 <= n < 2 ^ Z.of_nat w -> fst (get w s2) = n.
Proof.
  intros H V X. destruct (init_bits d) as (I1 & I2 & _).
  assert (rbits (rd_init d) = ue v ++ se x ++ more) as I3 by (rewrite I1, <- H; reflexivity).
  destruct (unsigned_ok v _ _ I2 eq_refl I3 V) as (s1 & U1 & U2 & U3 & U4). destruct (signed_ok x _ _ U4 U3 U2 X) as (s2 & S1 & S2 & S3 & S4).
  exists s1, s2. split; [exact U1|]. split; [exact S1|]. split; [exact S3|]. intros w n rest -> W N.
  assert (st [] s2 (bits w n ++ rest)) as T by (split; [exact S4 | right; split; [exact S3 | rewrite app_nil_r; exact S2]]).
  destruct (get_st [] s2 w n rest T W N) as (_ & [(_ & C) | (_ & E & _)]); [exfalso; apply C; reflexivity | exact E].
Qed.
Print Assumptions numbers_read_back_partial.
(* 00111 (6), 00101 (-2), then 101 and three bits *)
Example numbers_example : bits_of_bytes [57; 109] = ue 6 ++ se (-2) ++ bits 6 45
  /\ match unsigned_exp (rd_init [57; 109]) with Some (v, s1) => v = 6 /\ match signed_exp s1 with Some (x, s2) => x = -2 /\ fst (get 6 s2) = 45 | None => False end | None => False end.
Proof. split; [vm_compute; reflexivity|]. vm_compute. split; [reflexivity|]. split; reflexivity. Qed.

(* C117.  The number of emulation prevention bytes in a slice header that was read: the header
   takes that many more bytes in the stream, and is left in the clear up to there.  Missing:
   headers with three zeros in a row (see [three_zeros_refuted]). *)
Theorem prevention_bytes_counted_partial p : (forall a b, p <> a ++ [0; 0; 0] ++ b) ->
  Z.of_nat (length p) + encode_bytes p = Z.of_nat (length (escape 0 p)).
Proof. intros H. symmetry. apply (encode_bytes_ok (length p)); [lia | exact H]. Qed.
Print Assumptions prevention_bytes_counted_partial.
Example counted_example : encode_bytes [1; 0; 0; 3; 0; 0; 1; 0; 0] = 2 /\ length (escape 0 [1; 0; 0; 3; 0; 0; 1; 0; 0]) = 11%nat /\ requires_strip [1; 0; 0; 3; 0; 0; 1; 0; 0] = true.
Proof. split; [vm_compute; reflexivity|]. split; vm_compute; reflexivity. Qed.

(* C117 is false for three zeros in a row: after a match the search goes on three bytes
   further, although the third zero can be the first one of the next match. *)
Theorem three_zeros_refuted c rest : 0 <= c <= 3 ->
  Z.of_nat (length [0; 0; 0; 0; c]) + encode_bytes [0; 0; 0; 0; c] < Z.of_nat (length (escape 0 [0; 0; 0; 0; c]))
  /\ prevention_decode (escape 0 ([0; 0; 0; 0; c] ++ rest)) = [0; 0; 0; 0; c] ++ rest.
Proof.
  intros H. split; [|apply parsed_is_unescaped]. assert (c = 0 \/ c = 1 \/ c = 2 \/ c = 3) as [-> | [-> | [-> | ->]]] by lia; vm_compute; reflexivity.
Qed.
Print Assumptions three_zeros_refuted.

(* C117 is false for long codes: 31 zeros and more make the shift undefined, and nothing
   refuses them before. *)
Theorem long_codes_refuted : exists d v more, bits_of_bytes d = ue v ++ more /\ 0 <= v < 2 ^ 32 - 1 /\ unsigned_exp (rd_init d) = None.
Proof. exists [0; 0; 0; 1; 0; 0; 0; 0], (2 ^ 31 - 1), (repeat false 1). split; [vm_compute; reflexivity|]. split; [lia | vm_compute; reflexivity]. Qed.
Print Assumptions long_codes_refuted.
