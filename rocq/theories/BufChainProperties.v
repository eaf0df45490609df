(* C04: the buffer-chain helpers (nginx-common/src/ngx_buf_chain.c). *)
From Coq Require Import ZArith List Bool Arith Lia.
From Verif Require Import BufChainModel BufChainSpec BufChainProofs.
Import ListNotations.

(* C04 seek: finds the fragment and offset of the byte at a given position ... *)
Theorem C04_seek : forall chain offset,
  offset < length (bytes_of chain) ->
  exists i o f, chain_seek chain offset = Some (i, o) /\
    nth_error chain i = Some f /\ o < length f /\
    length (bytes_of (firstn i chain)) + o = offset.
Proof. exact seek_ok. Qed.

(* ... and dereferences NULL when the position is not in the data: the caller
   must not ask. *)
Theorem C04_seek_short : forall chain offset,
  length (bytes_of chain) <= offset -> chain_seek chain offset = None.
Proof. exact seek_short. Qed.

(* C04 skip: succeeds exactly when there are enough bytes and drops them. *)
Theorem C04_skip : forall chain size,
  fst (chain_skip chain size) = (size <=? length (bytes_of chain)) /\
  bytes_of (snd (chain_skip chain size)) = skipn size (bytes_of chain).
Proof. exact skip_spec. Qed.

(* C04 copy: succeeds exactly when there are enough bytes, stores the prefix
   and leaves the rest. *)
Theorem C04_copy : forall chain size,
  fst (fst (chain_copy chain size)) = (size <=? length (bytes_of chain)) /\
  snd (fst (chain_copy chain size)) = firstn size (bytes_of chain) /\
  bytes_of (snd (chain_copy chain size)) = skipn size (bytes_of chain).
Proof. exact copy_spec. Qed.

(* C04 compare: lexicographic order of the buffer and the chain's prefix. *)
Theorem C04_compare : forall chain buf,
  length buf <= length (bytes_of chain) ->
  lex buf (firstn (length buf) (bytes_of chain)) (chain_compare chain buf).
Proof. exact compare_enough. Qed.

Theorem C04_compare_zero_iff : forall chain buf,
  chain_compare chain buf = 0%Z <->
  (length buf <= length (bytes_of chain) /\ buf = firstn (length buf) (bytes_of chain)).
Proof. exact compare_zero_iff. Qed.

(* C04 compare with a chain that is too short: the order of the common part, or
   "buffer greater" when that is equal. *)
Theorem C04_compare_short : forall chain buf,
  length (bytes_of chain) < length buf ->
  let z := chain_compare chain buf in
  (z = 1%Z /\ bytes_of chain = firstn (length (bytes_of chain)) buf) \/
  (z <> 0%Z /\ lex (firstn (length (bytes_of chain)) buf) (bytes_of chain) z).
Proof. exact compare_short. Qed.

(* C04: two splits of the same bytes are indistinguishable by these helpers. *)
Theorem C04_split_independent : forall c1 c2 size buf,
  bytes_of c1 = bytes_of c2 ->
  fst (chain_skip c1 size) = fst (chain_skip c2 size) /\
  bytes_of (snd (chain_skip c1 size)) = bytes_of (snd (chain_skip c2 size)) /\
  fst (chain_copy c1 size) = fst (chain_copy c2 size) /\
  bytes_of (snd (chain_copy c1 size)) = bytes_of (snd (chain_copy c2 size)) /\
  chain_compare c1 buf = chain_compare c2 buf.
Proof.
  intros c1 c2 size buf H.
  destruct (skip_spec c1 size) as [A1 B1], (skip_spec c2 size) as [A2 B2].
  destruct (copy_spec c1 size) as (D1 & E1 & F1), (copy_spec c2 size) as (D2 & E2 & F2).
  rewrite A1, A2, B1, B2, F1, F2, H. repeat split.
  - destruct (chain_copy c1 size) as [[? ?] ?], (chain_copy c2 size) as [[? ?] ?].
    cbn in *. subst. rewrite H. reflexivity.
  - apply compare_split. exact H.
Qed.

(* C04 terminate: when the size ends at a fragment boundary (and the fragments
   before it do not already reach it) the chain is cut exactly there ... *)
Theorem C04_get_tail : forall k chain size,
  (0 <= size < 2 ^ 32)%Z -> k < length chain ->
  size = Z.of_nat (length (bytes_of (firstn (S k) chain))) ->
  (forall j, j < k -> length (bytes_of (firstn (S j) chain)) < length (bytes_of (firstn (S k) chain))) ->
  chain_get_tail chain size = Some k.
Proof. exact get_tail_spec. Qed.

(* ... and whenever terminate returns, the chain carries exactly the requested
   bytes (despite the wrapping subtraction). *)
Theorem C04_terminate : forall chain size chain',
  (0 <= size < 2 ^ 32)%Z ->
  (Z.of_nat (length (bytes_of chain)) < 2 ^ 32)%Z ->
  chain_terminate chain size = Some chain' ->
  Z.of_nat (length (bytes_of chain')) = size /\
  bytes_of chain' = firstn (Z.to_nat size) (bytes_of chain).
Proof. exact terminate_sound. Qed.

Definition ex_chain : list (list Z) := [[1; 2]; []; [3; 4; 5]; [6]]%Z.

Example C04_example :
  chain_seek ex_chain 3 = Some (2, 1) /\
  chain_skip ex_chain 3 = (true, [[4; 5]; [6]]%Z) /\
  chain_copy ex_chain 4 = (true, [1; 2; 3; 4]%Z, [[5]; [6]]%Z) /\
  chain_copy ex_chain 7 = (false, [1; 2; 3; 4; 5; 6]%Z, []) /\
  chain_compare ex_chain [1; 2; 3]%Z = 0%Z /\
  chain_compare ex_chain [1; 2; 9]%Z = 1%Z /\
  chain_compare ex_chain [1; 2; 3; 4; 5; 6; 7]%Z = 1%Z /\
  chain_terminate ex_chain 5 = Some [[1; 2]; []; [3; 4; 5]]%Z /\
  chain_terminate ex_chain 4 = None.
Proof. repeat split. Qed.

Print Assumptions C04_seek.
Print Assumptions C04_seek_short.
Print Assumptions C04_skip.
Print Assumptions C04_copy.
Print Assumptions C04_compare.
Print Assumptions C04_compare_zero_iff.
Print Assumptions C04_compare_short.
Print Assumptions C04_split_independent.
Print Assumptions C04_get_tail.
Print Assumptions C04_terminate.
