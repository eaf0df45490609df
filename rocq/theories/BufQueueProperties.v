(* C01, C02: the buffer queue (nginx-common/src/ngx_buf_queue.c). *)
From Coq Require Import ZArith List Bool Lia Permutation.
From Verif Require Import BufQueueModel BufQueueSpec BufQueueProofs.
Import ListNotations.
Open Scope Z_scope.

(* C01: at every point of every history, budget left + size * buffers held is
   the initial budget, the budget is never negative, the reported number of
   buffers is the number held and the cache limit is respected. *)
Theorem C01_accounting : forall size max_free mem q log,
  0 <= mem -> 0 <= max_free ->
  bq_run size max_free mem q log ->
  (forall m, bq_mem_left q = Some m ->
     m + size * Z.of_nat (length (held q)) = mem /\ 0 <= m) /\
  bq_nbuffers q = Z.of_nat (length (held q)) /\
  Z.of_nat (length (bq_free q)) <= max_free.
Proof. exact accounting. Qed.

(* C01: a refused request has no effect, and happens only when nothing is
   cached and either the budget is too small or the allocator failed. *)
Theorem C01_refused_get : forall q r q' rel,
  bq_get q r = BqOk q' None rel ->
  q' = q /\ rel = [] /\ bq_free q = [] /\
  (r = None \/ exists m, bq_mem_left q = Some m /\ m < bq_alloc_size q).
Proof. exact get_refused. Qed.

(* C01: delete gives back the whole budget and every buffer held, once. *)
Theorem C01_delete : forall size max_free mem q log q' ret rel,
  bq_run size max_free mem q log ->
  bq_mem_left q <> None ->
  bq_delete q = BqOk q' ret rel ->
  bq_mem_left q' = Some mem /\ held q' = [] /\ Permutation rel (held q) /\
  bq_nbuffers q' = 0.
Proof. exact delete_returns_all. Qed.

(* C01: no call loses or invents a buffer: what was held is held or was given
   back to the allocator, and a get adds at most the buffer it obtained. *)
Theorem C01_no_leak : forall q o q' ret rel,
  bq_step q o = BqOk q' ret rel ->
  bq_alloc_size q' = bq_alloc_size q /\
  (Permutation (held q) (held q' ++ rel) \/
   (exists a, o = OpGet (Some a) /\ rel = [] /\ Permutation (held q') (a :: held q))).
Proof. exact step_held. Qed.

(* C02: all buffers held, in use or cached, are disjoint memory ranges. *)
Theorem C02_disjoint : forall size max_free mem q log,
  bq_run size max_free mem q log ->
  bq_alloc_size q = size /\ all_apart size (held q).
Proof. exact run_apart. Qed.

(* C02: a buffer handed out goes to the end of the queue and overlaps no buffer
   in use. *)
Theorem C02_get_appends : forall size max_free mem q log r q' p rel,
  bq_run size max_free mem q log ->
  answer_ok q (OpGet r) ->
  bq_get q r = BqOk q' (Some p) rel ->
  exists n, p = n + 8 /\ rel = [] /\ bq_used q' = bq_used q ++ [n] /\
    Forall (apart size n) (bq_used q) /\
    (In n (bq_free q) \/ r = Some n).
Proof. exact get_appends. Qed.

(* C02: releasing up to a pointer inside the k-th buffer removes exactly the
   first k buffers. *)
Theorem C02_free_prefix : forall size max_free mem q log limit q' ret rel k n,
  bq_run size max_free mem q log ->
  bq_free_upto q limit = BqOk q' ret rel ->
  nth_error (bq_used q) k = Some n -> inside size n limit ->
  bq_used q' = skipn k (bq_used q).
Proof. exact free_keeps_suffix. Qed.

(* C02: a pointer inside no buffer leaves exactly the last buffer. *)
Theorem C02_free_unknown : forall q limit q' ret rel d,
  bq_free_upto q limit = BqOk q' ret rel ->
  bq_used q <> [] ->
  (forall n, In n (bq_used q) -> ~ inside (bq_alloc_size q) n limit) ->
  bq_used q' = [last (bq_used q) d].
Proof. exact free_unknown_keeps_last. Qed.

(* Non-vacuity: a run with three buffers of 108 bytes, of which two are
   released, one into the cache and one to the allocator. *)
Definition ex_q1 := mk_bq 108 (Some 676) 3 [0; 1000; 2000] [] 1.
Definition ex_q2 := mk_bq 108 (Some 784) 2 [2000] [0] 0.

Example C01_C02_example_run :
  bq_run 108 1 1000 ex_q1 [] /\ bq_run 108 1 1000 ex_q2 [1000] /\
  bq_free_upto ex_q1 2050 = BqOk ex_q2 None [1000] /\
  nth_error (bq_used ex_q1) 2 = Some 2000 /\ inside 108 2000 2050.
Proof.
  assert (H1 : bq_run 108 1 1000 ex_q1 []).
  { apply (run_step 108 1 1000 (mk_bq 108 (Some 784) 2 [0; 1000] [] 1) []
             (OpGet (Some 2000)) ex_q1 (Some 2008) []).
    - apply (run_step 108 1 1000 (mk_bq 108 (Some 892) 1 [0] [] 1) []
               (OpGet (Some 1000)) _ (Some 1008) []).
      + apply (run_step 108 1 1000 (mk_bq 108 (Some 1000) 0 [] [] 1) []
                 (OpGet (Some 0)) _ (Some 8) []).
        * apply run_init. reflexivity.
        * constructor.
        * reflexivity.
      + repeat constructor; cbn; unfold apart; lia.
      + reflexivity.
    - repeat constructor; cbn; unfold apart; lia.
    - reflexivity. }
  split; [exact H1|]. split.
  - apply (run_step 108 1 1000 ex_q1 [] (OpFree 2050) ex_q2 None [1000]);
      [exact H1|exact I|reflexivity].
  - repeat split; cbn; lia.
Qed.

(* After a detach the next get that finds no cached buffer dereferences the
   NULL budget pointer: undefined behaviour, outside the histories above. *)
Example get_after_detach_ub :
  exists q', bq_detach (mk_bq 108 (Some 1000) 0 [] [] 1) = BqOk q' None [] /\
             bq_get q' (Some 0) = BqUB.
Proof. eexists. split; reflexivity. Qed.

Print Assumptions C01_accounting.
Print Assumptions C01_refused_get.
Print Assumptions C01_delete.
Print Assumptions C01_no_leak.
Print Assumptions C02_disjoint.
Print Assumptions C02_get_appends.
Print Assumptions C02_free_prefix.
Print Assumptions C02_free_unknown.
