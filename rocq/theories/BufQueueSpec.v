(* Specification vocabulary for the buffer queue: executions, and what an
   outside observer (the owner of the budget, the allocator) sees. *)
From Coq Require Import ZArith List Bool.
From Verif Require Import BufQueueModel.
Import ListNotations.
Open Scope Z_scope.

(* Buffers currently owned by the queue, in use or cached. *)
Definition held (q : bq) : list Z := bq_used q ++ bq_free q.

(* Two buffers of [size] bytes at addresses a and b do not overlap. *)
Definition apart (size a b : Z) : Prop := a + size <= b \/ b + size <= a.

Fixpoint all_apart (size : Z) (l : list Z) : Prop :=
  match l with
  | [] => True
  | a :: r => Forall (apart size a) r /\ all_apart size r
  end.

(* What the allocator promises: an address it returns does not overlap any
   buffer the queue has not given back. *)
Definition answer_ok (q : bq) (o : bq_op) : Prop :=
  match o with
  | OpGet (Some a) => Forall (apart (bq_alloc_size q) a) (held q)
  | _ => True
  end.

(* Executions from a freshly initialised queue; [log] collects everything given
   back to the allocator, in order. *)
Inductive bq_run (size max_free mem : Z) : bq -> list Z -> Prop :=
| run_init : forall q, bq_init size max_free mem = Some q ->
    bq_run size max_free mem q []
| run_step : forall q log o q' ret rel,
    bq_run size max_free mem q log ->
    answer_ok q o ->
    bq_step q o = BqOk q' ret rel ->
    bq_run size max_free mem q' (log ++ rel).

(* The pointer p lies inside the payload of the buffer at address n. *)
Definition inside (size n p : Z) : Prop := n + 8 <= p < n + size.
