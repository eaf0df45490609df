(* Specification of the input buffers: the locks readers hold, what callers
   promise, and executions. *)
From Coq Require Import ZArith List Bool.
From Verif Require Import BufQueueModel BufQueueSpec InputBufsModel.
Import ListNotations.
Open Scope Z_scope.

(* A lock held by a reader: the lock it was given, the object it was taken on,
   the segment and the address of the first byte it needs. *)
Record hold := mkHold { h_lock : nat; h_bufs : nat; h_index : Z; h_ptr : Z }.

(* The address p is in the i-th buffer in use (0 is the oldest). *)
Definition at_buffer (q : bq) (i : nat) (p : Z) : Prop :=
  exists n, nth_error (bq_used q) i = Some n /\ inside (bq_alloc_size q) n p.

(* The data at p was written no later than the data at p' (up to the order
   within a buffer), and none of it was released. *)
Definition not_after (q : bq) (p p' : Z) : Prop :=
  exists i j, (i <= j)%nat /\ at_buffer q i p /\ at_buffer q j p'.

Definition live (q : bq) (p : Z) : Prop := exists i, at_buffer q i p.

(* Segment [index] starts at [p]: consistent with the locks on the object. *)
Definition in_order (b : bufs) (index p : Z) : Prop :=
  live (b_q b) p /\
  (b_no_partial b = false ->
   forall l, In l (b_locks b) ->
     (l_index l < index -> not_after (b_q b) (l_ptr l) p) /\
     (index < l_index l -> not_after (b_q b) p (l_ptr l)) /\
     (index = l_index l -> p = l_ptr l)).

(* All buffers the module has from the allocator. *)
Definition all_held (w : world) : list Z := flat_map (fun b => held (b_q b)) (w_bufs w).

(* The allocator's promise: the memory is not in use. *)
Definition unused (w : world) (a size : Z) : Prop :=
  forall b n, In b (w_bufs w) -> In n (held (b_q b)) ->
    n + bq_alloc_size (b_q b) <= a \/ a + size <= n.

(* The callers' side: tracks exist, a reader gives up a lock it holds, the
   allocator returns memory that is not in use, and segments are stored in the
   order of their indexes. *)
Definition allowed (w : world) (hs : list hold) (o : op) : Prop :=
  match o with
  | OTrack t _ _ _ _ _ => find_track w t = None
  | OGet t r =>
      exists i b, find_track w t = Some i /\ find_bufs w i = Some b /\
        (forall a, r = Some a -> unused w a (bq_alloc_size (b_q b)))
  | OLock t index p _ =>
      exists i b, find_track w t = Some i /\ find_bufs w i = Some b /\ in_order b index p /\
        (b_no_partial b = false -> 0 < b_min_index b ->
           (index < b_min_index b -> not_after (b_q b) p (b_min_ptr b)) /\
           (b_min_index b <= index -> not_after (b_q b) (b_min_ptr b) p))
  | OUnlock id => exists h, In h hs /\ h_lock h = id
  | OSetMin t index p =>
      exists i b, find_track w t = Some i /\ find_bufs w i = Some b /\ in_order b index p
  | OLink d s => d <> s /\ find_track w d <> None /\ find_track w s <> None
  | OChannelFree _ | OTrackFree _ => True
  end.

(* The locks held after a call. *)
Inductive holds_after (w : world) (hs : list hold) : op -> ret -> list hold -> Prop :=
| after_lock : forall t index p alloc id i,
    find_track w t = Some i ->
    holds_after w hs (OLock t index p alloc) (RLock id) (mkHold id i index p :: hs)
| after_unlock : forall id r a h b,
    hs = a ++ h :: b -> h_lock h = id -> holds_after w hs (OUnlock id) r (a ++ b)
| after_other : forall o r,
    (forall id, r <> RLock id) -> (forall id, o <> OUnlock id) -> holds_after w hs o r hs.

(* The buffers a call got from the allocator. *)
Definition acquired (w w' : world) : list Z :=
  filter (fun a => negb (existsb (Z.eqb a) (all_held w))) (all_held w').

(* Executions of calls of a kind: the state, the locks held, the buffers got
   from the allocator and the buffers given back to it. *)
Inductive reach (kind : op -> Prop) : world -> list hold -> list Z -> list Z -> Prop :=
| reach_init : reach kind world0 [] [] []
| reach_step : forall w hs got back o w' r rel hs',
    reach kind w hs got back -> kind o -> allowed w hs o ->
    step w o = Done w' r rel -> holds_after w hs o r hs' ->
    reach kind w' hs' (got ++ acquired w w') (back ++ rel).

Definition any (o : op) : Prop := True.

(* Calls other than linking tracks and freeing a channel. *)
Definition plain (o : op) : Prop :=
  match o with OLink _ _ | OChannelFree _ => False | _ => True end.

(* The tracks and the readers that use an object. *)
Definition users (w : world) (hs : list hold) (id : nat) : nat :=
  (length (filter (fun x => Nat.eqb (snd x) id) (w_tracks w)) +
   length (filter (fun h => Nat.eqb (h_bufs h) id) hs))%nat.

(* Executions during which the hold h stays: the state before, the state after
   and the buffers given back meanwhile. *)
Inductive while_held (h : hold) (w : world) (hs : list hold) :
    world -> list hold -> list Z -> Prop :=
| held_now : In h hs -> while_held h w hs w hs []
| held_step : forall w1 hs1 rel1 o w2 r rel2 hs2,
    while_held h w hs w1 hs1 rel1 -> allowed w1 hs1 o ->
    step w1 o = Done w2 r rel2 -> holds_after w1 hs1 o r hs2 -> In h hs2 ->
    while_held h w hs w2 hs2 (rel1 ++ rel2).
