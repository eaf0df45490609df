(* Model of nginx-common/src/ngx_buf_queue.c, a queue of fixed-size buffers.

   Addresses are integers.  A node is identified by the address of its first
   byte; its payload starts 8 bytes later (sizeof(ngx_buf_queue_node_t)) and
   ends at the node address plus alloc_size (ngx_buf_queue.h:18-22).
   The linked lists used_head/used_tail and free are lists of node addresses.
   The allocator (ngx_lba) is outside this file: an allocation answer is an
   input of the operation, a release is recorded in the output. *)
From Coq Require Import ZArith List Bool.
Import ListNotations.
Open Scope Z_scope.

(* ngx_buf_queue.h:30-32 sizeof(ngx_buf_queue_node_t), a single pointer *)
Definition node_size : Z := 8.

(* ngx_buf_queue.h:35-46 ngx_buf_queue_t (lba and log are not modelled;
   used_size is alloc_size - 8) *)
Record bq := mk_bq {
  bq_alloc_size : Z;
  bq_mem_left   : option Z;   (* None models mem_left == NULL after detach *)
  bq_nbuffers   : Z;
  bq_used       : list Z;     (* used_head .. used_tail, oldest first *)
  bq_free       : list Z;     (* cached nodes, top of the free list first *)
  bq_free_left  : Z
}.

(* ngx_buf_queue.h:18-22 *)
Definition node_start (n : Z) : Z := n + node_size.
Definition node_end (q : bq) (n : Z) : Z := n + bq_alloc_size q.

(* ngx_buf_queue.c:196-197, 214-215: does the node contain the pointer *)
Definition node_contains (q : bq) (n limit : Z) : bool :=
  (node_start n <=? limit) && (limit <? node_end q n).

(* ngx_buf_queue.c:6-33 ngx_buf_queue_init; None models NGX_ERROR *)
Definition bq_init (buffer_size max_free mem : Z) : option bq :=
  if buffer_size <=? node_size then None
  else Some (mk_bq buffer_size (Some mem) 0 [] [] max_free).

(* Result of an operation: new state, returned payload pointer (None = NULL or
   no result), nodes given back to the allocator; or undefined behaviour. *)
Inductive bq_result :=
| BqOk (q : bq) (ret : option Z) (released : list Z)
| BqUB.

(* ngx_buf_queue.c:134-175 ngx_buf_queue_get; [r] is the answer of
   ngx_lba_alloc, consulted only when it is called.  Line 146 dereferences
   mem_left: after a detach this is a NULL dereference. *)
Definition bq_get (q : bq) (r : option Z) : bq_result :=
  match bq_free q with
  | n :: rest =>
      BqOk (mk_bq (bq_alloc_size q) (bq_mem_left q) (bq_nbuffers q)
              (bq_used q ++ [n]) rest (bq_free_left q + 1))
           (Some (node_start n)) []
  | [] =>
      match bq_mem_left q with
      | None => BqUB
      | Some m =>
          if m <? bq_alloc_size q then BqOk q None []
          else match r with
               | None => BqOk q None []
               | Some n =>
                   BqOk (mk_bq (bq_alloc_size q)
                           (Some (m - bq_alloc_size q))
                           (bq_nbuffers q + 1)
                           (bq_used q ++ [n]) [] (bq_free_left q))
                        (Some (node_start n)) []
               end
      end
  end.

(* ngx_buf_queue.c:231-244: give up one node (its removal from the used list
   is done by the caller) *)
Definition bq_release (q : bq) (cur : Z) : bq * list Z :=
  if bq_free_left q <=? 0 then
    (mk_bq (bq_alloc_size q)
       (match bq_mem_left q with
        | Some m => Some (m + bq_alloc_size q)
        | None => None
        end)
       (bq_nbuffers q - 1) (bq_used q) (bq_free q) (bq_free_left q), [cur])
  else
    (mk_bq (bq_alloc_size q) (bq_mem_left q) (bq_nbuffers q)
       (bq_used q) (cur :: bq_free q) (bq_free_left q - 1), []).

(* ngx_buf_queue.c:249 used_head = cur *)
Definition bq_set_used (q : bq) (l : list Z) : bq :=
  mk_bq (bq_alloc_size q) (bq_mem_left q) (bq_nbuffers q) l
        (bq_free q) (bq_free_left q).

(* ngx_buf_queue.c:212-249, the loop; [l] is the list starting at cur *)
Fixpoint bq_free_loop (q : bq) (limit : Z) (l : list Z) : bq * list Z :=
  match l with
  | [] => (bq_set_used q [], [])
  | cur :: rest =>
      if node_contains q cur limit then (bq_set_used q l, [])
      else match rest with
           | [] => (bq_set_used q l, [])    (* never free the last buffer *)
           | _ :: _ =>
               let (q1, rel1) := bq_release q cur in
               let (q2, rel2) := bq_free_loop q1 limit rest in
               (q2, rel1 ++ rel2)
           end
  end.

(* ngx_buf_queue.c:177-252 ngx_buf_queue_free (the NGX_DEBUG checks only log) *)
Definition bq_free_upto (q : bq) (limit : Z) : bq_result :=
  match bq_used q with
  | [] => BqOk q None []
  | l => let (q', rel) := bq_free_loop q limit l in BqOk q' None rel
  end.

(* ngx_buf_queue.c:36-66 ngx_buf_queue_delete; free_left is incremented once
   per cached node, mem_left gets alloc_size * nbuffers *)
Definition bq_delete (q : bq) : bq_result :=
  BqOk (mk_bq (bq_alloc_size q)
          (match bq_mem_left q with
           | Some m => Some (m + bq_alloc_size q * bq_nbuffers q)
           | None => None
           end)
          0 [] [] (bq_free_left q + Z.of_nat (length (bq_free q))))
       None (bq_free q ++ bq_used q).

(* ngx_buf_queue.c:69-74 ngx_buf_queue_detach *)
Definition bq_detach (q : bq) : bq_result :=
  BqOk (mk_bq (bq_alloc_size q) None (bq_nbuffers q) (bq_used q)
          (bq_free q) (bq_free_left q)) None [].

(* The API calls, in any order *)
Inductive bq_op :=
| OpGet (answer : option Z)
| OpFree (limit : Z)
| OpDelete
| OpDetach.

Definition bq_step (q : bq) (o : bq_op) : bq_result :=
  match o with
  | OpGet r => bq_get q r
  | OpFree limit => bq_free_upto q limit
  | OpDelete => bq_delete q
  | OpDetach => bq_detach q
  end.
