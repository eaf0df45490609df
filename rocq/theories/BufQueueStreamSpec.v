(* Specification of the buffer queue stream: the buffers are one long byte
   string and the stream is a position in it. *)
From Coq Require Import ZArith List.
From Verif Require Import BufQueueStreamModel.
Import ListNotations.

(* All bytes queued, in order. *)
Definition flat (nodes : list (list Z)) : list Z := concat nodes.

(* Position, in the flat string, of offset [off] of buffer [i]. *)
Definition position (nodes : list (list Z)) (s : bqs) : nat :=
  length (concat (firstn (fst (bqs_pos s)) nodes)) + snd (bqs_pos s).

(* A stream is usable when its two fields agree and point at an existing byte:
   the requirement stated in ngx_buf_queue_stream.c:7-11. *)
Definition usable (nodes : list (list Z)) (s : bqs) : Prop :=
  bqs_node s = fst (bqs_pos s) /\
  exists node, nth_error nodes (fst (bqs_pos s)) = Some node /\
    snd (bqs_pos s) < length node.

(* Every buffer has the same non-zero payload size. *)
Definition uniform (n : nat) (nodes : list (list Z)) : Prop :=
  0 < n /\ Forall (fun node => length node = n) nodes.

(* A position of the flat string inside the data: where a stream may stand. *)
Definition in_data (nodes : list (list Z)) (p : nat) : Prop := p < length (flat nodes).

(* The flat string after storing [data] at position [p] (as much as fits). *)
Definition stored (old data : list Z) (p : nat) : list Z :=
  firstn p old ++ firstn (length old - p) data ++ skipn (p + length data) old.
