(* Model of nginx-common/src/ngx_buf_queue_stream.c: reading, writing and
   skipping through the used buffers of a buffer queue.

   The payloads of the used buffers, oldest first, are a list of byte lists.
   A node pointer is an index into that list, a byte pointer is a pair (node
   index, offset in the payload). *)
From Coq Require Import ZArith List Bool Arith.
Import ListNotations.

(* ngx_buf_queue_stream.h:8-12 ngx_buf_queue_stream_t; node and pos are separate
   fields and may disagree after a failed call *)
Record bqs := mk_bqs {
  bqs_node : nat;
  bqs_pos  : nat * nat
}.

Inductive bqs_result (A : Type) :=
| SOk (s : bqs) (a : A)       (* success, new stream state *)
| SFail (s : bqs) (a : A)     (* NGX_ERROR / NULL *)
| SUB.                        (* undefined behaviour *)
Arguments SOk {A}. Arguments SFail {A}. Arguments SUB {A}.

(* ngx_buf_queue_stream.c:13-20; the head of an empty queue is NULL and
   ngx_buf_queue_start(NULL) is then an invalid pointer *)
Definition bqs_init_head (nodes : list (list Z)) : option bqs :=
  match nodes with
  | [] => None
  | _ :: _ => Some (mk_bqs 0 (0, 0))
  end.

(* ngx_buf_queue_stream.c:23-30, [off] is the offset of the given pointer in
   the last buffer *)
Definition bqs_init_tail (nodes : list (list Z)) (off : nat) : option bqs :=
  match nodes with
  | [] => None
  | _ :: _ => Some (mk_bqs (length nodes - 1) (length nodes - 1, off))
  end.

(* ngx_buf_queue_stream.c:133-162 ngx_buf_queue_stream_read, the loop.
   [rest] is the list of nodes from the current one, [i] its index, [off] the
   offset of pos.  When the chunk does not reach the end of the node, it was
   the whole remaining size and the loop stops (lines 141-147).
   end - pos is computed in size_t: a position beyond the end of its node is
   undefined behaviour here. *)
Fixpoint read_loop (rest : list (list Z)) (i off size : nat) (acc : list Z)
    (s : bqs) : bqs_result (list Z) :=
  match size with
  | O => SOk (mk_bqs (bqs_node s) (i, off)) acc
  | S _ =>
      match rest with
      | [] => SUB
      | node :: rest' =>
          if length node <? off then SUB else
          let chunk := Nat.min (length node - off) size in
          let acc' := acc ++ firstn chunk (skipn off node) in
          if length node <=? off + chunk then
            match rest' with
            | [] => SFail s acc'
            | _ :: _ => read_loop rest' (S i) 0 (size - chunk) acc'
                          (mk_bqs (S i) (bqs_pos s))
            end
          else SOk (mk_bqs (bqs_node s) (i, off + chunk)) acc'
      end
  end.

(* ngx_buf_queue_stream.c:124-165.  end is taken from stream->node and
   subtracted from stream->pos: if they are not in the same node this is
   undefined behaviour (unless size is 0). *)
Definition bqs_read (nodes : list (list Z)) (s : bqs) (size : nat)
    : bqs_result (list Z) :=
  match size with
  | O => SOk s []
  | S _ =>
      if bqs_node s =? fst (bqs_pos s) then
        read_loop (skipn (bqs_node s) nodes) (bqs_node s) (snd (bqs_pos s)) size [] s
      else SUB
  end.

(* ngx_buf_queue_stream.c:33-77 ngx_buf_queue_stream_md5: the same loop, the
   bytes are fed to the digest in order instead of being copied.  The digest
   itself is not modelled, the result is the sequence of bytes fed to it. *)
Definition bqs_md5 := bqs_read.

(* ngx_copy into a node at an offset *)
Definition overwrite (node data : list Z) (off : nat) : list Z :=
  firstn off node ++ data ++ skipn (off + length data) node.

(* ngx_buf_queue_stream.c:90-117 ngx_buf_queue_stream_write, the loop; returns
   the nodes from the current one after the write.  [data] is what remains to
   be written, its length is the variable size. *)
Fixpoint write_loop (rest : list (list Z)) (i off : nat) (data : list Z)
    (s : bqs) : bqs_result (list (list Z)) :=
  match data with
  | [] => SOk (mk_bqs (bqs_node s) (i, off)) rest
  | _ :: _ =>
      match rest with
      | [] => SUB
      | node :: rest' =>
          if length node <? off then SUB else
          let chunk := Nat.min (length node - off) (length data) in
          let node' := overwrite node (firstn chunk data) off in
          if length node <=? off + chunk then
            match rest' with
            | [] => SFail s [node']
            | _ :: _ =>
                match write_loop rest' (S i) 0 (skipn chunk data)
                        (mk_bqs (S i) (bqs_pos s)) with
                | SOk s' r => SOk s' (node' :: r)
                | SFail s' r => SFail s' (node' :: r)
                | SUB => SUB
                end
            end
          else SOk (mk_bqs (bqs_node s) (i, off + chunk)) (node' :: rest')
      end
  end.

(* ngx_buf_queue_stream.c:80-121 *)
Definition bqs_write (nodes : list (list Z)) (s : bqs) (data : list Z)
    : bqs_result (list (list Z)) :=
  match data with
  | [] => SOk s nodes
  | _ :: _ =>
      if bqs_node s =? fst (bqs_pos s) then
        match write_loop (skipn (bqs_node s) nodes) (bqs_node s)
                (snd (bqs_pos s)) data s with
        | SOk s' r => SOk s' (firstn (bqs_node s) nodes ++ r)
        | SFail s' r => SFail s' (firstn (bqs_node s) nodes ++ r)
        | SUB => SUB
        end
      else SUB
  end.

(* ngx_buf_queue_stream.c:168-196 ngx_buf_queue_stream_skip, the loop *)
Fixpoint skip_loop (rest : list (list Z)) (i off size : nat) (s : bqs)
    : bqs_result unit :=
  match rest with
  | [] => SUB
  | node :: rest' =>
      if length node <? off then SUB else
      if size <? length node - off then
        SOk (mk_bqs (bqs_node s) (i, off + size)) tt
      else
        match rest' with
        | [] => SFail s tt
        | _ :: _ => skip_loop rest' (S i) 0 (size - (length node - off))
                      (mk_bqs (S i) (bqs_pos s))
        end
  end.

Definition bqs_skip (nodes : list (list Z)) (s : bqs) (size : nat)
    : bqs_result unit :=
  if bqs_node s =? fst (bqs_pos s) then
    skip_loop (skipn (bqs_node s) nodes) (bqs_node s) (snd (bqs_pos s)) size s
  else SUB.
