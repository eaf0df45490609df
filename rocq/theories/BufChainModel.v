(* Model of nginx-common/src/ngx_buf_chain.c: helpers on a chain of data
   fragments.  A chain (ngx_buf_chain_t list) is a list of byte lists; the NULL
   pointer is the empty list. *)
From Coq Require Import ZArith List Bool Arith.
Import ListNotations.

(* ngx_buf_chain.c:6-18 ngx_buf_chain_seek: index of the fragment returned and
   the remaining offset; None models the NULL dereference at the end. *)
Fixpoint chain_seek (head : list (list Z)) (offset : nat) : option (nat * nat) :=
  match head with
  | [] => None
  | f :: rest =>
      if offset <? length f then Some (0, offset)
      else match chain_seek rest (offset - length f) with
           | Some (i, o) => Some (S i, o)
           | None => None
           end
  end.

(* ngx_buf_chain.c:21-44 ngx_buf_chain_skip: (NGX_OK?, *head_ptr afterwards).
   The first remaining fragment is trimmed in place. *)
Fixpoint chain_skip (head : list (list Z)) (size : nat) : bool * list (list Z) :=
  match size with
  | O => (true, head)
  | S _ =>
      match head with
      | [] => (false, [])
      | f :: rest =>
          if size <? length f then (true, skipn size f :: rest)
          else chain_skip rest (size - length f)
      end
  end.

(* ngx_buf_chain.c:47-74 ngx_buf_chain_copy: (success?, bytes stored at buf,
   *head_ptr afterwards) *)
Fixpoint chain_copy (head : list (list Z)) (size : nat)
    : bool * list Z * list (list Z) :=
  match size with
  | O => (true, [], head)
  | S _ =>
      match head with
      | [] => (false, [], [])
      | f :: rest =>
          if size <? length f then (true, firstn size f, skipn size f :: rest)
          else
            match chain_copy rest (size - length f) with
            | (ok, out, h) => (ok, f ++ out, h)
            end
      end
  end.

(* ngx_memcmp on the first n bytes: the sign of the first difference (bytes
   compared as unsigned) *)
Fixpoint memcmp (a b : list Z) (n : nat) {struct n} : Z :=
  match n, a, b with
  | O, _, _ => 0
  | S n', x :: a', y :: b' =>
      if Z.ltb x y then -1 else if Z.ltb y x then 1 else memcmp a' b' n'
  | _, _, _ => 0
  end%Z.

(* ngx_buf_chain.c:77-104 ngx_buf_chain_compare, the loop; [p] is what remains
   of the size bytes at buf *)
Fixpoint chain_compare_loop (head : list (list Z)) (p : list Z) : Z :=
  match head with
  | [] => 1%Z
  | f :: rest =>
      if length p <=? length f then memcmp p f (length p)
      else
        let rc := memcmp p f (length f) in
        if Z.eqb rc 0 then chain_compare_loop rest (skipn (length f) p) else rc
  end.

Definition chain_compare (head : list (list Z)) (buf : list Z) : Z :=
  match buf with
  | [] => 0%Z
  | _ :: _ => chain_compare_loop head buf
  end.

(* ngx_buf_chain.c:107-127 ngx_buf_chain_get_tail.  size is a uint32_t, so
   "size <= 0" means size == 0 and the subtraction wraps; None models the NULL
   dereference at the end of the chain. *)
Fixpoint chain_get_tail (data : list (list Z)) (size : Z) : option nat :=
  match data with
  | [] => None
  | f :: rest =>
      let size' := ((size - Z.of_nat (length f)) mod 2 ^ 32)%Z in
      if (size' <=? 0)%Z then Some 0
      else match chain_get_tail rest size' with
           | Some i => Some (S i)
           | None => None
           end
  end.

(* ngx_buf_chain.c:130-138 ngx_buf_chain_terminate: the chain afterwards *)
Definition chain_terminate (data : list (list Z)) (size : Z)
    : option (list (list Z)) :=
  match chain_get_tail data size with
  | Some i => Some (firstn (S i) data)
  | None => None
  end.
