(* Model of nginx-common/src/ngx_lba.c, the allocator of large buffers (the
   default build, without NGX_LBA_SKIP).

   The queue of active bins is modelled with its pointers, because
   ngx_queue_remove of nginx clears the pointers of the removed node only in
   NGX_DEBUG builds and the code tests them; [debug] selects the build.  The
   queues of blocks in a bin are lists: a block is removed from one queue only
   to be inserted in another, or unmapped.  The list of free buffers of a block
   is a list of buffer numbers instead of links stored in the buffers. *)
From Coq Require Import List Arith Bool ZArith.
Import ListNotations.

Definition upd {A} (f : nat -> A) (i : nat) (x : A) : nat -> A :=
  fun j => if i =? j then x else f j.

(* ngx_lba.c:21-27 ngx_lba_block_header_t *)
Record block := mk_block {
  bk_bin : nat; bk_free : list nat; bk_inited : nat; bk_used : nat
}.

(* ngx_lba.c:35-49.  l_next and l_prev are the queue fields of the bins, None is
   NULL; bin number l_bin_count is the sentinel, lba->active.  l_blocks are the
   blocks fields of the bins, l_count the number of blocks mapped so far: block
   numbers are never reused. *)
Record lba := mk_lba {
  l_debug : bool; l_bin_count : nat; l_initial : nat; l_bufs : nat;
  l_next : nat -> option nat; l_prev : nat -> option nat;
  l_blocks : nat -> list nat;
  l_block : nat -> block;
  l_count : nat
}.

(* A buffer: its block and its number in the block *)
Definition buf : Type := nat * nat.

Inductive lres := LBuf (b : buf) (l : lba) | LNull (l : lba) | LDone (l : lba) | LUB.

Definition with_queue (l : lba) (nx pv : nat -> option nat) : lba :=
  mk_lba (l_debug l) (l_bin_count l) (l_initial l) (l_bufs l) nx pv
    (l_blocks l) (l_block l) (l_count l).
Definition with_blocks (l : lba) (bl : nat -> list nat) (b : nat -> block) : lba :=
  mk_lba (l_debug l) (l_bin_count l) (l_initial l) (l_bufs l) (l_next l) (l_prev l)
    bl b (l_count l).

(* nginx ngx_queue.h, ngx_queue_insert_head (also insert_after): x->next =
   h->next; x->next->prev = x; x->prev = h; h->next = x *)
Definition insert_head (l : lba) (h x : nat) : option lba :=
  match l_next l h with
  | None => None
  | Some n =>
      let nx := upd (l_next l) x (Some n) in
      let pv := upd (l_prev l) n (Some x) in
      Some (with_queue l (upd nx h (Some x)) (upd pv x (Some h)))
  end.

(* ngx_queue_insert_tail, which the code also uses as insert_before
   (ngx_lba.c:14): x->prev = h->prev; x->prev->next = x; x->next = h;
   h->prev = x *)
Definition insert_tail (l : lba) (h x : nat) : option lba :=
  match l_prev l h with
  | None => None
  | Some p =>
      let pv := upd (l_prev l) x (Some p) in
      let nx := upd (l_next l) p (Some x) in
      Some (with_queue l (upd nx x (Some h)) (upd pv h (Some x)))
  end.

(* ngx_queue_remove: x->next->prev = x->prev; x->prev->next = x->next; and in
   debug builds x->prev = NULL; x->next = NULL *)
Definition queue_remove (l : lba) (x : nat) : option lba :=
  match l_next l x, l_prev l x with
  | Some n, Some p =>
      let pv := upd (l_prev l) n (Some p) in
      let nx := upd (l_next l) p (Some n) in
      Some (if l_debug l then with_queue l (upd nx x None) (upd pv x None)
            else with_queue l nx pv)
  | _, _ => None
  end.

Definition remove_block (b : nat) (q : list nat) : list nat :=
  filter (fun c => negb (b =? c)) q.

Definition is_nil {A} (l : list A) : bool := match l with [] => true | _ => false end.

Definition bin_of (l : lba) (used : nat) : nat := used * l_bin_count l / l_bufs l.

(* ngx_lba.c:92-131 ngx_lba_block_alloc; [ok] is the result of mmap *)
Definition block_alloc (l : lba) (ok : bool) : lres :=
  if negb ok then LNull l
  else
    let b := l_count l in
    let i := l_initial l in
    let l1 := mk_lba (l_debug l) (l_bin_count l) (l_initial l) (l_bufs l)
                (l_next l) (l_prev l)
                (upd (l_blocks l) i (l_blocks l i ++ [b]))
                (upd (l_block l) b (mk_block i [] 1 1)) (S b) in
    match l_next l1 i with
    | Some _ => LBuf (b, 0) l1
    | None =>
        match insert_head l1 (l_bin_count l1) i with
        | Some l2 => LBuf (b, 0) l2
        | None => LUB
        end
    end.

(* ngx_lba.c:134-148 ngx_lba_block_free *)
Definition block_free (l : lba) (b : nat) : lres :=
  let i := bk_bin (l_block l b) in
  let l1 := with_blocks l (upd (l_blocks l) i (remove_block b (l_blocks l i))) (l_block l) in
  if is_nil (l_blocks l1 i) then
    match queue_remove l1 i with
    | Some l2 => LDone l2
    | None => LUB
    end
  else LDone l1.

(* ngx_lba.c:189-193 and 239-243: moving a block to another bin *)
Definition move_block (l : lba) (b : nat) (o n : nat) : lba :=
  let bk := l_block l b in
  let bl := upd (l_blocks l) o (remove_block b (l_blocks l o)) in
  with_blocks l (upd bl n (bl n ++ [b]))
    (upd (l_block l) b (mk_block n (bk_free bk) (bk_inited bk) (bk_used bk))).

(* ngx_lba.c:151-207 ngx_lba_block_alloc_buf *)
Definition block_alloc_buf (l : lba) (b : nat) : lres :=
  let bk := l_block l b in
  match
    match bk_free bk with
    | k :: r => Some (k, mk_block (bk_bin bk) r (bk_inited bk) (S (bk_used bk)))
    | [] =>
        if bk_inited bk <? l_bufs l then
          Some (bk_inited bk,
                mk_block (bk_bin bk) [] (S (bk_inited bk)) (S (bk_used bk)))
        else None
    end
  with
  | None => LNull l
  | Some (k, bk') =>
      let l1 := with_blocks l (l_blocks l) (upd (l_block l) b bk') in
      let o := bk_bin bk in
      let n := bin_of l (bk_used bk') in
      if n =? o then LBuf (b, k) l1
      else
        let l2 := move_block l1 b o n in
        match
          match l_next l2 n with
          | None => insert_head l2 o n
          | Some _ => Some l2
          end
        with
        | None => LUB
        | Some l3 =>
            if is_nil (l_blocks l3 o) then
              match queue_remove l3 o with
              | Some l4 => LBuf (b, k) l4
              | None => LUB
              end
            else LBuf (b, k) l3
        end
  end.

(* ngx_lba.c:222-224: the first or the last block of bin 0 is not [b] *)
Definition other_in_bin0 (l : lba) (b : nat) : bool :=
  match l_blocks l 0 with
  | [] => false
  | h :: r => negb (h =? b) || negb (last (h :: r) h =? b)
  end.

(* ngx_lba.c:210-253 ngx_lba_block_free_buf *)
Definition block_free_buf (l : lba) (b k : nat) : lres :=
  let bk := l_block l b in
  let used := bk_used bk - 1 in
  let l1 := with_blocks l (l_blocks l)
    (upd (l_block l) b (mk_block (bk_bin bk) (bk_free bk) (bk_inited bk) used)) in
  if (used =? 0) && other_in_bin0 l1 b then block_free l1 b
  else
    let l2 := with_blocks l1 (l_blocks l1)
      (upd (l_block l1) b (mk_block (bk_bin bk) (k :: bk_free bk) (bk_inited bk) used)) in
    let o := bk_bin bk in
    let n := bin_of l used in
    if n =? o then LDone l2
    else
      let l3 := move_block l2 b o n in
      match
        match l_next l3 n with
        | None => insert_tail l3 o n
        | Some _ => Some l3
        end
      with
      | None => LUB
      | Some l4 =>
          if is_nil (l_blocks l4 o) && negb (o =? l_bin_count l4) then
            match queue_remove l4 o with
            | Some l5 => LDone l5
            | None => LUB
            end
          else LDone l4
      end.

(* ngx_lba.c:256-281 ngx_lba_alloc *)
Definition lba_alloc (l : lba) (ok : bool) : lres :=
  match l_prev l (l_bin_count l) with
  | None => LUB
  | Some q =>
      if q =? l_bin_count l then block_alloc l ok
      else
        match rev (l_blocks l q) with
        | [] => LNull l
        | b :: _ => block_alloc_buf l b
        end
  end.

(* ngx_lba.c:284-294 ngx_lba_free: the header before the buffer gives the block *)
Definition lba_free (l : lba) (b : buf) : lres := block_free_buf l (fst b) (snd b).

(* ngx_lba.c:314-368 ngx_lba_create, after the sizes are checked: the number of
   buffers in a block and the number of bins asked for *)
Definition lba_create (debug : bool) (block_bufs bin_count : nat) : lba :=
  let bc := if block_bufs <? bin_count then block_bufs else bin_count in
  mk_lba debug bc (bc / block_bufs) block_bufs
    (fun i => if i =? bc then Some bc else None)
    (fun i => if i =? bc then Some bc else None)
    (fun _ => []) (fun _ => mk_block 0 [] 0 0) 0.

(* ngx_lba.c:19, 327-335: sizes in bytes.  A block is NGX_LBA_BLOCK_SIZE bytes
   with a header of 40 bytes, a buffer has a header of 8 bytes. *)
Local Open Scope Z_scope.
Definition BLOCK_SIZE : Z := 512 * 1024.
Definition lba_sizes (buf_size : Z) : option (Z * Z) :=
  if buf_size <? 8 then None
  else
    let buf_size := buf_size + 8 in
    let block_bufs := (BLOCK_SIZE - 40) / buf_size in
    if block_bufs <=? 0 then None else Some (buf_size, block_bufs).

(* ngx_lba.c:165-170: where a buffer starts in its block *)
Definition buf_offset (stride : Z) (k : Z) : Z := 40 + stride * k + 8.
