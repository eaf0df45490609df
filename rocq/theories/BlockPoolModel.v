(* Model of nginx-live-module/src/ngx_block_pool.c (the default build, without
   NGX_BLOCK_POOL_SKIP) and ngx_block_str.c.

   Not modelled: logging, the JSON status, the NGX_DEBUG checks. *)
From Coq Require Import List Arith Bool.
From Verif Require Import Lists.
Import ListNotations.

(* An address is a region obtained from ngx_palloc and an offset in it. *)
Definition addr : Type := nat * nat.

Definition addr_eqb (a b : addr) : bool :=
  (fst a =? fst b) && (snd a =? snd b).

(* The first word of an item: a free list link or a block string link
   (ngx_block_pool.c:8, ngx_block_str.c:6-8), the slot number of an automatic
   allocation (ngx_block_pool.h:46-48), or anything else a user stores. *)
Inductive word := WNull | WPtr (a : addr) | WInt (n : nat) | WOther.

(* Memory: the first word of every item, and the bytes after it *)
Record mem := mk_mem { m_word : addr -> word; m_data : addr -> list nat }.

Definition set_word (m : mem) (a : addr) (w : word) : mem :=
  mk_mem (fun b => if addr_eqb a b then w else m_word m b) (m_data m).
Definition set_data (m : mem) (a : addr) (d : list nat) : mem :=
  mk_mem (m_word m) (fun b => if addr_eqb a b then d else m_data m b).

(* ngx_block_pool.h:17-33 ngx_block_pool_slot_t.  pos and end point into the
   same region: sl_chunk; both NULL is 0, 0. *)
Record slot := mk_slot {
  sl_size : nat; sl_nalloc : nat; sl_total : nat;
  sl_auto_used : nat; sl_auto_nalloc : nat;
  sl_alloc : nat;
  sl_head : option addr; sl_tail : option addr;
  sl_chunk : nat; sl_pos : nat; sl_end : nat
}.

(* ngx_block_pool.h:36-41; pl_chunks is the number of regions ngx_palloc has
   returned so far to this pool *)
Record pool := mk_pool { pl_limit : nat; pl_chunks : nat; pl_slots : list slot }.

(* ngx_block_pool.c:50-64 ngx_block_pool_init_slot and 181-192 of create.
   [page] is ngx_pagesize; the mask rounds up to a multiple of it. *)
Definition init_slot (page size : nat) : slot :=
  let size := if size <? 8 then 8 else size in
  mk_slot size 0 0 0 0 ((size * 4 + page - 1) / page * page) None None 0 0 0.

(* ngx_block_pool.c:163-197 ngx_block_pool_create *)
Definition pool_create (page limit : nat) (sizes : list nat) : pool :=
  mk_pool limit 0 (map (init_slot page) sizes).

Definition with_slot (p : pool) (i : nat) (s : slot) : pool :=
  mk_pool (pl_limit p) (pl_chunks p) (set_nth (pl_slots p) i s).

(* reading a free list link; a word that is not a link never occurs there (see
   BlockPoolProofs) and is read as NULL *)
Definition word_ptr (w : word) : option addr :=
  match w with WPtr a => Some a | _ => None end.

(* ngx_block_pool.c:67-106 ngx_block_pool_alloc_internal; [ok] tells whether
   ngx_palloc succeeds if it is called *)
Definition alloc_internal (p : pool) (m : mem) (i : nat) (s : slot) (ok : bool)
    : option addr * pool :=
  match sl_head s with
  | Some ptr =>
      (Some ptr,
       with_slot p i
         (mk_slot (sl_size s) (S (sl_nalloc s)) (sl_total s) (sl_auto_used s)
            (sl_auto_nalloc s) (sl_alloc s) (word_ptr (m_word m ptr)) (sl_tail s)
            (sl_chunk s) (sl_pos s) (sl_end s)))
  | None =>
      if sl_end s - sl_pos s <? sl_size s then
        if pl_limit p <? sl_alloc s then (None, p)
        else if negb ok then (None, p)
        else
          (Some (pl_chunks p, 0),
           mk_pool (pl_limit p - sl_alloc s) (S (pl_chunks p))
             (set_nth (pl_slots p) i
                (mk_slot (sl_size s) (S (sl_nalloc s)) (sl_total s + sl_alloc s)
                   (sl_auto_used s) (sl_auto_nalloc s) (sl_alloc s) None (sl_tail s)
                   (pl_chunks p) (sl_size s) (sl_alloc s))))
      else
        (Some (sl_chunk s, sl_pos s),
         with_slot p i
           (mk_slot (sl_size s) (S (sl_nalloc s)) (sl_total s) (sl_auto_used s)
              (sl_auto_nalloc s) (sl_alloc s) None (sl_tail s)
              (sl_chunk s) (sl_pos s + sl_size s) (sl_end s)))
  end.

(* ngx_block_pool.c:200-214 ngx_block_pool_alloc *)
Definition pool_alloc (p : pool) (m : mem) (i : nat) (ok : bool) : option addr * pool :=
  match nth_error (pl_slots p) i with
  | None => (None, p)
  | Some s => alloc_internal p m i s ok
  end.

(* ngx_block_pool.c:109-123 ngx_block_pool_free_list_internal *)
Definition free_list_internal (p : pool) (m : mem) (i : nat) (s : slot)
    (head tail : addr) : pool * mem :=
  let m' := match sl_head s, sl_tail s with
            | None, _ => m
            | Some _, Some t => set_word m t (WPtr head)
            | Some _, None => m (* never: the tail is set with the head *)
            end in
  let head' := match sl_head s with None => Some head | h => h end in
  (with_slot p i
     (mk_slot (sl_size s) (sl_nalloc s) (sl_total s) (sl_auto_used s)
        (sl_auto_nalloc s) (sl_alloc s) head' (Some tail)
        (sl_chunk s) (sl_pos s) (sl_end s)), m').

(* ngx_block_pool.c:257-288 ngx_block_pool_free_list *)
Definition pool_free_list (p : pool) (m : mem) (i : nat) (head tail : addr)
    : pool * mem :=
  match nth_error (pl_slots p) i with
  | None => (p, m)
  | Some s => free_list_internal p m i s head tail
  end.

(* ngx_block_pool.c:248-254 ngx_block_pool_free *)
Definition pool_free (p : pool) (m : mem) (i : nat) (ptr : addr) : pool * mem :=
  pool_free_list p (set_word m ptr WNull) i ptr ptr.

(* ngx_block_pool.c:291-304 ngx_block_pool_get_size *)
Definition pool_get_size (p : pool) (i : nat) : nat :=
  match nth_error (pl_slots p) i with None => 0 | Some s => sl_size s end.

(* ngx_block_pool.c:316-346, the search of ngx_block_pool_auto_alloc on the
   slot sizes; left and right + 1 are kept (right may be -1).  The result is the
   chosen index; None means no slot.  The outer option is the fuel. *)
Fixpoint auto_search (fuel : nat) (sizes : list nat) (left right1 size : nat)
    : option (option nat) :=
  match fuel with
  | O => None
  | S fuel' =>
      if right1 <=? left then
        if left <? length sizes then Some (Some left) else Some None
      else
        let index := (left + (right1 - 1)) / 2 in
        let s := nth index sizes 0 in
        if s <? size then auto_search fuel' sizes (index + 1) right1 size
        else if size <? s then auto_search fuel' sizes left index size
        else Some (Some index)
  end.

(* ngx_block_pool.c:307-373 ngx_block_pool_auto_alloc; the address returned is
   that of the header, the user gets it + 4 *)
Definition auto_alloc (p : pool) (m : mem) (size : nat) (ok : bool)
    : option addr * pool * mem :=
  let size := size + 4 in
  let sizes := map sl_size (pl_slots p) in
  match auto_search (S (length sizes)) sizes 0 (length sizes) size with
  | Some (Some i) =>
      match nth_error (pl_slots p) i with
      | Some s =>
          match alloc_internal p m i s ok with
          | (Some ptr, p') =>
              match nth_error (pl_slots p') i with
              | Some s' =>
                  (Some ptr,
                   with_slot p' i
                     (mk_slot (sl_size s') (sl_nalloc s') (sl_total s')
                        (sl_auto_used s' + size) (S (sl_auto_nalloc s'))
                        (sl_alloc s') (sl_head s') (sl_tail s')
                        (sl_chunk s') (sl_pos s') (sl_end s')),
                   set_word m ptr (WInt i))
              | None => (None, p', m)
              end
          | (None, p') => (None, p', m)
          end
      | None => (None, p, m)
      end
  | _ => (None, p, m)
  end.

(* ngx_block_pool.c:376-384 ngx_block_pool_auto_free *)
Definition auto_free (p : pool) (m : mem) (ptr : addr) : option (pool * mem) :=
  match m_word m ptr with
  | WInt i => Some (pool_free p m i ptr)
  | _ => None
  end.

(* ------------------------------------------------------------------ *)
(* ngx_block_str.c                                                     *)

(* ngx_block_str.h:18-22 *)
Record bstr := mk_bstr { bs_data : option addr; bs_len : nat; bs_block_len : nat }.

(* BUB marks a NULL or wild dereference; BFuel an unfinished loop of the model *)
Inductive bres (A : Type) := BOk (a : A) | BErr (p : pool) (m : mem) | BUB | BFuel.
Arguments BOk {A}. Arguments BErr {A}. Arguments BUB {A}. Arguments BFuel {A}.

(* ngx_block_str.c:67-76 ngx_block_str_free_data: cur->next is read after the
   node was given back to the pool *)
Fixpoint bstr_free_data (fuel : nat) (p : pool) (m : mem) (i : nat)
    (cur : option addr) : option (pool * mem) :=
  match cur with
  | None => Some (p, m)
  | Some c =>
      match fuel with
      | O => None
      | S fuel' =>
          let (p', m') := pool_free p m i c in
          bstr_free_data fuel' p' m' i (word_ptr (m_word m' c))
      end
  end.

(* ngx_block_str.c:33-54, the copy loop of ngx_block_str_set.  [last] is the
   node whose next field gets the next node (None: the local variable data);
   [data] is that local variable.  [oks] are the results of ngx_palloc. *)
Fixpoint bstr_fill (fuel : nat) (p : pool) (m : mem) (i block_len : nat)
    (oks : nat -> bool) (src : list nat) (data last : option addr)
    : bres (pool * mem * option addr) :=
  match src with
  | [] =>
      BOk (p, match last with None => m | Some l => set_word m l WNull end,
           match last with None => None | _ => data end)
  | _ :: _ =>
      match fuel with
      | O => BFuel
      | S fuel' =>
          match pool_alloc p m i (oks fuel') with
          | (None, p1) =>
              (* *last = NULL; ngx_block_str_free_data(data) *)
              let m1 := match last with None => m | Some l => set_word m l WNull end in
              let d := match last with None => None | _ => data end in
              match bstr_free_data (S fuel) p1 m1 i d with
              | Some (p2, m2) => BErr p2 m2
              | None => BFuel
              end
          | (Some cur, p1) =>
              let m1 := match last with None => m | Some l => set_word m l (WPtr cur) end in
              let d := match last with None => Some cur | _ => data end in
              let m2 := set_data m1 cur (firstn block_len src) in
              bstr_fill fuel' p1 m2 i block_len oks (skipn block_len src) d (Some cur)
          end
      end
  end.

(* ngx_block_str.c:11-64 ngx_block_str_set *)
Definition bstr_set (p : pool) (m : mem) (i : nat) (oks : nat -> bool)
    (dest : bstr) (src : list nat) : bres (pool * mem * bstr) :=
  let block_len := pool_get_size p i in
  if block_len <=? 8 then BErr p m
  else
    let block_len := block_len - 8 in
    match bstr_fill (length src) p m i block_len oks src None None with
    | BOk (p1, m1, data) =>
        match bstr_free_data (S (bs_len dest)) p1 m1 i (bs_data dest) with
        | Some (p2, m2) => BOk (p2, m2, mk_bstr data (length src) block_len)
        | None => BFuel
        end
    | BErr p1 m1 => BErr p1 m1
    | BUB => BUB
    | BFuel => BFuel
    end.

(* ngx_block_str.c:79-95 ngx_block_str_copy; copying no bytes from a NULL node
   is allowed, as ngx_copy compiles to memcpy of length 0 *)
Fixpoint bstr_copy_loop (fuel : nat) (m : mem) (block_len left : nat)
    (cur : option addr) : bres (list nat) :=
  if block_len <? left then
    match fuel, cur with
    | O, _ => BFuel
    | S fuel', Some c =>
        match bstr_copy_loop fuel' m block_len (left - block_len) (word_ptr (m_word m c)) with
        | BOk r => BOk (firstn block_len (m_data m c) ++ r)
        | e => e
        end
    | _, None => BUB
    end
  else
    match left, cur with
    | O, _ => BOk []
    | _, Some c => BOk (firstn left (m_data m c))
    | _, None => BUB
    end.

Definition bstr_copy (m : mem) (s : bstr) : bres (list nat) :=
  bstr_copy_loop (bs_len s) m (bs_block_len s) (bs_len s) (bs_data s).
