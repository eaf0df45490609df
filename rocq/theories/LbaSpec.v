(* Histories of the allocator of large buffers, with the buffers in use. *)
From Coq Require Import List Arith Bool.
From Verif Require Import LbaModel.
Import ListNotations.

Definition buf_eqb (x y : buf) : bool := (fst x =? fst y) && (snd x =? snd y).
Definition drop (b : buf) (live : list buf) : list buf :=
  filter (fun c => negb (buf_eqb b c)) live.

(* All histories: allocations, with any results of mmap, and frees of buffers
   in use. *)
Inductive reach (debug : bool) (bufs bins : nat) : lba -> list buf -> Prop :=
| r_init : reach debug bufs bins (lba_create debug bufs bins) []
| r_alloc : forall l live ok b l',
    reach debug bufs bins l live -> lba_alloc l ok = LBuf b l' ->
    reach debug bufs bins l' (b :: live)
| r_null : forall l live ok l',
    reach debug bufs bins l live -> lba_alloc l ok = LNull l' ->
    reach debug bufs bins l' live
| r_free : forall l live b l',
    reach debug bufs bins l live -> In b live -> lba_free l b = LDone l' ->
    reach debug bufs bins l' (drop b live).

(* the blocks that are mapped: those some bin holds *)
Definition mapped (l : lba) (b : nat) : Prop := exists i, i <= l_bin_count l /\ In b (l_blocks l i).

(* how many buffers of a block are in use *)
Definition in_use (live : list buf) (b : nat) : nat :=
  length (filter (fun x => fst x =? b) live).

(* a sequence of calls, for examples: true allocates, and a number frees the
   buffer returned by that call *)
Inductive call := CAlloc | CFree (b : buf).
Fixpoint run (l : lba) (cs : list call) : lres :=
  match cs with
  | [] => LDone l
  | [CAlloc] => lba_alloc l true
  | [CFree b] => lba_free l b
  | CAlloc :: r => match lba_alloc l true with LBuf _ l' => run l' r | e => e end
  | CFree b :: r => match lba_free l b with LDone l' => run l' r | e => e end
  end.
