(* Model of nginx-live-module/src/ngx_live_input_bufs.c: the buffers that hold
   the input of the tracks, and the locks readers take on them.

   The buffer queues are those of BufQueueModel.  Objects (buffer queues, locks)
   are identified by numbers that are never used again, so that a use of a
   freed lock or object shows as the outcome [UB].  The memory budget of a
   channel is shared by its queues in the code; here every queue has its own,
   and a refusal because of the others' use is a failed answer of the
   allocator, which has the same effect.  Left out: logging, the JSON status,
   the channel's watermark event (whose handlers call set_min_used), the block
   pool (BlockPoolModel; an allocation may fail), and overflow of the 32 bit
   reference counts. *)
From Coq Require Import ZArith List Bool.
From Verif Require Import BufQueueModel.
Import ListNotations.
Open Scope Z_scope.

(* ngx_live_input_bufs.c:28-34 ngx_live_input_bufs_lock_s *)
Record lock := mkLock {
  l_id : nat;
  l_index : Z;          (* segment_index *)
  l_refs : Z;           (* ref_count *)
  l_ptr : Z }.

(* ngx_live_input_bufs.c:16-25 ngx_live_input_bufs_t.  [b_locks] is the queue
   read from its last element to its first one. *)
Record bufs := mkBufs {
  b_id : nat;
  b_channel : nat;      (* the list the object is in *)
  b_q : bq;             (* buf_queue *)
  b_locks : list lock;
  b_refs : Z;           (* ref_count *)
  b_lock_count : Z;
  b_min_index : Z;      (* min_segment_index *)
  b_min_ptr : Z;
  b_no_partial : bool }.

(* A track and the object it points to (ngx_live_input_bufs_track_ctx_t). *)
Record world := mkWorld {
  w_bufs : list bufs;
  w_tracks : list (nat * nat);
  w_next : nat }.

Definition world0 : world := mkWorld [] [] 0.

(* The outcome of a call: the lock returned by lock(), the pointer returned by
   get(), the buffers given back to the allocator; or undefined behaviour. *)
Inductive ret := RNone | RLock (id : nat) | RPtr (p : Z).
Inductive result := Done (w : world) (r : ret) (released : list Z) | UB.

Definition find_bufs (w : world) (id : nat) : option bufs :=
  List.find (fun b => Nat.eqb (b_id b) id) (w_bufs w).
Definition find_track (w : world) (t : nat) : option nat :=
  option_map snd (List.find (fun x => Nat.eqb (fst x) t) (w_tracks w)).
Definition put_bufs (w : world) (b : bufs) : world :=
  mkWorld (map (fun x => if Nat.eqb (b_id x) (b_id b) then b else x) (w_bufs w))
    (w_tracks w) (w_next w).
Definition drop_bufs (w : world) (id : nat) : world :=
  mkWorld (filter (fun x => negb (Nat.eqb (b_id x) id)) (w_bufs w)) (w_tracks w) (w_next w).
Definition drop_track (w : world) (t : nat) : world :=
  mkWorld (w_bufs w) (filter (fun x => negb (Nat.eqb (fst x) t)) (w_tracks w)) (w_next w).

Definition set_q (b : bufs) (q : bq) : bufs :=
  mkBufs (b_id b) (b_channel b) q (b_locks b) (b_refs b) (b_lock_count b)
    (b_min_index b) (b_min_ptr b) (b_no_partial b).
Definition set_refs (b : bufs) (n : Z) : bufs :=
  mkBufs (b_id b) (b_channel b) (b_q b) (b_locks b) n (b_lock_count b)
    (b_min_index b) (b_min_ptr b) (b_no_partial b).
Definition set_locks (b : bufs) (l : list lock) (refs count : Z) : bufs :=
  mkBufs (b_id b) (b_channel b) (b_q b) l refs count
    (b_min_index b) (b_min_ptr b) (b_no_partial b).
Definition set_min (b : bufs) (i p : Z) : bufs :=
  mkBufs (b_id b) (b_channel b) (b_q b) (b_locks b) (b_refs b) (b_lock_count b)
    i p (b_no_partial b).
Definition set_linked (b : bufs) : bufs :=
  mkBufs (b_id b) (b_channel b) (b_q b) (b_locks b) (b_refs b + 1) (b_lock_count b)
    (b_min_index b) (b_min_ptr b) true.

(* ngx_live_input_bufs.c:152-190 ngx_live_input_bufs_create, 555-569
   ngx_live_input_bufs_track_init *)
Definition create (w : world) (t channel : nat) (size max_free mem : Z) (alloc : bool) : result :=
  if negb alloc then Done w RNone []
  else
    match bq_init size max_free mem with
    | None => Done w RNone []
    | Some q =>
        Done (mkWorld (w_bufs w ++ [mkBufs (w_next w) channel q [] 1 0 0 0 false])
                (w_tracks w ++ [(t, w_next w)]) (S (w_next w))) RNone []
    end.

(* ngx_queue_head(&input_bufs->locks) *)
Definition first_lock (b : bufs) : option lock := hd_error (rev (b_locks b)).

(* ngx_live_input_bufs.c:193-222 ngx_live_input_bufs_free_bufs *)
Definition free_bufs (b : bufs) : bufs * list Z :=
  if b_no_partial b then (b, [])
  else if b_min_index b <=? 0 then (b, [])
  else
    let ptr :=
      match first_lock b with
      | Some l => if l_index l <? b_min_index b then l_ptr l else b_min_ptr b
      | None => b_min_ptr b
      end in
    match bq_free_upto (b_q b) ptr with
    | BqOk q _ rel => (set_q b q, rel)
    | BqUB => (b, [])
    end.

(* ngx_live_input_bufs.c:225-252 ngx_live_input_bufs_free *)
Definition free (w : world) (b : bufs) : world * list Z :=
  if b_refs b <=? 0 then (w, [])
  else
    let b1 := set_refs b (b_refs b - 1) in
    if 0 <? b_refs b1 then
      let (b2, rel) := free_bufs b1 in (put_bufs w b2, rel)
    else
      match b_locks b1 with
      | _ :: _ => (put_bufs w b1, [])
      | [] =>
          match bq_delete (b_q b1) with
          | BqOk _ _ rel => (drop_bufs w (b_id b), rel)
          | BqUB => (w, [])
          end
      end.

(* ngx_live_input_bufs.c:255-284 ngx_live_input_bufs_get; [r] is the answer of
   the allocator *)
Definition get (w : world) (t : nat) (r : option Z) : result :=
  match find_track w t with
  | None => UB
  | Some i =>
      match find_bufs w i with
      | None => UB
      | Some b =>
          match bq_get (b_q b) r with
          | BqUB => UB
          | BqOk q p rel =>
              Done (put_bufs w (set_q b q))
                (match p with Some p => RPtr p | None => RNone end) rel
          end
      end
  end.

(* ngx_live_input_bufs.c:354-401, the search from the last lock backwards; a new
   lock goes behind the first one with a smaller index *)
Inductive scan_res := SNew (l : list lock) | SFound (l : list lock) (id : nat) | SBad.
Fixpoint scan (no_partial : bool) (new : lock) (locks : list lock) : scan_res :=
  match locks with
  | [] => SNew [new]
  | cur :: rest =>
      let found := SFound (mkLock (l_id cur) (l_index cur) (l_refs cur + 1) (l_ptr cur) :: rest)
                     (l_id cur) in
      if no_partial then found
      else if l_index new <? l_index cur then
        match scan no_partial new rest with
        | SNew l => SNew (cur :: l)
        | SFound l id => SFound (cur :: l) id
        | SBad => SBad
        end
      else if l_index cur <? l_index new then SNew (new :: cur :: rest)
      else if l_ptr cur =? l_ptr new then found
      else SBad
  end.

(* ngx_live_input_bufs.c:337-407 ngx_live_input_bufs_lock *)
Definition take_lock (w : world) (t : nat) (index ptr : Z) (alloc : bool) : result :=
  match find_track w t with
  | None => UB
  | Some i =>
      match find_bufs w i with
      | None => UB
      | Some b =>
          match scan (b_no_partial b) (mkLock (w_next w) index 1 ptr) (b_locks b) with
          | SBad => Done w RNone []
          | SFound l id =>
              Done (put_bufs w (set_locks b l (b_refs b) (b_lock_count b + 1))) (RLock id) []
          | SNew l =>
              if negb alloc then Done w RNone []
              else
                let w1 := put_bufs w (set_locks b l (b_refs b + 1) (b_lock_count b + 1)) in
                Done (mkWorld (w_bufs w1) (w_tracks w1) (S (w_next w1))) (RLock (w_next w)) []
          end
      end
  end.

(* the lock a pointer refers to, and its object *)
Definition owner (w : world) (id : nat) : option bufs :=
  List.find (fun b => existsb (fun l => Nat.eqb (l_id l) id) (b_locks b)) (w_bufs w).

(* ngx_live_input_bufs.c:410-436 ngx_live_input_bufs_unlock *)
Definition unlock (w : world) (id : nat) : result :=
  match owner w id with
  | None => UB
  | Some b =>
      match List.find (fun l => Nat.eqb (l_id l) id) (b_locks b) with
      | None => UB
      | Some l =>
          if l_refs l <=? 0 then Done w RNone []
          else if 0 <? l_refs l - 1 then
            Done (put_bufs w
                    (set_locks b
                       (map (fun x => if Nat.eqb (l_id x) id
                                      then mkLock (l_id x) (l_index x) (l_refs x - 1) (l_ptr x)
                                      else x) (b_locks b))
                       (b_refs b) (b_lock_count b - 1))) RNone []
          else
            let b1 := set_locks b
                        (filter (fun x => negb (Nat.eqb (l_id x) id)) (b_locks b))
                        (b_refs b) (b_lock_count b - 1) in
            let (w1, rel) := free (put_bufs w b1) b1 in
            Done w1 RNone rel
      end
  end.

(* ngx_live_input_bufs.c:463-483 ngx_live_input_bufs_set_min_used *)
Definition set_min_used (w : world) (t : nat) (index ptr : Z) : result :=
  match find_track w t with
  | None => UB
  | Some i =>
      match find_bufs w i with
      | None => UB
      | Some b =>
          let (b1, rel) := free_bufs (set_min b index ptr) in
          Done (put_bufs w b1) RNone rel
      end
  end.

(* ngx_live_input_bufs.c:486-505 ngx_live_input_bufs_link *)
Definition link (w : world) (dst src : nat) : result :=
  match find_track w src, find_track w dst with
  | Some s, Some d =>
      match find_bufs w d with
      | None => UB
      | Some bd =>
          let (w1, rel) := free w bd in
          match find_bufs w1 s with
          | None => UB
          | Some bs =>
              let w2 := put_bufs w1 (set_linked bs) in
              Done (mkWorld (w_bufs w2)
                      (map (fun x => if Nat.eqb (fst x) dst then (fst x, s) else x) (w_tracks w2))
                      (w_next w2)) RNone rel
          end
      end
  | _, _ => UB
  end.

Definition detach (b : bufs) : bufs :=
  match bq_detach (b_q b) with
  | BqOk q _ _ => set_q b q
  | BqUB => b
  end.

(* ngx_live_input_bufs.c:526-552 ngx_live_input_bufs_channel_free *)
Definition channel_free (w : world) (c : nat) : result :=
  Done (mkWorld (map (fun b => if Nat.eqb (b_channel b) c then detach b else b) (w_bufs w))
          (w_tracks w) (w_next w)) RNone [].

(* ngx_live_input_bufs.c:571-588 ngx_live_input_bufs_track_free *)
Definition track_free (w : world) (t : nat) : result :=
  match find_track w t with
  | None => Done w RNone []
  | Some i =>
      match find_bufs w i with
      | None => UB
      | Some b =>
          let b1 := detach b in
          let (w1, rel) := free (put_bufs w b1) b1 in
          Done (drop_track w1 t) RNone rel
      end
  end.

Inductive op :=
| OTrack (t channel : nat) (size max_free mem : Z) (alloc : bool)
| OGet (t : nat) (answer : option Z)
| OLock (t : nat) (index ptr : Z) (alloc : bool)
| OUnlock (id : nat)
| OSetMin (t : nat) (index ptr : Z)
| OLink (dst src : nat)
| OChannelFree (c : nat)
| OTrackFree (t : nat).

Definition step (w : world) (o : op) : result :=
  match o with
  | OTrack t c size max_free mem alloc => create w t c size max_free mem alloc
  | OGet t r => get w t r
  | OLock t i p alloc => take_lock w t i p alloc
  | OUnlock id => unlock w id
  | OSetMin t i p => set_min_used w t i p
  | OLink d s => link w d s
  | OChannelFree c => channel_free w c
  | OTrackFree t => track_free w t
  end.

(* ngx_live_input_bufs.c:287-334 ngx_live_input_bufs_read_chain: store [data],
   one buffer after the other; the result is the chain of (address, bytes).
   None: undefined behaviour.  [answers] are the answers of the allocator;
   running out of them is a failed allocation.  The chain links are always
   allocated. *)
Fixpoint read_chain (fuel : nat) (w : world) (t : nat) (answers : list (option Z))
    (data : list Z) : option (world * option (list (Z * list Z))) :=
  match fuel with
  | O => None
  | S fuel' =>
      match find_track w t with
      | None => None
      | Some i =>
          match find_bufs w i with
          | None => None
          | Some b =>
              let size := Z.to_nat (bq_alloc_size (b_q b) - node_size) in
              match get w t (hd None answers) with
              | UB => None
              | Done w1 (RPtr p) _ =>
                  if Nat.leb (length data) size then Some (w1, Some [(p, data)])
                  else
                    match read_chain fuel' w1 t (tl answers) (skipn size data) with
                    | None => None
                    | Some (w2, None) => Some (w2, None)
                    | Some (w2, Some chain) => Some (w2, Some ((p, firstn size data) :: chain))
                    end
              | Done w1 _ _ => Some (w1, None)
              end
          end
      end
  end.
