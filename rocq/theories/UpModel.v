(* A model of how an RTMP upstream collects what is written to it and sends it.

   Modelled: nginx-kmp-rtmp-module/src/ngx_kmp_rtmp_upstream.c:96-176 (send),
   179-205 (alloc_chain_buf), 208-252 (append), 254-333 (write), 336-361
   (flush), 364-421 (get_buf), 424-438 (flush_handler), 527-535
   (stream_removed), 586-625 (write_handler), over the buffer queue of
   BufQueueModel.v.

   Memory is a function from addresses to bytes.  Whatever is not in a buffer
   that is in use may change at any time.  A write outside the buffers in use is
   the result None.

   What the connection does is an argument of every event: it is not there or
   not ready (also: the handshake is not over), it takes a number of bytes, or
   it fails.  Logging, statistics and the write timeout are not modelled. *)

From Coq Require Import List ZArith Bool.
From Verif Require Import BufQueueModel.
Import ListNotations.
Open Scope Z_scope.

Definition zl {A} (l : list A) : Z := Z.of_nat (length l).

(* the bytes from p to e *)
Definition rd (mem : Z -> Z) (p e : Z) : list Z :=
  map (fun i => mem (p + Z.of_nat i)) (seq 0 (Z.to_nat (e - p))).

(* mem with l at p *)
Definition wr (mem : Z -> Z) (p : Z) (l : list Z) : Z -> Z :=
  fun a => if (p <=? a) && (a <? p + zl l) then nth (Z.to_nat (a - p)) l 0 else mem a.

(* the part of ngx_kmp_rtmp_upstream_t that matters here: the links of busy and
   free are the pos and last of their buffers; pos, last and end are those of
   active_buf; wire is what the connection took; none says that the queue of
   streams is empty; done, that finalize was called with "done"; timer is
   flush.timer_set *)
Record up := Up {
  u_q : bq;
  u_mem : Z -> Z;
  u_busy : list (Z * Z);
  u_free : list (Z * Z);
  u_pos : Z;
  u_last : Z;
  u_end : Z;
  u_err : bool;
  u_cerr : bool;
  u_wire : list Z;
  u_none : bool;
  u_done : bool;
  u_timer : bool
}.

(* upstream.c:936-998: ngx_kmp_rtmp_upstream_create; mem is the memory as it is *)
Definition up_init (size max_free limit : Z) (mem : Z -> Z) : option up :=
  match bq_init size max_free limit with
  | Some q => Some (Up q mem [] [] 0 0 0 false false [] true false false)
  | None => None
  end.

Definition set_timer (u : up) (t : bool) : up :=
  Up (u_q u) (u_mem u) (u_busy u) (u_free u) (u_pos u) (u_last u) (u_end u) (u_err u) (u_cerr u) (u_wire u) (u_none u) (u_done u) t.
Definition set_err (u : up) : up :=
  Up (u_q u) (u_mem u) (u_busy u) (u_free u) (u_pos u) (u_last u) (u_end u) true (u_cerr u) (u_wire u) (u_none u) (u_done u) (u_timer u).
Definition set_cerr (u : up) : up :=
  Up (u_q u) (u_mem u) (u_busy u) (u_free u) (u_pos u) (u_last u) (u_end u) (u_err u) true (u_wire u) (u_none u) (u_done u) (u_timer u).
Definition set_done (u : up) : up :=
  Up (u_q u) (u_mem u) (u_busy u) (u_free u) (u_pos u) (u_last u) (u_end u) (u_err u) (u_cerr u) (u_wire u) (u_none u) true (u_timer u).
Definition set_none (u : up) (b : bool) : up :=
  Up (u_q u) (u_mem u) (u_busy u) (u_free u) (u_pos u) (u_last u) (u_end u) (u_err u) (u_cerr u) (u_wire u) b (u_done u) (u_timer u).
Definition set_mem (u : up) (m : Z -> Z) : up :=
  Up (u_q u) m (u_busy u) (u_free u) (u_pos u) (u_last u) (u_end u) (u_err u) (u_cerr u) (u_wire u) (u_none u) (u_done u) (u_timer u).
Definition set_active (u : up) (p l e : Z) : up :=
  Up (u_q u) (u_mem u) (u_busy u) (u_free u) p l e (u_err u) (u_cerr u) (u_wire u) (u_none u) (u_done u) (u_timer u).
Definition set_q (u : up) (q : bq) : up :=
  Up q (u_mem u) (u_busy u) (u_free u) (u_pos u) (u_last u) (u_end u) (u_err u) (u_cerr u) (u_wire u) (u_none u) (u_done u) (u_timer u).
Definition set_chains (u : up) (b f : list (Z * Z)) (w : list Z) : up :=
  Up (u_q u) (u_mem u) b f (u_pos u) (u_last u) (u_end u) (u_err u) (u_cerr u) w (u_none u) (u_done u) (u_timer u).

(* what the connection does *)
Inductive net := Idle | Takes (k : Z) | Fails.

(* c->send_chain: the bytes it takes, the links that were sent completely, the
   links that are left *)
Fixpoint send_chain (mem : Z -> Z) (k : Z) (busy : list (Z * Z)) : list Z * list (Z * Z) * list (Z * Z) :=
  match busy with
  | [] => ([], [], [])
  | (p, l) :: r =>
      if l - p <=? k then
        let '(o, s, rest) := send_chain mem (k - (l - p)) r in (rd mem p l ++ o, (p, l) :: s, rest)
      else (rd mem p (p + Z.max 0 k), [], (p + Z.max 0 k, l) :: r)
  end.

(* upstream.c:96-176: ngx_kmp_rtmp_upstream_send; false is NGX_ERROR *)
Definition send (u : up) (a : net) : option (up * bool) :=
  if u_cerr u then Some (u, false)
  else
    match a with
    | Idle => Some (u, true)
    | _ =>
        match u_busy u with
        | [] => Some (u, true)
        | _ =>
            match a with
            | Takes k =>
                let '(o, s, rest) := send_chain (u_mem u) k (u_busy u) in
                let free := rev s ++ u_free u in
                match (match rest with
                       | (p, _) :: _ => Some p
                       | [] => match free with (_, l) :: _ => Some (l - 1) | [] => None end
                       end) with
                | Some limit =>
                    match bq_free_upto (u_q u) limit with
                    | BqOk q _ _ =>
                        let u1 := set_chains (set_q u q) rest free (u_wire u ++ o) in
                        match rest with
                        | [] => Some (if u_none u1 && (u_last u1 <=? u_pos u1) then set_done u1 else u1, true)
                        | _ => Some (u1, true)
                        end
                    | BqUB => None
                    end
                | None => None
                end
            | _ => Some (set_cerr u, false)
            end
        end
    end.

(* sizeof(ngx_chain_t) + sizeof(ngx_buf_t) *)
Definition link_size : Z := 96.

(* upstream.c:208-252: ngx_kmp_rtmp_upstream_append, with 179-205
   (ngx_kmp_rtmp_alloc_chain_buf); false is NGX_ERROR *)
Definition append (u : up) : up * bool :=
  if u_last u <=? u_pos u then (u, true)
  else
    let add q free :=
      (set_active (set_chains (set_q u q) (u_busy u ++ [(u_pos u, u_last u)]) free (u_wire u)) (u_last u) (u_last u) (u_end u), true) in
    match u_free u with
    | _ :: r => add (u_q u) r
    | [] =>
        match bq_mem_left (u_q u) with
        | Some m =>
            if m <? link_size then (u, false)
            else add (mk_bq (bq_alloc_size (u_q u)) (Some (m - link_size)) (bq_nbuffers (u_q u)) (bq_used (u_q u)) (bq_free (u_q u)) (bq_free_left (u_q u))) []
        | None => (u, false)
        end
    end.

(* a write of bytes at an address: it has to be inside a buffer in use *)
Definition store (u : up) (p : Z) (l : list Z) : option up :=
  if (zl l =? 0) || existsb (fun n => (node_start n <=? p) && (p + zl l <=? node_end (u_q u) n)) (bq_used (u_q u)) then
    Some (set_mem u (wr (u_mem u) p l))
  else None.

(* upstream.c:273-308: the loop of ngx_kmp_rtmp_upstream_write; al are the
   answers of the allocator; the results are the state, whether it succeeded,
   and appended *)
Fixpoint write_loop (fuel : nat) (u : up) (l : list Z) (al : list (option Z)) (appended : bool) : option (up * bool * bool) :=
  match l with
  | [] => Some (u, true, appended)
  | _ =>
      match fuel with
      | O => None
      | S fuel' =>
          let left := u_end u - u_last u in
          if left >? zl l then
            match store u (u_last u) l with
            | Some u1 => Some (set_active u1 (u_pos u1) (u_last u1 + zl l) (u_end u1), true, appended)
            | None => None
            end
          else
            match store u (u_last u) (firstn (Z.to_nat left) l) with
            | Some u1 =>
                let '(u2, ok) := append (set_active u1 (u_pos u1) (u_end u1) (u_end u1)) in
                if negb ok then Some (u2, false, appended)
                else
                  match bq_get (u_q u2) (hd None al) with
                  | BqOk q (Some p) _ =>
                      write_loop fuel' (set_active (set_q u2 q) p p (p + (bq_alloc_size q - node_size)))
                        (skipn (Z.to_nat left) l) (tl al) true
                  | BqOk q None _ => Some (set_q u2 q, false, appended)
                  | BqUB => None
                  end
            | None => None
            end
      end
  end.

(* upstream.c:254-333: ngx_kmp_rtmp_upstream_write *)
Definition write (u : up) (l : list Z) (al : list (option Z)) (a : net) : option (up * bool) :=
  if u_err u then Some (u, false)
  else
    match write_loop (length l + 2) u l al false with
    | Some (u1, ok, appended) =>
        if negb ok then Some (set_err u1, false)
        else
          let u2 := if appended || negb (u_timer u1) then set_timer u1 true else u1 in
          if appended then
            match send u2 a with
            | Some (u3, ok3) => if ok3 then Some (u3, true) else Some (set_err u3, false)
            | None => None
            end
          else Some (u2, true)
    | None => None
    end.

(* upstream.c:336-361: ngx_kmp_rtmp_upstream_flush *)
Definition flush (u : up) (a : net) : option (up * bool) :=
  let '(u1, ok) := append u in
  if negb ok then Some (u1, false)
  else match a with Idle => Some (u1, true) | _ => send u1 a end.

(* upstream.c:364-421: ngx_kmp_rtmp_upstream_get_buf, and the caller fills the
   memory with l *)
Definition fill (u : up) (l : list Z) (al : list (option Z)) (a : net) : option (up * bool) :=
  let finish (u : up) (p : Z) :=
    match store u p l with
    | Some u1 => Some (set_active u1 (u_pos u1) (p + zl l) (u_end u1), true)
    | None => None
    end in
  if u_err u then Some (u, false)
  else if zl l <? u_end u - u_last u then finish (set_timer u true) (u_last u)
  else if zl l >? bq_alloc_size (u_q u) - node_size then Some (set_err u, false)
  else
    match flush u a with
    | Some (u1, ok) =>
        if negb ok then Some (set_err u1, false)
        else
          match bq_get (u_q u1) (hd None al) with
          | BqOk q (Some p) _ => finish (set_timer (set_active (set_q u1 q) p (u_last u1) (p + (bq_alloc_size q - node_size))) true) p
          | BqOk q None _ => Some (set_err (set_q u1 q), false)
          | BqUB => None
          end
    | None => None
    end.

(* upstream.c:527-535: ngx_kmp_rtmp_upstream_stream_removed, after a stream was
   removed; none says that it was the last one *)
Definition removed (u : up) (none : bool) : up :=
  let u1 := set_none u none in
  if none && match u_busy u with [] => true | _ => false end && (u_last u <=? u_pos u) then set_done u1 else u1.

(* the events: a frame writes part of it (write), a message is put into the
   buffer (get_buf), the flush timer, the connection is ready, a stream is added,
   a stream is removed, other code changes memory that is not used here *)
Inductive uop :=
  | UWrite (l : list Z) (al : list (option Z)) (a : net)
  | UFill (l : list Z) (al : list (option Z)) (a : net)
  | UFlush (a : net)
  | UReady (a : net)
  | UAdded
  | URemoved (none : bool)
  | UOther (mem : Z -> Z).

(* one event: the state, and whether it succeeded *)
Definition up_op (u : up) (op : uop) : option (up * bool) :=
  match op with
  | UWrite l al a => write u l al a
  | UFill l al a => fill u l al a
  | UFlush a => flush (set_timer u false) a
  | UReady a => send u a
  | UAdded => Some (set_none u false, true)
  | URemoved none => Some (removed u none, true)
  | UOther mem => Some (set_mem u mem, true)
  end.
