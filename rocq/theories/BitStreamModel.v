(* Model of nginx-mpegts-module/src/ngx_ts_bit_stream.c.

   The buffer is a list of bytes; pos and last are indices into it.  An access outside
   of the buffer or a shift by 64 or more is BUB. *)
From Coq Require Import List ZArith Bool.
Import ListNotations.
Local Open Scope Z_scope.

(* ngx_ts_bit_stream.h:23-28 ngx_ts_bit_stream_t, and the buffer *)
Record bs := mk_bs { b_buf : list Z; b_pos : nat; b_last : nat; b_left : Z; b_err : bool }.

Inductive bres (A : Type) := BOk (a : A) (s : bs) | BUB.
Arguments BOk {A} _ _.
Arguments BUB {A}.

(* ngx_ts_bit_stream.c:6-14 ngx_ts_bit_stream_init; the buffer starts at 0 *)
Definition bs_init (buf : list Z) (len : nat) : bs := mk_bs buf 0 len 8 false.

(* ngx_ts_bit_stream.c:17-40 ngx_ts_bit_stream_read_one *)
Definition read_one (s : bs) : bres Z :=
  if b_err s then BOk 0 s
  else if Nat.leb (b_last s) (b_pos s) then BOk 0 (mk_bs (b_buf s) (b_pos s) (b_last s) (b_left s) true)
  else
    match nth_error (b_buf s) (b_pos s) with
    | None => BUB
    | Some byte =>
        let left := b_left s - 1 in
        let v := Z.land (Z.shiftr byte left) 1 in
        BOk v (if left <=? 0 then mk_bs (b_buf s) (S (b_pos s)) (b_last s) 8 false
               else mk_bs (b_buf s) (b_pos s) (b_last s) left false)
    end.

(* ngx_ts_bit_stream.c:57-84, the loop of ngx_ts_bit_stream_read; [f] bounds the steps *)
Fixpoint read_loop (f : nat) (s : bs) (v n : Z) : bres Z :=
  if n =? 0 then BOk v s
  else
    match f with
    | O => BUB
    | S f =>
        if Nat.leb (b_last s) (b_pos s) then BOk v (mk_bs (b_buf s) (b_pos s) (b_last s) (b_left s) true)
        else
          match nth_error (b_buf s) (b_pos s) with
          | None => BUB
          | Some byte =>
              let k := Z.min (b_left s) n in
              let n := n - k in
              let left := b_left s - k in
              let cv := Z.land (Z.shiftr byte left) (Z.shiftr 255 (8 - k)) in
              if n >=? 64 then BUB
              else
                let v := Z.lor v (Z.shiftl cv n mod 2 ^ 64) in
                if left >? 0 then BOk v (mk_bs (b_buf s) (b_pos s) (b_last s) left false)
                else read_loop f (mk_bs (b_buf s) (S (b_pos s)) (b_last s) 8 false) v n
          end
    end.
(* ngx_ts_bit_stream.c:43-87 ngx_ts_bit_stream_read *)
Definition bs_read (s : bs) (bits : Z) : bres Z :=
  if b_err s then BOk 0 s else read_loop (Z.to_nat bits) s 0 bits.

Definition upd (l : list Z) (i : nat) (x : Z) : list Z := firstn i l ++ [x] ++ skipn (S i) l.

(* ngx_ts_bit_stream.c:90-109 ngx_ts_bit_stream_write_one; v is 32 bits *)
Definition write_one (s : bs) (v : Z) : bres unit :=
  if b_err s then BOk tt s
  else if Nat.leb (b_last s) (b_pos s) then BOk tt (mk_bs (b_buf s) (b_pos s) (b_last s) (b_left s) true)
  else
    match nth_error (b_buf s) (b_pos s) with
    | None => BUB
    | Some byte =>
        let left := b_left s - 1 in
        let buf := upd (b_buf s) (b_pos s) (Z.lor byte (Z.shiftl (Z.land v 1) left) mod 256) in
        BOk tt (if left <=? 0 then mk_bs buf (S (b_pos s)) (b_last s) 8 false
                else mk_bs buf (b_pos s) (b_last s) left false)
    end.

(* ngx_ts_bit_stream.c:124-151, the loop of ngx_ts_bit_stream_write *)
Fixpoint write_loop (f : nat) (s : bs) (v n : Z) : bres unit :=
  if n =? 0 then BOk tt s
  else
    match f with
    | O => BUB
    | S f =>
        if Nat.leb (b_last s) (b_pos s) then BOk tt (mk_bs (b_buf s) (b_pos s) (b_last s) (b_left s) true)
        else
          match nth_error (b_buf s) (b_pos s) with
          | None => BUB
          | Some byte =>
              let k := Z.min (b_left s) n in
              let n := n - k in
              if n >=? 64 then BUB
              else
                let cv := Z.land (Z.shiftr v n) (Z.shiftr 255 (8 - k)) mod 256 in
                let left := b_left s - k in
                let buf := upd (b_buf s) (b_pos s) (Z.lor byte (Z.shiftl cv left) mod 256) in
                if left >? 0 then BOk tt (mk_bs buf (b_pos s) (b_last s) left false)
                else write_loop f (mk_bs buf (S (b_pos s)) (b_last s) 8 false) v n
          end
    end.
(* ngx_ts_bit_stream.c:112-152 ngx_ts_bit_stream_write *)
Definition bs_write (s : bs) (bits v : Z) : bres unit :=
  if b_err s then BOk tt s else write_loop (Z.to_nat bits) s v bits.

(* ngx_ts_bit_stream.h:40-51 ngx_ts_bit_stream_size from the start of the buffer *)
Definition bs_size (s : bs) : Z := Z.of_nat (b_pos s) + (if b_left s <? 8 then 1 else 0).

(* several fields: width and value *)
Fixpoint write_fields (s : bs) (fs : list (Z * Z)) : bres unit :=
  match fs with
  | [] => BOk tt s
  | (w, v) :: fs => match bs_write s w v with BOk _ s => write_fields s fs | BUB => BUB end
  end.
Fixpoint read_fields (s : bs) (ws : list Z) : bres (list Z) :=
  match ws with
  | [] => BOk [] s
  | w :: ws =>
      match bs_read s w with
      | BUB => BUB
      | BOk v s => match read_fields s ws with BUB => BUB | BOk vs s => BOk (v :: vs) s end
      end
  end.
