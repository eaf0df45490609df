(* Model of helpers of the transcoder: utils/samples_stats.c, utils/time_estimator.c,
   transcode/transcode_dropper.c and common/vector.c. *)
From Coq Require Import List ZArith Bool.
Import ListNotations.
Local Open Scope Z_scope.

Definition upd {A} (f : Z -> A) (i : Z) (x : A) : Z -> A := fun j => if j =? i then x else f j.

(* ---- samples_stats.c ---- *)

(* samples_stats.h:15,16 *)
Definition hist_size : Z := 700.
Definition hist_ticks : Z := 10 * 90000.

(* samples_stats.h:18-46, the fields of the window; [ss_hist] is history[],
   frame size and dts.  head and tail are uint64_t, -1 is 2^64 - 1. *)
Record sstats := mk_ss { ss_head : Z; ss_tail : Z; ss_hist : Z -> Z * Z; ss_total : Z }.

(* samples_stats.c:13-28; history is not cleared *)
Definition ss_init (h : Z -> Z * Z) : sstats := mk_ss (2 ^ 64 - 1) (2 ^ 64 - 1) h 0.

(* samples_stats.c:30-41 drain; [n] is at least head - tail *)
Fixpoint ss_drain (n : nat) (s : sstats) (clock : Z) : sstats :=
  if ss_tail s <? ss_head s then
    let '(size, dts) := ss_hist s (ss_tail s mod hist_size) in
    if (clock - dts) mod 2 ^ 64 <? hist_ticks then s
    else
      match n with
      | O => s
      | S n => ss_drain n (mk_ss (ss_head s) ((ss_tail s + 1) mod 2 ^ 64) (ss_hist s) (ss_total s - size)) clock
      end
  else s.

(* samples_stats.c:73-92 samples_stats_add, without the statistics derived from the
   window; frameSize is stored as uint32_t *)
Definition ss_add (s : sstats) (dts size : Z) : sstats :=
  let head := (ss_head s + 1) mod 2 ^ 64 in
  let tail := if head =? 0 then 0 else ss_tail s in
  let s := mk_ss head tail (upd (ss_hist s) (head mod hist_size) (size mod 2 ^ 32, dts)) (ss_total s + size) in
  ss_drain (Z.to_nat (head - tail)) s dts.

(* ---- time_estimator.c ---- *)

(* time_estimator.h TIME_ESTIMATOR_FIFO_SIZE *)
Definition fifo_size : Z := 100.

(* time_estimator.h clock_estimator_t; samples are dts and clock *)
Record clockest := mk_ce { ce_head : Z; ce_tail : Z; ce_samples : Z -> Z * Z }.

(* time_estimator.c:13-16 clock_estimator_init *)
Definition ce_init (f : Z -> Z * Z) : clockest := mk_ce (-1) (-1) f.

(* time_estimator.c:17-30 clock_estimator_push_frame *)
Definition ce_push (c : clockest) (dts clock : Z) : clockest :=
  let '(head, tail) := if ce_tail c =? -1 then (0, 0) else (ce_head c + 1, ce_tail c) in
  let tail := if head - tail >=? fifo_size then tail + 1 else tail in
  mk_ce head tail (upd (ce_samples c) (Z.rem head fifo_size) (dts, clock)).

(* time_estimator.c:39-58, the loop of get_clock, with [n] samples to go; [None] is
   a signed overflow *)
Definition in64 (z : Z) : bool := (- 2 ^ 63 <=? z) && (z <? 2 ^ 63).
Fixpoint ce_loop (n : nat) (f : Z -> Z * Z) (runner dts distance clock : Z) : option Z :=
  match n with
  | O => Some clock
  | S n =>
      let '(sdts, sclock) := f (Z.rem runner fifo_size) in
      let d := dts - sdts in
      if in64 d && in64 (Z.abs d) then
        if Z.abs d <? distance then
          if in64 (d + sclock) then
            if d =? 0 then Some (d + sclock)
            else ce_loop n f (runner - 1) dts (Z.abs d) (d + sclock)
          else None
        else ce_loop n f (runner - 1) dts distance clock
      else None
  end.

(* time_estimator.c:32-60 clock_estimator_get_clock, before the conversion of the
   result to uint64_t *)
Definition ce_get (c : clockest) (dts : Z) : option Z :=
  if ce_tail c =? -1 then Some 0
  else ce_loop (Z.to_nat (ce_head c - ce_tail c + 1)) (ce_samples c) (ce_head c) dts (2 ^ 63 - 1) 0.

(* ---- transcode_dropper.c ---- *)

(* transcode_dropper.h transcode_dropper_t; [enabled] is tested by the caller *)
Record dropper := mk_dr { dr_wait : bool; dr_nonkey : Z; dr_decoded : Z; dr_count : Z; dr_skipped : Z }.

(* transcode_dropper.c:11-18, and transcode_session.c:48-51, which sets thresholds
   from the configuration, in seconds.  The session is a static object (main.c:31),
   waitForKeyFrame starts as false. *)
Definition dr_init (nonkey decoded : Z) : dropper := mk_dr false (nonkey * 90000) (decoded * 90000) 0 0.

(* the parts of an AVFrame that are looked at, and key_frame, which is not *)
Record avframe := mk_fr { fr_dts : Z; fr_flags : Z; fr_key_frame : bool }.

(* AV_PKT_FLAG_KEY is 1 *)
Definition key_flag (flags : Z) : bool := Z.testbit flags 0.

(* transcode_dropper.c:20-56 transcode_dropper_should_drop_frame.  The conversion
   of the delay to int is not modelled: it matters beyond 2^31 seconds. *)
Definition drop_frame (d : dropper) (last : Z) (f : avframe) : dropper * bool :=
  if key_flag (fr_flags f) then (mk_dr (dr_wait d) (dr_nonkey d) (dr_decoded d) (dr_count d) 0, false)
  else
    let wait := last - fr_dts f in
    if (wait >? dr_decoded d) && (wait <? dr_nonkey d) then
      let '(count, skipped) :=
        if (dr_count d =? 0) || (dr_skipped d >? dr_count d) then
          let delay := Z.quot wait 90000 in
          let c := if delay >? 1 then 1 else dr_count d in
          let c := if delay >? 2 then 2 else c in
          let c := if delay >? 3 then 3 else c in
          (c, 0)
        else (dr_count d, dr_skipped d) in
      (mk_dr (dr_wait d) (dr_nonkey d) (dr_decoded d) count (skipped + 1), skipped >? 0)
    else (d, false).

(* transcode_dropper.c:58-80 transcode_dropper_should_drop_packet *)
Definition drop_packet (d : dropper) (last dts flags : Z) : dropper * bool :=
  let wait := dr_wait d || (last - dts >? dr_nonkey d) in
  if wait then
    if key_flag flags then (mk_dr false (dr_nonkey d) (dr_decoded d) (dr_count d) (dr_skipped d), false)
    else (mk_dr true (dr_nonkey d) (dr_decoded d) (dr_count d) (dr_skipped d), true)
  else (d, false).

(* ---- vector.c ---- *)

(* vector.h: items has exactly [capacity] entries; an entry that was never
   written is [None].  int overflow, at 2^30 items, is not modelled. *)
Record vector := mk_vec { v_items : list (option Z); v_total : nat }.
Definition v_capacity (v : vector) : nat := length (v_items v).

Definition set_nth {A} (l : list A) (i : nat) (x : A) : option (list A) :=
  if Nat.ltb i (length l) then Some (firstn i l ++ x :: skipn (S i) l) else None.

(* vector.c:14-19 vector_init *)
Definition vec_init : vector := mk_vec (repeat None 4) 0.

(* vector.c:26-37 vector_resize; [ok] says whether realloc succeeds *)
Definition vec_resize (v : vector) (capacity : nat) (ok : bool) : vector :=
  if ok then mk_vec (firstn capacity (v_items v) ++ repeat None (capacity - length (v_items v))) (v_total v)
  else v.

(* vector.c:39-44 vector_add; [None] is a write outside of items *)
Definition vec_add (v : vector) (x : Z) (ok : bool) : option vector :=
  let v := if Nat.eqb (v_capacity v) (v_total v) then vec_resize v (v_capacity v * 2) ok else v in
  match set_nth (v_items v) (v_total v) (Some x) with
  | Some l => Some (mk_vec l (S (v_total v)))
  | None => None
  end.

(* vector.c:46-50 vector_set *)
Definition vec_set (v : vector) (i : Z) (x : Z) : option vector :=
  if (0 <=? i) && (i <? Z.of_nat (v_total v)) then
    match set_nth (v_items v) (Z.to_nat i) (Some x) with
    | Some l => Some (mk_vec l (v_total v))
    | None => None
    end
  else Some v.

(* vector.c:52-57 vector_get; NULL is 0; the outer option is undefined behaviour:
   a read outside of items or of an entry that was never written *)
Definition vec_get (v : vector) (i : Z) : option Z :=
  if (0 <=? i) && (i <? Z.of_nat (v_total v)) then
    match nth_error (v_items v) (Z.to_nat i) with
    | Some (Some x) => Some x
    | _ => None
    end
  else Some 0.

(* vector.c:66-69, the loop of vector_delete, with [n] steps to go *)
Fixpoint vec_shift (n i : nat) (l : list (option Z)) : option (list (option Z)) :=
  match n with
  | O => Some l
  | S n =>
      match nth_error l (S i) with
      | Some x =>
          match set_nth l i x with
          | Some l => match set_nth l (S i) (Some 0) with Some l => vec_shift n (S i) l | None => None end
          | None => None
          end
      | None => None
      end
  end.

(* vector.c:59-75 vector_delete *)
Definition vec_delete (v : vector) (i : Z) (ok : bool) : option vector :=
  if (i <? 0) || (i >=? Z.of_nat (v_total v)) then Some v
  else
    let i := Z.to_nat i in
    match set_nth (v_items v) i (Some 0) with
    | Some l =>
        match vec_shift (v_total v - 1 - i) i l with
        | Some l =>
            let v := mk_vec l (v_total v - 1) in
            Some (if (Nat.ltb 0 (v_total v)) && (Nat.eqb (v_total v) (Nat.div (v_capacity v) 4))
                  then vec_resize v (Nat.div (v_capacity v) 2) ok else v)
        | None => None
        end
    | None => None
    end.
