(* What a served timeline means. *)
From Coq Require Import List ZArith Bool.
From Verif Require Import SegListModel SegListSpec TimelineModel TimelineSpec ServeModel.
Import ListNotations.
Local Open Scope Z_scope.

(* the segments that a block describes: a start, and durations with counts *)
Fixpoint number (index time : Z) (ds : list Z) : list seg :=
  match ds with [] => [] | d :: r => mk_seg index time d :: number (index + 1) (time + d) r end.
Definition block_segs (b : block) : list seg :=
  number (sb_index b) (sb_time b) (flat_map (fun e => repeat (fst e) (Z.to_nat (snd e))) (sb_elts b)).

(* the segments of a period up to an index; the one with that index may be pending: its duration is not known *)
Definition upto (max : Z) (pend : bool) (ss : list seg) : list seg :=
  map (fun s => if pend && (s_index s =? max) then mk_seg (s_index s) (s_time s) 0 else s) (filter (fun s => s_index s <=? max) ss).
Definition some_segs (l : list seg) : bool := match l with [] => false | _ => true end.
Definition served (max : Z) (pend : bool) (M : list (list seg)) : list (list seg) := filter some_segs (map (upto max pend) M).

(* the first segments of a manifest are left out *)
Fixpoint leave_out (k : nat) (M : list (list seg)) : list (list seg) :=
  match M with
  | [] => []
  | ss :: r => if Nat.leb (length ss) k then leave_out (k - length ss) r else skipn k ss :: r
  end.
(* the duration of the segments below an index *)
Definition dur_below (max : Z) (l : list seg) : Z := sum_dur (filter (fun s => s_index s <? max) l).
