(* What can happen to a channel, in which order, and the words the properties of
   the segment index are stated in.  Nothing here depends on how the index
   module works: fits says what its callers do. *)

From Coq Require Import ZArith List Bool Lia.
From Verif Require Import IdxModel.
Import ListNotations.
Open Scope Z_scope.

(* A sound configuration. *)
Definition sane (c : conf) : Prop :=
  1 <= c_bucket c /\ 0 <= c_force c /\ 0 <= c_maxd c /\ 0 <= c_init c.

(* What the callers do:
   - indexes are created in increasing order, and not for a segment that is
     closed; a number fits in 32 bits (ngx_live_segmenter.c:3083-3088,
     ngx_live_segmenter_ll.c:905-920);
   - a snapshot is taken for the last index, before its segment is closed
     (ngx_live_segmenter_ll.c:1810), and there is memory for it;
   - only a write that was started ends;
   - only a segment that was not freed is read, and a reader is in one place;
   - the first segment of the timelines does not go back, nor beyond the next
     segment (ngx_live_timeline.c:1749, 2063);
   - no index is waiting for its segment when the last track becomes inactive
     (ngx_live_segmenter_ll.c:1598).
   Nothing happens to a channel the code gave up on, but that it is freed, and
   nothing happens then. *)
Definition fits (s : st) (o : op) : Prop :=
  s_err s = false /\
  match o with
  | ICreate k => s_next s <= k /\ s_top s < k /\ k < 4294967295
  | ISnap ok =>
      ok = true /\ exists x, last_idx (s_all s) = Some x /\ s_next s <= x_key x
  | IReady _ => True
  | IMediaDone b _ => exists x, In x (s_all s) /\ In (CWrite b) (x_cln x)
  | ILock k i =>
      exists x, In x (s_all s) /\ x_key x = k /\ x_free x = false /\
        forall y, In y (s_all s) -> ~ In (CRead i) (x_cln y)
  | IUnlock _ => True
  | IWriteDone _ _ => s_wr s <> None
  | IWatermark => True
  | IExpire m => s_min s <= m <= s_next s
  | IHist => True
  | IInactive => forall x, In x (s_all s) -> x_key x < s_next s
  | IFree => False
  end.

(* Everything that can have happened to a channel so far. *)
Inductive reach (c : conf) : st -> Prop :=
| reach_init : forall orc, reach c (init c orc)
| reach_step : forall s o, reach c s -> fits s o -> reach c (step c s o).

(* The same, with storage that works: every write can be started and succeeds,
   memory is not short, every segment is in a timeline when it is closed, and
   leaves the timelines only after its media file was written. *)
Definition calm (s : st) (o : op) : Prop :=
  fits s o /\
  match o with
  | IReady ex => ex = true
  | IMediaDone _ ok => ok = true
  | IWriteDone ok _ => ok = true
  | IWatermark => False
  | IExpire m => forall x, In x (s_all s) -> x_key x < m -> x_per x <> PNone
  | _ => True
  end.

Inductive reach_calm (c : conf) : st -> Prop :=
| calm_init : reach_calm c (init c [])
| calm_step : forall s o, reach_calm c s -> calm s o -> reach_calm c (step c s o).

(* The same, with storage in which a write that is reported as failed changed
   nothing. *)
Definition honest (s : st) (o : op) : Prop :=
  fits s o /\
  match o with IWriteDone ok stored => ok = false -> stored = false | _ => True end.

Inductive reach_honest (c : conf) : st -> Prop :=
| honest_init : forall orc, reach_honest c (init c orc)
| honest_step : forall s o,
    reach_honest c s -> honest s o -> reach_honest c (step c s o).

(* The last file that was reported as written. *)
Fixpoint last_stored (out : list ev) : option file :=
  match out with
  | [] => None
  | EStored f :: _ => Some f
  | _ :: r => last_stored r
  end.

(* The frames snapshots that were taken, and those that were acknowledged or let
   go. *)
Definition taken (out : list ev) : list Z :=
  flat_map (fun e => match e with ESnap k => [k] | _ => [] end) out.
Definition closed (out : list ev) : list Z :=
  flat_map (fun e => match e with EAck k => [k] | EDrop k => [k] | _ => [] end) out.

(* The segments that were freed. *)
Definition freed (out : list ev) : list Z :=
  flat_map (fun e => match e with EFree k => [k] | _ => [] end) out.

Definition opt {A : Type} (o : option A) : list A :=
  match o with Some a => [a] | None => [] end.

(* The frames snapshots that are kept: by the segments, by the snapshot that
   waits for its turn and by the write in progress. *)
Definition kept (s : st) : list Z :=
  map sn_fr (flat_map (fun x => opt (x_snap x)) (s_all s)) ++
  map sn_fr (opt (s_psnap s)) ++ opt (s_wfr s).

(* The files whose write was started, the last one first. *)
Definition started (out : list ev) : list file :=
  flat_map (fun e => match e with EStart f => [f] | _ => [] end) out.

(* The media of a segment is in a file, could not be written, or is not needed
   any more. *)
Definition dealt (out : list ev) (k : Z) : Prop :=
  In (EMedia k) out \/ In (ELost k) out \/ In (EFree k) out.

(* The media of a segment is in a file, or could not be written. *)
Definition saved (s : st) (k : Z) : Prop := In (EMedia k) (s_out s) \/ In (ELost k) (s_out s).

(* Why the segment k may be freed when o happens: it left the timelines; memory
   is short; it is in no timeline when it is closed; it is older than the
   segments that are kept in memory, and its media file was dealt with. *)
Definition why (c : conf) (s : st) (o : op) (s' : st) (k : Z) : Prop :=
  match o with
  | IExpire m => k < m
  | IWatermark => k < s_next s
  | IReady ex =>
      (ex = false /\ k = s_next s) \/ (k + c_force c <= s_next s /\ saved s' k)
  | IMediaDone _ _ | IInactive =>
      (exists l, s_last s = Some l /\ k + c_force c <= l) /\ saved s' k
  | _ => False
  end.

(* A segment that is freed without being in a file is cut from the timelines
   (unless it is not in them): L is what was seen when o happened. *)
Definition cut (o : op) (s s' : st) (L : list ev) (k : Z) : Prop :=
  (exists m, o = IExpire m) \/ (o = IReady false /\ k = s_next s) \/
  In (EMedia k) (s_out s') \/ k <= 0 \/ exists t, k <= t /\ In (ETrunc t) L.

(* The segment k is in memory and i reads it. *)
Definition reading (s : st) (k i : Z) : Prop :=
  exists x, In x (s_all s) /\ x_key x = k /\ In (CRead i) (x_cln x).

(* What was seen since the state s. *)
Definition since (s s' : st) (l : list ev) : Prop := s_out s' = l ++ s_out s.
