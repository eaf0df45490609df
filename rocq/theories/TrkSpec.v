(* What the tracks of an RTMP upstream are expected to do. *)

From Coq Require Import List ZArith Bool Arith.
From Verif Require Import TrkModel.
Import ListNotations.
Open Scope Z_scope.

(* the frames that wait in a list, oldest first *)
Definition content (l : flist) : list frame := skipn (l_off l) (concat (l_parts l)).

Definition pend (u : ups) (i : nat) : list frame :=
  match nth_error (u_tracks u) i with Some t => content (t_fl t) | None => [] end.

(* the metadata of the track's stream was written: its frames may be written *)
Definition ready (u : ups) (i : nat) : Prop :=
  exists t s, nth_error (u_tracks u) i = Some t /\ nth_error (u_streams u) (t_sid t) = Some s /\ s_meta s = true.

(* the frames of a track among those that were written *)
Definition of_track (i : nat) (o : list (nat * frame)) : list frame :=
  map snd (filter (fun x => (fst x =? i)%nat) o).

(* the stream of a track *)
Definition sid_of (u : ups) (i : nat) : nat :=
  match nth_error (u_tracks u) i with Some t => t_sid t | None => 0%nat end.

(* unpublish finds a buffer *)
Definition top_ok (op : top) : Prop :=
  match op with TDisc _ unpub | TProc _ unpub => unpub = true | _ => True end.

(* what is wanted of each track: all frames that were accepted; a track that
   connects again drops what was not written yet *)
Definition want_step (u : ups) (now : Z) (op : top) (want : nat -> list frame) : nat -> list frame :=
  fun i =>
    match op with
    | TAdd j dts id _ => if (i =? j)%nat then want i ++ [Frame now dts id] else want i
    | TConn sid media =>
        match find_track u sid media with
        | Some j => if (i =? j)%nat then of_track i (u_out u) else want i
        | None => want i
        end
    | _ => want i
    end.

(* the time at which the metadata of a stream was written *)
Definition meta_step (now : Z) (op : top) (rt : nat -> Z) : nat -> Z :=
  fun s => match op with TMeta sid => if (s =? sid)%nat then now else rt s | _ => rt s end.

(* the process timer does not fire later than late after its time *)
Definition on_time (late : option Z) (u : ups) (now : Z) : Prop :=
  match late with Some l => forall d, u_timer u = Some d -> now <= d + l | None => True end.

(* histories: the time, the state, what is wanted, when metadata was written *)
Inductive trun (c : conf) (late : option Z) : Z -> ups -> (nat -> list frame) -> (nat -> Z) -> Prop :=
  | trun_start : forall now, trun c late now ups0 (fun _ => []) (fun _ => 0)
  | trun_step : forall now u want rt now' op u' acc,
      trun c late now u want rt -> now <= now' -> on_time late u now' -> top_ok op ->
      top_step c now' u op = (Go u', acc) ->
      trun c late now' u' (if acc then want_step u now' op want else want) (if acc then meta_step now' op rt else rt).
