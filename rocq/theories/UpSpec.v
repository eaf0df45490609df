(* What an upstream is asked to send, and which histories there are. *)

From Coq Require Import List ZArith Bool.
From Verif Require Import BufQueueModel BufQueueSpec UpModel.
Import ListNotations.
Open Scope Z_scope.

(* the bytes that an event asks to be sent *)
Definition asked (op : uop) : list Z :=
  match op with UWrite l _ _ | UFill l _ _ => l | _ => [] end.

Definition somes (l : list (option Z)) : list Z :=
  flat_map (fun x => match x with Some a => [a] | None => [] end) l.

(* is a byte in a buffer that is in use *)
Definition in_use (u : up) (a : Z) : Prop :=
  exists n, In n (bq_used (u_q u)) /\ n + 8 <= a < n + bq_alloc_size (u_q u).

Definition uop_ok (u : up) (op : uop) : Prop :=
  match op with
  (* the allocator gives memory that is not used here *)
  | UWrite l al a => all_apart (bq_alloc_size (u_q u)) (somes al ++ held (u_q u))
  | UFill l al a => all_apart (bq_alloc_size (u_q u)) (somes al ++ held (u_q u))
  (* nobody else changes the buffers in use *)
  | UOther mem => forall a, in_use u a -> mem a = u_mem u a
  | _ => True
  end.

(* histories: the state, all that was asked for, whether all events succeeded *)
Inductive up_run (size max_free limit : Z) : up -> list Z -> bool -> Prop :=
  | up_start : forall mem u, up_init size max_free limit mem = Some u -> up_run size max_free limit u [] true
  | up_step : forall u w ok op u' ok', up_run size max_free limit u w ok -> uop_ok u op -> up_op u op = Some (u', ok') ->
      up_run size max_free limit u' (w ++ asked op) (ok && ok').

(* what is still to be sent *)
Definition pending (u : up) : list Z :=
  flat_map (fun r => rd (u_mem u) (fst r) (snd r)) (u_busy u) ++ rd (u_mem u) (u_pos u) (u_last u).
