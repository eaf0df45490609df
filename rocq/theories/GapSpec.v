(* What is known about the segments of a track, as functions of what happened.
   Nothing here uses the functions of the model but for the type of histories. *)
From Coq Require Import ZArith List Bool.
From Verif Require Import Bytes GapModel.
Import ListNotations.
Open Scope Z_scope.

(* The value at segment i of a list of changes (index, value): that of the last change at
   or before i, or v0. *)
Definition rate_at (v0 : Z) (l : list (Z * Z)) (i : Z) : Z :=
  fold_left (fun v e => if fst e <=? i then snd e else v) l v0.

(* The segments that were created.  An index that is not after all earlier ones says
   nothing new. *)
Fixpoint made (last : option Z) (h : list op) : list (Z * Z) :=
  match h with
  | [] => []
  | Created i b :: h =>
      if match last with Some k => k <? i | None => true end then (i, b) :: made (Some i) h else made last h
  | Freed _ :: h => made last h
  end.
(* The segments from here on have not been freed. *)
Fixpoint freed_to (h : list op) : Z :=
  match h with [] => 0 | Created _ _ :: h => freed_to h | Freed m :: h => Z.max m (freed_to h) end.

(* Values of type uint32_t; the largest one is not a segment. *)
Definition op_ok (o : op) : Prop :=
  match o with Created i b => 0 <= i < 2 ^ 32 - 1 /\ 0 <= b < 2 ^ 32 | Freed m => 0 <= m < 2 ^ 32 end.
(* The bounds in percent. *)
Definition conf_ok (c : conf) : Prop := 1 <= c_lower c < 2 ^ 31 /\ 0 <= c_upper c < 2 ^ 31.

(* The bitrate v stands for a segment of bitrate b: 0 is a gap; without bitrates 1 is any
   segment. *)
Definition stands_for (c : conf) (b v : Z) : Prop :=
  (v = 0 <-> b = 0)
  /\ (c_bitrate c = true -> v = b \/ b * c_lower c <= v * 100 <= b * c_upper c).

(* The tree has the nodes of the queue, in order. *)
Definition tree_of (t : tree) (x : ctx) : Prop := inorder t = seq 0 (length (x_nodes x)).

(* ----- saving *)
(* After a file that ends with segment k, later segments are created, and segments up to
   k at most are freed. *)
Definition op_after (k : Z) (o : op) : Prop := match o with Created i _ => k < i | Freed f => f <= k end.
Fixpoint later_ok (c : conf) (x : ctx) (k : Z) (fs : list (list op * Z * tree)) : Prop :=
  match fs with
  | [] => True
  | (h, max, t) :: fs =>
      Forall op_ok h /\ Forall (op_after k) h /\ k < max < 2 ^ 32 - 1 /\ tree_of t (run c x h) /\ later_ok c (run c x h) max fs
  end.
(* The first file starts with segment m, which is not freed. *)
Definition saves_ok (c : conf) (m : Z) (fs : list (list op * Z * tree)) : Prop :=
  match fs with
  | [] => True
  | (h, max, t) :: fs =>
      Forall op_ok h /\ 0 <= m /\ freed_to h <= m <= max /\ max < 2 ^ 32 - 1 /\ tree_of t (run c (init c) h) /\ later_ok c (run c (init c) h) max fs
  end.
(* All that happened, and the last segment that was saved. *)
Definition history (fs : list (list op * Z * tree)) : list op := concat (map (fun f => fst (fst f)) fs).
Definition last_saved (k : Z) (fs : list (list op * Z * tree)) : Z := fold_left (fun _ f => snd (fst f)) fs k.

(* ----- after a restart *)
(* less than 42.9 Mbit/s *)
Definition op_small (o : op) : Prop := match o with Created _ b => b * 100 < 2 ^ 32 | Freed _ => True end.
(* Segments after k. *)
Definition op_new (k : Z) (o : op) : Prop := match o with Created i _ => k < i | Freed _ => True end.
(* The segments that were created, up to k. *)
Definition until (k : Z) (l : list (Z * Z)) : list (Z * Z) := filter (fun e => fst e <=? k) l.
