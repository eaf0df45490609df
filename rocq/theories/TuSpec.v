(* What the helpers of the transcoder should do. *)
From Coq Require Import List ZArith Bool.
From Verif Require Import TuModel.
Import ListNotations.
Local Open Scope Z_scope.

(* ---- the window of the statistics ---- *)

Definition add_all (s : sstats) (l : list (Z * Z)) : sstats :=
  fold_left (fun s f => ss_add s (fst f) (snd f)) l s.

Definition sizes (l : list (Z * Z)) : Z := fold_right (fun f a => snd f + a) 0 l.

(* frames are dts and size, in the order they arrived; those of the last 10 seconds *)
Definition last_dts (l : list (Z * Z)) : Z := fst (last l (0, 0)).
Definition in_window (l : list (Z * Z)) : list (Z * Z) :=
  filter (fun f => last_dts l - fst f <? 10 * 90000) l.

(* ---- the clock estimator ---- *)

Definition push_all (c : clockest) (l : list (Z * Z)) : clockest :=
  fold_left (fun c s => ce_push c (fst s) (snd s)) l c.

(* the last [n] elements *)
Definition lastn {A} (n : nat) (l : list A) : list A := skipn (length l - n) l.

(* ---- the droppers ---- *)

(* the decisions for frames: the dts queued last, and the frame *)
Fixpoint frames (d : dropper) (l : list (Z * avframe)) : list bool :=
  match l with
  | [] => []
  | (q, f) :: r => let '(d, b) := drop_frame d q f in b :: frames d r
  end.

(* the decisions for packets: the dts queued last, the dts and the flags *)
Fixpoint packets (d : dropper) (l : list (Z * Z * Z)) : list bool :=
  match l with
  | [] => []
  | (q, dts, flags) :: r => let '(d, b) := drop_packet d q dts flags in b :: packets d r
  end.

(* ---- the vector ---- *)

Inductive vecop := OAdd (x : Z) | OSet (i x : Z) | ODelete (i : Z).

(* the same on lists *)
Definition list_op (l : list Z) (o : vecop) : list Z :=
  match o with
  | OAdd x => l ++ [x]
  | OSet i x =>
      if (0 <=? i) && (i <? Z.of_nat (length l))
      then firstn (Z.to_nat i) l ++ x :: skipn (S (Z.to_nat i)) l else l
  | ODelete i =>
      if (0 <=? i) && (i <? Z.of_nat (length l))
      then firstn (Z.to_nat i) l ++ skipn (S (Z.to_nat i)) l else l
  end.

(* runs of the vector; the flag says whether reallocations succeed *)
Definition vec_op (v : vector) (o : vecop * bool) : option vector :=
  match o with
  | (OAdd x, ok) => vec_add v x ok
  | (OSet i x, _) => vec_set v i x
  | (ODelete i, ok) => vec_delete v i ok
  end.
Fixpoint vec_run (v : vector) (l : list (vecop * bool)) : option vector :=
  match l with
  | [] => Some v
  | o :: r => match vec_op v o with Some v => vec_run v r | None => None end
  end.
