(* The segments of a list, one by one. *)
From Coq Require Import List ZArith Bool.
From Verif Require Import SegListModel.
Import ListNotations.
Local Open Scope Z_scope.

Record seg := mk_seg { s_index : Z; s_time : Z; s_dur : Z }.
Definition s_end (s : seg) : Z := s_time s + s_dur s.

(* n segments of the same duration *)
Fixpoint run (n : nat) (index time dur : Z) : list seg :=
  match n with
  | O => []
  | S n => mk_seg index time dur :: run n (index + 1) (time + dur) dur
  end.
Fixpoint expand (elts : list elt) (index time : Z) : list seg :=
  match elts with
  | [] => []
  | e :: r => run (Z.to_nat (e_cnt e)) index time (e_dur e) ++ expand r (index + e_cnt e) (time + e_cnt e * e_dur e)
  end.
(* the segments that the nodes stand for *)
Definition node_segs (n : node) : list seg := expand (n_elts n) (n_key n) (n_time n).
Definition segs_of (nodes : list node) : list seg := flat_map node_segs nodes.
Definition segs (l : slist) : list seg := segs_of (l_nodes l).

(* each segment ends before the next ones start; the index grows *)
Fixpoint chronological (l : list seg) : Prop :=
  match l with
  | s :: ((s' :: _) as r) => s_end s <= s_time s' /\ chronological r
  | _ => True
  end.
Fixpoint numbered (l : list seg) : Prop :=
  match l with
  | s :: ((s' :: _) as r) => s_index s < s_index s' /\ numbered r
  | _ => True
  end.

(* the duration of the last segment becomes known *)
Fixpoint set_last_dur (l : list seg) (d : Z) : list seg :=
  match l with
  | [] => []
  | [s] => [mk_seg (s_index s) (s_time s) d]
  | s :: r => s :: set_last_dur r d
  end.

(* --- persist --- *)
Definition block_segs (b : block) : list seg := expand (b_elts b) (b_index b) (b_time b).
Definition in_range (min max : Z) (s : seg) : bool := (min <=? s_index s) && (s_index s <=? max).

(* [history l ps lo]: [ps] is every segment ever added or read from a file, [lo] the largest index up to which segments could be
   removed *)
Inductive history : slist -> list seg -> Z -> Prop :=
| h_empty : history empty [] 0
| h_add : forall l ps lo alloc i t d l', history l ps lo -> 0 <= d -> (forall s, In s ps -> s_index s < i) ->
    seg_add l alloc i t d = Some l' -> history l' (ps ++ [mk_seg i t d]) lo
| h_update : forall l ps lo d l', history l ps lo -> 0 <= d -> update_last l d = Some l' ->
    history l' (set_last_dur ps d) lo
| h_free : forall l ps lo min, history l ps lo -> history (free_nodes l min) ps (Z.max lo min)
| h_read : forall l ps lo first min max b l' first', history l ps lo -> Forall (fun e => 0 <= e_dur e) (b_elts b) ->
    (forall s, In s ps -> s_index s < b_index b) ->
    read_period l first min max b = Some (l', first') -> history l' (ps ++ block_segs b) lo.

(* n calls of get_one *)
Fixpoint iterate (l : slist) (it : iter) (n : nat) : option (list Z) :=
  match n with
  | O => Some []
  | S n =>
      match get_one l it with
      | None => None
      | Some (d, it') => option_map (cons d) (iterate l it' n)
      end
  end.
(* n calls of get_element *)
Fixpoint iterate_elements (l : slist) (it : iter) (n : nat) : option (list (Z * Z)) :=
  match n with
  | O => Some []
  | S n =>
      match get_element l it with
      | None => None
      | Some (d, c, it') => option_map (cons (d, c)) (iterate_elements l it' n)
      end
  end.

(* a tree over the nodes of the list *)
Definition tree_of (l : slist) (t : tree) : Prop := inorder t = seq 0 (length (l_nodes l)).

(* what the API shows of a list: looking up each segment gives its time, and the durations from there on *)
Definition shows (l : slist) (ps : list seg) : Prop :=
  forall t, tree_of l t ->
  (forall pre s post, ps = pre ++ s :: post ->
     exists it, iter_init l t (s_index s) true = Some (it, s_time s) /\
                iterate l it (S (length post)) = Some (map s_dur (s :: post))) /\
  (forall i, ~ In i (map s_index ps) -> iter_init l t i true = None).

(* segments without a gap in the numbers or in the time *)
Fixpoint contiguous (l : list seg) : Prop :=
  match l with
  | s :: ((s' :: _) as r) => s_index s' = s_index s + 1 /\ s_time s' = s_end s /\ contiguous r
  | _ => True
  end.

(* the distance of the start of a segment to a time *)
Definition distance (s : seg) (time : Z) : Z := Z.abs (s_time s - time).
