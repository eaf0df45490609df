(* Gaps and bitrates of the segments of a track:
     nginx-live-module/src/ngx_live_segment_info.c.
   A track, and the counter of its channel.  Failures of allocations are not modelled.
   The nodes of the red-black tree and of the queue are the same; the tree is a shape over
   the positions of the nodes in the queue (ngx_rbtree is not part of the code base). *)
From Coq Require Import ZArith List Bool.
From Verif Require Import Bytes.
Import ListNotations.
Open Scope Z_scope.

(* ngx_ksmp_segment_info_elt_t, ngx_ksmp.h:191-194: index and bitrate *)
Definition elt := (Z * Z)%type.
(* NGX_KSMP_SEGMENT_NO_BITRATE, ngx_ksmp.h:75; NGX_LIVE_INVALID_SEGMENT_INDEX *)
Definition NO_BITRATE : Z := 1.
Definition INVALID : Z := 2 ^ 32 - 1.
(* NGX_LIVE_SEGMENT_INFO_NODE_ELTS and _FREE_PERIOD, lines 11-13 *)
Definition NODE_ELTS : nat := 120.
Definition FREE_PERIOD : Z := 32.

(* lines 22-28 *)
Record conf := Conf { c_gaps : bool; c_bitrate : bool; c_lower : Z; c_upper : Z }.
(* lines 31-36, 39-46 and 49-51 *)
Record node := Node { n_key : Z; n_elts : list elt }.
Record ctx := Ctx { x_nodes : list node; x_rate : Z; x_init : Z; x_index : Z; x_minfree : Z }.

(* ngx_live_segment_info_track_init, lines 536-561, and channel_init, 516-532 *)
Definition init (c : conf) : ctx :=
  if c_gaps c then Ctx [] 0 0 INVALID 0 else Ctx [] (NO_BITRATE * 100) NO_BITRATE INVALID 0.

(* ngx_live_segment_info_push, lines 119-165, with the bitrate (line 229) *)
Fixpoint push (ns : list node) (e : elt) : list node :=
  match ns with
  | [] => [Node (fst e) [e]]
  | [n] => if (length (n_elts n) <? NODE_ELTS)%nat then [Node (n_key n) (n_elts n ++ [e])]
           else [n; Node (fst e) [e]]
  | n :: r => n :: push r e
  end.

(* ngx_live_segment_info_track_segment_created, lines 168-234 *)
Definition created (c : conf) (x : ctx) (index bitrate : Z) : ctx :=
  if negb (c_bitrate c) && negb (c_gaps c) then x
  else if (index <=? x_index x) && negb (x_index x =? INVALID) then x
  else
    let x := Ctx (x_nodes x) (x_rate x) (x_init x) index (x_minfree x) in
    if (bitrate =? 0) && negb (c_gaps c) then x
    else
      let cur := if bitrate =? 0 then 0 else if c_bitrate c then bitrate else NO_BITRATE in
      if (u64 (cur * c_lower c) <=? x_rate x) && (x_rate x <=? u64 (cur * c_upper c)) then x
      else Ctx (push (x_nodes x) (index, cur)) (cur * 100) (x_init x) (x_index x) (x_minfree x).

(* ngx_live_segment_info_track_segment_free, lines 315-354 *)
Fixpoint free_nodes (ns : list node) (min : Z) : list node :=
  match ns with
  | _ :: ((next :: _) as r) => if min <? n_key next then ns else free_nodes r min
  | _ => ns
  end.
(* ngx_live_segment_info_segment_free, lines 357-390 *)
Definition freed (x : ctx) (min : Z) : ctx :=
  if min <? x_minfree x then x
  else Ctx (free_nodes (x_nodes x) min) (x_rate x) (x_init x) (x_index x) (u32 (min + FREE_PERIOD)).

(* ngx_live_segment_info_track_copy, lines 266-312, to a new track *)
Definition copied (c : conf) (src : ctx) : ctx :=
  let d := init c in Ctx (x_nodes d ++ x_nodes src) (x_rate src) (x_init d) (x_index d) (x_minfree d).

(* ----- looking up *)
Inductive tree := Leaf | Branch (l : tree) (i : nat) (r : tree).
Fixpoint inorder (t : tree) : list nat :=
  match t with Leaf => [] | Branch l i r => inorder l ++ i :: inorder r end.

(* lines 403-418 *)
Fixpoint walk (ns : list node) (t : tree) (index : Z) : option nat :=
  match t with
  | Leaf => None
  | Branch l i r =>
      match nth_error ns i with
      | None => None
      | Some n =>
          let next := if index <? n_key n then l else r in
          match next with Leaf => Some i | _ => if index <? n_key n then walk ns l index else walk ns r index end
      end
  end.
(* ngx_live_segment_info_lookup, lines 393-435 *)
Definition lookup (ns : list node) (t : tree) (index : Z) : option nat :=
  match walk ns t index with
  | None => None
  | Some i =>
      match nth_error ns i with
      | None => None
      | Some n => if index <? n_key n then match i with O => Some O | S p => Some p end else Some i
      end
  end.

(* lines 463-465 and 628-630 *)
Fixpoint skip_to (start : Z) (l : list elt) : list elt :=
  match l with
  | _ :: ((e :: _) as r) => if fst e <=? start then skip_to start r else l
  | _ => l
  end.
(* lines 467-488: the elements of the node, and of the nodes that follow *)
Fixpoint scan (end_ : Z) (l : list elt) : bool :=
  match l with
  | [] => false
  | e :: r => if end_ <=? fst e then false else if negb (snd e =? 0) then true else scan end_ r
  end.
(* ngx_live_segment_info_segment_exists, lines 438-490 *)
Definition segment_exists (x : ctx) (t : tree) (start end_ : Z) : bool :=
  if negb (x_init x =? 0) then true
  else
    match lookup (x_nodes x) t start with
    | None => false
    | Some i =>
        match nth_error (x_nodes x) i with
        | None => false
        | Some n => scan end_ (skip_to start (n_elts n) ++ concat (map n_elts (skipn (S i) (x_nodes x))))
        end
    end.
(* ngx_live_segment_info_timeline_exists, lines 493-513: periods with the first segment
   and the number of segments *)
Definition timeline_exists (x : ctx) (t : tree) (periods : list (Z * Z)) : bool :=
  existsb (fun p => segment_exists x t (fst p) (u32 (fst p + snd p))) periods.

(* ----- persistence *)
(* lines 642-654: the elements on the right that are too late are dropped *)
Fixpoint trim (max : Z) (l : list elt) : list elt :=
  match l with
  | [] => []
  | e :: r => match trim max r with [] => if fst e <=? max then [e] else [] | r' => e :: r' end
  end.
(* lines 640-672 *)
Fixpoint write_loop (max : Z) (l : list elt) (ns : list node) : list elt :=
  match trim max l with
  | [] => []
  | o => o ++ match ns with [] => [] | n :: ns => write_loop max (n_elts n) ns end
  end.
(* ngx_live_segment_info_write_index, lines 603-679: None when there is no block *)
Definition write_index (x : ctx) (t : tree) (min max : Z) : option (list elt) :=
  match lookup (x_nodes x) t min with
  | None => None
  | Some i =>
      match nth_error (x_nodes x) i with
      | None => None
      | Some n => Some (write_loop max (skip_to min (n_elts n)) (skipn (S i) (x_nodes x)))
      end
  end.

(* the inner loops, lines 730-760 and 774-804: the elements that are left, whether the
   next one is the first of the block, the smallest index; None: bad data.  [room] is the
   space in the node, [some] says that there are nodes. *)
Fixpoint fill (some : bool) (max : Z) (room : nat) (first : bool) (min : Z) (l acc : list elt) : option (list elt * bool * Z * list elt) :=
  match room, l with
  | S room', e :: r =>
      if (fst e <? min) && negb first then None
      else if (fst e <? min) && some then fill some max room false min r acc
      else if max <? fst e then None
      else fill some max room' false (u32 (fst e + 1)) r (acc ++ [e])
  | _, _ => Some (acc, first, min, l)
  end.
(* lines 765-819: every round takes an element *)
Fixpoint new_nodes (fuel : nat) (max : Z) (first : bool) (min : Z) (l : list elt) (ns : list node) : option (list node) :=
  match l, fuel with
  | [], _ => Some ns
  | _, O => None
  | _, S fuel =>
      match fill (match ns with [] => false | _ => true end) max NODE_ELTS first min l [] with
      | None => None
      | Some (o, first, min, l) =>
          new_nodes fuel max first min l (match o with [] => ns | e :: _ => ns ++ [Node (fst e) o] end)
      end
  end.
(* lines 712-763: the last node is filled *)
Definition last_index (ns : list node) : Z := fst (last (n_elts (last ns (Node 0 []))) (0, 0)).
Definition fill_last (ns : list node) (o : list elt) : list node :=
  removelast ns ++ [let n := last ns (Node 0 []) in Node (n_key n) (n_elts n ++ o)].
(* ngx_live_segment_info_read_index, lines 682-827: a block of whole elements; None: bad
   data.  The bitrate is of type uint32_t (line 824). *)
Definition read_index (x : ctx) (min max : Z) (l : list elt) : option ctx :=
  match l with
  | [] => Some x
  | _ =>
      match (match x_nodes x with
             | [] => Some ([], true, min, l)
             | ns =>
                 if min <=? last_index ns then None
                 else
                   match fill true max (NODE_ELTS - length (n_elts (last ns (Node 0 [])))) true min l [] with
                   | None => None
                   | Some (o, first, min, l) => Some (fill_last ns o, first, min, l)
                   end
             end) with
      | None => None
      | Some (ns, first, min, l) =>
          match new_nodes (length l) max first min l ns with
          | None => None
          | Some ns =>
              Some (Ctx ns (u32 (snd (last (n_elts (last ns (Node 0 []))) (0, 0)) * 100)) (x_init x) (x_index x) (x_minfree x))
          end
      end
  end.

(* ngx_live_segment_info_write_serve, lines 830-900: what is sent to the packager *)
Definition write_serve (x : ctx) : list elt :=
  match x_nodes x with
  | [] => [(0, x_init x)]
  | n :: _ => (if 0 <? fst (hd (0, 0) (n_elts n)) then [(0, x_init x)] else []) ++ concat (map n_elts (x_nodes x))
  end.

(* ----- histories *)
Inductive op := Created (index bitrate : Z) | Freed (min : Z).
Definition step (c : conf) (x : ctx) (o : op) : ctx :=
  match o with Created i b => created c x i b | Freed m => freed x m end.
Definition run (c : conf) (x : ctx) (h : list op) : ctx := fold_left (step c) h x.
(* The index files (persist/ngx_live_persist_index.c, 222-246 and 430-451): before each one, what happened; its last
   segment; the shape of the tree.  A file starts after the one before it. *)
Fixpoint save (c : conf) (x : ctx) (min : Z) (fs : list (list op * Z * tree)) : list (Z * Z * list elt) :=
  match fs with
  | [] => []
  | (h, max, t) :: fs =>
      let x := run c x h in
      (min, max, match write_index x t min max with Some l => l | None => [] end) :: save c x (max + 1) fs
  end.
(* The files are read in order. *)
Fixpoint restore (y : ctx) (bs : list (Z * Z * list elt)) : option ctx :=
  match bs with
  | [] => Some y
  | (min, max, l) :: bs => match read_index y min max l with None => None | Some y => restore y bs end
  end.
