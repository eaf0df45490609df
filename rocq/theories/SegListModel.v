(* Model of nginx-live-module/src/ngx_live_segment_list.c: the list of the segments of a channel, as
   runs of equal durations grouped in nodes.

   The queue of the nodes is a list.  The red-black tree over the nodes is a binary tree of their
   positions in the queue; how nginx balances it is not modelled, the theorems hold for any tree whose
   in-order walk is the queue.  The numbers are unbounded: segment indexes (uint32_t) are below
   2^32 - 1 and times (int64_t) do not overflow. *)
From Coq Require Import List ZArith Bool.
Import ListNotations.
Local Open Scope Z_scope.

(* ngx_live_segment_list.c:7 NGX_LIVE_SEGMENT_LIST_NODE_ELTS *)
Definition NODE_ELTS : nat := 118.
(* nginx-common/src/ngx_ksmp.h:73 *)
Definition PENDING : Z := 0.

(* ngx_ksmp_segment_repeat_t *)
Record elt := mk_elt { e_cnt : Z; e_dur : Z }.
(* ngx_live_segment_list.c:10-18; nelts is the length of n_elts *)
Record node := mk_node { n_key : Z; n_time : Z; n_last : Z; n_period : Z; n_elts : list elt }.
(* ngx_live_segment_list.h:29-44 ngx_live_segment_list_t *)
Record slist := mk_slist { l_nodes : list node; l_node_count : Z; l_elt_count : Z; l_seg_count : Z; l_last_time : Z }.

Definition empty : slist := mk_slist [] 0 0 0 0.

(* the last element of a list and what is before it *)
Fixpoint unsnoc {A} (l : list A) : option (list A * A) :=
  match l with
  | [] => None
  | x :: r => match unsnoc r with None => Some ([], x) | Some (i, y) => Some (x :: i, y) end
  end.

(* ngx_live_segment_list.c:96-118, a new node *)
Definition add_node (l : slist) (alloc : bool) (period index time dur : Z) : option slist :=
  if alloc then
    Some (mk_slist (l_nodes l ++ [mk_node index time index period [mk_elt 1 dur]])
            (l_node_count l + 1) (l_elt_count l + 1) (l_seg_count l + 1) (time + dur))
  else None.

(* ngx_live_segment_list.c:55-129 ngx_live_segment_list_add; [alloc] tells whether memory is available *)
Definition seg_add (l : slist) (alloc : bool) (index time dur : Z) : option slist :=
  match unsnoc (l_nodes l) with
  | None => add_node l alloc 0 index time dur
  | Some (pre, last) =>
      if (time =? l_last_time l) && (index =? n_last last + 1) then
        match unsnoc (n_elts last) with
        | None => None
        | Some (epre, e) =>
            if e_dur e =? dur then
              Some (mk_slist (pre ++ [mk_node (n_key last) (n_time last) index (n_period last) (epre ++ [mk_elt (e_cnt e + 1) (e_dur e)])])
                      (l_node_count l) (l_elt_count l) (l_seg_count l + 1) (time + dur))
            else if Nat.ltb (length (n_elts last)) NODE_ELTS then
              Some (mk_slist (pre ++ [mk_node (n_key last) (n_time last) index (n_period last) (n_elts last ++ [mk_elt 1 dur])])
                      (l_node_count l) (l_elt_count l + 1) (l_seg_count l + 1) (time + dur))
            else add_node l alloc (n_period last) index time dur
        end
      else add_node l alloc (n_period last + 1) index time dur
  end.

(* ngx_live_segment_list.c:132-218 ngx_live_segment_list_update_last *)
Definition update_last (l : slist) (dur : Z) : option slist :=
  match unsnoc (l_nodes l) with
  | None => None
  | Some (pre, last) =>
      match unsnoc (n_elts last) with
      | None => None
      | Some (epre, e) =>
          if negb (e_cnt e =? 1) then None
          else if negb (e_dur e =? PENDING) then None
          else
            let use_new :=
              Some (mk_slist (pre ++ [mk_node (n_key last) (n_time last) (n_last last) (n_period last) (epre ++ [mk_elt 1 dur])])
                      (l_node_count l) (l_elt_count l) (l_seg_count l) (l_last_time l + dur)) in
            match unsnoc epre with
            | Some (epre2, e2) =>
                if e_dur e2 =? dur then
                  Some (mk_slist (pre ++ [mk_node (n_key last) (n_time last) (n_last last) (n_period last) (epre2 ++ [mk_elt (e_cnt e2 + 1) (e_dur e2)])])
                          (l_node_count l) (l_elt_count l - 1) (l_seg_count l) (l_last_time l + dur))
                else use_new
            | None =>
                match unsnoc pre with
                | None => use_new
                | Some (pre2, prev) =>
                    if negb (n_period prev =? n_period last) then use_new
                    else
                      match unsnoc (n_elts prev) with
                      | None => None
                      | Some (pepre, pe) =>
                          if e_dur pe =? dur then
                            Some (mk_slist (pre2 ++ [mk_node (n_key prev) (n_time prev) (n_last last) (n_period prev) (pepre ++ [mk_elt (e_cnt pe + 1) (e_dur pe)])])
                                    (l_node_count l - 1) (l_elt_count l - Z.of_nat (length (n_elts last))) (l_seg_count l) (l_last_time l + dur))
                          else use_new
                      end
                end
            end
      end
  end.

(* ngx_live_segment_list.c:221-262 ngx_live_segment_list_free_nodes *)
Fixpoint free_loop (nodes : list node) (nc ec sc min : Z) : list node * Z * Z * Z :=
  match nodes with
  | n :: ((next :: _) as r) =>
      if min <=? n_key next then (nodes, nc, ec, sc)
      else free_loop r (nc - 1) (ec - Z.of_nat (length (n_elts n))) (sc - (n_last n + 1 - n_key n)) min
  | _ => (nodes, nc, ec, sc)
  end.
Definition free_nodes (l : slist) (min : Z) : slist :=
  match free_loop (l_nodes l) (l_node_count l) (l_elt_count l) (l_seg_count l) min with
  | (nodes, nc, ec, sc) => mk_slist nodes nc ec sc (l_last_time l)
  end.

(* the red-black tree: the positions of the nodes in the queue *)
Inductive tree := Leaf | Node (l : tree) (i : nat) (r : tree).
Fixpoint inorder (t : tree) : list nat :=
  match t with Leaf => [] | Node l i r => inorder l ++ i :: inorder r end.

(* ngx_live_segment_list.h:47-51 ngx_live_segment_iter_t: the node and the element by position *)
Record iter := mk_iter { i_node : nat; i_elt : nat; i_off : Z }.

(* ngx_live_segment_list.c:290-328, the walk down the tree by time *)
Fixpoint walk_time (nodes : list node) (t : tree) (time : Z) : option nat :=
  match t with
  | Leaf => None
  | Node l i r =>
      match nth_error nodes i with
      | None => None
      | Some n =>
          if time <? n_time n then
            match l with
            | Leaf => match i with O => None | S p => Some p end
            | _ => walk_time nodes l time
            end
          else match r with Leaf => Some i | _ => walk_time nodes r time end
      end
  end.

(* ngx_live_segment_list.c:330-349, the elements of the node; the division by a zero duration is
   excluded by the model returning None there, see C23 *)
Fixpoint find_elt (elts : list elt) (ei : nat) (closest : bool) (time idx t0 : Z) : option (nat * Z * Z * Z) :=
  match elts with
  | [] => None
  | e :: r =>
      let d := e_cnt e * e_dur e in
      if t0 + d <=? time then find_elt r (S ei) closest time (idx + e_cnt e) (t0 + d)
      else if e_dur e =? 0 then None
      else
        let time := if closest then time + e_dur e / 2 else time in
        let off := Z.quot (time - t0) (e_dur e) in
        Some (ei, off, idx + off, t0 + off * e_dur e)
  end.
(* ngx_live_segment_list.c:265-352 ngx_live_segment_list_get_segment_index: iterator, index, time *)
Definition get_segment_index (l : slist) (t : tree) (time : Z) (closest : bool) : option (iter * Z * Z) :=
  match walk_time (l_nodes l) t time with
  | None => None
  | Some i =>
      match nth_error (l_nodes l) i with
      | None => None
      | Some n =>
          match find_elt (n_elts n) 0 closest time (n_key n) (n_time n) with
          | None => None
          | Some (ei, off, idx, tm) => Some (mk_iter i ei off, idx, tm)
          end
      end
  end.

(* ngx_live_segment_list.c:867-916, the walk down the tree by index: the node that contains it, or the
   first one that follows *)
Fixpoint walk_index (nodes : list node) (t : tree) (index : Z) : option (nat * bool) :=
  match t with
  | Leaf => None
  | Node l i r =>
      match nth_error nodes i with
      | None => None
      | Some n =>
          if index <? n_key n then
            match l with Leaf => Some (i, false) | _ => walk_index nodes l index end
          else if n_last n <? index then
            match r with
            | Leaf => if Nat.ltb (S i) (length nodes) then Some (S i, false) else None
            | _ => walk_index nodes r index
            end
          else Some (i, true)
      end
  end.
(* ngx_live_segment_list.c:923-942 *)
Fixpoint find_left (elts : list elt) (ei : nat) (left time : Z) : option (nat * Z * Z) :=
  match elts with
  | [] => None
  | e :: r =>
      if left <? e_cnt e then Some (ei, left, time + left * e_dur e)
      else find_left r (S ei) (left - e_cnt e) (time + e_cnt e * e_dur e)
  end.
(* ngx_live_segment_list.c:846-943 ngx_live_segment_iter_init: iterator and time *)
Definition iter_init (l : slist) (t : tree) (index : Z) (strict : bool) : option (iter * Z) :=
  match walk_index (l_nodes l) t index with
  | None => None
  | Some (i, within) =>
      match nth_error (l_nodes l) i with
      | None => None
      | Some n =>
          if within then
            match find_left (n_elts n) 0 (index - n_key n) (n_time n) with
            | None => None
            | Some (ei, off, tm) => Some (mk_iter i ei off, tm)
            end
          else if strict then None
          else Some (mk_iter i 0 0, n_time n)
      end
  end.

(* ngx_live_segment_list.c:946-959 ngx_live_segment_iter_last *)
Definition iter_last (l : slist) : option iter :=
  match unsnoc (l_nodes l) with
  | None => None
  | Some (pre, n) =>
      match unsnoc (n_elts n) with
      | None => None
      | Some (epre, e) => Some (mk_iter (length pre) (length epre) (e_cnt e - 1))
      end
  end.

Definition elt_at (l : slist) (it : iter) : option elt :=
  match nth_error (l_nodes l) (i_node it) with None => None | Some n => nth_error (n_elts n) (i_elt it) end.

(* ngx_live_segment_list.c:962-981 ngx_live_segment_iter_move_next; None: the sentinel of the queue is
   used as a node *)
Definition move_next (l : slist) (it : iter) : option iter :=
  match nth_error (l_nodes l) (i_node it) with
  | None => None
  | Some n =>
      match nth_error (n_elts n) (i_elt it) with
      | None => None
      | Some e =>
          if i_off it <? e_cnt e then Some it
          else if Nat.ltb (S (i_elt it)) (length (n_elts n)) then Some (mk_iter (i_node it) (S (i_elt it)) 0)
          else if Nat.ltb (S (i_node it)) (length (l_nodes l)) then Some (mk_iter (S (i_node it)) 0 0)
          else None
      end
  end.
(* ngx_live_segment_list.c:984-990 ngx_live_segment_iter_peek *)
Definition peek (l : slist) (it : iter) : option (Z * iter) :=
  match move_next l it with
  | None => None
  | Some it => match elt_at l it with None => None | Some e => Some (e_dur e, it) end
  end.
(* ngx_live_segment_list.c:993-1001 ngx_live_segment_iter_get_one *)
Definition get_one (l : slist) (it : iter) : option (Z * iter) :=
  match move_next l it with
  | None => None
  | Some it => match elt_at l it with None => None | Some e => Some (e_dur e, mk_iter (i_node it) (i_elt it) (i_off it + 1)) end
  end.
(* ngx_live_segment_list.c:1004-1016 ngx_live_segment_iter_get_element: duration, count *)
Definition get_element (l : slist) (it : iter) : option (Z * Z * iter) :=
  match move_next l it with
  | None => None
  | Some it =>
      match elt_at l it with
      | None => None
      | Some e => Some (e_dur e, e_cnt e - i_off it, mk_iter (i_node it) (i_elt it) (e_cnt e))
      end
  end.

(* ngx_live_segment_list.c:355-385 ngx_live_segment_list_get_period_end_time; [start] is the iterator of
   the first segment *)
Definition period_end_time (l : slist) (t : tree) (start : iter) (last_index : Z) : option Z :=
  match iter_init l t last_index true with
  | None => None
  | Some (it, time) =>
      match get_one l it with
      | None => None
      | Some (dur, it) =>
          match nth_error (l_nodes l) (i_node start), nth_error (l_nodes l) (i_node it) with
          | Some a, Some b => if n_period a =? n_period b then Some (time + dur) else None
          | _, _ => None
          end
      end
  end.

(* --- persist: a block is a period header and elements --- *)
Record block := mk_block { b_time : Z; b_index : Z; b_elts : list elt }.

(* ngx_live_segment_list.c:388-431 ngx_live_segment_list_write_node_part: [max1] is max_index + 1, the
   first element is already cut at the offset of the iterator *)
Fixpoint write_part (e : elt) (rest : list elt) (index max1 : Z) : list elt :=
  let next := index + e_cnt e in
  if max1 <=? next then [mk_elt (max1 - index) (e_dur e)]
  else e :: match rest with [] => [] | c :: r => write_part c r next max1 end.

(* ngx_live_segment_list.c:491-549, the nodes after the first one; [cur] is the open block *)
Fixpoint write_loop (nodes : list node) (max : Z) (period : Z) (cur : block) : list block :=
  match nodes with
  | [] => [cur]
  | n :: r =>
      if max <? n_key n then [cur]
      else
        let same := n_period n =? period in
        let head := if same then [] else [cur] in
        let cur := if same then cur else mk_block (n_time n) (n_key n) [] in
        if max <? n_last n then
          match n_elts n with
          | [] => head ++ [cur]
          | e :: es => head ++ [mk_block (b_time cur) (b_index cur) (b_elts cur ++ write_part e es (n_key n) (max + 1))]
          end
        else head ++ write_loop r max (n_period n) (mk_block (b_time cur) (b_index cur) (b_elts cur ++ n_elts n))
  end.
(* ngx_live_segment_list.c:434-562 ngx_live_segment_list_write_periods; the errors of the writer are not
   modelled *)
Definition write_periods (l : slist) (t : tree) (min max : Z) : list block :=
  match iter_init l t min false with
  | None => []
  | Some (it, time) =>
      match nth_error (l_nodes l) (i_node it) with
      | None => []
      | Some n =>
          let index := if min <? n_key n then n_key n else min in
          if (min <? n_key n) && (max <? n_key n) then []
          else
            match skipn (i_elt it) (n_elts n) with
            | [] => []
            | e :: es =>
                write_loop (skipn (S (i_node it)) (l_nodes l)) max (n_period n)
                  (mk_block time index (write_part (mk_elt (e_cnt e - i_off it) (e_dur e)) es index (max + 1)))
            end
      end
  end.

(* ngx_live_segment_list.c:659-670 and the like, the check of the elements: the index and the time after
   them *)
Fixpoint read_elts (elts : list elt) (index time max1 : Z) : option (Z * Z) :=
  match elts with
  | [] => Some (index, time)
  | e :: r =>
      if e_cnt e <=? 0 then None
      else if max1 - index <? e_cnt e then None
      else read_elts r (index + e_cnt e) (time + e_dur e * e_cnt e) max1
  end.

(* ngx_live_segment_list.c:721-774, new nodes; [f] bounds their number *)
Fixpoint read_nodes (f : nat) (elts : list elt) (index time period max1 : Z) : option (list node * Z * Z) :=
  match elts with
  | [] => Some ([], index, time)
  | _ =>
      match f with
      | O => None
      | S f =>
          let es := firstn NODE_ELTS elts in
          match read_elts es index time max1 with
          | None => None
          | Some (index', time') =>
              match read_nodes f (skipn NODE_ELTS elts) index' time' period max1 with
              | None => None
              | Some (ns, i2, t2) => Some (mk_node index time (index' - 1) period es :: ns, i2, t2)
              end
          end
      end
  end.

(* ngx_live_segment_list.c:565-784 ngx_live_segment_list_read_period; [first] is is_first.  None: bad
   data, the caller then drops the channel *)
Definition read_period (l : slist) (first : bool) (min max : Z) (b : block) : option (slist * bool) :=
  let index := b_index b in
  let time := b_time b in
  let max1 := max + 1 in
  if (index <? min) || (max <? index) then None
  else
    let finish nodes new ec0 (r : option (list node * Z * Z)) :=
      match r with
      | None => None
      | Some (ns, i2, t2) =>
          Some (mk_slist (nodes ++ ns) (l_node_count l + Z.of_nat (length ns)) (l_elt_count l + ec0 + new)
                  (l_seg_count l + (i2 - index)) t2, false)
      end in
    let left := Z.of_nat (length (b_elts b)) in
    match b_elts b with
    | [] => Some (l, first)
    | cur :: rest =>
        match unsnoc (l_nodes l) with
        | None => finish [] left 0 (read_nodes (S (length rest)) (b_elts b) index time 0 max1)
        | Some (pre, last) =>
            if first && (min <=? n_last last) then None
            else if time <? l_last_time l then None
            else if (time =? l_last_time l) && (index =? n_last last + 1) then
              match unsnoc (n_elts last) with
              | None => None
              | Some (epre, d) =>
                  match (if e_dur d =? e_dur cur then
                           match read_elts [cur] index time max1 with
                           | None => None
                           | Some (i1, t1) => Some (epre ++ [mk_elt (e_cnt d + e_cnt cur) (e_dur d)], rest, i1, t1, -1)
                           end
                         else Some (n_elts last, b_elts b, index, time, 0)) with
                  | None => None
                  | Some (les, todo, i1, t1, ec) =>
                      let count := (NODE_ELTS - length les)%nat in
                      match read_elts (firstn count todo) i1 t1 max1 with
                      | None => None
                      | Some (i2, t2) =>
                          finish (pre ++ [mk_node (n_key last) (n_time last) (i2 - 1) (n_period last) (les ++ firstn count todo)])
                            left ec (read_nodes (S (length rest)) (skipn count todo) i2 t2 (n_period last) max1)
                      end
                  end
              end
            else finish (l_nodes l) left 0 (read_nodes (S (length rest)) (b_elts b) index time (n_period last + 1) max1)
        end
    end.

Fixpoint read_periods (l : slist) (first : bool) (min max : Z) (bs : list block) : option slist :=
  match bs with
  | [] => Some l
  | b :: r => match read_period l first min max b with None => None | Some (l, first) => read_periods l first min max r end
  end.
