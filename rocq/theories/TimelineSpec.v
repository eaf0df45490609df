(* What a timeline shows: its periods with their segments, read from the segment list of the channel. *)
From Coq Require Import List ZArith Bool.
From Verif Require Import SegListModel SegListSpec TimelineModel.
Import ListNotations.
Local Open Scope Z_scope.

(* the next n segments of an iterator; the first has this index and this time *)
Fixpoint read_from (c : chlist) (it : iter) (n : nat) (index time : Z) : option (list seg) :=
  match n with
  | O => Some []
  | S n => do (d, it) <- cl_get_one c it; do r <- read_from c it n (index + 1) (time + d); Some (mk_seg index time d :: r)
  end.

(* a period: the time at which it started, the correction that is added to its times, its segments *)
Record pview := mk_pv { v_start : Z; v_corr : Z; v_segs : list seg }.
Definition flat (V : list pview) : list seg := flat_map v_segs V.

Definition read_period (c : chlist) (start : Z) (p : period) : option pview :=
  do l <- read_from c (p_iter p) (Z.to_nat (p_count p)) (p_key p) (p_time p); Some (mk_pv start (p_corr p) l).
Fixpoint read_periods (c : chlist) (ps : list period) : option (list pview) :=
  match ps with
  | [] => Some []
  | p :: r => do v <- read_period c (p_time p) p; do vs <- read_periods c r; Some (v :: vs)
  end.
(* the segments of a timeline *)
Definition tl_view (c : chlist) (t : timeline) : option (list pview) :=
  match t_periods t with
  | [] => Some []
  | p :: r => do v <- read_period c (t_init_time t) p; do vs <- read_periods c r; Some (v :: vs)
  end.
(* the periods found by following the pointers from one period to the next *)
Fixpoint follow (c : chlist) (ps : list period) (fuel : nat) (next : option nat) : option (list pview) :=
  match next with
  | None => Some []
  | Some id =>
      match fuel with
      | O => None
      | S f => do (p, next) <- deref ps id; do v <- read_period c (p_time p) p; do vs <- follow c ps f next; Some (v :: vs)
      end
  end.
(* the segments of the manifest of a timeline; the correction is kept in the timeline only *)
Definition m_view (c : chlist) (t : timeline) : option (list (list seg)) :=
  let m := t_m t in
  if m_count m =? 0 then Some []
  else
    do v <- read_period c (m_init_time m) (m_first m);
    do vs <- follow c (t_periods t) (length (t_periods t)) (m_next m);
    Some (v_segs v :: map v_segs vs).

Fixpoint sum_dur (l : list seg) : Z := match l with [] => 0 | s :: r => s_dur s + sum_dur r end.
Definition len {A} (l : list A) : Z := Z.of_nat (length l).

(* consecutive segments: no gap in the numbers and in the times *)
Fixpoint consecutive (index time : Z) (l : list seg) : Prop :=
  match l with
  | [] => True
  | s :: r => s_index s = index /\ s_time s = time /\ consecutive (index + 1) (time + s_dur s) r
  end.

(* the first segment is removed *)
Definition pop1 (V : list pview) : list pview :=
  match V with
  | [] => []
  | v :: r => match v_segs v with [] | [_] => r | _ :: ss => mk_pv (v_start v) (v_corr v) ss :: r end
  end.
Fixpoint popn (k : nat) (V : list pview) : list pview :=
  match k with O => V | S k => popn k (pop1 V) end.

(* a segment is appended, in a new period or in the last one *)
Fixpoint grow (V : list pview) (s : seg) : list pview :=
  match V with
  | [] => []
  | [v] => [mk_pv (v_start v) (v_corr v) (v_segs v ++ [s])]
  | v :: r => v :: grow r s
  end.

(* the last segment gets its duration *)
Fixpoint set_last (V : list pview) (d : Z) : list pview :=
  match V with
  | [] => []
  | [v] => [mk_pv (v_start v) (v_corr v) (set_last_dur (v_segs v) d)]
  | v :: r => v :: set_last r d
  end.

(* how many segments have to go from the front, until what is left is fine *)
Fixpoint trim (fine : list seg -> bool) (l : list seg) : nat :=
  match l with
  | [] => O
  | _ :: r => if fine l then O else S (trim fine r)
  end.
(* within the limits of a window; an inactive timeline counts the time since its last segment as well *)
Definition within (max_segs max_dur base_count base_dur : Z) (l : list seg) : bool :=
  (len l + base_count <=? max_segs) && (sum_dur l + base_dur <=? max_dur).
(* a manifest that is not finished keeps three target durations more than its first segment *)
Definition m_fine (mc : mconf) (target base_count base_dur : Z) (l : list seg) : bool :=
  within (mc_max_segs mc) (mc_max_dur mc) base_count base_dur l ||
  match mc_end mc, l with
  | EndOff, s :: _ => sum_dur l <? target * 3 + s_dur s
  | _, _ => false
  end.
(* a timeline keeps what is in its manifest *)
Definition t_fine (cf : conf) (mcount base_count base_dur : Z) (l : list seg) : bool :=
  (len l <=? mcount) || within (c_max_segs cf) (c_max_dur cf) base_count base_dur l.
(* a timeline gets no more segments: how many segments have to go from the timeline and from its manifest, when
   the time since the last segment is counted as well, as segments of the mean duration; L and ML are the
   segments that are there *)
Definition expire (scale now : Z) (t : timeline) (L ML : list seg) : nat * nat :=
  if (now <=? t_created t) || (sum_dur L <=? 0) then (O, O)
  else
    let bd := (now - t_created t) * scale in
    let bc := bd * len L / sum_dur L in
    let k' := trim (m_fine (m_conf (t_m t)) (m_target (t_m t)) bc bd) ML in
    (trim (t_fine (t_conf t) (len (skipn k' ML)) bc bd) L, k').
Definition after (index : Z) (l : list seg) : bool := match l with [] => true | s :: _ => index <? s_index s end.

(* a segment does not continue the last period of a view *)
Definition breaks (V : list pview) (s : seg) : bool :=
  match unsnoc (flat V) with
  | None => true
  | Some (_, x) => negb (s_time s =? s_end x) || negb (s_index s =? s_index x + 1)
  end.
(* a segment is added to a view *)
Definition put (V : list pview) (s : seg) (newp : bool) (corr : Z) : list pview :=
  if newp then V ++ [mk_pv (s_time s) corr [s]] else grow V s.

(* the last segment of a view has this index *)
Definition ends_at (V : list pview) (index : Z) : bool :=
  match unsnoc (flat V) with
  | None => false
  | Some (_, x) => s_index x =? index
  end.

(* an active timeline takes the segments whose middle is between its start and its end *)
Definition takes (t : timeline) (middle : Z) : bool := c_active (t_conf t) && (c_start (t_conf t) <=? middle) && (middle <? c_end (t_conf t)).

(* the duration of periods that are laid end to end, each followed by a gap *)
Definition laid (gap : Z) (V : list pview) : Z := fold_right Z.add 0 (map (fun v => sum_dur (v_segs v) + gap) V).

(* --- runs --- *)
(* a new segment comes after the ones that are there *)
Definition fresh (h : channel) (s : seg) : Prop :=
  0 <= s_dur s /\ (segs (cl_list (ch_list h)) = [] \/ ch_last h < s_index s) /\ ch_next h <= s_index s.
Definition set_next (h : channel) (n : Z) : channel :=
  mk_ch (ch_list h) (ch_tls h) (ch_last h) (ch_pending h) (ch_middle h) (ch_truncate h) n (ch_min h) (ch_active h) (ch_scale h) (ch_pid h).
Definition set_active (h : channel) (b : bool) : channel :=
  mk_ch (ch_list h) (ch_tls h) (ch_last h) (ch_pending h) (ch_middle h) (ch_truncate h) (ch_next h) (ch_min h) b (ch_scale h) (ch_pid h).
Definition add (h : channel) (now : Z) (nalloc : bool) (allocs : list bool) (s : seg) (force : bool) : option (channel * rc) :=
  add_segment h now nalloc allocs (s_time s) (s_index s) (s_dur s) force.
Definition new_channel (last min next scale : Z) : channel := mk_ch (mk_cl empty 0) [] last false 0 0 next min true scale 0.

(* the states of a channel; every configuration of a manifest that was given satisfies P *)
Inductive reach (P : mconf -> Prop) : channel -> Prop :=
| r_new : forall last min next scale, reach P (new_channel last min next scale)
| r_add : forall h now nalloc allocs s force h' r, reach P h -> fresh h s -> add h now nalloc allocs s force = Some (h', r) -> reach P h'
| r_update_last : forall h d h' r, reach P h -> 0 <= d -> update_last_segment h d = Some (h', r) -> reach P h'
| r_truncate : forall h now index h', reach P h -> truncate h now index = Some h' -> reach P h'
| r_cleanup : forall h now h' b, reach P h -> cleanup h now = Some (h', b) -> reach P h'
| r_get : forall h now id h' t, reach P h -> get h now id = Some (Some (h', t)) -> reach P h'
| r_create : forall h now id c mc h', reach P h -> P mc -> create h now id c mc = Some h' -> reach P h'
| r_update : forall h id c mc h', reach P h -> P mc -> update h id c mc = Some h' -> reach P h'
| r_remove : forall h id, reach P h -> reach P (remove h id)
| r_next : forall h n, reach P h -> ch_next h <= n -> reach P (set_next h n)
| r_active : forall h b, reach P h -> reach P (set_active h b).
Definition any (mc : mconf) : Prop := True.

(* what happened to a timeline: the segments that it took since it was made, the first sequence number, and
   whether the manifest showed each segment when it was added *)
Record record := mk_rec { r_log : list seg; r_first : Z; r_shown : bool }.
Definition shows (h : channel) (id : nat) : bool :=
  match find_tl id (ch_tls h) with
  | Some t => match m_view (ch_list h) t with Some (_ :: _) => true | _ => false end
  | None => false
  end.
Definition took (h h' : channel) (s : seg) (R : nat -> record) (id : nat) : record :=
  match find_tl id (ch_tls h) with
  | Some t =>
      if takes t (s_time s + s_dur s / 2) then mk_rec (r_log (R id) ++ [s]) (r_first (R id)) (r_shown (R id) && shows h' id) else R id
  | None => R id
  end.
Definition timed (h : channel) (d : Z) (R : nat -> record) (id : nat) : record :=
  let r := R id in
  match unsnoc (r_log r) with
  | Some (_, x) => if s_index x =? ch_last h then mk_rec (set_last_dur (r_log r) d) (r_first r) (r_shown r) else r
  | None => r
  end.
Definition begun (h : channel) (id : nat) (R : nat -> record) (id' : nat) : record :=
  if Nat.eqb id' id then mk_rec [] (ch_next h) true else R id'.

(* runs in which no memory is missing *)
Inductive hist : channel -> (nat -> record) -> Prop :=
| h_new : forall last min next scale R, hist (new_channel last min next scale) R
| h_add : forall h R now nalloc allocs s force h' r, hist h R -> fresh h s -> add h now nalloc allocs s force = Some (h', r) -> r <> RcError ->
    hist h' (took h h' s R)
| h_update_last : forall h R d h', hist h R -> 0 <= d -> update_last_segment h d = Some (h', RcOk) -> hist h' (timed h d R)
| h_truncate : forall h R now index h', hist h R -> truncate h now index = Some h' -> hist h' R
| h_cleanup : forall h R now h' b, hist h R -> cleanup h now = Some (h', b) -> hist h' R
| h_get : forall h R now id h' t, hist h R -> get h now id = Some (Some (h', t)) -> hist h' R
| h_create : forall h R now id c mc h', hist h R -> create h now id c mc = Some h' -> hist h' (begun h id R)
| h_update : forall h R id c mc h', hist h R -> update h id c mc = Some h' -> hist h' R
| h_remove : forall h R id, hist h R -> hist (remove h id) R
| h_next : forall h R n, hist h R -> ch_next h <= n -> hist (set_next h n) R
| h_active : forall h R b, hist h R -> hist (set_active h b) R.
