(* Gaps and bitrates: what is answered, sent and saved. *)
From Coq Require Import ZArith List Bool Lia ZifyBool.
From Verif Require Import Bytes GapModel GapSpec GapProofs GapProofs2 GapProofs3 GapProofs4.
Import ListNotations.
Open Scope Z_scope.

(* ----- C108: the ranges with segments *)
Theorem ranges_with_segments c h t start end_ :
  c_gaps c = true -> conf_ok c -> Forall op_ok h -> tree_of t (run c (init c) h) -> freed_to h <= start < end_ ->
  (segment_exists (run c (init c) h) t start end_ = true <-> exists i, start <= i < end_ /\ rate_at 0 (made None h) i <> 0).
Proof.
  intros G C O T B. pose proof (run_inv c h (init c) [] 0 G C O ltac:(lia) (init_inv c G)) as R. assert (last_opt (init c) = None) as LI by (unfold init, last_opt; rewrite G; reflexivity). rewrite LI in R. cbn [app] in R.
  destruct R as (W & I0 & _ & _ & _ & P & _ & S). rewrite (exists_flat _ t start end_ W I0 T ltac:(lia)).
  assert (forall i, i < 0 -> rate_at 0 (made None h) i = 0) as N1. { intros i Hi. apply rate_after. rewrite Forall_forall in *. intros e E. specialize (P e E). lia. }
  assert (0 <= freed_to h) as F0. { clear -O. induction h as [|o h IH]; [cbn; lia|]. inversion O; subst. specialize (IH H2). destruct o; cbn [freed_to]; lia. }
  split; intros (i & Hi & X); exists i; (split; [exact Hi|]); intros E; apply X; destruct (S i ltac:(lia)) as [S1 _]; tauto.
Qed.
Print Assumptions ranges_with_segments.

Theorem timelines_with_segments c h t periods :
  c_gaps c = true -> conf_ok c -> Forall op_ok h -> tree_of t (run c (init c) h) ->
  Forall (fun p => freed_to h <= fst p /\ 0 < snd p /\ fst p + snd p < 2 ^ 32) periods ->
  (timeline_exists (run c (init c) h) t periods = true
   <-> exists first count i, In (first, count) periods /\ first <= i < first + count /\ rate_at 0 (made None h) i <> 0).
Proof.
  intros G C O T B. unfold timeline_exists. rewrite existsb_exists. rewrite Forall_forall in B.
  assert (0 <= freed_to h) as F0. { clear -O. induction h as [|o h IH]; [cbn; lia|]. inversion O; subst. specialize (IH H2). destruct o; cbn [freed_to]; lia. }
  split.
  - intros ((f, n) & Hp & E). specialize (B _ Hp). cbn [fst snd] in *. unfold u32 in E. rewrite Z.mod_small in E by lia. apply ranges_with_segments in E; try assumption; [|lia]. destruct E as (i & Hi & X). exists f, n, i. tauto.
  - intros (f & n & i & Hp & Hi & X). exists (f, n). split; [exact Hp|]. specialize (B _ Hp). cbn [fst snd] in *. unfold u32. rewrite Z.mod_small by lia. apply ranges_with_segments; try assumption; [lia|]. exists i. tauto.
Qed.
Print Assumptions timelines_with_segments.

(* Without gaps all segments exist. *)
Theorem no_gaps_all_exist c h t start end_ : c_gaps c = false -> segment_exists (run c (init c) h) t start end_ = true.
Proof.
  intros G. assert (forall x, x_init x = 1 -> x_init (run c x h) = 1) as H.
  { induction h as [|o h IH]; intros x E; [exact E|]. change (run c x (o :: h)) with (run c (step c x o) h). apply IH. destruct o as [i b|m]; cbn [step].
    - unfold created. destruct (_ && _); [exact E|]. destruct (_ && _); [exact E|]. cbv zeta. destruct (_ && _); [exact E|]. destruct (_ && _); exact E.
    - unfold freed. destruct (_ <? _); exact E. }
  unfold segment_exists. rewrite H by (unfold init; rewrite G; reflexivity). reflexivity.
Qed.
Print Assumptions no_gaps_all_exist.

(* A copy of a track answers as the track. *)
Theorem copied_track_answers c h t start end_ :
  segment_exists (copied c (run c (init c) h)) t start end_ = segment_exists (run c (init c) h) t start end_.
Proof.
  assert (forall x, x_init (run c x h) = x_init x) as H.
  { induction h as [|o h IH]; intros x; [reflexivity|]. change (run c x (o :: h)) with (run c (step c x o) h). rewrite IH. destruct o as [i b|m]; cbn [step].
    - unfold created. destruct (_ && _); [reflexivity|]. destruct (_ && _); [reflexivity|]. cbv zeta. destruct (_ && _); [reflexivity|]. destruct (_ && _); reflexivity.
    - unfold freed. destruct (_ <? _); reflexivity. }
  unfold segment_exists, copied. cbn [x_init x_nodes]. rewrite H. assert (x_nodes (init c) = []) as -> by (unfold init; destruct (c_gaps c); reflexivity). reflexivity.
Qed.
Print Assumptions copied_track_answers.

(* Segments 3 to 5 are a gap; 1 and 2 are freed. *)
Definition ex_conf : conf := Conf true true 90 110.
Definition ex_h : list op := [Created 1 1000; Created 2 1050; Created 3 0; Created 4 0; Freed 3; Created 5 0; Created 6 2000].
Example ranges_example :
  conf_ok ex_conf /\ Forall op_ok ex_h /\ tree_of (Branch Leaf 0 Leaf) (run ex_conf (init ex_conf) ex_h) /\ freed_to ex_h = 3
  /\ segment_exists (run ex_conf (init ex_conf) ex_h) (Branch Leaf 0 Leaf) 3 6 = false
  /\ segment_exists (run ex_conf (init ex_conf) ex_h) (Branch Leaf 0 Leaf) 3 7 = true.
Proof.
  split; [unfold conf_ok, ex_conf; cbn; lia|]. split; [unfold ex_h; repeat constructor; cbn; lia|]. split; [vm_compute; reflexivity|]. split; [vm_compute; reflexivity|]. split; vm_compute; reflexivity.
Qed.

(* ----- C109: the list that is sent to the packager *)
Theorem served_bitrates c h v i :
  c_gaps c = true -> conf_ok c -> Forall op_ok h -> freed_to h <= i -> 0 <= i ->
  stands_for c (rate_at 0 (made None h) i) (rate_at v (write_serve (run c (init c) h)) i).
Proof.
  intros G C O B Hi. pose proof (run_inv c h (init c) [] 0 G C O ltac:(lia) (init_inv c G)) as R. assert (last_opt (init c) = None) as LI by (unfold init, last_opt; rewrite G; reflexivity). rewrite LI in R. cbn [app] in R.
  destruct R as (W & I0 & _ & _ & _ & _ & _ & S). rewrite (serve_rate _ v i W I0 Hi). apply S. lia.
Qed.
Print Assumptions served_bitrates.
(* The indexes of the list go up. *)
Theorem served_indexes_go_up c h k1 k2 e f :
  c_gaps c = true -> conf_ok c -> Forall op_ok h ->
  nth_error (write_serve (run c (init c) h)) k1 = Some e -> nth_error (write_serve (run c (init c) h)) k2 = Some f -> (k1 < k2)%nat -> fst e < fst f.
Proof.
  intros G C O E F K. pose proof (run_inv c h (init c) [] 0 G C O ltac:(lia) (init_inv c G)) as R. destruct R as (W & I0 & _).
  assert (inc (write_serve (run c (init c) h))) as I.
  { unfold write_serve. destruct (x_nodes (run c (init c) h)) as [|n ns] eqn:Q; [split; [constructor | exact Logic.I]|]. fold (flat (n :: ns)). pose proof (key_le n ns W) as KL. destruct W as [NO IW]. inversion NO as [|? ? (g & r & N1 & N2) _]; subst. rewrite N1. cbn [hd].
    destruct (0 <? fst g) eqn:Q0; [|exact IW]. split; [|exact IW]. rewrite Forall_forall. intros z Hz. specialize (KL z Hz). cbn [fst]. lia. }
  revert k1 k2 E F K I. generalize (write_serve (run c (init c) h)). induction l as [|x l IH]; intros k1 k2 E F K I; [destruct k1; discriminate E|]. destruct k2 as [|k2]; [lia|]. cbn [nth_error] in F. destruct k1 as [|k1].
  - cbn [nth_error] in E. injection E as ->. apply (inc_lt e l I). apply (nth_error_In _ _ F).
  - cbn [nth_error] in E. apply (IH k1 k2 E F ltac:(lia) (proj2 I)).
Qed.
Print Assumptions served_indexes_go_up.
Example served_example :
  write_serve (run ex_conf (init ex_conf) ex_h) = [(0, 0); (1, 1000); (3, 0); (6, 2000)].
Proof. vm_compute. reflexivity. Qed.

(* ----- C110: what is saved is read again *)
Theorem restored_segments_partial c m fs :
  fs <> [] -> c_gaps c = true -> conf_ok c -> saves_ok c m fs ->
  exists y, restore (init c) (save c (init c) m fs) = Some y
   /\ (forall v i, m <= i <= last_saved 0 fs -> stands_for c (rate_at 0 (made None (history fs)) i) (rate_at v (write_serve y) i))
   /\ (forall t start end_, tree_of t y -> m <= start < end_ -> end_ <= last_saved 0 fs + 1 ->
       (segment_exists y t start end_ = true <-> exists i, start <= i < end_ /\ rate_at 0 (made None (history fs)) i <> 0)).
Proof.
  intros NE G C S. destruct (all_files c m fs NE G C S) as (y & Y1 & Y2 & Y3 & _ & _ & Y4). exists y. split; [exact Y1|]. assert (0 <= m) as M0. { destruct fs as [|((h, max), t) fs]; [congruence|]. destruct S as (_ & M & _). exact M. }
  split; [intros v i Hi; rewrite (serve_rate y v i Y2 Y3) by lia; apply Y4; exact Hi|]. intros t start end_ T B E. rewrite (exists_flat y t start end_ Y2 Y3 T ltac:(lia)).
  split; intros (i & Hi & X); exists i; (split; [exact Hi|]); intros Z0; apply X; destruct (Y4 i ltac:(lia)) as [S1 _]; tauto.
Qed.
Print Assumptions restored_segments_partial.
(* Segments that are created after the restart, as long as those before it are of less than
   42.9 Mbit/s. *)
Theorem segments_after_restart_partial c m fs y h :
  fs <> [] -> c_gaps c = true -> conf_ok c -> saves_ok c m fs -> Forall op_small (history fs) ->
  restore (init c) (save c (init c) m fs) = Some y ->
  Forall op_ok h -> Forall (op_new (last_saved 0 fs)) h ->
  let created := until (last_saved 0 fs) (made None (history fs)) ++ made (Some (last_saved 0 fs)) h in
  (forall v i, m <= i -> freed_to h <= i -> stands_for c (rate_at 0 created i) (rate_at v (write_serve (run c y h)) i))
  /\ (forall t start end_, tree_of t (run c y h) -> m <= start < end_ -> freed_to h <= start ->
      (segment_exists (run c y h) t start end_ = true <-> exists i, start <= i < end_ /\ rate_at 0 created i <> 0)).
Proof.
  intros NE G C S SM E O N K. destruct (restart_inv c m fs y NE G C S SM E) as (Bk & XI & Hm & R). destruct (run_with_index c (last_saved 0 fs) h y G O N XI Bk) as [E1 E2].
  pose proof (run_inv c h _ _ m G C O Hm R) as R1. assert (last_opt (with_index y (last_saved 0 fs)) = Some (last_saved 0 fs)) as LO. { unfold last_opt, with_index. cbn [x_index]. assert (last_saved 0 fs =? INVALID = false) as -> by lia. reflexivity. }
  rewrite LO in R1. fold K in R1. destruct R1 as (W & I0 & _ & _ & _ & _ & _ & SF). rewrite <- E1 in W, SF. rewrite <- E2 in I0. split.
  - intros v i H1 H2. rewrite (serve_rate _ v i W I0 ltac:(lia)). apply SF. lia.
  - intros t start end_ T B H2. rewrite (exists_flat _ t start end_ W I0 T ltac:(lia)). split; intros (i & Hi & X); exists i; (split; [exact Hi|]); intros Z0; apply X; destruct (SF i ltac:(lia)) as [S1 _]; tauto.
Qed.
Print Assumptions segments_after_restart_partial.

(* The gap from 3 to 5 is in two files. *)
Definition ex_leaf : tree := Branch Leaf 0 Leaf.
Definition ex_files : list (list op * Z * tree) :=
  [([Created 1 1000; Created 2 1050; Created 3 0], 3, ex_leaf); ([Created 4 0; Freed 3], 4, ex_leaf); ([Created 5 0; Created 6 2000], 6, ex_leaf)].
Example restored_example :
  saves_ok ex_conf 1 ex_files /\ save ex_conf (init ex_conf) 1 ex_files = [(1, 3, [(1, 1000); (3, 0)]); (4, 4, [(3, 0)]); (5, 6, [(3, 0); (6, 2000)])].
Proof.
  split; [|vm_compute; reflexivity]. unfold ex_files, saves_ok, later_ok. split; [repeat constructor; cbn; lia|]. split; [lia|]. split; [cbn; lia|]. split; [lia|]. split; [vm_compute; reflexivity|].
  split; [repeat constructor; cbn; lia|]. split; [repeat constructor; cbn; lia|]. split; [lia|]. split; [vm_compute; reflexivity|].
  split; [repeat constructor; cbn; lia|]. split; [repeat constructor; cbn; lia|]. split; [lia|]. split; [vm_compute; reflexivity | exact I].
Qed.

(* The gap goes on after the restart, and then ends. *)
Example after_restart_example :
  Forall op_small (history ex_files) /\ Forall op_ok [Created 7 0; Created 8 2100] /\ Forall (op_new (last_saved 0 ex_files)) [Created 7 0; Created 8 2100]
  /\ match restore (init ex_conf) (save ex_conf (init ex_conf) 1 ex_files) with
     | Some y => write_serve (run ex_conf y [Created 7 0; Created 8 2100]) = [(0, 0); (1, 1000); (3, 0); (6, 2000); (7, 0); (8, 2100)]
     | None => False
     end.
Proof.
  split; [unfold history, ex_files; cbn [map concat fst app]; repeat (apply Forall_cons; [unfold op_small; first [lia | exact I]|]); constructor|].
  split; [repeat (apply Forall_cons; [unfold op_ok; lia|]); constructor|]. split; [change (last_saved 0 ex_files) with 6; repeat (apply Forall_cons; [unfold op_new; lia|]); constructor|]. vm_compute. reflexivity.
Qed.

(* After a restart, the last bitrate times 100 is taken modulo 2^32: a gap after a segment
   of a multiple of 2^30 bits per second is not recorded, and the segment is announced. *)
Theorem gap_after_restart_refuted c r :
  c_gaps c = true -> c_bitrate c = true -> conf_ok c -> 0 < r < 2 ^ 32 -> r mod 2 ^ 30 = 0 ->
  exists y, saves_ok c 0 [([Created 0 r], 0, ex_leaf)]
    /\ restore (init c) (save c (init c) 0 [([Created 0 r], 0, ex_leaf)]) = Some y
    /\ rate_at 0 (made None [Created 0 r; Created 1 0]) 1 = 0
    /\ segment_exists (created c y 1 0) ex_leaf 1 2 = true.
Proof.
  intros G B (C1 & C2) R M. assert (run c (init c) [Created 0 r] = Ctx [Node 0 [(0, r)]] (r * 100) 0 0 0) as E.
  { cbn [run fold_left step]. unfold init, created. rewrite G, B. cbn [negb andb x_index x_rate x_init x_nodes x_minfree]. change (0 <=? INVALID) with true. change (INVALID =? INVALID) with true. cbn [negb andb]. rewrite andb_false_r. cbv zeta. cbn [x_rate x_nodes x_init x_index x_minfree]. assert (r =? 0 = false) as -> by lia.
    assert (u64 (r * c_lower c) = r * c_lower c) as -> by (unfold u64; apply Z.mod_small; nia). assert (r * c_lower c <=? 0 = false) as -> by nia. cbn [andb]. reflexivity. }
  exists (Ctx [Node 0 [(0, r)]] (u32 (r * 100)) 0 INVALID 0). split.
  { unfold saves_ok. split; [constructor; [cbn; lia | constructor]|]. split; [lia|]. split; [cbn; lia|]. split; [lia|]. split; [unfold tree_of; rewrite E; reflexivity | exact I]. }
  split.
  { cbn [save]. cbv zeta. rewrite E. unfold write_index. cbn [x_nodes lookup walk ex_leaf nth_error n_key]. cbn. unfold init. rewrite G. reflexivity. }
  split; [reflexivity|].
  assert (u32 (r * 100) = 0) as U. { unfold u32. apply Z.mod_divide in M; [|lia]. destruct M as (q & ->). replace (q * 2 ^ 30 * 100) with (q * 25 * 2 ^ 32) by lia. apply Z.mod_mul. lia. }
  rewrite U. unfold created. rewrite G, B. cbn [negb andb x_index x_rate x_init x_nodes x_minfree]. change (1 <=? INVALID) with true. change (INVALID =? INVALID) with true. cbn [negb andb]. cbv zeta. change (0 =? 0) with true. cbn [andb x_rate]. rewrite !Z.mul_0_l. change (u64 0) with 0. change (0 <=? 0) with true. cbn [andb].
  unfold segment_exists. cbn [x_init x_nodes]. change (0 =? 0) with true. cbn [negb]. cbn. assert (r =? 0 = false) as -> by lia. reflexivity.
Qed.
Print Assumptions gap_after_restart_refuted.
Example restart_example : 0 < 2 ^ 30 < 2 ^ 32 /\ 2 ^ 30 mod 2 ^ 30 = 0.
Proof. vm_compute. split; [split; reflexivity | reflexivity]. Qed.
