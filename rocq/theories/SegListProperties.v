(* Properties C22 - C25: the list of the segments of a channel. *)
From Coq Require Import List ZArith Bool Lia ZifyBool ZifyNat.
From Verif Require Import SegListModel SegListSpec SegListProofs SegListProofs2 SegListProofs3.
Import ListNotations.
Local Open Scope Z_scope.

(* C22: after any history, the API shows the end of the sequence of all the segments ever added; only
   segments that could be removed are missing.  The counters agree with what is shown. *)
Theorem C22_history : forall l ps lo, history l ps lo ->
  exists dropped kept, ps = dropped ++ kept /\ (forall s, In s dropped -> s_index s < lo) /\ (ps <> [] -> kept <> []) /\
    shows l kept /\ segs l = kept /\ numbered kept /\
    l_seg_count l = Z.of_nat (length kept) /\ l_node_count l = Z.of_nat (length (l_nodes l)) /\
    l_elt_count l = fold_right (fun n c => Z.of_nat (length (n_elts n)) + c) 0 (l_nodes l).
Proof.
  intros l ps lo H. destruct (history_ok _ _ _ H) as (W & dr & E & L & NE). exists dr, (segs l).
  split; [exact E|]. split; [exact L|]. split; [exact NE|]. split; [apply shows_segs; auto|]. split; [reflexivity|].
  pose proof W as (W1 & W2 & _ & W4 & W5 & W6). split; [apply segs_of_numbered; auto|].
  split; [unfold segs; rewrite segs_of_length; auto|]. split; [exact W4|]. rewrite W5. clear. induction (l_nodes l) as [|n r IH]; [reflexivity|].
  cbn [ecount fold_right]. rewrite IH. reflexivity.
Qed.
Print Assumptions C22_history.

(* the list never fails for another reason than memory, and the duration of a pending segment that
   follows a segment with a known one can always be set *)
Theorem C22_total : forall l ps lo, history l ps lo ->
  (forall i t d, seg_add l true i t d <> None) /\
  (forall pre s d, segs l = pre ++ [s] -> s_dur s = PENDING -> (forall pre2 s2, pre = pre2 ++ [s2] -> s_dur s2 <> PENDING) ->
     update_last l d <> None).
Proof.
  intros l ps lo H. destruct (history_ok _ _ _ H) as (W & _). split.
  - intros i t d. apply seg_add_total; auto.
  - intros pre s d E P N. eapply update_last_total; eauto.
Qed.
Print Assumptions C22_total.

(* removing the segments before [min] frees all the nodes but the last one that starts before [min] *)
Theorem C22_free : forall l ps lo min, history l ps lo ->
  exists dropped, segs l = dropped ++ segs (free_nodes l min) /\ (forall s, In s dropped -> s_index s < min) /\
    forall a b r, l_nodes (free_nodes l min) = a :: b :: r -> min <= n_key b.
Proof.
  intros l ps lo min H. destruct (history_ok _ _ _ H) as (W & _). destruct (free_nodes_ok l min W) as (W' & dn & kn & N1 & N2 & N3 & N4 & N5).
  exists (segs_of dn). unfold segs. rewrite N3, N1, segs_of_app. split; [reflexivity|]. split; [|exact N4].
  intros s Hs. apply in_segs_nodes in Hs as (j & m & Hm & Hs). apply nth_error_In in Hm. destruct W as (W & _). rewrite N1 in W. apply Forall_app in W as [W _].
  apply node_bounds in Hs; [|eapply Forall_forall; eauto]. eapply Forall_forall in N5; [|exact Hm]. cbn in N5. lia.
Qed.
Print Assumptions C22_free.

(* an iterator that need not be strict gives the first segment from an index on; reading runs of equal
   durations gives the same durations; the iterator of the last segment gives its duration *)
Theorem C22_iterators : forall l ps lo t, history l ps lo -> tree_of l t ->
  (forall i, match iter_init l t i false with
             | None => forall s, In s (segs l) -> s_index s < i
             | Some (it, tm) => exists pre s post, segs l = pre ++ s :: post /\ (forall x, In x pre -> s_index x < i) /\ i <= s_index s /\ tm = s_time s /\
                 iterate l it (S (length post)) = Some (map s_dur (s :: post)) /\
                 exists k rs, iterate_elements l it k = Some rs /\ flat_map (fun p => repeat (fst p) (Z.to_nat (snd p))) rs = map s_dur (s :: post)
             end) /\
  (forall pre s, segs l = pre ++ [s] -> exists it, iter_last l = Some it /\ iterate l it 1 = Some [s_dur s] /\ iterate l it 2 = None).
Proof.
  intros l ps lo t H T. destruct (history_ok _ _ _ H) as (W & _). pose proof W as (W1 & W2 & _).
  assert (IT : forall it s post, rest l it = Some (map s_dur (s :: post)) -> iterate l it (S (length post)) = Some (map s_dur (s :: post))).
  { intros it s post R. pose proof (iterate_ok l W _ _ R) as I. rewrite map_length in I. exact I. }
  assert (IE : forall it r, rest l it = Some r -> exists k rs, iterate_elements l it k = Some rs /\ flat_map (fun p => repeat (fst p) (Z.to_nat (snd p))) rs = r).
  { intros it r R. destruct (iterate_elements_ok l W (length r) r it (le_n _) R) as (k & rs & A & B & _). eauto. }
  split.
  - intros i. destruct (in_dec Z.eq_dec i (map s_index (segs l))) as [I|N].
    + apply in_map_iff in I as (s & <- & I). apply in_split in I as (pre & post & E).
      destruct (iter_init_found l t pre s post false W T E) as (it & A & B). rewrite A. exists pre, s, post. split; [exact E|].
      split; [|split; [lia|split; [reflexivity|split; [apply IT; exact B|apply IE; exact B]]]].
      intros x Hx. apply in_split in Hx as (u & v & ->). pose proof (segs_of_numbered _ W1 W2) as NU. fold (segs l) in NU. rewrite E, <- app_assoc in NU.
      eapply numbered_lt; [exact NU|]. cbn. apply in_elt.
    + destruct (iter_init_missing l t i W T N) as [_ M]. destruct (iter_init l t i false) as [[it tm]|]; [|exact M].
      destruct M as (pre & s & post & M1 & M2 & M3 & M4 & M5 & _). exists pre, s, post. split; [exact M1|]. split; [exact M2|]. split; [lia|]. split; [exact M4|].
      split; [apply IT; exact M5|apply IE; exact M5].
  - intros pre s E. destruct (iter_last_ok l pre s W E) as (it & A & B). exists it. split; [exact A|].
    destruct (get_one_ok _ _ _ _ W B) as (it2 & G & R). cbn [iterate]. rewrite G. split; [reflexivity|].
    unfold get_one. rewrite (move_next_end l it2 W R). reflexivity.
Qed.
Print Assumptions C22_iterators.

(* the end time of a period that starts at a given segment: the segments up to the last one have no gap *)
Theorem C22_period_end : forall l ps lo t s0 it tm i1 e, history l ps lo -> tree_of l t -> In s0 (segs l) ->
  iter_init l t (s_index s0) true = Some (it, tm) -> period_end_time l t it i1 = Some e ->
  exists s1, In s1 (segs l) /\ s_index s1 = i1 /\ e = s_end s1 /\
    forall p mid q, segs l = p ++ s0 :: mid ++ s1 :: q -> contiguous (s0 :: mid ++ [s1]).
Proof.
  intros l ps lo t s0 it tm i1 e H T I A P. destruct (history_ok _ _ _ H) as (W & _). eapply period_end_ok; eauto.
Qed.
Print Assumptions C22_period_end.

(* C23: the segment that contains a time *)
Theorem C23_lookup : forall l ps lo t time, history l ps lo -> tree_of l t -> chronological (segs l) ->
  (forall s, In s (segs l) -> s_time s <= time < s_end s ->
     exists it post, get_segment_index l t time false = Some (it, s_index s, s_time s) /\
       (exists pre, segs l = pre ++ s :: post) /\ iterate l it (S (length post)) = Some (map s_dur (s :: post))) /\
  ((forall s, In s (segs l) -> ~ (s_time s <= time < s_end s)) -> get_segment_index l t time false = None).
Proof.
  intros l ps lo t time H T C. destruct (history_ok _ _ _ H) as (W & _). pose proof (lookup_time l t time W T C) as K. pose proof W as (W1 & W2 & _).
  destruct (get_segment_index l t time false) as [[[it idx] tm]|].
  - destruct K as (pre & s & post & K1 & K2 & K3 & K4 & K5 & _). split.
    + intros x Hx Bx. assert (x = s).
      { rewrite K1 in Hx. pose proof (segs_of_dur (l_nodes l)) as D. fold (segs l) in D. rewrite K1 in C.
        assert (P : forall u, In u (pre ++ s :: post) -> 0 <= s_dur u) by (intros u Hu; apply D; auto; rewrite K1; exact Hu).
        apply in_app_or in Hx as [Hx|[<-|Hx]]; [|reflexivity|].
        - apply in_split in Hx as (u & v & ->). rewrite <- app_assoc in C, P. pose proof (chronological_lt u x (v ++ s :: post) s P C ltac:(apply in_elt)). lia.
        - pose proof (chronological_lt pre s post x P C Hx). lia. }
      subst x. exists it, post. rewrite K2, K3. split; [reflexivity|]. split; [eauto|]. pose proof (iterate_ok l W _ _ K5) as I. rewrite map_length in I. exact I.
    + intros N. exfalso. apply (N s); [rewrite K1; apply in_elt|exact K4].
  - split; [|reflexivity]. intros s Hs B. exfalso. exact (proj1 K s Hs B).
Qed.
Print Assumptions C23_lookup.

(* C24: the closest mode gives the start of the segment that contains the time or its end, whichever is
   nearer; nothing when no segment contains the time *)
Theorem C24_boundary : forall l ps lo t time, history l ps lo -> tree_of l t -> chronological (segs l) ->
  (forall s, In s (segs l) -> s_time s <= time < s_end s ->
     exists it idx tm, get_segment_index l t time true = Some (it, idx, tm) /\
       ((idx = s_index s /\ tm = s_time s) \/ (idx = s_index s + 1 /\ tm = s_end s)) /\
       Z.abs (tm - time) <= Z.abs (s_time s - time) /\ Z.abs (tm - time) <= Z.abs (s_end s - time)) /\
  ((forall s, In s (segs l) -> ~ (s_time s <= time < s_end s)) -> get_segment_index l t time true = None).
Proof.
  intros l ps lo t time H T C. destruct (C23_lookup l ps lo t time H T C) as [A B]. destruct (history_ok _ _ _ H) as (W & _).
  pose proof (lookup_time l t time W T C) as K. split.
  - intros s Hs Bs. destruct (A s Hs Bs) as (it & post & A1 & (pre & A2) & _). rewrite A1 in K.
    destruct K as (pre' & s' & post' & K1 & K2 & K3 & K4 & _ & it' & K5 & _).
    destruct (numbered_split_unique _ _ _ _ _ _ _ (segs_of_numbered _ (proj1 W) (proj1 (proj2 W))) A2 K1 (eq_sym K2)) as (_ & <- & _).
    rewrite K5. unfold s_end in *. pose proof (Z.div_mod (s_dur s) 2 ltac:(lia)). pose proof (Z.mod_pos_bound (s_dur s) 2 ltac:(lia)).
    destruct (s_time s + s_dur s <=? time + s_dur s / 2) eqn:Q; do 3 eexists; (split; [reflexivity|]); split; auto; lia.
  - intros N. rewrite (B N) in K. apply K.
Qed.
Print Assumptions C24_boundary.

(* when the segment that contains the time is followed without a gap, the closest mode gives a segment of
   the list, and no segment starts nearer *)
Theorem C24_nearest_partial : forall l ps lo t time pre s s' post, history l ps lo -> tree_of l t -> chronological (segs l) ->
  segs l = pre ++ s :: s' :: post -> s_index s' = s_index s + 1 -> s_time s' = s_end s -> s_time s <= time < s_end s ->
  exists it r, get_segment_index l t time true = Some (it, s_index r, s_time r) /\ In r (segs l) /\
    forall x, In x (segs l) -> distance r time <= distance x time.
Proof.
  intros l ps lo t time pre s s' post H T C E I TT B. destruct (C24_boundary l ps lo t time H T C) as [A _].
  destruct (A s ltac:(rewrite E; apply in_elt) B) as (it & idx & tm & G & D & D1 & D2). exists it.
  assert (R : exists r, idx = s_index r /\ tm = s_time r /\ (r = s \/ r = s')).
  { destruct D as [[-> ->]|[-> ->]]; [exists s; auto|exists s'; split; [lia|split; [lia|auto]]]. }
  destruct R as (r & -> & -> & R). exists r. split; [exact G|]. split.
  { rewrite E. destruct R as [-> | ->]; rewrite in_app_iff; cbn; auto. }
  destruct (history_ok _ _ _ H) as (W & _). intros x Hx. rewrite E in Hx, C.
  assert (P : forall u, In u (pre ++ s :: s' :: post) -> 0 <= s_dur u) by (intros u Hu; apply (segs_of_dur (l_nodes l)); [apply W|]; fold (segs l); rewrite E; exact Hu).
  unfold distance. apply in_app_or in Hx as [Hx|[<-|[<-|Hx]]]; try lia.
  - pose proof (P x ltac:(apply in_or_app; auto)). apply in_split in Hx as (u & v & ->). rewrite <- app_assoc in C, P. cbn [app] in C, P.
    pose proof (chronological_lt u x (v ++ s :: s' :: post) s P C ltac:(apply in_elt)). unfold s_end in *. lia.
  - pose proof (chronological_lt pre s (s' :: post) x P C ltac:(right; exact Hx)). lia.
Qed.
Print Assumptions C24_nearest_partial.

(* but in the second half of the last segment the index that is returned is not in the list; the iterator
   that goes with it runs off the end of the list *)
Theorem C24_nearest_refuted : exists l ps lo t time it idx tm, history l ps lo /\ tree_of l t /\ chronological (segs l) /\
  get_segment_index l t time true = Some (it, idx, tm) /\ ~ In idx (map s_index (segs l)) /\ get_one l it = None.
Proof.
  pose proof (h_add _ _ _ true 5 1000 10 _ h_empty ltac:(lia) ltac:(intros s []) eq_refl) as H.
  do 2 eexists. exists 0, (Node Leaf 0 Leaf), 1005. do 3 eexists. split; [exact H|]. split; [reflexivity|]. split; [exact Logic.I|].
  split; [vm_compute; reflexivity|]. split; [|vm_compute; reflexivity]. vm_compute. intros [Q|[]]; discriminate.
Qed.
Print Assumptions C24_nearest_refuted.

(* C25: the segments in a range of indexes survive a write and a read into any list that ends before them *)
Theorem C25_roundtrip : forall l ps lo t min max l0 ps0 lo0, history l ps lo -> tree_of l t -> min <= max ->
  history l0 ps0 lo0 -> (forall s, In s (segs l0) -> s_index s < min) ->
  chronological (segs l0 ++ filter (in_range min max) (segs l)) ->
  exists l', read_periods l0 true min max (write_periods l t min max) = Some l' /\
    segs l' = segs l0 ++ filter (in_range min max) (segs l) /\ shows l' (segs l') /\ l_seg_count l' = Z.of_nat (length (segs l')).
Proof.
  intros l ps lo t min max l0 ps0 lo0 H T M H0 B C. destruct (history_ok _ _ _ H) as (W & _). destruct (history_ok _ _ _ H0) as (W0 & _).
  destruct (write_periods_ok l t min max W T M) as [E O]. rewrite <- E in C.
  destruct (read_periods_ok min max (write_periods l t min max) l0 true W0 O) as (l' & R1 & R2 & R3); auto.
  - rewrite E. apply numbered_app; [apply segs_of_numbered; apply W0| |].
    + pose proof (segs_of_numbered _ (proj1 W) (proj1 (proj2 W))) as N. fold (segs l) in N. clear - N. induction (segs l) as [|x r IH]; [exact Logic.I|].
      cbn [filter]. assert (N' : numbered r) by (destruct r; [exact Logic.I|apply N]). specialize (IH N'). destruct (in_range min max x); [|exact IH].
      destruct (filter (in_range min max) r) as [|y q] eqn:F; [exact Logic.I|]. split; [|exact IH].
      apply (numbered_lt [] x r y N). apply (proj1 (filter_In (in_range min max) y r)). rewrite F. left. reflexivity.
    + intros x y Hx Hy. apply B in Hx. apply filter_In in Hy as [_ Hy]. unfold in_range in Hy. lia.
  - intros s Hs. rewrite E in Hs. apply filter_In in Hs as [_ Hs]. unfold in_range in Hs. lia.
  - exists l'. split; [exact R1|]. rewrite E in R3. split; [exact R3|]. split; [apply shows_segs; auto|].
    unfold segs. rewrite segs_of_length by apply R2. apply R2.
Qed.
Print Assumptions C25_roundtrip.

(* a list in which the time went back is written to a file that can not be read *)
Theorem C25_backwards_refuted : exists l ps lo t, history l ps lo /\ tree_of l t /\ read_periods empty true 1 2 (write_periods l t 1 2) = None.
Proof.
  pose proof (h_add _ _ _ true 1 1000 10 _ h_empty ltac:(lia) ltac:(intros s []) eq_refl) as H.
  pose proof (h_add _ _ _ true 2 900 10 _ H ltac:(lia) ltac:(intros s [<-|[]]; cbn; lia) eq_refl) as H2.
  do 2 eexists. exists 0, (Node Leaf 0 (Node Leaf 1 Leaf)). split; [exact H2|]. split; [reflexivity|]. vm_compute. reflexivity.
Qed.
Print Assumptions C25_backwards_refuted.

(* a file in which a period goes back to indexes that exist already is accepted: two segments get the same
   index and the lookup does not find one of them *)
Theorem C25_overlap_refuted : exists l b1 b2 t, read_periods empty true 1 9 [b1; b2] = Some l /\ tree_of l t /\
  map s_index (segs l) = [5; 6; 5; 6] /\ ~ shows l (segs l).
Proof.
  do 3 eexists. exists (Node Leaf 0 (Node Leaf 1 Leaf)).
  split; [exact (eq_refl : read_periods empty true 1 9 [mk_block 100 5 [mk_elt 2 10]; mk_block 200 5 [mk_elt 2 20]] = Some _)|].
  split; [reflexivity|]. split; [reflexivity|]. intros S.
  destruct (S (Node Leaf 0 (Node Leaf 1 Leaf)) eq_refl) as [S1 _].
  destruct (S1 [mk_seg 5 100 10; mk_seg 6 110 10] (mk_seg 5 200 20) [mk_seg 6 220 20] eq_refl) as (it & A & _). vm_compute in A. discriminate.
Qed.
Print Assumptions C25_overlap_refuted.

(* a history: two runs, a pending segment that joins a run, a gap, a removal *)
Example C22_example : exists l, history l [mk_seg 5 1000 4; mk_seg 6 1004 4; mk_seg 7 1008 4; mk_seg 9 2000 3; mk_seg 10 2003 5] 10 /\
  segs l = [mk_seg 9 2000 3; mk_seg 10 2003 5] /\ chronological (segs l) /\ tree_of l (Node Leaf 0 Leaf) /\
  get_segment_index l (Node Leaf 0 Leaf) 2007 false = Some (mk_iter 0 1 0, 10, 2003) /\
  iter_init l (Node Leaf 0 Leaf) 3 false = Some (mk_iter 0 0 0, 2000).
Proof.
  pose proof (h_add _ _ _ true 5 1000 4 _ h_empty ltac:(lia) ltac:(intros s []) eq_refl) as H.
  pose proof (h_add _ _ _ true 6 1004 4 _ H ltac:(lia) ltac:(cbn; intros s Hs; repeat destruct Hs as [<-|Hs]; try contradiction; reflexivity) eq_refl) as H2.
  pose proof (h_add _ _ _ true 7 1008 0 _ H2 ltac:(lia) ltac:(cbn; intros s Hs; repeat destruct Hs as [<-|Hs]; try contradiction; reflexivity) eq_refl) as H3.
  pose proof (h_update _ _ _ 4 _ H3 ltac:(lia) eq_refl) as H4.
  pose proof (h_add _ _ _ true 9 2000 3 _ H4 ltac:(lia) ltac:(cbn; intros s Hs; repeat destruct Hs as [<-|Hs]; try contradiction; reflexivity) eq_refl) as H5.
  pose proof (h_add _ _ _ true 10 2003 5 _ H5 ltac:(lia) ltac:(cbn; intros s Hs; repeat destruct Hs as [<-|Hs]; try contradiction; reflexivity) eq_refl) as H6.
  pose proof (h_free _ _ _ 10 H6) as H7.
  eexists. split; [exact H7|]. vm_compute. repeat split; auto; intros; discriminate.
Qed.
