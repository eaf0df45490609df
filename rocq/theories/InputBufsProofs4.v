(* Proofs about the input buffers: the theorems' lemmas. *)
From Coq Require Import ZArith List Bool Lia Permutation Sorting.Sorted ZifyBool ZifyNat.
From Verif Require Import Lists BufQueueModel BufQueueSpec BufQueueProofs InputBufsModel InputBufsSpec
  InputBufsProofs InputBufsProofs2 InputBufsProofs3.
Import ListNotations.
Open Scope Z_scope.

Lemma in_skipn {A} (x : A) k l : In x (skipn k l) -> In x l.
Proof. rewrite <- (firstn_skipn k l) at 2. intros H. apply in_or_app. right; exact H. Qed.

Lemma in_all_held w b n : In b (w_bufs w) -> In n (bq_used (b_q b)) -> In n (all_held w).
Proof.
  intros Ib I. unfold all_held. apply in_flat_map. exists b. split; [exact Ib|].
  unfold held. apply in_or_app. left; exact I.
Qed.

Lemma while_held_inv h w hs w' hs' rel :
  ginv w hs -> while_held h w hs w' hs' rel ->
  ginv w' hs' /\ In h hs' /\ In h hs /\
  exists b b' i j new,
    find_bufs w (h_bufs h) = Some b /\ find_bufs w' (h_bufs h) = Some b' /\
    at_buffer (b_q b) i (h_ptr h) /\ at_buffer (b_q b') j (h_ptr h) /\
    skipn j (bq_used (b_q b')) = skipn i (bq_used (b_q b)) ++ new /\
    forall n, In n (skipn i (bq_used (b_q b))) -> ~ In n rel.
Proof.
  intros G. induction 1 as [Ih|w1 hs1 rel1 o w2 r rel2 hs2 Hw IH Ha Hs Hh Ih2].
  - split; [exact G|]. split; [exact Ih|]. split; [exact Ih|].
    destruct (g_hold _ _ G h Ih) as (b & Ib & Eb). destruct (g_binv _ _ G b Ib) as (C & _).
    destruct (bi_holds _ _ C h) as ((i & Hi) & _).
    { unfold hfor. apply filter_In. split; [exact Ih|]. rewrite Eb. apply Nat.eqb_refl. }
    assert (F : find_bufs w (h_bufs h) = Some b) by (rewrite <- Eb; apply find_bufs_of; [apply (g_ids _ _ G)|exact Ib]).
    exists b, b, i, i, []. rewrite app_nil_r. auto 8.
  - destruct IH as (G1 & I1 & I0 & b & b1 & i & j & new & F & F1 & Hi & Hj & E & Nr).
    destruct (step_ok _ _ _ _ _ _ _ G1 Ha Hs Hh) as (T & (G2 & Ev & _) & _).
    split; [exact G2|]. split; [exact Ih2|]. split; [exact I0|].
    destruct (find_bufs_in _ _ _ F1) as (Ib1 & Eb1).
    destruct (Ev b1 h Ib1 Ih2 (eq_sym Eb1)) as (b2 & Ib2 & Eb2 & St).
    destruct (St j Hj) as (k & new2 & Hk & E2).
    assert (F2 : find_bufs w2 (h_bufs h) = Some b2).
    { rewrite <- Eb1, <- Eb2. apply find_bufs_of; [apply (g_ids _ _ G2)|exact Ib2]. }
    exists b, b2, i, k, (new ++ new2).
    split; [exact F|]. split; [exact F2|]. split; [exact Hi|]. split; [exact Hk|].
    split; [rewrite E2, E, app_assoc; reflexivity|].
    intros n Hn X. apply in_app_iff in X. destruct X as [X|X]; [exact (Nr n Hn X)|].
    apply (released_not_held _ _ _ _ _ _ _ G1 Ha Hs Hh n); [|exact X].
    apply (in_all_held _ b2); [exact Ib2|]. apply (in_skipn n k). rewrite E2, E.
    apply in_or_app; left. apply in_or_app; left. exact Hn.
Qed.

(* ---- the lifetime of objects ---- *)
Lemma lifetime w hs i : ginv w hs -> (find_bufs w i <> None <-> (0 < users w hs i)%nat).
Proof.
  intros G. unfold users. fold (tcount (w_tracks w) i). fold (hfor hs i). split.
  - destruct (find_bufs w i) as [b|] eqn:F; [|congruence]. intros _.
    destruct (find_bufs_in _ _ _ F) as (Ib & Eb). destruct (g_binv _ _ G b Ib) as (C & _ & P).
    rewrite Eb in *. destruct (b_locks b) as [|l r] eqn:L; [cbn in P; lia|].
    destruct (bi_count _ _ C l) as (_ & Pc); [rewrite L; left; reflexivity|].
    apply count_pos in Pc. destruct Pc as (h & Ih & _). destruct (hfor hs i); [destruct Ih|].
    cbn [length]. lia.
  - intros P. assert (X : exists b, In b (w_bufs w) /\ b_id b = i).
    { unfold tcount, hfor in P. destruct (filter (fun x => Nat.eqb (snd x) i) (w_tracks w)) as [|x l] eqn:E1.
      - destruct (filter (fun h => Nat.eqb (h_bufs h) i) hs) as [|h l] eqn:E2; [cbn in P; lia|].
        assert (I : In h (h :: l)) by (left; reflexivity). rewrite <- E2 in I.
        apply filter_In in I. destruct I as (I & E). apply Nat.eqb_eq in E.
        destruct (g_hold _ _ G h I) as (b & Ib & Eb). exists b. split; [exact Ib|congruence].
      - assert (I : In x (x :: l)) by (left; reflexivity). rewrite <- E1 in I.
        apply filter_In in I. destruct I as (I & E). apply Nat.eqb_eq in E.
        destruct (g_target _ _ G x I) as (b & Ib & Eb). exists b. split; [exact Ib|congruence]. }
    destruct X as (b & Ib & <-). rewrite find_bufs_of; [discriminate|apply (g_ids _ _ G)|exact Ib].
Qed.

Lemma nothing_left w : ginv w [] -> w_tracks w = [] -> w_bufs w = [].
Proof.
  intros G T. destruct (w_bufs w) as [|b l] eqn:E; [reflexivity|]. exfalso.
  assert (F : find_bufs w (b_id b) <> None).
  { rewrite find_bufs_of; [discriminate|apply (g_ids _ _ G)|rewrite E; left; reflexivity]. }
  apply (proj1 (lifetime w [] _ G)) in F. unfold users in F. rewrite T in F. cbn in F. lia.
Qed.

(* ---- no undefined behaviour ---- *)
Lemma in_split_hold (hs : list hold) h : In h hs -> exists a c, hs = a ++ h :: c.
Proof. apply in_split. Qed.

Lemma step_defined w hs o :
  ginv w hs -> allowed w hs o ->
  (exists w' r rel, step w o = Done w' r rel) \/
  (exists t r i b, o = OGet t r /\ find_track w t = Some i /\ find_bufs w i = Some b /\
     bq_mem_left (b_q b) = None /\ bq_free (b_q b) = []).
Proof.
  intros G A. destruct o as [t c size mf mem alloc|t ans|t index p alloc|id|t index p|d s|c|t];
    cbn [step].
  - left. unfold create. destruct (negb alloc); [eauto|]. destruct (bq_init _ _ _); eauto.
  - destruct A as (i & b & Ft & Fb & _). unfold get. rewrite Ft, Fb.
    destruct (bq_get (b_q b) ans) as [q' p rel|] eqn:E; [left; eauto|]. right.
    exists t, ans, i, b. unfold bq_get in E. destruct (bq_free (b_q b)) as [|n l] eqn:Fr; [|discriminate].
    destruct (bq_mem_left (b_q b)) as [m|] eqn:Me; [|auto 8].
    destruct (m <? bq_alloc_size (b_q b)); [discriminate|]. destruct ans; discriminate.
  - left. destruct A as (i & b & Ft & Fb & _). unfold take_lock. rewrite Ft, Fb.
    destruct (scan _ _ _); [destruct (negb alloc)| |]; eauto.
  - left. destruct A as (h & Ih & <-). destruct (in_split _ _ Ih) as (a & c & E).
    destruct (unlock_ok w hs a h c G E) as (w' & rel & S & _). eauto.
  - left. destruct A as (i & b & Ft & Fb & _). unfold set_min_used. rewrite Ft, Fb.
    destruct (free_bufs _). eauto.
  - left. destruct (link_ok w hs d s G A) as (w' & rel & S & _). eauto.
  - left. unfold channel_free. eauto.
  - left. destruct (track_free_ok w hs t G) as (w' & rel & S & _). eauto.
Qed.

Lemma lock_granted w hs t index p :
  allowed w hs (OLock t index p true) ->
  exists w' id, step w (OLock t index p true) = Done w' (RLock id) [].
Proof.
  intros (i & b & Ft & Fb & (_ & O) & _). cbn [step]. unfold take_lock. rewrite Ft, Fb.
  destruct (scan _ _ _) as [l|l id|] eqn:S; [cbn [negb]; eauto|eauto|]. exfalso.
  revert O S. destruct (b_no_partial b).
  - intros _. destruct (b_locks b); discriminate.
  - intros O. specialize (O eq_refl). revert O. induction (b_locks b) as [|c r IH]; intros O; [discriminate|].
    cbn [scan l_index l_ptr].
    destruct (Z.ltb_spec index (l_index c)) as [L|L].
    + assert (O' : forall l, In l r ->
        (l_index l < index -> not_after (b_q b) (l_ptr l) p) /\
        (index < l_index l -> not_after (b_q b) p (l_ptr l)) /\ (index = l_index l -> p = l_ptr l))
        by (intros l Hl; apply O; right; exact Hl).
      specialize (IH O'). destruct (scan _ _ r); try discriminate. exact IH.
    + destruct (Z.ltb_spec (l_index c) index) as [L2|L2]; [discriminate|].
      destruct (O c (or_introl eq_refl)) as (_ & _ & E). rewrite E by lia.
      rewrite Z.eqb_refl. discriminate.
Qed.

(* Without links, the queue of a track keeps its budget. *)
Definition pinv (w : world) : Prop :=
  forall b, In b (w_bufs w) -> (tcount (w_tracks w) (b_id b) <= 1)%nat /\
    ((0 < tcount (w_tracks w) (b_id b))%nat -> bq_mem_left (b_q b) <> None).

Lemma free_bufs_mem b :
  b_id (fst (free_bufs b)) = b_id b /\
  (bq_mem_left (b_q b) <> None -> bq_mem_left (b_q (fst (free_bufs b))) <> None).
Proof.
  unfold free_bufs. destruct (b_no_partial b); [auto|]. destruct (b_min_index b <=? 0); [auto|].
  cbn zeta. destruct (bq_free_upto (b_q b) _) as [q' r rel|] eqn:F; [|auto].
  cbn [fst set_q b_id b_q]. split; [reflexivity|]. exact (free_upto_mem _ _ _ _ _ F).
Qed.

Lemma free_mem w b1 x :
  In x (w_bufs (fst (free (put_bufs w b1) b1))) ->
  (In x (w_bufs w) /\ b_id x <> b_id b1) \/
  (b_id x = b_id b1 /\ (bq_mem_left (b_q b1) <> None -> bq_mem_left (b_q x) <> None)).
Proof.
  assert (Sub : forall b2, b_id b2 = b_id b1 ->
     (bq_mem_left (b_q b1) <> None -> bq_mem_left (b_q b2) <> None) ->
     In x (w_bufs (put_bufs w b2)) ->
     (In x (w_bufs w) /\ b_id x <> b_id b1) \/
     (b_id x = b_id b1 /\ (bq_mem_left (b_q b1) <> None -> bq_mem_left (b_q x) <> None))).
  { intros b2 E M I. apply in_put in I. destruct I as [(-> & _)|(I & N)].
    - right. auto.
    - left. split; [exact I|congruence]. }
  unfold free. destruct (b_refs b1 <=? 0); [cbn [fst]; apply Sub; auto|]. cbn zeta.
  destruct (0 <? b_refs (set_refs b1 (b_refs b1 - 1))).
  - destruct (free_bufs_mem (set_refs b1 (b_refs b1 - 1))) as (E & M).
    destruct (free_bufs _) as [b2 rel]. cbn [fst] in *. rewrite put_put by (symmetry; exact E).
    apply Sub; auto.
  - destruct (b_locks _).
    + cbn [bq_delete fst]. rewrite drop_put by reflexivity. intros I. apply in_drop in I. left; exact I.
    + cbn [fst]. rewrite put_put by reflexivity. apply Sub; auto.
Qed.

Lemma pinv_step w hs o w' r rel :
  ginv w hs -> pinv w -> plain o -> allowed w hs o -> step w o = Done w' r rel -> pinv w'.
Proof.
  intros G Pv K A S.
  assert (Put : forall b b', In b (w_bufs w) -> b_id b' = b_id b ->
    (bq_mem_left (b_q b) <> None -> bq_mem_left (b_q b') <> None) -> pinv (put_bufs w b')).
  { intros b b' Ib E M x Ix. apply in_put in Ix. cbn [put_bufs w_tracks].
    destruct Ix as [(-> & _)|(Ix & _)]; [|apply Pv, Ix]. rewrite E.
    destruct (Pv b Ib) as (P1 & P2). auto. }
  destruct o as [t c size mf mem alloc|t ans|t index p alloc|id|t index p|d s|c|t];
    cbn [step] in S; try contradiction K.
  - unfold create in S. destruct (negb alloc); [injection S as <- _ _; exact Pv|].
    destruct (bq_init size mf mem) as [q|] eqn:Q; [|injection S as <- _ _; exact Pv].
    injection S as <- _ _. intros b Ib. cbn [w_bufs w_tracks] in *.
    assert (Tc : forall i, tcount (w_tracks w ++ [(t, w_next w)]) i =
      (tcount (w_tracks w) i + (if Nat.eqb (w_next w) i then 1 else 0))%nat).
    { intros i. unfold tcount. rewrite filter_app, app_length. cbn [filter snd].
      destruct (Nat.eqb (w_next w) i); reflexivity. }
    rewrite Tc. apply in_app_iff in Ib. destruct Ib as [Ib|[<-|[]]].
    + destruct (g_next _ _ G b Ib) as (N & _). destruct (Nat.eqb_spec (w_next w) (b_id b)); [lia|].
      rewrite Nat.add_0_r. apply Pv, Ib.
    + cbn [b_id b_q]. rewrite Nat.eqb_refl.
      assert (T0 : tcount (w_tracks w) (w_next w) = 0%nat).
      { unfold tcount. destruct (filter _ _) as [|x l] eqn:E; [reflexivity|]. exfalso.
        assert (I : In x (x :: l)) by (left; reflexivity). rewrite <- E in I. apply filter_In in I.
        destruct I as (I & X). apply Nat.eqb_eq in X. destruct (g_target _ _ G x I) as (b & Ib & Eb).
        destruct (g_next _ _ G b Ib). lia. }
      rewrite T0. split; [lia|]. intros _. unfold bq_init in Q.
      destruct (size <=? node_size); [discriminate|]. injection Q as <-. discriminate.
  - unfold get in S. destruct (find_track w t) as [i|]; [|discriminate].
    destruct (find_bufs w i) as [b|] eqn:F; [|discriminate].
    destruct (find_bufs_in _ _ _ F) as (Ib & _).
    destruct (bq_get (b_q b) ans) as [q' p rel'|] eqn:Gt; [|discriminate]. injection S as <- _ _.
    apply (Put b); auto. intros M. cbn [set_q b_q]. unfold bq_get in Gt.
    destruct (bq_free (b_q b)).
    + destruct (bq_mem_left (b_q b)) as [m|] eqn:Me; [|congruence].
      destruct (m <? bq_alloc_size (b_q b)); [injection Gt as <- _ _; congruence|].
      destruct ans; injection Gt as <- _ _; [discriminate|congruence].
    + injection Gt as <- _ _. exact M.
  - unfold take_lock in S. destruct (find_track w t) as [i|]; [|discriminate].
    destruct (find_bufs w i) as [b|] eqn:F; [|discriminate].
    destruct (find_bufs_in _ _ _ F) as (Ib & _).
    destruct (scan _ _ _) as [l|l id|]; [destruct (negb alloc)| |]; injection S as <- _ _; try exact Pv.
    + intros x Ix. exact (Put b (set_locks b l (b_refs b + 1) (b_lock_count b + 1)) Ib eq_refl (fun M => M) x Ix).
    + apply (Put b); auto.
  - unfold unlock in S. destruct (owner w id) as [b|] eqn:O; [|discriminate].
    assert (Ib : In b (w_bufs w)) by (apply find_some in O; apply O).
    destruct (List.find _ _) as [l|]; [|discriminate].
    destruct (l_refs l <=? 0); [injection S as <- _ _; exact Pv|].
    destruct (0 <? l_refs l - 1); [injection S as <- _ _; apply (Put b); auto|].
    match type of S with context [free (put_bufs w ?x) ?x] => set (b1 := x) in * end.
    pose proof (free_mem w b1) as FM. pose proof (free_tracks (put_bufs w b1) b1) as FT.
    destruct (free (put_bufs w b1) b1) as [w1 rel1]. injection S as <- _ _.
    intros x Ix. cbn [fst] in *. rewrite FT. cbn [put_bufs w_tracks].
    destruct (FM x Ix) as [(I & _)|(E & M)]; [apply Pv, I|]. rewrite E. cbn [b1 set_locks b_id].
    destruct (Pv b Ib) as (P1 & P2). auto.
  - unfold set_min_used in S. destruct (find_track w t) as [i|]; [|discriminate].
    destruct (find_bufs w i) as [b|] eqn:F; [|discriminate].
    destruct (find_bufs_in _ _ _ F) as (Ib & _).
    destruct (free_bufs_mem (set_min b index p)) as (E & M).
    destruct (free_bufs _) as [b1 rel1]. injection S as <- _ _. apply (Put b); auto.
  - unfold track_free in S. destruct (find_track w t) as [i|] eqn:Ft; [|injection S as <- _ _; exact Pv].
    destruct (find_bufs w i) as [b|] eqn:F; [|discriminate].
    destruct (find_bufs_in _ _ _ F) as (Ib & Eb). apply find_track_in in Ft.
    pose proof (fun j => tcount_filter _ _ _ j (g_tracks _ _ G) Ft) as TF.
    pose proof (free_mem w (detach b)) as FM. pose proof (free_tracks (put_bufs w (detach b)) (detach b)) as FT.
    destruct (free (put_bufs w (detach b)) (detach b)) as [w1 rel1]. injection S as <- _ _.
    intros x Ix. cbn [drop_track w_bufs w_tracks fst] in *. rewrite FT. cbn [put_bufs w_tracks].
    destruct (TF (b_id x)) as (-> & _).
    destruct (FM x Ix) as [(I & N)|(E & _)].
    + cbn [detach bq_detach set_q b_id] in N. destruct (Nat.eqb_spec i (b_id x)) as [Y|Y]; [congruence|].
      rewrite Nat.sub_0_r. apply Pv, I.
    + cbn [detach bq_detach set_q b_id] in E. rewrite E, Eb, Nat.eqb_refl.
      destruct (Pv b Ib) as (P1 & _). rewrite Eb in P1. split; lia.
Qed.

Lemma reach_pinv w hs got back : reach plain w hs got back -> pinv w.
Proof.
  induction 1 as [|w hs got back o w' r rel hs' Hr IH Hk Ha Hs Hh]; [intros b []|].
  exact (pinv_step _ _ _ _ _ _ (reach_ginv _ _ _ _ _ Hr) IH Hk Ha Hs).
Qed.

(* ---- what is freed ---- *)
Lemma freed w hs t index p w' r rel i b' :
  ginv w hs -> allowed w hs (OSetMin t index p) -> 0 < index ->
  step w (OSetMin t index p) = Done w' r rel ->
  find_track w t = Some i -> find_bufs w' i = Some b' -> b_no_partial b' = false ->
  at_buffer (b_q b') 0 p \/
  exists h, In h hs /\ h_bufs h = i /\ h_index h < index /\ at_buffer (b_q b') 0 (h_ptr h).
Proof.
  intros G (i' & b & Ft & Fb & IO) Pos S Ft2 Fb' NP. rewrite Ft in Ft2. injection Ft2 as <-.
  cbn [step] in S. unfold set_min_used in S. rewrite Ft, Fb in S.
  destruct (find_bufs_in _ _ _ Fb) as (Ib & Ei). destruct (g_binv _ _ G b Ib) as (C & _).
  destruct (free_bufs (set_min b index p)) as [b1 rel1] eqn:F. injection S as <- _ _.
  assert (E1 : b_id b1 = b_id b).
  { pose proof (free_bufs_mem (set_min b index p)) as (E & _). rewrite F in E. exact E. }
  assert (b' = b1) as ->.
  { destruct (find_bufs_in _ _ _ Fb') as (I & E). apply in_put in I.
    destruct I as [(-> & _)|(_ & N)]; [reflexivity|congruence]. }
  pose proof (core_set_min _ _ _ _ C IO) as Cm.
  assert (NPb : b_no_partial b = false).
  { destruct (free_bufs_spec _ _ _ (bi_sound _ _ Cm) (bi_ordered _ _ Cm) F) as (q' & k & -> & _). exact NP. }
  destruct (bi_ordered _ _ C NPb) as (Hs & Hl & _). destruct IO as ((ip & Hip) & IO).
  unfold free_bufs in F. cbn [set_min b_no_partial b_min_index b_min_ptr b_q] in F. rewrite NPb in F.
  destruct (Z.leb_spec index 0) as [X|_]; [lia|].
  assert (At0 : forall ptr j q' r' rel', at_buffer (b_q b) j ptr ->
    bq_free_upto (b_q b) ptr = BqOk q' r' rel' -> at_buffer q' 0 ptr).
  { intros ptr j q' r' rel' Hj FU. destruct (free_upto_spec _ _ _ _ _ _ (bi_sound _ _ C) Hj FU) as (Sz & U & _).
    replace 0%nat with (j - j)%nat by lia. apply (moves_at j (b_q b)); [|exact Hj|lia].
    split; [exact Sz|exists []; rewrite app_nil_r; exact U]. }
  assert (NoUB : forall ptr, bq_free_upto (b_q b) ptr <> BqUB).
  { intros ptr. unfold bq_free_upto. destruct (bq_used (b_q b)); [discriminate|].
    destruct (bq_free_loop _ _ _); discriminate. }
  change (first_lock _) with (first_lock b) in F. unfold first_lock in F.
  destruct (hd_error (rev (b_locks b))) as [f|] eqn:HF.
  - destruct (first_lock_min _ _ Hs HF) as (If & _).
    destruct (Z.ltb_spec (l_index f) index) as [L|L].
    + right. destruct (bi_count _ _ C f If) as (_ & Pc). apply count_pos in Pc.
      destruct Pc as (h & Ih & Eh). destruct (bi_holds _ _ C h Ih) as (_ & l & Il & El & Q).
      destruct (Q NPb) as (Q1 & Q2). assert (l = f) as ->.
      { assert (Eid : l_id l = l_id f) by congruence. pose proof (bi_ids _ _ C) as ND.
        clear - ND Il If Eid. induction (b_locks b) as [|c r IH]; [destruct Il|].
        cbn in ND. inversion ND as [|? ? N1 N2]; subst. destruct Il as [->|Il], If as [->|If]; auto.
        - exfalso. apply N1. rewrite Eid. apply in_map, If.
        - exfalso. apply N1. rewrite <- Eid. apply in_map, Il. }
      unfold hfor in Ih. apply filter_In in Ih. destruct Ih as (Ih & Eb). apply Nat.eqb_eq in Eb.
      exists h. split; [exact Ih|]. split; [congruence|]. split; [lia|]. rewrite <- Q2.
      destruct (Hl f If) as (j & Hj).
      destruct (bq_free_upto (b_q b) (l_ptr f)) as [q' r' rel'|] eqn:FU; [|destruct (NoUB _ FU)].
      injection F as <- _. cbn [set_q b_q]. exact (At0 _ _ _ _ _ Hj FU).
    + left. destruct (bq_free_upto (b_q b) p) as [q' r' rel'|] eqn:FU; [|destruct (NoUB _ FU)].
      injection F as <- _. cbn [set_q b_q]. exact (At0 _ _ _ _ _ Hip FU).
  - left. destruct (bq_free_upto (b_q b) p) as [q' r' rel'|] eqn:FU; [|destruct (NoUB _ FU)].
    injection F as <- _. cbn [set_q b_q]. exact (At0 _ _ _ _ _ Hip FU).
Qed.

(* ---- storing a block of data ---- *)
Lemma find_put w b i b0 :
  find_bufs w i = Some b0 -> b_id b = i -> find_bufs (put_bufs w b) i = Some b.
Proof.
  unfold find_bufs, put_bufs. cbn [w_bufs]. intros F <-. revert F.
  induction (w_bufs w) as [|c l IH]; [discriminate|]. cbn [List.find map].
  destruct (Nat.eqb_spec (b_id c) (b_id b)) as [E|E].
  - intros _. rewrite Nat.eqb_refl. reflexivity.
  - intros F. destruct (Nat.eqb_spec (b_id c) (b_id b)); [congruence|]. apply IH, F.
Qed.

Lemma get_ptr w t i b r w' p rel :
  find_track w t = Some i -> find_bufs w i = Some b -> get w t r = Done w' (RPtr p) rel ->
  exists q', find_track w' t = Some i /\ find_bufs w' i = Some (set_q b q') /\
    bq_alloc_size q' = bq_alloc_size (b_q b) /\ bq_used q' = bq_used (b_q b) ++ [p - 8].
Proof.
  intros Ft Fb S. unfold get in S. rewrite Ft, Fb in S.
  destruct (bq_get (b_q b) r) as [q' o rel'|] eqn:Gt; [|discriminate].
  destruct o as [p'|]; [|discriminate]. injection S as <- <- _.
  destruct (find_bufs_in _ _ _ Fb) as (_ & Ei).
  exists q'. split; [exact Ft|]. split; [apply (find_put w (set_q b q') i b); auto|].
  unfold bq_get in Gt. destruct (bq_free (b_q b)) as [|n l].
  - destruct (bq_mem_left (b_q b)) as [m|]; [|discriminate].
    destruct (m <? bq_alloc_size (b_q b)); [discriminate|].
    destruct r; [|discriminate]. injection Gt as <- <- _. cbn. split; [reflexivity|].
    unfold node_start, node_size. f_equal. f_equal. lia.
  - injection Gt as <- <- _. cbn. split; [reflexivity|].
    unfold node_start, node_size. f_equal. f_equal. lia.
Qed.

Lemma read_chain_ok : forall fuel w t ans data w' chain i b,
  find_track w t = Some i -> find_bufs w i = Some b ->
  read_chain fuel w t ans data = Some (w', Some chain) ->
  concat (map snd chain) = data /\
  exists b', find_bufs w' i = Some b' /\ bq_alloc_size (b_q b') = bq_alloc_size (b_q b) /\
    bq_used (b_q b') = bq_used (b_q b) ++ map (fun x => fst x - 8) chain /\
    Forall (fun x => (length (snd x) <= Z.to_nat (bq_alloc_size (b_q b) - 8))%nat) chain.
Proof.
  induction fuel as [|fuel IH]; intros w t ans data w' chain i b Ft Fb S; [discriminate|].
  cbn [read_chain] in S. rewrite Ft, Fb in S.
  destruct (get w t (hd None ans)) as [w1 r rel|] eqn:Gt; [|discriminate].
  destruct r as [|id|p]; [discriminate|discriminate|].
  destruct (get_ptr _ _ _ _ _ _ _ _ Ft Fb Gt) as (q' & Ft1 & Fb1 & Sz & U).
  unfold node_size in S.
  destruct (Nat.leb_spec (length data) (Z.to_nat (bq_alloc_size (b_q b) - 8))) as [L|L].
  - injection S as <- <-. cbn. rewrite app_nil_r. split; [reflexivity|].
    exists (set_q b q'). split; [exact Fb1|]. cbn. split; [exact Sz|]. split; [exact U|].
    constructor; [exact L|constructor].
  - destruct (read_chain fuel w1 t (tl ans) _) as [[w2 [ch|]]|] eqn:R; [|discriminate|discriminate].
    injection S as <- <-.
    destruct (IH _ _ _ _ _ _ _ _ Ft1 Fb1 R) as (E & b' & Fb' & Sz' & U' & Fo).
    cbn [set_q b_q] in *. split.
    + cbn. rewrite E. apply firstn_skipn.
    + exists b'. split; [exact Fb'|]. split; [congruence|]. split.
      * rewrite U', U, <- app_assoc. reflexivity.
      * constructor; [cbn; rewrite firstn_length; lia|]. rewrite <- Sz. exact Fo.
Qed.

Lemma read_chain_total : forall fuel w t ans data i b,
  find_track w t = Some i -> find_bufs w i = Some b ->
  8 < bq_alloc_size (b_q b) -> bq_mem_left (b_q b) <> None -> (length data < fuel)%nat ->
  read_chain fuel w t ans data <> None.
Proof.
  induction fuel as [|fuel IH]; intros w t ans data i b Ft Fb Sz Me Lf; [lia|].
  cbn [read_chain]. rewrite Ft, Fb.
  destruct (get w t (hd None ans)) as [w1 r rel|] eqn:Gt.
  2:{ exfalso. unfold get in Gt. rewrite Ft, Fb in Gt. unfold bq_get in Gt.
      destruct (bq_free (b_q b)); [|discriminate].
      destruct (bq_mem_left (b_q b)); [|congruence].
      destruct (_ <? _); [discriminate|]. destruct (hd None ans); discriminate. }
  destruct r as [|id|p]; [discriminate|discriminate|].
  destruct (get_ptr _ _ _ _ _ _ _ _ Ft Fb Gt) as (q' & Ft1 & Fb1 & Sz1 & U).
  unfold node_size.
  destruct (Nat.leb_spec (length data) (Z.to_nat (bq_alloc_size (b_q b) - 8))) as [L|L]; [discriminate|].
  assert (R : read_chain fuel w1 t (tl ans) (skipn (Z.to_nat (bq_alloc_size (b_q b) - 8)) data) <> None).
  { apply (IH _ _ _ _ i (set_q b q') Ft1 Fb1); cbn [set_q b_q].
    - lia.
    - unfold get in Gt. rewrite Ft, Fb in Gt.
      destruct (bq_get (b_q b) (hd None ans)) as [q'' o rel'|] eqn:Q; [|discriminate].
      assert (q'' = q') as ->.
      { injection Gt as <- _ _. assert (X : find_bufs (put_bufs w (set_q b q'')) i = Some (set_q b q'')).
        { apply (find_put w (set_q b q'') i b); [exact Fb|]. apply find_bufs_in in Fb. apply Fb. }
        rewrite X in Fb1. injection Fb1 as E. exact E. }
      unfold bq_get in Q. destruct (bq_free (b_q b)).
      + destruct (bq_mem_left (b_q b)) as [m|] eqn:Em; [|congruence].
        destruct (m <? bq_alloc_size (b_q b)); [injection Q as <- _ _; congruence|].
        destruct (hd None ans); injection Q as <- _ _; [discriminate|congruence].
      + injection Q as <- _ _. exact Me.
    - rewrite skipn_length. lia. }
  destruct (read_chain fuel w1 t (tl ans) _) as [[w2 [ch|]]|]; [discriminate|discriminate|congruence].
Qed.
