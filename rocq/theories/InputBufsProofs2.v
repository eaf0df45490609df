(* Proofs about the input buffers: all objects, tracks and holds. *)
From Coq Require Import ZArith List Bool Lia Permutation Sorting.Sorted ZifyBool ZifyNat.
From Verif Require Import Lists BufQueueModel BufQueueSpec BufQueueProofs InputBufsModel InputBufsSpec
  InputBufsProofs.
Import ListNotations.
Open Scope Z_scope.

Definition tcount (T : list (nat * nat)) (i : nat) : nat :=
  length (filter (fun x => Nat.eqb (snd x) i) T).
Definition hfor (hs : list hold) (i : nat) : list hold :=
  filter (fun h => Nat.eqb (h_bufs h) i) hs.
Definition disjoint (q1 q2 : bq) : Prop :=
  forall n1 n2, In n1 (held q1) -> In n2 (held q2) ->
    n1 + bq_alloc_size q1 <= n2 \/ n2 + bq_alloc_size q2 <= n1.

Record ginv (w : world) (hs : list hold) : Prop := mkGinv {
  g_ids : NoDup (map b_id (w_bufs w));
  g_tracks : NoDup (map fst (w_tracks w));
  g_next : forall b, In b (w_bufs w) -> (b_id b < w_next w)%nat /\
    forall l, In l (b_locks b) -> (l_id l < w_next w)%nat;
  g_lockids : forall b1 b2 l1 l2, In b1 (w_bufs w) -> In b2 (w_bufs w) ->
    In l1 (b_locks b1) -> In l2 (b_locks b2) -> l_id l1 = l_id l2 -> b_id b1 = b_id b2;
  g_target : forall x, In x (w_tracks w) -> exists b, In b (w_bufs w) /\ b_id b = snd x;
  g_hold : forall h, In h hs -> exists b, In b (w_bufs w) /\ b_id b = h_bufs h;
  g_binv : forall b, In b (w_bufs w) -> binv b (tcount (w_tracks w) (b_id b)) (hfor hs (b_id b));
  g_apart : forall b1 b2, In b1 (w_bufs w) -> In b2 (w_bufs w) -> b_id b1 <> b_id b2 ->
    disjoint (b_q b1) (b_q b2) }.

Lemma id_unique w b b' :
  NoDup (map b_id (w_bufs w)) -> In b (w_bufs w) -> In b' (w_bufs w) -> b_id b = b_id b' -> b = b'.
Proof.
  induction (w_bufs w) as [|c l IH]; intros N I I' E; [destruct I|].
  cbn in N. inversion N as [|? ? N1 N2]; subst. destruct I as [->|I], I' as [->|I']; auto.
  - exfalso. apply N1. rewrite E. apply in_map, I'.
  - exfalso. apply N1. rewrite <- E. apply in_map, I.
Qed.

Lemma find_bufs_in w i b : find_bufs w i = Some b -> In b (w_bufs w) /\ b_id b = i.
Proof.
  unfold find_bufs. intros F. apply find_some in F. destruct F as (I & E).
  apply Nat.eqb_eq in E. auto.
Qed.

Lemma find_bufs_of w b :
  NoDup (map b_id (w_bufs w)) -> In b (w_bufs w) -> find_bufs w (b_id b) = Some b.
Proof.
  intros N I. destruct (find_bufs w (b_id b)) as [c|] eqn:F.
  - apply find_bufs_in in F. destruct F as (Ic & Ec). f_equal. apply (id_unique w); auto.
  - unfold find_bufs in F. apply (find_none _ _ F) in I. rewrite Nat.eqb_refl in I. discriminate.
Qed.

Lemma find_track_in w t i : find_track w t = Some i -> In (t, i) (w_tracks w).
Proof.
  unfold find_track. destruct (List.find _ _) as [[t' i']|] eqn:F; [|discriminate].
  intros [= <-]. apply find_some in F. destruct F as (I & E). apply Nat.eqb_eq in E.
  cbn in *. subst. exact I.
Qed.

Lemma find_track_none w t x : find_track w t = None -> In x (w_tracks w) -> fst x <> t.
Proof.
  unfold find_track. destruct (List.find _ _) eqn:F; [discriminate|]. intros _ I E.
  apply (find_none _ _ F) in I. apply Nat.eqb_neq in I. auto.
Qed.

Lemma find_track_of w t i :
  NoDup (map fst (w_tracks w)) -> In (t, i) (w_tracks w) -> find_track w t = Some i.
Proof.
  intros N I. destruct (find_track w t) as [j|] eqn:F.
  - apply find_track_in in F. f_equal. revert N I F.
    induction (w_tracks w) as [|c l IH]; intros N I F; [destruct I|].
    cbn in N. inversion N as [|? ? N1 N2]; subst. destruct I as [->|I], F as [E|F].
    + congruence.
    + exfalso. apply N1. apply (in_map fst) in F. exact F.
    + subst c. exfalso. apply N1. apply (in_map fst) in I. exact I.
    + apply IH; auto.
  - exfalso. exact (find_track_none _ _ _ F I eq_refl).
Qed.

Lemma in_put w b x :
  In x (w_bufs (put_bufs w b)) <->
  (x = b /\ exists y, In y (w_bufs w) /\ b_id y = b_id b) \/ (In x (w_bufs w) /\ b_id x <> b_id b).
Proof.
  unfold put_bufs. cbn [w_bufs]. rewrite in_map_iff. split.
  - intros (y & E & I). destruct (Nat.eqb_spec (b_id y) (b_id b)) as [X|X].
    + left. split; [auto|]. exists y. auto.
    + subst y. right. auto.
  - intros [(-> & y & I & E)|(I & N)].
    + exists y. rewrite E, Nat.eqb_refl. auto.
    + exists x. destruct (Nat.eqb_spec (b_id x) (b_id b)); [tauto|auto].
Qed.

Lemma in_drop w i x : In x (w_bufs (drop_bufs w i)) <-> In x (w_bufs w) /\ b_id x <> i.
Proof.
  unfold drop_bufs. cbn [w_bufs]. rewrite filter_In. destruct (Nat.eqb_spec (b_id x) i); cbn; intuition.
Qed.

Lemma put_ids w b : map b_id (w_bufs (put_bufs w b)) = map b_id (w_bufs w).
Proof.
  unfold put_bufs. cbn [w_bufs]. rewrite map_map. apply map_ext. intros x.
  destruct (Nat.eqb_spec (b_id x) (b_id b)); congruence.
Qed.

Lemma put_same w b : NoDup (map b_id (w_bufs w)) -> In b (w_bufs w) -> put_bufs w b = w.
Proof.
  intros N I. destruct w as [bs ts nx]. unfold put_bufs. cbn [w_bufs w_tracks w_next] in *. f_equal.
  rewrite <- (map_id bs) at 2. apply map_ext_in. intros x Hx.
  destruct (Nat.eqb_spec (b_id x) (b_id b)) as [E|E]; [|reflexivity].
  symmetry. apply (id_unique (mkWorld bs ts nx)); auto.
Qed.

Lemma put_put w b1 b2 : b_id b1 = b_id b2 -> put_bufs (put_bufs w b1) b2 = put_bufs w b2.
Proof.
  intros E. unfold put_bufs. cbn [w_bufs w_tracks w_next]. f_equal. rewrite map_map.
  apply map_ext. intros x. destruct (Nat.eqb_spec (b_id x) (b_id b1)) as [X|X].
  - rewrite E, Nat.eqb_refl. rewrite <- E, X, Nat.eqb_refl. reflexivity.
  - reflexivity.
Qed.

Lemma drop_put w b i : b_id b = i -> drop_bufs (put_bufs w b) i = drop_bufs w i.
Proof.
  intros <-. unfold drop_bufs, put_bufs. cbn [w_bufs w_tracks w_next]. f_equal.
  induction (w_bufs w) as [|c l IH]; [reflexivity|]. cbn [map filter].
  destruct (Nat.eqb_spec (b_id c) (b_id b)) as [X|X].
  - rewrite Nat.eqb_refl. cbn [negb]. exact IH.
  - destruct (Nat.eqb_spec (b_id c) (b_id b)); [tauto|]. cbn [negb]. f_equal. exact IH.
Qed.

(* The buffers of one object and of the others. *)
Lemma held_split w b :
  NoDup (map b_id (w_bufs w)) -> In b (w_bufs w) ->
  exists rest, Permutation (all_held w) (held (b_q b) ++ rest) /\
    all_held (drop_bufs w (b_id b)) = rest /\
    forall b', b_id b' = b_id b -> Permutation (all_held (put_bufs w b')) (held (b_q b') ++ rest).
Proof.
  intros N I. unfold all_held. destruct w as [bs ts nx]. cbn [w_bufs drop_bufs put_bufs] in *.
  assert (Keep : forall l, ~ In (b_id b) (map b_id l) ->
    filter (fun x => negb (Nat.eqb (b_id x) (b_id b))) l = l /\
    forall b', b_id b' = b_id b -> map (fun x => if Nat.eqb (b_id x) (b_id b') then b' else x) l = l).
  { induction l as [|c l IH]; intros X; [auto|]. cbn in X.
    destruct IH as (A & B); [tauto|]. cbn [filter map]. split.
    - rewrite A. destruct (Nat.eqb_spec (b_id c) (b_id b)); [tauto|reflexivity].
    - intros b' E. rewrite (B _ E), E. destruct (Nat.eqb_spec (b_id c) (b_id b)); [tauto|reflexivity]. }
  apply in_split in I. destruct I as (l1 & l2 & ->). rewrite map_app in N. cbn [map] in N.
  apply NoDup_remove_2 in N. rewrite in_app_iff in N.
  destruct (Keep l1) as (K1 & K2); [tauto|]. destruct (Keep l2) as (K3 & K4); [tauto|].
  exists (flat_map (fun b => held (b_q b)) (l1 ++ l2)). split; [|split].
  - rewrite !flat_map_app. cbn [flat_map]. rewrite app_assoc.
    etransitivity; [apply Permutation_app_tail, Permutation_app_comm|]. rewrite <- app_assoc. reflexivity.
  - rewrite filter_app. cbn [filter]. rewrite Nat.eqb_refl. cbn [negb]. rewrite K1, K3. reflexivity.
  - intros b' E. rewrite map_app. cbn [map]. rewrite E, Nat.eqb_refl. rewrite <- E.
    rewrite (K2 _ E), (K4 _ E).
    rewrite !flat_map_app. cbn [flat_map]. rewrite app_assoc.
    etransitivity; [apply Permutation_app_tail, Permutation_app_comm|]. rewrite <- app_assoc. reflexivity.
Qed.

(* What readers see of a step: data from a held position on stays. *)
Definition stays (q q' : bq) (p : Z) : Prop :=
  forall i, at_buffer q i p ->
    exists j new, at_buffer q' j p /\ skipn j (bq_used q') = skipn i (bq_used q) ++ new.

Definition evolve (w w' : world) (hs' : list hold) : Prop :=
  forall b h, In b (w_bufs w) -> In h hs' -> h_bufs h = b_id b ->
    exists b', In b' (w_bufs w') /\ b_id b' = b_id b /\ stays (b_q b) (b_q b') (h_ptr h).

Lemma stays_refl q p : stays q q p.
Proof. intros i Hi. exists i, []. rewrite app_nil_r. auto. Qed.

Lemma stays_trans q q1 q2 p : stays q q1 p -> stays q1 q2 p -> stays q q2 p.
Proof.
  intros A B i Hi. destruct (A i Hi) as (j & n1 & Hj & E1). destruct (B j Hj) as (k & n2 & Hk & E2).
  exists k, (n1 ++ n2). split; [exact Hk|]. rewrite E2, E1, app_assoc. reflexivity.
Qed.

Lemma moves_stays k q q' p : moves k q q' -> kept k q p -> stays q q' p.
Proof.
  intros M K i Hi. assert (k <= i)%nat by (apply K, Hi). exists (i - k)%nat.
  assert (Hj := moves_at _ _ _ _ _ M Hi H). destruct M as (_ & new & U). exists new.
  split; [exact Hj|]. rewrite U, skipn_app. rewrite skipn_skipn_add.
  replace (k + (i - k))%nat with i by lia. f_equal. rewrite skipn_length.
  destruct Hi as (n & Hn & _). assert (i < length (bq_used q))%nat.
  { apply nth_error_Some. rewrite Hn. discriminate. }
  replace (i - k - (length (bq_used q) - k))%nat with 0%nat by lia. reflexivity.
Qed.

Lemma evolve_trans w w1 w2 hs1 hs2 :
  evolve w w1 hs1 -> evolve w1 w2 hs2 -> (forall h, In h hs2 -> In h hs1) -> evolve w w2 hs2.
Proof.
  intros A B I b h Ib Ih E. destruct (A b h Ib (I h Ih) E) as (b1 & I1 & E1 & S1).
  destruct (B b1 h I1 Ih) as (b2 & I2 & E2 & S2); [congruence|].
  exists b2. split; [exact I2|]. split; [congruence|]. exact (stays_trans _ _ _ _ S1 S2).
Qed.

Definition conserve (w w' : world) (T rel : list Z) : Prop :=
  Permutation (all_held w ++ T) (all_held w' ++ rel).

Lemma put_ok w hs b b' T nx hs' A rel :
  ginv w hs -> In b (w_bufs w) -> b_id b' = b_id b ->
  NoDup (map fst T) ->
  (forall x, In x T -> exists y, In y (w_bufs w) /\ b_id y = snd x) ->
  (forall i, i <> b_id b -> tcount T i = tcount (w_tracks w) i) ->
  (forall i, i <> b_id b -> hfor hs' i = hfor hs i) ->
  (forall h, In h hs' -> exists y, In y (w_bufs w) /\ b_id y = h_bufs h) ->
  (w_next w <= nx)%nat ->
  (forall l, In l (b_locks b') -> (l_id l < nx)%nat /\
     ((l_id l < w_next w)%nat -> In (l_id l) (map l_id (b_locks b)))) ->
  binv b' (tcount T (b_id b)) (hfor hs' (b_id b)) ->
  (forall n, In n (held (b_q b')) -> In n (held (b_q b)) \/ unused w n (bq_alloc_size (b_q b))) ->
  bq_alloc_size (b_q b') = bq_alloc_size (b_q b) ->
  (forall h, In h (hfor hs' (b_id b)) -> stays (b_q b) (b_q b') (h_ptr h)) ->
  Permutation (held (b_q b) ++ A) (held (b_q b') ++ rel) ->
  ginv (mkWorld (w_bufs (put_bufs w b')) T nx) hs' /\
  evolve w (mkWorld (w_bufs (put_bufs w b')) T nx) hs' /\
  conserve w (mkWorld (w_bufs (put_bufs w b')) T nx) A rel.
Proof.
  intros G Ib Eid NT HT CT CH HH Hnx Hl Hb Hheld Hsz Hst Hperm.
  assert (Back : forall x, In x (w_bufs (put_bufs w b')) ->
    (x = b') \/ (In x (w_bufs w) /\ b_id x <> b_id b)).
  { intros x Hx. apply in_put in Hx. rewrite Eid in Hx. destruct Hx as [(-> & _)|Hx]; auto. }
  assert (Forth : forall y, In y (w_bufs w) -> exists z, In z (w_bufs (put_bufs w b')) /\ b_id z = b_id y).
  { intros y Hy. destruct (Nat.eq_dec (b_id y) (b_id b)) as [E|N].
    - exists b'. split; [apply in_put; left; split; [reflexivity|exists y; split; congruence]|congruence].
    - exists y. split; [apply in_put; right; split; [exact Hy|congruence]|reflexivity]. }
  split; [|split].
  - constructor; cbn [w_bufs w_tracks w_next].
    + rewrite put_ids. apply (g_ids _ _ G).
    + exact NT.
    + intros x Hx. destruct (Back x Hx) as [->|(Ix & _)].
      * split; [rewrite Eid; destruct (g_next _ _ G b Ib); lia|]. intros l Il. apply (Hl l Il).
      * destruct (g_next _ _ G x Ix) as (N1 & N2). split; [lia|]. intros l Il.
        specialize (N2 l Il). lia.
    + intros b1 b2 l1 l2 I1 I2 J1 J2 E.
      destruct (Back b1 I1) as [->|(I1' & _)], (Back b2 I2) as [->|(I2' & _)].
      * reflexivity.
      * destruct (g_next _ _ G b2 I2') as (_ & N2). specialize (N2 l2 J2).
        destruct (Hl l1 J1) as (_ & F). rewrite E in F. specialize (F N2).
        apply in_map_iff in F. destruct F as (l & El & Il). rewrite Eid.
        apply (g_lockids _ _ G b b2 l l2); auto.
      * destruct (g_next _ _ G b1 I1') as (_ & N1). specialize (N1 l1 J1).
        destruct (Hl l2 J2) as (_ & F). rewrite <- E in F. specialize (F N1).
        apply in_map_iff in F. destruct F as (l & El & Il). rewrite Eid.
        apply (g_lockids _ _ G b1 b l1 l); auto.
      * apply (g_lockids _ _ G b1 b2 l1 l2); auto.
    + intros x Hx. destruct (HT x Hx) as (y & Iy & Ey). destruct (Forth y Iy) as (z & Iz & Ez).
      exists z. split; [exact Iz|congruence].
    + intros h Hh. destruct (HH h Hh) as (y & Iy & Ey). destruct (Forth y Iy) as (z & Iz & Ez).
      exists z. split; [exact Iz|congruence].
    + intros x Hx. destruct (Back x Hx) as [->|(Ix & Nx)].
      * rewrite Eid. exact Hb.
      * rewrite CT, CH by exact Nx. apply (g_binv _ _ G x Ix).
    + assert (D : forall x, In x (w_bufs w) -> b_id x <> b_id b -> disjoint (b_q b') (b_q x)).
      { intros x Ix Nx n1 n2 I1 I2. rewrite Hsz. destruct (Hheld n1 I1) as [I1'|U].
        - apply (g_apart _ _ G b x Ib Ix); auto.
        - destruct (U x n2 Ix I2); lia. }
      intros b1 b2 I1 I2 N.
      destruct (Back b1 I1) as [->|(I1' & N1)], (Back b2 I2) as [->|(I2' & N2)].
      * congruence.
      * apply D; auto.
      * intros n1 n2 J1 J2. destruct (D b1 I1' N1 n2 n1 J2 J1); auto.
      * apply (g_apart _ _ G); auto.
  - intros x h Ix Ih E. cbn [w_bufs]. destruct (Nat.eq_dec (b_id x) (b_id b)) as [X|X].
    + assert (x = b) as -> by (apply (id_unique w); auto; apply (g_ids _ _ G)).
      exists b'. split; [apply in_put; left; split; [reflexivity|exists b; auto]|].
      split; [exact Eid|]. apply Hst. unfold hfor. apply filter_In. split; [exact Ih|].
      rewrite E. apply Nat.eqb_refl.
    + exists x. split; [apply in_put; right; split; [exact Ix|congruence]|].
      split; [reflexivity|apply stays_refl].
  - unfold conserve. destruct (held_split w b (g_ids _ _ G) Ib) as (rest & P1 & _ & P2).
    specialize (P2 b' Eid). change (all_held (mkWorld (w_bufs (put_bufs w b')) T nx)) with (all_held (put_bufs w b')).
    rewrite P1, P2. rewrite <- !app_assoc.
    etransitivity; [apply Permutation_app_head, Permutation_app_comm|]. rewrite app_assoc.
    etransitivity; [apply Permutation_app_tail; exact Hperm|]. rewrite <- app_assoc.
    apply Permutation_app_head, Permutation_app_comm.
Qed.

Lemma drop_ok w hs b T hs' rel :
  ginv w hs -> In b (w_bufs w) ->
  NoDup (map fst T) ->
  (forall x, In x T -> In x (w_tracks w)) ->
  (forall i, i <> b_id b -> tcount T i = tcount (w_tracks w) i) ->
  (forall i, i <> b_id b -> hfor hs' i = hfor hs i) ->
  (forall h, In h hs' -> In h hs) ->
  tcount T (b_id b) = 0%nat -> hfor hs' (b_id b) = [] ->
  Permutation (held (b_q b)) rel ->
  ginv (mkWorld (w_bufs (drop_bufs w (b_id b))) T (w_next w)) hs' /\
  evolve w (mkWorld (w_bufs (drop_bufs w (b_id b))) T (w_next w)) hs' /\
  conserve w (mkWorld (w_bufs (drop_bufs w (b_id b))) T (w_next w)) [] rel.
Proof.
  intros G Ib NT HT CT CH HH Z1 Z2 Hperm.
  assert (NB : forall h, In h hs' -> h_bufs h <> b_id b).
  { intros h Hh E. assert (In h (hfor hs' (b_id b))) as X.
    { unfold hfor. apply filter_In. split; [exact Hh|]. rewrite E. apply Nat.eqb_refl. }
    rewrite Z2 in X. destruct X. }
  assert (NTr : forall x, In x T -> snd x <> b_id b).
  { intros x Hx E. assert (In x (filter (fun x => Nat.eqb (snd x) (b_id b)) T)) as X.
    { apply filter_In. split; [exact Hx|]. rewrite E. apply Nat.eqb_refl. }
    unfold tcount in Z1. destruct (filter _ _); [destruct X|discriminate]. }
  split; [|split].
  - constructor; cbn [w_bufs w_tracks w_next].
    + unfold drop_bufs. cbn [w_bufs]. apply nodup_map_filter, (g_ids _ _ G).
    + exact NT.
    + intros x Hx. apply in_drop in Hx. apply (g_next _ _ G x), Hx.
    + intros b1 b2 l1 l2 I1 I2. apply in_drop in I1, I2. apply (g_lockids _ _ G); [apply I1|apply I2].
    + intros x Hx. destruct (g_target _ _ G x (HT x Hx)) as (y & Iy & Ey). exists y.
      split; [|exact Ey]. apply in_drop. split; [exact Iy|]. rewrite Ey. apply NTr, Hx.
    + intros h Hh. destruct (g_hold _ _ G h (HH h Hh)) as (y & Iy & Ey). exists y.
      split; [|exact Ey]. apply in_drop. split; [exact Iy|]. rewrite Ey. apply NB, Hh.
    + intros x Hx. apply in_drop in Hx. destruct Hx as (Ix & Nx). rewrite CT, CH by exact Nx.
      apply (g_binv _ _ G x Ix).
    + intros b1 b2 I1 I2. apply in_drop in I1, I2. apply (g_apart _ _ G); [apply I1|apply I2].
  - intros x h Ix Ih E. cbn [w_bufs]. exists x. split; [|split; [reflexivity|apply stays_refl]].
    apply in_drop. split; [exact Ix|]. rewrite <- E. apply NB, Ih.
  - unfold conserve. destruct (held_split w b (g_ids _ _ G) Ib) as (rest & P1 & P2 & _).
    change (all_held (mkWorld (w_bufs (drop_bufs w (b_id b))) T (w_next w)))
      with (all_held (drop_bufs w (b_id b))).
    rewrite P1, P2, app_nil_r, Hperm. apply Permutation_app_comm.
Qed.

(* Giving up one reference. *)
Lemma free_spec w b1 nt H w1 rel :
  core b1 H -> b_refs b1 = Z.of_nat (nt + length (b_locks b1)) + 1 ->
  free (put_bufs w b1) b1 = (w1, rel) ->
  (exists q', let b2 := set_q (set_refs b1 (b_refs b1 - 1)) q' in
     w1 = put_bufs w b2 /\ binv b2 nt H /\
     bq_alloc_size q' = bq_alloc_size (b_q b1) /\
     Permutation (held (b_q b1)) (held q' ++ rel) /\
     (bq_mem_left (b_q b1) <> None -> bq_mem_left q' <> None) /\
     (forall h, In h H -> stays (b_q b1) q' (h_ptr h))) \/
  (nt = 0%nat /\ b_locks b1 = [] /\ w1 = drop_bufs w (b_id b1) /\ Permutation (held (b_q b1)) rel).
Proof.
  intros C R F. unfold free in F. destruct (Z.leb_spec (b_refs b1) 0) as [L|L]; [lia|].
  cbn [set_refs b_refs b_locks b_q] in F.
  destruct (Z.ltb_spec 0 (b_refs b1 - 1)) as [P|P].
  - left. change (mkBufs (b_id b1) (b_channel b1) (b_q b1) (b_locks b1) (b_refs b1 - 1)
       (b_lock_count b1) (b_min_index b1) (b_min_ptr b1) (b_no_partial b1))
       with (set_refs b1 (b_refs b1 - 1)) in F.
    destruct (free_bufs (set_refs b1 (b_refs b1 - 1))) as [b2 rel2] eqn:FB. injection F as <- <-.
    destruct (core_free_bufs _ _ _ _ (core_refs _ _ _ C) FB)
      as (q' & k & -> & C2 & M & U & Pm & Mem & K).
    exists q'. cbn zeta. rewrite put_put by reflexivity.
    split; [reflexivity|]. split; [|split; [apply (proj1 M)|split; [exact Pm|split; [exact Mem|]]]].
    + split; [exact C2|]. cbn [set_q set_refs b_refs b_locks]. lia.
    + intros h Hh. exact (moves_stays k _ _ _ M (K h Hh)).
  - assert (Z0 : nt = 0%nat /\ b_locks b1 = []).
    { destruct (b_locks b1); cbn [length] in *; [split; [lia|reflexivity]|lia]. }
    destruct Z0 as (-> & Z0). right. rewrite Z0 in F. cbn [bq_delete] in F. injection F as <- <-.
    split; [reflexivity|]. split; [exact Z0|]. split; [apply drop_put; reflexivity|].
    unfold held. apply Permutation_app_comm.
Qed.
