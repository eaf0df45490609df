(* Proofs about the input buffers: the calls. *)
From Coq Require Import ZArith List Bool Lia Permutation Sorting.Sorted ZifyBool ZifyNat.
From Verif Require Import Lists BufQueueModel BufQueueSpec BufQueueProofs InputBufsModel InputBufsSpec
  InputBufsProofs InputBufsProofs2.
Import ListNotations.
Open Scope Z_scope.

Definition good (w w' : world) (hs' : list hold) (T rel : list Z) : Prop :=
  ginv w' hs' /\ evolve w w' hs' /\ conserve w w' T rel.

Lemma good_same w hs : ginv w hs -> good w w hs [] [].
Proof.
  intros G. split; [exact G|]. split.
  - intros b h Ib Ih E. exists b. split; [exact Ib|]. split; [reflexivity|apply stays_refl].
  - unfold conserve. reflexivity.
Qed.

Lemma world_eta w : mkWorld (w_bufs w) (w_tracks w) (w_next w) = w.
Proof. destruct w; reflexivity. Qed.

Lemma target_buf w hs t i :
  ginv w hs -> find_track w t = Some i -> exists b, find_bufs w i = Some b.
Proof.
  intros G F. apply find_track_in in F. destruct (g_target _ _ G _ F) as (b & I & E). cbn in E.
  exists b. rewrite <- E. apply find_bufs_of; [apply (g_ids _ _ G)|exact I].
Qed.

(* replacing an object, with the same tracks and holds *)
Lemma put_plain w hs b b' A rel :
  ginv w hs -> In b (w_bufs w) -> b_id b' = b_id b ->
  map l_id (b_locks b') = map l_id (b_locks b) ->
  binv b' (tcount (w_tracks w) (b_id b)) (hfor hs (b_id b)) ->
  (forall n, In n (held (b_q b')) -> In n (held (b_q b)) \/ unused w n (bq_alloc_size (b_q b))) ->
  bq_alloc_size (b_q b') = bq_alloc_size (b_q b) ->
  (forall h, In h (hfor hs (b_id b)) -> stays (b_q b) (b_q b') (h_ptr h)) ->
  Permutation (held (b_q b) ++ A) (held (b_q b') ++ rel) ->
  good w (put_bufs w b') hs A rel.
Proof.
  intros G Ib Eid El Hb Hh Hs Hst Hp.
  change (put_bufs w b') with (mkWorld (w_bufs (put_bufs w b')) (w_tracks w) (w_next w)).
  apply (put_ok w hs b b'); auto.
  - apply (g_tracks _ _ G).
  - apply (g_target _ _ G).
  - apply (g_hold _ _ G).
  - intros l Il. assert (X : In (l_id l) (map l_id (b_locks b))) by (rewrite <- El; apply in_map, Il).
    split; [|auto]. apply in_map_iff in X. destruct X as (m & <- & Im).
    apply (g_next _ _ G b Ib), Im.
Qed.

Lemma perm_nil (a b rel : list Z) : Permutation a (b ++ rel) -> Permutation (a ++ []) (b ++ rel).
Proof. rewrite app_nil_r. auto. Qed.

Lemma perm_incl q q' rel n :
  Permutation (held q) (held q' ++ rel) -> In n (held q') -> In n (held q).
Proof. intros P I. apply (Permutation_in n (Permutation_sym P)), in_or_app. left. exact I. Qed.

(* ---- get ---- *)
Lemma get_ok w hs t r w' ret rel :
  ginv w hs -> allowed w hs (OGet t r) -> get w t r = Done w' ret rel ->
  exists T, good w w' hs T rel /\
    (T = [] \/ exists a, r = Some a /\ T = [a] /\ rel = [] /\ ~ In a (all_held w)).
Proof.
  intros G (i & b & Ft & Fb & U) S. unfold get in S. rewrite Ft, Fb in S.
  destruct (find_bufs_in _ _ _ Fb) as (Ib & Ei). destruct (g_binv _ _ G b Ib) as (C & R & P).
  destruct (bq_get (b_q b) r) as [q' p rel'|] eqn:Gt; [|discriminate]. injection S as <- _ <-.
  assert (Ua : forall a, r = Some a -> Forall (apart (bq_alloc_size (b_q b)) a) (held (b_q b))).
  { intros a E. apply Forall_forall. intros n Hn. specialize (U a E b n Ib Hn). unfold apart. lia. }
  destruct (core_get _ _ _ _ _ _ C Ua Gt) as (C' & M & -> & HP).
  assert (Bi : binv (set_q b q') (tcount (w_tracks w) (b_id b)) (hfor hs (b_id b))).
  { split; [exact C'|]. split; [exact R|exact P]. }
  destruct HP as [HP|(a & E & HP)].
  - exists []. split; [|left; reflexivity].
    apply (put_plain w hs b); auto; cbn [set_q b_q].
    + intros n Hn. left. apply (Permutation_in n (Permutation_sym HP)), Hn.
    + apply (proj1 M).
    + intros h _. apply (moves_stays 0 _ _ _ M), kept0.
    + apply perm_nil. rewrite app_nil_r. exact HP.
  - exists [a]. split.
    + apply (put_plain w hs b); auto; cbn [set_q b_q].
      * intros n Hn. apply (Permutation_in n HP) in Hn. destruct Hn as [<-|Hn]; auto.
      * apply (proj1 M).
      * intros h _. apply (moves_stays 0 _ _ _ M), kept0.
      * rewrite app_nil_r, HP. symmetry. apply Permutation_cons_append.
    + right. exists a. split; [exact E|]. split; [reflexivity|]. split; [reflexivity|].
      intros X. unfold all_held in X. apply in_flat_map in X. destruct X as (c & Ic & X).
      specialize (U a E c a Ic X).
      destruct (g_binv _ _ G c Ic) as (Cc & _). destruct (bi_sound _ _ Cc) as (S1 & _).
      destruct (bi_sound _ _ C) as (S2 & _). unfold node_size in *. lia.
Qed.

(* ---- track creation ---- *)
Lemma create_ok w hs t c size mf mem alloc w' ret rel :
  ginv w hs -> find_track w t = None -> create w t c size mf mem alloc = Done w' ret rel ->
  good w w' hs [] rel.
Proof.
  intros G Ft S. unfold create in S. destruct alloc; cbn [negb] in S; [|injection S as <- _ <-; apply good_same, G].
  unfold bq_init in S. destruct (Z.leb_spec size node_size) as [L|L]; [injection S as <- _ <-; apply good_same, G|].
  injection S as <- _ <-.
  set (nb := mkBufs (w_next w) c (mk_bq size (Some mem) 0 [] [] mf) [] 1 0 0 0 false).
  assert (Old : forall b, In b (w_bufs w) -> b_id b <> w_next w).
  { intros b Ib E. destruct (g_next _ _ G b Ib). lia. }
  assert (T0 : tcount (w_tracks w) (w_next w) = 0%nat).
  { unfold tcount. destruct (filter _ _) as [|x l] eqn:E; [reflexivity|]. exfalso.
    assert (I : In x (x :: l)) by (left; reflexivity). rewrite <- E in I. apply filter_In in I.
    destruct I as (I & X). apply Nat.eqb_eq in X. destruct (g_target _ _ G x I) as (b & Ib & Eb).
    apply (Old b Ib). congruence. }
  assert (H0 : hfor hs (w_next w) = []).
  { unfold hfor. destruct (filter _ _) as [|x l] eqn:E; [reflexivity|]. exfalso.
    assert (I : In x (x :: l)) by (left; reflexivity). rewrite <- E in I. apply filter_In in I.
    destruct I as (I & X). apply Nat.eqb_eq in X. destruct (g_hold _ _ G x I) as (b & Ib & Eb).
    apply (Old b Ib). congruence. }
  assert (Tc : forall i, tcount (w_tracks w ++ [(t, w_next w)]) i =
     (tcount (w_tracks w) i + (if Nat.eqb (w_next w) i then 1 else 0))%nat).
  { intros i. unfold tcount. rewrite filter_app, app_length. cbn [filter snd].
    destruct (Nat.eqb (w_next w) i); reflexivity. }
  split; [|split].
  - constructor; cbn [w_bufs w_tracks w_next].
    + rewrite map_app. cbn [map]. apply NoDup_app_iff. split; [apply (g_ids _ _ G)|].
      split; [constructor; [intros []|constructor]|]. intros x Hx [<-|[]]. cbn in Hx.
      apply in_map_iff in Hx. destruct Hx as (b & E & Ib). apply (Old b Ib E).
    + rewrite map_app. cbn [map]. apply NoDup_app_iff. split; [apply (g_tracks _ _ G)|].
      split; [constructor; [intros []|constructor]|]. intros x Hx [<-|[]]. cbn in Hx.
      apply in_map_iff in Hx. destruct Hx as (b & E & Ib). exact (find_track_none _ _ _ Ft Ib E).
    + intros b Ib. apply in_app_iff in Ib. destruct Ib as [Ib|[<-|[]]].
      * destruct (g_next _ _ G b Ib) as (N1 & N2). split; [lia|]. intros l Il. specialize (N2 l Il). lia.
      * cbn. split; [lia|intros l []].
    + intros b1 b2 l1 l2 I1 I2 J1 J2 E. apply in_app_iff in I1, I2.
      destruct I1 as [I1|[<-|[]]]; [|destruct J1]. destruct I2 as [I2|[<-|[]]]; [|destruct J2].
      apply (g_lockids _ _ G b1 b2 l1 l2); auto.
    + intros x Hx. apply in_app_iff in Hx. destruct Hx as [Hx|[<-|[]]].
      * destruct (g_target _ _ G x Hx) as (b & Ib & Eb). exists b. split; [apply in_or_app; auto|exact Eb].
      * exists nb. split; [apply in_or_app; right; left; reflexivity|reflexivity].
    + intros h Hh. destruct (g_hold _ _ G h Hh) as (b & Ib & Eb). exists b.
      split; [apply in_or_app; auto|exact Eb].
    + intros b Ib. rewrite Tc. apply in_app_iff in Ib. destruct Ib as [Ib|[<-|[]]].
      * specialize (Old b Ib). destruct (Nat.eqb_spec (w_next w) (b_id b)) as [E|E]; [congruence|].
        rewrite Nat.add_0_r. apply (g_binv _ _ G b Ib).
      * cbn [nb b_id]. rewrite Nat.eqb_refl, T0, H0. split; [|cbn; lia].
        constructor; cbn [nb b_locks b_q map].
        -- split; [exact L|exact Logic.I].
        -- constructor.
        -- intros l [].
        -- intros h [].
        -- intros _. cbn [nb b_locks b_q b_min_index]. split; [constructor|].
           split; [intros l []|]. split; [intros l1 l2 []|lia].
    + assert (Emp : forall q2, disjoint (b_q nb) q2 /\ disjoint q2 (b_q nb)).
      { intros q2. split; [intros n1 n2 []|intros n1 n2 _ []]. }
      intros b1 b2 I1 I2 N. apply in_app_iff in I1, I2.
      destruct I1 as [I1|[<-|[]]]; [|apply Emp]. destruct I2 as [I2|[<-|[]]]; [|apply Emp].
      apply (g_apart _ _ G); auto.
  - intros b h Ib Ih E. exists b. cbn [w_bufs]. split; [apply in_or_app; auto|].
    split; [reflexivity|apply stays_refl].
  - unfold conserve, all_held. cbn [w_bufs]. rewrite flat_map_app. cbn. rewrite !app_nil_r. reflexivity.
Qed.

(* ---- lock ---- *)
Lemma hfor_other hs h i : h_bufs h <> i -> hfor (h :: hs) i = hfor hs i.
Proof. intros N. unfold hfor. cbn. destruct (Nat.eqb_spec (h_bufs h) i); [tauto|reflexivity]. Qed.

Lemma hfor_same hs h : hfor (h :: hs) (h_bufs h) = h :: hfor hs (h_bufs h).
Proof. unfold hfor. cbn. rewrite Nat.eqb_refl. reflexivity. Qed.

Lemma lock_ok w hs t index p alloc w' ret rel :
  ginv w hs -> allowed w hs (OLock t index p alloc) ->
  take_lock w t index p alloc = Done w' ret rel ->
  (ret = RNone /\ good w w' hs [] rel) \/
  (exists id i, ret = RLock id /\ find_track w t = Some i /\ good w w' (mkHold id i index p :: hs) [] rel).
Proof.
  intros G (i & b & Ft & Fb & IO & Mi) S. unfold take_lock in S. rewrite Ft, Fb in S.
  destruct (find_bufs_in _ _ _ Fb) as (Ib & Ei). destruct (g_binv _ _ G b Ib) as (C & R & P).
  pose proof (scan_spec (b_no_partial b) (mkLock (w_next w) index 1 p) (b_locks b)) as Sc.
  destruct (scan _ _ _) as [l|l id|].
  - destruct Sc as (a & r & E & -> & Np & Ga & Gr). cbn [l_index] in Ga, Gr.
    destruct alloc; cbn [negb] in S; [|injection S as <- <- <-; left; split; [reflexivity|apply good_same, G]].
    injection S as <- <- <-. right. exists (w_next w), i. split; [reflexivity|]. split; [exact Ft|].
    set (b' := set_locks b (a ++ mkLock (w_next w) index 1 p :: r) (b_refs b + 1) (b_lock_count b + 1)).
    cbn [put_bufs w_bufs w_tracks w_next].
    change (map (fun x : bufs => if (b_id x =? b_id b')%nat then b' else x) (w_bufs w))
      with (w_bufs (put_bufs w b')).
    assert (Fresh : ~ In (w_next w) (map l_id (b_locks b))).
    { intros X. apply in_map_iff in X. destruct X as (m & Em & Im).
      assert (l_id m < w_next w)%nat by apply (g_next _ _ G b Ib), Im. lia. }
    assert (C' : core b' (mkHold (w_next w) i index p :: hfor hs i)).
    { apply core_newlock; auto.
      - rewrite <- Ei. exact C.
      - intros NP. apply Gr. apply (bi_ordered _ _ C NP). }
    apply (put_ok w hs b b'); auto.
    + apply (g_tracks _ _ G).
    + apply (g_target _ _ G).
    + intros j Nj. apply hfor_other. cbn. congruence.
    + intros h [<-|Hh]; [exists b; auto|apply (g_hold _ _ G h Hh)].
    + intros m Im. cbn [b' set_locks b_locks] in Im. apply in_insert in Im. destruct Im as [->|Im].
      * cbn. split; [lia|]. intros; lia.
      * rewrite <- E in Im. split; [|intros _; apply in_map, Im].
        assert (l_id m < w_next w)%nat by apply (g_next _ _ G b Ib), Im. lia.
    + rewrite Ei. change i with (h_bufs (mkHold (w_next w) i index p)) at 2.
      rewrite hfor_same. split; [exact C'|]. cbn [b' set_locks b_refs b_locks].
      rewrite E in R. rewrite app_length in *. cbn [length]. rewrite <- Ei. lia.
    + intros h _. apply stays_refl.
  - destruct Sc as (a & c & r & E & -> & -> & Q). injection S as <- <- <-. right.
    exists (l_id c), i. split; [reflexivity|]. split; [exact Ft|].
    set (b' := set_locks b (a ++ bump c :: r) (b_refs b) (b_lock_count b + 1)).
    change (put_bufs w b') with (mkWorld (w_bufs (put_bufs w b')) (w_tracks w) (w_next w)).
    assert (C' : core b' (mkHold (l_id c) i index p :: hfor hs i)).
    { apply core_relock; auto.
      - rewrite <- Ei. exact C.
      - apply IO. }
    apply (put_ok w hs b b'); auto.
    + apply (g_tracks _ _ G).
    + apply (g_target _ _ G).
    + intros j Nj. apply hfor_other. cbn. congruence.
    + intros h [<-|Hh]; [exists b; auto|apply (g_hold _ _ G h Hh)].
    + intros m Im. assert (X : In (l_id m) (map l_id (b_locks b))).
      { rewrite E, map_app. apply (in_map l_id) in Im. cbn [b' set_locks b_locks] in Im.
        rewrite map_app in Im. exact Im. }
      split; [|auto]. apply in_map_iff in X. destruct X as (m' & <- & Im').
      apply (g_next _ _ G b Ib), Im'.
    + rewrite Ei. change i with (h_bufs (mkHold (l_id c) i index p)) at 2.
      rewrite hfor_same. split; [exact C'|]. cbn [b' set_locks b_refs b_locks].
      rewrite E in R, P. rewrite app_length in *. cbn [length] in *. rewrite <- Ei. lia.
    + intros h _. apply stays_refl.
  - injection S as <- <- <-. left. split; [reflexivity|apply good_same, G].
Qed.

(* ---- set_min_used ---- *)
Lemma set_min_ok w hs t index p w' ret rel :
  ginv w hs -> allowed w hs (OSetMin t index p) -> set_min_used w t index p = Done w' ret rel ->
  good w w' hs [] rel.
Proof.
  intros G (i & b & Ft & Fb & IO) S. unfold set_min_used in S. rewrite Ft, Fb in S.
  destruct (find_bufs_in _ _ _ Fb) as (Ib & Ei). destruct (g_binv _ _ G b Ib) as (C & R & P).
  destruct (free_bufs (set_min b index p)) as [b1 rel1] eqn:F. injection S as <- _ <-.
  destruct (core_free_bufs _ _ _ _ (core_set_min _ _ _ _ C IO) F)
    as (q' & k & -> & C' & M & U & Pm & _ & K).
  apply (put_plain w hs b); auto; cbn [set_q set_min b_q b_locks].
  - split; [exact C'|]. split; [exact R|exact P].
  - intros n Hn. left. exact (perm_incl _ _ _ _ Pm Hn).
  - apply (proj1 M).
  - intros h Hh. exact (moves_stays k _ _ _ M (K h Hh)).
  - apply perm_nil, Pm.
Qed.

(* ---- giving up a reference, in any circumstance ---- *)
Lemma release_ok w hs b b1 T hs' w1 rel :
  ginv w hs -> In b (w_bufs w) -> b_id b1 = b_id b -> b_q b1 = b_q b \/ b_q b1 = b_q (detach b) ->
  (forall l, In l (b_locks b1) -> In l (b_locks b)) ->
  NoDup (map fst T) -> (forall x, In x T -> In x (w_tracks w)) ->
  (forall i, i <> b_id b -> tcount T i = tcount (w_tracks w) i) ->
  (forall i, i <> b_id b -> hfor hs' i = hfor hs i) ->
  (forall h, In h hs' -> In h hs) ->
  core b1 (hfor hs' (b_id b)) ->
  b_refs b1 = Z.of_nat (tcount T (b_id b) + length (b_locks b1)) + 1 ->
  free (put_bufs w b1) b1 = (w1, rel) ->
  good w (mkWorld (w_bufs w1) T (w_next w1)) hs' [] rel.
Proof.
  intros G Ib Eid Eq Hl NT HT CT CH HH C R F.
  assert (Q : bq_alloc_size (b_q b1) = bq_alloc_size (b_q b) /\ held (b_q b1) = held (b_q b) /\
              forall q' p, stays (b_q b1) q' p -> stays (b_q b) q' p).
  { destruct Eq as [->| ->]; auto. }
  destruct Q as (Q1 & Q2 & Q3).
  destruct (free_spec w b1 _ _ _ _ C R F) as [(q' & -> & Bi & Sz & Pm & _ & St)|(Z1 & Z2 & -> & Pm)].
  - cbn [put_bufs w_bufs w_next].
    set (b2 := set_q (set_refs b1 (b_refs b1 - 1)) q') in *.
    change (map (fun x : bufs => if (b_id x =? b_id b2)%nat then b2 else x) (w_bufs w))
      with (w_bufs (put_bufs w b2)).
    apply (put_ok w hs b b2); auto.
    + intros x Hx. apply (g_target _ _ G x (HT x Hx)).
    + intros h Hh. apply (g_hold _ _ G h (HH h Hh)).
    + intros l Il. cbn [b2 set_q set_refs b_locks] in Il. specialize (Hl l Il).
      split; [apply (g_next _ _ G b Ib), Hl|]. intros _. apply in_map, Hl.
    + cbn [b2 set_q b_q]. intros n Hn. left. rewrite <- Q2. exact (perm_incl _ _ _ _ Pm Hn).
    + cbn [b2 set_q b_q]. congruence.
    + apply perm_nil. cbn [b2 set_q b_q]. rewrite <- Q2. exact Pm.
  - rewrite Eid. cbn [drop_bufs w_bufs w_next].
    change (filter (fun x : bufs => negb (b_id x =? b_id b)%nat) (w_bufs w))
      with (w_bufs (drop_bufs w (b_id b))).
    apply (drop_ok w hs b); auto.
    + destruct (hfor hs' (b_id b)) as [|h l] eqn:E; [reflexivity|]. exfalso.
      destruct (bi_holds _ _ C h) as (_ & m & Im & _); [left; reflexivity|].
      rewrite Z2 in Im. destruct Im.
    + rewrite <- Q2. exact Pm.
Qed.

(* ---- unlock ---- *)
Lemma free_tracks w b : w_tracks (fst (free w b)) = w_tracks w.
Proof.
  unfold free. destruct (b_refs b <=? 0); [reflexivity|]. cbn zeta.
  destruct (0 <? b_refs (set_refs b (b_refs b - 1))).
  - destruct (free_bufs _); reflexivity.
  - destruct (b_locks _); reflexivity.
Qed.

Lemma hfor_app a b i : hfor (a ++ b) i = hfor a i ++ hfor b i.
Proof. unfold hfor. apply filter_app. Qed.

Lemma owner_of w hs h b l :
  ginv w hs -> In b (w_bufs w) -> In l (b_locks b) -> l_id l = h_lock h ->
  owner w (h_lock h) = Some b /\ List.find (fun x => Nat.eqb (l_id x) (h_lock h)) (b_locks b) = Some l.
Proof.
  intros G Ib Il El. split.
  - unfold owner. destruct (List.find _ _) as [c|] eqn:F.
    + apply find_some in F. destruct F as (Ic & X). apply existsb_exists in X.
      destruct X as (m & Im & Em). apply Nat.eqb_eq in Em. f_equal.
      apply (id_unique w); [apply (g_ids _ _ G)|auto|auto|].
      apply (g_lockids _ _ G c b m l); auto. congruence.
    + exfalso. pose proof (find_none _ _ F b Ib) as X.
      assert (existsb (fun l => Nat.eqb (l_id l) (h_lock h)) (b_locks b) = true).
      { apply existsb_exists. exists l. split; [exact Il|apply Nat.eqb_eq, El]. }
      congruence.
  - destruct (g_binv _ _ G b Ib) as (C & _). pose proof (bi_ids _ _ C) as N.
    clear C. revert N Il. induction (b_locks b) as [|c r IH]; intros N Il; [destruct Il|].
    cbn in N. inversion N as [|? ? N1 N2]; subst. cbn [List.find].
    destruct (Nat.eqb_spec (l_id c) (h_lock h)) as [E|E].
    + destruct Il as [->|Il]; [reflexivity|]. exfalso. apply N1. rewrite E, <- El. apply in_map, Il.
    + destruct Il as [->|Il]; [congruence|]. apply IH; auto.
Qed.

Lemma unlock_ok w hs a h c :
  ginv w hs -> hs = a ++ h :: c ->
  exists w' rel, unlock w (h_lock h) = Done w' RNone rel /\ good w w' (a ++ c) [] rel.
Proof.
  intros G E. assert (Ih : In h hs) by (rewrite E; apply in_or_app; right; left; reflexivity).
  destruct (g_hold _ _ G h Ih) as (b & Ib & Eb).
  destruct (g_binv _ _ G b Ib) as (C & R & P).
  assert (Hf : hfor hs (b_id b) = hfor a (b_id b) ++ h :: hfor c (b_id b)).
  { rewrite E, hfor_app. f_equal. rewrite Eb. apply hfor_same. }
  destruct (bi_holds _ _ C h) as (_ & l & Il & El & _).
  { rewrite Hf. apply in_or_app; right; left; reflexivity. }
  destruct (owner_of w hs h b l G Ib Il El) as (Ow & Fl).
  unfold unlock. rewrite Ow, Fl. destruct (bi_count _ _ C l Il) as (Rl & Pl).
  rewrite Hf in C, Rl, Pl. rewrite El in Rl, Pl.
  rewrite count_app, count_cons, Nat.eqb_refl in Rl, Pl.
  destruct (Z.leb_spec (l_refs l) 0) as [X|X]; [lia|]. clear X.
  assert (Hac : hfor (a ++ c) (b_id b) = hfor a (b_id b) ++ hfor c (b_id b)) by apply hfor_app.
  assert (Oth : forall i, i <> b_id b -> hfor (a ++ c) i = hfor hs i).
  { intros i Ni. rewrite E, !hfor_app, hfor_other by congruence. reflexivity. }
  assert (Sub : forall x, In x (a ++ c) -> In x hs).
  { intros x Hx. rewrite E. apply in_insert. auto. }
  destruct (Z.ltb_spec 0 (l_refs l - 1)) as [X|X].
  - eexists. exists []. split; [reflexivity|].
    set (b' := set_locks b (map (dec_at (h_lock h)) (b_locks b)) (b_refs b) (b_lock_count b - 1)).
    change (good w (mkWorld (w_bufs (put_bufs w b')) (w_tracks w) (w_next w)) (a ++ c) [] []).
    assert (Ids : map l_id (b_locks b') = map l_id (b_locks b)).
    { cbn [b' set_locks b_locks]. rewrite map_map. apply map_ext. intros x. unfold dec_at.
      destruct (Nat.eqb _ _); reflexivity. }
    apply (put_ok w hs b b'); auto.
    + apply (g_tracks _ _ G).
    + apply (g_target _ _ G).
    + intros x Hx. apply (g_hold _ _ G), Sub, Hx.
    + intros m Im. assert (Y : In (l_id m) (map l_id (b_locks b))) by (rewrite <- Ids; apply in_map, Im).
      split; [|auto]. apply in_map_iff in Y. destruct Y as (m' & <- & Im').
      apply (g_next _ _ G b Ib), Im'.
    + rewrite Hac. split; [|cbn [b' set_locks b_refs b_locks]; rewrite map_length; lia].
      apply core_unlock; [exact C|]. rewrite count_app. lia.
    + intros x _. apply stays_refl.
  - set (b1 := set_locks b (filter (fun x => negb (Nat.eqb (l_id x) (h_lock h))) (b_locks b))
                (b_refs b) (b_lock_count b - 1)).
    destruct (free (put_bufs w b1) b1) as [w1 rel] eqn:F. exists w1, rel. split; [reflexivity|].
    assert (Tr : w_tracks w1 = w_tracks w).
    { change w1 with (fst (w1, rel)). rewrite <- F. apply (free_tracks (put_bufs w b1)). }
    rewrite <- (world_eta w1), Tr.
    pose proof (filter_id_length (b_locks b) (h_lock h) l (bi_ids _ _ C) Il El) as Len.
    apply (release_ok w hs b b1); auto.
    + intros m Im. apply filter_In in Im. apply Im.
    + apply (g_tracks _ _ G).
    + rewrite Hac. apply core_last_unlock; [exact C|]. rewrite count_app. lia.
    + cbn [b1 set_locks b_refs b_locks]. lia.
Qed.

(* ---- tracks ---- *)
Lemma tcount_filter T t i j :
  NoDup (map fst T) -> In (t, i) T ->
  tcount (filter (fun x => negb (Nat.eqb (fst x) t)) T) j =
  (tcount T j - (if Nat.eqb i j then 1 else 0))%nat /\ (i = j -> (0 < tcount T j)%nat).
Proof.
  unfold tcount. induction T as [|[u k] T IH]; intros N I; [destruct I|].
  cbn [map fst] in N. inversion N as [|? ? N1 N2]; subst. cbn [filter fst snd].
  destruct I as [[= -> ->]|I].
  - rewrite Nat.eqb_refl. cbn [negb].
    assert (filter (fun x => negb (Nat.eqb (fst x) t)) T = T) as ->.
    { clear IH N N2. induction T as [|c T IH]; [reflexivity|]. cbn in *.
      destruct (Nat.eqb_spec (fst c) t) as [E|E]; [tauto|]. cbn. f_equal. apply IH. tauto. }
    destruct (Nat.eqb_spec i j) as [E|E]; cbn [length]; [lia|]. split; [lia|tauto].
  - destruct (Nat.eqb_spec u t) as [E|E].
    + subst u. exfalso. apply N1. apply (in_map fst) in I. exact I.
    + cbn [negb filter snd]. destruct (IH N2 I) as (IH1 & IH2).
      destruct (Nat.eqb k j); cbn [length]; [|auto]. rewrite IH1.
      destruct (Nat.eqb_spec i j) as [X|X]; [specialize (IH2 X)|]; split; lia.
Qed.

Lemma nodup_fst_filter T t : NoDup (map fst T) -> NoDup (map fst (filter (fun x : nat * nat => negb (Nat.eqb (fst x) t)) T)).
Proof. apply nodup_map_filter. Qed.

Lemma free_track_ok w hs t i b b1 w1 rel :
  ginv w hs -> find_track w t = Some i -> find_bufs w i = Some b ->
  b1 = b \/ b1 = detach b ->
  free (put_bufs w b1) b1 = (w1, rel) ->
  good w (mkWorld (w_bufs w1) (filter (fun x => negb (Nat.eqb (fst x) t)) (w_tracks w)) (w_next w1)) hs [] rel.
Proof.
  intros G Ft Fb E F. destruct (find_bufs_in _ _ _ Fb) as (Ib & Ei).
  destruct (g_binv _ _ G b Ib) as (C & R & P). apply find_track_in in Ft.
  pose proof (fun j => tcount_filter _ _ _ j (g_tracks _ _ G) Ft) as TF.
  assert (Eb : b_id b1 = b_id b /\ b_locks b1 = b_locks b /\ b_refs b1 = b_refs b /\
               core b1 (hfor hs (b_id b))).
  { destruct E as [->| ->]; [auto|]. split; [reflexivity|]. split; [reflexivity|].
    split; [reflexivity|apply core_detach, C]. }
  destruct Eb as (E1 & E2 & E3 & E4).
  apply (release_ok w hs b b1); auto.
  - destruct E as [->| ->]; auto.
  - rewrite E2. auto.
  - apply nodup_fst_filter, (g_tracks _ _ G).
  - intros x Hx. apply filter_In in Hx. apply Hx.
  - intros j Nj. destruct (TF j) as (-> & _). destruct (Nat.eqb_spec i j); [congruence|lia].
  - destruct (TF (b_id b)) as (-> & Pos). rewrite E2, E3, Ei, Nat.eqb_refl in *.
    specialize (Pos eq_refl). lia.
Qed.

Lemma track_free_ok w hs t :
  ginv w hs -> exists w' rel, track_free w t = Done w' RNone rel /\ good w w' hs [] rel.
Proof.
  intros G. unfold track_free. destruct (find_track w t) as [i|] eqn:Ft.
  2:{ exists w, []. split; [reflexivity|apply good_same, G]. }
  destruct (target_buf _ _ _ _ G Ft) as (b & Fb). rewrite Fb.
  destruct (free (put_bufs w (detach b)) (detach b)) as [w1 rel] eqn:F.
  exists (drop_track w1 t), rel. split; [reflexivity|].
  assert (Tr : w_tracks w1 = w_tracks w).
  { change w1 with (fst (w1, rel)). rewrite <- F. apply (free_tracks (put_bufs w (detach b))). }
  unfold drop_track. rewrite Tr. apply (free_track_ok w hs t i b (detach b)); auto.
Qed.

Lemma channel_free_ok w hs c w' ret rel :
  ginv w hs -> channel_free w c = Done w' ret rel -> good w w' hs [] rel.
Proof.
  intros G S. unfold channel_free in S. injection S as <- _ <-.
  set (f := fun b => if Nat.eqb (b_channel b) c then detach b else b).
  assert (Ef : forall b, b_id (f b) = b_id b /\ b_locks (f b) = b_locks b /\
     b_refs (f b) = b_refs b /\ held (b_q (f b)) = held (b_q b) /\
     bq_alloc_size (b_q (f b)) = bq_alloc_size (b_q b) /\
     (forall p, stays (b_q b) (b_q (f b)) p) /\ forall H, core b H -> core (f b) H).
  { intros b. unfold f. destruct (Nat.eqb _ _).
    - repeat (split; [reflexivity|]). split; [|apply core_detach].
      intros p i Hi. exists i, []. rewrite app_nil_r. split; [exact Hi|reflexivity].
    - repeat (split; [reflexivity|]). split; [intros p; apply stays_refl|auto]. }
  split; [|split].
  - constructor; cbn [w_bufs w_tracks w_next].
    + rewrite map_map. rewrite (map_ext _ b_id); [apply (g_ids _ _ G)|]. intros b; apply Ef.
    + apply (g_tracks _ _ G).
    + intros b Ib. apply in_map_iff in Ib. destruct Ib as (x & <- & Ix).
      destruct (Ef x) as (-> & -> & _). apply (g_next _ _ G x Ix).
    + intros b1 b2 l1 l2 I1 I2 J1 J2 E. apply in_map_iff in I1, I2.
      destruct I1 as (x1 & <- & I1). destruct I2 as (x2 & <- & I2).
      destruct (Ef x1) as (-> & E1 & _). destruct (Ef x2) as (-> & E2 & _).
      rewrite E1 in J1. rewrite E2 in J2. apply (g_lockids _ _ G x1 x2 l1 l2); auto.
    + intros x Hx. destruct (g_target _ _ G x Hx) as (b & Ib & Eb). exists (f b).
      split; [apply in_map, Ib|]. destruct (Ef b) as (-> & _). exact Eb.
    + intros x Hx. destruct (g_hold _ _ G x Hx) as (b & Ib & Eb). exists (f b).
      split; [apply in_map, Ib|]. destruct (Ef b) as (-> & _). exact Eb.
    + intros b Ib. apply in_map_iff in Ib. destruct Ib as (x & <- & Ix).
      destruct (Ef x) as (E1 & E2 & E3 & _ & _ & _ & E4). fold (f x).
      destruct (g_binv _ _ G x Ix) as (C & R & P). unfold binv.
      rewrite E1, E2, E3. auto.
    + intros b1 b2 I1 I2 N. apply in_map_iff in I1, I2.
      destruct I1 as (x1 & <- & I1). destruct I2 as (x2 & <- & I2). fold (f x1) (f x2) in *.
      destruct (Ef x1) as (E1 & _ & _ & H1 & S1 & _). destruct (Ef x2) as (E2 & _ & _ & H2 & S2 & _).
      unfold disjoint. rewrite H1, H2, S1, S2. apply (g_apart _ _ G); auto. congruence.
  - intros b h Ib Ih E. exists (f b). split; [apply in_map, Ib|]. split; [apply Ef|]. apply Ef.
  - unfold conserve, all_held. cbn [w_bufs]. fold f. rewrite !app_nil_r.
    rewrite !flat_map_concat_map, map_map.
    rewrite (map_ext (fun x => held (b_q (f x))) (fun b => held (b_q b))); [reflexivity|].
    intros b; apply Ef.
Qed.

Lemma conserve_trans w w1 w2 r1 r2 :
  conserve w w1 [] r1 -> conserve w1 w2 [] r2 -> conserve w w2 [] (r1 ++ r2).
Proof.
  unfold conserve. rewrite !app_nil_r. intros -> ->. rewrite <- app_assoc.
  apply Permutation_app_head, Permutation_app_comm.
Qed.

Lemma link_ok w hs d s :
  ginv w hs -> allowed w hs (OLink d s) ->
  exists w' rel, link w d s = Done w' RNone rel /\ good w w' hs [] rel.
Proof.
  intros G (Nds & Fd & Fs). unfold link.
  destruct (find_track w s) as [i|] eqn:Es; [|tauto]. destruct (find_track w d) as [j|] eqn:Ed; [|tauto].
  destruct (target_buf _ _ _ _ G Ed) as (bd & Fbd). rewrite Fbd.
  destruct (find_bufs_in _ _ _ Fbd) as (Ibd & Ebd).
  destruct (free w bd) as [w1 rel] eqn:F.
  assert (F' : free (put_bufs w bd) bd = (w1, rel)).
  { rewrite put_same; [exact F|apply (g_ids _ _ G)|exact Ibd]. }
  set (T1 := filter (fun x => negb (Nat.eqb (fst x) d)) (w_tracks w)).
  assert (G1 : good w (mkWorld (w_bufs w1) T1 (w_next w1)) hs [] rel).
  { apply (free_track_ok w hs d j bd bd); auto. }
  destruct G1 as (G1 & Ev1 & Co1). set (w1' := mkWorld (w_bufs w1) T1 (w_next w1)) in *.
  assert (Tr : w_tracks w1 = w_tracks w).
  { change w1 with (fst (w1, rel)). rewrite <- F. apply (free_tracks w). }
  apply find_track_in in Es. assert (Is1 : In (s, i) T1).
  { apply filter_In. split; [exact Es|]. cbn. destruct (Nat.eqb_spec s d); [congruence|reflexivity]. }
  destruct (g_target _ _ G1 _ Is1) as (bs & Ibs & Ebs). cbn [snd] in Ebs.
  assert (Fbs : find_bufs w1 i = Some bs).
  { change (find_bufs w1' i = Some bs). rewrite <- Ebs. apply find_bufs_of; [apply (g_ids _ _ G1)|exact Ibs]. }
  rewrite Fbs. cbn [put_bufs w_bufs w_tracks w_next]. rewrite Tr.
  set (T2 := map (fun x => if Nat.eqb (fst x) d then (fst x, i) else x) (w_tracks w)).
  eexists. exists rel. split; [reflexivity|].
  change (map (fun x : bufs => if (b_id x =? b_id (set_linked bs))%nat then set_linked bs else x) (w_bufs w1))
    with (w_bufs (put_bufs w1' (set_linked bs))).
  assert (NT2 : map fst T2 = map fst (w_tracks w)).
  { unfold T2. rewrite map_map. apply map_ext. intros x. destruct (Nat.eqb _ _); reflexivity. }
  apply find_track_in in Ed.
  assert (TC : forall k, tcount T2 k = (tcount T1 k + (if Nat.eqb i k then 1 else 0))%nat).
  { intros k. unfold T2, T1. pose proof (g_tracks _ _ G) as N. revert N Ed. clear.
    unfold tcount. induction (w_tracks w) as [|[u v] T IH]; intros N Ed; [destruct Ed|].
    cbn [map fst] in N. inversion N as [|? ? N1 N2]; subst. cbn [map filter fst].
    destruct (Nat.eqb_spec u d) as [E|E].
    - subst u. cbn [negb snd filter].
      assert (M : map (fun x : nat * nat => if (fst x =? d)%nat then (fst x, i) else x) T = T).
      { rewrite <- (map_id T) at 2. apply map_ext_in. intros x Hx.
        destruct (Nat.eqb_spec (fst x) d) as [Y|Y]; [|reflexivity].
        exfalso. apply N1. rewrite <- Y. apply in_map, Hx. }
      assert (F : filter (fun x : nat * nat => negb (fst x =? d)%nat) T = T).
      { clear - N1. induction T as [|c T IH]; [reflexivity|]. cbn in *.
        destruct (Nat.eqb_spec (fst c) d) as [Y|Y]; [tauto|]. cbn. f_equal. apply IH. tauto. }
      rewrite M, F. destruct (Nat.eqb i k); cbn [length]; lia.
    - cbn [negb filter snd]. destruct Ed as [[= X _]|Ed]; [congruence|].
      specialize (IH N2 Ed). destruct (Nat.eqb v k); cbn [length]; lia. }
  destruct (g_binv _ _ G1 bs Ibs) as (C & R & P). cbn [w1' w_tracks] in R, P.
  assert (G2 : good w1' (mkWorld (w_bufs (put_bufs w1' (set_linked bs))) T2 (w_next w1)) hs [] []).
  { apply (put_ok w1' hs bs (set_linked bs)); auto.
    - rewrite NT2. apply (g_tracks _ _ G).
    - intros x Hx. unfold T2 in Hx. apply in_map_iff in Hx. destruct Hx as ([u v] & <- & Iu).
      cbn [fst]. destruct (Nat.eqb_spec u d) as [E|E].
      + exists bs. auto.
      + apply (g_target _ _ G1). cbn [w1' w_tracks]. apply filter_In. split; [exact Iu|].
        cbn. destruct (Nat.eqb_spec u d); [tauto|reflexivity].
    - intros k Nk. rewrite TC. cbn [w1' w_tracks]. destruct (Nat.eqb_spec i k); [congruence|lia].
    - apply (g_hold _ _ G1).
    - intros l Il. cbn [set_linked b_locks] in Il. split; [apply (g_next _ _ G1 bs Ibs), Il|].
      intros _. apply in_map, Il.
    - split; [apply core_linked, C|]. cbn [set_linked b_refs b_locks].
      rewrite TC, Ebs, Nat.eqb_refl. rewrite Ebs in R. lia.
    - intros h _. apply stays_refl. }
  destruct G2 as (G2 & Ev2 & Co2). split; [exact G2|]. split.
  - exact (evolve_trans _ _ _ _ _ Ev1 Ev2 (fun h H => H)).
  - pose proof (conserve_trans _ _ _ _ _ Co1 Co2) as Co. rewrite app_nil_r in Co. exact Co.
Qed.

Lemma step_ok w hs o w' r rel hs' :
  ginv w hs -> allowed w hs o -> step w o = Done w' r rel -> holds_after w hs o r hs' ->
  exists T, good w w' hs' T rel /\
    (T = [] \/ exists t a, o = OGet t (Some a) /\ T = [a] /\ rel = [] /\ ~ In a (all_held w)).
Proof.
  intros G A S H. destruct o as [t c size mf mem alloc|t ans|t index p alloc|id|t index p|d s|c|t];
    cbn [step] in S.
  - exists []. split; [|left; reflexivity]. inversion H as [| |? ? N1 N2]; subst.
    eapply create_ok; eassumption.
  - destruct (get_ok _ _ _ _ _ _ _ G A S) as (T & Gd & D). exists T.
    inversion H as [| |? ? N1 N2]; subst. split; [exact Gd|].
    destruct D as [D|(a & -> & D)]; [left; exact D|right; exists t, a; auto].
  - exists []. split; [|left; reflexivity].
    destruct (lock_ok _ _ _ _ _ _ _ _ _ G A S) as [(-> & Gd)|(id & i & -> & Fi & Gd)].
    + inversion H; subst; exact Gd.
    + inversion H as [? ? ? ? ? j Fj| |? ? N1 N2]; subst.
      * rewrite Fi in Fj. injection Fj as <-. exact Gd.
      * exfalso. exact (N1 id eq_refl).
  - exists []. split; [|left; reflexivity]. inversion H as [|? ? a h b E1 E2|? ? N1 N2]; subst.
    + destruct (unlock_ok _ _ a h b G eq_refl) as (w1 & rel1 & S1 & Gd).
      rewrite S1 in S. injection S as <- _ <-. exact Gd.
    + exfalso. exact (N2 id eq_refl).
  - exists []. split; [|left; reflexivity]. inversion H; subst. eapply set_min_ok; eassumption.
  - exists []. split; [|left; reflexivity]. inversion H; subst.
    destruct (link_ok _ _ _ _ G A) as (w1 & rel1 & S1 & Gd). rewrite S1 in S. injection S as <- _ <-. exact Gd.
  - exists []. split; [|left; reflexivity]. inversion H; subst. eapply channel_free_ok; eassumption.
  - exists []. split; [|left; reflexivity]. inversion H; subst.
    destruct (track_free_ok _ _ t G) as (w1 & rel1 & S1 & Gd). rewrite S1 in S. injection S as <- _ <-. exact Gd.
Qed.

Lemma init_ginv : ginv world0 [].
Proof. constructor; cbn; try (intros; contradiction); constructor. Qed.

Lemma reach_ginv kind w hs got back : reach kind w hs got back -> ginv w hs.
Proof.
  induction 1 as [|w hs got back o w' r rel hs' Hr IH Hk Ha Hs Hh]; [exact init_ginv|].
  destruct (step_ok _ _ _ _ _ _ _ IH Ha Hs Hh) as (T & (G & _) & _). exact G.
Qed.

(* ---- conservation ---- *)
Lemma perm_filter {A} (f : A -> bool) l l' : Permutation l l' -> Permutation (filter f l) (filter f l').
Proof.
  induction 1 as [|x l l' P IH|x y l|l l' l'' P1 IH1 P2 IH2]; cbn.
  - constructor.
  - destruct (f x); [constructor|]; exact IH.
  - destruct (f x), (f y); try reflexivity; constructor.
  - etransitivity; eassumption.
Qed.

Lemma filter_none {A} (f : A -> bool) l : (forall x, In x l -> f x = false) -> filter f l = [].
Proof.
  induction l as [|x l IH]; intros H; [reflexivity|]. cbn. rewrite (H x) by (left; reflexivity).
  apply IH. intros y Hy. apply H. right; exact Hy.
Qed.

Lemma not_new l x : In x l -> negb (existsb (Z.eqb x) l) = false.
Proof.
  intros I. apply negb_false_iff, existsb_exists. exists x. split; [exact I|apply Z.eqb_refl].
Qed.

Lemma acquired_is w w' o T rel :
  conserve w w' T rel ->
  (T = [] \/ exists t a, o = OGet t (Some a) /\ T = [a] /\ rel = [] /\ ~ In a (all_held w)) ->
  Permutation (acquired w w') T.
Proof.
  unfold conserve, acquired. intros C [->|(t & a & -> & -> & -> & N)].
  - rewrite app_nil_r in C. rewrite filter_none; [reflexivity|]. intros x Hx.
    apply not_new. apply (Permutation_in x (Permutation_sym C)), in_or_app. left; exact Hx.
  - rewrite app_nil_r in C. apply Permutation_sym in C. rewrite (perm_filter _ _ _ C).
    rewrite filter_app, filter_none by (intros x Hx; apply not_new, Hx). cbn.
    destruct (existsb (Z.eqb a) (all_held w)) eqn:X; [|reflexivity].
    exfalso. apply N. apply existsb_exists in X. destruct X as (b & I & E).
    apply Z.eqb_eq in E. subst b. exact I.
Qed.

Lemma reach_balance kind w hs got back :
  reach kind w hs got back -> Permutation got (back ++ all_held w).
Proof.
  induction 1 as [|w hs got back o w' r rel hs' Hr IH Hk Ha Hs Hh]; [constructor|].
  pose proof (reach_ginv _ _ _ _ _ Hr) as G.
  destruct (step_ok _ _ _ _ _ _ _ G Ha Hs Hh) as (T & (_ & _ & C) & D).
  rewrite (acquired_is _ _ o T rel C D), IH. rewrite <- !app_assoc. apply Permutation_app_head.
  unfold conserve in C. rewrite C. apply Permutation_app_comm.
Qed.

Lemma all_apart_nodup size l : 0 < size -> all_apart size l -> NoDup l.
Proof.
  intros S. induction l as [|x l IH]; cbn; intros H; [constructor|]. destruct H as (F & A).
  constructor; [|auto]. intros I. rewrite Forall_forall in F. specialize (F x I). unfold apart in F. lia.
Qed.

Lemma nodup_held w hs : ginv w hs -> NoDup (all_held w).
Proof.
  intros G. unfold all_held.
  assert (A : forall bs, NoDup (map b_id bs) -> (forall b, In b bs -> In b (w_bufs w)) ->
              NoDup (flat_map (fun b => held (b_q b)) bs)).
  { induction bs as [|b bs IH]; intros N I; [constructor|]. cbn [flat_map].
    cbn in N. inversion N as [|? ? N1 N2]; subst.
    assert (Ib : In b (w_bufs w)) by (apply I; left; reflexivity).
    destruct (g_binv _ _ G b Ib) as (C & _). destruct (bi_sound _ _ C) as (S1 & S2).
    apply NoDup_app_iff. split; [|split].
    - apply (all_apart_nodup (bq_alloc_size (b_q b))); [unfold node_size in S1; lia|exact S2].
    - apply IH; [exact N2|]. intros x Hx. apply I. right; exact Hx.
    - intros n Hn Hm. apply in_flat_map in Hm. destruct Hm as (c & Ic & Hc).
      assert (Ic' : In c (w_bufs w)) by (apply I; right; exact Ic).
      assert (Nid : b_id b <> b_id c).
      { intros E. apply N1. rewrite E. apply in_map, Ic. }
      destruct (g_binv _ _ G c Ic') as (Cc & _). destruct (bi_sound _ _ Cc) as (S3 & _).
      destruct (g_apart _ _ G b c Ib Ic' Nid n n Hn Hc); unfold node_size in *; lia. }
  apply A; [apply (g_ids _ _ G)|auto].
Qed.

Lemma released_not_held w hs o w' r rel hs' :
  ginv w hs -> allowed w hs o -> step w o = Done w' r rel -> holds_after w hs o r hs' ->
  forall n, In n (all_held w') -> ~ In n rel.
Proof.
  intros G A S H. destruct (step_ok _ _ _ _ _ _ _ G A S H) as (T & (_ & _ & C) & D).
  assert (N : NoDup (all_held w ++ T)).
  { destruct D as [->|(t & a & _ & -> & _ & Na)]; [rewrite app_nil_r; eapply nodup_held, G|].
    apply NoDup_app_iff. split; [eapply nodup_held, G|]. split; [constructor; [intros []|constructor]|].
    intros x Hx [<-|[]]. auto. }
  apply (Permutation_NoDup C) in N. apply NoDup_app_iff in N. intros n. apply N.
Qed.
