(* The loops that write the frames of all tracks. *)

From Coq Require Import List ZArith Lia Bool Arith Sorted.
From Coq Require Import ZifyBool ZifyNat.
From Verif Require Import TrkModel TrkSpec TrkProofs TrkProofs2.
Import ListNotations.
Open Scope Z_scope.

Definition cts (u : ups) : list (list frame) := map (fun t => content (t_fl t)) (u_tracks u).

Fixpoint sum (l : list (list frame)) : nat := match l with [] => 0%nat | x :: r => (length x + sum r)%nat end.

Lemma total_sum u : inv u -> total u = sum (cts u).
Proof.
  intros (I1 & _). unfold total, cts.
  assert (F : Forall (fun t => wf (t_fl t)) (u_tracks u)).
  { apply Forall_forall. intros t HT. apply In_nth_error in HT as (i & HI). exact (proj1 (I1 i t HI)). }
  clear I1. induction F as [|t r W F IH]; cbn [fold_right map sum]; [reflexivity|]. rewrite (cnt_ok _ W). f_equal. exact IH.
Qed.

Lemma sum_upd : forall l i x, (i < length l)%nat -> (sum (upd l i x) + length (nth i l []) = sum l + length x)%nat.
Proof. induction l as [|a r IH]; intros [|i] x H; cbn [upd sum nth length] in *; try lia. specialize (IH i x ltac:(lia)). lia. Qed.

Lemma pend_nth u i : pend u i = nth i (cts u) [].
Proof.
  unfold pend, cts. destruct (nth_error (u_tracks u) i) as [t|] eqn:E.
  - symmetry. apply nth_error_nth. rewrite nth_error_map, E. reflexivity.
  - symmetry. apply nth_overflow. rewrite map_length. apply nth_error_None. exact E.
Qed.

Lemma cts_len u u' : same u u' -> length (cts u') = length (cts u).
Proof. intros (_ & E). unfold cts. rewrite !map_length. unfold sids in E. apply (f_equal (@length _)) in E. rewrite !map_length in E. exact E. Qed.

Lemma nth_upd {A} (d x : A) : forall l i j, (i < length l)%nat -> nth j (upd l i x) d = if (j =? i)%nat then x else nth j l d.
Proof. induction l as [|a r IH]; intros [|i] [|j] H; cbn [upd nth length] in *; try lia; try reflexivity. change (S j =? S i)%nat with (j =? i)%nat. apply IH. lia. Qed.

Lemma total_dec u u' i f r : inv u -> inv u' -> same u u' -> pend u i = f :: r -> (forall j, pend u' j = if (j =? i)%nat then r else pend u j) ->
  total u = S (total u').
Proof.
  intros I I' SM HC HP. rewrite (total_sum _ I), (total_sum _ I').
  assert (LT : (i < length (cts u))%nat).
  { destruct (Nat.lt_ge_cases i (length (cts u))) as [H|H]; [exact H|]. rewrite pend_nth, nth_overflow in HC by lia. discriminate. }
  assert (E : cts u' = upd (cts u) i r).
  { apply (nth_ext _ _ [] []); [rewrite upd_len; apply cts_len; exact SM|]. intros j _. rewrite nth_upd by lia. rewrite <- !pend_nth. apply HP. }
  rewrite E. pose proof (sum_upd (cts u) i r LT) as S. rewrite <- pend_nth, HC in S. cbn [length] in S. lia.
Qed.

(* the least node of a tree *)
Lemma tree_min l gg k i r : tree_ok l gg -> l = (k, i) :: r -> gg i = Some k /\ forall j k', gg j = Some k' -> k <= k'.
Proof.
  intros (S & _ & H) ->. split; [apply H; left; reflexivity|]. intros j k' G. apply H in G as [G|G]; [injection G as -> ->; lia|].
  inversion S; subst. rewrite Forall_forall in H3. exact (H3 _ G).
Qed.

Lemma g_some key u i k : inv u -> g key u i = Some k ->
  exists t f r, nth_error (u_tracks u) i = Some t /\ rdyb (metas u) (t_sid t) = true /\ content (t_fl t) = f :: r /\ k = key t /\ pend u i = f :: r /\
    t_dkey t = ukey (f_dts f) /\ Z.abs (f_added f - t_akey t) <= 100 /\ head_of u i = Some f /\ ready u i.
Proof.
  intros (I1 & _) G. unfold g in G. destruct (nth_error (u_tracks u) i) as [t|] eqn:HT; [|discriminate].
  unfold gv in G. destruct (rdyb (metas u) (t_sid t)) eqn:HR; [|discriminate]. destruct (content (t_fl t)) as [|f r] eqn:HC; [discriminate|].
  injection G as <-. destruct (I1 i t HT) as (T1 & T2 & T3 & _). destruct (T3 f r HC) as (K1 & K2).
  exists t, f, r. split; [reflexivity|]. split; [exact HR|]. split; [exact HC|]. split; [reflexivity|].
  split; [unfold pend; rewrite HT; exact HC|]. split; [exact K1|]. split; [exact K2|].
  split; [unfold head_of; rewrite HT, (head_ok _ T1), HC; reflexivity|].
  apply ready_b. exists (t_sid t). split; [unfold sids; rewrite nth_error_map, HT; reflexivity|exact HR].
Qed.

Lemma some_g key u i f r : ready u i -> pend u i = f :: r -> exists t, nth_error (u_tracks u) i = Some t /\ g key u i = Some (key t).
Proof.
  intros HR HP. unfold pend in HP. destruct (nth_error (u_tracks u) i) as [t|] eqn:HT; [|discriminate]. exists t. split; [reflexivity|].
  unfold g, gv. rewrite HT, HP. apply ready_b in HR as (sid & H1 & H2). unfold sids in H1. rewrite nth_error_map, HT in H1. injection H1 as <-. rewrite H2. reflexivity.
Qed.

Lemma of_cons i j f o : of_track j ((i, f) :: o) = if (j =? i)%nat then f :: of_track j o else of_track j o.
Proof. unfold of_track. cbn [filter fst]. rewrite Nat.eqb_sym. destruct (j =? i)%nat; reflexivity. Qed.

Definition keeps (u u' : ups) : Prop :=
  forall j t', nth_error (u_tracks u') j = Some t' -> exists t0, nth_error (u_tracks u) j = Some t0 /\ t_input t' = t_input t0 /\ t_media t' = t_media t0.

Lemma keeps_trans a b c : keeps a b -> keeps b c -> keeps a c.
Proof. intros A B j t H. destruct (B j t H) as (t1 & H1 & H2 & H3). destruct (A j t1 H1) as (t2 & H4 & H5 & H6). exists t2. split; [exact H4|]. split; congruence. Qed.

Lemma keeps_refl a : keeps a a. Proof. intros j t H. exists t. auto. Qed.

Lemma expired_ok c now : forall fuel u oks, inv u -> (total u < fuel)%nat ->
  match process_expired fuel c now u oks true with
  | Ub => False
  | Gone => True
  | Go u' => exists b, u_out u' = u_out u ++ b /\ inv u' /\ same u u' /\ keeps u u' /\ u_timer u' = u_timer u /\
      (forall i, pend u i = of_track i b ++ pend u' i) /\
      Forall (fun x => ready u (fst x) /\ f_added (snd x) + max_delay c <= now) b /\
      (u_added u' = [] \/ exists k i l f r, u_added u' = (k, i) :: l /\ pend u' i = f :: r /\ now < f_added f + max_delay c)
  end.
Proof.
  induction fuel as [|fuel IH]; intros u oks I HF; [lia|].
  assert (STOP : u_added u = [] \/ (exists k i l f r, u_added u = (k, i) :: l /\ pend u i = f :: r /\ now < f_added f + max_delay c) ->
    exists b, u_out u = u_out u ++ b /\ inv u /\ same u u /\ keeps u u /\ u_timer u = u_timer u /\ (forall i, pend u i = of_track i b ++ pend u i) /\
      Forall (fun x => ready u (fst x) /\ f_added (snd x) + max_delay c <= now) b /\
      (u_added u = [] \/ exists k i l f r, u_added u = (k, i) :: l /\ pend u i = f :: r /\ now < f_added f + max_delay c)).
  { intros H. exists []. rewrite app_nil_r. split; [reflexivity|]. split; [exact I|]. split; [apply same_refl|]. split; [apply keeps_refl|].
    split; [reflexivity|]. split; [reflexivity|]. split; [constructor|exact H]. }
  cbn [process_expired]. assert (EX : exists tr, u_added u = tr) by (eexists; reflexivity). destruct EX as (tr & EA). rewrite EA.
  destruct tr as [|[k i] l]; [apply STOP; left; exact EA|].
  pose proof I as (I1 & I2 & I3 & I4). destruct (tree_min _ _ _ _ _ I3 EA) as (GM & _).
  destruct (g_some _ _ _ _ I GM) as (t & f & r & HT & HR & HC & _ & HP & _ & _ & HH & RD). rewrite HH.
  destruct (now <? f_added f + max_delay c) eqn:CN.
  { apply STOP. right. exists k, i, l, f, r. split; [exact EA|]. split; [exact HP|]. lia. }
  pose proof (write_ok u i t f r (hd true oks) I HT HR HC) as W.
  destruct (hd true oks); [|rewrite W; exact Logic.I].
  destruct W as (u1 & E & J1 & J2 & J3 & J4 & J5 & J6). rewrite E.
  pose proof (total_dec u u1 i f r I J1 J2 HP J3) as TD.
  specialize (IH u1 (tl oks) J1 ltac:(lia)). destruct (process_expired fuel c now u1 (tl oks) true) as [u'| |]; [|exact Logic.I|exact IH].
  destruct IH as (b & B1 & B2 & B3 & B3' & B4 & B5 & B6 & B7). exists ((i, f) :: b).
  split; [rewrite B1, J5, <- app_assoc; reflexivity|]. split; [exact B2|]. split; [exact (same_trans _ _ _ J2 B3)|].
  split; [exact (keeps_trans _ _ _ J6 B3')|]. split; [congruence|]. split.
  { intros j. rewrite of_cons. specialize (J3 j). rewrite (B5 j) in J3. destruct (j =? i)%nat eqn:C.
    - replace j with i in * by lia. rewrite HP, <- J3. reflexivity.
    - symmetry. exact J3. }
  split; [|exact B7]. constructor; [split; [exact RD|cbn; lia]|].
  apply Forall_forall. intros x HX. rewrite Forall_forall in B6. destruct (B6 x HX) as (X1 & X2). split; [|exact X2]. apply (same_ready u u1 _ J2). exact X1.
Qed.

(* what waits after the expired frames were written *)
Lemma not_expired c now u : inv u -> (u_added u = [] \/ exists k i l f r, u_added u = (k, i) :: l /\ pend u i = f :: r /\ now < f_added f + max_delay c) ->
  forall j f r, ready u j -> pend u j = f :: r -> now < f_added f + max_delay c + 200.
Proof.
  intros I H j f r RD HP. pose proof I as (I1 & I2 & I3 & I4).
  destruct (some_g t_akey u j f r RD HP) as (t & HT & G). destruct (g_some _ _ _ _ I G) as (t' & f' & r' & HT' & _ & HC & _ & HP' & _ & KA & _ & _).
  rewrite HT in HT'. injection HT' as <-. rewrite HP in HP'. injection HP' as <- <-.
  destruct H as [H|(k & i & l & f0 & r0 & EA & HP0 & HN)].
  - destruct I3 as (_ & _ & I3). apply I3 in G. rewrite H in G. destruct G.
  - destruct (tree_min _ _ _ _ _ I3 EA) as (GM & MIN). specialize (MIN _ _ G).
    destruct (g_some _ _ _ _ I GM) as (t1 & f1 & r1 & _ & _ & _ & EK & HP1 & _ & KA1 & _). rewrite HP0 in HP1. injection HP1 as <- <-. lia.
Qed.

Lemma process_ok c now : forall fuel u oks, inv u -> (total u < fuel)%nat -> u_timer u = None ->
  match process fuel c now u oks true with
  | Ub => False
  | Gone => True
  | Go u' => exists a b, u_out u' = u_out u ++ a ++ b /\ inv u' /\ same u u' /\ keeps u u' /\
      (forall i, pend u i = of_track i a ++ of_track i b ++ pend u' i) /\
      Forall (fun x => ready u (fst x) /\ f_added (snd x) + min_delay c <= now + ready_margin) a /\
      Forall (fun x => ready u (fst x) /\ f_added (snd x) + max_delay c <= now) b /\
      (forall a1 x a2 j f r, a = a1 ++ x :: a2 -> ready u j -> pend u j = of_track j a1 ++ f :: r -> ukey (f_dts (snd x)) <= ukey (f_dts f)) /\
      (forall j f r, ready u j -> pend u' j = f :: r -> now < f_added f + max_delay c + 200) /\
      (((forall j, ready u j -> pend u j = of_track j a) /\ u_timer u' = None) \/
       (exists j f r, ready u j /\ pend u j = of_track j a ++ f :: r /\ now + ready_margin < f_added f + min_delay c /\ u_timer u' = Some (f_added f + min_delay c) /\
         forall j' f' r', ready u j' -> pend u j' = of_track j' a ++ f' :: r' -> ukey (f_dts f) <= ukey (f_dts f')))
  end.
Proof.
  induction fuel as [|fuel IH]; intros u oks I HF TN; [lia|].
  cbn [process]. destruct (u_dts u) as [|[k i] l] eqn:ED.
  { exists [], []. rewrite app_nil_r. split; [reflexivity|]. split; [exact I|]. split; [apply same_refl|]. split; [apply keeps_refl|].
    assert (NO : forall j, ready u j -> pend u j = []).
    { intros j RD. destruct (pend u j) as [|f r] eqn:HP; [reflexivity|]. destruct (some_g t_dkey u j f r RD HP) as (t & _ & G).
      pose proof I as (_ & (_ & _ & I2) & _). apply I2 in G. rewrite ED in G. destruct G. }
    split; [reflexivity|]. split; [constructor|]. split; [constructor|]. split; [intros [|? ?] ? ? ? ? ? H; discriminate|].
    split; [intros j f r RD HP; rewrite (NO j RD) in HP; discriminate|]. left. split; [exact NO|exact TN]. }
  pose proof I as (I1 & I2 & I3 & I4). destruct (tree_min _ _ _ _ _ I2 ED) as (GM & MIN).
  destruct (g_some _ _ _ _ I GM) as (t & f & r & HT & HR & HC & EK & HP & KD & _ & HH & RD). rewrite HH.
  assert (LOW : forall j f' r', ready u j -> pend u j = f' :: r' -> ukey (f_dts f) <= ukey (f_dts f')).
  { intros j f' r' RD' HP'. destruct (some_g t_dkey u j f' r' RD' HP') as (t' & HT' & G). specialize (MIN _ _ G).
    destruct (g_some _ _ _ _ I G) as (t1 & f1 & r1 & HT1 & _ & _ & _ & HP1 & KD1 & _). rewrite HT' in HT1. injection HT1 as <-.
    rewrite HP' in HP1. injection HP1 as <- <-. lia. }
  destruct (now + ready_margin <? f_added f + min_delay c) eqn:CN.
  - pose proof (expired_ok c now (S fuel) u oks I HF) as X. destruct (process_expired (S fuel) c now u oks true) as [u1| |]; [|exact Logic.I|exact X].
    destruct X as (b & B1 & B2 & B3 & B3' & B4 & B5 & B6 & B7). exists [], b.
    set (u' := set_timer u1 _). assert (I' : inv u') by exact B2.
    split; [exact B1|]. split; [exact I'|]. split; [exact B3|]. split; [exact B3'|]. split; [exact B5|]. split; [constructor|]. split; [exact B6|].
    split; [intros [|? ?] ? ? ? ? ? H; discriminate|].
    split; [intros j f0 r0 RD0 HP0; apply (not_expired c now u1 B2 B7 j f0 r0); [apply (same_ready u u1 j B3); exact RD0|exact HP0]|].
    right. exists i, f, r. split; [exact RD|]. split; [exact HP|]. split; [lia|].
    split; [unfold u'; cbn [set_timer u_timer]; rewrite B4, TN; cbn [add_timer]; f_equal; lia|exact LOW].
  - pose proof (write_ok u i t f r (hd true oks) I HT HR HC) as W.
    destruct (hd true oks); [|rewrite W; exact Logic.I].
    destruct W as (u1 & E & J1 & J2 & J3 & J4 & J5 & J6). rewrite E.
    pose proof (total_dec u u1 i f r I J1 J2 HP J3) as TD.
    specialize (IH u1 (tl oks) J1 ltac:(lia) ltac:(congruence)). destruct (process fuel c now u1 (tl oks) true) as [u'| |]; [|exact Logic.I|exact IH].
    destruct IH as (a & b & B1 & B2 & B3 & B3' & B5 & B6 & B7 & B8 & B9 & B10). exists ((i, f) :: a), b.
    assert (SR : forall j, ready u1 j <-> ready u j) by (intros j; apply same_ready; exact J2).
    assert (PJ : forall j x, pend u1 j = of_track j a ++ x <-> pend u j = of_track j ((i, f) :: a) ++ x).
    { intros j x. rewrite of_cons, (J3 j). destruct (j =? i)%nat eqn:C; [|reflexivity]. replace j with i in * by lia. rewrite HP. cbn [app]. split; [congruence|].
      intros H. injection H. auto. }
    split; [rewrite B1, J5, <- app_assoc; reflexivity|]. split; [exact B2|]. split; [exact (same_trans _ _ _ J2 B3)|].
    split; [exact (keeps_trans _ _ _ J6 B3')|].
    split; [intros j; apply PJ; apply B5|].
    split; [constructor; [split; [exact RD|cbn; lia]|]; apply Forall_forall; intros x HX; rewrite Forall_forall in B6; destruct (B6 x HX) as (X1 & X2); split; [apply SR; exact X1|exact X2]|].
    split; [apply Forall_forall; intros x HX; rewrite Forall_forall in B7; destruct (B7 x HX) as (X1 & X2); split; [apply SR; exact X1|exact X2]|].
    split.
    { intros a1 x a2 j f' r' EA RD' HP'. destruct a1 as [|y a1]; cbn [app] in EA.
      - injection EA as <- <-. cbn [snd]. apply (LOW j f' r' RD' HP').
      - injection EA as <- EA. apply (B8 a1 x a2 j f' r' EA); [apply SR; exact RD'|].
        rewrite of_cons in HP'. rewrite (J3 j). destruct (j =? i)%nat eqn:C; [|exact HP']. replace j with i in * by lia. rewrite HP in HP'. injection HP'. auto. }
    split; [intros j f0 r0 RD0; apply B9; apply SR; exact RD0|].
    destruct B10 as [(N1 & N2)|(j & f0 & r0 & N1 & N2 & N3 & N4 & N5)].
    + left. split; [|exact N2]. intros j RD'. specialize (PJ j []). rewrite !app_nil_r in PJ. apply PJ. apply N1. apply SR. exact RD'.
    + right. exists j, f0, r0. split; [apply SR; exact N1|]. split; [apply PJ; exact N2|]. split; [exact N3|]. split; [exact N4|].
      intros j' f' r' RD' HP'. apply (N5 j' f' r'); [apply SR; exact RD'|apply PJ; exact HP'].
Qed.
