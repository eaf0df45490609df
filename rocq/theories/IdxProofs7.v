(* Proofs about the segment index: every snapshot is closed once, every segment
   is freed once. *)

From Coq Require Import ZArith List Bool Lia ZifyBool Sorted Permutation.
From Verif Require Import IdxModel IdxSpec IdxProofs IdxProofs2 IdxProofs3 IdxProofs4 IdxProofs5
  IdxProofs6.
Import ListNotations.
Open Scope Z_scope.

Definition tot (w : Z -> Z) (l : list Z) : Z := fold_right (fun k a => w k + a) 0 l.

Lemma tot_app : forall w a b, tot w (a ++ b) = tot w a + tot w b.
Proof. intros w. induction a as [|x a IH]; intros b; cbn [tot fold_right app]; [reflexivity|].
  fold (tot w (a ++ b)) (tot w a). rewrite IH. lia. Qed.

Lemma tot_cons : forall w k l, tot w (k :: l) = w k + tot w l.
Proof. reflexivity. Qed.

Lemma tot_nil : forall w, tot w [] = 0.
Proof. reflexivity. Qed.

Definition one (_ : Z) : Z := 1.

Lemma one_1 : forall k, one k = 1.
Proof. reflexivity. Qed.

Lemma tot_one : forall l, tot one l = Z.of_nat (length l).
Proof.
  induction l as [|k l IH]; [reflexivity|]. rewrite tot_cons, IH, one_1.
  cbn [length]. lia.
Qed.

Lemma tot_perm : forall a b, (forall w, tot w a = tot w b) -> Permutation a b.
Proof.
  intros a b H. apply (Permutation_count_occ Z.eq_dec). intros k.
  assert (C : forall l, Z.of_nat (count_occ Z.eq_dec l k) =
    tot (fun x => if Z.eq_dec x k then 1 else 0) l).
  { induction l as [|x l IH]; [reflexivity|]. rewrite tot_cons. cbn [count_occ].
    destruct (Z.eq_dec x k); lia. }
  specialize (H (fun x => if Z.eq_dec x k then 1 else 0)). rewrite <- !C in H. lia.
Qed.

(* The weight of the snapshots of the indexes. *)
Definition wo (w : Z -> Z) (o : option isnap) : Z :=
  match o with Some n => w (sn_fr n) | None => 0 end.
Definition wz (w : Z -> Z) (o : option Z) : Z := match o with Some k => w k | None => 0 end.
Definition tsn (w : Z -> Z) (l : list idx) : Z :=
  fold_right (fun x a => wo w (x_snap x) + a) 0 l.

Lemma tsn_tot : forall w l,
  tot w (map sn_fr (flat_map (fun x => opt (x_snap x)) l)) = tsn w l.
Proof.
  intros w. induction l as [|x l IH]; [reflexivity|]. cbn [flat_map tsn fold_right].
  rewrite map_app, tot_app. fold (tsn w l). rewrite <- IH.
  destruct (x_snap x); cbn [opt map wo]; rewrite ?tot_cons, ?tot_nil; lia.
Qed.

Lemma kept_tot : forall w s,
  tot w (kept s) = tsn w (s_all s) + wo w (s_psnap s) + wz w (s_wfr s).
Proof.
  intros w s. unfold kept. rewrite !tot_app, tsn_tot.
  destruct (s_psnap s), (s_wfr s); cbn [opt map wo wz]; rewrite ?tot_cons, ?tot_nil; lia.
Qed.

Lemma tsn_map : forall w (f : idx -> idx) l,
  (forall x, x_snap (f x) = x_snap x) -> tsn w (map f l) = tsn w l.
Proof.
  intros w f l H. induction l as [|x l IH]; [reflexivity|].
  cbn [map tsn fold_right]. fold (tsn w (map f l)) (tsn w l). rewrite H, IH. reflexivity.
Qed.

Lemma tsn_skip : forall w f k l, ~ In k (map x_key l) ->
  tsn w (map (fun x => if x_key x =? k then f x else x) l) = tsn w l.
Proof.
  intros w f k. induction l as [|x l IH]; intros H; [reflexivity|].
  cbn [map In] in H. cbn [map tsn fold_right].
  fold (tsn w (map (fun x => if x_key x =? k then f x else x) l)) (tsn w l).
  rewrite IH by tauto. destruct (x_key x =? k) eqn:E; [exfalso; apply H; left; lia|reflexivity].
Qed.

Lemma tsn_upd : forall w f k l x,
  StronglySorted Z.lt (map x_key l) -> In x l -> x_key x = k ->
  tsn w (map (fun x => if x_key x =? k then f x else x) l) =
  tsn w l - wo w (x_snap x) + wo w (x_snap (f x)).
Proof.
  intros w f k. induction l as [|y l IH]; intros x HS Hx EX; [destruct Hx|].
  cbn [map] in HS. inversion HS as [|a0 l0 HS' HF]. subst a0 l0. rewrite Forall_forall in HF.
  cbn [map tsn fold_right].
  fold (tsn w (map (fun x => if x_key x =? k then f x else x) l)) (tsn w l).
  destruct Hx as [<-|Hx].
  - rewrite EX, Z.eqb_refl. rewrite tsn_skip; [lia|].
    intros H. specialize (HF _ H). lia.
  - specialize (HF _ (in_map _ _ _ Hx)).
    assert (E : x_key y =? k = false) by lia. rewrite E, (IH x HS' Hx EX). lia.
Qed.

Lemma tsn_filter : forall w k l,
  (forall x, In x l -> x_key x = k -> x_snap x = None) ->
  tsn w (filter (fun x => negb (x_key x =? k)) l) = tsn w l.
Proof.
  intros w k. induction l as [|y l IH]; intros H; [reflexivity|].
  cbn [filter]. pose proof (H y (or_introl eq_refl)) as Hy.
  specialize (IH (fun x Hx => H x (or_intror Hx))).
  cbn [tsn fold_right]. fold (tsn w l).
  destruct (x_key y =? k) eqn:E; cbn [negb].
  - rewrite Hy by lia. exact IH.
  - cbn [tsn fold_right]. fold (tsn w (filter (fun x => negb (x_key x =? k)) l)).
    rewrite IH. reflexivity.
Qed.

(* ------------------------------------------------------------------ *)
(* The balance                                                          *)

Definition bal (a : st * hand) : Prop :=
  let (s, e) := a in
  (forall w, tot w (taken (s_out s)) =
     tsn w (s_all s) + wo w (s_psnap s) + wz w (s_wfr s) + tot w (map sn_fr e) +
     tot w (closed (s_out s))) /\
  s_snaps s = tsn one (s_all s) + wo one (s_psnap s) + wz one (s_wfr s) +
     tot one (map sn_fr e).

Lemma tsn_one : forall l, 0 <= tsn one l.
Proof.
  induction l as [|x l IH]; [cbn; lia|]. cbn [tsn fold_right]. fold (tsn one l).
  destruct (x_snap x); cbn [wo]; rewrite ?one_1; lia.
Qed.
Lemma wo_one : forall o, 0 <= wo one o.
Proof. intros [n|]; cbn [wo]; rewrite ?one_1; lia. Qed.
Lemma wz_one : forall o, 0 <= wz one o.
Proof. intros [n|]; cbn [wz]; rewrite ?one_1; lia. Qed.
Lemma tot_ge : forall l, 0 <= tot one l.
Proof. intros l. rewrite tot_one. lia. Qed.

Lemma bal_ff : forall s e k,
  bal (s, k :: e) -> s_snaps (frames_free s) = s_snaps s - 1.
Proof.
  intros s e k [_ H]. cbn [map] in H. rewrite tot_cons in H.
  pose proof (tsn_one (s_all s)). pose proof (wo_one (s_psnap s)).
  pose proof (wz_one (s_wfr s)). pose proof (tot_ge (map sn_fr e)).
  unfold frames_free. change (one (sn_fr k)) with 1 in H.
  destruct (s_snaps s <=? 0) eqn:E; [lia|reflexivity].
Qed.

Lemma bal_change : forall s e s' e',
  bal (s, e) ->
  (forall w, tot w (taken (s_out s')) - tot w (taken (s_out s)) =
     (tsn w (s_all s') - tsn w (s_all s)) + (wo w (s_psnap s') - wo w (s_psnap s)) +
     (wz w (s_wfr s') - wz w (s_wfr s)) + (tot w (map sn_fr e') - tot w (map sn_fr e)) +
     (tot w (closed (s_out s')) - tot w (closed (s_out s)))) ->
  s_snaps s' - s_snaps s =
    (tsn one (s_all s') - tsn one (s_all s)) + (wo one (s_psnap s') - wo one (s_psnap s)) +
    (wz one (s_wfr s') - wz one (s_wfr s)) + (tot one (map sn_fr e') - tot one (map sn_fr e)) ->
  bal (s', e').
Proof.
  intros s e s' e' [A B] H1 H2. split.
  - intros w. specialize (A w). specialize (H1 w). lia.
  - lia.
Qed.

(* Letting a frames snapshot go, with or without an acknowledgment. *)
Definition same_kept (s s' : st) : Prop :=
  s_all s' = s_all s /\ s_psnap s' = s_psnap s /\ s_wfr s' = s_wfr s.

Lemma ff_kept : forall s, same_kept s (frames_free s).
Proof. intros s. unfold frames_free. destruct (_ <=? 0); repeat split. Qed.

Lemma pos_ff : forall s, 0 < s_snaps s -> s_snaps (frames_free s) = s_snaps s - 1.
Proof. intros s H. unfold frames_free. destruct (s_snaps s <=? 0) eqn:E; [lia|reflexivity]. Qed.

Definition let_go (s s' : st) (k : Z) : Prop :=
  same_kept s s' /\ s_snaps s' = s_snaps s - 1 /\
  (s_out s' = EAck k :: s_out s \/ s_out s' = EDrop k :: s_out s) /\
  s_wr s' = s_wr s.

Lemma ack_go : forall s k, 0 < s_snaps s -> let_go s (frames_ack s k) k.
Proof.
  intros s k H. unfold frames_ack. split; [|split; [|split]].
  - destruct (ff_kept (emit s (EAck k))) as (A & B & C). repeat split; assumption.
  - rewrite pos_ff; [reflexivity|exact H].
  - left. rewrite out_ff. reflexivity.
  - unfold frames_free. destruct (_ <=? 0); reflexivity.
Qed.

Lemma drop_go : forall s k, 0 < s_snaps s -> let_go s (frames_drop s k) k.
Proof.
  intros s k H. unfold frames_drop. split; [|split; [|split]].
  - destruct (ff_kept (emit s (EDrop k))) as (A & B & C). repeat split; assumption.
  - rewrite pos_ff; [reflexivity|exact H].
  - right. rewrite out_ff. reflexivity.
  - unfold frames_free. destruct (_ <=? 0); reflexivity.
Qed.

Lemma go_taken : forall s s' k, let_go s s' k -> taken (s_out s') = taken (s_out s).
Proof. intros s s' k (_ & _ & [E|E] & _); rewrite E; reflexivity. Qed.
Lemma go_closed : forall s s' k, let_go s s' k -> closed (s_out s') = k :: closed (s_out s).
Proof. intros s s' k (_ & _ & [E|E] & _); rewrite E; reflexivity. Qed.

Lemma bal_pos : forall s e, bal (s, e) ->
  0 < wo one (s_psnap s) \/ 0 < wz one (s_wfr s) \/ 0 < tot one (map sn_fr e) -> 0 < s_snaps s.
Proof.
  intros s e [_ H] HP.
  pose proof (tsn_one (s_all s)). pose proof (wo_one (s_psnap s)).
  pose proof (wz_one (s_wfr s)). pose proof (tot_ge (map sn_fr e)). lia.
Qed.

Lemma hand_pos : forall s e n, bal (s, n :: e) -> 0 < s_snaps s.
Proof.
  intros s e n H. eapply bal_pos; [exact H|]. right. right. cbn [map]. rewrite tot_cons.
  pose proof (tot_ge (map sn_fr e)). rewrite ?one_1. lia.
Qed.

(* What the events do to the two lists. *)
Lemma taken_other : forall v l, (forall k, v <> ESnap k) -> taken (v :: l) = taken l.
Proof. intros v l H. destruct v; try reflexivity. exfalso. apply (H k). reflexivity. Qed.
Lemma closed_other : forall v l, (forall k, v <> EAck k) -> (forall k, v <> EDrop k) ->
  closed (v :: l) = closed l.
Proof.
  intros v l H G. destruct v; try reflexivity; exfalso; [apply (H k)|apply (G k)]; reflexivity.
Qed.

Lemma bal_mic : forall c N l a b, bal a -> mic c N l a b -> bal b.
Proof.
  intros c N l a b HB HM. destruct HM.
  - destruct H as (p & d & b & o & -> & _). exact HB.
  - eapply bal_change; [exact HB| |]; cbn [emit s_all s_psnap s_wfr s_snaps s_out];
      [intros w; cbn [taken closed flat_map app]; fold (taken (s_out s)) (closed (s_out s)); lia|lia].
  - eapply bal_change; [exact HB| |]; cbn [emit s_all s_psnap s_wfr s_snaps s_out];
      [intros w; cbn [taken closed flat_map app]; fold (taken (s_out s)) (closed (s_out s)); lia|lia].
  - (* dropped *)
    pose proof (drop_go s (sn_fr n) (hand_pos s e n HB)) as G. unfold close_free.
    pose proof (go_taken _ _ _ G) as ET. pose proof (go_closed _ _ _ G) as EC.
    destruct G as ((E1 & E2 & E3) & E4 & _).
    eapply bal_change; [exact HB| |].
    + intros w. rewrite ET, EC, E1, E2, E3. cbn [map]. rewrite !tot_cons. lia.
    + rewrite E1, E2, E3, E4. cbn [map]. rewrite !tot_cons. rewrite ?one_1. lia.
  - (* acknowledged *)
    pose proof (hand_pos s e n HB) as HP. unfold close_ack.
    destruct (s_psnap s) as [p|] eqn:EPS.
    + pose proof (drop_go s (sn_fr p) HP) as G.
      pose proof (go_taken _ _ _ G) as ET. pose proof (go_closed _ _ _ G) as EC.
      destruct G as ((E1 & E2 & E3) & E4 & _).
      eapply bal_change; [exact HB| |];
        cbn [set_psnap s_all s_psnap s_wfr s_snaps s_out].
      * intros w. rewrite ET, EC, E1, E3, EPS. cbn [map wo sn_fr]. rewrite !tot_cons. lia.
      * rewrite E1, E3, E4, EPS. cbn [map wo sn_fr]. rewrite !tot_cons. rewrite ?one_1. lia.
    + destruct (s_wr s) as [f|] eqn:EW.
      * destruct (s_wfr s) as [fr|] eqn:EF; [|exfalso; apply H; congruence].
        pose proof (drop_go s fr HP) as G.
        pose proof (go_taken _ _ _ G) as ET. pose proof (go_closed _ _ _ G) as EC.
        destruct G as ((E1 & E2 & E3) & E4 & _).
        eapply bal_change; [exact HB| |];
          cbn [set_write s_all s_psnap s_wfr s_snaps s_out].
        -- intros w. rewrite ET, EC, E1, E2, EPS, EF. cbn [map wo wz sn_fr]. rewrite !tot_cons. lia.
        -- rewrite E1, E2, E4, EPS, EF. cbn [map wo wz sn_fr]. rewrite !tot_cons. rewrite ?one_1. lia.
      * pose proof (ack_go s (sn_fr n) HP) as G.
        pose proof (go_taken _ _ _ G) as ET. pose proof (go_closed _ _ _ G) as EC.
        destruct G as ((E1 & E2 & E3) & E4 & _).
        eapply bal_change; [exact HB| |].
        -- intros w. rewrite ET, EC, E1, E2, E3. cbn [map]. rewrite !tot_cons. lia.
        -- rewrite E1, E2, E3, E4. cbn [map]. rewrite !tot_cons. rewrite ?one_1. lia.
  - (* written *)
    pose proof (hand_pos s e n HB) as HP. unfold close_write.
    assert (ACK : forall s', same_kept s s' -> s_snaps s' = s_snaps s -> s_out s' = s_out s ->
      bal (frames_ack s' (sn_fr n), e)).
    { intros s' (F1 & F2 & F3) F4 F5.
      pose proof (ack_go s' (sn_fr n) ltac:(lia)) as G.
      pose proof (go_taken _ _ _ G) as ET. pose proof (go_closed _ _ _ G) as EC.
      destruct G as ((E1 & E2 & E3) & E4 & _).
      eapply bal_change; [exact HB| |].
      - intros w. rewrite ET, EC, E1, E2, E3, F1, F2, F3, F5. cbn [map]. rewrite !tot_cons. lia.
      - rewrite E1, E2, E3, E4, F1, F2, F3, F4. cbn [map]. rewrite !tot_cons. rewrite ?one_1. lia. }
    destruct (s_wr s) as [f|] eqn:EW.
    + destruct (s_psnap s) as [p|] eqn:EPS.
      * pose proof (drop_go s (sn_fr p) HP) as G. unfold close_free.
        pose proof (go_taken _ _ _ G) as ET. pose proof (go_closed _ _ _ G) as EC.
        destruct G as ((E1 & E2 & E3) & E4 & _).
        eapply bal_change; [exact HB| |];
          cbn [set_psnap s_all s_psnap s_wfr s_snaps s_out].
        -- intros w. rewrite ET, EC, E1, E3, EPS. cbn [map wo]. rewrite !tot_cons. lia.
        -- rewrite E1, E3, E4, EPS. cbn [map wo]. rewrite !tot_cons. rewrite ?one_1. lia.
      * eapply bal_change; [exact HB| |];
          cbn [set_psnap s_all s_psnap s_wfr s_snaps s_out].
        -- intros w. rewrite EPS. cbn [map wo]. rewrite !tot_cons. lia.
        -- rewrite EPS. cbn [map wo]. rewrite !tot_cons. lia.
    + destruct (H eq_refl) as [EF EPS].
      destruct (sn_max n <? s_min s); [apply ACK; repeat split|].
      set (f := scope_of c s (sn_max n)).
      set (s1 := if fi_delta f then s else
                 if s_hist s <=? sn_max n then set_hist s 0 (s_hv s) else s).
      assert (E1 : same_kept s s1 /\ s_snaps s1 = s_snaps s /\ s_out s1 = s_out s).
      { unfold s1. destruct (fi_delta f); [repeat split|].
        destruct (s_hist s <=? sn_max n); repeat split. }
      assert (E2 : same_kept s (snd (pop s1)) /\ s_snaps (snd (pop s1)) = s_snaps s /\
        s_out (snd (pop s1)) = s_out s).
      { unfold pop. destruct (s_orc s1); exact E1. }
      destruct (pop s1) as [b s2]. cbn [snd] in E2. destruct E2 as (K2 & N2 & O2).
      destruct b; [|apply ACK; assumption].
      destruct K2 as (F1 & F2 & F3).
      eapply bal_change; [exact HB| |];
        cbn [set_write emit s_all s_psnap s_wfr s_snaps s_out].
      * intros w. rewrite taken_other, closed_other by discriminate.
        rewrite F1, F2, O2, EF. cbn [map wz]. rewrite !tot_cons. lia.
      * rewrite F1, F2, N2, EF. cbn [map wz]. rewrite !tot_cons. lia.
  - destruct H as (HS & Hx & EX).
    eapply bal_change; [exact HB| |]; cbn [upd set_all s_all s_psnap s_wfr s_snaps s_out].
    + intros w. rewrite (tsn_upd w _ k _ x HS Hx EX), H0. cbn [idx_snap x_snap wo map].
      rewrite tot_cons. lia.
    + rewrite (tsn_upd one _ k _ x HS Hx EX), H0. cbn [idx_snap x_snap wo map].
      rewrite tot_cons. lia.
  - destruct H as (HS & Hx & EX).
    eapply bal_change; [exact HB| |]; cbn [upd set_all s_all s_psnap s_wfr s_snaps s_out].
    + intros w. rewrite (tsn_upd w _ k _ x HS Hx EX), H0. cbn [idx_snap x_snap wo map].
      rewrite tot_cons. lia.
    + rewrite (tsn_upd one _ k _ x HS Hx EX), H0. cbn [idx_snap x_snap wo map].
      rewrite tot_cons. lia.
  - eapply bal_change; [exact HB| |]; cbn [emit upd set_all s_all s_psnap s_wfr s_snaps s_out].
    + intros w. rewrite taken_other, closed_other by (destruct ok; discriminate).
      rewrite tsn_map; [lia|]. intros y. destruct (x_key y =? k); reflexivity.
    + rewrite tsn_map; [lia|]. intros y. destruct (x_key y =? k); reflexivity.
  - eapply bal_change; [exact HB| |]; cbn [emit upd set_all s_all s_psnap s_wfr s_snaps s_out].
    + intros w. rewrite taken_other, closed_other by discriminate.
      rewrite tsn_map; [lia|]. intros y. destruct (x_key y =? k); reflexivity.
    + rewrite tsn_map; [lia|]. intros y. destruct (x_key y =? k); reflexivity.
  - destruct H as (HS & Hx & EX).
    assert (NS : forall y, In y (s_all s) -> x_key y = k -> x_snap y = None).
    { intros y Hy EY. assert (y = x) by (eapply ss_inj; [exact HS|exact Hy|exact Hx|congruence]).
      subst y. assumption. }
    eapply bal_change; [exact HB| |];
      cbn [remove set_queues set_all s_all s_psnap s_wfr s_snaps s_out].
    + intros w. rewrite tsn_filter by exact NS. lia.
    + rewrite tsn_filter by exact NS. lia.
  - eapply bal_change; [exact HB| |]; cbn [unlock set_all s_all s_psnap s_wfr s_snaps s_out];
      [intros w|]; rewrite tsn_map by reflexivity; lia.
  - eapply bal_change; [exact HB| |]; cbn [emit unlock set_all s_all s_psnap s_wfr s_snaps s_out];
      [intros w; rewrite taken_other, closed_other by discriminate|];
      rewrite tsn_map by reflexivity; lia.
  - eapply bal_change; [exact HB| |]; cbn [upd set_all s_all s_psnap s_wfr s_snaps s_out];
      [intros w|]; (rewrite tsn_map; [lia|]; intros y; destruct (x_key y =? k); reflexivity).
Qed.

Lemma tsn_app : forall w a b, tsn w (a ++ b) = tsn w a + tsn w b.
Proof.
  intros w. induction a as [|x a IH]; intros b; [reflexivity|].
  cbn [app tsn fold_right]. fold (tsn w (a ++ b)) (tsn w a). rewrite IH. lia.
Qed.

Lemma ended_out : forall s f fr ok stored,
  s_out (ended s f fr ok stored) = ((if ok then [EStored f] else []) ++ [EAck fr]) ++ s_out s.
Proof.
  intros s f fr ok stored. unfold ended.
  assert (E : s_out (set_write (frames_ack s fr) None None) = EAck fr :: s_out s).
  { cbn [set_write s_out]. apply out_ack. }
  set (s1 := set_write (frames_ack s fr) None None) in *. clearbody s1.
  destruct ok, stored, (fi_delta f); cbn [orb set_psnap emit set_succ set_files s_out app];
    rewrite E; reflexivity.
Qed.

Lemma ended_all : forall s f fr ok stored, s_all (ended s f fr ok stored) = s_all s.
Proof.
  intros s f fr ok stored. unfold ended, frames_ack, frames_free.
  destruct (_ <=? 0), ok, stored, (fi_delta f); reflexivity.
Qed.

Lemma bal_done : forall (N : Z) s0 f fr ok stored,
  s_wr s0 = Some f -> s_wfr s0 = Some fr -> bal (s0, []) ->
  bal (ended s0 f fr ok stored, olist (s_psnap s0)).
Proof.
  intros N s0 f fr ok stored EW EF H.
    assert (HP : 0 < s_snaps s0).
    { eapply bal_pos; [exact H|]. right. left. rewrite EF. cbn [wz]. rewrite ?one_1. lia. }
    pose proof (ack_go s0 fr HP) as G.
    pose proof (go_taken _ _ _ G) as ET. pose proof (go_closed _ _ _ G) as EC.
    destruct G as ((E1 & E2 & E3) & E4 & _).
    set (s1 := set_write (frames_ack s0 fr) None None).
    assert (V : s_all (ended s0 f fr ok stored) = s_all s1 /\
      s_wfr (ended s0 f fr ok stored) = None /\ s_psnap (ended s0 f fr ok stored) = None /\
      s_snaps (ended s0 f fr ok stored) = s_snaps s1 /\
      taken (s_out (ended s0 f fr ok stored)) = taken (s_out s1) /\
      closed (s_out (ended s0 f fr ok stored)) = closed (s_out s1)).
    { unfold ended. fold s1. destruct ok, stored, (fi_delta f); repeat split. }
    destruct V as (V1 & V2 & V3 & V4 & V5 & V6).
    eapply bal_change; [exact H| |].
    + intros w. rewrite V1, V2, V3, V5, V6. unfold s1. cbn [set_write s_all s_out].
      rewrite ET, EC, E1, EF, tot_cons.
      destruct (s_psnap s0); cbn [olist map wo wz]; rewrite ?tot_cons, ?tot_nil; lia.
    + rewrite V1, V2, V3, V4. unfold s1. cbn [set_write s_all s_snaps].
      rewrite E1, E4, EF.
      destruct (s_psnap s0); cbn [olist map wo wz]; rewrite ?tot_cons, ?tot_nil; rewrite ?one_1; lia.
Qed.

Lemma bal_step : forall c s o,
  1 <= c_bucket c -> 0 <= c_init c -> inv c (s_next s) s -> fits s o ->
  bal (s, []) -> bal (step c s o, []).
Proof.
  intros c s o HB HC HI HF HJ.
  apply (step_J c (fun _ => True) (fun _ => bal) (fun _ _ => True)); try assumption.
  - intros N l a b _ HA HM. eapply bal_mic; eassumption.
  - intros; assumption.
  - intros N s0 H. exact H.
  - intros s0 ex x _ _ _ _ _ _ H.
    eapply bal_change; [exact H| |]; cbn [opened emit set_last s_all s_psnap s_wfr s_snaps s_out];
      [intros w; rewrite taken_other, closed_other by discriminate; lia|lia].
  - intros N s0 _ H. exact H.
  - intros N s0 m _ _ H. exact H.
  - intros s0 k _ _ _ _ H. eapply bal_change; [exact H| |];
      cbn [create set_top set_queues set_all s_all s_psnap s_wfr s_snaps s_out];
      [intros w|]; rewrite tsn_app; cbn [tsn fold_right x_snap wo]; lia.
  - intros s0 x HI0 Hx HL ES H. set (k := x_key x).
    eapply bal_change; [exact H| |];
      cbn [set_snaps emit upd set_all s_all s_psnap s_wfr s_snaps s_out].
    + intros w. rewrite (tsn_upd w _ k _ x (v_sort _ _ _ HI0) Hx eq_refl), ES.
      cbn [idx_snap x_snap wo sn_fr].
      change (taken (ESnap k :: s_out s0)) with (k :: taken (s_out s0)).
      rewrite tot_cons, closed_other by discriminate. lia.
    + rewrite (tsn_upd one _ k _ x (v_sort _ _ _ HI0) Hx eq_refl), ES.
      cbn [idx_snap x_snap wo sn_fr]. rewrite ?one_1. lia.
  - intros N s0 k i H. eapply bal_change; [exact H| |];
      cbn [upd set_all s_all s_psnap s_wfr s_snaps s_out];
      [intros w|]; (rewrite tsn_map; [lia|]; intros y; destruct (x_key y =? k); reflexivity).
  - intros N s0 i H. eapply bal_change; [exact H| |];
      cbn [unlock set_all s_all s_psnap s_wfr s_snaps s_out];
      [intros w|]; rewrite tsn_map by reflexivity; lia.
  - intros N s0 f fr ok stored _ _ EW EF _ H. exact (bal_done N s0 f fr ok stored EW EF H).
  - intros s0 H. exact H.
  - apply decomp_any; assumption.
  - exact I.
Qed.

Lemma reach_bal : forall c s,
  sane c -> c_init c < 4294967295 -> reach c s -> bal (s, []).
Proof.
  intros c s HS HM HR. induction HR as [orc|s o HR IH HF].
  - split; [intros w|]; reflexivity.
  - pose proof (reach_inv c s HS HM HR) as HI. destruct HS as (HB & _ & _ & HC).
    exact (bal_step c s o HB HC HI HF IH).
Qed.

(* ------------------------------------------------------------------ *)
(* Acknowledging everything                                             *)

Lemma app_split : forall (l1 : list ev) v l2 L o,
  l1 ++ v :: l2 = L ++ o ->
  (exists m, L = l1 ++ v :: m /\ l2 = m ++ o) \/ (exists m, o = m ++ v :: l2).
Proof.
  induction l1 as [|x l1 IH]; intros v l2 L o H; destruct L as [|y L]; cbn [app] in H.
  - right. exists []. symmetry. exact H.
  - injection H as <- ->. left. exists L. split; reflexivity.
  - right. exists (x :: l1). symmetry. exact H.
  - injection H as <- H. destruct (IH v l2 L o H) as [(m & A & B)|(m & A)].
    + left. exists m. split; [cbn [app]; rewrite A; reflexivity|exact B].
    + right. exists m. exact A.
Qed.

Definition settled (s : st) : Prop :=
  forall l1 l2, s_out s = l1 ++ EAckAll :: l2 ->
  forall w, tot w (taken l2) = tot w (closed l2).

Lemma settled_grow : forall s s' L,
  s_out s' = L ++ s_out s -> ~ In EAckAll L -> settled s -> settled s'.
Proof.
  intros s s' L E HN H l1 l2 HO. rewrite E in HO. symmetry in HO.
  destruct (app_split _ _ _ _ _ HO) as [(m & A & _)|(m & A)].
  - exfalso. apply HN. rewrite A. apply in_or_app. right. left. reflexivity.
  - exact (H m l2 A).
Qed.

Lemma snaps_zero : forall l, tsn one l <= 0 -> forall w, tsn w l = 0.
Proof.
  induction l as [|x l IH]; intros H w; [reflexivity|].
  cbn [tsn fold_right] in *. fold (tsn one l) in H. fold (tsn w l).
  pose proof (tsn_one l). destruct (x_snap x) as [n|]; cbn [wo] in *.
  - rewrite one_1 in H. lia.
  - rewrite IH by lia. reflexivity.
Qed.

Lemma settled_mic : forall c N l a b,
  bal a -> settled (fst a) -> mic c N l a b -> settled (fst b).
Proof.
  intros c N l a b HB HS HM.
  destruct (mic_out _ _ _ _ _ HM) as (L & E & HL).
  destruct (in_dec (fun x y : ev => ltac:(decide equality; try apply Z.eq_dec; decide equality;
    try apply Z.eq_dec; decide equality) : {x = y} + {x <> y}) EAckAll L) as [HI|HI].
  2:{ eapply settled_grow; eassumption. }
  rewrite Forall_forall in HL. specialize (HL _ HI). cbn [ev_of] in HL. subst l.
  inversion HM as [| |s e HZ| | | | | | | | | | |]. subst a b. cbn [fst] in *.
  intros l1 l2 HO w. cbn [emit s_out] in HO.
  change (EAckAll :: s_out s) with ([EAckAll] ++ s_out s) in HO. symmetry in HO.
  destruct (app_split _ _ _ _ _ HO) as [(m & A & B)|(m & A)].
  - assert (m = []) by (destruct l1 as [|? [|? ?]]; cbn in A; congruence). subst m.
    cbn [app] in B. subst l2. destruct HB as [B1 B2].
    pose proof (tsn_one (s_all s)). pose proof (wo_one (s_psnap s)).
    pose proof (wz_one (s_wfr s)). pose proof (tot_ge (map sn_fr e)).
    specialize (B1 w). rewrite (snaps_zero (s_all s)) in B1 by lia.
    destruct (s_psnap s); [cbn [wo] in *; rewrite ?one_1 in *; lia|].
    destruct (s_wfr s); [cbn [wz] in *; rewrite ?one_1 in *; lia|].
    destruct e as [|n e].
    2:{ cbn [map] in B2. rewrite tot_cons, one_1 in B2.
        pose proof (tot_ge (map sn_fr e)). cbn [wo wz] in B2. lia. }
    cbn [wo wz map] in B1. rewrite tot_nil in B1. lia.
  - exact (HS m l2 A w).
Qed.

Lemma settled_step : forall c s o,
  1 <= c_bucket c -> 0 <= c_init c -> inv c (s_next s) s -> fits s o ->
  bal (s, []) -> settled s -> settled (step c s o).
Proof.
  intros c s o HB HC HI HF HJ HS.
  pose proof (step_J c (fun _ => True) (fun _ a => bal a /\ settled (fst a)) (fun _ _ => True)) as G.
  assert (K : bal (step c s o, []) /\ settled (fst (step c s o, @nil isnap))).
  2:{ apply K. }
  apply G; try assumption; clear G.
  - intros N l a b _ [HA HA'] HM.
    split; [eapply bal_mic; eassumption|eapply settled_mic; eassumption].
  - intros; assumption.
  - intros N s0 H. exact H.
  - intros s0 ex x _ _ _ _ _ _ [H H']. split.
    + eapply bal_change; [exact H| |]; cbn [opened emit set_last s_all s_psnap s_wfr s_snaps s_out];
        [intros w; rewrite taken_other, closed_other by discriminate; lia|lia].
    + eapply (settled_grow s0); [|intros HX|exact H'].
      * instantiate (1 := [EReady (s_next s0) ex]). reflexivity.
      * destruct HX as [E|[]]; discriminate E.
  - intros N s0 _ H. exact H.
  - intros N s0 m _ _ H. exact H.
  - intros s0 k _ _ _ _ [H H']. split; [|exact H']. eapply bal_change; [exact H| |];
      cbn [create set_top set_queues set_all s_all s_psnap s_wfr s_snaps s_out];
      [intros w|]; rewrite tsn_app; cbn [tsn fold_right x_snap wo]; lia.
  - intros s0 x HI0 Hx HL ES [H H']. set (k := x_key x). split.
    + eapply bal_change; [exact H| |];
        cbn [set_snaps emit upd set_all s_all s_psnap s_wfr s_snaps s_out].
      * intros w. rewrite (tsn_upd w _ k _ x (v_sort _ _ _ HI0) Hx eq_refl), ES.
        cbn [idx_snap x_snap wo sn_fr].
        change (taken (ESnap k :: s_out s0)) with (k :: taken (s_out s0)).
        rewrite tot_cons, closed_other by discriminate. lia.
      * rewrite (tsn_upd one _ k _ x (v_sort _ _ _ HI0) Hx eq_refl), ES.
        cbn [idx_snap x_snap wo sn_fr]. rewrite one_1. lia.
    + eapply (settled_grow s0); [|intros HX|exact H'].
      * instantiate (1 := [ESnap k]). reflexivity.
      * destruct HX as [E|[]]; discriminate E.
  - intros N s0 k i [H H']. split; [|exact H']. eapply bal_change; [exact H| |];
      cbn [upd set_all s_all s_psnap s_wfr s_snaps s_out];
      [intros w|]; (rewrite tsn_map; [lia|]; intros y; destruct (x_key y =? k); reflexivity).
  - intros N s0 i [H H']. split; [|exact H']. eapply bal_change; [exact H| |];
      cbn [unlock set_all s_all s_psnap s_wfr s_snaps s_out];
      [intros w|]; rewrite tsn_map by reflexivity; lia.
  - intros N s0 f fr ok stored _ HI0 EW EF HP [H H']. split.
    + exact (bal_done N s0 f fr ok stored EW EF H).
    + eapply (settled_grow s0); [|intros HX|exact H'].
      * apply ended_out.
      * cbn [fst] in HX. destruct ok; cbn [app In] in HX; intuition discriminate.
  - intros s0 H. exact H.
  - apply decomp_any; assumption.
  - exact I.
  - split; assumption.
Qed.

Lemma reach_settled : forall c s,
  sane c -> c_init c < 4294967295 -> reach c s -> settled s.
Proof.
  intros c s HS HM HR. induction HR as [orc|s o HR IH HF].
  - intros l1 l2 H. destruct l1; discriminate H.
  - pose proof (reach_inv c s HS HM HR) as HI. pose proof (reach_bal c s HS HM HR) as HJ.
    destruct HS as (HB & _ & _ & HC). exact (settled_step c s o HB HC HI HF HJ IH).
Qed.

(* ------------------------------------------------------------------ *)
(* A snapshot is taken once per segment                                 *)

Definition holds (s : st) (k : Z) : Prop :=
  exists x, In x (s_all s) /\ x_key x = k /\ x_snap x <> None.

Definition uniq (N : Z) (a : st * hand) : Prop :=
  NoDup (taken (s_out (fst a))) /\
  forall k, In k (taken (s_out (fst a))) -> k < N \/ holds (fst a) k.

Lemma taken_app : forall a b, taken (a ++ b) = taken a ++ taken b.
Proof. intros a b. apply flat_map_app. Qed.

Lemma taken_none : forall L, (forall k, ~ In (ESnap k) L) -> taken L = [].
Proof.
  induction L as [|v L IH]; intros H; [reflexivity|].
  rewrite taken_other.
  - apply IH. intros k Hk. apply (H k). right. exact Hk.
  - intros k E. apply (H k). left. exact E.
Qed.

Lemma uniq_grow : forall N M s s' e e' L,
  s_out s' = L ++ s_out s -> (forall k, ~ In (ESnap k) L) -> N <= M ->
  (forall k, holds s k -> k < M \/ holds s' k) ->
  uniq N (s, e) -> uniq M (s', e').
Proof.
  intros N M s s' e e' L E HL HM HH [U V]. cbn [fst] in *.
  assert (T : taken (s_out s') = taken (s_out s)).
  { rewrite E, taken_app, taken_none by exact HL. reflexivity. }
  split; cbn [fst]; rewrite T; [exact U|].
  intros k Hk. destruct (V k Hk) as [H|H]; [left; lia|exact (HH k H)].
Qed.

Lemma holds_same : forall s s', s_all s' = s_all s -> forall k, holds s k -> holds s' k.
Proof. intros s s' E k (x & A & B). exists x. rewrite E. split; assumption. Qed.

Lemma holds_map : forall s s' f, s_all s' = map f (s_all s) ->
  (forall x, x_key (f x) = x_key x /\ (x_snap x <> None -> x_snap (f x) <> None)) ->
  forall k, holds s k -> holds s' k.
Proof.
  intros s s' f E H k (x & A & B & C). exists (f x). rewrite E.
  destruct (H x) as [H1 H2]. split; [apply in_map; exact A|]. split; [congruence|auto].
Qed.

Lemma close_all : forall s n, s_all (close_ack s n) = s_all s.
Proof.
  intros s n. unfold close_ack, frames_ack, frames_drop, frames_free.
  destruct (s_psnap s); [|destruct (s_wr s); [destruct (s_wfr s)|]];
    cbn [emit s_snaps]; try destruct (_ <=? 0); reflexivity.
Qed.

Lemma close_write_all : forall c s n, s_all (close_write c s n) = s_all s.
Proof.
  intros c s n. unfold close_write, close_free, frames_ack, frames_drop, frames_free.
  destruct (s_wr s).
  - destruct (s_psnap s); cbn [emit s_snaps]; try destruct (_ <=? 0); reflexivity.
  - destruct (sn_max n <? s_min s).
    { cbn [emit s_snaps]; destruct (_ <=? 0); reflexivity. }
    set (s1 := if fi_delta _ then s else _).
    assert (E : s_all s1 = s_all s).
    { unfold s1. destruct (fi_delta _); [|destruct (_ <=? _)]; reflexivity. }
    unfold pop. destruct (s_orc s1) as [|[|] r]; [exact E|exact E|].
    cbn [emit set_orc s_snaps]. destruct (_ <=? 0); exact E.
Qed.

Lemma no_snap_ev : forall l L, Forall (ev_of l) L -> forall k, ~ In (ESnap k) L.
Proof. intros l L H k HI. rewrite Forall_forall in H. exact (H _ HI). Qed.

Lemma uniq_mic : forall c N l a b, uniq N a -> mic c N l a b -> uniq N b.
Proof.
  intros c N l a b HU HM. destruct (mic_out _ _ _ _ _ HM) as (L & E & HL).
  pose proof (no_snap_ev _ _ HL) as HN.
  assert (G : forall k, holds (fst a) k -> k < N \/ holds (fst b) k).
  2:{ destruct a as [s0 e0], b as [s1 e1]. cbn [fst] in *.
      eapply uniq_grow; [exact E|exact HN|apply Z.le_refl|exact G|exact HU]. }
  clear E HL HN L HU. intros q Hq.
  destruct HM; cbn [fst] in *; try (right; exact Hq).
  - destruct H as (p & d & b & o & -> & _). right. exact Hq.
  - right. apply (holds_same s); [|exact Hq]. unfold close_free, frames_drop, frames_free.
    destruct (_ <=? 0); reflexivity.
  - right. apply (holds_same s); [apply close_all|exact Hq].
  - right. apply (holds_same s); [apply close_write_all|exact Hq].
  - destruct (Z.eq_dec q k) as [->|NE]; [left; assumption|right].
    destruct Hq as (y & A & B & D). exists y. split; [|split; assumption].
    cbn [upd set_all s_all]. apply in_map_iff. exists y. split; [|exact A].
    destruct (x_key y =? k) eqn:EK; [lia|reflexivity].
  - right. eapply (holds_map s); [cbn [upd set_all emit unlock s_all]; reflexivity| |exact Hq]. intros y.
    cbv beta. destruct (x_key y =? k); (split; [reflexivity|]); [intros _; discriminate|tauto].
  - right. eapply (holds_map s); [cbn [upd set_all emit unlock s_all]; reflexivity| |exact Hq]. intros y.
    cbv beta. destruct (x_key y =? k); (split; [reflexivity|]); intros HN; exact HN.
  - right. eapply (holds_map s); [cbn [upd set_all emit unlock s_all]; reflexivity| |exact Hq]. intros y.
    cbv beta. destruct (x_key y =? k); (split; [reflexivity|]); intros HN; exact HN.
  - right. destruct Hq as (y & A & B & D). exists y. split; [|split; assumption].
    cbn [remove set_queues set_all s_all]. apply filter_In. split; [exact A|].
    destruct (x_key y =? k) eqn:EK; [|reflexivity]. exfalso.
    destruct H as (HS & Hx & EX).
    assert (y = x) by (eapply ss_inj; [exact HS|exact A|exact Hx|lia]). subst y. tauto.
  - right. eapply (holds_map s); [cbn [upd set_all emit unlock s_all]; reflexivity| |exact Hq]. intros y. split; [reflexivity|]. intros HN. exact HN.
  - right. eapply (holds_map s); [cbn [upd set_all emit unlock s_all]; reflexivity| |exact Hq]. intros y. split; [reflexivity|]. intros HN. exact HN.
  - right. eapply (holds_map s); [cbn [upd set_all emit unlock s_all]; reflexivity| |exact Hq]. intros y.
    cbv beta. destruct (x_key y =? k); (split; [reflexivity|]); intros HN; exact HN.
Qed.

Lemma uniq_step : forall c s o,
  1 <= c_bucket c -> 0 <= c_init c -> inv c (s_next s) s -> fits s o ->
  uniq (s_next s) (s, []) -> uniq (s_next (step c s o)) (step c s o, []).
Proof.
  intros c s o HB HC HI HF HJ.
  apply (step_J c (fun _ => True) uniq (fun _ _ => True)); try assumption.
  - intros N l a b _ HA HM. eapply uniq_mic; eassumption.
  - intros N M s0 HM H. eapply (uniq_grow N M s0 s0 _ _ []); try exact H; try reflexivity;
      [intros k []|exact HM|intros k Hk; right; exact Hk].
  - intros N s0 H. exact H.
  - intros s0 ex x _ _ _ _ _ _ H.
    eapply (uniq_grow _ _ s0 _ _ _ [EReady (s_next s0) ex]); [reflexivity| | | |exact H].
    + intros k [E|[]]. discriminate E.
    + lia.
    + intros k Hk. right. exact Hk.
  - intros N s0 _ H. exact H.
  - intros N s0 m _ _ H. exact H.
  - intros s0 k _ _ _ _ H.
    eapply (uniq_grow _ _ s0 _ _ _ []); [reflexivity|intros q []|apply Z.le_refl| |exact H].
    intros q (x & A & B). right. exists x. split; [|exact B].
    cbn [create set_top set_queues set_all s_all]. apply in_or_app. left. exact A.
  - intros s0 x HI0 Hx HL ES [U V]. set (k := x_key x) in *. cbn [fst] in *.
    split; cbn [fst set_snaps emit upd set_all s_out];
      change (taken (ESnap k :: s_out s0)) with (k :: taken (s_out s0)).
    + constructor; [|exact U]. intros HK. destruct (V k HK) as [H|(y & A & B & D)]; [lia|].
      assert (y = x) by (eapply ss_inj; [apply (v_sort _ _ _ HI0)|exact A|exact Hx|exact B]).
      subst y. tauto.
    + assert (NK : forall q, holds s0 q \/ q = k ->
        holds (set_snaps (emit (upd k (idx_snap (Some (Isnap k k))) s0) (ESnap k))
          (s_snaps s0 + 1)) q).
      { intros q [(y & A & B & D)|EQ].
        - eexists. cbn [set_snaps emit upd set_all s_all].
          split; [apply in_map; exact A|].
          destruct (x_key y =? k); (split; [exact B|]); [discriminate|exact D].
        - subst q. eexists. cbn [set_snaps emit upd set_all s_all].
          split; [apply in_map; exact Hx|]. fold k. rewrite Z.eqb_refl.
          split; [reflexivity|discriminate]. }
      intros q [<-|Hq]; [right; apply NK; right; reflexivity|].
      destruct (V q Hq) as [H|H]; [left; exact H|right; apply NK; left; exact H].
  - intros N s0 k i H.
    eapply (uniq_grow _ _ s0 _ _ _ []); [reflexivity|intros q []|apply Z.le_refl| |exact H].
    intros q Hq. right. eapply (holds_map s0); [cbn [upd set_all emit unlock s_all]; reflexivity| |exact Hq]. intros y.
    cbv beta. destruct (x_key y =? k); (split; [reflexivity|]); intros HN; exact HN.
  - intros N s0 i H.
    eapply (uniq_grow _ _ s0 _ _ _ []); [reflexivity|intros q []|apply Z.le_refl| |exact H].
    intros q Hq. right. eapply (holds_map s0); [cbn [upd set_all emit unlock s_all]; reflexivity| |exact Hq]. intros y.
    split; [reflexivity|]. intros HN. exact HN.
  - intros N s0 f fr ok stored _ _ EW EF _ H.
    eapply (uniq_grow _ _ s0 _ _ _); [apply ended_out| |apply Z.le_refl| |exact H].
    + intros k HX. destruct ok; cbn [app In] in HX; intuition discriminate.
    + intros q Hq. right. eapply holds_same; [|exact Hq]. apply ended_all.
  - intros s0 H. exact H.
  - apply decomp_any; assumption.
  - exact I.
Qed.

Lemma reach_uniq : forall c s,
  sane c -> c_init c < 4294967295 -> reach c s -> NoDup (taken (s_out s)).
Proof.
  intros c s HS HM HR. assert (U : uniq (s_next s) (s, [])); [|apply U].
  induction HR as [orc|s o HR IH HF].
  - split; [constructor|intros k []].
  - pose proof (reach_inv c s HS HM HR) as HI.
    destruct HS as (HB & _ & _ & HC). exact (uniq_step c s o HB HC HI HF IH).
Qed.
