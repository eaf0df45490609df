(* Proofs about the segment index: what is freed, and why; who reads is left in
   peace. *)

From Coq Require Import ZArith List Bool Lia ZifyBool Sorted Permutation.
From Verif Require Import IdxModel IdxSpec IdxProofs IdxProofs2 IdxProofs3 IdxProofs4 IdxProofs5
  IdxProofs6 IdxProofs7.
Import ListNotations.
Open Scope Z_scope.

Record frz (s : st) : Prop := {
  z_top : forall x, In x (s_all s) -> x_key x <= s_top s;
  z_nodup : NoDup (freed (s_out s));
  z_free : forall x, In x (s_all s) -> x_free x = true <-> In (EFree (x_key x)) (s_out s);
  z_old : forall k, In (EFree k) (s_out s) -> k <= s_top s;
  z_ok : forall x, In x (s_all s) -> x_per x = POk -> In (EMedia (x_key x)) (s_out s);
  z_err : forall x, In x (s_all s) -> x_per x = PErr -> In (ELost (x_key x)) (s_out s);
  z_done : forall k, saved s k ->
    In (EFree k) (s_out s) \/ exists x, In x (s_all s) /\ x_key x = k /\ x_per x <> PNone;
  z_ready : forall k ex, In (EReady k ex) (s_out s) ->
    In (EFree k) (s_out s) \/ exists x, In x (s_all s) /\ x_key x = k
}.

Lemma freed_in : forall out k, In k (freed out) <-> In (EFree k) out.
Proof.
  intros out k. unfold freed. rewrite in_flat_map. split.
  - intros (v & A & B). destruct v; try destruct B. subst. exact A. destruct H.
  - intros H. exists (EFree k). split; [exact H|left; reflexivity].
Qed.

Lemma freed_app : forall a b, freed (a ++ b) = freed a ++ freed b.
Proof. intros a b. apply flat_map_app. Qed.

(* Events that say nothing about a segment being freed, saved or closed. *)
Definition mute (v : ev) : Prop :=
  match v with
  | EFree _ | EMedia _ | ELost _ | EReady _ _ => False
  | _ => True
  end.

Lemma freed_mute : forall L, Forall mute L -> freed L = [].
Proof.
  induction L as [|v L IH]; intros H; [reflexivity|]. inversion H as [|v0 L0 H1 H2]. subst v0 L0.
  cbn [freed flat_map]. fold (freed L). rewrite IH by exact H2. destruct v; try reflexivity.
  destruct H1.
Qed.

(* Nothing the invariant sees changes but in the indexes, which keep their key
   and their state. *)
Lemma frz_same : forall s s' L f,
  frz s -> s_out s' = L ++ s_out s -> Forall mute L -> s_top s <= s_top s' ->
  s_all s' = map f (s_all s) ->
  (forall x, x_key (f x) = x_key x /\ x_per (f x) = x_per x /\ x_free (f x) = x_free x) ->
  frz s'.
Proof.
  intros s s' L f [] E HL HT EA HF.
  assert (IN : forall v, ~ mute v -> In v (s_out s') <-> In v (s_out s)).
  { intros v Hv. rewrite E, in_app_iff. rewrite Forall_forall in HL.
    split; [intros [H|H]; [destruct (Hv (HL v H))|exact H]|right; assumption]. }
  assert (AL : forall y, In y (s_all s') -> exists x, In x (s_all s) /\
    x_key y = x_key x /\ x_per y = x_per x /\ x_free y = x_free x).
  { intros y Hy. rewrite EA in Hy. apply in_map_iff in Hy. destruct Hy as (x & <- & Hx).
    exists x. destruct (HF x) as (A & B & D). repeat split; assumption. }
  assert (LA : forall x, In x (s_all s) -> exists y, In y (s_all s') /\
    x_key y = x_key x /\ x_per y = x_per x /\ x_free y = x_free x).
  { intros x Hx. exists (f x). rewrite EA. split; [apply in_map; exact Hx|]. apply HF. }
  split.
  - intros y Hy. destruct (AL y Hy) as (x & Hx & A & _). specialize (z_top0 x Hx). lia.
  - rewrite E, freed_app, freed_mute by exact HL. exact z_nodup0.
  - intros y Hy. destruct (AL y Hy) as (x & Hx & A & _ & B).
    rewrite A, B, IN by (intros []). apply z_free0, Hx.
  - intros k. rewrite IN by (intros []). intros H. specialize (z_old0 k H). lia.
  - intros y Hy. destruct (AL y Hy) as (x & Hx & A & B & _).
    rewrite A, B, IN by (intros []). apply z_ok0, Hx.
  - intros y Hy. destruct (AL y Hy) as (x & Hx & A & B & _).
    rewrite A, B, IN by (intros []). apply z_err0, Hx.
  - intros k Hk. unfold saved in Hk. rewrite !IN in Hk by (intros []).
    rewrite IN by (intros []). destruct (z_done0 k Hk) as [H|(x & Hx & A & B)]; [left; exact H|].
    right. destruct (LA x Hx) as (y & Hy & C & D & _). exists y.
    split; [exact Hy|]. split; congruence.
  - intros k ex. rewrite !IN by (intros []). intros Hk.
    destruct (z_ready0 k ex Hk) as [H|(x & Hx & A)]; [left; exact H|].
    right. destruct (LA x Hx) as (y & Hy & C & _). exists y. split; [exact Hy|congruence].
Qed.

Lemma frz_id : forall s s' L,
  frz s -> s_out s' = L ++ s_out s -> Forall mute L -> s_top s <= s_top s' ->
  s_all s' = s_all s -> frz s'.
Proof.
  intros s s' L H E HL HT EA. eapply (frz_same s s' L (fun x => x)); try eassumption.
  - rewrite map_id. exact EA.
  - intros x. repeat split.
Qed.

Lemma close_top : forall s n, s_top (close_ack s n) = s_top s.
Proof.
  intros s n. unfold close_ack, frames_ack, frames_drop, frames_free.
  destruct (s_psnap s); [|destruct (s_wr s); [destruct (s_wfr s)|]];
    cbn [emit s_snaps]; try destruct (_ <=? 0); reflexivity.
Qed.

Lemma close_write_top : forall c s n, s_top (close_write c s n) = s_top s.
Proof.
  intros c s n. unfold close_write, close_free, frames_ack, frames_drop, frames_free.
  destruct (s_wr s).
  - destruct (s_psnap s); cbn [emit s_snaps]; try destruct (_ <=? 0); reflexivity.
  - destruct (sn_max n <? s_min s).
    { cbn [emit s_snaps]; destruct (_ <=? 0); reflexivity. }
    set (s1 := if fi_delta _ then s else _).
    assert (E : s_top s1 = s_top s).
    { unfold s1. destruct (fi_delta _); [|destruct (_ <=? _)]; reflexivity. }
    unfold pop. destruct (s_orc s1) as [|[|] r]; [exact E|exact E|].
    cbn [emit set_orc s_snaps]. destruct (_ <=? 0); exact E.
Qed.

Lemma mute_ev : forall l L,
  match l with LMark _ _ | LFree _ _ => False | _ => True end ->
  Forall (ev_of l) L -> Forall mute L.
Proof.
  intros l L HL H. eapply Forall_impl; [|exact H]. intros v HV.
  destruct v; cbn [ev_of mute] in *; try exact I; try exact HV.
  - destruct HV as [p ->]. exact HL.
  - subst l. exact HL.
  - subst l. exact HL.
Qed.

Lemma frz_mic : forall c N l a b, frz (fst a) -> mic c N l a b -> frz (fst b).
Proof.
  intros c N l a b HZ HM. destruct (mic_out _ _ _ _ _ HM) as (L & E & HL).
  destruct HM; cbn [fst] in *.
  - destruct H as (p & d & b & o & -> & _).
    eapply (frz_id s _ []); [exact HZ|reflexivity|constructor|apply Z.le_refl|reflexivity].
  - eapply frz_id; [exact HZ|exact E|eapply mute_ev; [|exact HL]; exact I|apply Z.le_refl|reflexivity].
  - eapply frz_id; [exact HZ|exact E|eapply mute_ev; [|exact HL]; exact I|apply Z.le_refl|reflexivity].
  - eapply frz_id; [exact HZ|exact E|eapply mute_ev; [|exact HL]; exact I| |];
      unfold close_free, frames_drop, frames_free; destruct (_ <=? 0); cbn; try lia; reflexivity.
  - eapply frz_id; [exact HZ|exact E|eapply mute_ev; [|exact HL]; exact I| |].
    + rewrite close_top. lia.
    + apply close_all.
  - eapply frz_id; [exact HZ|exact E|eapply mute_ev; [|exact HL]; exact I| |].
    + rewrite close_write_top. lia.
    + apply close_write_all.
  - eapply frz_same; [exact HZ|exact E|eapply mute_ev; [|exact HL]; exact I|apply Z.le_refl|
      cbn [upd set_all s_all]; reflexivity|].
    intros y. cbv beta. destruct (x_key y =? k); repeat split.
  - eapply frz_same; [exact HZ|exact E|eapply mute_ev; [|exact HL]; exact I|apply Z.le_refl|
      cbn [upd set_all s_all]; reflexivity|].
    intros y. cbv beta. destruct (x_key y =? k); repeat split.
  - (* marked *)
    clear E HL L. destruct H as (HS & Hx & EX). destruct HZ.
    set (p := done_pst ok). set (v := done_ev k ok).
    assert (PN : p <> PNone) by (unfold p, done_pst; destruct ok; discriminate).
    assert (AL : forall y, In y (s_all (upd k (idx_per p) s)) -> exists x0, In x0 (s_all s) /\
      x_key y = x_key x0 /\ x_free y = x_free x0 /\
      (x_key x0 = k /\ x_per y = p \/ x_key x0 <> k /\ x_per y = x_per x0)).
    { intros y Hy. cbn [upd set_all s_all] in Hy. apply in_map_iff in Hy.
      destruct Hy as (x0 & <- & Hx0). exists x0. split; [exact Hx0|].
      destruct (x_key x0 =? k) eqn:EK; cbn [idx_per x_key x_free x_per].
      - split; [reflexivity|]. split; [reflexivity|]. left. split; [lia|reflexivity].
      - split; [reflexivity|]. split; [reflexivity|]. right. split; [lia|reflexivity]. }
    assert (LA : forall x0, In x0 (s_all s) -> exists y, In y (s_all (upd k (idx_per p) s)) /\
      x_key y = x_key x0 /\ (x_per x0 <> PNone \/ x_key x0 = k -> x_per y <> PNone)).
    { intros x0 Hx0. eexists. cbn [upd set_all s_all]. split; [apply in_map; exact Hx0|].
      destruct (x_key x0 =? k) eqn:EK; cbn [idx_per x_key x_per].
      - split; [reflexivity|]. intros _. exact PN.
      - split; [reflexivity|]. intros [H|H]; [exact H|lia]. }
    assert (VF : forall q, v <> EFree q) by (unfold v, done_ev; destruct ok; discriminate).
    assert (VR : forall q ex, v <> EReady q ex) by (unfold v, done_ev; destruct ok; discriminate).
    split; cbn [emit upd set_all s_out s_top].
    + intros y Hy. destruct (AL y Hy) as (x0 & Hx0 & A & _). specialize (z_top0 x0 Hx0). lia.
    + unfold v, done_ev. destruct ok; exact z_nodup0.
    + intros y Hy. destruct (AL y Hy) as (x0 & Hx0 & A & B & _). rewrite A, B.
      rewrite (z_free0 x0 Hx0). split; [right; assumption|].
      intros [H|H]; [destruct (VF _ H)|exact H].
    + intros q [H|H]; [destruct (VF _ H)|apply z_old0; exact H].
    + intros y Hy EY. destruct (AL y Hy) as (x0 & Hx0 & A & _ & [[B D]|[B D]]); rewrite A.
      * left. unfold v, done_ev. rewrite B. unfold p, done_pst in D.
        destruct ok; [reflexivity|congruence].
      * right. apply z_ok0; [exact Hx0|congruence].
    + intros y Hy EY. destruct (AL y Hy) as (x0 & Hx0 & A & _ & [[B D]|[B D]]); rewrite A.
      * left. unfold v, done_ev. rewrite B. unfold p, done_pst in D.
        destruct ok; [congruence|reflexivity].
      * right. apply z_err0; [exact Hx0|congruence].
    + intros q Hq.
      assert (Q : q = k \/ saved s q).
      { unfold saved in *. cbn [emit upd set_all s_out In] in Hq. unfold v, done_ev in Hq.
        destruct ok; destruct Hq as [[H|H]|[H|H]]; try discriminate H;
          try (right; tauto); left; congruence. }
      destruct Q as [->|Q].
      * right. destruct (LA x Hx) as (y & Hy & A & B). exists y. split; [exact Hy|].
        split; [congruence|]. apply B. right. exact EX.
      * destruct (z_done0 q Q) as [H|(x0 & Hx0 & A & B)]; [left; right; exact H|].
        right. destruct (LA x0 Hx0) as (y & Hy & A' & B'). exists y. split; [exact Hy|].
        split; [congruence|]. apply B'. left. exact B.
    + intros q ex [H|H]; [destruct (VR _ _ H)|].
      destruct (z_ready0 q ex H) as [G|(x0 & Hx0 & A)]; [left; right; exact G|].
      right. destruct (LA x0 Hx0) as (y & Hy & A' & _). exists y. split; [exact Hy|congruence].
  - (* freed *)
    clear E HL L. destruct H as (HS & Hx & EX). destruct HZ.
    assert (AL : forall y, In y (s_all (upd k idx_free s)) -> exists x0, In x0 (s_all s) /\
      x_key y = x_key x0 /\ x_per y = x_per x0 /\
      (x_key x0 = k /\ x_free y = true \/ x_key x0 <> k /\ x_free y = x_free x0)).
    { intros y Hy. cbn [upd set_all s_all] in Hy. apply in_map_iff in Hy.
      destruct Hy as (x0 & <- & Hx0). exists x0. split; [exact Hx0|].
      destruct (x_key x0 =? k) eqn:EK; cbn [idx_free x_key x_free x_per].
      - split; [reflexivity|]. split; [reflexivity|]. left. split; [lia|reflexivity].
      - split; [reflexivity|]. split; [reflexivity|]. right. split; [lia|reflexivity]. }
    assert (LA : forall x0, In x0 (s_all s) -> exists y, In y (s_all (upd k idx_free s)) /\
      x_key y = x_key x0 /\ x_per y = x_per x0).
    { intros x0 Hx0. eexists. cbn [upd set_all s_all]. split; [apply in_map; exact Hx0|].
      destruct (x_key x0 =? k); split; reflexivity. }
    split; cbn [emit upd set_all s_out s_top].
    + intros y Hy. destruct (AL y Hy) as (x0 & Hx0 & A & _). specialize (z_top0 x0 Hx0). lia.
    + change (freed (EFree k :: s_out s)) with (k :: freed (s_out s)).
      constructor; [|exact z_nodup0]. rewrite freed_in. rewrite <- EX.
      intros HK. apply (z_free0 x Hx) in HK. congruence.
    + intros y Hy. destruct (AL y Hy) as (x0 & Hx0 & A & _ & [[B D]|[B D]]); rewrite A, D.
      * split; [intros _; left; congruence|reflexivity].
      * rewrite (z_free0 x0 Hx0). split; [right; assumption|].
        intros [H|H]; [congruence|exact H].
    + intros q [H|H]; [|apply z_old0; exact H]. specialize (z_top0 x Hx). injection H as <-. lia.
    + intros y Hy. destruct (AL y Hy) as (x0 & Hx0 & A & B & _). rewrite A, B.
      intros H. right. apply z_ok0; assumption.
    + intros y Hy. destruct (AL y Hy) as (x0 & Hx0 & A & B & _). rewrite A, B.
      intros H. right. apply z_err0; assumption.
    + intros q Hq.
      assert (Q : saved s q).
      { unfold saved in *. cbn [emit upd set_all s_out In] in Hq.
        destruct Hq as [[H|H]|[H|H]]; try discriminate H; tauto. }
      destruct (z_done0 q Q) as [H|(x0 & Hx0 & A & B)]; [left; right; exact H|].
      right. destruct (LA x0 Hx0) as (y & Hy & A' & B'). exists y. split; [exact Hy|].
      split; congruence.
    + intros q ex [H|H]; [discriminate H|].
      destruct (z_ready0 q ex H) as [G|(x0 & Hx0 & A)]; [left; right; exact G|].
      right. destruct (LA x0 Hx0) as (y & Hy & A' & _). exists y. split; [exact Hy|congruence].
  - (* removed *)
    destruct H as (HS & Hx & EX). destruct HZ.
    assert (FK : In (EFree k) (s_out s)).
    { rewrite <- EX. apply (z_free0 x Hx). assumption. }
    assert (SUB : forall y, In y (s_all (remove k s)) -> In y (s_all s)).
    { intros y Hy. cbn [remove set_queues set_all s_all] in Hy. apply filter_In in Hy. tauto. }
    assert (LA : forall x0, In x0 (s_all s) -> x_key x0 = k \/ In x0 (s_all (remove k s))).
    { intros x0 Hx0. destruct (Z.eq_dec (x_key x0) k) as [H|H]; [left; exact H|right].
      cbn [remove set_queues set_all s_all]. apply filter_In. split; [exact Hx0|].
      destruct (x_key x0 =? k) eqn:EK; [lia|reflexivity]. }
    split; cbn [remove set_queues set_all s_out s_top].
    + intros y Hy. apply z_top0, SUB, Hy.
    + exact z_nodup0.
    + intros y Hy. apply z_free0, SUB, Hy.
    + exact z_old0.
    + intros y Hy. apply z_ok0, SUB, Hy.
    + intros y Hy. apply z_err0, SUB, Hy.
    + intros q Hq. destruct (z_done0 q Hq) as [H|(x0 & Hx0 & A & B)]; [left; exact H|].
      destruct (LA x0 Hx0) as [H|H]; [left; congruence|right; exists x0; tauto].
    + intros q ex Hq. destruct (z_ready0 q ex Hq) as [H|(x0 & Hx0 & A)]; [left; exact H|].
      destruct (LA x0 Hx0) as [H|H]; [left; congruence|right; exists x0; tauto].
  - eapply frz_same; [exact HZ|exact E|eapply mute_ev; [|exact HL]; exact I|apply Z.le_refl|
      cbn [unlock set_all s_all]; reflexivity|].
    intros y. repeat split.
  - eapply frz_same; [exact HZ|exact E|eapply mute_ev; [|exact HL]; exact I|apply Z.le_refl|
      cbn [emit unlock set_all s_all]; reflexivity|].
    intros y. repeat split.
  - eapply frz_same; [exact HZ|exact E|eapply mute_ev; [|exact HL]; exact I|apply Z.le_refl|
      cbn [upd set_all s_all]; reflexivity|].
    intros y. cbv beta. destruct (x_key y =? k); repeat split.
Qed.

Lemma frz_create : forall s k, s_top s < k -> frz s -> frz (create s k).
Proof.
  intros s k HK HZ. destruct HZ.
  assert (AL : forall y, In y (s_all (create s k)) ->
    In y (s_all s) \/ y = Idx k PNone None false false []).
  { intros y Hy. cbn [create set_top set_queues set_all s_all] in Hy.
    apply in_app_or in Hy. destruct Hy as [H|[H|[]]]; [left; exact H|right; congruence]. }
  assert (LA : forall y, In y (s_all s) -> In y (s_all (create s k))).
  { intros y Hy. cbn [create set_top set_queues set_all s_all]. apply in_or_app. left. exact Hy. }
  split; cbn [create set_top set_queues set_all s_out s_top].
  - intros y Hy. destruct (AL y Hy) as [H| ->]; [specialize (z_top0 y H); lia|cbn; lia].
  - exact z_nodup0.
  - intros y Hy. destruct (AL y Hy) as [H| ->]; [apply z_free0, H|].
    cbn [x_free x_key]. split; [discriminate|]. intros H. specialize (z_old0 k H). lia.
  - intros q H. specialize (z_old0 q H). lia.
  - intros y Hy. destruct (AL y Hy) as [H| ->]; [apply z_ok0, H|discriminate].
  - intros y Hy. destruct (AL y Hy) as [H| ->]; [apply z_err0, H|discriminate].
  - intros q Hq. destruct (z_done0 q Hq) as [H|(x0 & Hx0 & A & B)]; [left; exact H|].
    right. exists x0. split; [apply LA; exact Hx0|tauto].
  - intros q ex Hq. destruct (z_ready0 q ex Hq) as [H|(x0 & Hx0 & A)]; [left; exact H|].
    right. exists x0. split; [apply LA; exact Hx0|tauto].
Qed.

Lemma frz_open : forall s ex x,
  In x (s_all s) -> x_key x = s_next s -> frz s -> frz (opened s ex).
Proof.
  intros s ex x Hx EX HZ. destruct HZ.
  split; cbn [opened emit set_last s_out s_top s_all]; try assumption.
  - intros y Hy. rewrite (z_free0 y Hy). split; [right; assumption|].
    intros [H|H]; [discriminate H|exact H].
  - intros q [H|H]; [discriminate H|exact (z_old0 q H)].
  - intros y Hy H. right. apply z_ok0; assumption.
  - intros y Hy H. right. apply z_err0; assumption.
  - intros q Hq.
    assert (Q : saved s q).
    { unfold saved in *. cbn [opened emit set_last s_out In] in Hq.
      destruct Hq as [[H|H]|[H|H]]; try discriminate H; tauto. }
    destruct (z_done0 q Q) as [H|H]; [left; right; exact H|right; exact H].
  - intros q e [H|H].
    + right. exists x. split; [exact Hx|]. injection H as <- _. exact EX.
    + destruct (z_ready0 q e H) as [G|G]; [left; right; exact G|right; exact G].
Qed.

Lemma frz_ended : forall s f fr ok stored, frz s -> frz (ended s f fr ok stored).
Proof.
  intros s f fr ok stored H.
  eapply frz_id; [exact H|apply ended_out| | |apply ended_all].
  - destruct ok; repeat constructor.
  - assert (E : s_top (ended s f fr ok stored) = s_top s); [|lia].
    unfold ended, frames_ack, frames_free.
    destruct (_ <=? 0), ok, stored, (fi_delta f); reflexivity.
Qed.

Lemma frz_step : forall c s o,
  1 <= c_bucket c -> 0 <= c_init c -> inv c (s_next s) s -> fits s o ->
  frz s -> frz (step c s o).
Proof.
  intros c s o HB HC HI HF HJ.
  pose proof (step_J c (fun _ => True) (fun _ a => frz (fst a)) (fun _ _ => True)) as G.
  change (frz (fst (step c s o, @nil isnap))). apply G; try assumption; clear G.
  - intros N l a b _ HA HM. eapply frz_mic; eassumption.
  - intros; assumption.
  - intros N s0 H. destruct H. split; assumption.
  - intros s0 ex x _ _ _ Hx EX _ H. exact (frz_open s0 ex x Hx EX H).
  - intros N s0 _ H. destruct H. split; assumption.
  - intros N s0 m _ _ H. destruct H. split; assumption.
  - intros s0 k _ _ HT _ H. exact (frz_create s0 k HT H).
  - intros s0 x HI0 Hx HL ES H. eapply (frz_same s0 _ [ESnap (x_key x)]); [exact H|reflexivity| | | |].
    + repeat constructor.
    + apply Z.le_refl.
    + cbn [fst set_snaps emit upd set_all s_all]. reflexivity.
    + intros y. cbv beta. destruct (x_key y =? x_key x); repeat split.
  - intros N s0 k i H. eapply (frz_same s0 _ []); [exact H|reflexivity| | | |].
    + constructor.
    + apply Z.le_refl.
    + cbn [fst upd set_all s_all]. reflexivity.
    + intros y. cbv beta. destruct (x_key y =? k); repeat split.
  - intros N s0 i H. eapply (frz_same s0 _ []); [exact H|reflexivity| | | |].
    + constructor.
    + apply Z.le_refl.
    + cbn [fst unlock set_all s_all]. reflexivity.
    + intros y. repeat split.
  - intros N s0 f fr ok stored _ _ _ _ _ H. exact (frz_ended s0 f fr ok stored H).
  - intros s0 H. destruct H. split; assumption.
  - apply decomp_any; assumption.
  - exact I.
Qed.

Lemma reach_frz : forall c s,
  sane c -> c_init c < 4294967295 -> reach c s -> frz s.
Proof.
  intros c s HS HM HR. induction HR as [orc|s o HR IH HF].
  - split; try (intros; contradiction); try constructor.
    destruct H as [[]|[]].
  - pose proof (reach_inv c s HS HM HR) as HI.
    destruct HS as (HB & _ & _ & HC). exact (frz_step c s o HB HC HI HF IH).
Qed.

(* ------------------------------------------------------------------ *)
(* Why a segment is freed                                               *)

Lemma mics_free : forall c N P a b,
  mics c N P a b -> frz (fst a) ->
  frz (fst b) /\
  exists L, s_out (fst b) = L ++ s_out (fst a) /\
    forall k, In (EFree k) L -> exists p, P (LFree k p) /\
      (p = POk -> In (EMedia k) (s_out (fst b))) /\
      (p = PErr -> In (ELost k) (s_out (fst b))).
Proof.
  intros c N P a b H. induction H as [a|l a b d HP HM H IH]; intros HZ.
  - split; [exact HZ|]. exists []. split; [reflexivity|]. intros k [].
  - pose proof (frz_mic _ _ _ _ _ HZ HM) as HZ2. destruct (IH HZ2) as [Z3 (L & E & HL)].
    split; [exact Z3|]. destruct (mic_out _ _ _ _ _ HM) as (L1 & E1 & H1).
    exists (L ++ L1). split; [rewrite E, E1, app_assoc; reflexivity|].
    intros k Hk. apply in_app_or in Hk. destruct Hk as [Hk|Hk]; [exact (HL k Hk)|].
    rewrite Forall_forall in H1. destruct (H1 _ Hk) as (p & EL). subst l.
    exists p. split; [exact HP|].
    assert (IN : forall v, In v (s_out (fst b)) -> In v (s_out (fst d))).
    { intros v Hv. rewrite E. apply in_or_app. right. exact Hv. }
    inversion HM as [| | | | | | | | |s e k0 x HD HX E2 E3 E4| | | |]. subst.
    cbn [fst] in *. destruct HD as (_ & Hx & EX). destruct HZ.
    split; intros EP; apply IN; right; rewrite <- EX; [apply z_ok0|apply z_err0]; assumption.
Qed.

Lemma run_free : forall c N P a b,
  run c N P a b -> frz (fst a) ->
  exists L, s_out (fst b) = L ++ s_out (fst a) /\
    forall k, In (EFree k) L -> exists p, P L (LFree k p) /\
      (p = POk -> In (EMedia k) (s_out (fst b))) /\
      (p = PErr -> In (ELost k) (s_out (fst b))).
Proof.
  intros c N P a b (L & E & M) HZ. destruct (mics_free _ _ _ _ _ M HZ) as [_ (L' & E' & H)].
  assert (L' = L) by (apply (app_inv_tail (s_out (fst a))); congruence). subst L'.
  exists L. split; assumption.
Qed.

Lemma close_write_last : forall c s n, s_last (close_write c s n) = s_last s.
Proof.
  intros c s n. unfold close_write, close_free, frames_ack, frames_drop, frames_free.
  destruct (s_wr s).
  - destruct (s_psnap s); cbn [emit s_snaps]; try destruct (_ <=? 0); reflexivity.
  - destruct (sn_max n <? s_min s).
    { cbn [emit s_snaps]; destruct (_ <=? 0); reflexivity. }
    set (s1 := if fi_delta _ then s else _).
    assert (E : s_last s1 = s_last s).
    { unfold s1. destruct (fi_delta _); [|destruct (_ <=? _)]; reflexivity. }
    unfold pop. destruct (s_orc s1) as [|[|] r]; [exact E|exact E|].
    cbn [emit set_orc s_snaps]. destruct (_ <=? 0); exact E.
Qed.

Lemma last_mics : forall c N P a b, mics c N P a b -> s_last (fst b) = s_last (fst a).
Proof.
  intros c N P a b H. induction H as [a|l a b d HP HM H IH]; [reflexivity|].
  rewrite IH. clear IH H. destruct HM; cbn [fst]; try reflexivity.
  - destruct H as (p & q & b & o & -> & _). reflexivity.
  - unfold close_free, frames_drop, frames_free. destruct (_ <=? 0); reflexivity.
  - unfold close_ack, frames_ack, frames_drop, frames_free.
    destruct (s_psnap s); [|destruct (s_wr s); [destruct (s_wfr s)|]];
      cbn [emit s_snaps]; try destruct (_ <=? 0); reflexivity.
  - apply (close_write_last c s n).
Qed.

Lemma freed_why : forall (c : conf) s o (F : Z -> Prop) L k p s',
  freed_ok F L k p ->
  (p = POk -> In (EMedia k) (s_out s')) -> (p = PErr -> In (ELost k) (s_out s')) ->
  F k /\ saved s' k /\ cut o s s' L k.
Proof.
  intros c s o F L k p s' (A & B & C) H1 H2. split; [exact B|]. split.
  - destruct p; [congruence|left; apply H1; reflexivity|right; apply H2; reflexivity].
  - right. right. destruct C as [C|[C|C]]; [left; apply H1; exact C|right; left; exact C|].
    right. right. exact C.
Qed.

Lemma step_free : forall c s o,
  1 <= c_bucket c -> 0 <= c_init c -> inv c (s_next s) s -> frz s -> fits s o ->
  exists L, s_out (step c s o) = L ++ s_out s /\
    forall k, In (EFree k) L -> why c s o (step c s o) k /\ cut o s (step c s o) L k.
Proof.
  intros c s o HB HC HI HZ [HE HF].
  assert (NIL : forall s', s_out s' = s_out s -> exists L, s_out s' = L ++ s_out s /\
    forall k, In (EFree k) L -> why c s o s' k /\ cut o s s' L k).
  { intros s' E. exists []. split; [exact E|intros k []]. }
  destruct o; cbn [step] in *.
  - apply NIL. reflexivity.
  - destruct HF as (-> & x & EL & _). unfold create_snap. rewrite EL.
    destruct (x_bad x); [apply NIL; reflexivity|].
    destruct (x_snap x); [apply NIL; reflexivity|].
    exists [ESnap (x_key x)]. split; [reflexivity|]. intros k [H|[]]. discriminate H.
  - destruct (ready_run c s ex [] HB HC HI) as [E|(s' & A & _ & (x & Hx & EX) & _ & R & _)].
    { rewrite E. apply NIL. reflexivity. }
    pose proof (frz_open s ex x Hx EX HZ) as ZO.
    destruct (run_free _ _ _ _ _ R ZO) as (L & EL & HL). cbn [fst] in *.
    exists (L ++ [EReady (s_next s) ex]). rewrite A. cbn [set_next s_out].
    split; [rewrite EL, <- app_assoc; reflexivity|].
    intros k Hk. apply in_app_or in Hk. destruct Hk as [Hk|[Hk|[]]]; [|discriminate Hk].
    destruct (HL k Hk) as (p & HP & H1 & H2). cbn [rdy] in HP.
    destruct HP as [[E1 E2]|HP].
    + subst ex k. split; [left; split; reflexivity|]. right. left. split; reflexivity.
    + destruct (freed_why c s (IReady ex) _ _ _ _ (set_next s' (s_next s + 1)) HP H1 H2)
        as (B & D & G).
      split.
      * right. split; [|exact D]. destruct B as (l & EB & HB'). cbn in EB. injection EB as <-.
        exact HB'.
      * destruct G as [G|[G|[G|[G|(t & G1 & G2)]]]]; [left; exact G|right; left; exact G|
          right; right; left; exact G|right; right; right; left; exact G|].
        right. right. right. right. exists t. split; [exact G1|].
        apply in_or_app. left. exact G2.
  - destruct HF as (x & Hx & Hb).
    pose proof (media_done_run c (s_next s) false s b ok [] HB HC HI (v_cw _ _ _ HI x b Hx Hb)) as R.
    destruct (run_free _ _ _ _ _ R HZ) as (L & EL & HL). cbn [fst] in *.
    exists L. split; [exact EL|]. intros k Hk. destruct (HL k Hk) as (p & HP & H1 & H2).
    cbn [pers] in HP.
    destruct (freed_why c s (IMediaDone b ok) _ _ _ _ _ HP H1 H2) as ((_ & B) & D & G).
    split; [|exact G]. split; assumption.
  - apply NIL. reflexivity.
  - apply NIL. reflexivity.
  - destruct (s_wr s) as [f|] eqn:EW; [|congruence].
    destruct (v_wr _ _ _ HI f EW) as [_ HWF].
    destruct (s_wfr s) as [fr|] eqn:EF; [|congruence].
    rewrite (write_done_ended c s f fr ok stored EW EF).
    destruct (ended_ok c (s_next s) s f fr ok stored HI EW EF) as (I5 & _ & _ & W1 & W2 & FS).
    pose proof (ended_out s f fr ok stored) as EO.
    assert (NF : forall k, ~ In (EFree k) ((if ok then [EStored f] else []) ++ [EAck fr])).
    { intros k HX. destruct ok; cbn [app In] in HX; intuition discriminate. }
    destruct (s_psnap s) as [n|].
    + pose proof (m_write c (s_next s) (ended s f fr ok stored) [] n (v_nowr _ _ _ I5)
        (FS n eq_refl)) as M.
      destruct (mic_out _ _ _ _ _ M) as (L & EL & HL). cbn [fst] in EL.
      eexists. split; [rewrite EL, EO, app_assoc; reflexivity|].
      intros k Hk. exfalso. apply in_app_or in Hk. destruct Hk as [Hk|Hk]; [|exact (NF k Hk)].
      rewrite Forall_forall in HL. destruct (HL _ Hk) as (p & E). discriminate E.
    + eexists. split; [exact EO|]. intros k Hk. destruct (NF k Hk).
  - pose proof (watermark_run c (s_next s) s [] HB HC HI ltac:(lia)) as R.
    destruct (run_free _ _ _ _ _ R HZ) as (L & EL & HL). cbn [fst] in *.
    exists L. split; [exact EL|]. intros k Hk. destruct (HL k Hk) as (p & HP & H1 & H2).
    cbn [wmark] in HP. destruct HP as [A B]. split; [exact A|].
    right. right. destruct B as [B|[B|B]]; [left; apply H1; exact B|right; left; exact B|].
    right. right. exact B.
  - pose proof (expire_mics c (s_next s) s m [] HI HF) as M.
    assert (ZM : frz (set_min s m)) by (destruct HZ; split; assumption).
    destruct (mics_free _ _ _ _ _ M ZM) as [_ (L & EL & HL)]. cbn [fst] in *.
    exists L. split; [exact EL|]. intros k Hk. destruct (HL k Hk) as (p & HP & _).
    split; [exact HP|]. left. exists m. reflexivity.
  - apply NIL. reflexivity.
  - destruct (inactive_run c s [] HB HC HI) as (s' & A & _ & R).
    destruct (run_free _ _ _ _ _ R HZ) as (L & EL & HL). cbn [fst] in *.
    exists L. rewrite A. cbn [set_next s_out]. split; [exact EL|].
    intros k Hk. destruct (HL k Hk) as (p & HP & H1 & H2). cbn [writes] in HP.
    destruct (freed_why c s IInactive _ _ _ _
      (set_next s' (round_up (s_next s) (c_bucket c))) HP H1 H2) as (B & D & G).
    split; [|exact G]. split; assumption.
  - destruct HF.
Qed.

(* After a segment is closed, nothing that need not be in memory is in memory. *)
Lemma ready_free : forall c s ex,
  1 <= c_bucket c -> 0 <= c_init c -> inv c (s_next s) s -> frz s -> fits s (IReady ex) ->
  s_err (step c s (IReady ex)) = false ->
  forall k, saved (step c s (IReady ex)) k -> k + c_force c <= s_next s ->
  In (EFree k) (s_out (step c s (IReady ex))).
Proof.
  intros c s ex HB HC HI HZ HF HE k HK HD.
  pose proof (frz_step c s (IReady ex) HB HC HI HF HZ) as Z2. cbn [step] in *.
  destruct (ready_run c s ex [] HB HC HI) as [E|(s' & A & _ & _ & _ & R & T)].
  { rewrite E in HE. discriminate HE. }
  destruct (z_done _ Z2 k HK) as [H|(x & Hx & EX & NP)]; [exact H|].
  destruct R as (L & _ & M). pose proof (last_mics _ _ _ _ _ M) as EL. cbn in EL.
  rewrite <- EX. apply (z_free _ Z2 x Hx). rewrite A in Hx. apply T; [exact Hx|exact NP|].
  exists (s_next s). split; [exact EL|]. rewrite EX. exact HD.
Qed.

(* ------------------------------------------------------------------ *)
(* Readers                                                              *)

Lemma reading_map : forall s s' f, s_all s' = map f (s_all s) ->
  (forall x i, x_key (f x) = x_key x /\ (In (CRead i) (x_cln x) -> In (CRead i) (x_cln (f x)))) ->
  forall k i, reading s k i -> reading s' k i.
Proof.
  intros s s' f E H k i (x & A & B & C). exists (f x). rewrite E.
  destruct (H x i) as [H1 H2]. split; [apply in_map; exact A|]. split; [congruence|auto].
Qed.

Lemma reading_same : forall s s', s_all s' = s_all s ->
  forall k i, reading s k i -> reading s' k i.
Proof. intros s s' E k i (x & A). exists x. rewrite E. exact A. Qed.

Lemma reading_mic : forall c N l a b, mic c N l a b ->
  forall q i, reading (fst a) q i -> reading (fst b) q i \/ l = LCut i.
Proof.
  intros c N l a b HM q i Hq.
  destruct HM; cbn [fst] in *; try (left; exact Hq).
  - destruct H as (p & d & b & o & -> & _). left. exact Hq.
  - left. apply (reading_same s); [|exact Hq]. unfold close_free, frames_drop, frames_free.
    destruct (_ <=? 0); reflexivity.
  - left. apply (reading_same s); [apply close_all|exact Hq].
  - left. apply (reading_same s); [apply close_write_all|exact Hq].
  - left. eapply (reading_map s); [cbn [upd set_all emit s_all]; reflexivity| |exact Hq].
    intros y j. cbv beta. destruct (x_key y =? k); (split; [reflexivity|]); intros HN; exact HN.
  - left. eapply (reading_map s); [cbn [upd set_all emit s_all]; reflexivity| |exact Hq].
    intros y j. cbv beta. destruct (x_key y =? k); (split; [reflexivity|]); intros HN; exact HN.
  - left. eapply (reading_map s); [cbn [upd set_all emit s_all]; reflexivity| |exact Hq].
    intros y j. cbv beta. destruct (x_key y =? k); (split; [reflexivity|]); intros HN; exact HN.
  - left. eapply (reading_map s); [cbn [upd set_all emit s_all]; reflexivity| |exact Hq].
    intros y j. cbv beta. destruct (x_key y =? k); (split; [reflexivity|]); intros HN; exact HN.
  - left. destruct Hq as (y & A & B & D). exists y. split; [|split; assumption].
    cbn [remove set_queues set_all s_all]. apply filter_In. split; [exact A|].
    destruct (x_key y =? k) eqn:EK; [|reflexivity]. exfalso.
    destruct H as (HS & Hx & EX).
    assert (y = x) by (eapply ss_inj; [exact HS|exact A|exact Hx|lia]). subst y.
    rewrite H1 in D. destruct D.
  - left. eapply (reading_map s); [cbn [unlock set_all emit s_all]; reflexivity| |exact Hq].
    intros y j. split; [reflexivity|]. intros HN. cbn [idx_cln x_cln].
    apply filter_In. split; [exact HN|reflexivity].
  - destruct (Z.eq_dec i0 i) as [->|NE]; [right; reflexivity|left].
    destruct Hq as (y & A & B & D). eexists.
    split; [cbn [emit unlock set_all s_all]; apply in_map; exact A|].
    split; [exact B|]. cbn [idx_cln x_cln]. apply filter_In. split; [exact D|].
    cbn [is_cr]. destruct (i =? i0) eqn:EI; [lia|reflexivity].
  - left. eapply (reading_map s); [cbn [upd set_all emit s_all]; reflexivity| |exact Hq].
    intros y j. cbv beta. destruct (x_key y =? k); (split; [reflexivity|]); intros HN; [|exact HN].
    cbn [add_write idx_cln x_cln]. apply in_or_app. left. exact HN.
Qed.

Lemma reading_mics : forall c N P a b, mics c N P a b ->
  forall q i, reading (fst a) q i ->
  reading (fst b) q i \/ (P (LCut i) /\ In (ECut i) (s_out (fst b))).
Proof.
  intros c N P a b H. induction H as [a|l a b d HP HM H IH]; intros q i Hq; [left; exact Hq|].
  destruct (reading_mic _ _ _ _ _ HM q i Hq) as [G| ->]; [exact (IH q i G)|].
  right. split; [exact HP|]. destruct (mics_out _ _ _ _ _ H) as (L & E & _).
  rewrite E. apply in_or_app. right. inversion HM. subst. left. reflexivity.
Qed.

(* The readers of a segment are left alone. *)
Lemma step_reading : forall c s o,
  1 <= c_bucket c -> 0 <= c_init c -> inv c (s_next s) s -> fits s o ->
  forall k i, reading s k i -> o <> IUnlock i ->
  reading (step c s o) k i \/ (o = IWatermark /\ In (ECut i) (s_out (step c s o))).
Proof.
  intros c s o HB HC HI [HE HF] q j HR HO.
  destruct o; cbn [step] in *.
  - left. destruct HR as (x & A & B). exists x. split; [|exact B].
    cbn [create set_top set_queues set_all s_all]. apply in_or_app. left. exact A.
  - left. destruct HF as (-> & x & EL & _). unfold create_snap. rewrite EL.
    destruct (x_bad x); [exact HR|]. destruct (x_snap x); [exact HR|].
    eapply (reading_map s); [cbn [set_snaps upd set_all emit s_all]; reflexivity| |exact HR].
    intros y z. cbv beta. destruct (x_key y =? x_key x); (split; [reflexivity|]); intros HN; exact HN.
  - destruct (ready_run c s ex [] HB HC HI) as [E|(s' & A & _ & _ & _ & (L & _ & M) & _)].
    { rewrite E. left. exact HR. }
    rewrite A. destruct (reading_mics _ _ _ _ _ M q j HR) as [G|[G _]]; [left; exact G|destruct G].
  - destruct HF as (x & Hx & Hb).
    destruct (media_done_run c (s_next s) false s b ok [] HB HC HI (v_cw _ _ _ HI x b Hx Hb))
      as (L & _ & M).
    destruct (reading_mics _ _ _ _ _ M q j HR) as [G|[G _]]; [left; exact G|destruct G].
  - left. eapply (reading_map s); [cbn [upd set_all s_all]; reflexivity| |exact HR].
    intros y z. cbv beta. destruct (x_key y =? k); (split; [reflexivity|]); intros HN; [|exact HN].
    cbn [idx_cln x_cln]. apply in_or_app. left. exact HN.
  - left. destruct HR as (y & A & B & D). eexists.
    split; [cbn [unlock set_all s_all]; apply in_map; exact A|].
    split; [exact B|]. cbn [idx_cln x_cln]. apply filter_In. split; [exact D|].
    cbn [is_cr]. destruct (j =? id) eqn:EI; [|reflexivity].
    exfalso. apply HO. f_equal. lia.
  - left. destruct (s_wr s) as [f|] eqn:EW; [|congruence].
    destruct (v_wr _ _ _ HI f EW) as [_ HWF].
    destruct (s_wfr s) as [fr|] eqn:EF; [|congruence].
    rewrite (write_done_ended c s f fr ok stored EW EF).
    eapply reading_same; [|exact HR].
    destruct (s_psnap s); [rewrite close_write_all|]; apply ended_all.
  - destruct (watermark_run c (s_next s) s [] HB HC HI ltac:(lia)) as (L & _ & M).
    destruct (reading_mics _ _ _ _ _ M q j HR) as [G|[_ G]]; [left; exact G|right].
    split; [reflexivity|exact G].
  - pose proof (expire_mics c (s_next s) s m [] HI HF) as M.
    destruct (reading_mics _ _ _ _ _ M q j HR) as [G|[G _]]; [left; exact G|destruct G].
  - left. exact HR.
  - destruct (inactive_run c s [] HB HC HI) as (s' & A & _ & (L & _ & M)).
    rewrite A. destruct (reading_mics _ _ _ _ _ M q j HR) as [G|[G _]]; [left; exact G|destruct G].
  - destruct HF.
Qed.
