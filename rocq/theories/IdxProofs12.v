(* Proofs about the segment index: what storage that works guarantees. *)

From Coq Require Import ZArith List Bool Lia ZifyBool Sorted Permutation.
From Verif Require Import IdxModel IdxSpec IdxProofs IdxProofs2 IdxProofs3 IdxProofs4 IdxProofs5
  IdxProofs6 IdxProofs7 IdxProofs8 IdxProofs9 IdxProofs10 IdxProofs11.
Import ListNotations.
Open Scope Z_scope.

Lemma calm_honest : forall c s, reach_calm c s -> reach_honest c s.
Proof.
  intros c s H. induction H as [|s o H IH [HF HO]]; [apply honest_init|].
  apply honest_step; [exact IH|]. split; [exact HF|].
  destruct o; try exact I. intros E. rewrite HO in E. discriminate E.
Qed.

Lemma calm_reach : forall c s, reach_calm c s -> reach c s.
Proof. intros c s H. apply honest_reach, calm_honest, H. Qed.

Lemma cal_done : forall c N s f fr stored,
  inv c N s -> s_wr s = Some f -> s_wfr s = Some fr -> cal c N (s, []) ->
  cal c N (ended s f fr true stored, olist (s_psnap s)).
Proof.
  intros c N s f fr stored HI EW EF HC.
  pose proof (ended_out s f fr true stored) as EO. cbn [app] in EO.
  assert (V : s_all (ended s f fr true stored) = s_all s /\
    s_psnap (ended s f fr true stored) = None /\ s_wr (ended s f fr true stored) = None /\
    s_min (ended s f fr true stored) = s_min s /\ s_top (ended s f fr true stored) = s_top s /\
    s_orc (ended s f fr true stored) = s_orc s).
  { unfold ended, frames_ack, frames_free. destruct (_ <=? 0), (fi_delta f); repeat split. }
  destruct V as (V1 & V2 & V3 & V4 & V5 & V6).
  destruct HC. cbn [fst snd] in *.
  assert (IN : forall v, v <> EAck fr -> v <> EStored f ->
    In v (s_out (ended s f fr true stored)) <-> In v (s_out s)).
  { intros v H1 H2. rewrite EO. cbn [In].
    split; [intros [H|[H|H]]; congruence|intros H; right; right; exact H]. }
  assert (CV : forall m, covered s m -> covered (ended s f fr true stored) m).
  { intros m [A B]. split; [lia|]. rewrite V1. exact B. }
  pose proof (k_wr f EW) as FR. rewrite EF in FR. injection FR as ->.
  split; cbn [fst snd]; try (rewrite V1; assumption).
  - intros k. rewrite !IN by discriminate. apply k_free.
  - rewrite V2. discriminate.
  - intros n Hn. apply k_ps. destruct (s_psnap s) as [p|]; cbn [olist In] in Hn; [|contradiction].
    destruct Hn as [->|[]]. reflexivity.
  - rewrite V3. discriminate.
  - intros m H. rewrite EO in H. cbn [In] in H.
    assert (ST : In (EStored f) (s_out (ended s f (fi_max f) true stored))).
    { rewrite EO. left. reflexivity. }
    destruct H as [H|[H|H]]; [discriminate H| |].
    + injection H as <-. split; [|right; exists f; split; [exact ST|reflexivity]].
      apply CV, (v_low _ _ _ HI), (proj1 (v_wr _ _ _ HI f EW)).
    + destruct (k_ack m H) as [A B]. split; [apply CV; exact A|].
      destruct B as [B|(g & B1 & B2)]; [left; lia|right; exists g].
      split; [rewrite EO; right; right; exact B1|exact B2].
  - congruence.
  - intros k ex. rewrite !IN by discriminate. intros H.
    destruct (k_ready k ex H) as [(x & A)|A]; [left|right; exact A].
    exists x. rewrite V1. exact A.
  - intros k. rewrite IN by discriminate. apply k_late.
Qed.

Lemma cal_create : forall c s k,
  inv c (s_next s) s -> s_top s < k -> cal c (s_next s) (s, []) ->
  cal c (s_next s) (create s k, []).
Proof.
  intros c s k HI HT HC. destruct HC. cbn [fst snd] in *.
  assert (AL : forall y, In y (s_all (create s k)) ->
    In y (s_all s) \/ y = Idx k PNone None false false []).
  { intros y Hy. cbn [create set_top set_queues set_all s_all] in Hy. apply in_app_or in Hy.
    destruct Hy as [Hy|[Hy|[]]]; [left; exact Hy|right; symmetry; exact Hy]. }
  split; cbn [fst snd]; try assumption.
  - intros y Hy. destruct (AL y Hy) as [H| ->]; [apply k_err, H|discriminate].
  - intros y n Hy HS. destruct (AL y Hy) as [H| ->]; [exact (k_snap y n H HS)|discriminate HS].
  - intros m H. destruct (k_ack m H) as [[A1 A2] B]. split; [|exact B].
    split; [cbn [create set_top s_top]; lia|].
    intros y Hy HL. destruct (AL y Hy) as [H1| ->]; [apply A2; assumption|].
    cbn [x_key] in HL. lia.
  - intros q ex H. destruct (k_ready q ex H) as [(x & A & B)|A]; [left|right; exact A].
    exists x. split; [|exact B]. cbn [create set_top set_queues set_all s_all].
    apply in_or_app. left. exact A.
  - intros y Hy. destruct (AL y Hy) as [H| ->]; [apply k_held, H|discriminate].
Qed.

Lemma cal_step : forall c s o,
  1 <= c_bucket c -> 0 <= c_init c -> inv c (s_next s) s -> frz s ->
  cal c (s_next s) (s, []) -> bk c s -> calm s o ->
  cal c (s_next (step c s o)) (step c s o, []).
Proof.
  intros c s o HB HC HI HZ HCA HBK HO.
  pose proof (decomp_calm c s o HB HC HI HZ HCA HBK HO) as HD.
  destruct HO as [HF HO].
  pose proof (step_J c clab (fun N a => frz (fst a) /\ cal c N a)
    (fun s o => match o with
                | IReady ex => ex = true
                | IWriteDone ok st => ok = true
                | _ => True
                end)) as G.
  eapply proj2. apply G; clear G; try assumption.
  - intros N l a b HP [HA HC1] HM. split; [eapply frz_mic|eapply cal_mic]; eassumption.
  - intros N M s0 HN [HA HC1]. split; [exact HA|].
    eapply (cal_id c N M s0 s0 [] [] []); try exact HC1; try exact HN; try reflexivity;
      try constructor; try apply Z.le_refl; try apply (k_ps _ _ _ HC1); try apply (k_wr _ _ _ HC1);
      try apply (k_orc _ _ _ HC1). intros n [].
  - intros N s0 [HA HC1]. split; [destruct HA; split; assumption|destruct HC1; split; assumption].
  - intros s0 ex x -> HI0 _ Hx EX _ [HA HC1]. split; [exact (frz_open s0 true x Hx EX HA)|].
    exact (cal_open c s0 x HB HI0 Hx EX HC1).
  - intros N s0 _ [HA HC1]. split; [destruct HA; split; assumption|destruct HC1; split; assumption].
  - intros N s0 m _ HM [HA HC1]. split; [destruct HA; split; assumption|].
    eapply (cal_id c N N s0 _ [] [] []); try exact HC1; try reflexivity;
      try constructor; try apply Z.le_refl; try apply (k_ps _ _ _ HC1); try apply (k_wr _ _ _ HC1);
      try apply (k_orc _ _ _ HC1).
    + intros n [].
    + cbn. lia.
  - intros s0 k HI0 HN HT HK [HA HC1]. split; [exact (frz_create s0 k HT HA)|].
    exact (cal_create c s0 k HI0 HT HC1).
  - intros s0 x HI0 Hx HL ES [HA HC1]. split.
    + eapply (frz_same s0 _ [ESnap (x_key x)]); [exact HA|reflexivity| | | |].
      * repeat constructor.
      * apply Z.le_refl.
      * cbn [fst set_snaps emit upd set_all s_all]. reflexivity.
      * intros y. cbv beta. destruct (x_key y =? x_key x); repeat split.
    + eapply (cal_same c (s_next s0) (s_next s0) s0 _ [] [] [ESnap (x_key x)]);
        try exact HC1; try apply Z.le_refl; try reflexivity;
        try (cbn [set_snaps emit upd set_all s_all]; reflexivity);
        try apply (k_ps _ _ _ HC1); try apply (k_wr _ _ _ HC1); try apply (k_orc _ _ _ HC1).
      * repeat constructor.
      * intros y. cbv beta. destruct (x_key y =? x_key x); repeat split.
      * intros y m Hy. cbv beta. destruct (x_key y =? x_key x).
        -- intros HS. cbn in HS. injection HS as <-. reflexivity.
        -- intros HS. exact (k_snap _ _ _ HC1 y m Hy HS).
      * intros n [].
  - intros N s0 k i [HA HC1]. split.
    + eapply (frz_same s0 _ []); [exact HA|reflexivity| | | |].
      * constructor.
      * apply Z.le_refl.
      * cbn [fst upd set_all s_all]. reflexivity.
      * intros y. cbv beta. destruct (x_key y =? k); repeat split.
    + eapply (cal_same c N N s0 _ [] [] []);
        try exact HC1; try apply Z.le_refl; try reflexivity;
        try (cbn [upd set_all s_all]; reflexivity);
        try apply (k_ps _ _ _ HC1); try apply (k_wr _ _ _ HC1); try apply (k_orc _ _ _ HC1).
      * constructor.
      * intros y. cbv beta. destruct (x_key y =? k); repeat split.
      * intros y m Hy. cbv beta.
        destruct (x_key y =? k); intros HS; exact (k_snap _ _ _ HC1 y m Hy HS).
      * intros n [].
  - intros N s0 i [HA HC1]. split.
    + eapply (frz_same s0 _ []); [exact HA|reflexivity| | | |].
      * constructor.
      * apply Z.le_refl.
      * cbn [fst unlock set_all s_all]. reflexivity.
      * intros y. repeat split.
    + eapply (cal_same c N N s0 _ [] [] []);
        try exact HC1; try apply Z.le_refl; try reflexivity;
        try (cbn [unlock set_all s_all]; reflexivity);
        try apply (k_ps _ _ _ HC1); try apply (k_wr _ _ _ HC1); try apply (k_orc _ _ _ HC1).
      * constructor.
      * intros y. repeat split.
      * intros y m Hy HS. exact (k_snap _ _ _ HC1 y m Hy HS).
      * intros n [].
  - intros N s0 f fr ok stored -> HI0 EW EF _ [HA HC1].
    split; [exact (frz_ended s0 f fr true stored HA)|].
    exact (cal_done c N s0 f fr stored HI0 EW EF HC1).
  - intros s0 [HA HC1]. split; [destruct HA; split; assumption|destruct HC1; split; assumption].
  - destruct o; try exact I; assumption.
  - split; assumption.
Qed.

Lemma bk_same : forall c s s' L,
  s_bucket s' = s_bucket s -> s_next s' = s_next s -> s_out s' = L ++ s_out s ->
  bk c s -> bk c s'.
Proof.
  intros c s s' L E1 E2 E3 H b Hb. rewrite E1 in Hb. rewrite E2, E3.
  destruct (H b Hb) as [A (ex & B)]. split; [exact A|]. exists ex. apply in_or_app. right. exact B.
Qed.

Lemma bk_step : forall c s o,
  1 <= c_bucket c -> 0 <= c_init c -> inv c (s_next s) s -> frz s ->
  cal c (s_next s) (s, []) -> bk c s -> calm s o -> bk c (step c s o).
Proof.
  intros c s o HB HC HI HZ HCA HBK HO.
  destruct (step_free c s o HB HC HI HZ (proj1 HO)) as (L & EL & _).
  destruct HO as [[HE HF] HO]. destruct o; cbn [step] in *.
  - eapply bk_same; [| |exact EL|exact HBK]; reflexivity.
  - eapply bk_same; [| |exact EL|exact HBK]; unfold create_snap;
      destruct (last_idx (s_all s)) as [x|]; try reflexivity;
      destruct (x_bad x); try reflexivity; destruct (x_snap x); try reflexivity;
      destruct ok; reflexivity.
  - cbn in HO. subst ex.
    destruct (ready_calm c s HB HC HI HZ HCA HBK) as [E|(s' & A & B & _ & _ & M & D)].
    + rewrite E. eapply (bk_same c s _ []); try reflexivity. exact HBK.
    + rewrite A. intros b Hb. cbn [set_next s_bucket s_next s_out] in *.
      split; [exact (D b Hb)|]. exists true.
      destruct (mics_out _ _ _ _ _ M) as (L1 & E1 & _). cbn [fst] in E1. rewrite E1.
      apply in_or_app. right. left. f_equal. lia.
  - destruct HF as (x & Hx & Hb).
    destruct (media_done_ok c (s_next s) false s b ok HB HI (v_cw _ _ _ HI x b Hx Hb))
      as (_ & A & _ & _ & B & _).
    eapply bk_same; [exact B|exact A|exact EL|exact HBK].
  - eapply bk_same; [| |exact EL|exact HBK]; reflexivity.
  - eapply bk_same; [| |exact EL|exact HBK]; reflexivity.
  - destruct (write_done_ok c (s_next s) s ok stored HI HF)
      as (_ & _ & _ & _ & _ & A & _ & _ & B).
    eapply bk_same; [exact B|exact A|exact EL|exact HBK].
  - destruct HO.
  - pose proof (set_min_inv c (s_next s) s m HI (proj1 HF)) as I1.
    destruct (free_below_ok c (s_next s) m (map x_key (s_all s)) (set_min s m) I1) as (_ & A & _ & _ & B & _).
    + apply ss_nodup, (v_sort _ _ _ HI).
    + intros k Hk. exact Hk.
    + eapply bk_same; [exact B|exact A|exact EL|exact HBK].
  - eapply bk_same; [| |exact EL|exact HBK]; reflexivity.
  - destruct (inactive_calm c s HB HI HCA HBK) as (s' & A & _ & B & _). rewrite A.
    intros b Hb. cbn [set_next s_bucket] in Hb. congruence.
  - destruct HF.
Qed.

Lemma reach_cal : forall c s,
  sane c -> c_init c < 4294967295 -> reach_calm c s ->
  cal c (s_next s) (s, []) /\ bk c s.
Proof.
  intros c s HS HM HR. induction HR as [|s o HR IH HF].
  - split.
    + split; try (intros; discriminate); try (intros; contradiction). reflexivity.
    + intros b Hb. discriminate Hb.
  - pose proof (calm_reach c s HR) as HR'.
    pose proof (reach_inv c s HS HM HR') as HI. pose proof (reach_frz c s HS HM HR') as HZ.
    destruct IH as [IH1 IH2]. destruct HS as (HB & _ & _ & HC). split.
    + exact (cal_step c s o HB HC HI HZ IH1 IH2 HF).
    + exact (bk_step c s o HB HC HI HZ IH1 IH2 HF).
Qed.

(* What is acknowledged. *)
Lemma calm_acked : forall c s m,
  sane c -> c_init c < 4294967295 -> reach_calm c s -> In (EAck m) (s_out s) ->
  (forall k ex, In (EReady k ex) (s_out s) -> k <= m -> In (EMedia k) (s_out s)) /\
  (m < s_min s \/ exists f, In (EStored f) (s_out s) /\ fi_max f = m).
Proof.
  intros c s m HS HM HR HA. destruct (reach_cal c s HS HM HR) as [HC _].
  destruct (k_ack _ _ _ HC m HA) as [[A1 A2] B]. split; [|exact B].
  intros k ex Hk HL. destruct (k_ready _ _ _ HC k ex Hk) as [(x & Hx & EX & EP & _)|A]; [|exact A].
  destruct (A2 x Hx ltac:(lia) EP).
Qed.

(* ------------------------------------------------------------------ *)
(* Changes of the past                                                  *)

Definition idx_wr (s : st) : option file :=
  match s_wr s with
  | Some f => if fi_delta f then None else Some f
  | None => None
  end.

Record hst (N : Z) (s : st) : Prop := {
  h_n : 1 <= N;
  h_orc : s_orc s = [];
  h_wr : forall f, s_wr s = Some f -> fi_delta f = true ->
    exists i, s_index s = Some i /\ fi_hv i = fi_hv f;
  h_0 : s_hist s = 0 ->
    match idx_wr s with
    | Some f => fi_hv f = s_hv s
    | None => forall i, s_index s = Some i -> fi_hv i = s_hv s
    end;
  h_st : forall f, last_stored (s_out s) = Some f ->
    exists i, s_index s = Some i /\ fi_hv i = fi_hv f
}.

Lemma hst_same : forall N M s s' L,
  hst N s -> N <= M -> s_out s' = L ++ s_out s -> Forall nost L ->
  s_orc s' = s_orc s -> s_wr s' = s_wr s -> s_index s' = s_index s ->
  s_hist s' = s_hist s -> s_hv s' = s_hv s -> hst M s'.
Proof.
  intros N M s s' L [] HN E HL E1 E2 E3 E4 E5. unfold idx_wr in *.
  split; unfold idx_wr; rewrite ?E1, ?E2, ?E3, ?E4, ?E5; try assumption; [lia|].
  rewrite E, last_stored_app by exact HL. assumption.
Qed.

Lemma close_write_hist : forall c s n,
  s_orc s = [] ->
  s_orc (close_write c s n) = [] /\
  ((s_wr (close_write c s n) = s_wr s /\ s_hist (close_write c s n) = s_hist s /\
    exists L, s_out (close_write c s n) = L ++ s_out s /\ Forall nost L) \/
   new_write c s (close_write c s n) n).
Proof.
  intros c s n HO. unfold close_write, new_write.
  destruct (s_wr s) as [f|] eqn:EW.
  - destruct (s_psnap s) as [p|].
    + unfold close_free, frames_drop, frames_free. split.
      * cbn [emit s_snaps]; destruct (_ <=? 0); exact HO.
      * left. split; [cbn [emit s_snaps]; destruct (_ <=? 0); exact EW|].
        split; [cbn [emit s_snaps]; destruct (_ <=? 0); reflexivity|].
        exists [EDrop (sn_fr p)].
        split; [cbn [emit s_snaps]; destruct (_ <=? 0); reflexivity|repeat constructor].
    + split; [exact HO|]. left. split; [exact EW|]. split; [reflexivity|].
      exists []. split; [reflexivity|constructor].
  - destruct (sn_max n <? s_min s) eqn:EM.
    + split; [unfold frames_ack, frames_free; destruct (_ <=? 0); exact HO|]. left.
      split; [unfold frames_ack, frames_free; destruct (_ <=? 0); exact EW|].
      split; [unfold frames_ack, frames_free; destruct (_ <=? 0); reflexivity|].
      exists [EAck (sn_fr n)]. rewrite out_ack. split; [reflexivity|repeat constructor].
    + set (f := scope_of c s (sn_max n)).
      set (s1 := if fi_delta f then s else _).
      assert (E : s_out s1 = s_out s /\ s_psnap s1 = s_psnap s /\ s_orc s1 = s_orc s /\
        s_hist s1 = (if fi_delta f then s_hist s
               else if s_hist s <=? sn_max n then 0 else s_hist s)).
      { unfold s1. destruct (fi_delta f); [|destruct (_ <=? _)]; repeat split. }
      destruct E as (E2 & E3 & E4 & E5). unfold pop. rewrite E4, HO.
      split; [cbn; rewrite E4; exact HO|]. right. split; [reflexivity|]. split; [lia|].
      cbn. rewrite E2. repeat split; [exact E3|exact E5].
Qed.

Lemma hst_mic : forall c N l a b,
  1 <= c_init c -> clab l -> rst c (fst a) -> hst N (fst a) -> mic c N l a b -> hst N (fst b).
Proof.
  intros c N l a b HC HP HR HJ HM. destruct (mic_out _ _ _ _ _ HM) as (L & E & HL).
  pose proof (nost_ev _ _ HL) as HN. clear HL. pose proof (h_orc _ _ HJ) as HO.
  destruct HM; cbn [fst clab] in *; try contradiction;
    try (eapply hst_same; [exact HJ|apply Z.le_refl|exact E|exact HN|reflexivity|reflexivity|
         reflexivity|reflexivity|reflexivity]).
  - destruct H as (p & d & b & o & -> & HQ).
    eapply hst_same; [exact HJ|apply Z.le_refl|exact E|exact HN| |reflexivity|
         reflexivity|reflexivity|reflexivity].
    cbn. rewrite HO. apply HQ, HO.
  - assert (V : forall (P : st -> Prop), P (emit s (EDrop (sn_fr n))) ->
      P (set_snaps (emit s (EDrop (sn_fr n))) (s_snaps s - 1)) -> P (close_free s n)).
    { intros P H1 H2. unfold close_free, frames_drop, frames_free. destruct (_ <=? 0); assumption. }
    revert E. apply V; intros E; eapply hst_same; try exact HJ; try exact E; try exact HN;
      try apply Z.le_refl; reflexivity.
  - destruct (close_write_view c s n eq_refl) as (_ & _ & A3 & _ & _ & A6).
    destruct (close_write_hist c s n HO) as [O1 [(B1 & B2 & _)|(W1 & W2 & W3 & W4 & W5 & W6 & W7)]].
    + eapply hst_same; [exact HJ|apply Z.le_refl|exact E|exact HN|congruence|exact B1|exact A3|
        exact B2|exact A6].
    + pose proof (scope_ok c s n HC HR H0 W2) as SC. cbv zeta in SC, W3, W4, W7.
      set (f := scope_of c s (sn_max n)) in *. destruct SC as (SM & SH & SD).
      destruct HJ as [J1 J2 J3 J4 J5]. unfold idx_wr in *. rewrite W1 in J4.
      split; unfold idx_wr; rewrite ?O1, ?A3, ?A6, ?W3, ?W4, ?W7; cbn [last_stored];
        try assumption; try reflexivity.
      * intros g Hg HD. injection Hg as <-. rewrite HD in SD. destruct SD as (S1 & S2 & _).
        destruct (s_index s) as [i|]; [|congruence]. exists i. split; [reflexivity|].
        rewrite SH. apply J4; [exact S1|reflexivity].
      * destruct (fi_delta f); [exact J4|]. intros _. exact SH.
Qed.

Lemma hst_done : forall c N s f fr stored,
  s_wr s = Some f -> rst c s -> hst N s -> hst N (ended s f fr true stored).
Proof.
  intros c N s f fr stored EW HR [J1 J2 J3 J4 J5].
  pose proof (ended_out s f fr true stored) as EO. cbn [app] in EO.
  assert (V : s_orc (ended s f fr true stored) = s_orc s /\
    s_index (ended s f fr true stored) = (if fi_delta f then s_index s else Some f) /\
    s_wr (ended s f fr true stored) = None /\
    s_hist (ended s f fr true stored) = s_hist s /\ s_hv (ended s f fr true stored) = s_hv s).
  { unfold ended, frames_ack, frames_free. destruct (_ <=? 0), (fi_delta f); repeat split. }
  destruct V as (V1 & V2 & V3 & V4 & V5). unfold idx_wr in *. rewrite EW in J4.
  split; unfold idx_wr; rewrite ?V1, ?V2, ?V3, ?V4, ?V5, ?EO; cbn [last_stored]; try assumption.
  - discriminate.
  - intros H0. specialize (J4 H0). destruct (fi_delta f); [exact J4|].
    intros i Hi. injection Hi as <-. exact J4.
  - intros g Hg. injection Hg as <-. destruct (fi_delta f) eqn:ED.
    + exact (J3 f EW ED).
    + exists f. split; reflexivity.
Qed.

Ltac hsame N s0 L := eapply (hst_same N _ s0 _ L);
  [eassumption|lia|reflexivity|repeat constructor|reflexivity|reflexivity|
   reflexivity|reflexivity|reflexivity].

Lemma hst_step : forall c s o,
  1 <= c_bucket c -> 1 <= c_init c -> inv c (s_next s) s -> calm s o ->
  decomp c clab s o ->
  rst c s -> hst (s_next s) s -> hst (s_next (step c s o)) (step c s o).
Proof.
  intros c s o HB HC HI [HF HO] HD HR HJ.
  pose proof (step_J c clab (fun N a => rst c (fst a) /\ hst N (fst a))
    (fun s o => match o with IWriteDone ok st => ok = true | _ => True end)) as G.
  change (hst (s_next (step c s o)) (fst (step c s o, @nil isnap))).
  eapply proj2. apply G; clear G; try assumption.
  - lia.
  - intros N l a b HP [HA HB1] HM. split; [eapply rst_mic|eapply hst_mic]; eassumption.
  - intros N M s0 HN [HA HB1]. cbn [fst] in *. split; [exact HA|]. hsame N s0 (@nil ev).
  - intros N s0 [HA HB1]. cbn [fst] in *. split; [rsame s0 (@nil ev)|hsame N s0 (@nil ev)].
  - intros s0 ex x _ _ _ _ _ _ [HA HB1]. cbn [fst] in *.
    split; [rsame s0 [EReady (s_next s0) ex]|hsame (s_next s0) s0 [EReady (s_next s0) ex]].
  - intros N s0 _ [HA HB1]. cbn [fst] in *. split; [rsame s0 (@nil ev)|hsame N s0 (@nil ev)].
  - intros N s0 m _ HM [HA HB1]. cbn [fst] in *. split; [rsame s0 (@nil ev)|hsame N s0 (@nil ev)].
  - intros s0 k _ _ _ HK [HA HB1]. cbn [fst] in *.
    split; [rsame s0 (@nil ev)|hsame (s_next s0) s0 (@nil ev)].
  - intros s0 x HI0 Hx HL ES [HA HB1]. cbn [fst] in *.
    split; [rsame s0 [ESnap (x_key x)]|hsame (s_next s0) s0 [ESnap (x_key x)]].
  - intros N s0 k i [HA HB1]. cbn [fst] in *. split; [rsame s0 (@nil ev)|hsame N s0 (@nil ev)].
  - intros N s0 i [HA HB1]. cbn [fst] in *. split; [rsame s0 (@nil ev)|hsame N s0 (@nil ev)].
  - intros N s0 f fr ok stored -> _ EW EF _ [HA HB1]. cbn [fst] in *. split.
    + apply rst_ended; try assumption. discriminate.
    + eapply hst_done; eassumption.
  - intros s0 [HA HB1]. cbn [fst] in *. split; [rsame s0 (@nil ev)|].
    destruct HB1 as [J1 J2 J3 J4 J5]. split; try assumption.
    cbn [history_changed set_hist s_hist]. lia.
  - destruct o; try exact I; assumption.
  - split; assumption.
Qed.

Lemma reach_hst : forall c s,
  sane c -> 1 <= c_init c < 4294967295 -> reach_calm c s -> hst (s_next s) s.
Proof.
  intros c s HS HM HR. induction HR as [|s o HR IH HF].
  - split; try (intros; discriminate); try reflexivity. cbn. lia.
  - pose proof (calm_reach c s HR) as HR'.
    pose proof (reach_inv c s HS (proj2 HM) HR') as HI.
    pose proof (reach_frz c s HS (proj2 HM) HR') as HZ.
    pose proof (reach_rst c s HS HM (calm_honest c s HR)) as HT.
    destruct (reach_cal c s HS (proj2 HM) HR) as [H1 H2].
    destruct HS as (HB & _ & _ & HC).
    apply hst_step; try assumption; [lia|]. exact (decomp_calm c s o HB HC HI HZ H1 H2 HF).
Qed.
