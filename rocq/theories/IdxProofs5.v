(* Proofs about the segment index: the small steps of the operations. *)

From Coq Require Import ZArith List Bool Lia ZifyBool Sorted.
From Verif Require Import IdxModel IdxSpec IdxProofs IdxProofs2 IdxProofs3 IdxProofs4.
Import ListNotations.
Open Scope Z_scope.

(* The writes of media files that are started, or not. *)
Definition writes (F : Z -> Prop) (L : list ev) (l : lab) : Prop :=
  match l with
  | LFree k p => freed_ok F L k p
  | LCut _ | LAll => False
  | _ => True
  end.

Lemma freed_mono : forall F L L' k p, incl L L' -> freed_ok F L k p -> freed_ok F L' k p.
Proof.
  intros F L L' k p HL (A & B & C). split; [exact A|]. split; [exact B|].
  destruct C as [C|[C|(t & C & D)]]; [left; exact C|right; left; exact C|].
  right. right. exists t. split; [exact C|apply HL; exact D].
Qed.

Lemma freed_imp : forall (F G : Z -> Prop) L k p,
  (F k -> G k) -> freed_ok F L k p -> freed_ok G L k p.
Proof.
  intros F G L k p HF (A & B & C). split; [exact A|]. split; [apply HF; exact B|exact C].
Qed.

Lemma writes_mono : forall F, mono (writes F).
Proof.
  intros F L L' l HL H. destruct l; cbn [writes] in *; try exact H.
  eapply freed_mono; eassumption.
Qed.

Lemma pers_writes : forall F ok L l, pers F ok L l -> writes F L l.
Proof. intros F ok L l H. destruct l; cbn [pers writes] in *; try exact I; exact H. Qed.

Lemma media_done_run : forall c N nf s b ok e,
  1 <= c_bucket c -> 0 <= c_init c -> inv c N s -> b * c_bucket c + c_bucket c <= N ->
  run c N (pers (fun k => nf = false /\ older c s k) ok) (s, e) (media_done c nf s b ok, e).
Proof.
  intros c N nf s b ok e HB HC HI HN. unfold media_done.
  eapply run_app; [apply pers_mono| |].
  - apply run_all. intros L. eapply mics_one; [|apply (m_end c N s e b)]. exact I.
  - exact (persisted_run c N nf (unlock (is_cw b) s) b ok e HB HC
      (shrinks_inv _ _ _ _ (unlock_shrinks c N s (is_cw b) HI) HI) HN).
Qed.

Lemma write_file_run : forall c N s b e,
  1 <= c_bucket c -> 0 <= c_init c -> inv c N s -> b * c_bucket c + c_bucket c <= N ->
  run c N (writes (older c s)) (s, e) (write_file c s b, e).
Proof.
  intros c N s b e HB HC HI HN. unfold write_file.
  pose proof (pop_quiet s) as Q. pose proof (soft_pop s) as S.
  destruct (pop s) as [go s1]. cbn [snd] in Q, S.
  eapply run_app; [apply writes_mono| |].
  { apply run_all. intros L. eapply quiet_mics; [exact I|exact Q]. }
  pose proof (soft_inv _ _ _ _ S HI) as I1.
  assert (P : run c N (writes (older c s)) (s1, e)
    (persisted c false s1 (b * c_bucket c) (b * c_bucket c + c_bucket c) false, e)).
  { eapply run_imp; [|apply (persisted_run c N false s1 b false e HB HC I1 HN)].
    intros L l Hl. apply pers_writes in Hl.
    destruct l; cbn [writes] in *; try exact Hl.
    eapply freed_imp; [|exact Hl]. intros [_ (l & E & LE)]. exists l.
    rewrite (f_last _ _ S) in E. split; assumption. }
  destruct (media_holder _ _ (s_all s1)) as [k|]; [|exact P].
  destruct go; [|exact P].
  apply run_all. intros L. eapply mics_one; [|apply (m_lock c N s1 e k b)]. exact I.
Qed.

Lemma segment_created_run : forall c s ex e,
  1 <= c_bucket c -> 0 <= c_init c -> inv c (s_next s + 1) s ->
  (forall b, s_bucket s = Some b -> b * c_bucket c < s_next s) ->
  run c (s_next s + 1) (writes (older c s)) (s, e) (segment_created c s ex, e).
Proof.
  intros c s ex e HB HC HI HBK. unfold segment_created.
  set (k := s_next s) in *. set (b := k / c_bucket c).
  assert (HKB : b * c_bucket c <= k < b * c_bucket c + c_bucket c).
  { apply bucket_of; [exact HB|reflexivity]. }
  set (s1 := match s_bucket s with
             | Some l => if l =? b then s else set_bucket (write_file c s l) None
             | None => s
             end).
  assert (H1 : inv c (k + 1) s1 /\ s_last s1 = s_last s /\
    run c (k + 1) (writes (older c s)) (s, e) (s1, e)).
  { unfold s1. destruct (s_bucket s) as [l|] eqn:EB.
    2:{ split; [exact HI|]. split; [reflexivity|apply run_nil]. }
    destruct (l =? b) eqn:E.
    { split; [exact HI|]. split; [reflexivity|apply run_nil]. }
    specialize (HBK l eq_refl).
    assert (l < b) by nia.
    assert (HLB : l * c_bucket c + c_bucket c <= k + 1) by nia.
    destruct (write_file_ok c (k + 1) s l HB HI HLB) as (A & _ & _ & _ & _ & B & _).
    split; [apply set_bucket_inv; [exact A|discriminate]|].
    split; [exact B|]. eapply run_app; [apply writes_mono| |].
    - exact (write_file_run c (k + 1) s l e HB HC HI HLB).
    - apply run_all. intros L. eapply quiet_mics; [exact I|apply bucket_quiet]. }
  destruct H1 as (I1 & EL & R1).
  destruct (negb ((k + 1) mod c_bucket c =? 0)) eqn:EM.
  - destruct ex; [|exact R1]. eapply run_app; [apply writes_mono|exact R1|].
    apply run_all. intros L. eapply quiet_mics; [exact I|apply bucket_quiet].
  - assert (HE : b * c_bucket c + c_bucket c <= k + 1).
    { assert (EZ : (k + 1) mod c_bucket c = 0) by lia.
      pose proof (Z.div_mod (k + 1) (c_bucket c) ltac:(lia)) as DM. rewrite EZ in DM.
      assert ((k + 1) / c_bucket c = b + 1); [|nia].
      assert (b < (k + 1) / c_bucket c) by nia. nia. }
    assert (W : run c (k + 1) (writes (older c s)) (s, e)
      (set_bucket (write_file c s1 b) None, e)).
    { eapply run_app; [apply writes_mono|exact R1|].
      eapply run_app; [apply writes_mono| |].
      - eapply run_imp; [|apply (write_file_run c (k + 1) s1 b e HB HC I1 HE)].
        intros L l Hl. destruct l; cbn [writes] in *; try exact Hl.
        eapply freed_imp; [|exact Hl]. intros (l & E & LE). exists l.
        rewrite EL in E. split; assumption.
      - apply run_all. intros L. eapply quiet_mics; [exact I|apply bucket_quiet]. }
    destruct (s_bucket s1); [exact W|]. destruct ex; [exact W|exact R1].
Qed.

(* A cleanup. *)
Definition cleans (L : list ev) (l : lab) : Prop :=
  match l with LFree _ _ | LAll | LLock _ _ => False | _ => True end.

Lemma cleans_mono : mono cleans.
Proof. intros L L' l _ H. exact H. Qed.

Lemma cleanup_run : forall c N l s e,
  1 <= c_bucket c -> 0 <= c_init c -> inv c N s ->
  (forall b, In (CWrite b) l -> b * c_bucket c + c_bucket c <= N) ->
  run c N cleans (s, e) (cleanup c l s, e).
Proof.
  intros c N. induction l as [|a l IH]; intros s e HB HC HI HL; cbn [cleanup].
  - apply run_nil.
  - destruct a as [i|b].
    + eapply run_app; [apply cleans_mono| |].
      * apply run_all. intros L. eapply mics_one; [|apply (m_cut c N s e i)]. exact I.
      * apply IH; try assumption.
        -- eapply soft_inv; [apply soft_emit; discriminate|].
           eapply shrinks_inv; [apply (unlock_shrinks c N s (is_cr i) HI)|exact HI].
        -- intros b Hb. apply HL. right. exact Hb.
    + pose proof (HL b (or_introl eq_refl)) as Hb.
      destruct (media_done_ok c N true s b false HB HI Hb) as [A1 _].
      eapply run_app; [apply cleans_mono| |].
      * eapply run_imp; [|apply (media_done_run c N true s b false e HB HC HI Hb)].
        intros L l' Hl. destruct l'; cbn [pers cleans] in *; try exact I; try exact Hl.
        destruct Hl as (_ & [E _] & _). discriminate E.
      * apply IH; try assumption. intros d Hd. apply HL. right. exact Hd.
Qed.

(* Memory is short. *)
Definition wmark (n : Z) (L : list ev) (l : lab) : Prop :=
  match l with
  | LFree k p => k < n /\ (p = POk \/ k <= 0 \/ exists t, k <= t /\ In (ETrunc t) L)
  | LAll | LLock _ _ => False
  | _ => True
  end.

Lemma wmark_mono : forall n, mono (wmark n).
Proof.
  intros n L L' l HL H. destruct l; cbn [wmark] in *; try exact H.
  destruct H as (A & C). split; [exact A|].
  destruct C as [C|[C|(t & C & D)]]; [left; exact C|right; left; exact C|].
  right. right. exists t. split; [exact C|apply HL; exact D].
Qed.

Definition wloop (n T : Z) (l : lab) : Prop :=
  match l with
  | LFree k p => k < n /\ (p = POk \/ k <= T)
  | LAll | LLock _ _ => False
  | _ => True
  end.

Lemma watermark_loop_mics : forall c N ks s t e,
  1 <= c_bucket c -> 0 <= c_init c -> inv c N s -> StronglySorted Z.lt ks ->
  (forall k, In k ks -> In k (map x_key (s_all s))) -> (forall k, In k ks -> t <= k) ->
  s_next s <= N ->
  t <= snd (watermark_loop c ks s t) /\
  mics c N (wloop (s_next s) (snd (watermark_loop c ks s t))) (s, e)
    (fst (watermark_loop c ks s t), e).
Proof.
  intros c N. induction ks as [|k r IH]; intros s t e HB HC HI HS HK HT HN; cbn [watermark_loop].
  - split; [cbn [snd]; lia|constructor].
  - pose proof (pop_quiet s) as Q. pose proof (soft_pop s) as S.
    destruct (pop s) as [low s1]. cbn [snd] in Q, S.
    pose proof (soft_inv _ _ _ _ S HI) as I1.
    pose proof (f_next _ _ S) as EN1.
    assert (MQ : forall P : lab -> Prop, P LQuiet -> mics c N P (s, e) (s1, e)).
    { intros P HP. apply quiet_mics; assumption. }
    destruct (negb low); [split; [cbn [snd]; lia|apply MQ; exact I]|].
    destruct (s_next s1 <=? k) eqn:EK; [split; [cbn [snd]; lia|apply MQ; exact I]|].
    assert (HK1 : forall a, In a (k :: r) -> In a (map x_key (s_all s1))).
    { intros a Ha. rewrite (f_all _ _ S). apply HK. exact Ha. }
    clear HK. pose proof (HK1 k (or_introl eq_refl)) as Hk.
    destruct (find k (s_all s1)) as [x|] eqn:EF.
    2:{ exfalso. apply in_map_iff in Hk. destruct Hk as (y & E & Hy).
        eapply find_none; [exact EF|exact Hy|exact E]. }
    apply find_some in EF. destruct EF as [Hx EX].
    assert (HCL : forall b, In (CWrite b) (x_cln x) -> b * c_bucket c + c_bucket c <= N).
    { intros b Hb. exact (v_cw _ _ _ I1 x b Hx Hb). }
    destruct (cleanup_ok c N (x_cln x) s1 HB I1 HCL) as [I2 R2].
    pose proof (cleanup_keys c N (x_cln x) s1 HB I1 HCL) as EK2.
    destruct (cleanup_run c N (x_cln x) s1 e HB HC I1 HCL) as (L2 & _ & M2).
    set (s2 := cleanup c (x_cln x) s1) in *.
    destruct R2 as (EN2 & _).
    assert (HK2 : forall a, In a (k :: r) -> In a (map x_key (s_all s2))).
    { intros a Ha. rewrite EK2. apply HK1. exact Ha. }
    assert (M02 : forall T, mics c N (wloop (s_next s) T) (s, e) (s2, e)).
    { intros T. eapply mics_app; [apply MQ; exact I|]. eapply mics_imp; [|exact M2].
      intros l Hl. destruct l; cbn [cleans wloop] in *; try exact I; contradiction. }
    destruct (find k (s_all s2)) as [y|] eqn:EF2.
    2:{ exfalso. specialize (HK2 k (or_introl eq_refl)). apply in_map_iff in HK2.
        destruct HK2 as (y & E & Hy). eapply find_none; [exact EF2|exact Hy|exact E]. }
    apply find_some in EF2. destruct EF2 as [Hy EY].
    destruct (x_cln y); [|split; [cbn [snd]; lia|apply M02]].
    pose proof (free_idx_ok c N false s2 t k I2 (HK2 k (or_introl eq_refl))) as HOK.
    pose proof (free_idx_rest c N false s2 t k I2) as R3.
    destruct (free_idx_mics c N s2 t y e I2 Hy ltac:(lia)) as (M3 & T3 & _).
    rewrite EY in M3, T3.
    destruct (free_idx false s2 t k) as [s3 t3]. cbn [fst snd] in R3, M3, T3.
    destruct HOK as (I3 & F3 & L3 & K3). destruct R3 as (EN3 & _).
    inversion HS as [|a0 l0 HS' HF]. subst a0 l0. rewrite Forall_forall in HF.
    assert (HT0 : t <= k) by (apply HT; left; reflexivity).
    destruct (IH s3 t3 e HB HC I3 HS') as [T4 M4].
    { intros a Ha. apply K3; [apply HK2; right; exact Ha|]. specialize (HF a Ha). lia. }
    { intros a Ha. specialize (HF a Ha). specialize (HT a (or_intror Ha)).
      rewrite T3. destruct (x_free y); [exact HT|]. destruct (is_ok (x_per y)); lia. }
    { lia. }
    destruct (watermark_loop c r s3 t3) as [s4 t4]. cbn [fst snd] in *.
    split.
    + rewrite T3 in T4. destruct (x_free y); [exact T4|]. destruct (is_ok (x_per y)); lia.
    + eapply mics_app; [apply M02|]. eapply mics_app.
      * eapply mics_imp; [|exact M3].
        intros l Hl. destruct l; cbn [frees wloop] in *; try exact I; try contradiction.
        destruct Hl as (-> & -> & EFX). split; [lia|]. rewrite EFX in T3.
        destruct (x_per y); cbn [is_ok] in T3; [right|left; reflexivity|right]; lia.
      * replace (s_next s) with (s_next s3) by lia. exact M4.
Qed.

Lemma watermark_run : forall c N s e,
  1 <= c_bucket c -> 0 <= c_init c -> inv c N s -> s_next s <= N ->
  run c N (wmark (s_next s)) (s, e) (watermark c s, e).
Proof.
  intros c N s e HB HC HI HN. unfold watermark.
  destruct (watermark_loop_mics c N (map x_key (s_all s)) s 0 e HB HC HI
    (v_sort _ _ _ HI) (fun k Hk => Hk)) as [T M].
  { intros k Hk. apply in_map_iff in Hk. destruct Hk as (x & <- & Hx).
    pose proof (v_top _ _ _ HI x Hx). lia. }
  { exact HN. }
  destruct (watermark_loop c (map x_key (s_all s)) s 0) as [s1 t]. cbn [fst snd] in *.
  destruct (mics_out _ _ _ _ _ M) as (L & E & _). cbn [fst] in E.
  unfold truncate. destruct (t =? 0) eqn:ET.
  - exists L. split; [exact E|]. eapply mics_imp; [|exact M].
    intros l Hl. destruct l; cbn [wloop wmark] in *; try exact Hl.
    destruct Hl as (A & [B|B]); (split; [exact A|]); [left; exact B|right; left; lia].
  - exists (ETrunc t :: L). split; [cbn [emit s_out fst app]; rewrite E; reflexivity|].
    eapply mics_app.
    + eapply mics_imp; [|exact M].
      intros l Hl. destruct l; cbn [wloop wmark] in *; try exact Hl.
      destruct Hl as (A & [B|B]); (split; [exact A|]); [left; exact B|].
      right. right. exists t. split; [exact B|left; reflexivity].
    + eapply mics_one; [|apply m_trunc]. exact I.
Qed.

(* Segments leave the timelines. *)
Definition below (m : Z) (l : lab) : Prop :=
  match l with
  | LFree k _ => k < m
  | LTake _ _ | LAck _ | LRemove _ => True
  | _ => False
  end.

Lemma free_below_mics : forall c N m ks s e,
  inv c N s -> NoDup ks -> (forall k, In k ks -> In k (map x_key (s_all s))) -> m <= N ->
  mics c N (below m) (s, e) (free_below m ks s, e).
Proof.
  intros c N m. induction ks as [|k r IH]; intros s e HI HN HK HM; cbn [free_below].
  - constructor.
  - destruct (m <=? k) eqn:EM; [constructor|].
    pose proof (HK k (or_introl eq_refl)) as Hk. apply in_map_iff in Hk.
    destruct Hk as (x & EX & Hx).
    pose proof (free_idx_ok c N false s 0 k HI (HK k (or_introl eq_refl))) as H.
    destruct (free_idx_mics c N s 0 x e HI Hx ltac:(lia)) as (M1 & _ & _). rewrite EX in M1.
    destruct (free_idx false s 0 k) as [s1 t1]. cbn [fst] in M1 |- *.
    destruct H as (I1 & F1 & L1 & K1).
    inversion HN as [|a0 l0 HN1 HN2]. subst a0 l0.
    eapply mics_app.
    + eapply mics_imp; [|exact M1].
      intros l Hl. destruct l; cbn [frees below] in *; try exact I; try contradiction. lia.
    + apply IH; try assumption.
      intros a Ha. apply K1; [apply HK; right; exact Ha|]. intros ->. apply HN1. exact Ha.
Qed.

(* A segment is closed. *)
Definition rdy (F : Z -> Prop) (k : Z) (ex : bool) (L : list ev) (l : lab) : Prop :=
  match l with
  | LFree a p => (ex = false /\ a = k) \/ freed_ok F L a p
  | LCut _ => False
  | _ => True
  end.

Lemma rdy_mono : forall F k ex, mono (rdy F k ex).
Proof.
  intros F k ex L L' l HL H. destruct l; cbn [rdy] in *; try exact H.
  destruct H as [H|H]; [left; exact H|right]. eapply freed_mono; eassumption.
Qed.

(* Nothing that need not be in memory is in memory. *)
Definition tidy (c : conf) (s : st) : Prop :=
  forall x, In x (s_all s) -> x_per x <> PNone -> older c s (x_key x) -> x_free x = true.

Lemma finish_view : forall c N s s2 s3 hi ok snap prev ks y,
  inv c N s2 -> inv c N s3 -> fewer s2 s3 ->
  (forall a, In a (s_pend s2) -> In a (map x_key (s_all s3))) ->
  (forall n, snap = Some n -> in_hand s s2 ks prev n) ->
  In y (s_all (finish c s3 hi ok snap prev)) ->
  exists x, In x (s_all s3) /\ x_key y = x_key x /\ x_per y = x_per x /\ x_free y = x_free x.
Proof.
  intros c N s s2 s3 hi ok snap prev ks y I2 I3 FW HP HH. unfold finish.
  assert (ID : In y (s_all s3) -> exists x, In x (s_all s3) /\ x_key y = x_key x /\
    x_per y = x_per x /\ x_free y = x_free x).
  { intros Hy. exists y. repeat split; exact Hy. }
  destruct snap as [n|]; [|exact ID]. specialize (HH n eq_refl).
  destruct (negb ok && negb (hi <=? sn_max n)).
  { rewrite (f_all _ _ (soft_close_ack c N s3 n I3)). exact ID. }
  destruct prev as [k|].
  - destruct (find k (s_all s3)) as [z|] eqn:EF; [|exact ID].
    apply find_some in EF. destruct EF as [Hz EZ]. rewrite (v_bad _ _ _ I3 z Hz).
    intros Hy. rewrite upd_all in Hy. apply in_map_iff in Hy. destruct Hy as (w & EW & Hw).
    assert (Hw3 : In w (s_all s3)).
    { destruct (x_snap z) as [m|]; [|exact Hw].
      rewrite (f_all _ _ (soft_close_free s3 m)) in Hw. exact Hw. }
    exists w. split; [exact Hw3|]. rewrite <- EW. destruct (x_key w =? k); repeat split.
  - destruct HH as (_ & HFIT).
    destruct (close_write_ok c N s3 n I3 (fit_snap_fewer _ _ _ FW HFIT)) as [_ (B & _)].
    rewrite B. exact ID.
Qed.

Lemma persisted_tidy : forall c N s b ok,
  1 <= c_bucket c -> 0 <= c_init c -> inv c N s -> b * c_bucket c + c_bucket c <= N ->
  tidy c s -> tidy c (persisted c false s (b * c_bucket c) (b * c_bucket c + c_bucket c) ok).
Proof.
  intros c N s b ok HB HC HI HN HT.
  destruct (persisted_shape c N false s b ok HB HI HN) as [[E _]|H].
  { rewrite E. exact HT. }
  destruct H as (x & ks & s2 & snap & prev & Hx & EPX & EXB & HK & HKS & HPS & EM & EA &
      ER & I2 & HH & _ & HPV & E).
  rewrite E. destruct (free_non_forced_ok c N false s2 I2) as (I3 & F3 & L3 & P3).
  destruct (free_non_forced_run c N ok s2 [] HB HC I2) as [_ T3].
  intros y Hy EP (l & EL & LL).
  destruct (finish_ok c N s s2 (free_non_forced c false s2)
    (b * c_bucket c + c_bucket c) ok snap prev ks I2 I3 F3 P3 HH) as [_ (_ & _ & _ & _ & B & _)].
  destruct (finish_view c N s s2 _ _ ok snap prev ks y I2 I3 F3 P3 HH Hy)
    as (w & Hw & E1 & E2 & E3).
  rewrite E3. apply T3; [exact Hw|congruence|]. exists l. split; [congruence|lia].
Qed.

Lemma write_file_tidy : forall c N s b,
  1 <= c_bucket c -> 0 <= c_init c -> inv c N s -> b * c_bucket c + c_bucket c <= N ->
  tidy c s -> tidy c (write_file c s b).
Proof.
  intros c N s b HB HC HI HN HT. unfold write_file.
  pose proof (soft_pop s) as S. destruct (pop s) as [go s1]. cbn [snd] in S.
  pose proof (soft_inv _ _ _ _ S HI) as I1.
  assert (T1 : tidy c s1).
  { intros x Hx EP (l & E & L). rewrite (f_all _ _ S) in Hx. rewrite (f_last _ _ S) in E.
    apply (HT x Hx EP). exists l. split; assumption. }
  assert (P : tidy c (persisted c false s1 (b * c_bucket c) (b * c_bucket c + c_bucket c) false)).
  { apply (persisted_tidy c N); assumption. }
  destruct (media_holder _ _ (s_all s1)) as [k|]; [|exact P].
  destruct go; [|exact P].
  intros x Hx EP HO. rewrite upd_all in Hx. apply in_map_iff in Hx.
  destruct Hx as (y & E & Hy).
  assert (E3 : x_key x = x_key y /\ x_per x = x_per y /\ x_free x = x_free y).
  { rewrite <- E. destruct (x_key y =? k); repeat split. }
  destruct E3 as (A & B & D). rewrite D. apply (T1 y Hy); [congruence|].
  rewrite <- A. exact HO.
Qed.

Lemma segment_created_tidy : forall c s ex,
  1 <= c_bucket c -> 0 <= c_init c -> inv c (s_next s + 1) s ->
  (forall b, s_bucket s = Some b -> b * c_bucket c < s_next s) ->
  tidy c s -> tidy c (segment_created c s ex).
Proof.
  intros c s ex HB HC HI HBK HT. unfold segment_created.
  set (k := s_next s) in *. set (b := k / c_bucket c).
  assert (HKB : b * c_bucket c <= k < b * c_bucket c + c_bucket c).
  { apply bucket_of; [exact HB|reflexivity]. }
  set (s1 := match s_bucket s with
             | Some l => if l =? b then s else set_bucket (write_file c s l) None
             | None => s
             end).
  assert (H1 : inv c (k + 1) s1 /\ tidy c s1).
  { unfold s1. destruct (s_bucket s) as [l|] eqn:EB; [|split; assumption].
    destruct (l =? b) eqn:E; [split; assumption|].
    specialize (HBK l eq_refl).
    assert (l < b) by nia.
    destruct (write_file_ok c (k + 1) s l HB HI ltac:(nia)) as (A & _).
    split; [apply set_bucket_inv; [exact A|discriminate]|].
    apply (write_file_tidy c (k + 1) s l HB HC HI ltac:(nia) HT). }
  destruct H1 as (I1 & T1).
  destruct (negb ((k + 1) mod c_bucket c =? 0)) eqn:EM.
  - destruct ex; exact T1.
  - assert (HE : b * c_bucket c + c_bucket c <= k + 1).
    { assert (EZ : (k + 1) mod c_bucket c = 0) by lia.
      pose proof (Z.div_mod (k + 1) (c_bucket c) ltac:(lia)) as DM. rewrite EZ in DM.
      assert ((k + 1) / c_bucket c = b + 1); [|nia].
      assert (b < (k + 1) / c_bucket c) by nia. nia. }
    pose proof (write_file_tidy c (k + 1) s1 b HB HC I1 HE T1) as W.
    destruct (s_bucket s1); [exact W|]. destruct ex; [exact W|exact T1].
Qed.

(* The state in which a segment is closed, and the state after everything but
   the increment of the number of the next segment. *)
Definition opened (s : st) (ex : bool) : st := emit (set_last s (s_next s)) (EReady (s_next s) ex).

Lemma ready_run : forall c s ex e,
  1 <= c_bucket c -> 0 <= c_init c -> inv c (s_next s) s ->
  ready c s ex = fail s \/
  exists s', ready c s ex = set_next s' (s_next s + 1) /\ s_next s' = s_next s /\
    (exists x, In x (s_all s) /\ x_key x = s_next s) /\
    (forall l, s_last s = Some l -> l < s_next s) /\
    run c (s_next s + 1) (rdy (older c (opened s ex)) (s_next s) ex)
      (opened s ex, e) (s', e) /\ tidy c s'.
Proof.
  intros c s ex e HB HC HI. unfold ready.
  destruct (find (s_next s) (s_all s)) as [x|] eqn:EF; [|left; reflexivity].
  apply find_some in EF. destruct EF as [Hx EX].
  destruct (match s_last s with Some l => x_key x <=? l | None => false end) eqn:ELT;
    [left; reflexivity|right].
  rewrite EX in *. fold (opened s ex). set (s1 := opened s ex) in *.
  set (k := s_next s) in *.
  assert (I1 : inv c (k + 1) s1).
  { eapply soft_inv; [apply soft_emit; intros f; discriminate|].
    apply set_last_inv; [|fold k; lia]. eapply inv_mono; [|exact HI]. lia. }
  set (s2 := if ex then (if x_bad x then ub s1 else s1) else fst (free_idx false s1 0 k)).
  assert (H2 : inv c (k + 1) s2 /\ same_rest s1 s2 /\
    mics c (k + 1) (fun l => match l with LFree a _ => ex = false /\ a = k | LCut _ => False
                             | _ => True end) (s1, e) (s2, e)).
  { unfold s2. destruct ex.
    - rewrite (v_bad _ _ _ HI x Hx). split; [exact I1|]. split; [apply same_rest_refl|constructor].
    - pose proof (free_idx_ok c (k + 1) false s1 0 k I1) as H.
      pose proof (free_idx_rest c (k + 1) false s1 0 k I1) as R.
      destruct (free_idx_mics c (k + 1) s1 0 x e I1 Hx ltac:(lia)) as (M & _ & _).
      rewrite EX in M.
      destruct (free_idx false s1 0 k) as [s' t']. cbn [fst] in R, M |- *.
      split; [|split; [exact R|]].
      + apply H. change (s_all s1) with (s_all s). rewrite <- EX. apply in_map. exact Hx.
      + eapply mics_imp; [|exact M]. intros l Hl.
        destruct l; cbn [frees] in *; try exact I; try contradiction.
        split; [reflexivity|]. lia. }
  destruct H2 as (I2 & R2 & M2).
  destruct (free_non_forced_ok c (k + 1) false s2 I2) as (I3 & _).
  pose proof (free_non_forced_rest c (k + 1) false s2 I2) as R3.
  destruct (free_non_forced_run c (k + 1) true s2 e HB HC I2) as [RN3 T3].
  set (s3 := free_non_forced c false s2) in *.
  set (s4 := if s_snaps s3 <=? 0 then emit s3 EAckAll else s3).
  assert (S4 : soft s3 s4).
  { unfold s4. destruct (s_snaps s3 <=? 0); [apply soft_emit; intros f; discriminate|apply soft_refl]. }
  assert (M4 : mics c (k + 1) (fun l => l = LAll) (s3, e) (s4, e)).
  { unfold s4. destruct (s_snaps s3 <=? 0) eqn:E; [|constructor].
    eapply mics_one; [|apply m_all; lia]. reflexivity. }
  pose proof (soft_inv _ _ _ _ S4 I3) as I4.
  destruct R2 as (A1 & _ & _ & A4 & A5 & _). destruct R3 as (B1 & _ & _ & B4 & B5 & _).
  assert (E4 : s_next s4 = k /\ s_bucket s4 = s_bucket s /\ s_last s4 = s_last s1).
  { destruct S4 as []. rewrite f_next, f_bucket, f_last, B1, B4, B5, A1, A4, A5.
    repeat split; reflexivity. }
  destruct E4 as (EN & EB & EL).
  assert (HBK : forall b, s_bucket s4 = Some b -> b * c_bucket c < s_next s4).
  { intros b E. rewrite EB in E. rewrite EN. exact (v_bucket _ _ _ HI b E). }
  destruct (segment_created_ok c s4 ex HB) as [C1 C2]; [rewrite EN; exact I4|exact HBK|].
  pose proof (segment_created_run c s4 ex e HB HC) as R5. rewrite EN in R5.
  specialize (R5 I4).
  exists (segment_created c s4 ex).
  split; [rewrite C2, EN; reflexivity|]. split; [rewrite C2, EN; reflexivity|].
  split; [exists x; split; assumption|].
  split; [intros l E; rewrite E in ELT; lia|].
  assert (OL : forall a, older c s4 a -> older c s1 a).
  { intros a (l & E & L). exists l. rewrite <- EL. split; assumption. }
  assert (OL2 : forall a, older c s2 a -> older c s1 a).
  { intros a (l & E & L). exists l. rewrite <- A5. split; assumption. }
  split.
  - eapply run_app; [apply rdy_mono| |].
    { apply run_all. intros L. eapply mics_imp; [|exact M2].
      intros l Hl. destruct l; cbn [rdy]; try exact I; try exact Hl. left. exact Hl. }
    eapply run_app; [apply rdy_mono| |].
    { eapply run_imp; [|exact RN3]. intros L l Hl.
      destruct l; cbn [pers rdy] in *; try exact I; try exact Hl. right.
      eapply freed_imp; [apply OL2|exact Hl]. }
    eapply run_app; [apply rdy_mono| |].
    { apply run_all. intros L. eapply mics_imp; [|exact M4].
      intros l ->. exact I. }
    eapply run_imp; [|apply R5].
    + intros L l Hl. destruct l; cbn [writes rdy] in *; try exact I; try exact Hl. right.
      eapply freed_imp; [apply OL|exact Hl].
    + intros b E. specialize (HBK b E). lia.
  - apply segment_created_tidy; try assumption; [rewrite EN; exact I4|].
    intros y Hy EP (l & E & L). rewrite (f_all _ _ S4) in Hy. rewrite (f_last _ _ S4) in E.
    apply T3; [exact Hy|exact EP|]. exists l. split; [congruence|exact L].
Qed.

Lemma expire_mics : forall c N s m e,
  inv c N s -> s_min s <= m <= N ->
  mics c N (below m) (set_min s m, e) (expire s m, e).
Proof.
  intros c N s m e HI HM. unfold expire. set (s1 := set_min s m).
  assert (I1 : inv c N s1) by (apply set_min_inv; [exact HI|lia]).
  apply free_below_mics; [exact I1|apply ss_nodup, (v_sort _ _ _ I1)|intros k Hk; exact Hk|lia].
Qed.

Lemma inactive_run : forall c s e,
  1 <= c_bucket c -> 0 <= c_init c -> inv c (s_next s) s ->
  exists s', inactive c s = set_next s' (round_up (s_next s) (c_bucket c)) /\
    s_next s' = s_next s /\
    run c (round_up (s_next s) (c_bucket c)) (writes (older c s)) (s, e) (s', e).
Proof.
  intros c s e HB HC HI. unfold inactive.
  set (s1 := match s_bucket s with
             | Some b => set_bucket (write_file c s b) None
             | None => s
             end).
  set (M := round_up (s_next s) (c_bucket c)).
  assert (IM : inv c M s).
  { eapply inv_mono; [|exact HI]. apply round_up_ge. exact HB. }
  exists s1.
  assert (H1 : s_next s1 = s_next s /\ run c M (writes (older c s)) (s, e) (s1, e)).
  { unfold s1. destruct (s_bucket s) as [b|] eqn:EB; [|split; [reflexivity|apply run_nil]].
    pose proof (v_bucket _ _ _ HI b EB) as HL.
    pose proof (round_up_bucket (s_next s) (c_bucket c) b HB HL) as HM. fold M in HM.
    destruct (write_file_ok c M s b HB IM HM) as (A & B & _).
    split; [exact B|]. eapply run_app; [apply writes_mono| |].
    - exact (write_file_run c M s b e HB HC IM HM).
    - apply run_all. intros L. eapply quiet_mics; [exact I|apply bucket_quiet]. }
  destruct H1 as [EN R]. rewrite EN. split; [reflexivity|]. split; [reflexivity|exact R].
Qed.
