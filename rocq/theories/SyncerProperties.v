(* C37, C38, C42, C43: the syncer of the live module. *)
From Coq Require Import List ZArith Bool Lia ZifyBool ZifyNat.
From Verif Require Import SyncerModel SyncerSpec SyncerProofs.
Import ListNotations.
Local Open Scope Z_scope.

(* C37: outside non-key video frames, the presentation time given out is within the drift limits of the
   creation time, or, when a sync was just done (then the frame is marked as a split), within the reuse
   threshold (or equal) *)
Theorem C37_drift : forall cf c i t fr c' fr',
  conf_ok cf -> nth_error (c_tracks c) i = Some t -> syncable (t_video t) fr ->
  - 2 ^ 63 <= fr_created fr - pts_of (t_video t) fr ->
  add_frame cf c i fr = SOk (c', fr') ->
  let out := pts_of (t_video t) fr' in
  within_drift cf out (fr_created fr) \/
  fr_split fr' = true /\ (out = fr_created fr \/ within_reuse cf out (fr_created fr)).
Proof.
  intros cf c i t fr c' fr' Hcf Ht Hs Hr H. cbv zeta. apply add_frame_inv in H. destruct H as (t0 & Ht0 & H).
  rewrite Ht in Ht0. injection Ht0 as <-. destruct (tick_same t) as (T1 & T2 & T3 & T4 & T5 & T6).
  assert (Hout : forall f1 f2 d, fr_dts f2 = fr_dts f1 + d -> fr_delay f2 = fr_delay f1 -> pts_of (t_video t) f2 = pts_of (t_video t) f1 + d).
  { intros f1 f2 d E1 E2. unfold pts_of. destruct (t_video t); lia. }
  destruct H as [Hk _ H|m c1 t1 Hv Hk _ _ _ Hsy H|n c1 t1 _ _ Hsy H].
  - left. apply finish_inv in H. destruct H as (D1 & D2 & _). rewrite (Hout fr fr' _ D1 D2).
    destruct (Hk ltac:(now rewrite T1)) as (_ & _ & Hd). rewrite T1 in Hd. exact Hd.
  - rewrite T1 in Hv. specialize (Hs Hv). congruence.
  - right. apply finish_inv in H. destruct H as (D1 & D2 & _ & _ & _ & D3 & _). split; [exact D3|].
    cbn [fr_dts fr_delay] in D1, D2. rewrite (Hout fr fr' _ D1 D2).
    destruct (sync_track_inv _ _ _ _ _ _ _ _ _ _ _ Hsy) as (corr & reuse & tc & A & B & C & D & E). rewrite T1 in C.
    assert (Htc : tc = fr_created fr - pts_of (t_video t) fr) by (unfold LLONG_MIN in C; lia).
    assert (Hcorr : t_corr t1 = corr) by now rewrite B. rewrite Hcorr.
    destruct reuse.
    + right. destruct (D eq_refl) as (_ & D5 & _). destruct Hcf as (K1 & K2 & K3 & K4 & K5 & K6 & K7 & K8 & K9 & K10 & K11).
      rewrite u64_small in D5 by nia. unfold within_reuse. lia.
    + left. destruct (E eq_refl) as (E1 & _). lia.
Qed.
Print Assumptions C37_drift.

(* the arithmetic does not overflow as long as the numbers are below 2^59 and the timescale is at
   least 1000 *)
Theorem C37_no_overflow : forall cf c i t fr, conf_ok cf -> 1000 <= f_scale cf < 2 ^ 39 ->
  nth_error (c_tracks c) i = Some t ->
  small (fr_dts fr) -> small (fr_created fr) -> - 2 ^ 31 <= fr_delay fr < 2 ^ 31 -> small (t_corr t) -> small (c_corr c) ->
  (t_last_pts t = INVALID /\ 0 <= pts_of (t_video t) fr \/ small (t_last_pts t)) -> (t_last_dts t = INVALID \/ small (t_last_dts t)) ->
  small (t_last_dts t - fr_dts fr) \/ t_last_dts t = INVALID ->
  exists c1 t1 pts, add_frame cf c i fr = finish c1 i t1 pts fr \/
    add_frame cf c i fr = finish c1 i t1 pts (mk_frame (fr_id fr) (fr_created fr) (fr_dts fr) (fr_delay fr) (fr_key fr) true).
Proof.
  intros cf c i t fr Hcf Hsc Ht Hdts Hcr Hdel Hcorr Hcc Hlp Hld Hdd. unfold small in *.
  destruct Hcf as (K1 & K2 & K3 & K4 & K5 & K6 & K7 & K8 & K9 & K10 & K11).
  unfold add_frame. rewrite Ht. cbv zeta. fold (tick t). destruct (tick_same t) as (T1 & T2 & T3 & T4 & T5 & T6).
  assert (Hp : (if t_video (tick t) then chk (fr_dts fr + fr_delay fr) else Some (fr_dts fr)) = Some (pts_of (t_video t) fr)).
  { rewrite T1. unfold pts_of. destruct (t_video t); [apply chk_ok; lia|reflexivity]. }
  rewrite Hp. set (pts := pts_of (t_video t) fr) in *.
  assert (Hpr : - 2 ^ 59 - 2 ^ 31 <= pts <= 2 ^ 59 + 2 ^ 31) by (unfold pts, pts_of; destruct (t_video t); lia).
  assert (Hsync : forall n m, m = LLONG_MIN \/ - 2 ^ 61 <= m <= 2 ^ 61 -> exists r, sync_track cf c i (tick t) pts (fr_created fr) (fr_id fr) n m = Some r).
  { intros n m Hm. apply sync_track_total; auto; lia. }
  destruct (t_video (tick t) && negb (fr_key fr)) eqn:Ev.
  - assert (Ed : exists d, abs_diff pts (t_last_pts (tick t)) = Some d).
    { rewrite T2. unfold abs_diff. destruct Hlp as [[-> Hpos]|Hlp]; [unfold INVALID|];
        match goal with |- context [?a >? ?b] => destruct (a >? b) eqn:E end; eexists; apply chk_ok; lia. }
    destruct Ed as [d Ed]. rewrite Ed.
    destruct (_ || _); [eexists _, _, _; left; reflexivity|]. destruct (d <=? _); [eexists _, _, _; left; reflexivity|].
    rewrite T3. destruct (t_last_dts t =? INVALID) eqn:El; cbn [negb].
    + destruct (Hsync (f_sync_frames cf) LLONG_MIN ltac:(auto)) as [[c1 t1] E]. rewrite E. eexists _, _, _; left; reflexivity.
    + rewrite (chk_ok (t_last_dts t + 1)) by lia. rewrite chk_ok by lia.
      destruct (Hsync (f_sync_frames cf) (t_last_dts t + 1 - fr_dts fr) ltac:(right; lia)) as [[c1 t1] E].
      rewrite E. eexists _, _, _; left; reflexivity.
  - assert (Hf : forall n, exists c1 t1 p, force_sync cf c i (tick t) pts n fr = finish c1 i t1 p (mk_frame (fr_id fr) (fr_created fr) (fr_dts fr) (fr_delay fr) (fr_key fr) true)).
    { intros n. unfold force_sync. cbn [fr_created fr_id]. destruct (Hsync n LLONG_MIN ltac:(auto)) as [[c1 t1] E]. rewrite E. eexists _, _, _. reflexivity. }
    destruct (t_force (tick t) =? 1). { destruct (Hf 0) as (c1 & t1 & p & E). exists c1, t1, p. now right. }
    destruct (t_last_pts (tick t) =? INVALID). { destruct (Hf 0) as (c1 & t1 & p & E). exists c1, t1, p. now right. }
    rewrite T4. assert (0 <= f_back cf * f_scale cf) by nia. assert (0 <= f_fwd cf * f_scale cf) by nia.
    rewrite (chk_ok (f_back cf * f_scale cf)), (chk_ok (fr_created fr - f_back cf * f_scale cf)), (chk_ok (pts + t_corr t)) by lia.
    destruct (_ <? _). { destruct (Hf (f_sync_frames cf)) as (c1 & t1 & p & E). exists c1, t1, p. now right. }
    rewrite (chk_ok (f_fwd cf * f_scale cf)), (chk_ok (fr_created fr + f_fwd cf * f_scale cf)) by lia.
    destruct (_ >? _). { destruct (Hf (f_sync_frames cf)) as (c1 & t1 & p & E). exists c1, t1, p. now right. }
    eexists _, _, _; left; reflexivity.
Qed.
Print Assumptions C37_no_overflow.

(* a timescale below 1000 is accepted by the configuration; the first frame then divides by 0 *)
Theorem C37_timescale_refuted : exists cf c fr, conf_ok cf /\ f_scale cf = 999 /\ c_tracks c = [track_new false] /\
  small (fr_dts fr) /\ small (fr_created fr) /\ add_frame cf c 0 fr = SUB.
Proof.
  exists (mk_conf 10 100 10 20 20 10 999), (mk_chan 0 0 0 [track_new false]), (mk_frame 0 1000 0 0 true false).
  repeat split; vm_compute; auto; discriminate.
Qed.
Print Assumptions C37_timescale_refuted.

(* The time stamps of RTMP wrap around after 2^32 ms.  A track whose clock is a whole number of wraps
   behind the one of the channel gets the correction of the channel plus that number of wraps ... *)
Theorem C37_wrap_partial : forall cf c i t pts created id n k, 1000 <= f_scale cf < 2 ^ 39 -> 0 < f_reuse cf * f_scale cf < 2 ^ 60 ->
  - 2 ^ 61 <= created - pts <= 2 ^ 61 -> - 2 ^ 61 <= c_corr c <= 2 ^ 61 ->
  0 <= k -> created - pts = c_corr c + k * (2 ^ 32 * (f_scale cf / 1000)) ->
  exists c' t', sync_track cf c i t pts created id n LLONG_MIN = Some (c', t') /\
    t_corr t' = c_corr c + k * (2 ^ 32 * (f_scale cf / 1000)) /\ c_corr c' = c_corr c /\ c_count c' = c_count c.
Proof.
  intros cf c i t pts created id n k Hsc Hre Hd Hc Hk He.
  assert (Hs : 1 <= f_scale cf / 1000 < 2 ^ 30).
  { split; [apply Z.div_le_lower_bound; lia|apply Z.div_lt_upper_bound; lia]. }
  unfold sync_track. rewrite (chk_ok (created - pts)) by lia. cbv zeta.
  replace (created - pts <? LLONG_MIN) with false by (unfold LLONG_MIN; lia).
  rewrite (chk_ok (created - pts - c_corr c)) by lia.
  assert (Hw : wrap_value (f_scale cf) = 2 ^ 32 * (f_scale cf / 1000)) by (unfold wrap_value; apply u64_small; lia).
  rewrite Hw. set (w := 2 ^ 32 * (f_scale cf / 1000)) in *. assert (Hwr : 0 < w <= 2 ^ 62) by lia.
  destruct (round_small (created - pts - c_corr c) w Hwr) as (r & Er & R1 & R2 & _); [lia|]. rewrite Er.
  assert (Hr : r = k * w).
  { rewrite R2 by nia. replace (created - pts - c_corr c + w / 2) with (k * w + w / 2) by lia.
    rewrite Z.div_add_l by lia. rewrite (Z.div_small (w / 2) w); [lia|]. pose proof (Z.div_mod w 2). pose proof (Z.mod_pos_bound w 2). lia. }
  subst r. rewrite i64_small by lia. rewrite He. replace (c_corr c + k * w - (c_corr c + k * w)) with 0 by lia.
  change (chk 0) with (Some 0). cbv iota beta. change (0 <=? 0) with true. cbv iota beta.
  rewrite (u64_small (f_reuse cf * f_scale cf)) by lia. destruct (0 <? f_reuse cf * f_scale cf) eqn:Ez; [|lia].
  replace (LLONG_MIN <=? c_corr c + k * w) with true by (unfold LLONG_MIN; lia). cbn [andb].
  eexists _, _. split; [reflexivity|]. repeat split.
Qed.
Print Assumptions C37_wrap_partial.

(* ... but not one that is a whole number of wraps ahead: the rounding is done on unsigned numbers *)
Theorem C37_wrap_refuted : exists cf c t pts created c' t',
  conf_ok cf /\ f_scale cf = 90000 /\ created - pts = c_corr c - 2 ^ 32 * (f_scale cf / 1000) /\
  sync_track cf c 0 t pts created 0 0 LLONG_MIN = Some (c', t') /\ c_corr c' <> c_corr c /\ c_count c' = c_count c + 1.
Proof.
  exists (mk_conf 10 100 10 20 20 10 90000), (mk_chan 0 0 0 [track_new false]), (track_new false), (2 ^ 32 * 90), 0.
  eexists _, _. split; [repeat split; cbn; lia|]. split; [reflexivity|]. split; [reflexivity|]. split; [vm_compute; reflexivity|].
  split; vm_compute; congruence.
Qed.
Print Assumptions C37_wrap_refuted.

(* C38: a non-key video frame that jumps by more than the threshold is synced and its dts is above the
   last one given out *)
Theorem C38_forward : forall cf c i t fr c' fr', conf_ok cf ->
  nth_error (c_tracks c) i = Some t -> t_video t = true -> fr_key fr = false ->
  t_last_pts t <> INVALID -> t_last_dts t <> INVALID ->
  f_jump_log cf <= f_jump cf -> Z.abs (fr_dts fr + fr_delay fr - t_last_pts t) > f_jump cf * f_scale cf ->
  add_frame cf c i fr = SOk (c', fr') ->
  t_last_dts t < fr_dts fr' /\ c_seq c' = (c_seq c + 1) mod 2 ^ 32.
Proof.
  intros cf c i t fr c' fr' Hcf Ht Hv Hk Hp Hd Hj Hbig H.
  destruct Hcf as (K1 & K2 & K3 & K4 & K5 & K6 & K7 & K8 & K9 & K10 & K11).
  apply add_frame_inv in H. destruct H as (t0 & Ht0 & H).
  rewrite Ht in Ht0. injection Ht0 as <-. destruct (tick_same t) as (T1 & T2 & T3 & T4 & T5 & T6).
  destruct H as [_ Hsmall H|m c1 t1 _ _ _ _ Hm Hsy H|n c1 t1 Hs _ Hsy H].
  - exfalso. rewrite T1, T2 in Hsmall. unfold pts_of in Hsmall. rewrite Hv in Hsmall.
    assert (Hns : ~ syncable true fr) by (intros Hs; specialize (Hs eq_refl); congruence).
    assert (f_jump_log cf * f_scale cf <= f_jump cf * f_scale cf) by nia.
    rewrite !u64_small in Hsmall by nia. specialize (Hsmall Hns). lia.
  - rewrite T3 in Hm. specialize (Hm Hd). apply finish_inv in H. destruct H as (D1 & _ & _ & _ & _ & _ & _ & D2 & _).
    destruct (sync_track_inv _ _ _ _ _ _ _ _ _ _ _ Hsy) as (corr & reuse & tc & A & B & C & D & E).
    assert (Hcorr : t_corr t1 = corr) by now rewrite B.
    split; [|now rewrite D2, A]. destruct reuse.
    + destruct (D eq_refl) as (D5 & _). lia.
    + destruct (E eq_refl) as (E1 & _). lia.
  - exfalso. rewrite T1 in Hs. specialize (Hs Hv). congruence.
Qed.
Print Assumptions C38_forward.

(* C42: a track told to sync by another one counts its frames down and syncs *)
Fixpoint feed (cf : conf) (c : chan) (i : nat) (l : list frame) : sres (chan * list frame) :=
  match l with
  | [] => SOk (c, [])
  | fr :: l =>
      match add_frame cf c i fr with
      | SUB => SUB
      | SOk (c, fr) => match feed cf c i l with SUB => SUB | SOk (c, r) => SOk (c, fr :: r) end
      end
  end.
Theorem C42_countdown : forall cf i l c t c' out, nth_error (c_tracks c) i = Some t -> 1 <= t_force t ->
  Z.of_nat (length l) = Z.max 1 (t_force t - 1) -> Forall (syncable (t_video t)) l ->
  feed cf c i l = SOk (c', out) -> exists fr, In fr out /\ fr_split fr = true.
Proof.
  intros cf i. induction l as [|fr l IH]; intros c t c' out Ht Hf Hl Hs H; [cbn in Hl; lia|].
  cbn [feed] in H. destruct (add_frame cf c i fr) as [[c1 fr1]|] eqn:Ea; [|discriminate].
  destruct (feed cf c1 i l) as [[c2 r]|] eqn:Ef; [|discriminate]. injection H as <- <-.
  inversion Hs as [|x y Hs1 Hs2]; subst.
  apply add_frame_inv in Ea. destruct Ea as (t0 & Ht0 & Ha). rewrite Ht in Ht0. injection Ht0 as <-.
  destruct (tick_same t) as (T1 & T2 & T3 & T4 & T5 & T6).
  destruct Ha as [Hk _ Ha|m c0 t1 Hv Hk _ _ _ Hsy Ha|n c0 t1 _ _ Hsy Ha].
  - destruct (Hk ltac:(now rewrite T1)) as (_ & K2 & _).
    assert (Htf : t_force (tick t) = t_force t - 1 /\ 2 < t_force t).
    { unfold tick in *. destruct (1 <? t_force t) eqn:E; cbn [set_force t_force] in *; lia. }
    apply finish_inv in Ha. destruct Ha as (_ & _ & _ & _ & _ & _ & E1 & _).
    destruct (IH c1 (mk_trk (t_video (tick t)) (pts_of (t_video (tick t)) fr) (fr_dts fr1) (t_corr (tick t)) (t_force (tick t)) (t_count (tick t)) (t_log (tick t)) (t_index (tick t))) c2 r)
      as (f & Hf1 & Hf2); auto.
    + rewrite E1. apply set_nth_same. now apply nth_lt in Ht.
    + cbn [t_force]. lia.
    + cbn [t_force length] in *. lia.
    + cbn [t_video]. now rewrite T1.
    + exists f. split; [now right|auto].
  - exfalso. rewrite T1 in Hv. specialize (Hs1 Hv). congruence.
  - apply finish_inv in Ha. destruct Ha as (_ & _ & _ & _ & _ & D & _). exists fr1. split; [now left|]. exact D.
Qed.
Print Assumptions C42_countdown.

(* a sync of one track that moves the correction of the channel because of a drift or a jump tells
   every other track to sync, unless the track was itself told to *)
Theorem C42_tell : forall cf c i t fr c' fr' j u, nth_error (c_tracks c) i = Some t -> t_force t = 0 -> 0 < f_sync_frames cf ->
  t_last_pts t <> INVALID ->
  add_frame cf c i fr = SOk (c', fr') -> c_count c' <> c_count c -> j <> i -> nth_error (c_tracks c) j = Some u ->
  exists u', nth_error (c_tracks c') j = Some u' /\ t_force u' = f_sync_frames cf /\ t_corr u' = t_corr u.
Proof.
  intros cf c i t fr c' fr' j u Ht Hf Hn Hlp H Hc Hj Hu.
  assert (Hti : tick t = t) by (unfold tick; now rewrite Hf).
  assert (G : forall n m c1 t1, (t_force t = 0) -> n = f_sync_frames cf ->
     sync_track cf c i t (pts_of (t_video t) fr) (fr_created fr) (fr_id fr) n m = Some (c1, t1) -> c_count c1 <> c_count c ->
     nth_error (c_tracks c1) j = Some (set_force n u)).
  { intros n m c1 t1 _ -> Hs Hcc.
    destruct (sync_track_inv _ _ _ _ _ _ _ _ _ _ _ Hs) as (corr & reuse & tc & A & B & C & D & E). destruct reuse.
    - destruct (D eq_refl) as (_ & _ & _ & Dc & _). congruence.
    - destruct (E eq_refl) as (_ & _ & _ & ->). rewrite Hf. replace ((if _ <? m then 0 else 0) =? 0) with true by (destruct (_ <? m); reflexivity).
      replace (0 <? f_sync_frames cf) with true by lia. cbn [andb]. rewrite enable_sync_nth, Hu. cbn [option_map].
      destruct (Nat.eqb j i) eqn:Ej; [apply Nat.eqb_eq in Ej; lia|reflexivity]. }
  apply add_frame_inv in H. destruct H as (t0 & Ht0 & Ha). rewrite Ht in Ht0. injection Ht0 as <-. rewrite Hti in Ha.
  destruct Ha as [Hk _ Ha|m c0 t1 Hv Hk _ _ _ Hsy Ha|n c0 t1 Hs Hnn Hsy Ha];
    apply finish_inv in Ha; destruct Ha as (D1 & _ & _ & _ & _ & _ & E1 & _ & E2 & _).
  - congruence.
  - specialize (G _ _ _ _ Hf eq_refl Hsy ltac:(congruence)). exists (set_force (f_sync_frames cf) u).
    rewrite E1, set_nth_other by auto. repeat split; auto.
  - assert (E : n = f_sync_frames cf) by (destruct Hnn as [[_ [Hx|Hx]]|(_ & _ & Hx)]; [lia|congruence|exact Hx]).
    specialize (G _ _ _ _ Hf E Hsy ltac:(congruence)). exists (set_force n u).
    rewrite E1, set_nth_other by auto. subst n. repeat split; auto.
Qed.
Print Assumptions C42_tell.

(* C43: a reconnect goes back to the correction of the last frame before the resume point, or, when that
   one is not known any more, to a new sync *)
Theorem C43_reconnect_partial : forall cf i c h t next pts dts t',
  life true cf i c h -> nth_error (c_tracks c) i = Some t -> track_reconnect t next pts dts = SOk t' ->
  Some (t_corr t') = before h next \/ t_last_pts t' = INVALID.
Proof.
  intros cf i c h t next pts dts t' Hl Ht Hr. apply life_inv in Hl. destruct Hl as [_ Hl]. specialize (Hl t Ht).
  unfold track_reconnect in Hr. destruct (get_log t next) as [l|] eqn:El.
  - left. destruct (if pts =? INVALID then _ else _); [|discriminate]. injection Hr as <-. cbn [t_corr].
    now rewrite (reconnect_before t h next l).
  - right. injection Hr as <-. reflexivity.
Qed.
Print Assumptions C43_reconnect_partial.

(* the correction is found as long as one of the three logged syncs is before the resume point *)
Theorem C43_kept : forall cf i c h t next l pts dts, life true cf i c h -> nth_error (c_tracks c) i = Some t ->
  In l (t_log t) -> l_seq l <> 0 -> l_frame l < next ->
  - 2 ^ 61 <= pts <= 2 ^ 61 -> (forall e, In e h -> - 2 ^ 61 <= snd e <= 2 ^ 61) ->
  exists t', track_reconnect t next pts dts = SOk t' /\ Some (t_corr t') = before h next /\
    t_last_pts t' = pts - t_corr t' /\ t_last_dts t' = dts.
Proof.
  intros cf i c h t next l pts dts Hl Ht Hin Hs Hn Hp He. apply life_inv in Hl. destruct Hl as [_ Hl]. specialize (Hl t Ht).
  destruct (get_log t next) as [l2|] eqn:El.
  - exists (mk_trk (t_video t) (pts - l_corr l2) dts (l_corr l2) 0 (t_count t) (remove_future (t_log t) next) (t_index t)).
    unfold track_reconnect. rewrite El. pose proof (reconnect_before t h next l2 Hl El) as Hb.
    assert (Hc : - 2 ^ 61 <= l_corr l2 <= 2 ^ 61).
    { destruct Hl as [[S1 S2] S3 S4 S5 _ _]. destruct (get_log_head t next l2 S1 S2 S3 El) as (G1 & _). specialize (S5 l2 G1). apply (He _ S5). }
    replace (pts =? INVALID) with false by (unfold INVALID; lia). rewrite chk_ok by lia.
    split; [reflexivity|]. cbn [t_corr t_last_dts t_last_pts]. auto.
  - exfalso. change (best_of next None (t_log t) = None) in El. apply best_none in El. eapply Forall_forall in El; eauto.
    assert (live l = true) by (unfold live; lia). specialize (El H). lia.
Qed.
Print Assumptions C43_kept.

(* In general it fails: a reconnect that does not find a correction leaves the later entries of the log,
   and the next reconnect may use one of them instead of the correction given to the frames *)
Theorem C43_reconnect_refuted : exists cf c h t next t' x, conf_ok cf /\ life false cf 0 c h /\
  nth_error (c_tracks c) 0 = Some t /\ track_reconnect t next 0 0 = SOk t' /\ t_last_pts t' <> INVALID /\
  before h next = Some x /\ t_corr t' <> x.
Proof.
  set (cf := mk_conf 10 100 10 20 20 10 1000).
  (* frame 0 is synced; the connection drops before it is used: back to frame 0; the frames then come with
     another clock; another drop after frame 1 *)
  set (f0 := mk_frame 0 1000000 0 0 true false). set (g0 := mk_frame 0 2000000 0 0 true false). set (g1 := mk_frame 1 2000040 40 0 true false).
  set (c0 := mk_chan 0 0 0 [track_new false]).
  assert (L0 : life false cf 0 c0 []).
  { apply life_new. intros t [<-|[]]. now exists false. }
  destruct (add_frame cf c0 0 f0) as [[c1 o1]|] eqn:A1; [|vm_compute in A1; discriminate].
  assert (L1 : life false cf 0 c1 [(0, fr_dts o1 - fr_dts f0)]).
  { eapply life_frame with (fr := f0); [exact L0|reflexivity| | | | |exact A1]; cbn; [intros e []|lia|intros _ H; discriminate|lia]. }
  vm_compute in A1. injection A1 as <- <-.
  match type of L1 with life _ _ _ ?c _ => destruct (nth_error (c_tracks c) 0) as [t1|] eqn:T1; [|discriminate] end.
  destruct (track_reconnect t1 0 INVALID INVALID) as [t2|] eqn:R1; [|cbn in T1; injection T1 as <-; vm_compute in R1; discriminate].
  assert (L2 := life_reconnect false cf 0 _ _ t1 0 INVALID INVALID t2 L1 T1 ltac:(discriminate) R1).
  cbn in T1. injection T1 as <-. vm_compute in R1. injection R1 as <-. cbn [filter fst] in L2. change (0 <? 0) with false in L2. cbv iota in L2.
  match type of L2 with life _ _ _ ?c _ => set (c2 := c) in * end.
  destruct (add_frame cf c2 0 g0) as [[c3 o3]|] eqn:A3; [|vm_compute in A3; discriminate].
  assert (L3 : life false cf 0 c3 [(0, fr_dts o3 - fr_dts g0)]).
  { eapply life_frame with (fr := g0); [exact L2|reflexivity| | | | |exact A3]; cbn; [intros e []|lia|intros _ H; discriminate|lia]. }
  vm_compute in A3. injection A3 as <- <-.
  match type of L3 with life _ _ _ ?c _ => set (c3 := c) in * end.
  destruct (add_frame cf c3 0 g1) as [[c4 o4]|] eqn:A4; [|vm_compute in A4; discriminate].
  assert (L4 := life_frame false cf 0 c3 _ (match nth_error (c_tracks c3) 0 with Some t => t | None => track_new true end) g1 c4 o4 L3 eq_refl
     ltac:(intros e [<-|[]]; cbn; lia) ltac:(cbn; lia) ltac:(cbn; intros _ H; discriminate) ltac:(cbn; lia) A4).
  vm_compute in A4. injection A4 as <- <-.
  eexists cf, _, _, _, 2, _, _. split; [repeat split; cbn; lia|]. split; [exact L4|]. split; [reflexivity|].
  split; [vm_compute; reflexivity|]. split; [vm_compute; discriminate|]. split; [vm_compute; reflexivity|]. vm_compute. discriminate.
Qed.
Print Assumptions C43_reconnect_refuted.

(* --- the hypotheses are met --- *)
Definition ex_conf := mk_conf 10 100 10 20 20 10 90000.
Example C37_example : conf_ok ex_conf /\ exists c1 o1 c2 o2,
  add_frame ex_conf (mk_chan 0 0 0 [track_new true; track_new false]) 0 (mk_frame 0 90000000 1000 200 true false) = SOk (c1, o1) /\
  fr_dts o1 + fr_delay o1 = 90000000 /\ fr_split o1 = true /\
  add_frame ex_conf c1 0 (mk_frame 1 90003600 4600 200 true false) = SOk (c2, o2) /\ fr_split o2 = false.
Proof.
  split; [repeat split; cbn; lia|]. eexists _, _, _, _. split; [vm_compute; reflexivity|]. split; [reflexivity|]. split; [reflexivity|].
  split; [vm_compute; reflexivity|reflexivity].
Qed.
(* a jump back of a non-key frame by 1000 seconds: the dts goes on *)
Example C38_example : exists c1 o1 c2 o2,
  add_frame ex_conf (mk_chan 0 0 0 [track_new true; track_new false]) 0 (mk_frame 0 900000000 100000000 0 true false) = SOk (c1, o1) /\
  add_frame ex_conf c1 0 (mk_frame 1 800000000 10000000 0 false false) = SOk (c2, o2) /\
  fr_dts o1 = 900000000 /\ fr_dts o2 = 900000001 /\ map t_force (c_tracks c2) = [0; 10].
Proof. eexists _, _, _, _. split; [vm_compute; reflexivity|]. split; [vm_compute; reflexivity|]. repeat split. Qed.
(* a sync, a frame that follows it, and a resume after the first *)
Example C43_example : exists c h t t', life true ex_conf 0 c h /\ h = [(1, 89999000); (0, 89999000)] /\
  nth_error (c_tracks c) 0 = Some t /\ track_reconnect t 1 90000000 90000000 = SOk t' /\
  t_corr t' = 89999000 /\ t_last_pts t' = 1000.
Proof.
  set (f0 := mk_frame 0 90000000 1000 0 true false). set (f1 := mk_frame 1 90003600 4600 0 true false).
  set (c0 := mk_chan 0 0 0 [track_new false]).
  assert (L0 : life true ex_conf 0 c0 []).
  { apply life_new. intros t [<-|[]]. now exists false. }
  destruct (add_frame ex_conf c0 0 f0) as [[c1 o1]|] eqn:A1; [|vm_compute in A1; discriminate].
  assert (L1 : life true ex_conf 0 c1 [(0, fr_dts o1 - fr_dts f0)]).
  { eapply life_frame with (fr := f0); [exact L0|reflexivity| | | | |exact A1]; cbn; [intros e []|lia|intros _ H; discriminate|lia]. }
  vm_compute in A1. injection A1 as <- <-.
  match type of L1 with life _ _ _ ?c _ => set (c1 := c) in * end.
  destruct (add_frame ex_conf c1 0 f1) as [[c4 o4]|] eqn:A4; [|vm_compute in A4; discriminate].
  assert (L4 := life_frame true ex_conf 0 c1 _ (match nth_error (c_tracks c1) 0 with Some t => t | None => track_new true end) f1 c4 o4 L1 eq_refl
     ltac:(intros e [<-|[]]; cbn; lia) ltac:(cbn; lia) ltac:(cbn; intros _ H; discriminate) ltac:(cbn; lia) A4).
  vm_compute in A4. injection A4 as <- <-.
  eexists _, _, _, _. split; [exact L4|]. split; [reflexivity|]. split; [reflexivity|]. split; [vm_compute; reflexivity|]. split; reflexivity.
Qed.
