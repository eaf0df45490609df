From Coq Require Import List ZArith Bool Lia ZifyBool ZifyNat.
From Verif Require Import SyncerModel SyncerSpec.
Import ListNotations.
Local Open Scope Z_scope.

Lemma chk_some : forall x y, chk x = Some y -> y = x /\ - 2 ^ 63 <= x < 2 ^ 63.
Proof. intros x y. unfold chk. destruct (_ && _) eqn:E; [|discriminate]. intros H. injection H as <-. lia. Qed.
Lemma chk_ok : forall x, - 2 ^ 63 <= x < 2 ^ 63 -> chk x = Some x.
Proof. intros x H. unfold chk. destruct (_ && _) eqn:E; [reflexivity|lia]. Qed.
Lemma u64_small : forall x, 0 <= x < 2 ^ 64 -> u64 x = x.
Proof. intros. unfold u64. now apply Z.mod_small. Qed.
Lemma i64_range : forall x, - 2 ^ 63 <= i64 x < 2 ^ 63.
Proof. intros. unfold i64. pose proof (Z.mod_pos_bound (x + 2 ^ 63) (2 ^ 64)). lia. Qed.
Lemma i64_small : forall x, - 2 ^ 63 <= x < 2 ^ 63 -> i64 x = x.
Proof. intros. unfold i64. rewrite Z.mod_small; lia. Qed.

(* what a sync does to the track *)
Lemma sync_track_inv : forall cf c i t pts created id n m c' t',
  sync_track cf c i t pts created id n m = Some (c', t') ->
  exists corr reuse tc, c_seq c' = (c_seq c + 1) mod 2 ^ 32 /\
  t' = log_add (mk_trk (t_video t) (t_last_pts t) (t_last_dts t) corr 0 ((t_count t + 1) mod 2 ^ 32) (t_log t) (t_index t)) (c_seq c') id /\
  tc = Z.max (created - pts) m /\
  (reuse = true -> m <= corr /\ Z.abs (corr - tc) < u64 (f_reuse cf * f_scale cf) /\ c_corr c' = c_corr c /\
     c_count c' = c_count c /\ c_tracks c' = c_tracks c) /\
  (reuse = false -> corr = tc /\ c_corr c' = tc /\ c_count c' = (c_count c + 1) mod 2 ^ 32 /\
     c_tracks c' = (if ((if created - pts <? m then 0 else t_force t) =? 0) && (0 <? n) then enable_sync (c_tracks c) i n else c_tracks c)).
Proof.
  intros cf c i t pts created id n m c' t' H. unfold sync_track in H.
  destruct (chk (created - pts)) as [tc0|] eqn:E0; [|discriminate]. apply chk_some in E0. destruct E0 as [-> R0].
  cbv zeta in H. destruct (chk ((if created - pts <? m then m else created - pts) - c_corr c)) as [diff|] eqn:E1; [|discriminate].
  destruct (round_multiple diff (wrap_value (f_scale cf))) as [r|] eqn:E2; [|discriminate].
  set (cc := i64 (c_corr c + r)) in *.
  destruct (chk (cc - _)) as [d|] eqn:E3; [|discriminate]. apply chk_some in E3. destruct E3 as [-> R3].
  set (tc := if created - pts <? m then m else created - pts) in *.
  assert (Htc : tc = Z.max (created - pts) m) by (unfold tc; destruct (created - pts <? m) eqn:E; lia).
  destruct (if 0 <=? cc - tc then Some (cc - tc) else chk (- (cc - tc))) as [ad|] eqn:E4; [|discriminate].
  assert (Had : ad = Z.abs (cc - tc)).
  { destruct (0 <=? cc - tc) eqn:E; [injection E4 as <-; lia|]. apply chk_some in E4. lia. }
  set (reuse := (ad <? u64 (f_reuse cf * f_scale cf)) && (m <=? cc)) in *.
  injection H as <- <-. exists (if reuse then cc else tc), reuse, tc. cbn [c_seq c_corr c_count c_tracks].
  split; [reflexivity|]. split; [reflexivity|]. split; [exact Htc|]. split; intros Hr; rewrite Hr.
  - unfold reuse in Hr. apply andb_true_iff in Hr. destruct Hr as [Hr1 Hr2]. repeat split; lia.
  - repeat split.
Qed.

Lemma finish_inv : forall c i t pts fr c' fr', finish c i t pts fr = SOk (c', fr') ->
  fr_dts fr' = fr_dts fr + t_corr t /\ fr_delay fr' = fr_delay fr /\ fr_created fr' = fr_created fr /\ fr_id fr' = fr_id fr /\
  fr_key fr' = fr_key fr /\ fr_split fr' = fr_split fr /\
  c_tracks c' = set_nth (c_tracks c) i (mk_trk (t_video t) pts (fr_dts fr') (t_corr t) (t_force t) (t_count t) (t_log t) (t_index t)) /\
  c_seq c' = c_seq c /\ c_count c' = c_count c /\ c_corr c' = c_corr c.
Proof.
  intros c i t pts fr c' fr' H. unfold finish in H. destruct (chk (fr_dts fr + t_corr t)) as [d|] eqn:E; [|discriminate].
  apply chk_some in E. destruct E as [-> E]. injection H as <- <-. repeat split.
Qed.

(* the four ways a frame is treated *)
Inductive outcome (cf : conf) (c : chan) (i : nat) (t : trk) (fr : frame) (c' : chan) (fr' : frame) : Prop :=
| out_pass : forall (* nothing is synced *)
    (Hkey : syncable (t_video t) fr -> t_last_pts t <> INVALID /\ t_force t <> 1 /\ within_drift cf (pts_of (t_video t) fr + t_corr t) (fr_created fr))
    (Hsmall : ~ syncable (t_video t) fr -> t_last_pts t = INVALID \/
       Z.abs (pts_of (t_video t) fr - t_last_pts t) <= u64 (f_jump_log cf * f_scale cf) \/
       Z.abs (pts_of (t_video t) fr - t_last_pts t) <= u64 (f_jump cf * f_scale cf)),
    finish c i t (pts_of (t_video t) fr) fr = SOk (c', fr') -> outcome cf c i t fr c' fr'
| out_jump : forall m c1 t1
    (Hv : t_video t = true) (Hk : fr_key fr = false) (Hlast : t_last_pts t <> INVALID)
    (Hbig : Z.abs (pts_of (t_video t) fr - t_last_pts t) > u64 (f_jump cf * f_scale cf))
    (Hm : t_last_dts t <> INVALID -> m = t_last_dts t + 1 - fr_dts fr),
    sync_track cf c i t (pts_of (t_video t) fr) (fr_created fr) (fr_id fr) (f_sync_frames cf) m = Some (c1, t1) ->
    finish c1 i t1 (pts_of (t_video t) fr) fr = SOk (c', fr') -> outcome cf c i t fr c' fr'
| out_sync : forall n c1 t1
    (Hs : syncable (t_video t) fr)
    (Hn : n = 0 /\ (t_force t = 1 \/ t_last_pts t = INVALID) \/ t_force t <> 1 /\ t_last_pts t <> INVALID /\ n = f_sync_frames cf),
    sync_track cf c i t (pts_of (t_video t) fr) (fr_created fr) (fr_id fr) n LLONG_MIN = Some (c1, t1) ->
    finish c1 i t1 (pts_of (t_video t) fr) (mk_frame (fr_id fr) (fr_created fr) (fr_dts fr) (fr_delay fr) (fr_key fr) true) = SOk (c', fr') ->
    outcome cf c i t fr c' fr'.

(* the context after the countdown *)
Definition tick (t : trk) : trk := if 1 <? t_force t then set_force (t_force t - 1) t else t.
Lemma tick_same : forall t, t_video (tick t) = t_video t /\ t_last_pts (tick t) = t_last_pts t /\ t_last_dts (tick t) = t_last_dts t /\
  t_corr (tick t) = t_corr t /\ t_log (tick t) = t_log t /\ t_index (tick t) = t_index t.
Proof. intros t. unfold tick. destruct (1 <? t_force t); repeat split. Qed.

Lemma force_sync_inv : forall cf c i t pts n fr c' fr', force_sync cf c i t pts n fr = SOk (c', fr') ->
  exists c1 t1, sync_track cf c i t pts (fr_created fr) (fr_id fr) n LLONG_MIN = Some (c1, t1) /\
  finish c1 i t1 pts (mk_frame (fr_id fr) (fr_created fr) (fr_dts fr) (fr_delay fr) (fr_key fr) true) = SOk (c', fr').
Proof.
  intros. unfold force_sync in H. cbn [fr_created fr_id] in H. destruct (sync_track _ _ _ _ _ _ _ _ _) as [[c1 t1]|]; [|discriminate].
  now exists c1, t1.
Qed.

Lemma add_frame_inv : forall cf c i fr c' fr', add_frame cf c i fr = SOk (c', fr') ->
  exists t, nth_error (c_tracks c) i = Some t /\ outcome cf c i (tick t) fr c' fr'.
Proof.
  intros cf c i fr c' fr' H. unfold add_frame in H. destruct (nth_error (c_tracks c) i) as [t0|]; [|discriminate].
  exists t0. split; [reflexivity|]. fold (tick t0) in H. set (t := tick t0) in *. clearbody t. cbv zeta in H.
  destruct (if t_video t then _ else _) as [pts|] eqn:Ep; [|discriminate].
  assert (Hp : pts = pts_of (t_video t) fr).
  { unfold pts_of. destruct (t_video t); [apply chk_some in Ep; tauto|now injection Ep]. }
  subst pts. destruct (t_video t && negb (fr_key fr)) eqn:Ev.
  - apply andb_true_iff in Ev. destruct Ev as [Ev Ek]. apply negb_true_iff in Ek.
    assert (Hns : ~ syncable (t_video t) fr) by (intros Hs; specialize (Hs Ev); congruence).
    destruct (abs_diff (pts_of (t_video t) fr) (t_last_pts t)) as [diff|] eqn:Ed; [|discriminate].
    assert (Hd : diff = Z.abs (pts_of (t_video t) fr - t_last_pts t)).
    { unfold abs_diff in Ed. destruct (t_last_pts t >? _) eqn:E; apply chk_some in Ed; lia. }
    destruct ((diff <=? _) || (t_last_pts t =? INVALID)) eqn:E1; [apply out_pass; auto; [tauto|intros _; lia]|].
    destruct (diff <=? u64 (f_jump cf * f_scale cf)) eqn:E2; [apply out_pass; auto; [tauto|intros _; lia]|].
    destruct (if negb (t_last_dts t =? INVALID) then _ else _) as [m|] eqn:Em; [|discriminate].
    destruct (sync_track _ _ _ _ _ _ _ _ _) as [[c1 t1]|] eqn:Es; [|discriminate].
    eapply out_jump with (m := m); eauto; try lia.
    intros Hl. destruct (t_last_dts t =? INVALID) eqn:E; [lia|]. cbn [negb] in Em.
    destruct (chk (t_last_dts t + 1)) as [a|] eqn:Ea; [|discriminate]. apply chk_some in Ea. apply chk_some in Em. lia.
  - assert (Hs : syncable (t_video t) fr).
    { intros Hv. rewrite Hv in Ev. cbn [andb] in Ev. now apply negb_false_iff in Ev. }
    destruct (t_force t =? 1) eqn:Ef.
    { apply force_sync_inv in H. destruct H as (c1 & t1 & H1 & H2). eapply out_sync with (n := 0); eauto. left. split; [reflexivity|lia]. }
    destruct (t_last_pts t =? INVALID) eqn:El.
    { apply force_sync_inv in H. destruct H as (c1 & t1 & H1 & H2). eapply out_sync with (n := 0); eauto. left. split; [reflexivity|lia]. }
    destruct (chk (f_back cf * f_scale cf)) as [b|] eqn:B1; [|discriminate]. apply chk_some in B1.
    destruct (chk (fr_created fr - b)) as [lo|] eqn:B2; [|discriminate]. apply chk_some in B2.
    destruct (chk (pts_of (t_video t) fr + t_corr t)) as [o|] eqn:B3; [|discriminate]. apply chk_some in B3.
    destruct (o <? lo) eqn:E1.
    { apply force_sync_inv in H. destruct H as (c1 & t1 & H1 & H2). eapply out_sync with (n := f_sync_frames cf); eauto. right. split; [lia|]. split; [lia|reflexivity]. }
    destruct (chk (f_fwd cf * f_scale cf)) as [b2|] eqn:B4; [|discriminate]. apply chk_some in B4.
    destruct (chk (fr_created fr + b2)) as [hi|] eqn:B5; [|discriminate]. apply chk_some in B5.
    destruct (o >? hi) eqn:E2.
    { apply force_sync_inv in H. destruct H as (c1 & t1 & H1 & H2). eapply out_sync with (n := f_sync_frames cf); eauto. right. split; [lia|]. split; [lia|reflexivity]. }
    apply out_pass; auto; [|tauto]. intros _. split; [lia|]. split; [lia|]. unfold within_drift. lia.
Qed.

(* --- the log --- *)
Definition live (l : slog) : bool := negb (l_seq l =? 0).
(* the valid entries, newest first *)
Definition vlog (t : trk) : list slog :=
  match t_log t, t_index t with
  | [a; b; c], 0%nat => filter live [c; b; a]
  | [a; b; c], 1%nat => filter live [a; c; b]
  | [a; b; c], 2%nat => filter live [b; a; c]
  | _, _ => []
  end.
Fixpoint desc {A} (key : A -> Z) (l : list A) : Prop :=
  match l with
  | [] => True
  | x :: r => Forall (fun y => key y < key x) r /\ desc key r
  end.
Record tinv (t : trk) (h : history) : Prop := {
  ti_shape : length (t_log t) = 3%nat /\ (t_index t < 3)%nat;
  ti_sorted : desc l_frame (vlog t);
  ti_hist : desc fst h;
  ti_in : forall l, In l (vlog t) -> In (l_frame l, l_corr l) h;
  ti_gov : forall f c l, In (f, c) h -> find (fun l => l_frame l <=? f) (vlog t) = Some l -> c = l_corr l;
  ti_last : t_last_pts t <> INVALID -> exists l v, vlog t = l :: v /\ l_corr l = t_corr t }.

Lemma desc_filter : forall A (key : A -> Z) p l, desc key l -> desc key (filter p l).
Proof.
  induction l as [|x l IH]; cbn [filter desc]; auto. intros [H1 H2]. destruct (p x); auto. cbn [desc]. split; auto.
  apply Forall_forall. intros y Hy. apply filter_In in Hy. eapply Forall_forall in H1; [exact H1|tauto].
Qed.
Lemma desc_app_l : forall A (key : A -> Z) a b, desc key (a ++ b) -> desc key a.
Proof.
  induction a as [|x a IH]; cbn [app desc]; auto. intros b [H1 H2]. split; eauto.
  apply Forall_app in H1. tauto.
Qed.
Lemma desc_all : forall A (key : A -> Z) x l y, desc key (x :: l) -> In y l -> key y < key x.
Proof. intros A key x l y [H _] Hy. eapply Forall_forall in H; eauto. Qed.

Lemma find_app_l : forall A (p : A -> bool) a b x, find p a = Some x -> find p (a ++ b) = Some x.
Proof. induction a as [|y a IH]; cbn [app find]; [discriminate|]. intros. destruct (p y); auto. Qed.
Lemma find_filter : forall A (p q : A -> bool) l, (forall x, p x = true -> q x = true) -> find p (filter q l) = find p l.
Proof.
  induction l as [|x l IH]; intros H; cbn [filter find]; auto. destruct (q x) eqn:Eq; cbn [find].
  - destruct (p x); auto.
  - destruct (p x) eqn:Ep; auto. apply H in Ep. congruence.
Qed.

(* adding an entry drops at most the oldest *)
Lemma vlog_add : forall t seq id, length (t_log t) = 3%nat -> (t_index t < 3)%nat -> seq <> 0 ->
  exists v w, vlog t = v ++ w /\ vlog (log_add t seq id) = mk_slog id (t_corr t) seq :: v.
Proof.
  intros t seq id Hl Hi Hs. unfold vlog, log_add. cbn [t_log t_index].
  destruct (t_log t) as [|a [|b [|c [|d r]]]]; try (cbn in Hl; lia).
  assert (El : live (mk_slog id (t_corr t) seq) = true) by (unfold live; cbn; lia).
  destruct (t_index t) as [|[|[|k]]]; [| | |lia]; cbv [set_nth Nat.ltb Nat.leb length firstn skipn app LOG_COUNT].
  - exists (filter live [c; b]), (filter live [a]). split.
    + change [c; b; a] with ([c; b] ++ [a]). apply filter_app.
    + cbn [filter]. rewrite El. reflexivity.
  - exists (filter live [a; c]), (filter live [b]). split.
    + change [a; c; b] with ([a; c] ++ [b]). apply filter_app.
    + cbn [filter]. rewrite El. reflexivity.
  - exists (filter live [b; a]), (filter live [c]). split.
    + change [b; a; c] with ([b; a] ++ [c]). apply filter_app.
    + cbn [filter]. rewrite El. reflexivity.
Qed.

Lemma vlog_ext : forall t t', t_log t' = t_log t -> t_index t' = t_index t -> vlog t' = vlog t.
Proof. intros t t' H1 H2. unfold vlog. now rewrite H1, H2. Qed.

(* the best entry is the newest one before [next] *)
Definition best_of (next : Z) (b : option slog) (l : list slog) : option slog :=
  fold_left (fun best cur =>
    if l_seq cur =? 0 then best
    else if next <=? l_frame cur then best
    else match best with
         | None => Some cur
         | Some b => if l_frame b <? l_frame cur then Some cur else best
         end) l b.
Lemma best_none : forall next l, best_of next None l = None -> Forall (fun x => live x = true -> next <= l_frame x) l.
Proof.
  intros next l. assert (G : forall b, best_of next b l = None -> b = None /\ Forall (fun x => live x = true -> next <= l_frame x) l).
  { induction l as [|x l IH]; intros b H; unfold best_of in *; cbn [fold_left] in H; [now split|].
    destruct (l_seq x =? 0) eqn:E1.
    { destruct (IH _ H) as [Hb Hf]. split; auto. constructor; auto. unfold live. rewrite E1. discriminate. }
    destruct (next <=? l_frame x) eqn:E2.
    { destruct (IH _ H) as [Hb Hf]. split; auto. constructor; auto. lia. }
    destruct (IH _ H) as [Hb Hf]. destruct b as [b|]; [destruct (l_frame b <? l_frame x); discriminate|discriminate]. }
  intros H. now apply G in H.
Qed.
Lemma best_some : forall next l b x, best_of next b l = Some x ->
  (b = Some x \/ (In x l /\ live x = true /\ l_frame x < next)) /\
  (forall y, b = Some y -> l_frame y <= l_frame x) /\
  (forall y, In y l -> live y = true -> l_frame y < next -> l_frame y <= l_frame x).
Proof.
  intros next. induction l as [|z l IH]; intros b x H; unfold best_of in *; cbn [fold_left] in H.
  - subst b. split; [now left|]. split; [intros y E; injection E as ->; lia|intros y []].
  - destruct (l_seq z =? 0) eqn:E1.
    { destruct (IH _ _ H) as (A & B & C). split; [destruct A as [A|A]; [now left|right; cbn; tauto]|]. split; auto.
      intros y [->|Hy] Hl Hn; [unfold live in Hl; rewrite E1 in Hl; discriminate|auto]. }
    assert (Hz : live z = true) by (unfold live; rewrite E1; reflexivity).
    destruct (next <=? l_frame z) eqn:E2.
    { destruct (IH _ _ H) as (A & B & C). split; [destruct A as [A|A]; [now left|right; cbn; tauto]|]. split; auto.
      intros y [->|Hy] Hl Hn; [lia|auto]. }
    assert (Ez : l_frame z < next) by lia.
    destruct b as [b|]; [destruct (l_frame b <? l_frame z) eqn:E3|]; destruct (IH _ _ H) as (A & B & C).
    + split; [destruct A as [A|A]; [injection A as <-; right; cbn; auto|right; cbn; tauto]|]. specialize (B z eq_refl). split.
      * intros y Ey. injection Ey as <-. lia.
      * intros y [->|Hy] Hl Hn; [lia|auto].
    + split; [destruct A as [A|A]; [now left|right; cbn; tauto]|]. split; auto. specialize (B b eq_refl).
      intros y [->|Hy] Hl Hn; [lia|auto].
    + split; [destruct A as [A|A]; [injection A as <-; right; cbn; auto|right; cbn; tauto]|]. specialize (B z eq_refl). split; [discriminate|].
      intros y [->|Hy] Hl Hn; [lia|auto].
Qed.

Lemma vlog_In : forall t x, length (t_log t) = 3%nat -> (t_index t < 3)%nat -> (In x (vlog t) <-> In x (t_log t) /\ live x = true).
Proof.
  intros t x Hl Hi. unfold vlog. destruct (t_log t) as [|a [|b [|c [|d r]]]]; try (cbn in Hl; lia).
  destruct (t_index t) as [|[|[|k]]]; [| | |lia]; rewrite filter_In; cbn [In]; tauto.
Qed.

Lemma desc_key_inj : forall A (key : A -> Z) l x y, desc key l -> In x l -> In y l -> key x = key y -> x = y.
Proof.
  induction l as [|z l IH]; intros x y Hd Hx Hy E; [destruct Hx|]. destruct Hx as [->|Hx], Hy as [->|Hy]; auto.
  - pose proof (desc_all _ key _ _ _ Hd Hy). lia.
  - pose proof (desc_all _ key _ _ _ Hd Hx). lia.
  - destruct Hd as [_ Hd]. now apply IH.
Qed.

Lemma get_log_head : forall t next l, length (t_log t) = 3%nat -> (t_index t < 3)%nat -> desc l_frame (vlog t) ->
  get_log t next = Some l ->
  In l (vlog t) /\ l_frame l < next /\ exists v, filter (fun l => l_frame l <? next) (vlog t) = l :: v.
Proof.
  intros t next l Hl Hi Hd H. change (get_log t next) with (best_of next None (t_log t)) in H.
  apply best_some in H. destruct H as ([A|(A1 & A2 & A3)] & _ & C); [discriminate|].
  assert (Hin : In l (vlog t)) by (apply vlog_In; auto). split; auto. split; auto.
  assert (C' : forall y, In y (vlog t) -> l_frame y < next -> l_frame y <= l_frame l).
  { intros y Hy Hn. apply vlog_In in Hy; auto. destruct Hy. auto. }
  clear -Hd Hin A3 C'. induction (vlog t) as [|z v IH]; [destruct Hin|]. cbn [filter]. destruct (l_frame z <? next) eqn:E.
  - exists (filter (fun l => l_frame l <? next) v). f_equal. destruct Hin as [->|Hin]; auto.
    pose proof (desc_all _ l_frame _ _ _ Hd Hin). specialize (C' z (or_introl eq_refl) ltac:(lia)). lia.
  - destruct Hin as [->|Hin]; [lia|]. destruct Hd as [_ Hd]. apply IH; auto. intros y Hy. apply C'. now right.
Qed.

Lemma vlog_remove : forall t next v p d c f n, length (t_log t) = 3%nat -> (t_index t < 3)%nat ->
  vlog (mk_trk v p d c f n (remove_future (t_log t) next) (t_index t)) = filter (fun l => l_frame l <? next) (vlog t).
Proof.
  intros t next v p d co f n Hl Hi. unfold vlog. cbn [t_log t_index].
  destruct (t_log t) as [|a [|b [|c [|e r]]]]; try (cbn in Hl; lia). cbn [remove_future map].
  assert (G : forall l, filter live (remove_future l next) = filter (fun l => l_frame l <? next) (filter live l)).
  { induction l as [|x l IH]; auto. cbn [remove_future map filter]. destruct (next <=? l_frame x) eqn:E.
    - cbn [live l_seq]. change (live (mk_slog (l_frame x) (l_corr x) 0)) with false. cbv iota.
      destruct (live x); auto. cbn [filter]. now replace (l_frame x <? next) with false by lia.
    - destruct (live x); auto. cbn [filter]. replace (l_frame x <? next) with true by lia. now f_equal. }
  destruct (t_index t) as [|[|[|k]]]; [| | |lia].
  - exact (G [c; b; a]).
  - exact (G [a; c; b]).
  - exact (G [b; a; c]).
Qed.

(* --- the invariant is kept --- *)
Lemma tinv_same : forall t t' h, tinv t h -> t_log t' = t_log t -> t_index t' = t_index t -> t_corr t' = t_corr t ->
  (t_last_pts t' <> INVALID -> t_last_pts t <> INVALID) -> tinv t' h.
Proof.
  intros t t' h [H1 H2 H3 H4 H5 H6] E1 E2 E3 E4. constructor; rewrite ?(vlog_ext t t' E1 E2), ?E1, ?E2, ?E3; auto.
Qed.

Lemma tinv_reset : forall t h, tinv t h -> tinv (track_reset t) h.
Proof. intros t h H. eapply tinv_same; eauto. Qed.

(* a frame that is not synced *)
Lemma tinv_pass : forall t t' h id, tinv t h -> t_log t' = t_log t -> t_index t' = t_index t -> t_corr t' = t_corr t ->
  t_last_pts t <> INVALID -> (forall e, In e h -> fst e < id) -> tinv t' ((id, t_corr t) :: h).
Proof.
  intros t t' h id [H1 H2 H3 H4 H5 H6] E1 E2 E3 E4 Hid.
  constructor; rewrite ?(vlog_ext t t' E1 E2), ?E1, ?E2, ?E3; auto.
  - cbn [desc]. split; auto. apply Forall_forall. exact Hid.
  - intros l Hl. right. auto.
  - intros f c l [E|Hin] Hf; [|eauto]. injection E as <- <-. destruct (H6 E4) as (x & v & Ev & Ec). rewrite Ev in Hf. cbn [find] in Hf.
    assert (l_frame x < id). { apply (Hid (l_frame x, l_corr x)). apply H4. rewrite Ev. now left. }
    replace (l_frame x <=? id) with true in Hf by lia. injection Hf as <-. auto.
Qed.

(* a frame that is synced *)
Lemma tinv_sync : forall t t' h id seq, tinv t h -> seq <> 0 -> (forall e, In e h -> fst e < id) ->
  forall t1, t_log t1 = t_log t -> t_index t1 = t_index t -> t_log t' = t_log (log_add t1 seq id) -> t_index t' = t_index (log_add t1 seq id) ->
  t_corr t' = t_corr t1 -> tinv t' ((id, t_corr t1) :: h).
Proof.
  intros t t' h id seq [[H1 H1'] H2 H3 H4 H5 H6] Hs Hid t1 E1 E2 E3 E4 E5.
  destruct (vlog_add t1 seq id) as (v & w & V1 & V2); auto; try congruence. rewrite (vlog_ext t t1 E1 E2) in V1.
  rewrite <- (vlog_ext _ _ E3 E4) in V2.
  assert (Hv : forall l, In l v -> l_frame l < id).
  { intros l Hl. apply (Hid (l_frame l, l_corr l)). apply H4. rewrite V1. apply in_or_app. now left. }
  constructor; rewrite ?V2.
  - rewrite E3, E4. unfold log_add. cbn [t_log t_index]. unfold set_nth. rewrite E1, E2, H1.
    destruct (Nat.ltb (t_index t) 3) eqn:E; [|apply Nat.ltb_ge in E; lia]. split.
    + rewrite app_length. cbn [length]. rewrite firstn_length, skipn_length, H1. lia.
    + unfold LOG_COUNT. destruct (Nat.leb 3 (S (t_index t))) eqn:E'; [lia|]. apply Nat.leb_gt in E'. lia.
  - cbn [desc]. split; [apply Forall_forall; cbn [l_frame]; auto|]. rewrite V1 in H2. now apply desc_app_l in H2.
  - cbn [desc]. split; auto. apply Forall_forall. exact Hid.
  - intros l [<-|Hl]; [now left|]. right. apply H4. rewrite V1. apply in_or_app. now left.
  - intros f c l [E|Hin] Hf.
    + injection E as <- <-. cbn [find l_frame] in Hf. rewrite Z.leb_refl in Hf. now injection Hf as <-.
    + cbn [find l_frame] in Hf. pose proof (Hid _ Hin). cbn [fst] in H. replace (id <=? f) with false in Hf by lia.
      apply (H5 f c l Hin). rewrite V1. now apply find_app_l.
  - intros _. eexists _, _. split; [reflexivity|]. cbn [l_corr]. congruence.
Qed.

Lemma tinv_reconnect_some : forall t h next l v p d n, tinv t h -> get_log t next = Some l ->
  tinv (mk_trk v p d (l_corr l) 0 n (remove_future (t_log t) next) (t_index t)) (filter (fun e => fst e <? next) h).
Proof.
  intros t h next l v p d n [[H1 H1'] H2 H3 H4 H5 H6] Hg.
  destruct (get_log_head t next l) as (G1 & G2 & w & G3); auto.
  constructor; rewrite ?vlog_remove by auto.
  - cbn [t_log t_index]. unfold remove_future. now rewrite map_length.
  - now apply desc_filter.
  - now apply desc_filter.
  - intros x Hx. apply filter_In in Hx. destruct Hx as [Hx1 Hx2]. apply filter_In. split; auto.
  - intros f c x Hin Hf. apply filter_In in Hin. destruct Hin as [Hin Hfn]. cbn [fst] in Hfn.
    rewrite find_filter in Hf by (intros y Hy; lia). eauto.
  - intros _. rewrite G3. eexists _, _. split; [reflexivity|]. reflexivity.
Qed.

Lemma reconnect_before : forall t h next l, tinv t h -> get_log t next = Some l -> before h next = Some (l_corr l).
Proof.
  intros t h next l [[H1 H1'] H2 H3 H4 H5 H6] Hg. destruct (get_log_head t next l) as (G1 & G2 & w & G3); auto.
  specialize (H4 l G1). unfold before. destruct (find (fun e => fst e <? next) h) as [[f c]|] eqn:Ef.
  - cbn [option_map snd]. f_equal.
    assert (Hin : In (f, c) h) by (apply find_some in Ef; tauto).
    assert (Hle : l_frame l <= f).
    { clear -Ef H4 H3 G2. induction h as [|e h IH]; [destruct H4|]. cbn [find] in Ef. destruct H4 as [->|H4].
      - cbn [fst] in Ef. replace (l_frame l <? next) with true in Ef by lia. injection Ef as <- <-. lia.
      - destruct (fst e <? next) eqn:E.
        + injection Ef as ->. pose proof (desc_all _ fst _ _ _ H3 H4). cbn [fst] in *. lia.
        + destruct H3 as [_ H3]. auto. }
    assert (Hlt : f < next) by (apply find_some in Ef; destruct Ef; cbn [fst] in *; lia).
    apply (H5 f c l Hin). rewrite <- (find_filter _ _ (fun l => l_frame l <? next)) by (intros y Hy; lia).
    rewrite G3. cbn [find]. now replace (l_frame l <=? f) with true by lia.
  - exfalso. pose proof (find_none _ _ Ef _ H4). cbn [fst] in *. lia.
Qed.

(* --- the tracks of a channel --- *)
Lemma set_nth_same : forall A (l : list A) i x, (i < length l)%nat -> nth_error (set_nth l i x) i = Some x.
Proof.
  intros A l i x H. unfold set_nth. replace (Nat.ltb i (length l)) with true by lia.
  rewrite nth_error_app2 by (rewrite firstn_length; lia). rewrite firstn_length. replace (i - _)%nat with O by lia. reflexivity.
Qed.
Lemma set_nth_other : forall A (l : list A) i j x, i <> j -> nth_error (set_nth l i x) j = nth_error l j.
Proof.
  intros A l i j x H. unfold set_nth. destruct (Nat.ltb i (length l)) eqn:E; [|reflexivity]. apply Nat.ltb_lt in E.
  destruct (Nat.lt_ge_cases j i).
  - rewrite nth_error_app1 by (rewrite firstn_length; lia). rewrite <- (firstn_skipn i l) at 2.
    rewrite nth_error_app1 by (rewrite firstn_length; lia). reflexivity.
  - rewrite nth_error_app2 by (rewrite firstn_length; lia). rewrite firstn_length.
    replace (j - Nat.min i (length l))%nat with (S (j - S i)) by lia. cbn [nth_error].
    rewrite <- (firstn_skipn (S i) l) at 2. rewrite nth_error_app2 by (rewrite firstn_length; lia). rewrite firstn_length. f_equal. lia.
Qed.
Lemma nth_lt : forall A (l : list A) i x, nth_error l i = Some x -> (i < length l)%nat.
Proof. intros. apply nth_error_Some. congruence. Qed.

Lemma enable_sync_nth : forall ts skip n j, nth_error (enable_sync ts skip n) j =
  option_map (fun t => if Nat.eqb j skip then t else set_force n t) (nth_error ts j).
Proof.
  intros ts skip n j. unfold enable_sync. rewrite nth_error_map.
  assert (G : forall (ts : list trk) k, nth_error (combine (seq k (length ts)) ts) j = option_map (fun t => ((k + j)%nat, t)) (nth_error ts j)).
  { clear. revert j. induction j as [|j IH]; intros [|t ts] k; cbn; auto. { now rewrite Nat.add_0_r. }
    rewrite IH. destruct (nth_error ts j); cbn; auto. do 2 f_equal. lia. }
  rewrite (G ts 0%nat). destruct (nth_error ts j); reflexivity.
Qed.
Lemma enable_sync_length : forall ts skip n, length (enable_sync ts skip n) = length ts.
Proof. intros. unfold enable_sync. rewrite map_length, combine_length, seq_length. lia. Qed.

(* another track is at most told to sync *)
Lemma sync_other : forall cf c i t pts cr id n m c' t' j u, sync_track cf c i t pts cr id n m = Some (c', t') -> j <> i ->
  nth_error (c_tracks c) j = Some u -> exists k, nth_error (c_tracks c') j = Some (set_force k u) .
Proof.
  intros cf c i t pts cr id n m c' t' j u H Hj Hu.
  assert (Hsame : set_force (t_force u) u = u) by (destruct u; reflexivity).
  destruct (sync_track_inv _ _ _ _ _ _ _ _ _ _ _ H) as (corr & reuse & tc & A & B & C & D & E). destruct reuse.
  - destruct (D eq_refl) as (_ & _ & _ & _ & ->). exists (t_force u). now rewrite Hsame.
  - destruct (E eq_refl) as (_ & _ & _ & ->). destruct (_ && _).
    + exists n. rewrite enable_sync_nth, Hu. cbn [option_map]. destruct (Nat.eqb j i) eqn:Ej; [apply Nat.eqb_eq in Ej; lia|reflexivity].
    + exists (t_force u). now rewrite Hsame.
Qed.
Lemma sync_length : forall cf c i t pts cr id n m c' t', sync_track cf c i t pts cr id n m = Some (c', t') ->
  length (c_tracks c') = length (c_tracks c).
Proof.
  intros cf c i t pts cr id n m c' t' H.
  destruct (sync_track_inv _ _ _ _ _ _ _ _ _ _ _ H) as (corr & reuse & tc & A & B & C & D & E). destruct reuse.
  - destruct (D eq_refl) as (_ & _ & _ & _ & ->). reflexivity.
  - destruct (E eq_refl) as (_ & _ & _ & ->). destruct (_ && _); auto using enable_sync_length.
Qed.

Lemma add_frame_other : forall cf c i fr c' fr' j u, add_frame cf c i fr = SOk (c', fr') -> j <> i ->
  nth_error (c_tracks c) j = Some u -> exists k, nth_error (c_tracks c') j = Some (set_force k u).
Proof.
  intros cf c i fr c' fr' j u H Hj Hu.
  assert (Hsame : set_force (t_force u) u = u) by (destruct u; reflexivity).
  apply add_frame_inv in H. destruct H as (t & Ht & [Hk _ H|m c1 t1 _ _ _ _ _ Hs H|n c1 t1 _ _ Hs H]);
    apply finish_inv in H; destruct H as (_ & _ & _ & _ & _ & _ & -> & _ & _ & _).
  - exists (t_force u). rewrite set_nth_other by auto. now rewrite Hsame.
  - destruct (sync_other _ _ _ _ _ _ _ _ _ _ _ j u Hs Hj Hu) as [k Hk]. exists k. now rewrite set_nth_other by auto.
  - destruct (sync_other _ _ _ _ _ _ _ _ _ _ _ j u Hs Hj Hu) as [k Hk]. exists k. now rewrite set_nth_other by auto.
Qed.

Lemma seq_next : forall s, 0 <= s -> s + 1 < 2 ^ 32 -> (s + 1) mod 2 ^ 32 = s + 1.
Proof. intros. apply Z.mod_small. lia. Qed.

Lemma add_frame_seq : forall cf c i fr c' fr', add_frame cf c i fr = SOk (c', fr') -> 0 <= c_seq c -> c_seq c + 1 < 2 ^ 32 ->
  0 <= c_seq c'.
Proof.
  intros cf c i fr c' fr' H H0 H1.
  apply add_frame_inv in H. destruct H as (t & Ht & [Hk _ H|m c1 t1 _ _ _ _ _ Hs H|n c1 t1 _ _ Hs H]);
    apply finish_inv in H; destruct H as (_ & _ & _ & _ & _ & _ & _ & -> & _ & _); auto;
    destruct (sync_track_inv _ _ _ _ _ _ _ _ _ _ _ Hs) as (corr & reuse & tc & -> & _); rewrite seq_next; lia.
Qed.

Definition linv (i : nat) (c : chan) (h : history) : Prop :=
  0 <= c_seq c /\ forall t, nth_error (c_tracks c) i = Some t -> tinv t h.

Lemma tinv_new : forall v, tinv (track_new v) [].
Proof.
  intros v. constructor; cbn; auto.
  - intros f c l [].
  - intros H. exfalso. apply H. reflexivity.
Qed.

Lemma add_frame_own : forall cf c i fr c' fr' t h, add_frame cf c i fr = SOk (c', fr') -> nth_error (c_tracks c) i = Some t ->
  0 <= c_seq c -> c_seq c + 1 < 2 ^ 32 -> tinv t h -> (forall e, In e h -> fst e < fr_id fr) ->
  (t_last_pts t = INVALID -> syncable (t_video t) fr) ->
  exists t', nth_error (c_tracks c') i = Some t' /\ tinv t' ((fr_id fr, fr_dts fr' - fr_dts fr) :: h).
Proof.
  intros cf c i fr c' fr' t h H Ht H0 H1 Hi Hid Hf.
  pose proof (nth_lt _ _ _ _ Ht) as Hlt. destruct (tick_same t) as (T1 & T2 & T3 & T4 & T5 & T6).
  assert (Hseq : c_seq c + 1 <> 0) by lia.
  apply add_frame_inv in H. destruct H as (t0 & Ht0 & H). rewrite Ht in Ht0. injection Ht0 as <-.
  destruct H as [Hk _ H|m c1 t1 _ _ _ _ _ Hs H|n c1 t1 _ _ Hs H];
    apply finish_inv in H; destruct H as (D & _ & _ & _ & _ & _ & -> & _ & _ & _).
  - rewrite set_nth_same by auto. eexists. split; [reflexivity|]. rewrite D, T4.
    replace (fr_dts fr + t_corr t - fr_dts fr) with (t_corr t) by lia.
    apply tinv_pass; auto; cbn [t_log t_index t_corr]; auto.
    intros E. destruct (Hk ltac:(rewrite T1; auto)) as (K1 & _). rewrite T2 in K1. congruence.
  - pose proof (sync_length _ _ _ _ _ _ _ _ _ _ _ Hs) as Hlen. rewrite set_nth_same by lia. eexists. split; [reflexivity|].
    destruct (sync_track_inv _ _ _ _ _ _ _ _ _ _ _ Hs) as (corr & reuse & tc & A & B & _).
    rewrite D. replace (fr_dts fr + t_corr t1 - fr_dts fr) with (t_corr t1) by lia.
    rewrite A, (seq_next (c_seq c)) in B by lia. set (t2 := mk_trk _ _ _ _ _ _ _ _) in B.
    replace (t_corr t1) with (t_corr t2) by now rewrite B.
    eapply tinv_sync with (t := t) (t1 := t2); eauto; unfold t2; cbn [t_log t_index t_corr]; auto; now rewrite B.
  - pose proof (sync_length _ _ _ _ _ _ _ _ _ _ _ Hs) as Hlen. rewrite set_nth_same by lia. eexists. split; [reflexivity|].
    destruct (sync_track_inv _ _ _ _ _ _ _ _ _ _ _ Hs) as (corr & reuse & tc & A & B & _).
    cbn [fr_dts] in D. rewrite D. replace (fr_dts fr + t_corr t1 - fr_dts fr) with (t_corr t1) by lia.
    rewrite A, (seq_next (c_seq c)) in B by lia. set (t2 := mk_trk _ _ _ _ _ _ _ _) in B.
    replace (t_corr t1) with (t_corr t2) by now rewrite B.
    eapply tinv_sync with (t := t) (t1 := t2); eauto; unfold t2; cbn [t_log t_index t_corr]; auto; now rewrite B.
Qed.

Lemma tinv_set_force : forall t h k, tinv t h -> tinv (set_force k t) h.
Proof. intros. eapply tinv_same; eauto. Qed.

Lemma tinv_none : forall t h next, tinv t h -> Forall (fun l => l_seq l = 0) (t_log t) -> tinv t (filter (fun e => fst e <? next) h).
Proof.
  intros t h next [[H1 H1'] H2 H3 H4 H5 H6] Hz.
  assert (E : vlog t = []).
  { destruct (vlog t) as [|l v] eqn:E; auto. assert (Hin : In l (vlog t)) by (rewrite E; now left).
    apply vlog_In in Hin; auto. destruct Hin as [Hin Hl]. eapply Forall_forall in Hz; eauto. unfold live in Hl. rewrite Hz in Hl. discriminate. }
  constructor; rewrite ?E in *; auto.
  - now apply desc_filter.
  - intros l [].
  - intros f c l _ Hf. discriminate.
Qed.

Lemma life_inv : forall cf i c h, life true cf i c h -> linv i c h.
Proof.
  intros cf i c h H. induction H as [ts corr Hts|c h t fr c' fr' Hl IH Ht Hid Hid0 Hf Hs Ha|c h j fr c' fr' Hl IH Hj Hs Ha
    |c h j t Hl IH Ht|c h t next pts dts t' Hl IH Ht Hstrict Hr|c h j t next pts dts t' Hl IH Hj Ht Hr].
  - split; [cbn; lia|]. intros t Ht. cbn [c_tracks] in Ht. apply nth_error_In in Ht. destruct (Hts t Ht) as [v ->]. apply tinv_new.
  - destruct IH as [I1 I2]. split; [eapply add_frame_seq; eauto|].
    destruct (add_frame_own _ _ _ _ _ _ _ h Ha Ht I1 Hs (I2 _ Ht) Hid Hf) as (t' & E & G). intros u Hu. rewrite E in Hu. now injection Hu as <-.
  - destruct IH as [I1 I2]. split; [eapply add_frame_seq; eauto|]. intros u Hu.
    destruct (nth_error (c_tracks c) i) as [t|] eqn:Et.
    + destruct (add_frame_other _ _ _ _ _ _ i t Ha ltac:(auto) Et) as [k Hk]. rewrite Hk in Hu. injection Hu as <-.
      apply tinv_set_force. auto.
    + exfalso. apply nth_error_None in Et. apply nth_lt in Hu.
      apply add_frame_inv in Ha. destruct Ha as (t & Ht & Ha).
      assert (L : length (c_tracks c') = length (c_tracks c)).
      { destruct Ha as [Hk _ H|m c1 t1 _ _ _ _ _ Hsy H|n c1 t1 _ _ Hsy H];
          apply finish_inv in H; destruct H as (_ & _ & _ & _ & _ & _ & -> & _ & _ & _);
          try apply sync_length in Hsy; unfold set_nth; destruct (Nat.ltb _ _) eqn:E; try congruence; apply Nat.ltb_lt in E;
          rewrite app_length; cbn [length]; rewrite firstn_length, skipn_length; lia. }
      lia.
  - destruct IH as [I1 I2]. split; [exact I1|]. cbn [c_tracks]. intros u Hu. destruct (Nat.eq_dec j i) as [->|E].
    + rewrite set_nth_same in Hu by (eapply nth_lt; eauto). injection Hu as <-. apply tinv_reset. auto.
    + rewrite set_nth_other in Hu by auto. auto.
  - destruct IH as [I1 I2]. split; [exact I1|]. cbn [c_tracks]. intros u Hu.
    rewrite set_nth_same in Hu by (eapply nth_lt; eauto). injection Hu as <-. unfold track_reconnect in Hr.
    destruct (get_log t next) as [l|] eqn:El.
    + destruct (if pts =? INVALID then _ else _); [|discriminate]. injection Hr as <-. apply tinv_reconnect_some; auto.
    + injection Hr as <-. destruct (Hstrict eq_refl) as [Hn|Hz]; [congruence|]. apply tinv_reset. apply tinv_none; auto.
  - destruct IH as [I1 I2]. split; [exact I1|]. cbn [c_tracks]. intros u Hu. rewrite set_nth_other in Hu by auto. auto.
Qed.

(* --- a sync does not overflow --- *)
Lemma round_small : forall n m, 0 < m <= 2 ^ 62 -> - 2 ^ 62 <= n <= 2 ^ 62 ->
  exists r, round_multiple n m = Some r /\ 0 <= r < 2 ^ 64 /\
  (- (m / 2) <= n -> r = (n + m / 2) / m * m) /\
  (n < - (m / 2) -> n - m < r - 2 ^ 64 <= n + m / 2).
Proof.
  intros n m Hm Hn. unfold round_multiple. replace (m =? 0) with false by lia. eexists. split; [reflexivity|].
  split; [unfold u64; apply Z.mod_pos_bound; lia|]. pose proof (Z.div_mod m 2). pose proof (Z.mod_pos_bound m 2).
  assert (Hu : u64 (u64 n + m / 2) = u64 (n + m / 2)) by (unfold u64; apply Zplus_mod_idemp_l). rewrite Hu.
  split; intros Hr.
  - rewrite (u64_small (n + m / 2)) by lia.
    pose proof (Z.div_mod (n + m / 2) m). pose proof (Z.mod_pos_bound (n + m / 2) m). apply u64_small.
    assert (0 <= (n + m / 2) / m) by (apply Z.div_pos; lia). nia.
  - assert (E : u64 (n + m / 2) = n + m / 2 + 2 ^ 64).
    { unfold u64. rewrite <- (Z.mod_small (n + m / 2 + 2 ^ 64) (2 ^ 64)) by lia.
      replace (n + m / 2 + 2 ^ 64) with (n + m / 2 + 1 * 2 ^ 64) by lia. now rewrite Z.mod_add by lia. }
    rewrite E. set (x := n + m / 2 + 2 ^ 64) in *.
    pose proof (Z.div_mod x m). pose proof (Z.mod_pos_bound x m). assert (Hq : x / m * m = x - x mod m) by nia.
    rewrite Hq. rewrite u64_small by lia. lia.
Qed.

Lemma sync_track_total : forall cf c i t pts created id n m,
  1000 <= f_scale cf < 2 ^ 39 ->
  - 2 ^ 61 <= created - pts <= 2 ^ 61 -> m = LLONG_MIN \/ - 2 ^ 61 <= m <= 2 ^ 61 -> - 2 ^ 61 <= c_corr c <= 2 ^ 61 ->
  exists r, sync_track cf c i t pts created id n m = Some r.
Proof.
  intros cf c i t pts created id n m Hsc Hd Hm Hc. unfold sync_track. rewrite chk_ok by lia. cbv zeta.
  set (tc := if created - pts <? m then m else created - pts).
  assert (Htc : - 2 ^ 61 <= tc <= 2 ^ 61) by (unfold tc; destruct (created - pts <? m) eqn:E; unfold LLONG_MIN in *; lia).
  rewrite (chk_ok (tc - c_corr c)) by lia.
  assert (Hs : 1 <= f_scale cf / 1000 < 2 ^ 30).
  { split; [apply Z.div_le_lower_bound; lia|apply Z.div_lt_upper_bound; lia]. }
  assert (Hw : wrap_value (f_scale cf) = 2 ^ 32 * (f_scale cf / 1000)) by (unfold wrap_value; apply u64_small; lia).
  set (w := wrap_value (f_scale cf)) in *. assert (Hwr : 0 < w <= 2 ^ 62) by lia.
  destruct (round_small (tc - c_corr c) w Hwr) as (r & Er & R1 & R2 & R3); [lia|]. rewrite Er.
  pose proof (Z.div_mod w 2). pose proof (Z.mod_pos_bound w 2).
  set (cc := i64 (c_corr c + r)).
  assert (Hcc : - 2 ^ 63 <= cc - tc < 2 ^ 63 /\ - 2 ^ 63 < cc - tc).
  { destruct (Z_lt_le_dec (tc - c_corr c) (- (w / 2))) as [Hneg|Hpos].
    - specialize (R3 Hneg). unfold cc, i64.
      replace (c_corr c + r + 2 ^ 63) with (c_corr c + (r - 2 ^ 64) + 2 ^ 63 + 1 * 2 ^ 64) by lia. rewrite Z.mod_add by lia.
      rewrite Z.mod_small by lia. lia.
    - specialize (R2 ltac:(lia)). set (d := tc - c_corr c) in *.
      pose proof (Z.div_mod (d + w / 2) w). pose proof (Z.mod_pos_bound (d + w / 2) w).
      assert (Hr : r = d + w / 2 - (d + w / 2) mod w) by nia. unfold cc. rewrite i64_small by lia. lia. }
  rewrite (chk_ok (cc - tc)) by lia. destruct (0 <=? cc - tc) eqn:E.
  - eexists. reflexivity.
  - rewrite chk_ok by lia. eexists. reflexivity.
Qed.
