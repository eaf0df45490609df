(* The invariant holds in every history. *)
From Coq Require Import ZArith List Bool Lia Arith.
From Coq Require Import ZifyBool ZifyNat.
From Verif Require Import Bytes KmpInModel KmpInSpec KmpOutModel KmpOutSpec KmpOutProofs
  KmpOutProofs2 KmpOutProofs3.
Import ListNotations.
Open Scope Z_scope.

Section Run.

Variable c : conf.
Variable pkts : list pkt.
Variable kd : kind.
Variable strict : bool.
Hypothesis Hconf : ok_conf c.
Hypothesis Hsend : Forall sendable pkts.
Hypothesis Hkd : kd = KAcked -> strict = true.

Local Notation B := (c_bufsize c).
Local Notation uinv := (uinv c pkts kd strict).
Local Notation tinv := (tinv c pkts kd strict).
Local Notation env := (env c pkts).
Local Notation has_room := (has_room c).

Definition op_ok (t : track) (o : op) : Prop :=
  is_prefix (t_stream t ++ written [o]) (encode_all pkts) /\
  (strict = true -> (forall w, op_world o = Some w -> w_mem w = []) /\
     Forall (fun m => m <> LastWritten) (op_modes o)) /\
  (kd = KAcked -> Forall (fun m => m = LastAcked) (op_modes o)) /\
  (kd = KSingle -> (length (t_ups t) + length (op_modes o) <= 1)%nat) /\
  (strict = false -> forall id w u, o = OWritable id w -> In u (t_ups t) -> u_id u = id ->
     u_queued u = false -> u_reader u <= t_appended t).

(* the outcome of an event on a live track *)
Definition fine (t t' : track) (o : op) : Prop :=
  t_dead t' = true \/
  tinv t' /\ has_room t' /\ t_dead t' = false /\
  t_stream t' = t_stream t ++ written [o] /\
  (length (t_ups t') <= length (t_ups t) + length (op_modes o))%nat.

Lemma keeps_length t t' : keeps t t' -> length (t_ups t') = length (t_ups t).
Proof.
  intros (_ & _ & _ & _ & _ & _ & H). rewrite <- (map_length u_id (t_ups t')), H, map_length.
  reflexivity.
Qed.

Lemma write_chain_inv t w data :
  tinv t -> has_room t -> t_dead t = false -> op_ok t (OWrite data w) ->
  exists t', write_chain c t w data = Next t' /\ fine t t' (OWrite data w).
Proof.
  intros T Hr Hd (O1 & O2 & _). unfold write_chain.
  destruct (mem_watermark_inv c pkts kd strict Hconf Hsend Hkd w (w_mem w) t T Hr Hd)
    as (t1 & E1 & R1).
  { intros S. destruct (O2 S) as [O2' _]. apply O2'. reflexivity. }
  rewrite E1. destruct R1 as [R1|(T1 & K1 & D1)].
  { rewrite R1. exists t1. split; [reflexivity|]. left. exact R1. }
  rewrite D1. pose proof K1 as (S1 & N1 & _).
  cbn [written] in O1. rewrite app_nil_r in O1.
  destruct (write_loop_inv c pkts kd strict Hconf Hsend Hkd (S (S (length data))) t1 w data)
    as (t2 & E2 & R2); auto.
  - unfold KmpOutProofs3.has_room in *. rewrite S1, N1. exact Hr.
  - rewrite S1. exact O1.
  - destruct (t_nbufs t1 =? 0); lia.
  - exists t2. split; [exact E2|]. destruct R2 as [R2|(T2 & Hr2 & D2 & S2 & U2)]; [left; exact R2|right].
    split; [exact T2|]. split; [exact Hr2|]. split; [exact D2|].
    cbn [written]. rewrite app_nil_r. split; [congruence|].
    destruct U2 as (_ & _ & _ & U2).
    rewrite <- (map_length u_id (t_ups t2)), U2, map_length, (keeps_length _ _ K1).
    lia.
Qed.

Lemma flush_inv t w :
  tinv t -> has_room t -> t_dead t = false ->
  exists t', flush c t w = Next t' /\ fine t t' (OFlush w).
Proof.
  intros T Hr Hd. unfold flush.
  destruct (append_all_inv c pkts kd strict Hconf Hsend Hkd t w T Hd) as (t1 & -> & R1).
  destruct R1 as [R1|(T1 & K1 & D1 & _)].
  { rewrite R1. exists t1. split; [reflexivity|]. left. exact R1. }
  rewrite D1. pose proof K1 as (S1 & N1 & _).
  assert (Hr1 : has_room t1) by (unfold KmpOutProofs3.has_room in *; rewrite S1, N1; exact Hr).
  destruct (send_all_inv c pkts kd strict Hconf Hsend Hkd t1 w T1 Hr1 D1) as (t2 & -> & R2).
  exists t2. split; [reflexivity|]. destruct R2 as [R2|(T2 & K2 & D2)]; [left; exact R2|right].
  pose proof K2 as (S2 & N2 & _).
  split; [exact T2|]. split; [unfold KmpOutProofs3.has_room in *; rewrite S2, N2; exact Hr1|].
  split; [exact D2|]. cbn [written op_modes length]. rewrite app_nil_r.
  split; [congruence|]. rewrite (keeps_length _ _ K2), (keeps_length _ _ K1). lia.
Qed.

Lemma sub_fine t us o :
  tinv t -> has_room t -> t_dead t = false -> written [o] = [] ->
  Forall (uinv t) us -> NoDup (map u_id us) ->
  Forall (fun u => (u_id u < t_next t)%nat) us -> (length us <= length (t_ups t))%nat ->
  fine t (set_ups t us) o.
Proof.
  intros T Hr Hd Hw H1 H2 H3 H4. right.
  split; [apply (tinv_sub c pkts kd strict Hconf); assumption|].
  split; [exact Hr|]. split; [exact Hd|]. cbn [t_stream t_ups set_ups].
  rewrite Hw, app_nil_r. split; [reflexivity|lia].
Qed.

Lemma replace_fine t u o :
  tinv t -> has_room t -> t_dead t = false -> written [o] = [] ->
  uinv t u -> fine t (set_ups t (replace (t_ups t) u)) o.
Proof.
  intros T Hr Hd Hw Hu.
  pose proof T as (T1 & T2 & T3 & T4 & T5 & T6 & T7 & T8 & T9 & T10).
  apply sub_fine; auto.
  - apply replace_forall; assumption.
  - rewrite replace_ids. exact T6.
  - apply Forall_map with (f := u_id) (P := fun i => (i < t_next t)%nat).
    rewrite replace_ids, Forall_map. exact T7.
  - unfold replace. rewrite map_length. lia.
Qed.

Lemma remove_fine t id o :
  tinv t -> has_room t -> t_dead t = false -> written [o] = [] ->
  fine t (set_ups t (remove (t_ups t) id)) o.
Proof.
  intros T Hr Hd Hw.
  pose proof T as (T1 & T2 & T3 & T4 & T5 & T6 & T7 & T8 & T9 & T10).
  apply sub_fine; auto using remove_forall, remove_nodup, remove_length.
Qed.

Lemma free_notify_fine t u o :
  tinv t -> has_room t -> t_dead t = false -> written [o] = [] ->
  fine t (free_notify t u) o.
Proof.
  intros T Hr Hd Hw. unfold free_notify.
  destruct (u_required u); [left; reflexivity|].
  destruct (remove (t_ups t) (u_id u)) eqn:E; [left; reflexivity|].
  rewrite <- E. apply remove_fine; assumption.
Qed.

Lemma republish_declined t w u : u_no_republish u = true -> republish c t w u = RepDeclined u.
Proof.
  intros H. unfold republish. destruct (t_active t); [|reflexivity]. cbn [negb].
  rewrite H, orb_true_r. reflexivity.
Qed.

Lemma upstream_error_fine t w u u1 o :
  tinv t -> has_room t -> t_dead t = false -> written [o] = [] ->
  In u (t_ups t) -> (uinv t u1 \/ u_no_republish u1 = true) ->
  exists t', upstream_error c t w u1 = Next t' /\ fine t t' o.
Proof.
  intros T Hr Hd Hw Hin [Hu|Hn]; unfold upstream_error.
  - pose proof (republish_inv c pkts kd strict Hsend Hkd t w u1
      (tinv_env c pkts kd strict t u T Hin) Hu) as R.
    destruct (republish c t w u1) as [u2|u2|u2|]; [| | |destruct R].
    + destruct R as (R1 & _). eexists. split; [reflexivity|]. apply replace_fine; auto.
    + eexists. split; [reflexivity|]. apply free_notify_fine; auto.
    + eexists. split; [reflexivity|]. apply free_notify_fine; auto.
  - rewrite republish_declined by exact Hn.
    eexists. split; [reflexivity|]. apply free_notify_fine; auto.
Qed.

(* a write event *)
Lemma write_handler_inv t w u o :
  tinv t -> has_room t -> t_dead t = false -> written [o] = [] ->
  In u (t_ups t) -> u_conn u <> None ->
  (u_queued u = false -> u_reader u <= t_appended t) ->
  exists t', write_handler c t w u = Next t' /\ fine t t' o.
Proof.
  intros T Hr Hd Hw Hin Hc Hap. unfold write_handler.
  pose proof (tinv_env c pkts kd strict t u T Hin) as He.
  pose proof (tinv_uinv c pkts kd strict t u T Hin) as Hu.
  pose proof (tinv_room c pkts kd strict t u T Hr Hin) as HR.
  assert (X : exists u1, (if u_queued u then UpOk u else send_buffered c t u) = UpOk u1 /\
     uinv t u1).
  { destruct (u_queued u) eqn:Q; [exists u; auto|].
    pose proof Hu as (pk & _ & _ & _ & _ & _ & _ & R5 & _).
    destruct (R5 Q) as [_ [Hn|[Hn Ho]]]; [contradiction|].
    destruct (send_buffered_inv c pkts kd strict Hconf t u He Hu Hn Q Ho (Hap eq_refl))
      as (u1 & E & U1 & _). exists u1. auto. }
  destruct X as (u1 & -> & U1).
  pose proof (send_chain_inv c pkts kd strict Hsend Hkd t u1 (w_send w (u_id u)) He U1 HR) as S.
  destruct (send_chain c t u1 (w_send w (u_id u))) as [u2|u2|]; [| |destruct S].
  - destruct S as (U2 & _). eexists. split; [reflexivity|]. apply replace_fine; auto.
  - subst u2. eapply upstream_error_fine; eauto.
Qed.

Lemma ack_handler_inv t w u f up off o :
  tinv t -> has_room t -> t_dead t = false -> written [o] = [] ->
  In u (t_ups t) -> u_conn u <> None ->
  exists t', ack_handler c t w u f up off = Next t' /\ fine t t' o.
Proof.
  intros T Hr Hd Hw Hin Hc. unfold ack_handler.
  pose proof (tinv_env c pkts kd strict t u T Hin) as He.
  pose proof (tinv_uinv c pkts kd strict t u T Hin) as Hu.
  pose proof (tinv_room c pkts kd strict t u T Hr Hin) as HR.
  destruct (is_acked (u_mode u)); cbn [negb].
  2:{ exists t. split; [reflexivity|]. right. split; [exact T|]. split; [exact Hr|].
      split; [exact Hd|]. rewrite Hw, app_nil_r. split; [reflexivity|lia]. }
  pose proof (ack_frames_inv c pkts kd strict Hsend Hkd t u f up off He Hu HR Hc) as S.
  destruct (ack_frames c t u f up off) as [u1|u1|]; [| |destruct S].
  - destruct S as (U1 & _). eexists. split; [reflexivity|]. apply replace_fine; auto.
  - destruct S as (N1 & _). eapply upstream_error_fine; eauto.
Qed.

Lemma same_fine t o : tinv t -> has_room t -> t_dead t = false -> written [o] = [] -> fine t t o.
Proof.
  intros T Hr Hd Hw. right. split; [exact T|]. split; [exact Hr|]. split; [exact Hd|].
  rewrite Hw, app_nil_r. split; [reflexivity|lia].
Qed.

Lemma nodup_snoc (l : list nat) x : NoDup l -> ~ In x l -> NoDup (l ++ [x]).
Proof.
  induction l as [|a l IH]; cbn; intros H Hn; [constructor; [intros []|constructor]|].
  inversion H; subst. constructor.
  - rewrite in_app_iff. cbn. intros [G|[G|[]]]; [contradiction|]. apply Hn. left. auto.
  - apply IH; [assumption|]. intros G. apply Hn. right. exact G.
Qed.

Definition pubd (t : track) (act dead : bool) : track :=
  mkTrack (t_stream t) (t_appended t) (t_nbufs t) (t_base t) (t_last_frame t)
    (t_ups t) (t_next t) true act dead.

Lemma tinv_pubd t act dead : tinv t -> tinv (pubd t act dead).
Proof.
  intros (T1 & T2 & T3 & T4 & T5 & T6 & T7 & T8 & T9 & T10).
  unfold KmpOutProofs3.tinv, pubd.
  cbn [t_stream t_appended t_nbufs t_base t_last_frame t_ups t_next t_published].
  split; [exact T1|]. split; [exact T2|]. split; [exact T3|]. split; [exact T4|].
  split; [exact T5|]. split; [exact T6|]. split; [exact T7|].
  split; [discriminate|]. split; [exact T9|].
  eapply Forall_impl; [|exact T10]. intros v.
  apply uinv_same; try reflexivity; [exact Hconf|apply T2].
Qed.

Lemma tinv_add t u act dead :
  tinv (pubd t act dead) -> 0 < t_nbufs t ->
  uinv (pubd t act dead) u -> u_id u = t_next t ->
  (kd = KSingle -> (length (t_ups t) + 1 <= 1)%nat) ->
  tinv (pubd (add_upstream t u) act dead).
Proof.
  intros (T1 & T2 & T3 & T4 & T5 & T6 & T7 & T8 & T9 & T10) Hn Hu Hid Hk.
  unfold KmpOutProofs3.tinv, pubd, add_upstream in *.
  cbn [t_stream t_appended t_nbufs t_base t_last_frame t_ups t_next t_published] in *.
  split; [exact T1|]. split; [exact T2|]. split; [exact T3|].
  split; [right; destruct T4 as [(E & _)|T4]; [lia|exact T4]|].
  split; [exact T5|].
  split.
  { rewrite map_app. cbn [map]. apply nodup_snoc; [exact T6|].
    rewrite Hid, in_map_iff. intros (x & E & Hx).
    rewrite Forall_forall in T7. specialize (T7 x Hx). lia. }
  split.
  { apply Forall_app. split.
    - eapply Forall_impl; [|exact T7]. cbn. intros a Ha. lia.
    - constructor; [lia|constructor]. }
  split; [discriminate|].
  split. { intros K. specialize (Hk K). rewrite app_length. cbn. lia. }
  apply Forall_app. split.
  - eapply Forall_impl; [|exact T10]. intros v.
    apply uinv_same; try reflexivity; [exact Hconf|apply T2].
  - constructor; [|constructor]. revert Hu.
    apply uinv_same; try reflexivity; [exact Hconf|apply T2].
Qed.

Lemma fresh_uinv t m r d :
  planned pkts t -> t_base t = 0 -> 0 < t_nbufs t -> 0 <= t_appended t ->
  (strict = true -> m <> LastWritten) -> (kd = KAcked -> m = LastAcked) ->
  uinv t (new_upstream c t None m r d).
Proof.
  intros Hp Hb Hn Ha Hs Hk. pose proof Hconf as [HB _].
  exists []. unfold new_upstream, acknowledged.
  cbn [u_reader u_acked_bytes u_acked_id u_media_info u_sent_base u_queued u_busy u_conn u_out
       u_mode encode_all frames_sent last_media_info concat map].
  rewrite Hb. change (0 * B) with 0. change (zlen []) with 0.
  split; [exists pkts; reflexivity|].
  split; [repeat split; cbn; lia|].
  split; [apply zlen_nonneg|]. split; [lia|]. split; [nia|]. split; [lia|].
  split; [intros _; split; [reflexivity|right; split; reflexivity]|].
  split; [discriminate|].
  split; [intros K; split; [auto|left; reflexivity]|].
  intros S. split; [auto|exact Ha].
Qed.

Lemma publish_inv act dead l : forall t,
  tinv (pubd t act dead) -> t_base t = 0 -> 0 < t_nbufs t ->
  (strict = true -> Forall (fun m => m <> LastWritten) (map (fun x => fst (fst x)) l)) ->
  (kd = KAcked -> Forall (fun m => m = LastAcked) (map (fun x => fst (fst x)) l)) ->
  (kd = KSingle -> (length (t_ups t) + length l <= 1)%nat) ->
  tinv (pubd (publish c t l) act dead) /\
  t_stream (publish c t l) = t_stream t /\ t_nbufs (publish c t l) = t_nbufs t /\
  length (t_ups (publish c t l)) = (length (t_ups t) + length l)%nat.
Proof.
  induction l as [|[[m r] d] l IH]; intros t T Hb Hn Hs Hk H1; cbn [publish].
  { split; [exact T|]. split; [reflexivity|]. split; [reflexivity|]. cbn [length]. lia. }
  cbn [map fst length] in Hs, Hk, H1.
  set (u := new_upstream c t None m r d).
  pose proof T as (T1 & T2 & _).
  destruct (IH (add_upstream t u)) as (I1 & I2 & I3 & I4); auto.
  - apply tinv_add; auto.
    + apply (fresh_uinv (pubd t act dead)); auto.
      * unfold pubd in T2. cbn in T2. cbn. lia.
      * intros S. specialize (Hs S). inversion Hs; auto.
      * intros K. specialize (Hk K). inversion Hk; auto.
    + intros K. specialize (H1 K). lia.
  - intros S. specialize (Hs S). inversion Hs; auto.
  - intros K. specialize (Hk K). inversion Hk; auto.
  - intros K. specialize (H1 K). unfold add_upstream. cbn [t_ups]. rewrite app_length. cbn. lia.
  - split; [exact I1|]. split; [exact I2|]. split; [exact I3|].
    rewrite I4. unfold add_upstream. cbn [t_ups]. rewrite app_length. cbn. lia.
Qed.

Lemma copy_uinv t s m r d :
  uinv t s -> 0 <= t_appended t ->
  (strict = true -> m <> LastWritten) -> (kd = KAcked -> m = LastAcked) ->
  uinv t (new_upstream c t (Some s) m r d).
Proof.
  intros (pk & P & A & R1 & R2 & R3 & R4 & R5 & R6 & R7 & R8) Ha Hs Hk.
  exists pk. destruct A as (A1 & A2 & A3 & A4).
  unfold new_upstream, acknowledged.
  cbn [u_reader u_acked_bytes u_acked_id u_media_info u_sent_base u_queued u_busy u_conn u_out
       u_mode].
  split; [exact P|]. split; [repeat split; assumption|].
  split; [exact R1|]. split; [exact R2|]. split; [exact R3|].
  split; [rewrite A2; apply zlen_nonneg|].
  split; [intros _; split; [reflexivity|right; split; reflexivity]|].
  split; [discriminate|].
  split; [intros K; split; [auto|apply R7; exact K]|].
  intros S. split; [auto|apply R8; exact S].
Qed.

Lemma ups_nonempty t u : tinv t -> In u (t_ups t) -> t_published t = true /\ 0 < t_nbufs t.
Proof.
  intros (T1 & T2 & T3 & T4 & T5 & T6 & T7 & T8 & T9 & T10) Hin. split.
  - destruct (t_published t); [reflexivity|]. destruct (T8 eq_refl) as [_ E].
    rewrite E in Hin. destruct Hin.
  - destruct T4 as [(_ & _ & E)|[H _]]; [rewrite E in Hin; destruct Hin|exact H].
Qed.

Lemma step_inv t o :
  tinv t -> has_room t -> t_dead t = false -> op_ok t o ->
  exists t', step c t o = Next t' /\ fine t t' o.
Proof.
  intros T Hr Hd Hok. unfold step. rewrite Hd.
  pose proof T as (T1 & T2 & T3 & T4 & T5 & T6 & T7 & T8 & T9 & T10).
  destruct o as [data w| |w|l|src m r d|id|id w|id f up off w|id w|id d|id].
  - apply write_chain_inv; assumption.
  - eexists. split; [reflexivity|]. right.
    split.
    { split; [exact T1|]. split; [exact T2|]. split; [cbn; lia|].
      split.
      { cbn [t_nbufs t_stream t_ups t_last_frame set_last_frame].
        destruct T4 as [T4|[Hn _]]; [left; exact T4|right; split; [exact Hn|]].
        destruct Hr as [E|E]; [lia|exact E]. }
      split; [exact T5|]. split; [exact T6|]. split; [exact T7|]. split; [exact T8|].
      split; [exact T9|]. cbn [t_ups set_last_frame].
      eapply Forall_impl; [|exact T10]. intros v.
      apply uinv_same; try reflexivity; [exact Hconf|apply T2]. }
    split; [exact Hr|]. split; [exact Hd|]. cbn [written]. rewrite app_nil_r.
    split; [reflexivity|]. cbn. lia.
  - apply flush_inv; assumption.
  - destruct (t_published t) eqn:Pub; cbn [orb].
    { exists t. split; [reflexivity|]. apply same_fine; auto. }
    destruct (t_nbufs t =? 0) eqn:Nb.
    { exists t. split; [reflexivity|]. apply same_fine; auto. }
    destruct (T8 eq_refl) as [Hb Hu0].
    destruct l as [|x l]; [eexists; split; [reflexivity|left; reflexivity]|].
    destruct Hok as (_ & O2 & O3 & O4 & _).
    destruct (publish_inv true false (x :: l) t) as (I1 & I2 & I3 & I4).
    + apply tinv_pubd. exact T.
    + exact Hb.
    + destruct T4 as [(E & _)|[H _]]; lia.
    + intros S. destruct (O2 S) as [_ G]. exact G.
    + intros K. apply O3. exact K.
    + intros K. specialize (O4 K). cbn [op_modes] in O4. rewrite map_length in O4. exact O4.
    + eexists. split; [reflexivity|]. right. split; [exact I1|].
      unfold KmpOutProofs3.has_room in *. cbn [t_stream t_nbufs t_dead t_ups].
      rewrite I2, I3, I4. cbn [written op_modes]. rewrite app_nil_r, map_length.
      split; [exact Hr|]. split; [reflexivity|]. split; [reflexivity|]. lia.
  - destruct Hok as (_ & O2 & O3 & O4 & _).
    set (s := match src with Some id => get (t_ups t) id | None => min_acked (t_ups t) end).
    assert (Hs : forall v, s = Some v -> In v (t_ups t)).
    { intros v Ev. unfold s in Ev. destruct src as [id|].
      - apply get_in in Ev. apply Ev.
      - exact (proj1 (min_acked_spec _ _ Ev)). }
    destruct s as [v|]; [|exists t; split; [reflexivity|apply same_fine; auto]].
    specialize (Hs v eq_refl).
    destruct (ups_nonempty t v T Hs) as [Pub Hn].
    assert (E : forall u, add_upstream t u = pubd (add_upstream t u) (t_active t) false).
    { intros u. unfold add_upstream, pubd. cbn. rewrite Pub, Hd. reflexivity. }
    eexists. split; [reflexivity|]. right. split.
    { rewrite E. apply tinv_add; auto.
      - apply tinv_pubd. exact T.
      - pose proof (tinv_uinv c pkts kd strict t v T Hs) as Uv.
        assert (U1 : uinv t (new_upstream c t (Some v) m r d)).
        { apply copy_uinv; [exact Uv|lia| |].
          - intros S. destruct (O2 S) as [_ G]. inversion G; auto.
          - intros K. specialize (O3 K). inversion O3; auto. }
        revert U1. apply uinv_same; try reflexivity; [exact Hconf|apply T2]. }
    cbn [written op_modes length]. rewrite app_nil_r.
    split; [exact Hr|]. split; [exact Hd|]. split; [reflexivity|].
    unfold add_upstream. cbn [t_ups]. rewrite app_length. cbn. lia.
  - destruct (get (t_ups t) id) as [u|]; [|exists t; split; [reflexivity|apply same_fine; auto]].
    destruct (remove (t_ups t) id) eqn:E; [eexists; split; [reflexivity|left; reflexivity]|].
    rewrite <- E. eexists. split; [reflexivity|]. apply remove_fine; auto.
  - destruct (get (t_ups t) id) as [u|] eqn:G;
      [|exists t; split; [reflexivity|apply same_fine; auto]].
    destruct (u_conn u) as [n|] eqn:Cn; [|exists t; split; [reflexivity|apply same_fine; auto]].
    destruct (get_in _ _ _ G) as [Gi Gid].
    apply write_handler_inv; auto; [congruence|].
    intros Q. destruct strict eqn:S.
    + pose proof (tinv_uinv c pkts kd true t u) as Hu.
      specialize (Hu T Gi). destruct Hu as (pk & _ & _ & _ & _ & _ & _ & _ & _ & _ & R8).
      apply R8. reflexivity.
    + destruct Hok as (_ & _ & _ & _ & O5). eapply (O5 S id w u); auto.
  - destruct (get (t_ups t) id) as [u|] eqn:G;
      [|exists t; split; [reflexivity|apply same_fine; auto]].
    destruct (u_conn u) as [n|] eqn:Cn; [|exists t; split; [reflexivity|apply same_fine; auto]].
    destruct (get_in _ _ _ G) as [Gi Gid].
    apply ack_handler_inv; auto. congruence.
  - destruct (get (t_ups t) id) as [u|] eqn:G;
      [|exists t; split; [reflexivity|apply same_fine; auto]].
    destruct (u_conn u) as [n|] eqn:Cn; [|exists t; split; [reflexivity|apply same_fine; auto]].
    destruct (get_in _ _ _ G) as [Gi Gid].
    eapply upstream_error_fine; eauto. left. eapply tinv_uinv; eauto.
  - destruct (get (t_ups t) id) as [u|] eqn:G;
      [|exists t; split; [reflexivity|apply same_fine; auto]].
    destruct (get_in _ _ _ G) as [Gi Gid].
    destruct (u_conn u) as [n|] eqn:Cn; [exists t; split; [reflexivity|apply same_fine; auto]|].
    destruct (u_calling u) eqn:Ca; [|exists t; split; [reflexivity|apply same_fine; auto]].
    eexists. split; [reflexivity|]. apply replace_fine; auto.
    pose proof (tinv_uinv c pkts kd strict t u T Gi)
      as (pk & P & A & R1 & R2 & R3 & R4 & R5 & R6 & R7 & R8).
    assert (Q : u_queued u = false).
    { destruct (u_queued u); [|reflexivity]. destruct (R6 eq_refl) as (pk0 & _ & L).
      destruct L as (a & b & e & g & L & _). congruence. }
    destruct (R5 Q) as [Bz _]. rewrite Q, Bz.
    exists pk. destruct d as [d|]; cbn; (split; [exact P|]); (split; [exact A|]);
      (split; [exact R1|]); (split; [exact R2|]); (split; [exact R3|]); (split; [exact R4|]);
      (split; [intros _; split; [reflexivity|right; split; reflexivity]|]);
      (split; [discriminate|]); (split; [exact R7|exact R8]).
  - destruct (get (t_ups t) id) as [u|] eqn:G;
      [|exists t; split; [reflexivity|apply same_fine; auto]].
    destruct (u_conn u) as [n|] eqn:Cn; [exists t; split; [reflexivity|apply same_fine; auto]|].
    destruct (u_calling u) eqn:Ca; [|exists t; split; [reflexivity|apply same_fine; auto]].
    eexists. split; [reflexivity|]. apply free_notify_fine; auto.
Qed.

(* the conditions on the rest of a history *)
Definition ops_ok (t : track) (ops : list op) : Prop :=
  is_prefix (t_stream t ++ written ops) (encode_all pkts) /\
  (strict = true -> memory_ok ops /\ Forall (fun m => m <> LastWritten) (modes ops)) /\
  (kd = KAcked -> Forall (fun m => m = LastAcked) (modes ops)) /\
  (kd = KSingle -> (length (t_ups t) + length (modes ops) <= 1)%nat) /\
  (strict = false -> resumes_behind c t ops).

Lemma written_cons o ops : written (o :: ops) = written [o] ++ written ops.
Proof. destruct o; cbn [written]; rewrite ?app_nil_r; reflexivity. Qed.

Lemma ops_ok_head t o ops : ops_ok t (o :: ops) -> op_ok t o.
Proof.
  intros (O1 & O2 & O3 & O4 & O5).
  unfold modes in *. cbn [map concat] in *. rewrite app_length in O4.
  split.
  { rewrite written_cons, app_assoc in O1. destruct O1 as (r & ->).
    exists (written ops ++ r). rewrite <- !app_assoc. reflexivity. }
  split.
  { intros S. destruct (O2 S) as [M F]. apply Forall_app in F. split; [|apply F].
    intros w E. apply (M o w); [left; reflexivity|exact E]. }
  split; [intros K; specialize (O3 K); apply Forall_app in O3; apply O3|].
  split; [intros K; specialize (O4 K); lia|].
  intros S. destruct (O5 S) as [H _]. exact H.
Qed.

Lemma ops_ok_tail t o ops t' :
  ops_ok t (o :: ops) -> step c t o = Next t' ->
  t_stream t' = t_stream t ++ written [o] ->
  (length (t_ups t') <= length (t_ups t) + length (op_modes o))%nat -> ops_ok t' ops.
Proof.
  intros (O1 & O2 & O3 & O4 & O5) E Es El.
  unfold modes in *. cbn [map concat] in *. rewrite app_length in O4.
  split; [rewrite Es, <- app_assoc, <- written_cons; exact O1|].
  split.
  { intros S. destruct (O2 S) as [M F]. apply Forall_app in F. split; [|apply F].
    intros x w Hx. apply M. right. exact Hx. }
  split; [intros K; specialize (O3 K); apply Forall_app in O3; apply O3|].
  split; [intros K; specialize (O4 K); fold (modes ops); unfold modes; lia|].
  intros S. destruct (O5 S) as [_ H]. apply H. exact E.
Qed.

Lemma run_dead ops : forall t, t_dead t = true -> run c t ops = Next t.
Proof.
  induction ops as [|o ops IH]; intros t D; cbn [run]; [reflexivity|].
  unfold step. rewrite D. apply IH. exact D.
Qed.

Lemma run_inv ops : forall t,
  tinv t -> has_room t -> t_dead t = false -> ops_ok t ops ->
  exists t', run c t ops = Next t' /\
    (t_dead t' = true \/
     tinv t' /\ has_room t' /\ t_dead t' = false /\ t_stream t' = t_stream t ++ written ops).
Proof.
  induction ops as [|o ops IH]; intros t T Hr Hd Hok; cbn [run].
  { exists t. split; [reflexivity|]. right. cbn [written]. rewrite app_nil_r. auto. }
  destruct (step_inv t o T Hr Hd (ops_ok_head _ _ _ Hok)) as (t1 & E & F). rewrite E.
  destruct F as [D|(T1 & R1 & D1 & S1 & L1)].
  { exists t1. split; [apply run_dead; exact D|left; exact D]. }
  destruct (IH t1 T1 R1 D1 (ops_ok_tail _ _ _ _ Hok E S1 L1)) as (t2 & E2 & F2).
  exists t2. split; [exact E2|]. destruct F2 as [D2|(T2 & R2 & D2 & S2)]; [left; exact D2|right].
  split; [exact T2|]. split; [exact R2|]. split; [exact D2|].
  rewrite S2, S1, <- app_assoc, <- written_cons. reflexivity.
Qed.

Lemma init_inv : tinv init_track /\ has_room init_track.
Proof.
  pose proof Hconf as [HB _]. split.
  - split; [exists (encode_all pkts); reflexivity|].
    unfold init_track. cbn. repeat split; auto; try lia; constructor.
  - left. reflexivity.
Qed.

End Run.

(* The classes of histories that are covered. *)
Lemma acked_only_ok c pkts ops :
  writes pkts ops -> acked_only ops -> ops_ok c pkts KAcked true init_track ops.
Proof.
  intros W (M & F). split; [exact W|]. split.
  - intros _. split; [exact M|]. eapply Forall_impl; [|exact F]. cbn. intros a ->. discriminate.
  - split; [auto|]. split; discriminate.
Qed.

Lemma one_sender_ok c pkts ops :
  writes pkts ops -> one_sender ops -> ops_ok c pkts KSingle true init_track ops.
Proof.
  intros W (M & L & F). split; [exact W|]. split; [auto|].
  split; [discriminate|]. split; [intros _; exact L|discriminate].
Qed.

Lemma one_upstream_ok c pkts ops :
  writes pkts ops -> one_upstream c ops -> ops_ok c pkts KSingle false init_track ops.
Proof.
  intros W (L & F). split; [exact W|]. split; [discriminate|].
  split; [discriminate|]. split; [intros _; exact L|intros _; exact F].
Qed.
