(* The invariant is kept by every event. *)
From Coq Require Import ZArith List Bool Lia Arith.
From Coq Require Import ZifyBool ZifyNat.
From Verif Require Import Bytes KmpInModel KmpInSpec KmpOutModel KmpOutSpec KmpOutProofs
  KmpOutProofs2.
Import ListNotations.
Open Scope Z_scope.

Lemma min_from_spec us : forall m,
  (In (min_from us m) (m :: us)) /\
  u_acked_id (min_from us m) <= u_acked_id m /\
  forall u, In u us -> u_acked_id (min_from us m) <= u_acked_id u.
Proof.
  induction us as [|v us IH]; intros m; cbn [min_from].
  - split; [left; reflexivity|]. split; [lia|]. intros u [].
  - destruct (Z.ltb_spec (u_acked_id v) (u_acked_id m)) as [L|L].
    + destruct (IH v) as (I1 & I2 & I3). split; [right; exact I1|]. split; [lia|].
      intros u [->|H]; [exact I2|apply I3; exact H].
    + destruct (IH m) as (I1 & I2 & I3). split.
      * destruct I1 as [I1|I1]; [left; exact I1|right; right; exact I1].
      * split; [exact I2|]. intros u [->|H]; [lia|apply I3; exact H].
Qed.

Lemma min_acked_spec us m : min_acked us = Some m ->
  In m us /\ forall u, In u us -> u_acked_id m <= u_acked_id u.
Proof.
  destruct us as [|v us]; [discriminate|]. cbn. intros E. injection E as <-.
  destruct (min_from_spec us v) as (I1 & I2 & I3). split; [exact I1|].
  intros u [->|H]; [exact I2|apply I3; exact H].
Qed.

Lemma for_all_spec f (Q : upstream -> Prop) us :
  (forall u, In u us ->
     match f u with UpOk u' => Q u' /\ u_id u' = u_id u | UpErr _ => True | UpBug => False end) ->
  match for_all f us with
  | AllOk us' => Forall Q us' /\ map u_id us' = map u_id us
  | AllErr => True
  | AllBug => False
  end.
Proof.
  induction us as [|u us IH]; intros H; cbn [for_all].
  - split; [constructor|reflexivity].
  - pose proof (H u (or_introl eq_refl)) as Hu.
    destruct (f u) as [u'|u'|]; auto.
    specialize (IH (fun v Hv => H v (or_intror Hv))).
    destruct (for_all f us) as [us'| |]; auto.
    destruct Hu as [Q1 I1], IH as [Q2 I2].
    split; [constructor; assumption|]. cbn. congruence.
Qed.

Lemma get_in us id u : get us id = Some u -> In u us /\ u_id u = id.
Proof.
  unfold get. intros H. apply find_some in H. destruct H as [H E].
  split; [exact H|]. apply Nat.eqb_eq. exact E.
Qed.

Lemma replace_ids us u : map u_id (replace us u) = map u_id us.
Proof.
  unfold replace. rewrite map_map. apply map_ext. intros v.
  destruct (Nat.eqb_spec (u_id v) (u_id u)) as [E|E]; [symmetry; exact E|reflexivity].
Qed.

Lemma replace_forall (P : upstream -> Prop) us u :
  Forall P us -> P u -> Forall P (replace us u).
Proof.
  intros H Hu. unfold replace. rewrite Forall_map. eapply Forall_impl; [|exact H].
  intros v Hv. cbn. destruct (Nat.eqb (u_id v) (u_id u)); assumption.
Qed.

Lemma remove_forall (P : upstream -> Prop) us id : Forall P us -> Forall P (remove us id).
Proof.
  intros H. rewrite Forall_forall in *. intros x Hx. apply filter_In in Hx. apply H, Hx.
Qed.

Lemma remove_length us id : (length (remove us id) <= length us)%nat.
Proof. unfold remove. induction us; cbn; [lia|]. destruct (negb _); cbn; lia. Qed.

Lemma remove_nodup us id : NoDup (map u_id us) -> NoDup (map u_id (remove us id)).
Proof.
  induction us as [|u us IH]; cbn; intros H; [constructor|].
  inversion H; subst. destruct (Nat.eqb (u_id u) id); cbn [negb]; [auto|].
  cbn. constructor; [|auto]. intros Hin. apply H2.
  rewrite in_map_iff in *. destruct Hin as (x & E & Hx). exists x. split; [exact E|].
  apply filter_In in Hx. apply Hx.
Qed.

Section Step.

Variable c : conf.
Variable pkts : list pkt.
Variable kd : kind.
Variable strict : bool.
Hypothesis Hconf : ok_conf c.
Hypothesis Hsend : Forall sendable pkts.
Hypothesis Hkd : kd = KAcked -> strict = true.

Local Notation B := (c_bufsize c).
Local Notation uinv := (uinv c pkts kd strict).
Local Notation env := (env c pkts).

Definition tinv (t : track) : Prop :=
  planned pkts t /\ 0 <= t_appended t <= zlen (t_stream t) /\
  t_last_frame t <= zlen (t_stream t) /\
  (t_nbufs t = 0 /\ t_stream t = [] /\ t_ups t = [] \/
   0 < t_nbufs t /\ t_last_frame t < t_nbufs t * B) /\
  0 <= t_base t /\
  NoDup (map u_id (t_ups t)) /\ Forall (fun u => (u_id u < t_next t)%nat) (t_ups t) /\
  (t_published t = false -> t_base t = 0 /\ t_ups t = []) /\
  (kd = KSingle -> (length (t_ups t) <= 1)%nat) /\
  Forall (uinv t) (t_ups t).

Definition has_room (t : track) : Prop := t_nbufs t = 0 \/ zlen (t_stream t) < t_nbufs t * B.

Lemma tinv_env t u : tinv t -> In u (t_ups t) -> env t.
Proof.
  intros (T1 & T2 & T3 & T4 & _) Hin.
  destruct T4 as [(_ & _ & E)|[T4 T4']]; [rewrite E in Hin; destruct Hin|].
  repeat split; try assumption; lia.
Qed.

Lemma tinv_room t u : tinv t -> has_room t -> In u (t_ups t) -> room c t.
Proof.
  intros (T1 & T2 & T3 & T4 & _) [E|R] Hin; [|exact R].
  destruct T4 as [(_ & _ & E')|[T4 T4']]; [rewrite E' in Hin; destruct Hin|lia].
Qed.

Lemma tinv_uinv t u : tinv t -> In u (t_ups t) -> uinv t u.
Proof.
  intros T Hin. destruct T as (_ & _ & _ & _ & _ & _ & _ & _ & _ & T10).
  rewrite Forall_forall in T10. auto.
Qed.

(* the same track with other upstreams *)
Lemma tinv_ups t us :
  tinv t -> Forall (uinv t) us -> map u_id us = map u_id (t_ups t) -> tinv (set_ups t us).
Proof.
  intros (T1 & T2 & T3 & T4 & T5 & T6 & T7 & T8 & T9 & T10) Hus Hid.
  assert (Hlen : length us = length (t_ups t)).
  { rewrite <- (map_length u_id us), Hid, map_length. reflexivity. }
  assert (Hnil : t_ups t = [] -> us = []).
  { intros E. rewrite E in Hlen. destruct us; [reflexivity|discriminate]. }
  unfold tinv. cbn [t_stream t_appended t_nbufs t_base t_last_frame t_ups t_next t_published set_ups].
  split; [exact T1|]. split; [exact T2|]. split; [exact T3|].
  split. { destruct T4 as [(A & A1 & A2)|A]; [left; auto|right; exact A]. }
  split; [exact T5|]. split; [rewrite Hid; exact T6|].
  split. { apply Forall_map with (f := u_id) (P := fun i => (i < t_next t)%nat).
           rewrite Hid. rewrite Forall_map. exact T7. }
  split. { intros P. destruct (T8 P). auto. }
  split; [intros K; rewrite Hlen; auto|].
  eapply Forall_impl; [|exact Hus]. intros u.
  apply uinv_same; auto; apply T2.
Qed.

Lemma tinv_sub t us :
  tinv t -> Forall (uinv t) us -> NoDup (map u_id us) ->
  Forall (fun u => (u_id u < t_next t)%nat) us -> (length us <= length (t_ups t))%nat ->
  tinv (set_ups t us).
Proof.
  intros (T1 & T2 & T3 & T4 & T5 & T6 & T7 & T8 & T9 & T10) Hus Hnd Hlt Hlen.
  assert (Hnil : t_ups t = [] -> us = []).
  { intros E. rewrite E in Hlen. destruct us; [reflexivity|cbn in Hlen; lia]. }
  unfold tinv. cbn [t_stream t_appended t_nbufs t_base t_last_frame t_ups t_next t_published set_ups].
  split; [exact T1|]. split; [exact T2|]. split; [exact T3|].
  split. { destruct T4 as [(A & A1 & A2)|A]; [left; auto|right; exact A]. }
  split; [exact T5|]. split; [exact Hnd|]. split; [exact Hlt|].
  split. { intros P. destruct (T8 P). auto. }
  split; [intros K; specialize (T9 K); lia|].
  eapply Forall_impl; [|exact Hus]. intros u.
  apply uinv_same; auto; apply T2.
Qed.

Lemma tinv_dead_irrelevant t b : tinv t ->
  tinv (mkTrack (t_stream t) (t_appended t) (t_nbufs t) (t_base t) (t_last_frame t) (t_ups t)
          (t_next t) (t_published t) (t_active t) b).
Proof.
  intros (T1 & T2 & T3 & T4 & T5 & T6 & T7 & T8 & T9 & T10).
  unfold tinv. cbn. split; [exact T1|]. repeat (split; [assumption|]).
  eapply Forall_impl; [|exact T10]. intros u. apply uinv_same; auto; apply T2.
Qed.

(* the upstream with the smallest acknowledged id is the furthest behind *)
Lemma min_reader t us m :
  Forall (uinv t) us -> (kd = KSingle -> (length us <= 1)%nat) ->
  min_acked us = Some m -> In m us /\ forall u, In u us -> u_reader m <= u_reader u.
Proof.
  intros Hus HS Hm. pose proof (min_acked_spec us m Hm) as [Hin Hmin].
  split; [exact Hin|]. intros u Hu.
  destruct kd eqn:K.
  - rewrite Forall_forall in Hus.
    destruct (Hus m Hin) as (pm & Pm & Am & _ & _ & _ & _ & _ & _ & Km & _).
    destruct (Hus u Hu) as (pu & Pu & Au & _ & _ & _ & _ & _ & _ & Ku & _).
    destruct (Km eq_refl) as [_ Em]. destruct (Ku eq_refl) as [_ Eu].
    specialize (Hmin u Hu).
    destruct Am as (M1 & _ & M3 & _). destruct Au as (U1 & _ & U3 & _).
    assert (Hpre : is_prefix pm pu).
    { destruct (Z.lt_ge_cases (frames_sent pm) (frames_sent pu)) as [L|L].
      - eapply frames_sent_le; eassumption.
      - rewrite (ends_with_frame_unique pkts pm pu); auto; [apply is_prefix_refl|lia]. }
    apply prefix_zlen in Hpre. lia.
  - specialize (HS eq_refl).
    destruct us as [|x [|y us]]; [destruct Hin| |cbn in HS; lia].
    destruct Hin as [->|[]]. destruct Hu as [->|[]]. lia.
Qed.

Lemma free_upto_inv t m :
  tinv t -> min_acked (t_ups t) = Some m ->
  tinv (free_upto c t (u_reader m)) /\
  free_upto c t (u_reader m) = set_base t (u_reader m / B).
Proof.
  intros T Hm. pose proof T as (T1 & T2 & T3 & T4 & T5 & T6 & T7 & T8 & T9 & T10).
  destruct (min_reader t (t_ups t) m T10 T9 Hm) as [Hin Hle].
  pose proof (tinv_uinv t m T Hin) as Um.
  destruct Um as (pk & P & A & R1 & R2 & R3 & _).
  pose proof (HB c Hconf) as HB.
  assert (D1 : t_base t <= u_reader m / B) by (apply Z.div_le_lower_bound; lia).
  assert (D2 : u_reader m / B < t_nbufs t) by (apply Z.div_lt_upper_bound; lia).
  assert (EQ : free_upto c t (u_reader m) = set_base t (u_reader m / B)).
  { unfold free_upto.
    destruct (Z.leb_spec (t_base t) (u_reader m / B)); [|lia].
    destruct (Z.ltb_spec (u_reader m / B) (t_nbufs t)); [|lia]. reflexivity. }
  split; [|exact EQ]. rewrite EQ.
  unfold tinv. cbn [t_stream t_appended t_nbufs t_base t_last_frame t_ups t_next t_published set_base].
  split; [exact T1|]. split; [exact T2|]. split; [exact T3|]. split; [exact T4|].
  split; [apply Z.div_pos; lia|]. split; [exact T6|]. split; [exact T7|].
  split.
  { intros Pb. destruct (T8 Pb) as [_ E]. rewrite E in Hin. destruct Hin. }
  split; [exact T9|].
  rewrite Forall_forall in *. intros u Hu. apply uinv_base; [|apply T10; exact Hu].
  specialize (Hle u Hu). pose proof (Z.mul_div_le (u_reader m) B HB). lia.
Qed.

(* what stays the same *)
Definition keeps (t t' : track) : Prop :=
  t_stream t' = t_stream t /\ t_nbufs t' = t_nbufs t /\ t_last_frame t' = t_last_frame t /\
  t_next t' = t_next t /\ t_published t' = t_published t /\ t_active t' = t_active t /\
  map u_id (t_ups t') = map u_id (t_ups t).

Lemma keeps_refl t : keeps t t.
Proof. unfold keeps; auto 10. Qed.
Lemma keeps_trans t1 t2 t3 : keeps t1 t2 -> keeps t2 t3 -> keeps t1 t3.
Proof.
  unfold keeps. intros A A'. decompose [and] A. decompose [and] A'. repeat split; congruence.
Qed.

Lemma append_all_inv t w : tinv t -> t_dead t = false ->
  exists t', append_all c t w = Next t' /\
    (t_dead t' = true \/
     tinv t' /\ keeps t t' /\ t_dead t' = false /\ t_appended t' = Z.max (t_appended t) (zlen (t_stream t))).
Proof.
  intros T Hd. unfold append_all. pose proof T as (T1 & T2 & T3 & T4 & T5 & T6 & T7 & T8 & T9 & T10).
  destruct (Z.leb_spec (zlen (t_stream t)) (t_appended t)) as [L|L].
  { exists t. split; [reflexivity|]. right. split; [exact T|]. split; [apply keeps_refl|].
    split; [exact Hd|]. lia. }
  set (data := slice (t_appended t) (zlen (t_stream t)) (t_stream t)).
  set (t0 := set_appended t (zlen (t_stream t))).
  pose proof (for_all_spec (fun u => append_buffer c t w u data) (uinv t0) (t_ups t)) as FA.
  destruct (for_all (fun u => append_buffer c t w u data) (t_ups t)) as [us| |].
  - destruct FA as [F1 F2].
    { intros u Hu. apply (append_buffer_inv c pkts kd strict Hsend Hkd t t0 w u);
        try reflexivity; [eapply tinv_env; eassumption|eapply tinv_uinv; eassumption]. }
    set (t1 := set_appended (set_ups t us) (zlen (t_stream t))).
    assert (Hlen : length us = length (t_ups t)).
    { rewrite <- (map_length u_id us), F2, map_length. reflexivity. }
    assert (T1' : tinv t1).
    { unfold tinv, t1.
      cbn [t_stream t_appended t_nbufs t_base t_last_frame t_ups t_next t_published set_ups set_appended].
      split; [exact T1|]. split; [lia|]. split; [exact T3|].
      split. { destruct T4 as [(A & A1 & A2)|A]; [|right; exact A].
               left. split; [exact A|]. split; [exact A1|].
               rewrite A2 in Hlen. destruct us; [reflexivity|discriminate]. }
      split; [exact T5|]. split; [rewrite F2; exact T6|].
      split. { apply Forall_map with (f := u_id) (P := fun i => (i < t_next t)%nat).
               rewrite F2. rewrite Forall_map. exact T7. }
      split. { intros P. destruct (T8 P) as [E E']. split; [exact E|].
               rewrite E' in Hlen. destruct us; [reflexivity|discriminate]. }
      split; [intros K; rewrite Hlen; auto|].
      eapply Forall_impl; [|exact F1]. intros u.
      apply uinv_same; try reflexivity; try exact Hconf. }
    assert (K1 : keeps t t1).
    { unfold keeps, t1. cbn. auto 10. }
    cbv zeta. destruct (min_acked us) as [m|] eqn:Hm.
    + destruct (free_upto_inv t1 m T1' Hm) as [F F'].
      eexists. split; [reflexivity|]. right. split; [exact F|].
      rewrite F'. split; [|unfold t1; cbn [t_dead t_appended set_base set_appended set_ups]; split; [exact Hd|lia]].
      unfold keeps in *. cbn. cbn in K1. exact K1.
    + exists t1. split; [reflexivity|]. right. split; [exact T1'|]. split; [exact K1|].
      unfold t1. cbn [t_dead t_appended set_appended set_ups]. split; [exact Hd|lia].
  - exists (set_dead t). split; [reflexivity|]. left. reflexivity.
  - exfalso. apply FA. intros u Hu.
    apply (append_buffer_inv c pkts kd strict Hsend Hkd t t0 w u);
        try reflexivity; [eapply tinv_env; eassumption|eapply tinv_uinv; eassumption].
Qed.

Lemma send_all_inv t w : tinv t -> has_room t -> t_dead t = false ->
  exists t', send_all c t w = Next t' /\
    (t_dead t' = true \/ tinv t' /\ keeps t t' /\ t_dead t' = false).
Proof.
  intros T Hr Hd. unfold send_all.
  destruct (w_pending w); cbn [negb].
  2:{ exists t. split; [reflexivity|]. right. auto using keeps_refl. }
  pose proof (for_all_spec (send c t w) (uinv t) (t_ups t)) as FA.
  assert (H : forall u, In u (t_ups t) ->
    match send c t w u with
    | UpOk u' => uinv t u' /\ u_id u' = u_id u
    | UpErr _ => True
    | UpBug => False
    end).
  { intros u Hu. apply send_inv; auto; [eapply tinv_env|eapply tinv_uinv|eapply tinv_room]; eassumption. }
  specialize (FA H). destruct (for_all (send c t w) (t_ups t)) as [us| |]; [| |destruct FA].
  - destruct FA as [F1 F2]. eexists. split; [reflexivity|]. right.
    split; [apply tinv_ups; auto|]. split; [unfold keeps; cbn; auto 10|exact Hd].
  - eexists. split; [reflexivity|]. left. reflexivity.
Qed.

Lemma mem_watermark_inv w needs : forall t,
  tinv t -> has_room t -> t_dead t = false -> (strict = true -> needs = []) ->
  exists t', mem_watermark c t w needs = Next t' /\
    (t_dead t' = true \/ tinv t' /\ keeps t t' /\ t_dead t' = false).
Proof.
  induction needs as [|need needs IH]; intros t T Hr Hd Hs; cbn [mem_watermark].
  { exists t. split; [reflexivity|]. right. auto using keeps_refl. }
  assert (NS : strict = false).
  { destruct strict; [|reflexivity]. specialize (Hs eq_refl). discriminate. }
  destruct (min_acked (t_ups t)) as [u|] eqn:Hm.
  2:{ exists t. split; [reflexivity|]. right. auto using keeps_refl. }
  pose proof T as (T1 & T2 & T3 & T4 & T5 & T6 & T7 & T8 & T9 & T10).
  destruct (min_reader t (t_ups t) u T10 T9 Hm) as [Hin _].
  pose proof (auto_ack_force_inv c pkts kd strict Hsend Hkd t w u need
    (tinv_env t u T Hin) (tinv_uinv t u T Hin) NS (tinv_room t u T Hr Hin)) as AI.
  destruct (auto_ack_force c t w u need) as [u' n|u'|]; [| |destruct AI].
  2:{ eexists. split; [reflexivity|]. left. reflexivity. }
  destruct AI as [U' I'].
  assert (T' : tinv (set_ups t (replace (t_ups t) u'))).
  { apply tinv_ups; [exact T| |apply replace_ids]. apply replace_forall; assumption. }
  assert (K' : keeps t (set_ups t (replace (t_ups t) u'))).
  { unfold keeps. cbn. rewrite replace_ids. auto 10. }
  cbv zeta. destruct (n =? 0).
  { eexists. split; [reflexivity|]. right. auto. }
  destruct (min_acked (t_ups (set_ups t (replace (t_ups t) u')))) as [m|] eqn:Hm'.
  2:{ eexists. split; [reflexivity|]. right. auto. }
  destruct (free_upto_inv _ m T' Hm') as [F F'].
  destruct (IH (free_upto c (set_ups t (replace (t_ups t) u')) (u_reader m))) as (t2 & E2 & R2);
    try exact F; try exact Hr; try exact Hd; [intros S; congruence|].
  - exists t2. split; [exact E2|].
    destruct R2 as [R2|(R2 & K2 & D2)]; [left; exact R2|right].
    split; [exact R2|]. split; [|exact D2].
    eapply keeps_trans; [exact K'|]. eapply keeps_trans; [|exact K2].
    rewrite F'. unfold keeps. cbn. auto 10.
Qed.

(* writing *)
Lemma tinv_stream t x :
  tinv t -> is_prefix (t_stream t ++ x) (encode_all pkts) -> 0 < t_nbufs t ->
  tinv (set_stream t (t_stream t ++ x)).
Proof.
  intros (T1 & T2 & T3 & T4 & T5 & T6 & T7 & T8 & T9 & T10) Hp Hn.
  pose proof (zlen_nonneg x).
  unfold tinv. cbn [t_stream t_appended t_nbufs t_base t_last_frame t_ups t_next t_published set_stream].
  rewrite zlen_app.
  split; [exact Hp|]. split; [lia|]. split; [lia|].
  split; [right; destruct T4 as [(E & _)|T4]; [lia|exact T4]|].
  repeat (split; [assumption|]).
  eapply Forall_impl; [|exact T10]. intros u.
  apply (uinv_mono c pkts kd strict Hconf t _ u x); try reflexivity; cbn; lia.
Qed.

Lemma tinv_nbufs t n : tinv t -> t_nbufs t <= n -> 0 < n -> tinv (set_nbufs t n).
Proof.
  intros (T1 & T2 & T3 & T4 & T5 & T6 & T7 & T8 & T9 & T10) Hn Hp.
  pose proof (HB c Hconf).
  unfold tinv. cbn [t_stream t_appended t_nbufs t_base t_last_frame t_ups t_next t_published set_nbufs].
  split; [exact T1|]. split; [exact T2|]. split; [exact T3|].
  split. { right. split; [exact Hp|].
    destruct T4 as [(E & E1 & _)|[T4 T4']]; [|nia].
    rewrite E1 in T3. unfold zlen in T3. cbn in T3. nia. }
  repeat (split; [assumption|]).
  eapply Forall_impl; [|exact T10]. intros u.
  apply (uinv_mono c pkts kd strict Hconf t _ u []); cbn; rewrite ?app_nil_r; auto; lia.
Qed.

Definition same_ups (t t' : track) : Prop :=
  t_next t' = t_next t /\ t_published t' = t_published t /\
  t_active t' = t_active t /\ map u_id (t_ups t') = map u_id (t_ups t).

Lemma write_loop_inv fuel : forall t w data,
  tinv t -> has_room t -> t_dead t = false ->
  is_prefix (t_stream t ++ data) (encode_all pkts) ->
  (S (length data) + (if (t_nbufs t =? 0)%Z then 1 else 0) <= fuel)%nat ->
  exists t', write_loop fuel c t w data = Next t' /\
    (t_dead t' = true \/
     tinv t' /\ has_room t' /\ t_dead t' = false /\ t_stream t' = t_stream t ++ data /\
     same_ups t t').
Proof.
  induction fuel as [|fuel IH]; intros t w data T Hr Hd Hp Hf; [lia|].
  cbn [write_loop]. pose proof (HB c Hconf) as HB'.
  destruct data as [|b data].
  { destruct (send_all_inv t w T Hr Hd) as (t' & E & R). exists t'. split; [exact E|].
    destruct R as [R|(R & (K1 & K2 & K3 & K4 & K5 & K6 & K7) & D)]; [left; exact R|right].
    split; [exact R|]. split; [unfold has_room; rewrite K1, K2; exact Hr|].
    rewrite app_nil_r. unfold same_ups. auto 10. }
  set (d := b :: data) in *.
  set (rm := Z.to_nat (t_nbufs t * B - zlen (t_stream t))).
  cbv zeta. fold rm.
  change (zlen (t_stream (set_stream t (t_stream t ++ firstn rm d))))
    with (zlen (t_stream t ++ firstn rm d)).
  assert (Hp1 : is_prefix (t_stream t ++ firstn rm d) (encode_all pkts)).
  { destruct Hp as [r Hp]. exists (skipn rm d ++ r).
    rewrite <- (firstn_skipn rm d) in Hp. rewrite Hp, <- !app_assoc. reflexivity. }
  assert (Hcat : (t_stream t ++ firstn rm d) ++ skipn rm d = t_stream t ++ d).
  { rewrite <- app_assoc, firstn_skipn. reflexivity. }
  assert (T' : tinv (set_stream t (t_stream t ++ firstn rm d)) \/ t_nbufs t = 0).
  { destruct (Z.eq_dec (t_nbufs t) 0) as [E|E]; [right; exact E|left].
    apply tinv_stream; auto.
    pose proof T as (_ & _ & _ & [(E' & _)|[T4 _]] & _); lia. }
  assert (T1' : tinv (set_stream t (t_stream t ++ firstn rm d))).
  { destruct T' as [T'|E]; [exact T'|].
    assert (E0 : rm = O). { unfold rm. pose proof (zlen_nonneg (t_stream t)). lia. }
    rewrite E0. cbn [firstn]. rewrite app_nil_r.
    destruct t; exact T. }
  assert (Hzl : zlen (t_stream t ++ firstn rm d) = zlen (t_stream t) + zlen (firstn rm d))
    by apply zlen_app.
  assert (Hfl : length (firstn rm d) = Nat.min rm (length d)) by apply firstn_length.
  destruct (Z.leb_spec (t_nbufs t * B) (zlen (t_stream t ++ firstn rm d))) as [L|L].
  - destruct (append_all_inv _ w T1' Hd) as (t2 & E2 & R2). rewrite E2.
    destruct R2 as [R2|(T2 & (K1 & K2 & K3 & K4 & K5 & K6 & K7) & D2 & Ap)].
    { rewrite R2. exists t2. auto. }
    rewrite D2. cbn [t_stream t_nbufs t_ups t_next t_published t_active set_stream] in K1, K2, K3, K4, K5, K6, K7.
    destruct (w_get w (t_nbufs t2)); [|exists (set_dead t2); auto].
    assert (Hnb : 0 <= t_nbufs t).
    { pose proof T as (_ & _ & _ & [(E' & _)|[T4 _]] & _); lia. }
    destruct (IH (set_nbufs t2 (t_nbufs t2 + 1)) w (skipn rm d)) as (t3 & E3 & R3).
    + apply tinv_nbufs; [exact T2| |]; rewrite K2; lia.
    + unfold has_room. cbn. right. rewrite K1, K2, Hzl, Z.mul_add_distr_r, Z.mul_1_l. unfold zlen at 2. rewrite Hfl.
      destruct Hr as [Hr|Hr]; [|unfold rm; lia].
      pose proof T as (_ & _ & _ & [(_ & E' & _)|[T4 _]] & _); [|lia].
      unfold rm. rewrite E', Hr. cbn. lia.
    + exact D2.
    + cbn. rewrite K1, Hcat. exact Hp.
    + cbn [t_nbufs set_nbufs]. rewrite K2.
      destruct (Z.eqb_spec (t_nbufs t + 1) 0); [lia|].
      rewrite skipn_length.
      destruct (Z.eqb_spec (t_nbufs t) 0) as [E|E]; [lia|].
      destruct Hr as [Hr|Hr]; [lia|].
      assert (0 < rm)%nat by (unfold rm; lia).
      unfold d in *. cbn [length] in *. lia.
    + exists t3. split; [exact E3|].
      destruct R3 as [R3|(R31 & R32 & R33 & R34 & R35)]; [left; exact R3|right].
      split; [exact R31|]. split; [exact R32|]. split; [exact R33|].
      split. { rewrite R34. cbn. rewrite K1. exact Hcat. }
      unfold same_ups in *. cbn in R35. destruct R35 as (S1 & S2 & S3 & S4).
      repeat split; congruence.
  - assert (Hrest : skipn rm d = []).
    { apply skipn_all2. unfold zlen in *. lia. }
    rewrite Hrest in *. rewrite app_nil_r in Hcat.
    assert (Hnz : t_nbufs t <> 0). { intros E. rewrite E in L. pose proof (zlen_nonneg (t_stream t ++ firstn rm d)). lia. }
    destruct (IH (set_stream t (t_stream t ++ firstn rm d)) w []) as (t3 & E3 & R3).
    + exact T1'.
    + right. exact L.
    + exact Hd.
    + cbn. rewrite app_nil_r. exact Hp1.
    + cbn [t_nbufs set_stream length].
      destruct (Z.eqb_spec (t_nbufs t) 0); [contradiction|]. unfold d in Hf. cbn [length] in Hf. lia.
    + exists t3. split; [exact E3|].
      destruct R3 as [R3|(R31 & R32 & R33 & R34 & R35)]; [left; exact R3|right].
      split; [exact R31|]. split; [exact R32|]. split; [exact R33|].
      split. { rewrite R34. cbn. rewrite app_nil_r. exact Hcat. }
      exact R35.
Qed.

End Step.
