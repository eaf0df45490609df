(* Durations: no drift, targets, parts; and delta updates. *)
From Coq Require Import String Ascii ZArith List Bool Lia ZifyBool.
From Verif Require Import Bytes M3u8Model M3u8Spec M3u8Proofs M3u8Proofs2 M3u8Proofs4 M3u8Proofs5 M3u8Proofs6 M3u8Proofs7
  M3u8Proofs8 M3u8Proofs9 M3u8Proofs10.
Import ListNotations.
Open Scope Z_scope.

Lemma run_ms f c es m ds : forall disc date rate i t k,
  total (map s_ms (firstn k (run_of f c es m disc date rate (place i t ds)))) = ms_of c (t + total (firstn k ds)) - ms_of c t.
Proof.
  induction ds as [|d ds IH]; intros disc date rate i t k; destruct k as [|k]; cbn [place run_of firstn map total fold_right].
  1,2,3: rewrite Z.add_0_r; lia.
  change (fold_right Z.add 0) with total. cbn [s_ms]. rewrite IH. replace (t + (d + total (firstn k ds))) with (t + d + total (firstn k ds)) by lia. lia.
Qed.

Lemma run_len f c es m ds : forall disc date rate i t, length (run_of f c es m disc date rate (place i t ds)) = length ds.
Proof. induction ds as [|d ds IH]; intros disc date rate i t; cbn [place run_of length]; [reflexivity|]. f_equal. apply IH. Qed.

Definition run_good (f : conf) (c : channel) (p : period) (run : list seg) : Prop :=
  length run = length (durations p)
  /\ (forall s, hd_error run = Some s -> s_date s = if f_pdt f then Some (f_date f (p_time p / c_timescale c), ms_of c (p_time p) mod 1000) else None)
  /\ forall k, total (map s_ms (firstn k run)) = ms_of c (p_time p + total (firstn k (durations p))) - ms_of c (p_time p).

Lemma segs_runs f c ps : forall first rate, exists runs, segs_of f c first rate ps = concat runs /\ Forall2 (run_good f c) ps runs.
Proof.
  induction ps as [|p r IH]; intros first rate; cbn [segs_of]; [exists []; split; [reflexivity | constructor]|].
  destruct (IH false (rate_after c (f_est f (infos_at (p_index p) c)) rate (segments p))) as (runs & E & F).
  eexists (_ :: runs). cbn [concat]. rewrite E. split; [reflexivity|]. constructor; [|exact F].
  unfold segments. split; [apply run_len|]. split; [|intros k; apply run_ms].
  intros s H. destruct (durations p) as [|d ds]; [discriminate|]. cbn [place run_of hd_error] in H. apply (f_equal (option_map s_date)) in H. cbn [option_map s_date] in H. change (Some (date_of f c p) = Some (s_date s)) in H. injection H as H. symmetry. exact H.
Qed.

Lemma ms_exact c t : c_timescale c mod 1000 = 0 -> 1000 <= c_timescale c -> ms_of c t = 1000 * t / c_timescale c.
Proof.
  intros M P. unfold ms_of. pose proof (Z.div_mod (c_timescale c) 1000 ltac:(lia)) as D. rewrite M in D. set (s := c_timescale c / 1000) in *.
  replace (c_timescale c) with (1000 * s) by lia. rewrite Z.div_mul_cancel_l by lia. reflexivity.
Qed.

Lemma ms_about c a b : c_timescale c mod 1000 = 0 -> 1000 <= c_timescale c -> about c (b - a) (ms_of c b - ms_of c a).
Proof.
  intros M P. rewrite !(ms_exact c) by assumption. unfold about. set (ts := c_timescale c) in *.
  pose proof (Z.div_mod (1000 * a) ts ltac:(lia)). pose proof (Z.div_mod (1000 * b) ts ltac:(lia)).
  pose proof (Z.mod_pos_bound (1000 * a) ts ltac:(lia)). pose proof (Z.mod_pos_bound (1000 * b) ts ltac:(lia)).
  rewrite !Z.mul_sub_distr_l. lia.
Qed.

Lemma in_place x ds : forall i t, In x (place i t ds) -> exists d, In d ds /\ snd x = snd (fst x) + d /\ t <= snd (fst x) \/ exists d, In d ds /\ snd x = snd (fst x) + d.
Proof.
  induction ds as [|d ds IH]; intros i t H; [destruct H|]. cbn [place] in H. destruct H as [<-|H].
  - exists d. right. exists d. split; [left; reflexivity | reflexivity].
  - destruct (IH _ _ H) as (e & [(I1 & E1 & _)|(e2 & I1 & E1)]); [exists e; right; exists e | exists d; right; exists e2]; split; (right; assumption) || assumption.
Qed.

Lemma run_in f c es m l : forall disc date rate s, In s (run_of f c es m disc date rate l) ->
  exists x, In x l /\ s_uri s = seg_uri f c (fst (fst x)) /\ s_ms s = ms_of c (snd x) - ms_of c (snd (fst x)) /\ s_parts s = parts_of f c (fst (fst x)) (snd (fst x)).
Proof.
  induction l as [|[[i t0] t1] l IH]; intros disc date rate s H; [destruct H|]. cbn [run_of] in H. destruct H as [<-|H].
  - exists (i, t0, t1). split; [left; reflexivity|]. cbn [fst snd]. auto.
  - destruct (IH _ _ _ _ H) as (x & I1 & X). exists x. split; [right; exact I1 | exact X].
Qed.

Lemma segs_in f c ps : forall first rate s, In s (segs_of f c first rate ps) ->
  exists p x, In p ps /\ In x (segments p) /\ s_uri s = seg_uri f c (fst (fst x)) /\ s_ms s = ms_of c (snd x) - ms_of c (snd (fst x)) /\ s_parts s = parts_of f c (fst (fst x)) (snd (fst x)).
Proof.
  induction ps as [|p r IH]; intros first rate s H; [destruct H|]. cbn [segs_of] in H. apply in_app_iff in H. destruct H as [H|H].
  - destruct (run_in _ _ _ _ _ _ _ _ _ H) as (x & I1 & X). exists p, x. split; [left; reflexivity|]. split; [exact I1 | exact X].
  - destruct (IH _ _ _ H) as (p' & x & I1 & X). exists p', x. split; [right; exact I1 | exact X].
Qed.

(* a step of [d] units is at most one millisecond more than [d] *)
Lemma step_up c t d : 1 <= scale c -> ms_of c (t + d) - ms_of c t <= d / scale c + 1.
Proof.
  intros S. change (ms_of c) with (fun t => t / scale c). cbv beta.
  assert ((t + d) / scale c <= t / scale c + d / scale c + 1); [|lia].
  pose proof (Z.div_mod t (scale c) ltac:(lia)). pose proof (Z.div_mod d (scale c) ltac:(lia)).
  pose proof (Z.mod_pos_bound t (scale c) ltac:(lia)). pose proof (Z.mod_pos_bound d (scale c) ltac:(lia)).
  assert ((t + d) / scale c < t / scale c + d / scale c + 2); [|lia].
  apply Z.div_lt_upper_bound; [lia|]. rewrite !Z.mul_add_distr_l. lia.
Qed.

Lemma rounded_le a b s : 0 < s -> a <= b -> rounded a s <= rounded b s.
Proof. intros S H. unfold rounded. apply Z.div_le_mono; lia. Qed.

Lemma rounded_ms v ts : 1000 <= ts -> ts mod 1000 = 0 -> rounded (v / (ts / 1000)) 1000 <= rounded v ts.
Proof.
  intros T M. pose proof (Z.div_mod ts 1000 ltac:(lia)) as D. rewrite M in D. set (s := ts / 1000) in *. assert (1 <= s) by lia.
  unfold rounded. apply Z.div_le_lower_bound; [lia|].
  pose proof (Z.div_mod v s ltac:(lia)) as V. pose proof (Z.mod_pos_bound v s ltac:(lia)).
  set (m := v / s) in *. pose proof (Z.div_mod (2 * m + 1000) (2 * 1000) ltac:(lia)) as R. pose proof (Z.mod_pos_bound (2 * m + 1000) (2 * 1000) ltac:(lia)) as R2.
  set (r := (2 * m + 1000) / (2 * 1000)) in *.
  assert (2 * 1000 * r <= 2 * m + 1000) as X by lia.
  assert (s * (2 * 1000 * r) <= s * (2 * m + 1000)) as Y by (apply Z.mul_le_mono_nonneg_l; lia).
  rewrite Z.mul_add_distr_l in Y. replace (2 * ts * r) with (s * (2 * 1000 * r)) by (replace ts with (1000 * s) by lia; ring).
  replace (s * (2 * m)) with (2 * (s * m)) in Y by ring. lia.
Qed.

(* ----- parts *)

Lemma parts_total f c i l : forall k t, Forall (fun d => d <> PRELOAD_HINT) (removelast l) ->
  total (map pt_ms (parts_from f c i k t l)) = ms_of c (t + total (map (fun d => d mod 2 ^ 30) (filter (fun d => negb (d =? PRELOAD_HINT)) l))) - ms_of c t.
Proof.
  induction l as [|d l IH]; intros k t N; cbn [parts_from filter map total fold_right]; [rewrite Z.add_0_r; lia|].
  destruct (d =? PRELOAD_HINT) eqn:E; cbn [negb].
  - destruct l as [|e l]; [cbn [filter map total fold_right]; rewrite Z.add_0_r; lia|]. cbn [removelast] in N. inversion N; subst. lia.
  - cbn [map total fold_right pt_ms]. change (fold_right Z.add 0) with total. rewrite IH.
    + match goal with |- _ = ms_of c (t + (?a + ?b)) - _ => replace (t + (a + b)) with (t + a + b) by lia end. lia.
    + destruct l as [|e l]; [constructor|]. cbn [removelast] in N. inversion N; subst. assumption.
Qed.

Lemma parts_ok_at c i : tracks_ok c -> Forall (fun d => d <> PRELOAD_HINT) (removelast (parts_at i c)).
Proof.
  intros [_ T]. unfold parts_at. destruct (c_tracks c) as [|t [|? ?]]; try constructor.
  inversion T as [|? ? (_ & _ & [_ P]) _]; subst. destruct (find (fun ps => fst ps =? i) (t_parts t)) as [ps|] eqn:E; [|constructor].
  apply find_some in E. destruct E as [I _]. rewrite Forall_forall in P. apply (P ps I).
Qed.

Lemma parts_in f c i pt l : forall k t, In pt (parts_from f c i k t l) ->
  exists d t', In d l /\ d <> PRELOAD_HINT /\ pt_ms pt = ms_of c (t' + d mod 2 ^ 30) - ms_of c t'.
Proof.
  induction l as [|d l IH]; intros k t H; [destruct H|]. cbn [parts_from] in H. destruct (d =? PRELOAD_HINT) eqn:E; [destruct H|].
  destruct H as [<-|H]; [exists d, t; cbn [pt_ms]; split; [left; reflexivity|]; split; [lia | reflexivity]|].
  destruct (IH _ _ H) as (d' & t' & I & X). exists d', t'. split; [right; exact I | exact X].
Qed.

(* ----- delta updates *)

Lemma lasting_run f c d es1 es2 m1 m2 : forall l disc dt1 dt2 r1 r2,
  m1 = m2 -> c_timescale c = c_timescale d -> c_variant c = c_variant d -> c_media_types c = c_media_types d ->
  (forall x, In x l -> gap_at (fst (fst x)) d = gap_at (fst (fst x)) c /\ parts_at (fst (fst x)) d = parts_at (fst (fst x)) c) ->
  map lasting (run_of f c es1 m1 disc dt1 r1 l) = map lasting (run_of f d es2 m2 disc dt2 r2 l).
Proof.
  intros l disc dt1 dt2 r1 r2 M T V Y. subst m2. revert disc dt1 dt2 r1 r2.
  assert (forall t, ms_of d t = ms_of c t) as MS by (intros t; unfold ms_of; rewrite T; reflexivity).
  assert (forall i, seg_uri f d i = seg_uri f c i) as SU by (intros i; unfold seg_uri, selector; rewrite V, Y; reflexivity).
  assert (forall i k, part_uri f d i k = part_uri f c i k) as PU by (intros i k; unfold part_uri, selector; rewrite V, Y; reflexivity).
  assert (forall i q k t, parts_from f d i k t q = parts_from f c i k t q) as PF.
  { intros i q. induction q as [|a q IH]; intros k t; cbn [parts_from]; [reflexivity|]. rewrite IH, PU, !MS. reflexivity. }
  induction l as [|[[i t0] t1] l IH]; intros disc dt1 dt2 r1 r2 H; [reflexivity|]. cbn [run_of map].
  destruct (H _ (or_introl eq_refl)) as [G P]. cbn [fst] in G, P.
  f_equal; [|apply IH; intros x I; apply H; right; exact I].
  unfold lasting. cbn [s_uri s_ms s_discontinuity s_gap s_map s_parts]. unfold parts_of. rewrite G, P, SU, !MS, PF. reflexivity.
Qed.

Lemma segs_app f c a b : forall first rate, exists rate',
  segs_of f c first rate (a ++ b) = segs_of f c first rate a ++ segs_of f c (match a with [] => first | _ => false end) rate' b.
Proof.
  induction a as [|p a IH]; intros first rate; [exists rate; reflexivity|]. cbn [app segs_of].
  destruct (IH false (rate_after c (f_est f (infos_at (p_index p) c)) rate (segments p))) as [r' E]. exists r'. rewrite E, app_assoc.
  destruct a; reflexivity.
Qed.

Lemma segs_len f c a : forall first rate, length (segs_of f c first rate a) = length (flat_map segments a).
Proof.
  induction a as [|p a IH]; intros first rate; [reflexivity|]. cbn [segs_of flat_map]. rewrite !app_length, IH. f_equal.
  unfold segments. rewrite run_len. generalize (p_index p) (p_time p). induction (durations p) as [|d l IHl]; intros i t; [reflexivity|]. cbn [place length]. f_equal. apply IHl.
Qed.

Lemma lasting_segs f c d ps : forall r1 r2,
  c_timescale c = c_timescale d -> c_variant c = c_variant d -> c_media_types c = c_media_types d ->
  (forall p, In p ps -> info_at (p_index p) d = info_at (p_index p) c
     /\ forall x, In x (segments p) -> gap_at (fst (fst x)) d = gap_at (fst (fst x)) c /\ parts_at (fst (fst x)) d = parts_at (fst (fst x)) c) ->
  map lasting (segs_of f c false r1 ps) = map lasting (segs_of f d false r2 ps).
Proof.
  induction ps as [|p ps IH]; intros r1 r2 T V Y H; [reflexivity|]. cbn [segs_of]. rewrite !map_app. destruct (H p (or_introl eq_refl)) as [I G].
  f_equal; [|apply IH; try assumption; intros q Q; apply H; right; exact Q].
  cbn [negb orb]. apply lasting_run; try assumption.
  unfold init_uri, selector. rewrite I, V, Y. reflexivity.
Qed.

Lemma run_skip f c es m n : forall l disc dt r, (n <= length l)%nat -> exists dt' r',
  skipn n (run_of f c es m disc dt r l) = run_of f c es m (match n with O => disc | _ => false end) dt' r' (skipn n l).
Proof.
  induction n as [|n IH]; intros l disc dt r H; [exists dt, r; reflexivity|]. destruct l as [|[[i t0] t1] l]; [cbn in H; lia|].
  cbn [run_of skipn]. destruct (IH l false None (known r (total_rate i (ms_of c t1 - ms_of c t0) (c_tracks c) es))) as (dt' & r' & E); [cbn in H; lia|].
  exists dt', r'. rewrite E. destruct n; reflexivity.
Qed.

Lemma segments_len p : length (durations p) = length (segments p).
Proof. unfold segments. generalize (p_index p) (p_time p). induction (durations p) as [|a l IH]; intros i t; [reflexivity|]. cbn [place length]. f_equal. apply IH. Qed.

Lemma place_index x ds : forall i t, In x (place i t ds) -> i <= fst (fst x).
Proof. induction ds as [|d ds IH]; intros i t H; [destruct H|]. cbn [place] in H. destruct H as [<-|H]; [cbn; lia|]. specialize (IH _ _ H). lia. Qed.

Theorem delta_expected f c d k : skips c d k -> map lasting (expected f c) = map lasting (firstn k (expected f c) ++ expected f d).
Proof.
  intros (gone & p & q & rest & n & PC & PD & SQ & NL & IQ & _ & K & KP & SC & SD & FI & NG & _ & _ & _ & _ & T & V & Y & TR & IM & RR).
  rewrite map_app. rewrite <- (firstn_skipn k (expected f c)) at 1. rewrite map_app. f_equal.
  unfold expected. rewrite PC, PD. destruct (segs_app f c gone (p :: rest) true None) as [r' E]. rewrite E, K.
  rewrite skipn_app. rewrite segs_len. rewrite skipn_all2 by (rewrite segs_len; lia). cbn [app].
  replace (length (flat_map segments gone) + n - length (flat_map segments gone))%nat with n by lia.
  set (first := match gone with [] => true | _ => false end). cbn [segs_of].
  rewrite skipn_app.
  assert (forall es m di dt r, length (run_of f c es m di dt r (segments p)) = length (durations p)) as RL by (intros; unfold segments; apply run_len).
  rewrite RL.
  pose proof (segments_len p) as LD.
  replace (n - length (durations p))%nat with 0%nat by lia. cbn [skipn]. rewrite !map_app. f_equal.
  - match goal with |- context [skipn n (run_of f c ?es ?m ?di ?dt ?r (segments p))] => destruct (run_skip f c es m n (segments p) di dt r NL) as (dt' & r2 & ->) end.
    rewrite <- SQ.
    assert ((match n with O => negb first || starts_period c p | _ => false end) = (negb true || starts_period d q)) as DI.
    { unfold starts_period. rewrite SC, SD, FI, IQ. cbn [negb orb]. destruct n as [|n].
      - unfold first. destruct gone; [exfalso; apply NG; reflexivity|]. cbn [negb orb]. lia.
      - lia. }
    rewrite DI. apply lasting_run; try (symmetry; assumption).
    + unfold init_uri, selector. rewrite IM, V, Y. reflexivity.
    + intros x I. apply TR. eapply place_index. exact I.
  - apply lasting_segs; try (symmetry; assumption). intros r I. destruct (RR r I) as [R1 R2]. split; [exact R2|].
    intros x X. apply TR. assert (p_index r <= fst (fst x)) by (eapply place_index; exact X). lia.
Qed.
