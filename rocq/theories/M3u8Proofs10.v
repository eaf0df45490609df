(* The size of the buffer: the gaps, the periods and the whole. *)
From Coq Require Import String Ascii ZArith List Bool Lia ZifyBool.
From Verif Require Import Bytes M3u8Model M3u8Spec M3u8Proofs M3u8Proofs2 M3u8Proofs4 M3u8Proofs5 M3u8Proofs6 M3u8Proofs7
  M3u8Proofs8 M3u8Proofs9.
Import ListNotations.
Open Scope Z_scope.

(* ----- counting *)

Fixpoint cnt (g : Z -> bool) (i : Z) (n : nat) : Z :=
  match n with O => 0 | S k => (if g i then 1 else 0) + cnt g (i + 1) k end.

Lemma cnt_app g n m : forall i, cnt g i (n + m) = cnt g i n + cnt g (i + Z.of_nat n) m.
Proof.
  induction n as [|n IH]; intros i; cbn [Nat.add cnt]; [replace (i + Z.of_nat 0) with i by lia; lia|].
  rewrite IH. replace (i + 1 + Z.of_nat n) with (i + Z.of_nat (S n)) by lia. lia.
Qed.

Lemma cnt_bound g n : forall i, 0 <= cnt g i n <= Z.of_nat n.
Proof. induction n as [|n IH]; intros i; cbn [cnt]; [lia|]. specialize (IH (i + 1)). destruct (g i); lia. Qed.

Lemma cnt_le g h n : forall i, (forall j, g j = true -> h j = true) -> cnt g i n <= cnt h i n.
Proof.
  induction n as [|n IH]; intros i H; cbn [cnt]; [lia|]. specialize (IH (i + 1) H). specialize (H i).
  destruct (g i); [rewrite H by reflexivity|]; [lia | destruct (h i); lia].
Qed.

Lemma cnt_const (b : bool) g n : forall i, (forall j, i <= j < i + Z.of_nat n -> g j = b) -> cnt g i n = if b then Z.of_nat n else 0.
Proof.
  induction n as [|n IH]; intros i H; cbn [cnt]; [destruct b; reflexivity|].
  rewrite (H i) by lia. rewrite (IH (i + 1)) by (intros j J; apply H; lia). destruct b; lia.
Qed.

Lemma cnt_ext g h n : forall i, (forall j, i <= j < i + Z.of_nat n -> g j = h j) -> cnt g i n = cnt h i n.
Proof.
  induction n as [|n IH]; intros i H; cbn [cnt]; [reflexivity|]. rewrite (H i) by lia. rewrite (IH (i + 1)); [reflexivity|]. intros j J. apply H. lia.
Qed.

(* ----- the gaps of one track *)

Definition zero_at (r : Z) (l : list (Z * Z)) (j : Z) : bool := fst (iter_adv r l j) =? 0.

Lemma gap_loop_spec l : forall r start last count,
  ascending (start :: map fst l) -> start <= last -> 0 <= start -> last <= INVALID_INDEX ->
  0 <= count <= start ->
  exists r' l', gap_loop r l start last count = ((r', l'), count + cnt (zero_at r l) start (Z.to_nat (last - start)))
  /\ (forall j, last <= j -> iter_adv r' l' j = iter_adv r l j).
Proof.
  unfold INVALID_INDEX. induction l as [|[i b] l IH]; intros r start last count A SL S0 LI C; cbn [gap_loop].
  - do 2 eexists. split; [|reflexivity]. f_equal.
    rewrite (cnt_const (r =? 0)) by (intros j J; reflexivity). destruct (r =? 0); [|lia].
    rewrite (u32_small (last - start)) by lia. rewrite u32_small by lia. lia.
  - cbn [map fst] in A. destruct A as [A1 A2].
    destruct (i >=? last) eqn:E.
    + do 2 eexists. split; [|reflexivity]. f_equal.
      rewrite (cnt_const (r =? 0)).
      * destruct (r =? 0); [|lia]. rewrite (u32_small (last - start)) by lia. rewrite u32_small by lia. lia.
      * intros j J. unfold zero_at. cbn [iter_adv]. assert (i <=? j = false) as -> by lia. reflexivity.
    + assert ((if r =? 0 then u32 (count + u32 (i - start)) else count) = count + if r =? 0 then i - start else 0) as ->.
      { destruct (r =? 0); [|lia]. rewrite (u32_small (i - start)) by lia. rewrite u32_small by lia. reflexivity. }
      destruct (IH b i last (count + if r =? 0 then i - start else 0) A2) as (r' & l' & EQ & Q); try lia.
      { destruct (r =? 0); lia. }
      do 2 eexists. split.
      * rewrite EQ. f_equal. replace (Z.to_nat (last - start)) with (Z.to_nat (i - start) + Z.to_nat (last - i))%nat by lia.
        rewrite cnt_app. rewrite (cnt_const (r =? 0) _ (Z.to_nat (i - start))).
        2:{ intros j J. unfold zero_at. cbn [iter_adv]. assert (i <=? j = false) as -> by lia. reflexivity. }
        replace (start + Z.of_nat (Z.to_nat (i - start))) with i by lia.
        rewrite (cnt_ext (zero_at r ((i, b) :: l)) (zero_at b l)).
        2:{ intros j J. unfold zero_at. cbn [iter_adv]. assert (i <=? j = true) as -> by lia. reflexivity. }
        destruct (r =? 0); lia.
      * intros j J. rewrite Q by exact J. cbn [iter_adv]. assert (i <=? j = true) as -> by lia. reflexivity.
Qed.

Lemma adv_rest i l : forall r, ascending (map fst l) -> ascending (i :: map fst (snd (iter_adv r l i))).
Proof.
  induction l as [|[k b] l IH]; intros r A; [exact I|]. cbn [iter_adv]. destruct (k <=? i) eqn:E; [apply IH; exact (ascending_tl _ _ A)|].
  cbn [snd map fst]. split; [lia | exact A].
Qed.

Lemma reset_ascending t : sinfo_ok t -> ascending (map fst (snd (iter_reset t))).
Proof. intros S. unfold iter_reset. cbn [snd]. destruct (t_type t =? 2); [exact I | exact S]. Qed.

Lemma gap_count_spec t it first last :
  sinfo_ok t -> lag first t it -> 0 <= first <= last -> last <= INVALID_INDEX ->
  exists it', iter_gap_count it first last = (it', cnt (fun j => rate_at j t =? 0) first (Z.to_nat (last - first)))
  /\ lag last t it'.
Proof.
  intros S L F LI. unfold iter_gap_count. cbv zeta. rewrite (L first) by lia.
  set (it1 := iter_get (iter_reset t) first).
  destruct (gap_loop_spec (snd it1) (fst it1) first last 0) as (r' & l' & E & Q).
  { apply adv_rest. apply reset_ascending. exact S. }
  { lia. } { lia. } { exact LI. } { lia. }
  exists (r', l'). rewrite E. split.
  - f_equal. cbn [Z.add]. apply cnt_ext. intros j J. unfold zero_at.
    change (iter_adv (fst it1) (snd it1) j) with (iter_get it1 j). unfold it1.
    assert (iter_get (iter_get (iter_reset t) first) j = iter_get (iter_reset t) j) as -> by (apply (lag_get first t (iter_reset t) (lag_reset first t)); lia).
    rewrite (lag_rate j t (iter_reset t) S (lag_reset j t)). reflexivity.
  - intros j J. unfold iter_get at 1. cbn [fst snd]. rewrite Q by exact J.
    change (iter_adv (fst it1) (snd it1) j) with (iter_get it1 j). unfold it1.
    apply (lag_get first t (iter_reset t) (lag_reset first t)). lia.
Qed.

Lemma min_gap_spec first last ts : forall its m,
  Forall sinfo_ok ts -> Forall2 (lag first) ts its -> 0 <= first <= last -> last <= INVALID_INDEX ->
  exists its' g, min_gap its first last m = (its', g)
  /\ Forall2 (lag last) ts its' /\ g <= m
  /\ (forall t, In t ts -> g <= cnt (fun j => rate_at j t =? 0) first (Z.to_nat (last - first)))
  /\ (forall k, k <= m -> (forall t, In t ts -> k <= cnt (fun j => rate_at j t =? 0) first (Z.to_nat (last - first))) -> k <= g).
Proof.
  induction ts as [|t ts IH]; intros its m S L F LI; inversion L as [|? it ? its1 L1 L2]; subst; cbn [min_gap].
  - exists [], m. split; [reflexivity|]. split; [constructor|]. split; [lia|]. split; [intros t []|]. intros k K _. exact K.
  - inversion S as [|? ? S1 S2]; subst. destruct (gap_count_spec t it first last S1 L1 F LI) as (it' & -> & LT).
    set (g0 := cnt (fun j => rate_at j t =? 0) first (Z.to_nat (last - first))) in *.
    destruct (IH its1 (if m >? g0 then g0 else m) S2 L2 F LI) as (its' & g & -> & LS & G1 & G2 & G3).
    exists (it' :: its'), g. split; [reflexivity|]. split; [constructor; assumption|]. split; [destruct (m >? g0) eqn:E; lia|]. split.
    + intros t' [<-|I']; [fold g0; destruct (m >? g0) eqn:E; lia | apply G2; exact I'].
    + intros k K1 K2. apply G3; [|intros t' I'; apply K2; right; exact I'].
      pose proof (K2 t (or_introl eq_refl)) as K3. fold g0 in K3. destruct (m >? g0) eqn:E; lia.
Qed.

(* ----- without bitrates *)

Definition bin (r : Z) : Prop := r = 0 \/ r = 1.
Definition bin_track (t : track) : Prop := t_type t = 2 \/ Forall (fun e => bin (snd e)) (t_sinfo t).

Lemma no_bitrate c : has_bitrate (map iter_reset (c_tracks c)) = false -> Forall bin_track (c_tracks c).
Proof.
  unfold has_bitrate. induction (c_tracks c) as [|t ts IH]; intros H; [constructor|]. cbn [map existsb] in H.
  apply orb_false_iff in H. destruct H as [H1 H2]. constructor; [|apply IH; exact H2].
  unfold iter_has_bitrate, iter_reset in H1. cbn [snd] in H1. unfold bin_track. destruct (t_type t =? 2) eqn:E; [left; lia|]. right.
  clear - H1. induction (t_sinfo t) as [|e l IH]; [constructor|]. cbn [existsb] in H1. apply orb_false_iff in H1. destruct H1 as [A B].
  constructor; [|apply IH; exact B]. unfold bin, NO_BITRATE in *. destruct (snd e =? 0) eqn:E0; cbn [negb andb] in A; [left | right]; lia.
Qed.

Lemma bin_rate j t : bin_track t -> bin (rate_at j t).
Proof.
  unfold rate_at. intros [H|H]; [assert (t_type t =? 2 = true) as -> by lia; right; reflexivity|].
  destruct (t_type t =? 2); [right; reflexivity|].
  assert (forall l r, bin r -> Forall (fun e => bin (snd e)) l -> bin (fold_left (fun r e => if fst e <=? j then snd e else r) l r)) as X.
  { clear. induction l as [|e l IH]; intros r R F; cbn [fold_left]; [exact R|]. inversion F; subst. apply IH; [destruct (fst e <=? j); assumption | assumption]. }
  apply X; [right; reflexivity | exact H].
Qed.

Lemma bin_info i d ts : forall its es,
  Forall sinfo_ok ts -> Forall bin_track ts -> Forall2 (lag i) ts its -> length es = length ts ->
  exists its', info_get its es i d 0 = (its', if forallb (fun t => rate_at i t =? 0) ts then 0 else 1) /\ Forall2 (lag i) ts its'.
Proof.
  induction ts as [|t ts IH]; intros its es S B L LE; inversion L as [|? it ? its1 L1 L2]; subst; cbn [info_get forallb].
  - exists []. split; [destruct es; reflexivity | constructor].
  - destruct es as [|e es]; [discriminate|]. injection LE as LE. inversion S; subst. inversion B; subst.
    rewrite (lag_rate i t it) by assumption. unfold NO_BITRATE.
    destruct (bin_rate i t ltac:(assumption)) as [R|R]; rewrite R.
    + cbn [Z.eqb andb]. destruct (IH its1 es) as (its' & -> & X); try assumption.
      eexists. split; [reflexivity|]. constructor; [apply lag_get; exact L1 | exact X].
    + cbn [Z.eqb Pos.eqb andb]. eexists. split; [reflexivity|]. constructor; [apply lag_get; exact L1 | exact L2].
Qed.

Lemma bin_run c ms es ds : Forall sinfo_ok (c_tracks c) -> Forall bin_track (c_tracks c) -> length es = length (c_tracks c) ->
  forall b i, b_index b = i -> Forall2 (lag i) (c_tracks c) (b_bi b) ->
  let b' := fold_left (fun s d => count_step ms es d s) ds b in
  b_rates b' = b_rates b /\ b_gaps b' = b_gaps b + cnt (fun j => gap_at j c) i (length ds)
  /\ b_index b' = i + zlen ds /\ Forall2 (lag (i + zlen ds)) (c_tracks c) (b_bi b').
Proof.
  intros S B LE. induction ds as [|d ds IH]; intros b i BI L; cbn [fold_left length cnt].
  - cbv zeta. rewrite (@zlen_nil Z), !Z.add_0_r. split; [reflexivity|]. split; [reflexivity|]. split; [exact BI | exact L].
  - assert (exists bi, segment_info_get (b_bi b) es (b_index b) (u32 ((b_time b + d) / ms - b_start b))
       = (bi, if gap_at i c then 0 else 1) /\ Forall2 (lag i) (c_tracks c) bi) as (bi & E & LB).
    { unfold segment_info_get, gap_at. rewrite BI. apply bin_info; assumption. }
    set (b1 := count_step ms es d b).
    assert (b_rates b1 = b_rates b /\ b_gaps b1 = b_gaps b + (if gap_at i c then 1 else 0) /\ b_index b1 = i + 1 /\ b_bi b1 = bi) as (Q1 & Q2 & Q3 & Q4).
    { unfold b1, count_step. rewrite E. destruct (gap_at i c).
      - cbn [Z.eqb]. cbn. rewrite BI. repeat split; lia.
      - cbn [Z.eqb]. change (kbps 1 =? NO_BITRATE) with true. cbn [negb andb]. cbn. rewrite BI. repeat split; lia. }
    destruct (IH b1 (i + 1) Q3) as (R1 & R2 & R3 & R4).
    { rewrite Q4. eapply Forall2_lag_le; [|exact LB]. lia. }
    cbv zeta. rewrite zlen_cons. replace (i + (1 + zlen ds)) with (i + 1 + zlen ds) by lia.
    split; [rewrite R1; exact Q1|]. split; [rewrite R2, Q2; lia|]. split; [exact R3 | exact R4].
Qed.

Lemma infos_len i c : length (infos_at i c) = length (c_tracks c).
Proof. apply map_length. Qed.

Lemma unroll_count lst p : elts_ok lst (p_elts p) -> zlen (unroll (p_elts p)) = p_count p.
Proof.
  intros EO. destruct EO as (done & F & E). unfold p_count. pose proof (unroll_len _ F) as U.
  destruct E as [[-> _]|[_ ->]]; [exact U|]. unfold unroll in *. rewrite flat_map_app, zlen_app, U, fold_right_app.
  cbn [fold_right fst]. match goal with |- context [zlen ?a] => change (zlen a) with 1 end. clear.
  induction done as [|e l IH]; cbn [fold_right]; lia.
Qed.

Lemma bin_loop f c ms ps : tracks_ok c -> Forall bin_track (c_tracks c) -> est_len f ->
  forall mi bi bi2 from gaps total,
  periods_ok from ps -> 0 <= from -> Forall2 (mlag from) (c_tracks c) mi ->
  Forall2 (lag from) (c_tracks c) bi -> Forall2 (lag from) (c_tracks c) bi2 ->
  0 <= total <= from -> gaps <= total ->
  let '(g, r) := bitrate_loop f ms mi bi ps gaps 0 in r = 0 /\ g <= gap_total bi2 ps total.
Proof.
  intros TO B EL. induction ps as [|p r IH]; intros mi bi bi2 from gaps total PO F0 ML L1 L2 T G; cbn [bitrate_loop gap_total]; [lia|].
  destruct PO as (P1 & P2 & P3 & P4 & P5).
  destruct (media_info_spec (p_index p) c mi (tracks_minfo _ TO)) as (mi' & -> & ML').
  { clear - ML P1. induction ML; constructor; [eapply mlag_le; eassumption | assumption]. }
  { destruct P3 as (done & F & E). assert (0 < p_count p); [|lia]. unfold p_count. destruct E as [[-> E]|[_ ->]].
    - destruct F as [|e l [F1 _] F]; [congruence|]. cbn [fold_right].
      assert (0 <= fold_right (fun e a => fst e + a) 0 l) by (clear - F; induction F as [|x l [H _] F IH]; cbn [fold_right]; lia). lia.
    - rewrite fold_right_app. cbn [fold_right fst]. clear - F. induction F as [|x l [H _] F IH]; cbn [fold_right] in *; lia. }
  set (es := f_est f (infos_at (p_index p) c)).
  assert (length es = length (c_tracks c)) as LE by (unfold es; rewrite EL; apply infos_len).
  pose proof (unroll_count _ _ P3) as UC. assert (0 <= p_count p) as PC by (rewrite <- UC; apply zlen_nonneg).
  unfold period_count. rewrite elts_fold. fold (unroll (p_elts p)).
  match goal with |- context [fold_left _ (unroll (p_elts p)) ?b0] =>
    destruct (bin_run c ms es (unroll (p_elts p)) (tracks_sinfo _ TO) B LE b0 (p_index p)) as (R1 & R2 & R3 & R4) end.
  { reflexivity. }
  { cbn [b_bi]. eapply Forall2_lag_le; [|exact L1]. lia. }
  set (b' := fold_left _ (unroll (p_elts p)) _) in *. clearbody b'. cbn [b_rates b_gaps] in R1, R2. rewrite UC in R3, R4.
  unfold min_gap_count. rewrite u32_small by (unfold INVALID_INDEX in *; lia).
  destruct (min_gap_spec (p_index p) (p_index p + p_count p) (c_tracks c) bi2 (2 ^ 32 - 1) (tracks_sinfo _ TO)) as (bi3 & g & -> & L3 & G1 & G2 & G3).
  { eapply Forall2_lag_le; [|exact L2]. lia. }
  { lia. } { exact P4. }
  assert (length (unroll (p_elts p)) = Z.to_nat (p_count p)) as UL by (unfold zlen in UC; lia).
  replace (p_index p + p_count p - p_index p) with (p_count p) in * by lia. rewrite <- UL in *.
  set (n := cnt (fun j => gap_at j c) (p_index p) (length (unroll (p_elts p)))) in *.
  pose proof (cnt_bound (fun j => gap_at j c) (length (unroll (p_elts p))) (p_index p)) as NB. fold n in NB.
  assert (n <= g) as NG.
  { apply G3; [unfold INVALID_INDEX in *; lia|]. intros t It. unfold n. apply cnt_le. intros j J. unfold gap_at in J. rewrite forallb_forall in J. apply J. exact It. }
  assert (g <= p_count p) as GP.
  { destruct TO as [TN _]. destruct (c_tracks c) as [|t ts] eqn:ET; [congruence|]. specialize (G2 t (or_introl eq_refl)).
    pose proof (cnt_bound (fun j => rate_at j t =? 0) (length (unroll (p_elts p))) (p_index p)). lia. }
  rewrite u32_small by (unfold INVALID_INDEX in *; lia). rewrite R1.
  apply (IH mi' (b_bi b') bi3 (p_index p + p_count p)); try assumption; try lia.
  - clear - ML' PC. induction ML'; constructor; [eapply mlag_le; [|eassumption]; lia | assumption].
Qed.

(* ----- the periods *)

Definition period_len (f : conf) (c : channel) (isz : Z) : Z :=
  zlen (str "#EXT-X-DISCONTINUITY" ++ [nl])
  + (if f_pdt f then pdt_len else 0)
  + match f_init_ext f with
    | Some x => zlen (str "#EXT-X-MAP:URI=""") + 3 + zlen (str "init") + isz + zlen (selector c) + zlen x
    | None => 0
    end.

Lemma suffix_ne f c : seg_suffix f c <> [].
Proof. unfold seg_suffix. intros H. apply app_eq_nil in H. destruct H as [_ H]. apply app_eq_nil in H. destruct H. discriminate. Qed.

Lemma periods_fit f c ps top : tracks_ok c -> date_len f -> 1 <= scale c ->
  forall first last_map mi mi2 bi parts from gaps rates,
  periods_ok from ps -> 0 <= from -> Forall (fun p => p_index p + p_count p <= top) ps ->
  Forall (fun p => info_at (p_index p) c < top) ps ->
  Forall2 (mlag from) (c_tracks c) mi -> Forall2 (mlag from) (c_tracks c) mi2 ->
  let '(g, r) := bitrate_loop f (scale c) mi2 bi ps gaps rates in
  zlen (periods_text f c first last_map mi bi parts ps)
    <= period_len f c (print_len top) * zlen ps
       + seg_len (seg_suffix f c) (print_len top) * fold_right (fun p a => p_count p + a) 0 ps
       + (if Nat.eqb (length (c_tracks c)) 1 then tps (seg_suffix f c) parts else 0)
       + rate_len * (r - rates) + gap_len * (g - gaps).
Proof.
  intros TO DL SP. pose proof (suffix_ne f c) as N.
  induction ps as [|p r IH]; intros first last_map mi mi2 bi parts from gaps rates PO F0 TOP MT ML ML2; cbn [bitrate_loop periods_text fold_right].
  - rewrite (@zlen_nil Z), (@zlen_nil period). pose proof (tps_nonneg (seg_suffix f c) parts N). destruct (Nat.eqb _ _); lia.
  - destruct PO as (P1 & P2 & P3 & P4 & P5). inversion TOP as [|? ? TOP1 TOP2]; subst. inversion MT as [|? ? MT1 MT2]; subst.
    assert (0 <= p_count p) as PC by (rewrite <- (unroll_count _ _ P3); apply zlen_nonneg).
    assert (p_index p < INVALID_INDEX) as PI.
    { destruct P3 as (done & F & E). assert (0 < p_count p); [|lia]. unfold p_count. destruct E as [[-> E]|[_ ->]].
      - destruct F as [|e l [F1 _] F]; [congruence|]. cbn [fold_right].
        assert (0 <= fold_right (fun e a => fst e + a) 0 l) by (clear - F; induction F as [|x l [H _] F IH]; cbn [fold_right]; lia). lia.
      - rewrite fold_right_app. cbn [fold_right fst]. clear - F. induction F as [|x l [H _] F IH]; cbn [fold_right] in *; lia. }
    destruct (media_info_spec (p_index p) c mi (tracks_minfo _ TO)) as (mi' & -> & ML').
    { clear - ML P1. induction ML; constructor; [eapply mlag_le; eassumption | assumption]. } { exact PI. }
    destruct (media_info_spec (p_index p) c mi2 (tracks_minfo _ TO)) as (mi2' & -> & ML2').
    { clear - ML2 P1. induction ML2; constructor; [eapply mlag_le; eassumption | assumption]. } { exact PI. }
    set (es := f_est f (infos_at (p_index p) c)). fold (scale c).
    pose proof (period_fits (scale c) (seg_suffix f c) es _ (Nat.eqb (length (c_tracks c)) 1) p parts bi gaps rates top N P3 ltac:(lia) P4 TOP1) as PF.
    cbv zeta in PF. set (s := period_count (scale c) es p bi gaps rates) in *.
    destruct (period_segments (scale c) (seg_suffix f c) es (Nat.eqb (length (c_tracks c)) 1) p parts bi) as [[o parts'] bi'].
    destruct PF as [PF1 PF2].
    set (changed := match f_init_ext f with Some _ => negb (info_at (p_index p) c =? last_map) | None => false end).
    assert (zlen (if writes_disc c first p then str "#EXT-X-DISCONTINUITY" ++ [nl] else [])
      + zlen (if changed && writes_map c first p then match f_init_ext f with Some x => map_text x c (info_at (p_index p) c) | None => [] end else [])
      + zlen (if f_pdt f then pdt_text f c p else []) <= period_len f c (print_len top)) as HL.
    { unfold period_len.
      assert (zlen (if writes_disc c first p then str "#EXT-X-DISCONTINUITY" ++ [nl] else []) <= zlen (str "#EXT-X-DISCONTINUITY" ++ [nl])) as X1
        by (destruct (writes_disc c first p); lens; lia).
      assert (zlen (if f_pdt f then pdt_text f c p else []) <= if f_pdt f then pdt_len else 0) as X2.
      { destruct (f_pdt f); [|lens; lia]. unfold pdt_text, pdt_len. pose proof (DL (p_time p / c_timescale c)) as D.
        pose proof (dec3_len ((p_time p / (c_timescale c / 1000)) mod 1000) ltac:(apply Z.mod_pos_bound; lia)) as D3. lens.
 lia. }
      assert (zlen (if changed && writes_map c first p then match f_init_ext f with Some x => map_text x c (info_at (p_index p) c) | None => [] end else [])
        <= match f_init_ext f with Some x => zlen (str "#EXT-X-MAP:URI=""") + 3 + zlen (str "init") + print_len top + zlen (selector c) + zlen x | None => 0 end) as X3.
      { destruct (f_init_ext f) as [x|]; [|destruct (changed && _); lens; lia].
        pose proof (print_pos 20 top) as PP. fold (print_len top) in PP. pose proof (zlen_nonneg (selector c)). pose proof (zlen_nonneg x).
        destruct (changed && _); [|lens; lia]. unfold map_text.
        destruct TO as [T1 T2]. pose proof (info_at_range (p_index p) c T1 (tracks_minfo c (conj T1 T2)) PI) as IR.
        pose proof (dec_fits (info_at (p_index p) c + 1) top ltac:(lia) ltac:(unfold INVALID_INDEX in IR; lia)). lens. lia. }
      lia. }
    rewrite !zlen_app, zlen_cons.
    destruct r as [|p2 r].
    + cbn [bitrate_loop periods_text fold_right]. rewrite (@zlen_nil Z), (@zlen_nil period). pose proof (tps_nonneg (seg_suffix f c) parts' N).
      destruct (Nat.eqb _ _); lia.
    + destruct (period_shape _ _ P3) as (_ & _ & _ & _ & PN). destruct (PN eq_refl) as [PN1 _]. rewrite (PF2 PN1).
      specialize (IH false (if changed then info_at (p_index p) c else last_map) mi' mi2' (b_bi s) parts' (p_index p + p_count p) (b_gaps s) (b_rates s) P5 ltac:(lia) TOP2 MT2).
      assert (Forall2 (mlag (p_index p + p_count p)) (c_tracks c) mi') as M1 by (clear - ML' PC; induction ML'; constructor; [eapply mlag_le; [|eassumption]; lia | assumption]).
      assert (Forall2 (mlag (p_index p + p_count p)) (c_tracks c) mi2') as M2 by (clear - ML2' PC; induction ML2'; constructor; [eapply mlag_le; [|eassumption]; lia | assumption]).
      specialize (IH M1 M2).
      destruct (bitrate_loop f (scale c) mi2' (b_bi s) (p2 :: r) (b_gaps s) (b_rates s)) as [g rt].
      rewrite Z.mul_add_distr_l in *. rewrite Z.mul_sub_distr_l in *. destruct (Nat.eqb _ _); lia.
Qed.

Lemma periods_top ps : forall from d, periods_ok from ps -> Forall (fun p => p_index p + p_count p <= p_index (last ps d) + p_count (last ps d)) ps.
Proof.
  induction ps as [|p r IH]; intros from d PO; [constructor|]. destruct PO as (P1 & P2 & P3 & P4 & P5).
  destruct r as [|p2 r]; [cbn [last]; constructor; [lia | constructor]|].
  specialize (IH _ d P5). change (last (p :: p2 :: r) d) with (last (p2 :: r) d). constructor; [|exact IH].
  inversion IH as [|? ? A B]; subst. destruct P5 as (Q1 & _ & Q3 & _).
  assert (0 <= p_count p2) by (rewrite <- (unroll_count _ _ Q3); apply zlen_nonneg). lia.
Qed.

(* ----- the whole *)

Theorem playlist_fits f c m : playlist_ok f c m -> sizes_ok f c -> zlen (index_text f c) <= index_size f c.
Proof.
  intros (CO & TO & DO & PO & RO & HO & SO) (DL & EL & KL & MT).
  set (top := p_index (last_period c) + p_count (last_period c)) in *.
  set (skipped := h_skipped_segments (c_header c) >? 0).
  set (from := if skipped then h_last_skipped_index (c_header c) else 0).
  assert (exists mi0 infos last_map,
    (if skipped then media_info_get (map t_minfo (c_tracks c)) (h_last_skipped_index (c_header c))
     else (map t_minfo (c_tracks c), [], INVALID_INDEX)) = (mi0, infos, last_map)
    /\ Forall2 (mlag from) (c_tracks c) mi0) as (mi0 & infos & last_map & EM & ML).
  { unfold skip_ok in SO. unfold from. destruct skipped eqn:ES.
    - assert (h_skipped_segments (c_header c) =? 0 = false) as E0 by (unfold skipped in ES; lia). rewrite E0 in SO. destruct SO as (S1 & _).
      destruct (media_info_spec (h_last_skipped_index (c_header c)) c _ (tracks_minfo _ TO) (mlag_any c _) ltac:(lia)) as (x & -> & X).
      do 3 eexists. split; [reflexivity | exact X].
    - do 3 eexists. split; [reflexivity | apply mlag_any]. }
  assert (0 <= from) as F0.
  { unfold from, skip_ok in *. destruct skipped eqn:ES; [|lia].
    assert (h_skipped_segments (c_header c) =? 0 = false) as E0 by (unfold skipped in ES; lia). rewrite E0 in SO. lia. }
  assert (periods_ok from (c_periods c)) as PO'.
  { apply periods_ok_from with 0; [exact PO|]. intros p E. unfold from. destruct skipped eqn:ES.
    - unfold skip_ok in SO. assert (h_skipped_segments (c_header c) =? 0 = false) as E0 by (unfold skipped in ES; lia). rewrite E0 in SO.
      destruct SO as (_ & _ & SP). destruct (c_periods c) as [|p' r]; [discriminate|]. injection E as ->. apply SP.
    - destruct (c_periods c) as [|p' r]; [discriminate|]. injection E as ->. apply PO. }
  pose proof (periods_fit f c (c_periods c) top TO DL (scale_pos _ _ CO) true last_map mi0 (map t_minfo (c_tracks c)) (map iter_reset (c_tracks c)) (track_parts c) from 0 0
    PO' F0 (periods_top _ _ _ PO') MT ML (mlag_any c from)) as PF.
  assert (bitrate_loop f (scale c) (map t_minfo (c_tracks c)) (map iter_reset (c_tracks c)) (c_periods c) 0 0
    = bitrate_loop f (c_timescale c / 1000) (map t_minfo (c_tracks c)) (map iter_reset (c_tracks c)) (c_periods c) 0 0) as EB by reflexivity.
  assert (zlen (periods_text f c true last_map mi0 (map iter_reset (c_tracks c)) (track_parts c) (c_periods c))
    <= period_len f c (print_len top) * zlen (c_periods c)
       + seg_len (seg_suffix f c) (print_len top) * segment_count c
       + track_parts_size (seg_suffix f c) (c_tracks c)
       + (if has_bitrate (map iter_reset (c_tracks c)) then bitrate_size f c (map t_minfo (c_tracks c)) (map iter_reset (c_tracks c))
          else gap_size (map iter_reset (c_tracks c)) (c_periods c))) as PF2.
  { assert ((if Nat.eqb (length (c_tracks c)) 1 then tps (seg_suffix f c) (track_parts c) else 0) = track_parts_size (seg_suffix f c) (c_tracks c)) as ET.
    { unfold track_parts, track_parts_size, tps. destruct (c_tracks c) as [|t [|t2 ts]]; reflexivity. }
    rewrite ET in PF. unfold bitrate_size, gap_size, segment_count. fold (scale c).
    assert (has_bitrate (map iter_reset (c_tracks c)) = false ->
      let '(g, r) := bitrate_loop f (scale c) (map t_minfo (c_tracks c)) (map iter_reset (c_tracks c)) (c_periods c) 0 0 in
      r = 0 /\ g <= gap_total (map iter_reset (c_tracks c)) (c_periods c) 0) as BL.
    { intros HB. apply (bin_loop f c (scale c) (c_periods c) TO (no_bitrate c HB) EL _ _ _ 0); try (apply mlag_any || apply lag_any || assumption || lia). }
    destruct (bitrate_loop f (scale c) (map t_minfo (c_tracks c)) (map iter_reset (c_tracks c)) (c_periods c) 0 0) as [g r].
    unfold rate_len, gap_len in PF. rewrite !Z.sub_0_r in PF.
    destruct (has_bitrate (map iter_reset (c_tracks c))); [lia|]. destruct (BL eq_refl) as [-> BL2].
    assert (zlen (str "#EXT-X-GAP" ++ [nl]) * g <= gap_total (map iter_reset (c_tracks c)) (c_periods c) 0 * zlen (str "#EXT-X-GAP" ++ [nl])) as X.
    { rewrite Z.mul_comm. apply Z.mul_le_mono_nonneg_r; [apply zlen_nonneg | exact BL2]. }
    lia. }
  unfold index_text. cbv zeta. fold skipped. rewrite EM. rewrite !(zlen_app (header_text f c)).
  unfold index_size. cbv zeta. fold top.
  fold (period_len f c (print_len top)). fold (seg_len (seg_suffix f c) (print_len top)).
  pose proof (header_fits f c) as S1. pose proof (control_fits f c (target_duration c)) as S2. pose proof (part_inf_fits f c) as S3.
  pose proof (skip_fits skipped (h_skipped_segments (c_header c))) as S4.
  pose proof (key_fits (str "#EXT-X-KEY:") (c_variant c) (match c_tracks c with t :: _ => t_type t | [] => 0 end) (f_key f) KL) as S5.
  pose proof (reports_fit c) as S6.
  assert (zlen (if h_end_list (c_header c) then str "#EXT-X-ENDLIST" ++ [nl] else []) <= zlen (str "#EXT-X-ENDLIST" ++ [nl])) as S7
    by (destruct (h_end_list (c_header c)); lens; lia).
  rewrite (zlen_app (server_control f c (target_duration c))), (zlen_app (part_inf f c)), (zlen_app (if skipped then _ else _)),
    (zlen_app (key_text _ _ _ _)), (zlen_app (periods_text _ _ _ _ _ _ _ _)), (zlen_app (reports_text c)).
  lia.
Qed.
