(* The periods. *)
From Coq Require Import String Ascii ZArith List Bool Lia ZifyBool.
From Verif Require Import Bytes M3u8Model M3u8Spec M3u8Proofs M3u8Proofs2 M3u8Proofs4 M3u8Proofs5 M3u8Proofs6.
Import ListNotations.
Open Scope Z_scope.

Definition unroll (l : list (Z * Z)) : list Z := flat_map (fun e => repeat (snd e) (Z.to_nat (fst e))) l.

Lemma zlen_app {A} (a b : list A) : zlen (a ++ b) = zlen a + zlen b.
Proof. unfold zlen. rewrite app_length. lia. Qed.

Lemma unroll_len l : Forall (fun e => 0 < fst e /\ 0 < snd e < 2 ^ 32) l ->
  zlen (unroll l) = fold_right (fun e a => fst e + a) 0 l.
Proof.
  intros F. induction F as [|e l [H1 _] F IH]; [reflexivity|]. unfold unroll in *. cbn [flat_map fold_right].
  rewrite zlen_app, IH. unfold zlen. rewrite repeat_length. lia.
Qed.

Lemma unroll_pos l : Forall (fun e => 0 < fst e /\ 0 < snd e < 2 ^ 32) l -> Forall (fun d => 0 < d < 2 ^ 32) (unroll l).
Proof.
  intros F. induction F as [|e l [_ H2] F IH]; [constructor|]. unfold unroll. cbn [flat_map]. apply Forall_app. split; [|exact IH].
  apply Forall_forall. intros x X. apply repeat_spec in X. subst. exact H2.
Qed.

Lemma filter_all {A} (g : A -> bool) l : Forall (fun x => g x = true) l -> filter g l = l.
Proof. intros F. induction F as [|x l H F IH]; [reflexivity|]. cbn. rewrite H, IH. reflexivity. Qed.

(* a period: its elements that are finished, and whether one is not *)
Lemma period_shape lst p : elts_ok lst (p_elts p) ->
  Forall (fun d => 0 < d < 2 ^ 32) (durations p)
  /\ unroll (done_elts p) = durations p
  /\ is_pending p = existsb (fun e => snd e =? 0) (p_elts p)
  /\ p_count p = zlen (durations p) + (if is_pending p then 1 else 0)
  /\ (lst = false -> is_pending p = false /\ durations p <> []).
Proof.
  intros (done & F & E). pose proof (unroll_pos _ F) as U. pose proof (unroll_len _ F) as UL.
  assert (existsb (fun e => snd e =? 0) done = false) as X.
  { clear - F. induction F as [|e l [_ H] F IH]; [reflexivity|]. cbn [existsb]. rewrite IH. assert (snd e =? 0 = false) as -> by lia. reflexivity. }
  assert (filter (fun e => 0 <? snd e) done = done) as FD.
  { apply filter_all. eapply Forall_impl; [|exact F]. intros e [_ H]. lia. }
  destruct E as [[E N] | [-> E]].
  - assert (durations p = unroll done) as D by (unfold durations; rewrite E, FD; reflexivity).
    assert (is_pending p = false) as P.
    { unfold is_pending. rewrite E. destruct (rev done) as [|e r] eqn:R; [reflexivity|].
      assert (In e done) as I by (rewrite in_rev, R; left; reflexivity). rewrite Forall_forall in F. specialize (F e I). unfold PENDING. lia. }
    rewrite D, P. repeat split.
    + exact U.
    + unfold done_elts. rewrite P, E. reflexivity.
    + rewrite E, X. reflexivity.
    + unfold p_count. rewrite E. rewrite UL. lia.
    + destruct done as [|e r]; [congruence|]. inversion F as [|? ? [F1 F2] F3]; subst. unfold unroll. cbn [flat_map].
      intros Q. destruct (Z.to_nat (fst e)) eqn:Z1; [lia | discriminate].
  - assert (durations p = unroll done) as D by (unfold durations; rewrite E, filter_app, FD; cbn; rewrite app_nil_r; reflexivity).
    assert (is_pending p = true) as P by (unfold is_pending; rewrite E, rev_app_distr; reflexivity).
    rewrite D, P. split; [exact U|]. split; [unfold done_elts; rewrite P, E, removelast_last; reflexivity|].
    split; [rewrite E, existsb_app, X; reflexivity|]. split; [|discriminate].
    unfold p_count. rewrite E, fold_right_app. cbn [fold_right fst]. rewrite UL. clear.
    induction done as [|e l IH]; cbn [fold_right]; lia.
Qed.

Definition parts_lag (c : channel) (from : Z) (parts : list (Z * list Z)) : Prop :=
  forall j, from <= j -> (if Nat.eqb (length (c_tracks c)) 1 then skip_parts j parts else []) = left_at c j.

Lemma parts_lag_left c i j parts : i <= j -> parts = left_at c i -> parts_lag c j parts.
Proof.
  intros H -> k K. unfold left_at. destruct (c_tracks c) as [|t [|t2 r]]; [reflexivity| |destruct r; reflexivity].
  cbn [length Nat.eqb]. apply skip_skip. lia.
Qed.

Lemma parts_lag_track c i : parts_lag c i (track_parts c).
Proof.
  intros j J. unfold left_at, track_parts. destruct (c_tracks c) as [|t [|t2 r]]; [reflexivity|reflexivity|destruct r; reflexivity].
Qed.

(* the finished segments of a period and the parts of the one that is not *)
Definition after_period (f : conf) (c : channel) (es : list est) (p : period) (q : player) : player :=
  let q' := after_run f c es (segments p) q in
  if is_pending p
  then let i := p_index p + zlen (durations p) in
       add_parts (parts_of f c i (p_time p + sum (durations p))) (hint_in f c i) q'
  else q'.

Lemma period_segments_plays f c es p lst parts bi q :
  chan_ok f c -> tracks_ok c -> elts_ok lst (p_elts p) -> 0 <= p_index p ->
  p_index p + p_count p <= INVALID_INDEX ->
  parts_lag c (p_index p) parts -> Forall2 (lag (p_index p)) (c_tracks c) bi ->
  clean (y_next q) -> runs_ok c es (p_index p) (p_time p) (durations p) ->
  exists o parts' bi',
    period_segments (scale c) (seg_suffix f c) es (Nat.eqb (length (c_tracks c)) 1) p parts bi = (o, parts', bi')
    /\ plays q o (after_period f c es p q)
    /\ (is_pending p = false ->
        parts_lag c (p_index p + p_count p) parts'
        /\ Forall2 (lag (p_index p + p_count p)) (c_tracks c) bi').
Proof.
  intros CO TO EO I1 I2 PL LB C R. destruct (period_shape _ _ EO) as (DP & DE & PE & PC & _).
  unfold period_segments. rewrite elts_fold. fold (unroll (done_elts p)). rewrite DE.
  rewrite (PL (p_index p)) by lia.
  set (s0 := {| w_out := []; w_index := p_index p; w_time := p_time p; w_start := p_time p / scale c; w_last := 0;
                w_parts := left_at c (p_index p); w_bi := bi |}).
  assert (0 <= zlen (durations p)) as ZP by (unfold zlen; lia).
  assert (p_index p + zlen (durations p) <= INVALID_INDEX) as I3 by (destruct (is_pending p); lia).
  destruct (run_plays f c es (durations p) CO TO s0 q (p_index p) (p_time p)) as (o & W & P & A).
  - unfold at_seg, s0. cbn. repeat split. exact LB.
  - left. reflexivity.
  - exact C.
  - exact DP.
  - exact I1.
  - exact I3.
  - exact R.
  - cbn zeta in W, A. set (s1 := fold_left _ (durations p) s0) in *. clearbody s1. cbn [w_out s0 app] in W.
    destruct A as (A1 & A2 & A3 & A4 & A5).
    unfold after_period. fold (segments p) in P. destruct (is_pending p) eqn:EP; cbn [andb].
    + set (i := p_index p + zlen (durations p)) in *. set (t := p_time p + sum (durations p)) in *.
      assert (i < INVALID_INDEX) as I4 by lia.
      pose proof (plays_here f c (after_run f c es (segments p) q) i t CO (tracks_parts _ TO) I4) as PH.
      unfold parts_here in PH. rewrite A1, A4. destruct (i =? part_index (left_at c i)).
      * do 3 eexists. split; [reflexivity|]. split; [|discriminate]. rewrite W, A2. eapply plays_app; [exact P | exact PH].
      * do 3 eexists. split; [reflexivity|]. split; [|discriminate]. rewrite W. rewrite <- (app_nil_r o). eapply plays_app; [exact P | exact PH].
    + do 3 eexists. split; [reflexivity|]. split; [rewrite W; exact P|]. intros _. rewrite PC. rewrite Z.add_0_r.
      split; [eapply parts_lag_left; [|exact A4]; lia | exact A5].
Qed.

(* ----- the lines before the segments *)

Definition init_text (x : list Z) (c : channel) (m : Z) : list Z := str "init-" ++ dec (m + 1) ++ selector c ++ x.

Lemma init_tame f c x m : chan_ok f c -> f_init_ext f = Some x -> tame (init_text x c m).
Proof.
  intros (_ & B & _ & X) E. unfold init_text. apply tame_app; [apply tameb; reflexivity|]. apply tame_app; [apply dec_tame|].
  apply tame_app; [apply sep_tame; exact B | apply X; exact E].
Qed.


Definition mapping (f : conf) (c : channel) (q : player) (last_map : Z) : Prop :=
  match f_init_ext f with
  | Some x => last_map <> INVALID_INDEX -> y_map q = Some (init_text x c last_map)
  | None => y_map q = None
  end.

Definition opened (f : conf) (c : channel) (disc : bool) (p : period) (q : player) : player :=
  {| y_info := y_info q;
     y_next := {| x_ms := None; x_discontinuity := disc; x_gap := false; x_date := date_of f c p; x_parts := [] |};
     y_map := init_uri f c (p_index p); y_rate := y_rate q; y_segs := y_segs q; y_hint := y_hint q; y_reports := y_reports q |}.

Lemma open_plays f c first last_map p q :
  chan_ok f c -> dates_ok f -> y_next q = next0 -> mapping f c q last_map ->
  info_at (p_index p) c <> INVALID_INDEX -> 0 <= p_time p ->
  (writes_map c first p = false -> info_at (p_index p) c = last_map) ->
  let changed := match f_init_ext f with Some _ => negb (info_at (p_index p) c =? last_map) | None => false end in
  plays q
    ((if writes_disc c first p then str "#EXT-X-DISCONTINUITY" ++ [nl] else [])
      ++ (if changed && writes_map c first p
          then match f_init_ext f with Some x => map_text x c (info_at (p_index p) c) | None => [] end else [])
      ++ (if f_pdt f then pdt_text f c p else []))
    (opened f c (writes_disc c first p) p q)
  /\ mapping f c (opened f c (writes_disc c first p) p q) (if changed then info_at (p_index p) c else last_map).
Proof.
  intros CO DO N0 M NI TP WM changed.
  set (m := info_at (p_index p) c) in *.
  assert (changed = true -> writes_map c first p = true) as CW.
  { unfold changed. destruct (f_init_ext f); [|discriminate]. destruct (writes_map c first p); [reflexivity|]. rewrite WM by reflexivity. lia. }
  split.
  - eapply plays_app.
    { instantiate (1 := if writes_disc c first p then on_discontinuity q else q). destruct (writes_disc c first p); [apply plays_disc | apply plays_nil]. }
    set (q1 := if writes_disc c first p then on_discontinuity q else q).
    eapply plays_app.
    { instantiate (1 := if changed then match f_init_ext f with Some x => set_map (init_text x c m) q1 | None => q1 end else q1).
      destruct changed eqn:EC; [|apply plays_nil]. rewrite CW by reflexivity. cbn [andb]. destruct (f_init_ext f) as [x|] eqn:EX; [|apply plays_nil].
      eapply plays_eq; [apply plays_map; apply (init_tame f); assumption|].
      unfold map_text, init_text. change (str "init-") with (str "init" ++ str "-"). rewrite <- !app_assoc. reflexivity. }
    set (q2 := if changed then _ else q1).
    assert (opened f c (writes_disc c first p) p q =
      if f_pdt f then set_next (with_date (f_date f (p_time p / c_timescale c)) (ms_of c (p_time p) mod 1000) (y_next q2)) q2 else q2) as ->.
    { unfold opened, date_of.
      assert (init_uri f c (p_index p) = y_map q2) as ->.
      { unfold init_uri. fold m. unfold q2, q1, changed, mapping in *. destruct (f_init_ext f) as [x|]; cbv iota.
        - destruct (m =? last_map) eqn:EM; cbn [negb]; [|reflexivity].
          assert (m = last_map) as <- by lia. destruct (writes_disc c first p); cbn [on_discontinuity set_next y_map]; symmetry; apply M; exact NI.
        - destruct (writes_disc c first p); cbn [on_discontinuity set_next y_map]; symmetry; exact M. }
      assert (y_next q2 = {| x_ms := None; x_discontinuity := writes_disc c first p; x_gap := false; x_date := None; x_parts := [] |}) as YN.
      { unfold q2. replace (y_next (if changed then match f_init_ext f with Some x => set_map (init_text x c m) q1 | None => q1 end else q1)) with (y_next q1)
          by (destruct changed, (f_init_ext f); reflexivity).
        unfold q1. destruct (writes_disc c first p); [unfold on_discontinuity; cbn [set_next y_next]; rewrite N0; reflexivity | exact N0]. }
      assert (y_info q2 = y_info q /\ y_rate q2 = y_rate q /\ y_segs q2 = y_segs q /\ y_hint q2 = y_hint q /\ y_reports q2 = y_reports q) as (<- & <- & <- & <- & <-).
      { unfold q2, q1. destruct changed, (f_init_ext f), (writes_disc c first p); repeat split. }
      clear - YN. clearbody q2. destruct (f_pdt f); destruct q2 as [? ? ? ? ? ? ?]; cbn in *; rewrite YN; reflexivity. }
    destruct (f_pdt f); [|apply plays_nil]. unfold pdt_text. fold (scale c). change (p_time p / scale c) with (ms_of c (p_time p)).
    apply plays_date; [apply DO | apply DO | apply Z.mod_pos_bound; lia].
  - unfold mapping, opened. cbn [y_map]. unfold init_uri. fold m. unfold changed. destruct (f_init_ext f) as [x|]; [|reflexivity].
    intros _. destruct (m =? last_map) eqn:EM; cbn [negb]; [|reflexivity]. assert (m = last_map) as -> by lia. reflexivity.
Qed.

(* ----- all the periods *)


Lemma hint_after_app f c h a b : hint_after f c h (a ++ b) = hint_after f c (hint_after f c h a) b.
Proof. unfold hint_after. apply fold_left_app. Qed.

Lemma after_period_facts f c es p lst q :
  elts_ok lst (p_elts p) ->
  x_gap (y_next q) = false -> x_parts (y_next q) = [] -> x_ms (y_next q) = None ->
  let q' := after_period f c es p q in
  y_info q' = y_info q /\ y_reports q' = y_reports q /\ y_map q' = y_map q
  /\ y_rate q' = rate_after c es (y_rate q) (segments p)
  /\ y_segs q' = y_segs q ++ run_of f c es (y_map q) (x_discontinuity (y_next q)) (x_date (y_next q)) (y_rate q) (segments p)
  /\ y_hint q' = hint_after f c (y_hint q) (listed [p])
  /\ x_ms (y_next q') = None /\ x_gap (y_next q') = false
  /\ x_parts (y_next q') = match pending_of [p] with Some (i, t) => parts_of f c i t | None => [] end
  /\ (is_pending p = false -> durations p <> [] -> y_next q' = next0).
Proof.
  intros EO G P M q'. destruct (period_shape _ _ EO) as (_ & _ & PE & _).
  unfold listed, pending_of. cbn [last flat_map app]. rewrite app_nil_r, <- PE.
  rewrite hint_after_app. unfold q', after_period. fold (sum (durations p)).
  assert (x_ms (match segments p with [] => y_next q | _ => next0 end) = None
    /\ x_gap (match segments p with [] => y_next q | _ => next0 end) = false
    /\ x_parts (match segments p with [] => y_next q | _ => next0 end) = []) as (Y1 & Y2 & Y3).
  { destruct (segments p); [auto | repeat split]. }
  destruct (is_pending p) eqn:EP; cbv zeta; unfold add_parts, after_run;
    cbn [y_info y_next y_map y_rate y_segs y_hint y_reports x_ms x_discontinuity x_gap x_date x_parts].
  - rewrite Y3. repeat split; try assumption. discriminate.
  - repeat split; try assumption. intros _ N. unfold segments. destruct (durations p); [congruence | reflexivity].
Qed.

Lemma pending_cons p p2 r : pending_of (p :: p2 :: r) = pending_of (p2 :: r).
Proof. reflexivity. Qed.

Lemma periods_plays f c ps : chan_ok f c -> tracks_ok c -> dates_ok f ->
  forall first last_map mi bi parts q from,
  periods_ok from ps -> 0 <= from -> rates_ok f c ps ->
  Forall2 (mlag from) (c_tracks c) mi -> Forall2 (lag from) (c_tracks c) bi -> parts_lag c from parts ->
  y_next q = next0 -> mapping f c q last_map ->
  (forall p, hd_error ps = Some p -> writes_map c first p = false -> info_at (p_index p) c = last_map) ->
  exists q', plays q (periods_text f c first last_map mi bi parts ps) q'
  /\ y_info q' = y_info q /\ y_reports q' = y_reports q
  /\ y_segs q' = y_segs q ++ segs_of f c first (y_rate q) ps
  /\ y_hint q' = hint_after f c (y_hint q) (listed ps)
  /\ x_ms (y_next q') = None
  /\ x_parts (y_next q') = match pending_of ps with Some (i, t) => parts_of f c i t | None => [] end.
Proof.
  intros CO TO DO. induction ps as [|p r IH]; intros first last_map mi bi parts q from PO F0 RO ML LB PL N0 M WM.
  - exists q. split; [apply plays_nil|]. cbn. rewrite app_nil_r. rewrite N0. repeat split.
  - destruct PO as (P1 & P2 & P3 & P4 & P5). inversion RO as [|? ? RO1 RO2]; subst.
    cbn [periods_text].
    destruct (period_shape _ _ P3) as (DP & _ & PE & PC & PN).
    assert (0 <= zlen (durations p)) as ZP by (unfold zlen; lia).
    assert (0 < p_count p) as PCP.
    { destruct P3 as (done & F & E). unfold p_count. destruct E as [[-> E]|[_ ->]].
      - destruct F as [|e l [F1 _] F]; [congruence|]. cbn [fold_right].
        assert (0 <= fold_right (fun e a => fst e + a) 0 l) by (clear - F; induction F as [|x l [H _] F IH]; cbn [fold_right]; lia). lia.
      - rewrite fold_right_app. cbn [fold_right fst]. clear - F. induction F as [|x l [H _] F IH]; cbn [fold_right] in *; lia. }
    destruct (media_info_spec (p_index p) c mi (tracks_minfo _ TO)) as (mi' & -> & ML').
    { clear - ML P1. induction ML; constructor; [eapply mlag_le; eassumption | assumption]. }
    { lia. }
    destruct (period_segments_plays f c (f_est f (infos_at (p_index p) c)) p _ parts bi
      (opened f c (writes_disc c first p) p q) CO TO P3 ltac:(lia) P4) as (o & parts' & bi' & E & PP & PI).
    { intros j J. apply PL. lia. }
    { eapply Forall2_lag_le; [|exact LB]. lia. }
    { split; reflexivity. }
    { exact RO1. }
    fold (scale c). rewrite E.
    destruct (open_plays f c first last_map p q CO DO N0 M) as [OP OM].
    { destruct TO as [T1 T2]. pose proof (info_at_range (p_index p) c T1 (tracks_minfo c (conj T1 T2)) ltac:(lia)). lia. }
    { exact P2. }
    { intros W. apply WM; [reflexivity | exact W]. }
    cbv zeta in OP, OM.
    set (changed := match f_init_ext f with Some _ => negb (info_at (p_index p) c =? last_map) | None => false end) in *.
    set (es := f_est f (infos_at (p_index p) c)) in *.
    set (q1 := opened f c (writes_disc c first p) p q) in *.
    pose proof (after_period_facts f c es p _ q1 P3 eq_refl eq_refl eq_refl) as (Q1 & Q2 & Q3 & Q4 & Q5 & Q6 & Q7 & Q8 & Q9 & Q10).
    set (q2 := after_period f c es p q1) in *.
    assert (writes_disc c first p = negb first || starts_period c p) as WD.
    { unfold writes_disc, starts_period. rewrite Z.gtb_ltb. reflexivity. }
    destruct r as [|p2 r].
    + exists q2. split.
      { cbn [periods_text]. rewrite app_nil_r. eapply plays_eq; [eapply plays_app; [exact OP | exact PP]|]. rewrite <- !app_assoc. reflexivity. }
      split; [exact Q1|]. split; [exact Q2|]. split; [|split; [exact Q6|split; [exact Q7 | exact Q9]]].
      cbn [segs_of]. rewrite app_nil_r. rewrite Q5. unfold q1, opened. cbn [y_segs y_map y_next x_discontinuity x_date y_rate]. rewrite WD. reflexivity.
    + destruct (PN eq_refl) as [PN1 PN2]. destruct (PI PN1) as [PI1 PI2].
      destruct (IH false (if changed then info_at (p_index p) c else last_map) mi' bi' parts' q2 (p_index p + p_count p)) as (q3 & PL3 & R1 & R2 & R3 & R4 & R5 & R6).
      * exact P5.
      * lia.
      * exact RO2.
      * clear - ML' PCP. induction ML'; constructor; [eapply mlag_le; [|eassumption]; lia | assumption].
      * exact PI2.
      * exact PI1.
      * apply Q10; assumption.
      * unfold mapping in *. rewrite Q3. exact OM.
      * intros p' _ W. discriminate.
      * exists q3. split.
        { eapply plays_eq; [eapply plays_app; [exact OP | eapply plays_app; [exact PP | exact PL3]]|]. rewrite <- !app_assoc. reflexivity. }
        split; [rewrite R1; exact Q1|]. split; [rewrite R2; exact Q2|]. split; [|split; [|split; [exact R5 | rewrite pending_cons; exact R6]]].
        { rewrite R3, Q5, Q4. change (segs_of f c first (y_rate q) (p :: p2 :: r)) with
            (run_of f c es (init_uri f c (p_index p)) (negb first || starts_period c p) (date_of f c p) (y_rate q) (segments p)
             ++ segs_of f c false (rate_after c es (y_rate q) (segments p)) (p2 :: r)).
          rewrite <- app_assoc. unfold q1, opened. cbn [y_segs y_map y_next x_discontinuity x_date y_rate]. rewrite WD. reflexivity. }
        { rewrite R4, Q6. change (y_hint q1) with (y_hint q). unfold listed. rewrite pending_cons.
          assert (pending_of [p] = None) as -> by (unfold pending_of; cbn [last]; rewrite <- PE, PN1; reflexivity).
          rewrite <- hint_after_app. f_equal. cbn [flat_map]. rewrite <- !app_assoc. reflexivity. }
Qed.
