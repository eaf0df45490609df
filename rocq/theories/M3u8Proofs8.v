(* The whole playlist. *)
From Coq Require Import String Ascii ZArith List Bool Lia ZifyBool.
From Verif Require Import Bytes M3u8Model M3u8Spec M3u8Proofs M3u8Proofs2 M3u8Proofs3 M3u8Proofs4
  M3u8Proofs5 M3u8Proofs6 M3u8Proofs7.
Import ListNotations.
Open Scope Z_scope.

Lemma rounded_spec v s : 0 < s -> (v + s / 2) / s = rounded v s.
Proof.
  intros S. unfold rounded. apply Z.div_unique with (2 * v + s - 2 * s * ((v + s / 2) / s)); [|lia]. left.
  pose proof (Z.mul_div_le (v + s / 2) s S). pose proof (Z.mul_succ_div_gt (v + s / 2) s S).
  pose proof (Z.mul_div_le s 2 ltac:(lia)). pose proof (Z.mul_succ_div_gt s 2 ltac:(lia)). lia.
Qed.

Lemma target_rounded f c : chan_ok f c -> head_ok f c ->
  target_duration c = rounded (h_target_duration (c_header c)) (c_timescale c) /\ 0 <= target_duration c < 2 ^ 32.
Proof.
  intros (T & _) (_ & _ & H1 & H2 & _). unfold target_duration.
  pose proof (Z.mul_div_le (c_timescale c) 2 ltac:(lia)). assert (0 <= c_timescale c / 2) by (apply Z.div_pos; lia).
  rewrite u32_small by lia. split; [apply rounded_spec; lia|]. split; [apply Z.div_pos; lia|]. apply Z.div_lt_upper_bound; [lia|]. nia.
Qed.

Lemma rescale_rounded f c : chan_ok f c -> head_ok f c -> c_timescale c < 2 ^ 32 ->
  rescale (c_part_duration c) (c_timescale c) 1000 = rounded (c_part_duration c * 1000) (c_timescale c)
  /\ 0 <= rescale (c_part_duration c) (c_timescale c) 1000 < 2 ^ 32.
Proof.
  intros (T & _) H T2. assert (0 <= c_part_duration c < 2 ^ 32) as P by apply H. unfold rescale, u64.
  pose proof (Z.mul_div_le (c_timescale c) 2 ltac:(lia)). assert (0 <= c_timescale c / 2) by (apply Z.div_pos; lia).
  rewrite (Z.mod_small (_ * 1000)) by lia. rewrite Z.mod_small by lia. split; [apply rounded_spec; lia|].
  split; [apply Z.div_pos; lia|]. apply Z.le_lt_trans with (c_part_duration c); [|lia].
  apply Z.lt_succ_r. apply Z.div_lt_upper_bound; [lia|]. nia.
Qed.

Lemma timescale_small f c : chan_ok f c -> head_ok f c -> c_timescale c < 2 ^ 32.
Proof. intros _ (_ & _ & H1 & H2 & _). lia. Qed.

Definition mlag0 c : Forall2 (mlag 0) (c_tracks c) (map t_minfo (c_tracks c)).
Proof. induction (c_tracks c); cbn; constructor; [intros j J; reflexivity | assumption]. Qed.

Lemma mlag_any c i : Forall2 (mlag i) (c_tracks c) (map t_minfo (c_tracks c)).
Proof. induction (c_tracks c); cbn; constructor; [intros j J; reflexivity | assumption]. Qed.

Lemma lag_any c i : Forall2 (lag i) (c_tracks c) (map iter_reset (c_tracks c)).
Proof. induction (c_tracks c); cbn; constructor; [apply lag_reset | assumption]. Qed.

Lemma periods_ok_from a ps b : periods_ok a ps -> (forall p, hd_error ps = Some p -> b <= p_index p) -> periods_ok b ps.
Proof. destruct ps as [|p r]; [exact (fun _ _ => I)|]. intros (P1 & P) H. split; [apply H; reflexivity | exact P]. Qed.

Theorem playlist_plays f c m : playlist_ok f c m ->
  exists y, play m (index_text f c) = Some y
  /\ y_info y = info_of f c (version f c)
  /\ y_segs y = expected f c
  /\ y_hint y = hint_after f c None (listed (c_periods c))
  /\ y_reports y = reports_of c
  /\ x_ms (y_next y) = None
  /\ x_parts (y_next y) = match pending c with Some (i, t) => parts_of f c i t | None => [] end.
Proof.
  intros (CO & TO & DO & PO & RO & HO & SO).
  pose proof (timescale_small _ _ CO HO) as TS.
  destruct (target_rounded f c CO HO) as [TR TB]. destruct (rescale_rounded f c CO HO TS) as [RR RB].
  pose proof CO as (T1000 & VB & _).
  pose proof HO as (H1 & H2 & H3 & H4 & H5 & H6 & H7 & H8 & H9 & H10 & H11 & H12).
  (* the iterators when the loop starts *)
  set (skipped := h_skipped_segments (c_header c) >? 0).
  set (from := if skipped then h_last_skipped_index (c_header c) else 0).
  assert (exists mi0 infos last_map,
    (if skipped then media_info_get (map t_minfo (c_tracks c)) (h_last_skipped_index (c_header c))
     else (map t_minfo (c_tracks c), [], INVALID_INDEX)) = (mi0, infos, last_map)
    /\ Forall2 (mlag from) (c_tracks c) mi0
    /\ last_map = (if skipped then info_at (h_last_skipped_index (c_header c)) c else INVALID_INDEX)) as (mi0 & infos & last_map & EM & ML & EL).
  { unfold skip_ok in SO. unfold from. destruct skipped eqn:ES.
    - assert (h_skipped_segments (c_header c) =? 0 = false) as E0 by (unfold skipped in ES; lia). rewrite E0 in SO. destruct SO as (S1 & _).
      destruct (media_info_spec (h_last_skipped_index (c_header c)) c _ (tracks_minfo _ TO) (mlag_any c _) ltac:(lia)) as (x & -> & X).
      do 3 eexists. split; [reflexivity|]. split; [exact X | reflexivity].
    - do 3 eexists. split; [reflexivity|]. split; [apply mlag0 | reflexivity]. }
  assert (0 <= from) as F0.
  { unfold from, skip_ok in *. destruct skipped eqn:ES; [|lia].
    assert (h_skipped_segments (c_header c) =? 0 = false) as E0 by (unfold skipped in ES; lia). rewrite E0 in SO. lia. }
  set (hd_player := set_info (info_of f c (version f c)) (player0 m)).
  set (hd_open := set_info (with_enc (i_enc (info_of f c (version f c))) (with_skip (h_skipped_segments (c_header c))
     (with_target (part_target f c) (with_control (ctl_block f c) (ctl_skip f (target_duration c)) (ctl_hold f c)
       (head_info (target_duration c) (version f c) (h_sequence (c_header c)) (u32 (h_first_period_index (c_header c) - h_skipped_periods (c_header c)))))))) (player0 m)).
  destruct (periods_plays f c (c_periods c) CO TO DO true last_map mi0 (map iter_reset (c_tracks c)) (track_parts c) hd_open from)
    as (q & QP & Q1 & Q2 & Q3 & Q4 & Q5 & Q6).
  { apply periods_ok_from with 0; [exact PO|]. intros p E. unfold from. destruct skipped eqn:ES.
    - unfold skip_ok in SO. assert (h_skipped_segments (c_header c) =? 0 = false) as E0 by (unfold skipped in ES; lia). rewrite E0 in SO.
      destruct SO as (_ & _ & SP). destruct (c_periods c) as [|p' r]; [discriminate|]. injection E as ->. apply SP.
    - destruct (c_periods c) as [|p' r]; [discriminate|]. injection E as ->. apply PO. }
  { exact F0. }
  { exact RO. }
  { exact ML. }
  { apply lag_any. }
  { apply parts_lag_track. }
  { reflexivity. }
  { unfold mapping. cbn [hd_open set_info y_map player0]. unfold skip_ok in SO. rewrite EL. destruct skipped eqn:ES.
    - assert (h_skipped_segments (c_header c) =? 0 = false) as E0 by (unfold skipped in ES; lia). rewrite E0 in SO.
      destruct SO as (_ & -> & _). unfold init_uri. destruct (f_init_ext f) as [x|]; [|reflexivity]. intros _. reflexivity.
    - assert (h_skipped_segments (c_header c) =? 0 = true) as E0 by (unfold skipped in ES; lia). rewrite E0 in SO. subst m.
      destruct (f_init_ext f) as [x|]; [congruence | reflexivity]. }
  { intros p E W. unfold writes_map in W. cbn [negb orb] in W. apply orb_false_iff in W. destruct W as [W1 W2].
    unfold skip_ok in SO. assert (h_skipped_segments (c_header c) =? 0 = false) as E0 by lia. rewrite E0 in SO.
    destruct SO as (_ & _ & SP). rewrite EL. assert (skipped = true) as -> by (unfold skipped; lia).
    destruct (c_periods c) as [|p' r]; [discriminate|]. injection E as ->. apply SP. lia. }
  set (y := add_reports (reports_of c) q).
  exists (if h_end_list (c_header c) then on_end y else y).
  split.
  - apply plays_end. unfold index_text. cbv zeta. fold skipped. rewrite EM.
    eapply plays_app; [apply plays_header; [exact TB | exact H1]|].
    eapply plays_app; [apply plays_control; try reflexivity|].
    { unfold ctl_skip. rewrite TR. destruct (f_skip_percent f =? 0) eqn:E; [discriminate|]. intros v [= <-]. rewrite <- TR in *. nia. }
    { unfold ctl_hold. destruct (_ && _); [|discriminate]. intros v [= <-]. split; [apply Z.div_pos; nia | exact H9]. }
    { exact H10. }
    { exact H8. }
    rewrite set_info_twice. cbn [set_info y_info].
    eapply plays_app; [apply plays_part_inf; [reflexivity|]|].
    { unfold part_target. destruct (_ && _); [|discriminate]. intros v [= <-]. exact RB. }
    rewrite set_info_twice. cbn [set_info y_info].
    eapply plays_app; [apply (plays_skip _ (h_skipped_segments (c_header c))); [reflexivity | exact H5]|].
    rewrite set_info_twice. cbn [set_info y_info].
    eapply plays_app; [apply plays_key; [reflexivity | exact VB |]|].
    { intros k Ek. apply (H12 k Ek). }
    rewrite set_info_twice. cbn [set_info y_info].
    eapply plays_app; [exact QP|].
    eapply plays_app; [apply plays_reports; exact H11|].
    fold y. destruct (h_end_list (c_header c)); [apply plays_endlist | apply plays_nil].
  - assert (y_info y = y_info hd_open) as YI by exact Q1.
    assert (y_next y = y_next q) as YN by reflexivity.
    split.
    { assert (forall b : bool, y_info (if b then on_end y else y) =
        if b then y_info (on_end y) else y_info y) as -> by (intros []; reflexivity).
      unfold on_end, set_info. cbn [y_info]. rewrite YI. unfold info_of. rewrite <- TR, <- RR.
      unfold hd_open, set_info, with_enc, with_skip, with_target, with_control, head_info, info_of. cbn [y_info i_enc i_m3u i_target i_version i_sequence i_discontinuities i_block_reload i_skip_until i_hold_back i_part_target i_skipped i_ended].
      rewrite u32_small by exact H2.
      assert (ctl_block f c = f_one_media f && f_block_reload f && negb (h_end_list (c_header c))) as ->
        by (unfold ctl_block; destruct (f_one_media f), (h_end_list (c_header c)), (f_block_reload f); reflexivity).
      assert (part_target f c = if f_one_media f && f_parts f && negb (c_part_duration c =? 0)
        then Some (rescale (c_part_duration c) (c_timescale c) 1000) else None) as ->.
      { unfold part_target. assert ((0 <? c_part_duration c) = negb (c_part_duration c =? 0)) as -> by lia.
        destruct (f_one_media f), (f_parts f), (c_part_duration c =? 0); reflexivity. }
      unfold ctl_skip, ctl_hold. destruct (h_end_list (c_header c)); reflexivity. }
    assert (y_segs (if h_end_list (c_header c) then on_end y else y) = y_segs y) as -> by (destruct (h_end_list (c_header c)); reflexivity).
    assert (y_hint (if h_end_list (c_header c) then on_end y else y) = y_hint y) as -> by (destruct (h_end_list (c_header c)); reflexivity).
    assert (y_reports (if h_end_list (c_header c) then on_end y else y) = y_reports y) as -> by (destruct (h_end_list (c_header c)); reflexivity).
    assert (y_next (if h_end_list (c_header c) then on_end y else y) = y_next y) as -> by (destruct (h_end_list (c_header c)); reflexivity).
    split; [exact Q3|]. split; [exact Q4|]. split; [unfold y, add_reports; cbn [y_reports]; rewrite Q2; reflexivity|].
    split; [exact Q5 | exact Q6].
Qed.
