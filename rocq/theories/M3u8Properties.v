(* The media playlists of HLS: what a player gets, the size of the buffer,
   durations, parts and delta updates. *)
From Coq Require Import String Ascii ZArith List Bool Lia ZifyBool.
From Verif Require Import Bytes M3u8Model M3u8Spec M3u8Proofs M3u8Proofs2 M3u8Proofs4 M3u8Proofs5 M3u8Proofs6 M3u8Proofs7
  M3u8Proofs8 M3u8Proofs9 M3u8Proofs10 M3u8Proofs11.
Import ListNotations.
Open Scope Z_scope.

Lemma build_text f c text : index_build f c = Some text -> text = index_text f c.
Proof. unfold index_build. destruct (_ >? _); congruence. Qed.

(* ----- C94: a player that reads the playlist gets the head, every finished
   segment with its uri, duration, discontinuity, gap, date, initialization
   segment, bitrate and parts, the parts of the unfinished segment, the hint
   and the reports, and the version that is announced is enough for them *)

Lemma segs_map f c ps : forall first rate s, In s (segs_of f c first rate ps) -> exists i, s_map s = init_uri f c i.
Proof.
  assert (forall es m l disc date rate s, In s (run_of f c es m disc date rate l) -> s_map s = m) as R.
  { intros es m l. induction l as [|[[i t0] t1] l IH]; intros disc date rate s H; [destruct H|]. cbn [run_of] in H. destruct H as [<-|H]; [reflexivity | eapply IH; exact H]. }
  induction ps as [|p r IH]; intros first rate s H; [destruct H|]. cbn [segs_of] in H. apply in_app_iff in H. destruct H as [H|H]; [|eapply IH; exact H].
  exists (p_index p). eapply R. exact H.
Qed.

Theorem playlist_reaches_the_player f c m text :
  playlist_ok f c m -> index_build f c = Some text ->
  exists y v, play m text = Some y /\ y_info y = info_of f c v /\ required y <= v
  /\ y_segs y = expected f c
  /\ y_hint y = hint_after f c None (listed (c_periods c))
  /\ y_reports y = reports_of c
  /\ x_ms (y_next y) = None
  /\ x_parts (y_next y) = match pending c with Some (i, t) => parts_of f c i t | None => [] end.
Proof.
  intros OK B. rewrite (build_text _ _ _ B). destruct (playlist_plays f c m OK) as (y & P & I & S & H & R & N & X).
  exists y, (version f c). repeat split; try assumption.
  destruct OK as (_ & _ & _ & _ & _ & HO & _). destruct HO as (_ & _ & _ & _ & HS & _ & _ & _ & _ & _ & _ & HK).
  unfold required, version. rewrite I. unfold info_of. cbn [i_skipped i_enc].
  destruct (h_skipped_segments (c_header c) >? 0) eqn:E; [assert (0 <? h_skipped_segments (c_header c) = true) as -> by lia; lia|].
  assert (0 <? h_skipped_segments (c_header c) = false) as -> by lia.
  assert (existsb (fun s => match s_map s with Some _ => true | None => false end) (y_segs y) = true -> exists x, f_init_ext f = Some x) as M.
  { intros H1. apply existsb_exists in H1. destruct H1 as (s & I1 & I2). rewrite S in I1. destruct (segs_map _ _ _ _ _ _ I1) as [i Q]. rewrite Q in I2.
    unfold init_uri in I2. destruct (f_init_ext f) as [x|]; [exists x; reflexivity | discriminate]. }
  destruct (existsb _ (y_segs y)); [destruct (M eq_refl) as [x ->]; lia|].
  destruct (f_key f) as [k|] eqn:K; cbn [option_map].
  - destruct (HK k eq_refl) as (K1 & K2 & K3). unfold enc_of. cbn [n_method n_format n_versions].
    destruct K1 as (_ & _ & K1). rewrite K2 in K1.
    destruct (f_init_ext f); [destruct (list_eq_dec _ _ _); [lia|]; destruct (zlen (k_format k) =? 0), (zlen (k_format_versions k) =? 0); lia|].
    pose proof (zlen_nonneg (k_format k)). pose proof (zlen_nonneg (k_format_versions k)).
    destruct (f_format_len f =? 0) eqn:F.
    + assert (zlen (k_format k) =? 0 = true) as -> by lia. assert (zlen (k_format_versions k) =? 0 = true) as -> by lia.
      unfold key_method. rewrite K2. cbn [negb].
      destruct (f_scheme f =? 1) eqn:F1; [assert (f_scheme f =? 2 = false) as -> by lia; assert (f_scheme f =? 3 = false) as -> by lia; vm_compute; congruence|].
      destruct (f_scheme f =? 2) eqn:F2; [destruct (list_eq_dec _ _ _); cbn [orb]; lia|].
      assert (f_scheme f =? 3 = true) as -> by lia. cbn [orb]. destruct (list_eq_dec _ _ _); lia.
    + cbn [negb]. rewrite orb_true_r. destruct (list_eq_dec _ _ _); [lia|]. destruct (zlen (k_format k) =? 0), (zlen (k_format_versions k) =? 0); lia.
  - destruct (f_init_ext f); [lia|]. destruct (_ || _); lia.
Qed.
Print Assumptions playlist_reaches_the_player.

(* every finished segment once, in order *)
Theorem playlist_lists_every_segment f c m text :
  playlist_ok f c m -> index_build f c = Some text ->
  exists y, play m text = Some y
  /\ map s_uri (y_segs y) = map (fun x => seg_uri f c (fst (fst x))) (flat_map segments (c_periods c)).
Proof.
  intros OK B. destruct (playlist_reaches_the_player _ _ _ _ OK B) as (y & v & P & _ & _ & S & _). exists y. split; [exact P|]. rewrite S. unfold expected.
  assert (forall es mm l disc date rate, map s_uri (run_of f c es mm disc date rate l) = map (fun x => seg_uri f c (fst (fst x))) l) as R.
  { intros es mm l. induction l as [|[[i t0] t1] l IH]; intros disc date rate; [reflexivity|]. cbn [run_of map s_uri fst snd]. f_equal. apply IH. }
  generalize true, (@None Z). induction (c_periods c) as [|p ps IH]; intros first rate; [reflexivity|]. cbn [segs_of flat_map]. rewrite !map_app, IH, R. reflexivity.
Qed.
Print Assumptions playlist_lists_every_segment.

(* a concrete channel: two periods, a gap, two initialization segments, parts,
   a hint, a key, reports; the second playlist skips two segments *)
Definition ex_est : est := {| e_num := 1; e_den := 1; e_k2 := 0; e_k3 := 0 |}.
Definition ex_key : key :=
  {| k_scheme := 2; k_scope := 2; k_uri := None; k_pssh := []; k_iv := repeat 7 16; k_output_iv := true;
     k_format := str "com.apple.streamingkeydelivery"; k_format_versions := str "1" |}.
Definition ex_conf : conf :=
  {| f_seg_ext := str ".m4s"; f_init_ext := Some (str ".mp4"); f_est := map (fun _ => ex_est);
     f_pdt := true; f_date := fun _ => str "2026-11-16T00:00:00"; f_scheme := 2; f_format_len := 31;
     f_key := Some ex_key; f_parts := true; f_one_media := true; f_skip_percent := 600;
     f_block_reload := true; f_hold_back_percent := 300 |}.
Definition ex_header : header :=
  {| h_sequence := 4; h_first_period_index := 3; h_first_initial_index := 4; h_target_duration := 360045;
     h_end_list := false; h_skipped_periods := 0; h_skipped_segments := 0; h_last_skipped_index := 0 |}.
Definition ex_track : track :=
  {| t_type := 0; t_minfo := [2; 7]; t_sinfo := [(0, 1000000); (6, 0); (7, 2000000)];
     t_parts := [(7, [2 ^ 31 + 90000; 90000; 2 ^ 30 + 90000; 90045]); (8, [2 ^ 31 + 90000; 2 ^ 32 - 1])] |}.
Definition ex_p1 : period := {| p_time := 9000000; p_index := 4; p_elts := [(2, 360000); (1, 180000)] |}.
Definition ex_p2 : period := {| p_time := 10800000; p_index := 7; p_elts := [(1, 360045); (1, 0)] |}.
Definition ex_chan : channel :=
  {| c_timescale := 90000; c_part_duration := 90000; c_media_types := 1; c_variant := str "a b";
     c_header := ex_header; c_periods := [ex_p1; ex_p2]; c_tracks := [ex_track];
     c_reports := [(str "x", [{| r_type := 1; r_last_sequence := 8; r_last_part := 0 |}])];
     c_rr_last_sequence := 8; c_rr_last_part := 1 |}.
Definition ex_skip_header : header :=
  {| h_sequence := 4; h_first_period_index := 3; h_first_initial_index := 4; h_target_duration := 360045;
     h_end_list := false; h_skipped_periods := 0; h_skipped_segments := 2; h_last_skipped_index := 5 |}.
Definition ex_q : period := {| p_time := 9720000; p_index := 6; p_elts := [(1, 180000)] |}.
Definition ex_skip : channel :=
  {| c_timescale := 90000; c_part_duration := 90000; c_media_types := 1; c_variant := str "a b";
     c_header := ex_skip_header; c_periods := [ex_q; ex_p2]; c_tracks := [ex_track];
     c_reports := []; c_rr_last_sequence := 8; c_rr_last_part := 1 |}.

Lemma ex_common c : c_tracks c = [ex_track] -> c_timescale c = 90000 -> c_variant c = str "a b" ->
  chan_ok ex_conf c /\ tracks_ok c /\ dates_ok ex_conf.
Proof.
  intros T S V. split; [|split].
  - unfold chan_ok. rewrite S, V. split; [lia|]. split; [vm_compute; repeat constructor; congruence|].
    split; [split; vm_compute; intros H; decompose [or] H; congruence|]. intros x H. injection H as <-. split; vm_compute; intros H; decompose [or] H; congruence.
  - unfold tracks_ok. rewrite T. split; [congruence|]. constructor; [|constructor]. split; [cbn; lia|]. split; [split; [cbn; congruence|]; split; [cbn; lia|]|].
    + cbn. unfold INVALID_INDEX. repeat (apply Forall_cons; [lia|]). apply Forall_nil.
    + split; [cbn; lia|]. unfold INVALID_INDEX, plist_ok. cbn.
      repeat (apply Forall_cons; [cbn [fst snd removelast]; split; [lia|]; split; repeat (apply Forall_cons; [unfold PRELOAD_HINT; cbn; lia|]); apply Forall_nil|]). apply Forall_nil.
  - intros t. split; vm_compute; intros H; decompose [or] H; congruence.
Qed.

Ltac rates_tac :=
  unfold rates_ok; apply Forall_cons; [|apply Forall_cons; [|apply Forall_nil]]; unfold runs_ok;
  match goal with |- Forall _ ?l => let v := eval vm_compute in l in change l with v end;
  repeat (apply Forall_cons; [|]); try apply Forall_nil; unfold total_ok; vm_compute; intros; try exact I; split; congruence.
Ltac elts_tac done := exists done; split; [repeat (apply Forall_cons; [cbn; lia|]); apply Forall_nil|].
Ltac bytes_tac := match goal with |- Forall _ ?l => let v := eval vm_compute in l in change l with v end; repeat (apply Forall_cons; [unfold is_byte; lia|]); apply Forall_nil.
Ltac head_tac :=
  unfold head_ok; cbv zeta; repeat match goal with |- _ /\ _ => split end;
  match goal with
  | |- Forall _ (c_reports ?c) =>
      let v := eval vm_compute in (c_reports c) in change (c_reports c) with v;
      first [apply Forall_nil | apply Forall_cons; [split; [cbn [fst]; bytes_tac | cbn [snd]; apply Forall_cons; [split; cbn; lia | apply Forall_nil]] | apply Forall_nil]]
  | |- forall _ : key, _ =>
      intros k H; injection H as <-; split; [split; [split; vm_compute; tauto | split; [cbn [k_iv ex_key]; bytes_tac | cbn; lia]] | split; vm_compute; reflexivity]
  | _ => vm_compute; congruence
  end.

Example ex_ok : playlist_ok ex_conf ex_chan None.
Proof.
  destruct (ex_common ex_chan eq_refl eq_refl eq_refl) as (A & B & C). split; [exact A|]. split; [exact B|]. split; [exact C|].
  split; [cbn [periods_ok ex_chan c_periods]|split; [|split; [|reflexivity]]].
  - split; [cbn; lia|]. split; [cbn; lia|]. split; [elts_tac [(2, 360000); (1, 180000)]; left; split; [reflexivity | congruence]|]. split; [vm_compute; congruence|].
    split; [vm_compute; congruence|]. split; [cbn; lia|]. split; [elts_tac [(1, 360045)]; right; split; reflexivity|]. split; [vm_compute; congruence | exact I].
  - change (c_periods ex_chan) with [ex_p1; ex_p2]. rates_tac.
  - head_tac.
Qed.

Example ex_skip_ok : playlist_ok ex_conf ex_skip (init_uri ex_conf ex_chan 5).
Proof.
  destruct (ex_common ex_skip eq_refl eq_refl eq_refl) as (A & B & C). split; [exact A|]. split; [exact B|]. split; [exact C|].
  split; [cbn [periods_ok ex_skip c_periods]|split; [|split]].
  - split; [cbn; lia|]. split; [cbn; lia|]. split; [elts_tac [(1, 180000)]; left; split; [reflexivity | congruence]|]. split; [vm_compute; congruence|].
    split; [vm_compute; congruence|]. split; [cbn; lia|]. split; [elts_tac [(1, 360045)]; right; split; reflexivity|]. split; [vm_compute; congruence | exact I].
  - change (c_periods ex_skip) with [ex_q; ex_p2]. rates_tac.
  - head_tac.
  - unfold skip_ok. cbn [c_header ex_skip h_skipped_segments ex_skip_header Z.eqb Pos.eqb]. split; [vm_compute; split; congruence|]. split; [vm_compute; reflexivity|].
    cbn [c_periods]. split; [vm_compute; congruence|]. intros _. vm_compute. reflexivity.
Qed.

Example ex_text : index_build ex_conf ex_chan = Some (index_text ex_conf ex_chan) /\ zlen (index_text ex_conf ex_chan) = 1252.
Proof. vm_compute. split; reflexivity. Qed.

(* ----- C95: the buffer whose size was computed is never exceeded: a
   playlist is always served *)
Theorem playlist_fits_the_buffer f c m :
  playlist_ok f c m -> sizes_ok f c -> exists text, index_build f c = Some text /\ zlen text <= index_size f c.
Proof.
  intros OK SZ. pose proof (playlist_fits f c m OK SZ) as H. exists (index_text f c). split; [|exact H]. unfold index_build.
  destruct (zlen (index_text f c) >? index_size f c) eqn:E; [lia | reflexivity].
Qed.
Print Assumptions playlist_fits_the_buffer.

Example ex_sizes : sizes_ok ex_conf ex_chan.
Proof.
  split; [intros t; reflexivity|]. split; [intros l; apply map_length|]. split; [intros k H; injection H as <-; reflexivity|].
  change (c_periods ex_chan) with [ex_p1; ex_p2]. repeat (apply Forall_cons; [vm_compute; reflexivity|]). apply Forall_nil.
Qed.

(* ----- C96: durations *)

(* in every period the durations of the first segments add up to the time
   from the start of the period to their end, each taken in whole
   milliseconds: rounding never accumulates; the date of the first is that of
   the period *)
Theorem durations_do_not_drift f c m text :
  playlist_ok f c m -> index_build f c = Some text ->
  exists y runs, play m text = Some y /\ y_segs y = concat runs
  /\ Forall2 (fun p run =>
       length run = length (durations p)
       /\ (forall s, hd_error run = Some s ->
             s_date s = if f_pdt f then Some (f_date f (p_time p / c_timescale c), ms_of c (p_time p) mod 1000) else None)
       /\ forall k, total (map s_ms (firstn k run)) = ms_of c (p_time p + total (firstn k (durations p))) - ms_of c (p_time p))
     (c_periods c) runs.
Proof.
  intros OK B. destruct (playlist_reaches_the_player _ _ _ _ OK B) as (y & v & P & _ & _ & S & _).
  destruct (segs_runs f c (c_periods c) true None) as (runs & E & F). exists y, runs. split; [exact P|]. split; [rewrite S; exact E | exact F].
Qed.
Print Assumptions durations_do_not_drift.

(* when the timescale is a number of units by millisecond, the duration of a
   segment, and the sum of any number of them from the start of their period,
   are right to less than a millisecond *)
Theorem durations_are_right_to_a_millisecond f c m text :
  playlist_ok f c m -> c_timescale c mod 1000 = 0 -> index_build f c = Some text ->
  exists y runs, play m text = Some y /\ y_segs y = concat runs
  /\ Forall2 (fun p run => length run = length (durations p)
       /\ forall k, about c (total (firstn k (durations p))) (total (map s_ms (firstn k run)))) (c_periods c) runs
  /\ forall s, In s (y_segs y) -> exists p i t0 t1, In p (c_periods c) /\ In (i, t0, t1) (segments p)
       /\ s_uri s = seg_uri f c i /\ about c (t1 - t0) (s_ms s).
Proof.
  intros OK M B. destruct (durations_do_not_drift _ _ _ _ OK B) as (y & runs & P & S & F).
  destruct (playlist_reaches_the_player _ _ _ _ OK B) as (y' & v & P' & _ & _ & S' & _). rewrite P in P'. injection P' as <-.
  assert (1000 <= c_timescale c) as T by apply OK.
  exists y, runs. split; [exact P|]. split; [exact S|]. split.
  - clear - F M T. induction F as [|p run ps rs (L & _ & X) F IH]; constructor; [|exact IH]. split; [exact L|]. intros k. rewrite X.
    pose proof (ms_about c (p_time p) (p_time p + total (firstn k (durations p))) M T) as A.
    replace (p_time p + total (firstn k (durations p)) - p_time p) with (total (firstn k (durations p))) in A by lia. exact A.
  - intros s I. rewrite S' in I. destruct (segs_in _ _ _ _ _ _ I) as (p & [[i t0] t1] & I1 & I2 & U & D & _). cbn [fst snd] in *.
    exists p, i, t0, t1. split; [exact I1|]. split; [exact I2|]. split; [exact U|]. rewrite D. apply ms_about; assumption.
Qed.
Print Assumptions durations_are_right_to_a_millisecond.

Example ex_timescale : c_timescale ex_chan mod 1000 = 0 /\ map s_ms (expected ex_conf ex_chan) = [4000; 4000; 2000; 4000].
Proof. vm_compute. split; reflexivity. Qed.

(* with another timescale they are not: at 44100 a segment of ten seconds is
   announced as 10.022 *)
Definition bad_chan (ts time d target : Z) (parts : list (Z * list Z)) (part_d : Z) : channel :=
  {| c_timescale := ts; c_part_duration := part_d; c_media_types := 1; c_variant := str "v";
     c_header := {| h_sequence := 0; h_first_period_index := 0; h_first_initial_index := 0; h_target_duration := target;
                    h_end_list := false; h_skipped_periods := 0; h_skipped_segments := 0; h_last_skipped_index := 0 |};
     c_periods := [{| p_time := time; p_index := 0; p_elts := [(1, d)] |}];
     c_tracks := [{| t_type := 0; t_minfo := [0]; t_sinfo := []; t_parts := parts |}];
     c_reports := []; c_rr_last_sequence := 0; c_rr_last_part := 0 |}.
Definition bad_conf : conf :=
  {| f_seg_ext := str ".ts"; f_init_ext := None; f_est := map (fun _ => ex_est);
     f_pdt := false; f_date := fun _ => str "2026-11-16T00:00:00"; f_scheme := 0; f_format_len := 0;
     f_key := None; f_parts := true; f_one_media := true; f_skip_percent := 0;
     f_block_reload := false; f_hold_back_percent := 0 |}.

Lemma bad_ok ts time d target parts part_d :
  1000 <= ts -> 0 <= time -> 0 < d < 2 ^ 32 -> 0 <= target -> target + ts < 2 ^ 32 ->
  strict (map fst parts) -> Forall (fun ps => 0 <= fst ps < INVALID_INDEX /\ plist_ok (snd ps)) parts -> 0 <= part_d < 2 ^ 32 ->
  playlist_ok bad_conf (bad_chan ts time d target parts part_d) None.
Proof.
  intros H1 H2 H3 H4 H5 H6 H7 H8. split; [|split; [|split; [|split; [|split; [|split; [|reflexivity]]]]]].
  - split; [exact H1|]. split; [vm_compute; repeat constructor; congruence|]. split; [split; vm_compute; intros H; decompose [or] H; congruence | discriminate].
  - split; [discriminate|]. constructor; [|constructor]. split; [exact I|]. split; [split; [discriminate|]; split; [exact I|]; constructor; [unfold INVALID_INDEX; lia | constructor]|].
    split; [exact H6 | exact H7].
  - intros t. split; vm_compute; intros H; decompose [or] H; congruence.
  - cbn [periods_ok c_periods bad_chan]. split; [cbn; lia|]. split; [exact H2|]. split; [|split; [vm_compute; congruence | exact I]].
    exists [(1, d)]. split; [constructor; [cbn; lia | constructor]|]. left. split; [reflexivity | discriminate].
  - cbn [c_periods bad_chan]. constructor; [|constructor]. unfold runs_ok, durations. cbn [p_elts filter snd]. assert (0 <? d = true) as -> by lia.
    cbn. constructor; [exact I | constructor].
  - unfold head_ok. cbn [c_header bad_chan h_sequence h_first_period_index h_skipped_periods h_target_duration h_skipped_segments f_skip_percent bad_conf f_hold_back_percent c_part_duration c_timescale c_reports].
    cbv zeta. rewrite !Z.mul_0_r. cbn [Z.mul]. rewrite Z.div_0_l by lia. repeat match goal with |- _ /\ _ => split end; try lia; [apply Forall_nil | discriminate].
Qed.

Theorem durations_with_odd_timescale_refuted :
  exists f c text y s, playlist_ok f c None /\ sizes_ok f c /\ index_build f c = Some text
  /\ play None text = Some y /\ y_segs y = [s] /\ c_timescale c = 44100
  /\ map segments (c_periods c) = [[(0, 0, 441000)]] /\ s_ms s = 10022.
Proof.
  set (c := bad_chan 44100 0 441000 441000 [] 0).
  assert (playlist_ok bad_conf c None) as OK by (apply bad_ok; (lia || exact I || apply Forall_nil)).
  assert (sizes_ok bad_conf c) as SZ.
  { split; [intros t; reflexivity|]. split; [intros l; apply map_length|]. split; [discriminate|]. constructor; [vm_compute; reflexivity | constructor]. }
  destruct (playlist_fits_the_buffer _ _ _ OK SZ) as (text & B & _). destruct (playlist_reaches_the_player _ _ _ _ OK B) as (y & v & P & _ & _ & S & _).
  exists bad_conf, c, text, y, {| s_uri := str "seg-1-sv-v.ts"; s_ms := 10022; s_discontinuity := false; s_gap := false; s_date := None; s_map := None; s_rate := None; s_parts := [] |}.
  split; [exact OK|]. split; [exact SZ|]. split; [exact B|]. split; [exact P|]. split; [rewrite S; vm_compute; reflexivity|]. split; [reflexivity|]. split; [vm_compute; reflexivity | reflexivity].
Qed.
Print Assumptions durations_with_odd_timescale_refuted.

(* no segment is longer than the target duration, if that of the segmenter is
   at least that of every segment: less one millisecond, which the rounding
   of its start and end may add; without it when all are whole milliseconds *)
Theorem segments_keep_to_the_target_partial f c m text :
  playlist_ok f c m -> c_timescale c mod 1000 = 0 -> index_build f c = Some text ->
  Forall (fun p => Forall (fun d => d <= h_target_duration (c_header c)) (durations p)) (c_periods c) ->
  exists y t, play m text = Some y /\ i_target (y_info y) = Some t
  /\ (forall s, In s (y_segs y) -> rounded (s_ms s - 1) 1000 <= t)
  /\ (Forall (fun p => p_time p mod (c_timescale c / 1000) = 0
                       /\ Forall (fun d => d mod (c_timescale c / 1000) = 0) (durations p)) (c_periods c) ->
      forall s, In s (y_segs y) -> rounded (s_ms s) 1000 <= t).
Proof.
  intros OK M B D. destruct (playlist_reaches_the_player _ _ _ _ OK B) as (y & v & P & I & _ & S & _).
  assert (1000 <= c_timescale c) as T by apply OK. pose proof (scale_pos _ _ (proj1 OK)) as SP.
  eexists y, _. split; [exact P|]. rewrite I. cbn [info_of i_target]. split; [reflexivity|].
  assert (forall s, In s (y_segs y) -> exists p i t0 d, In p (c_periods c) /\ In (i, t0, t0 + d) (segments p) /\ In d (durations p) /\ s_ms s = ms_of c (t0 + d) - ms_of c t0) as X.
  { intros s H. rewrite S in H. destruct (segs_in _ _ _ _ _ _ H) as (p & [[i t0] t1] & I1 & I2 & _ & E & _). cbn [fst snd] in E.
    assert (exists d, In d (durations p) /\ t1 = t0 + d) as (d & D1 & ->).
    { destruct (in_place _ _ _ _ I2) as (e & [(Q1 & Q2 & _)|(e2 & Q1 & Q2)]); [exists e | exists e2]; (split; [exact Q1 | exact Q2]). }
    exists p, i, t0, d. auto. }
  split.
  - intros s H. destruct (X s H) as (p & i & t0 & d & I1 & _ & I3 & E). rewrite Forall_forall in D. specialize (D p I1). rewrite Forall_forall in D. specialize (D d I3).
    transitivity (rounded (h_target_duration (c_header c) / (c_timescale c / 1000)) 1000); [|apply rounded_ms; assumption].
    apply rounded_le; [lia|]. pose proof (step_up c t0 d SP) as U. rewrite E.
    assert (d / scale c <= h_target_duration (c_header c) / (c_timescale c / 1000)) by (apply Z.div_le_mono; unfold scale in *; lia). lia.
  - intros AL s H. destruct (X s H) as (p & i & t0 & d & I1 & I2 & I3 & E). rewrite Forall_forall in D. specialize (D p I1). rewrite Forall_forall in D. specialize (D d I3).
    rewrite Forall_forall in AL. destruct (AL p I1) as [A1 A2]. fold (scale c) in A1, A2.
    assert (t0 mod scale c = 0) as T0.
    { clear - I2 A1 A2 SP. unfold segments in I2. revert I2 A1. generalize (p_index p) (p_time p). induction (durations p) as [|e l IH]; intros k t I2 A1; [destruct I2|].
      inversion A2; subst. cbn [place] in I2. destruct I2 as [Q|Q]; [injection Q as _ <- _; exact A1|]. eapply IH; [assumption | exact Q|].
      rewrite Z.add_mod by lia. rewrite A1, H1. apply Z.mod_0_l. lia. }
    rewrite Forall_forall in A2. specialize (A2 d I3).
    transitivity (rounded (h_target_duration (c_header c) / (c_timescale c / 1000)) 1000); [|apply rounded_ms; assumption].
    apply rounded_le; [lia|]. rewrite E. change (ms_of c) with (fun t => t / scale c). cbv beta.
    apply Z.mod_divide in T0; [|lia]. destruct T0 as [q ->]. rewrite Z.add_comm, Z.div_add by lia. rewrite Z.div_mul by lia.
    assert (d / scale c <= h_target_duration (c_header c) / (c_timescale c / 1000)) by (apply Z.div_le_mono; unfold scale in *; lia). lia.
Qed.
Print Assumptions segments_keep_to_the_target_partial.

Example ex_target : Forall (fun p => Forall (fun d => d <= h_target_duration (c_header ex_chan)) (durations p)) (c_periods ex_chan).
Proof.
  change (c_periods ex_chan) with [ex_p1; ex_p2].
  repeat (apply Forall_cons; [match goal with |- Forall _ ?l => let v := eval vm_compute in l in change l with v end; repeat (apply Forall_cons; [vm_compute; congruence|]); apply Forall_nil|]). apply Forall_nil.
Qed.

(* that millisecond can be one too many: a segment of 4.49999 s, with a target
   duration of 4, is announced as 4.500, which rounds to 5 *)
Theorem segments_exceed_the_target_refuted :
  exists f c text y s, playlist_ok f c None /\ sizes_ok f c /\ c_timescale c = 90000 /\ index_build f c = Some text
  /\ map durations (c_periods c) = [[h_target_duration (c_header c)]]
  /\ play None text = Some y /\ In s (y_segs y) /\ i_target (y_info y) = Some 4 /\ s_ms s = 4500 /\ rounded (s_ms s) 1000 = 5.
Proof.
  set (c := bad_chan 90000 89 404999 404999 [] 0).
  assert (playlist_ok bad_conf c None) as OK by (apply bad_ok; (lia || exact I || apply Forall_nil)).
  assert (sizes_ok bad_conf c) as SZ.
  { split; [intros t; reflexivity|]. split; [intros l; apply map_length|]. split; [discriminate|]. constructor; [vm_compute; reflexivity | constructor]. }
  destruct (playlist_fits_the_buffer _ _ _ OK SZ) as (text & B & _). destruct (playlist_reaches_the_player _ _ _ _ OK B) as (y & v & P & IN & _ & S & _).
  exists bad_conf, c, text, y, {| s_uri := str "seg-1-sv-v.ts"; s_ms := 4500; s_discontinuity := false; s_gap := false; s_date := None; s_map := None; s_rate := None; s_parts := [] |}.
  split; [exact OK|]. split; [exact SZ|]. split; [reflexivity|]. split; [exact B|]. split; [vm_compute; reflexivity|]. split; [exact P|].
  split; [rewrite S; vm_compute; left; reflexivity|]. rewrite IN. split; [vm_compute; reflexivity|]. split; vm_compute; reflexivity.
Qed.
Print Assumptions segments_exceed_the_target_refuted.

(* ----- C97: parts *)

(* the parts of a segment add up to the segment when their durations do, and
   none is longer than the part target and a millisecond *)
Theorem parts_add_up f c m text :
  playlist_ok f c m -> index_build f c = Some text ->
  exists y, play m text = Some y
  /\ (forall s, In s (y_segs y) -> exists p i t0 t1, In p (c_periods c) /\ In (i, t0, t1) (segments p) /\ s_uri s = seg_uri f c i
       /\ (total (part_durations i c) = t1 - t0 -> total (map pt_ms (s_parts s)) = s_ms s))
  /\ (forall i t, pending c = Some (i, t) ->
       total (map pt_ms (x_parts (y_next y))) = ms_of c (t + total (part_durations i c)) - ms_of c t)
  /\ (c_timescale c mod 1000 = 0 -> Forall (fun t => Forall (fun ps => Forall (fun d => d <> PRELOAD_HINT -> d mod 2 ^ 30 <= c_part_duration c) (snd ps)) (t_parts t)) (c_tracks c) ->
      forall s pt, In s (y_segs y) -> In pt (s_parts s) -> pt_ms pt <= rounded (c_part_duration c * 1000) (c_timescale c) + 1).
Proof.
  intros OK B. destruct (playlist_reaches_the_player _ _ _ _ OK B) as (y & v & P & _ & _ & S & _ & _ & _ & X).
  pose proof (proj1 (proj2 OK)) as TO. pose proof (scale_pos _ _ (proj1 OK)) as SP. assert (1000 <= c_timescale c) as T by apply OK.
  exists y. split; [exact P|]. split; [|split].
  - intros s H. rewrite S in H. destruct (segs_in _ _ _ _ _ _ H) as (p & [[i t0] t1] & I1 & I2 & U & E & R). cbn [fst snd] in *.
    exists p, i, t0, t1. split; [exact I1|]. split; [exact I2|]. split; [exact U|]. intros Q. rewrite R, E. unfold parts_of. rewrite parts_total by (apply parts_ok_at; exact TO).
    fold (part_durations i c). rewrite Q. f_equal. f_equal. lia.
  - intros i t Q. rewrite X, Q. apply parts_total. apply parts_ok_at. exact TO.
  - intros M PD s pt H J. rewrite S in H. destruct (segs_in _ _ _ _ _ _ H) as (p & [[i t0] t1] & I1 & I2 & U & E & R). cbn [fst snd] in *. rewrite R in J.
    destruct (parts_in _ _ _ _ _ _ _ J) as (d & t' & D1 & D2 & ->).
    assert (d mod 2 ^ 30 <= c_part_duration c) as DL.
    { unfold parts_at in D1. destruct (c_tracks c) as [|t [|? ?]]; try destruct D1. inversion PD; subst.
      destruct (find (fun ps => fst ps =? i) (t_parts t)) as [ps|] eqn:F; [|destruct D1]. apply find_some in F. destruct F as [F _].
      rewrite Forall_forall in H2. specialize (H2 ps F). rewrite Forall_forall in H2. apply H2; assumption. }
    pose proof (step_up c t' (d mod 2 ^ 30) SP) as UP.
    assert (d mod 2 ^ 30 / scale c <= rounded (c_part_duration c * 1000) (c_timescale c)) as Y; [|lia].
    transitivity (c_part_duration c / scale c); [apply Z.div_le_mono; lia|].
    assert (c_timescale c = 1000 * scale c) as TS by (pose proof (Z.div_mod (c_timescale c) 1000 ltac:(lia)) as W; rewrite M in W; unfold scale; lia).
    unfold rounded. rewrite TS. apply Z.div_le_lower_bound; [lia|].
    pose proof (Z.div_mod (c_part_duration c) (scale c) ltac:(lia)) as W. pose proof (Z.mod_pos_bound (c_part_duration c) (scale c) ltac:(lia)).
    replace (2 * (1000 * scale c) * (c_part_duration c / scale c)) with (2000 * (scale c * (c_part_duration c / scale c))) by ring. lia.
Qed.
Print Assumptions parts_add_up.

Example ex_parts : map (fun s => (s_ms s, map pt_ms (s_parts s))) (expected ex_conf ex_chan)
  = [(4000, []); (4000, []); (2000, []); (4000, [1000; 1000; 1000; 1000])]
  /\ total (part_durations 7 ex_chan) = 360045
  /\ Forall (fun t => Forall (fun ps => Forall (fun d => d <> PRELOAD_HINT -> d mod 2 ^ 30 <= 90045) (snd ps)) (t_parts t)) (c_tracks ex_chan).
Proof.
  split; [vm_compute; reflexivity|]. split; [vm_compute; reflexivity|]. cbn [c_tracks ex_chan]. apply Forall_cons; [|apply Forall_nil].
  cbn [t_parts ex_track]. repeat (apply Forall_cons; [cbn [snd]; repeat (apply Forall_cons; [vm_compute; congruence|]); apply Forall_nil|]). apply Forall_nil.
Qed.

(* the part target can be exceeded: parts of a third of a second, at 90000,
   have a target of 0.333 and are announced as 0.333, 0.333 and 0.334 *)
Theorem parts_exceed_the_target_refuted :
  exists f c text y s, playlist_ok f c None /\ sizes_ok f c /\ c_timescale c = 90000 /\ index_build f c = Some text
  /\ part_durations 0 c = [c_part_duration c; c_part_duration c; c_part_duration c]
  /\ play None text = Some y /\ In s (y_segs y) /\ i_part_target (y_info y) = Some 333 /\ map pt_ms (s_parts s) = [333; 333; 334].
Proof.
  set (c := bad_chan 90000 0 90000 90000 [(0, [30000; 30000; 30000])] 30000).
  assert (playlist_ok bad_conf c None) as OK.
  { apply bad_ok; try lia; [exact I|]. constructor; [|constructor]. split; [unfold INVALID_INDEX; cbn; lia|].
    split; cbn [snd removelast]; repeat (apply Forall_cons; [unfold PRELOAD_HINT; lia|]); apply Forall_nil. }
  assert (sizes_ok bad_conf c) as SZ.
  { split; [intros t; reflexivity|]. split; [intros l; apply map_length|]. split; [discriminate|]. constructor; [vm_compute; reflexivity | constructor]. }
  destruct (playlist_fits_the_buffer _ _ _ OK SZ) as (text & B & _). destruct (playlist_reaches_the_player _ _ _ _ OK B) as (y & v & P & IN & _ & S & _).
  eexists bad_conf, c, text, y, _.
  split; [exact OK|]. split; [exact SZ|]. split; [reflexivity|]. split; [exact B|]. split; [vm_compute; reflexivity|]. split; [exact P|].
  split; [rewrite S; left; reflexivity|]. rewrite IN. split; [vm_compute; reflexivity|]. vm_compute; reflexivity.
Qed.
Print Assumptions parts_exceed_the_target_refuted.

(* ----- C98: a player that has the first segments and reads a playlist that
   skips them has what it would have from the whole playlist *)
Theorem delta_update_is_the_whole f c d k text delta :
  playlist_ok f c None -> playlist_ok f d (init_uri f d (h_last_skipped_index (c_header d))) -> skips c d k ->
  index_build f c = Some text -> index_build f d = Some delta ->
  exists y z, play None text = Some y /\ play (init_uri f d (h_last_skipped_index (c_header d))) delta = Some z
  /\ i_skipped (y_info z) = Z.of_nat k
  /\ i_sequence (y_info z) = i_sequence (y_info y)
  /\ i_discontinuities (y_info z) = i_discontinuities (y_info y)
  /\ (k <= length (y_segs y))%nat
  /\ map lasting (firstn k (y_segs y) ++ y_segs z) = map lasting (y_segs y).
Proof.
  intros OC OD SK BC BD. destruct (playlist_reaches_the_player _ _ _ _ OC BC) as (y & v & P & I & _ & S & _).
  destruct (playlist_reaches_the_player _ _ _ _ OD BD) as (z & w & Q & J & _ & U & _). exists y, z. split; [exact P|]. split; [exact Q|].
  rewrite I, J, S, U. cbn [info_of i_skipped i_sequence i_discontinuities]. pose proof (delta_expected f c d k SK) as E.
  destruct SK as (gone & p & q & rest & n & PC & PD & SQ & NL & IQ & _ & K & KP & SC & SD & FI & NG & P1 & P2 & P3 & P4 & _).
  split; [exact SD|]. split; [f_equal; exact P4|]. split; [f_equal; lia|]. split; [|symmetry; exact E].
  unfold expected. rewrite PC. destruct (segs_app f c gone (p :: rest) true None) as [r' ->]. cbn [segs_of]. rewrite !app_length, !segs_len.
  unfold segments at 2. rewrite run_len, segments_len. lia.
Qed.
Print Assumptions delta_update_is_the_whole.

Example ex_skips : skips ex_chan ex_skip 2.
Proof.
  exists [], ex_p1, ex_q, [ex_p2], 2%nat.
  split; [reflexivity|]. split; [reflexivity|]. split; [vm_compute; reflexivity|]. split; [vm_compute; repeat constructor|]. split; [reflexivity|]. split; [reflexivity|].
  split; [reflexivity|]. split; [repeat constructor|]. split; [reflexivity|]. split; [reflexivity|]. split; [reflexivity|]. split; [discriminate|].
  do 7 (split; [reflexivity|]). split; [intros i _; split; reflexivity|]. split; [vm_compute; reflexivity|].
  intros r [<-|[]]. split; [vm_compute; congruence | vm_compute; reflexivity].
Qed.
