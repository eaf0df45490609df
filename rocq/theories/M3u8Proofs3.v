(* The lines of the head and of the foot of the playlist. *)
From Coq Require Import String Ascii ZArith List Bool Lia ZifyBool.
From Verif Require Import Bytes M3u8Model M3u8Spec M3u8Proofs M3u8Proofs2.
Import ListNotations.
Open Scope Z_scope.

Lemma set_info_same s : set_info (y_info s) s = s.
Proof. destruct s. reflexivity. Qed.

Lemma set_info_twice i j s : set_info i (set_info j s) = set_info i s.
Proof. reflexivity. Qed.

(* ----- the header *)

Definition head_info (t v q d : Z) : info :=
  {| i_m3u := true; i_target := Some t; i_version := Some v; i_sequence := Some q;
     i_discontinuities := Some d; i_block_reload := false; i_skip_until := None;
     i_hold_back := None; i_part_target := None; i_skipped := 0; i_enc := None; i_ended := false |}.

Lemma plays_num_tag s (t : string) (g : list Z -> player -> option player) n s' :
  nob 10 (str t) = true -> (forall x, on_line s (str t ++ x) = g x s) -> g (dec n) s = Some s' ->
  plays s (str t ++ dec n ++ [nl]) s'.
Proof.
  intros A B E. apply plays_tag; [apply nob_no; exact A | apply dec_tame | rewrite B; exact E].
Qed.

Lemma plays_header f c m :
  let t := target_duration c in let v := version f c in
  let q := h_sequence (c_header c) in
  let d := u32 (h_first_period_index (c_header c) - h_skipped_periods (c_header c)) in
  0 <= t < 2 ^ 32 -> 0 <= q < 2 ^ 32 ->
  plays (player0 m) (header_text f c) (set_info (head_info t v q d) (player0 m)).
Proof.
  intros t v q d Ht Hq. unfold header_text. cbv zeta.
  assert (0 <= v < 2 ^ 32) as Hv.
  { unfold v, version. destruct (_ >? 0); [lia|]. destruct (f_init_ext f); [lia|].
    destruct ((f_scheme f =? 2) || (f_scheme f =? 3) || negb (f_format_len f =? 0)); lia. }
  pose proof (u32_range (h_first_period_index (c_header c) - h_skipped_periods (c_header c))) as Hd. fold d in Hd.
  rewrite (app_assoc (str "#EXTM3U")). eapply plays_app; [apply plays_flag; [reflexivity | reflexivity]|].
  rewrite (app_assoc (dec (target_duration c))), (app_assoc (str "#EXT-X-TARGETDURATION:")).
  eapply plays_app.
  { eapply (plays_num_tag _ "#EXT-X-TARGETDURATION:" on_target); [reflexivity | reflexivity |].
    unfold on_target. rewrite num_dec by exact Ht. reflexivity. }
  rewrite (app_assoc (dec (version f c))), (app_assoc (str "#EXT-X-VERSION:")).
  eapply plays_app.
  { eapply (plays_num_tag _ "#EXT-X-VERSION:" on_version); [reflexivity | reflexivity |].
    unfold on_version. rewrite num_dec by exact Hv. reflexivity. }
  rewrite (app_assoc (dec (h_sequence (c_header c)))), (app_assoc (str "#EXT-X-MEDIA-SEQUENCE:")).
  eapply plays_app.
  { eapply (plays_num_tag _ "#EXT-X-MEDIA-SEQUENCE:" on_sequence); [reflexivity | reflexivity |].
    unfold on_sequence. rewrite num_dec by exact Hq. reflexivity. }
  rewrite (app_assoc (dec (u32 _))), (app_assoc (str "#EXT-X-DISCONTINUITY-SEQUENCE:")).
  eapply plays_app.
  { eapply (plays_num_tag _ "#EXT-X-DISCONTINUITY-SEQUENCE:" on_disc_sequence); [reflexivity | reflexivity |].
    unfold on_disc_sequence. rewrite num_dec by exact Hd. reflexivity. }
  rewrite (app_assoc (str "#EXT-X-INDEPENDENT-SEGMENTS")). eapply plays_app; [apply plays_flag; [reflexivity | reflexivity]|].
  apply plays_flag; reflexivity.
Qed.

(* ----- EXT-X-SERVER-CONTROL *)

(* what the code says about blocking, skipping and holding back *)
Definition ctl_block (f : conf) (c : channel) : bool :=
  f_one_media f && negb (h_end_list (c_header c)) && f_block_reload f.
Definition ctl_skip (f : conf) (target : Z) : option Z :=
  if f_skip_percent f =? 0 then None else Some (target * f_skip_percent f * 10).
Definition ctl_hold (f : conf) (c : channel) : option Z :=
  if f_one_media f && f_parts f && negb (c_part_duration c =? 0) && negb (f_hold_back_percent f =? 0)
  then Some (c_part_duration c * f_hold_back_percent f * 10 / c_timescale c) else None.

Definition with_control (b : bool) (sk hb : option Z) (i : info) : info :=
  {| i_m3u := i_m3u i; i_target := i_target i; i_version := i_version i;
     i_sequence := i_sequence i; i_discontinuities := i_discontinuities i;
     i_block_reload := b; i_skip_until := sk; i_hold_back := hb; i_part_target := i_part_target i;
     i_skipped := i_skipped i; i_enc := i_enc i; i_ended := i_ended i |}.

Lemma item_secs_attr n v : nob 44 (str n) = true -> nob 34 (str n) = true -> 0 <= v -> item_ok (str n ++ secs v).
Proof. intros A B H. apply item_app; [apply item_clean; assumption | apply item_secs; exact H]. Qed.

Lemma plays_control s f c target :
  i_block_reload (y_info s) = false -> i_skip_until (y_info s) = None -> i_hold_back (y_info s) = None ->
  (forall v, ctl_skip f target = Some v -> 0 <= v < 2 ^ 32) ->
  (forall v, ctl_hold f c = Some v -> 0 <= v < 2 ^ 32) ->
  0 <= c_part_duration c < 2 ^ 32 -> 0 <= f_hold_back_percent f < 2 ^ 27 ->
  plays s (server_control f c target)
    (set_info (with_control (ctl_block f c) (ctl_skip f target) (ctl_hold f c) (y_info s)) s).
Proof.
  intros D1 D2 D3 Rs Rh Hp Hh. unfold server_control. cbv zeta. fold (ctl_block f c).
  set (hold := if f_one_media f && f_parts f && negb (c_part_duration c =? 0) then f_hold_back_percent f else 0).
  set (vh := c_part_duration c * hold * 10 / c_timescale c).
  set (vs := target * f_skip_percent f * 10).
  assert (ctl_hold f c = if hold =? 0 then None else Some vh) as EH.
  { unfold ctl_hold, vh, hold. destruct (f_one_media f && f_parts f && negb (c_part_duration c =? 0)); cbn [andb]; [|reflexivity].
    destruct (f_hold_back_percent f =? 0); reflexivity. }
  assert (ctl_skip f target = if f_skip_percent f =? 0 then None else Some vs) as ES by reflexivity.
  rewrite EH in *. rewrite ES in *. clearbody vs.
  assert (0 <= hold < 2 ^ 27) as Hh' by (unfold hold; destruct (_ && _); lia).
  assert (u64 (c_part_duration c * hold * 10) / c_timescale c = vh) as ->.
  { unfold vh, u64. rewrite Z.mod_small; [reflexivity|]. nia. }
  clearbody vh hold. clear EH ES Hp Hh Hh'.
  destruct (f_skip_percent f =? 0) eqn:Es.
  - destruct (hold =? 0) eqn:Eh.
    + destruct (ctl_block f c) eqn:Eb; cbn [negb andb orb app].
      * apply plays_tag; [apply nob_no; reflexivity | apply nob_no; reflexivity |].
        change (on_line s (str "#EXT-X-SERVER-CONTROL:" ++ str "CAN-BLOCK-RELOAD=YES")) with (on_control (str "CAN-BLOCK-RELOAD=YES") s).
        unfold on_control, attr. rewrite items_last by (apply item_clean; reflexivity). reflexivity.
      * replace (with_control false None None (y_info s)) with (y_info s); [rewrite set_info_same; apply plays_nil|].
        destruct (y_info s). cbn in D1, D2, D3. subst. reflexivity.
    + specialize (Rh vh eq_refl). assert (u64 (vh) = vh) as E by (unfold u64; rewrite Z.mod_small; lia).
      change (dec (vh / 1000) ++ str "." ++ dec3 (vh mod 1000)) with (secs vh).
      assert (item_ok (str "PART-HOLD-BACK=" ++ secs vh)) as I by (apply item_secs_attr; [reflexivity | reflexivity | lia]).
      destruct (ctl_block f c) eqn:Eb; cbn [negb andb orb app].
      * rewrite <- (app_assoc (str ",")), <- (app_assoc (str "PART-HOLD-BACK=")).
        replace (str "CAN-BLOCK-RELOAD=YES" ++ str "," ++ str "PART-HOLD-BACK=" ++ secs vh ++ [nl])
          with ((str "CAN-BLOCK-RELOAD=YES" ++ 44 :: str "PART-HOLD-BACK=" ++ secs vh) ++ [nl])
          by (rewrite <- !app_assoc; cbn [app]; rewrite <- !app_assoc; reflexivity).
        apply plays_tag; [apply nob_no; reflexivity | |].
        { rewrite no_app, no_cons, no_app. repeat split; [apply nob_no; reflexivity | lia | apply nob_no; reflexivity | apply secs_no; [lia | reflexivity | lia]]. }
        change (on_line s (str "#EXT-X-SERVER-CONTROL:" ++ str "CAN-BLOCK-RELOAD=YES" ++ 44 :: str "PART-HOLD-BACK=" ++ secs vh))
          with (on_control (str "CAN-BLOCK-RELOAD=YES" ++ 44 :: str "PART-HOLD-BACK=" ++ secs vh) s).
        unfold on_control, attr. rewrite items_comma by (apply item_clean; reflexivity). rewrite items_last by exact I.
        change (find_attr (str "PART-HOLD-BACK" ++ [61]) [str "CAN-BLOCK-RELOAD=YES"; str "PART-HOLD-BACK=" ++ secs vh]) with (Some (secs vh)).
        change (find_attr (str "CAN-SKIP-UNTIL" ++ [61]) [str "CAN-BLOCK-RELOAD=YES"; str "PART-HOLD-BACK=" ++ secs vh]) with (@None (list Z)).
        cbn [optional]. rewrite millis_secs by exact Rh. reflexivity.
      * rewrite <- (app_assoc (str "PART-HOLD-BACK=")).
        rewrite (app_assoc (str "PART-HOLD-BACK=")).
        apply plays_tag; [apply nob_no; reflexivity | |].
        { rewrite no_app. split; [apply nob_no; reflexivity | apply secs_no; [lia | reflexivity | lia]]. }
        change (on_line s (str "#EXT-X-SERVER-CONTROL:" ++ str "PART-HOLD-BACK=" ++ secs vh))
          with (on_control (str "PART-HOLD-BACK=" ++ secs vh) s).
        unfold on_control, attr. rewrite items_last by exact I.
        change (find_attr (str "PART-HOLD-BACK" ++ [61]) [str "PART-HOLD-BACK=" ++ secs vh]) with (Some (secs vh)).
        change (find_attr (str "CAN-SKIP-UNTIL" ++ [61]) [str "PART-HOLD-BACK=" ++ secs vh]) with (@None (list Z)).
        cbn [optional]. rewrite millis_secs by exact Rh. reflexivity.
  - specialize (Rs vs eq_refl). assert (u64 vs = vs) as -> by (unfold u64; rewrite Z.mod_small; lia).
    change (dec (vs / 1000) ++ str "." ++ dec3 (vs mod 1000)) with (secs vs).
    change (dec (vh / 1000) ++ str "." ++ dec3 (vh mod 1000)) with (secs vh).
    assert (item_ok (str "CAN-SKIP-UNTIL=" ++ secs vs)) as I by (apply item_secs_attr; [reflexivity | reflexivity | lia]).
    rewrite andb_false_r. cbn [andb]. rewrite orb_true_r.
    set (bt := if ctl_block f c then str "CAN-BLOCK-RELOAD=YES" else []).
    set (ht := if hold =? 0 then [] else str "," ++ str "PART-HOLD-BACK=" ++ secs vh).
    replace (bt ++ ((if ctl_block f c then str "," else []) ++ str "CAN-SKIP-UNTIL=" ++ secs vs) ++ ht ++ [nl])
      with (((if ctl_block f c then str "CAN-BLOCK-RELOAD=YES" ++ [44] else []) ++ (str "CAN-SKIP-UNTIL=" ++ secs vs) ++ ht) ++ [nl])
      by (unfold bt; destruct (ctl_block f c); rewrite <- !app_assoc; reflexivity).
    apply plays_tag; [apply nob_no; reflexivity | |].
    { rewrite !no_app. split; [destruct (ctl_block f c); apply nob_no; reflexivity|]. repeat split.
      - apply nob_no; reflexivity.
      - apply secs_no; [lia | reflexivity | lia].
      - unfold ht. destruct (hold =? 0) eqn:Eh; [apply nob_no; reflexivity|]. specialize (Rh vh eq_refl). rewrite !no_app.
        repeat split; [apply nob_no; reflexivity | apply nob_no; reflexivity | apply secs_no; [lia | reflexivity | lia]]. }
    set (body := (if ctl_block f c then str "CAN-BLOCK-RELOAD=YES" ++ [44] else []) ++ (str "CAN-SKIP-UNTIL=" ++ secs vs) ++ ht).
    change (on_line s (str "#EXT-X-SERVER-CONTROL:" ++ body)) with (on_control body s).
    unfold on_control, attr.
    assert (items false body = (if ctl_block f c then [str "CAN-BLOCK-RELOAD=YES"] else []) ++ [str "CAN-SKIP-UNTIL=" ++ secs vs]
      ++ (if hold =? 0 then [] else [str "PART-HOLD-BACK=" ++ secs vh])) as ->.
    { assert (items false ((str "CAN-SKIP-UNTIL=" ++ secs vs) ++ ht)
        = (str "CAN-SKIP-UNTIL=" ++ secs vs) :: (if hold =? 0 then [] else [str "PART-HOLD-BACK=" ++ secs vh])) as X.
      { unfold ht. destruct (hold =? 0) eqn:Eh.
        - rewrite app_nil_r. apply items_last. exact I.
        - specialize (Rh vh eq_refl). change (str "," ++ str "PART-HOLD-BACK=" ++ secs vh) with (44 :: str "PART-HOLD-BACK=" ++ secs vh).
          rewrite items_comma by exact I. rewrite items_last by (apply item_secs_attr; [reflexivity | reflexivity | lia]). reflexivity. }
      unfold body. destruct (ctl_block f c).
      - rewrite <- (app_assoc (str "CAN-BLOCK-RELOAD=YES")). cbn [app]. rewrite items_comma by (apply item_clean; reflexivity).
        rewrite X. reflexivity.
      - cbn [app]. exact X. }
    clear bt ht body.
    assert (forall (b : bool), find_attr (str "CAN-SKIP-UNTIL" ++ [61])
      ((if b then [str "CAN-BLOCK-RELOAD=YES"] else []) ++ [str "CAN-SKIP-UNTIL=" ++ secs vs]
        ++ (if hold =? 0 then [] else [str "PART-HOLD-BACK=" ++ secs vh])) = Some (secs vs)) as -> by (intros []; reflexivity).
    assert (forall (b : bool), find_attr (str "PART-HOLD-BACK" ++ [61])
      ((if b then [str "CAN-BLOCK-RELOAD=YES"] else []) ++ [str "CAN-SKIP-UNTIL=" ++ secs vs]
        ++ (if hold =? 0 then [] else [str "PART-HOLD-BACK=" ++ secs vh])) = if hold =? 0 then None else Some (secs vh)) as ->
      by (intros []; destruct (hold =? 0); reflexivity).
    assert (forall (b : bool), yes (find_attr (str "CAN-BLOCK-RELOAD" ++ [61])
      ((if b then [str "CAN-BLOCK-RELOAD=YES"] else []) ++ [str "CAN-SKIP-UNTIL=" ++ secs vs]
        ++ (if hold =? 0 then [] else [str "PART-HOLD-BACK=" ++ secs vh]))) = b) as ->
      by (intros []; destruct (hold =? 0); reflexivity).
    cbn [optional]. rewrite millis_secs by exact Rs.
    destruct (hold =? 0) eqn:Eh; cbn [optional]; [reflexivity|]. rewrite millis_secs by (apply Rh; reflexivity). reflexivity.
Qed.

(* ----- EXT-X-PART-INF and EXT-X-SKIP *)

Definition part_target (f : conf) (c : channel) : option Z :=
  if (0 <? c_part_duration c) && f_parts f && f_one_media f
  then Some (rescale (c_part_duration c) (c_timescale c) 1000) else None.

Definition with_target (p : option Z) (i : info) : info :=
  {| i_m3u := i_m3u i; i_target := i_target i; i_version := i_version i;
     i_sequence := i_sequence i; i_discontinuities := i_discontinuities i;
     i_block_reload := i_block_reload i; i_skip_until := i_skip_until i; i_hold_back := i_hold_back i;
     i_part_target := p; i_skipped := i_skipped i; i_enc := i_enc i; i_ended := i_ended i |}.

Lemma plays_part_inf s f c :
  i_part_target (y_info s) = None ->
  (forall v, part_target f c = Some v -> 0 <= v < 2 ^ 32) ->
  plays s (part_inf f c) (set_info (with_target (part_target f c) (y_info s)) s).
Proof.
  intros D R. unfold part_inf. revert R. unfold part_target. rewrite Z.gtb_ltb.
  destruct ((0 <? c_part_duration c) && f_parts f && f_one_media f); intros R.
  - specialize (R _ eq_refl). rewrite u32_small by exact R. set (v := rescale _ _ _) in *. clearbody v.
    apply plays_tag; [apply nob_no; reflexivity | apply secs_no; [lia | reflexivity | lia] |].
    change (on_line s (str "#EXT-X-PART-INF:PART-TARGET=" ++ secs v)) with (on_part_inf (str "PART-TARGET=" ++ secs v) s).
    unfold on_part_inf, attr. rewrite items_last by (apply item_secs_attr; [reflexivity | reflexivity | lia]).
    change (find_attr (str "PART-TARGET" ++ [61]) [str "PART-TARGET=" ++ secs v]) with (Some (secs v)).
    cbv beta iota. rewrite millis_secs by exact R. reflexivity.
  - replace (with_target None (y_info s)) with (y_info s); [rewrite set_info_same; apply plays_nil|].
    destruct (y_info s). cbn in D. subst. reflexivity.
Qed.

Definition with_skip (n : Z) (i : info) : info :=
  {| i_m3u := i_m3u i; i_target := i_target i; i_version := i_version i;
     i_sequence := i_sequence i; i_discontinuities := i_discontinuities i;
     i_block_reload := i_block_reload i; i_skip_until := i_skip_until i; i_hold_back := i_hold_back i;
     i_part_target := i_part_target i; i_skipped := n; i_enc := i_enc i; i_ended := i_ended i |}.

Lemma plays_skip s n :
  i_skipped (y_info s) = 0 -> 0 <= n < 2 ^ 32 ->
  plays s (if n >? 0 then str "#EXT-X-SKIP:SKIPPED-SEGMENTS=" ++ dec n ++ [nl] else [])
    (set_info (with_skip n (y_info s)) s).
Proof.
  intros D R. destruct (n >? 0) eqn:E.
  - apply plays_tag; [apply nob_no; reflexivity | apply dec_tame |].
    change (on_line s (str "#EXT-X-SKIP:SKIPPED-SEGMENTS=" ++ dec n)) with (on_skip (str "SKIPPED-SEGMENTS=" ++ dec n) s).
    unfold on_skip, attr. rewrite items_last by (apply item_app; [apply item_clean; reflexivity | apply item_dec]).
    change (find_attr (str "SKIPPED-SEGMENTS" ++ [61]) [str "SKIPPED-SEGMENTS=" ++ dec n]) with (Some (dec n)).
    cbv beta iota. rewrite num_dec by exact R. reflexivity.
  - replace (with_skip n (y_info s)) with (y_info s); [rewrite set_info_same; apply plays_nil|].
    destruct (y_info s). cbn in D. subst. replace n with 0 by lia. reflexivity.
Qed.

(* ----- rendition reports *)



Lemma plays_report s c id r : Forall is_byte id -> report_ok r ->
  plays s (report_text c id r) (add_report (report_of c id r) s).
Proof.
  intros B [R1 R2]. unfold report_text, report_of.
  set (u := str "index" ++ sep_selector id (Z.shiftl 1 (r_type r)) ++ str ".m3u8").
  assert (tame u) as [N1 N2].
  { unfold u. apply tame_app; [apply tameb; reflexivity|]. apply tame_app; [apply sep_tame; exact B | apply tameb; reflexivity]. }
  set (b1 := r_last_sequence r =? c_rr_last_sequence c). set (b2 := r_last_part r =? c_rr_last_part c).
  set (v1 := r_last_sequence r) in *. set (v2 := r_last_part r) in *.
  set (t1 := if b1 then [] else str ",LAST-MSN=" ++ dec v1).
  set (t2 := if b2 then [] else str ",LAST-PART=" ++ dec v2).
  replace (str "#EXT-X-RENDITION-REPORT:URI=""" ++ str "index" ++ sep_selector id (Z.shiftl 1 (r_type r)) ++ str ".m3u8" ++ [quote] ++ t1 ++ t2 ++ [nl])
    with (str "#EXT-X-RENDITION-REPORT:" ++ (qattr "URI" u ++ t1 ++ t2) ++ [nl])
    by (unfold u, qattr; change (str "#EXT-X-RENDITION-REPORT:URI=""") with (str "#EXT-X-RENDITION-REPORT:" ++ str "URI" ++ [61] ++ [34]);
        rewrite <- !app_assoc; reflexivity).
  assert (item_ok (qattr "URI" u)) as I0 by (apply item_qattr; [reflexivity | reflexivity | exact N2]).
  assert (item_ok (str "LAST-MSN=" ++ dec v1)) as I1 by (apply item_app; [apply item_clean; reflexivity | apply item_dec]).
  assert (item_ok (str "LAST-PART=" ++ dec v2)) as I2 by (apply item_app; [apply item_clean; reflexivity | apply item_dec]).
  apply plays_tag; [apply nob_no; reflexivity | |].
  { unfold qattr. rewrite !no_app. split.
    - repeat split; first [exact N1 | apply nob_no; reflexivity].
    - split.
      + unfold t1. destruct b1; [apply nob_no; reflexivity|]. apply no_app. split; [apply nob_no; reflexivity | apply dec_tame].
      + unfold t2. destruct b2; [apply nob_no; reflexivity|]. apply no_app. split; [apply nob_no; reflexivity | apply dec_tame]. }
  change (on_line s (str "#EXT-X-RENDITION-REPORT:" ++ qattr "URI" u ++ t1 ++ t2)) with (on_report (qattr "URI" u ++ t1 ++ t2) s).
  unfold on_report, attr_text, attr.
  assert (items false (qattr "URI" u ++ t1 ++ t2) = qattr "URI" u :: (if b1 then [] else [str "LAST-MSN=" ++ dec v1])
    ++ (if b2 then [] else [str "LAST-PART=" ++ dec v2])) as ->.
  { unfold t1, t2. destruct b1, b2; cbn [app].
    - rewrite app_nil_r. apply items_last. exact I0.
    - change (str ",LAST-PART=" ++ dec v2) with (44 :: str "LAST-PART=" ++ dec v2).
      rewrite items_comma by exact I0. rewrite items_last by exact I2. reflexivity.
    - rewrite app_nil_r. change (str ",LAST-MSN=" ++ dec v1) with (44 :: str "LAST-MSN=" ++ dec v1).
      rewrite items_comma by exact I0. rewrite items_last by exact I1. reflexivity.
    - change ((str ",LAST-MSN=" ++ dec v1) ++ str ",LAST-PART=" ++ dec v2)
        with (44 :: (str "LAST-MSN=" ++ dec v1) ++ 44 :: str "LAST-PART=" ++ dec v2).
      rewrite items_comma by exact I0. rewrite items_comma by exact I1. rewrite items_last by exact I2. reflexivity. }
  set (l := qattr "URI" u :: _).
  change (find_attr (str "URI" ++ [61]) l) with (Some ([34] ++ u ++ [34])).
  assert (find_attr (str "LAST-MSN" ++ [61]) l = if b1 then None else Some (dec v1)) as ->
    by (unfold l; destruct b1, b2; reflexivity).
  assert (find_attr (str "LAST-PART" ++ [61]) l = if b2 then None else Some (dec v2)) as ->
    by (unfold l; destruct b1, b2; reflexivity).
  cbv beta iota. rewrite unquote_quoted by exact N2.
  destruct b1, b2; cbn [optional]; rewrite ?num_dec by assumption; reflexivity.
Qed.

Definition add_reports (l : list (list Z * option Z * option Z)) (s : player) : player :=
  {| y_info := y_info s; y_next := y_next s; y_map := y_map s; y_rate := y_rate s;
     y_segs := y_segs s; y_hint := y_hint s; y_reports := y_reports s ++ l |}.

Lemma add_reports_nil s : add_reports [] s = s.
Proof. destruct s. unfold add_reports. cbn. rewrite app_nil_r. reflexivity. Qed.

Lemma add_reports_app a b s : add_reports b (add_reports a s) = add_reports (a ++ b) s.
Proof. unfold add_reports. cbn. rewrite app_assoc. reflexivity. Qed.

Lemma plays_reports_id c id rs : forall s, Forall is_byte id -> Forall report_ok rs ->
  plays s (flat_map (report_text c id) rs) (add_reports (map (report_of c id) rs) s).
Proof.
  induction rs as [|r rs IH]; intros s B F; cbn [flat_map map].
  - rewrite add_reports_nil. apply plays_nil.
  - inversion F; subst. eapply plays_app; [apply plays_report; assumption|].
    change (report_of c id r :: map (report_of c id) rs) with ([report_of c id r] ++ map (report_of c id) rs).
    rewrite <- add_reports_app. apply IH; assumption.
Qed.


Lemma plays_reports c : forall s, Forall (fun rr => Forall is_byte (fst rr) /\ Forall report_ok (snd rr)) (c_reports c) ->
  plays s (reports_text c) (add_reports (reports_of c) s).
Proof.
  unfold reports_text, reports_of. induction (c_reports c) as [|rr l IH]; intros s F; cbn [flat_map].
  - rewrite add_reports_nil. apply plays_nil.
  - inversion F as [|? ? [F1 F2] F3]; subst. eapply plays_app; [apply plays_reports_id; assumption|].
    rewrite <- add_reports_app. apply IH. exact F3.
Qed.

(* ----- EXT-X-KEY *)


Definition with_enc (e : option enc) (i : info) : info :=
  {| i_m3u := i_m3u i; i_target := i_target i; i_version := i_version i;
     i_sequence := i_sequence i; i_discontinuities := i_discontinuities i;
     i_block_reload := i_block_reload i; i_skip_until := i_skip_until i; i_hold_back := i_hold_back i;
     i_part_target := i_part_target i; i_skipped := i_skipped i; i_enc := e; i_ended := i_ended i |}.

Lemma quoted_tame l : tame (quoted l).
Proof.
  split; intros I; unfold quoted in I; apply filter_In in I; destruct I as [_ I]; unfold quote in I; lia.
Qed.

Lemma hex_string_plain l : Forall is_byte l -> Forall plain_char (hex_string l).
Proof.
  induction l as [|b l IH]; intros H; [constructor|]. inversion H; subst.
  change (hex_string (b :: l)) with (hex_string [b] ++ hex_string l).
  apply Forall_app. split; [apply hex_plain; assumption | apply IH; assumption].
Qed.


Lemma key_uri_tame c ty k : Forall is_byte (c_variant c) -> key_ok k -> tame (key_uri c ty k).
Proof.
  intros B (P & _). unfold key_uri. destruct (k_uri k); [apply quoted_tame|].
  destruct (k_scheme k =? 3); [apply tame_app; [apply tameb; reflexivity | exact P]|].
  unfold enc_uri. apply tame_app; [apply tameb; reflexivity|]. apply tame_app; [|apply tameb; reflexivity].
  destruct (k_scope k =? 1); [split; apply plain_no; auto using mask_plain|].
  destruct (k_scope k =? 2); [apply sep_tame; exact B|]. destruct (k_scope k =? 3); [apply sep_tame; exact B | apply tameb; reflexivity].
Qed.

Lemma find_app n a b : find_attr n (a ++ b) = match find_attr n a with Some v => Some v | None => find_attr n b end.
Proof. induction a as [|x a IH]; [reflexivity|]. cbn [app find_attr]. destruct (strip n x); [reflexivity | exact IH]. Qed.

Lemma items_opt a (b : bool) x r l :
  item_ok a -> item_ok x -> items false (a ++ r) = a :: l ->
  (forall y, item_ok y -> items false (y ++ r) = y :: l) ->
  items false (a ++ (if b then 44 :: x else []) ++ r) = a :: (if b then [x] else []) ++ l.
Proof.
  intros A X E Q. destruct b; cbn [app]; [|exact E].
  rewrite items_comma by exact A. rewrite Q by exact X. reflexivity.
Qed.

Lemma plays_key s c ty ok :
  i_enc (y_info s) = None -> Forall is_byte (c_variant c) -> (forall k, ok = Some k -> key_ok k) ->
  plays s (key_text (str "#EXT-X-KEY:") (c_variant c) ty ok)
    (set_info (with_enc (option_map (enc_of c ty) ok) (y_info s)) s).
Proof.
  intros D B K. destruct ok as [k|]; cbn [key_text option_map].
  2:{ replace (with_enc None (y_info s)) with (y_info s); [rewrite set_info_same; apply plays_nil|].
      destruct (y_info s). cbn in D. subst. reflexivity. }
  specialize (K k eq_refl). pose proof (key_uri_tame c ty k B K) as [U1 U2]. destruct K as (P & IV & SC).
  fold (key_method k) (key_uri c ty k).
  set (u := key_uri c ty k) in *. set (m := key_method k).
  assert (no 10 m /\ item_ok m) as [M1 M2].
  { unfold m, key_method. destruct (k_scheme k =? 1); [split; [apply nob_no; reflexivity | apply item_clean; reflexivity]|].
    destruct (k_scheme k =? 2); [split; [apply nob_no; reflexivity | apply item_clean; reflexivity]|].
    destruct (k_scheme k =? 3); (split; [apply nob_no; reflexivity | apply item_clean; reflexivity]). }
  set (x1 := str "IV=0x" ++ hex_string (k_iv k)).
  set (x2 := qattr "KEYFORMAT" (quoted (k_format k))).
  set (x3 := qattr "KEYFORMATVERSIONS" (quoted (k_format_versions k))).
  set (b1 := k_output_iv k). set (b2 := negb (zlen (k_format k) =? 0)). set (b3 := negb (zlen (k_format_versions k) =? 0)).
  assert (item_ok x1) as I1.
  { unfold x1. apply item_app; [apply item_clean; reflexivity|]. apply item_plain; apply plain_no; auto using hex_string_plain. }
  assert (item_ok x2) as I2 by (apply item_qattr; [reflexivity | reflexivity | apply quoted_tame]).
  assert (item_ok x3) as I3 by (apply item_qattr; [reflexivity | reflexivity | apply quoted_tame]).
  assert (item_ok (str "METHOD=" ++ m)) as I0 by (apply item_app; [apply item_clean; reflexivity | exact M2]).
  assert (item_ok (qattr "URI" u)) as IU by (apply item_qattr; [reflexivity | reflexivity | exact U2]).
  set (tail := (if b1 then 44 :: x1 else []) ++ (if b2 then 44 :: x2 else []) ++ (if b3 then 44 :: x3 else [])).
  match goal with |- plays s ?t _ => replace t with (str "#EXT-X-KEY:" ++ ((str "METHOD=" ++ m) ++ 44 :: qattr "URI" u ++ tail) ++ [nl]) end.
  2:{ unfold tail, b1, b2, b3, x1, x2, x3, qattr.
      change (str ",URI=""") with (44 :: str "URI" ++ [61] ++ [34]).
      change (str ",IV=0x") with (44 :: str "IV=0x").
      change (str ",KEYFORMAT=""") with (44 :: str "KEYFORMAT" ++ [61] ++ [34]).
      change (str ",KEYFORMATVERSIONS=""") with (44 :: str "KEYFORMATVERSIONS" ++ [61] ++ [34]).
      destruct (k_output_iv k), (zlen (k_format k) =? 0), (zlen (k_format_versions k) =? 0); cbn [negb app];
        repeat (rewrite <- !app_assoc; cbn [app]); reflexivity. }
  assert (no 10 x1 /\ no 10 x2 /\ no 10 x3) as (Y1 & Y2 & Y3).
  { unfold x1, x2, x3, qattr. rewrite !no_app. repeat split; try (apply nob_no; reflexivity); try apply quoted_tame.
    apply plain_no; auto using hex_string_plain. }
  apply plays_tag; [apply nob_no; reflexivity | |].
  { rewrite no_app, no_cons, !no_app. unfold qattr. rewrite !no_app. repeat split; try (apply nob_no; reflexivity); try assumption; try lia.
    unfold tail. rewrite !no_app. repeat split.
    - destruct b1; [apply no_cons; split; [lia | exact Y1] | apply nob_no; reflexivity].
    - destruct b2; [apply no_cons; split; [lia | exact Y2] | apply nob_no; reflexivity].
    - destruct b3; [apply no_cons; split; [lia | exact Y3] | apply nob_no; reflexivity]. }
  set (body := (str "METHOD=" ++ m) ++ 44 :: qattr "URI" u ++ tail).
  change (on_line s (str "#EXT-X-KEY:" ++ body)) with (on_key body s).
  unfold on_key, attr_text, attr.
  assert (items false body = (str "METHOD=" ++ m) :: qattr "URI" u :: (if b1 then [x1] else []) ++ (if b2 then [x2] else []) ++ (if b3 then [x3] else [])) as ->.
  { unfold body. rewrite items_comma by exact I0. f_equal. unfold tail.
    assert (forall y, item_ok y -> items false (y ++ (if b3 then 44 :: x3 else [])) = y :: (if b3 then [x3] else [])) as Q3.
    { intros y Y. destruct b3; [rewrite items_comma by exact Y; rewrite items_last by exact I3; reflexivity | rewrite app_nil_r; apply items_last; exact Y]. }
    assert (forall y, item_ok y -> items false (y ++ (if b2 then 44 :: x2 else []) ++ (if b3 then 44 :: x3 else [])) = y :: (if b2 then [x2] else []) ++ (if b3 then [x3] else [])) as Q2.
    { intros y Y. apply items_opt; auto. }
    apply items_opt; auto. }
  set (l := (str "METHOD=" ++ m) :: _).
  change (find_attr (str "METHOD" ++ [61]) l) with (Some m).
  change (find_attr (str "URI" ++ [61]) l) with (Some ([34] ++ u ++ [34])).
  assert (find_attr (str "IV" ++ [61]) l = if b1 then Some (str "0x" ++ hex_string (k_iv k)) else None) as ->
    by (unfold l; destruct b1, b2, b3; reflexivity).
  assert (find_attr (str "KEYFORMAT" ++ [61]) l = if b2 then Some ([34] ++ quoted (k_format k) ++ [34]) else None) as ->
    by (unfold l; destruct b1, b2, b3; reflexivity).
  assert (find_attr (str "KEYFORMATVERSIONS" ++ [61]) l = if b3 then Some ([34] ++ quoted (k_format_versions k) ++ [34]) else None) as ->
    by (unfold l; destruct b1, b2, b3; reflexivity).
  cbv beta iota. rewrite unquote_quoted by exact U2.
  unfold enc_of. fold m u. unfold b1, b2, b3.
  destruct (zlen (k_format k) =? 0), (zlen (k_format_versions k) =? 0); cbn [negb optional];
    rewrite ?unquote_quoted by apply quoted_tame; reflexivity.
Qed.
