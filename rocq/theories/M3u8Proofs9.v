(* The size of the buffer. *)
From Coq Require Import String Ascii ZArith List Bool Lia ZifyBool.
From Verif Require Import Bytes M3u8Model M3u8Spec M3u8Proofs M3u8Proofs2 M3u8Proofs4 M3u8Proofs5 M3u8Proofs6 M3u8Proofs7.
Import ListNotations.
Open Scope Z_scope.

Lemma zlen_nonneg {A} (l : list A) : 0 <= zlen l.
Proof. unfold zlen. lia. Qed.

Lemma zlen_cons {A} (a : A) l : zlen (a :: l) = 1 + zlen l.
Proof. unfold zlen. cbn [length]. lia. Qed.

Lemma zlen_nil {A} : zlen (@nil A) = 0.
Proof. reflexivity. Qed.

Ltac lens :=
  repeat match goal with
  | |- context [zlen (_ ++ _)] => rewrite zlen_app
  | H : context [zlen (_ ++ _)] |- _ => rewrite zlen_app in H
  | |- context [zlen (_ :: _)] => rewrite zlen_cons
  | H : context [zlen (_ :: _)] |- _ => rewrite zlen_cons in H
  | |- context [zlen (@nil ?A)] => rewrite (@zlen_nil A)
  | H : context [zlen (@nil ?A)] |- _ => rewrite (@zlen_nil A) in H
  | |- context [zlen (str ?x)] => let v := eval vm_compute in (zlen (str x)) in change (zlen (str x)) with v
  | H : context [zlen (str ?x)] |- _ => let v := eval vm_compute in (zlen (str x)) in change (zlen (str x)) with v in H
  end.

(* ----- numbers *)

Lemma dec_print fuel : forall n, zlen (dec_f fuel n) <= print_len_f fuel n.
Proof.
  induction fuel as [|k IH]; intros n; cbn [dec_f print_len_f]; [lens; lia|].
  destruct (n <? 10) eqn:E.
  - assert (10 <=? n = false) as -> by lia. lens. lia.
  - assert (10 <=? n = true) as -> by lia. rewrite zlen_app. specialize (IH (n / 10)). lens. lia.
Qed.

Lemma print_pos fuel : forall n, 1 <= print_len_f fuel n.
Proof. induction fuel as [|k IH]; intros n; cbn [print_len_f]; [lia|]. destruct (10 <=? n); [specialize (IH (n / 10))|]; lia. Qed.

Lemma print_mono fuel : forall n m, 0 <= n <= m -> print_len_f fuel n <= print_len_f fuel m.
Proof.
  induction fuel as [|k IH]; intros n m H; cbn [print_len_f]; [lia|].
  destruct (10 <=? n) eqn:E.
  - assert (10 <=? m = true) as -> by lia. assert (n / 10 <= m / 10) by (apply Z.div_le_mono; lia).
    specialize (IH (n / 10) (m / 10)). assert (0 <= n / 10) by (apply Z.div_pos; lia). lia.
  - destruct (10 <=? m); [pose proof (print_pos k (m / 10))|]; lia.
Qed.

Lemma dec_fits n m : 0 <= n <= m -> n < 2 ^ 32 -> zlen (dec n) <= print_len m.
Proof.
  intros H L. unfold dec, print_len. rewrite u32_small by lia.
  etransitivity; [apply dec_print | apply print_mono; exact H].
Qed.

Lemma dec3_len n : 0 <= n < 1000 -> zlen (dec3 n) = 3.
Proof. intros H. destruct (dec3_spec n H) as (_ & L & _). unfold zlen. lia. Qed.

Lemma secs_len v : zlen (secs v) <= 14.
Proof.
  unfold secs. lens. pose proof (dec_length (v / 1000)). rewrite dec3_len by (apply Z.mod_pos_bound; lia). lia.
Qed.

Lemma escape_len id : zlen (escape id) = zlen id + 2 * escape_count id.
Proof.
  unfold escape, escape_count. induction id as [|a id IH]; [reflexivity|]. cbn [flat_map filter].
  rewrite zlen_app, IH. destruct (unreserved a); cbn [negb]; unfold hex_string; cbn [flat_map app]; lens; lia.
Qed.

Lemma mask_len m : zlen (mask_text m) <= 4.
Proof.
  unfold mask_text. destruct (m =? 7); [lens; lia|].
  destruct (Z.testbit m 0), (Z.testbit m 1), (Z.testbit m 2); lens; lia.
Qed.

Lemma mask1_len t : zlen (mask_text (Z.shiftl 1 t)) <= 3.
Proof.
  unfold mask_text. destruct (_ =? 7); [lens; lia|]. rewrite Z.shiftl_1_l.
  destruct (Z_lt_ge_dec t 0) as [N|N].
  - rewrite Z.pow_neg_r by lia. rewrite !Z.testbit_0_l. lens. lia.
  - rewrite !Z.pow2_bits_eqb by lia. destruct (t =? 0) eqn:E0, (t =? 1) eqn:E1, (t =? 2) eqn:E2; lens; lia.
Qed.

Lemma sep_len id m : zlen (sep_selector id m) <= sep_selector_size id.
Proof. unfold sep_selector, sep_selector_size. pose proof (mask_len m). pose proof (escape_len id). lens. lia. Qed.

(* ----- the key *)

Lemma filter_len {A} (g : A -> bool) l : zlen (filter g l) <= zlen l.
Proof. induction l as [|a l IH]; cbn [filter]; [lia|]. destruct (g a); lens; lia. Qed.

Lemma hex_len l : zlen (hex_string l) = 2 * zlen l.
Proof. induction l as [|a l IH]; [reflexivity|]. change (hex_string (a :: l)) with (hex_string [a] ++ hex_string l). unfold hex_string at 1. cbn [flat_map app]. lens. lia. Qed.

Lemma key_fits tag id ty ok : (forall k, ok = Some k -> zlen (k_iv k) = 16) ->
  zlen (key_text tag id ty ok) <= key_size tag id ok.
Proof.
  intros H. destruct ok as [k|]; cbn [key_text key_size]; [|lens; lia]. specialize (H k eq_refl).
  assert (zlen (if k_scheme k =? 1 then str "AES-128" else if k_scheme k =? 2 then str "SAMPLE-AES" else if k_scheme k =? 3 then str "SAMPLE-AES-CTR" else []) <= 14) as M
    by (destruct (k_scheme k =? 1), (k_scheme k =? 2), (k_scheme k =? 3); lens; lia).
  set (mt := if k_scheme k =? 1 then _ else _) in *.
  assert (zlen (match k_uri k with Some u => quoted u | None => if k_scheme k =? 3 then str "data:text/plain;base64," ++ k_pssh k
       else enc_uri (k_scope k) id (Z.shiftl 1 ty) end)
    <= match k_uri k with Some u => zlen u | None => if k_scheme k =? 3 then zlen (str "data:text/plain;base64,") + zlen (k_pssh k)
       else enc_uri_size (k_scope k) id end) as U.
  { destruct (k_uri k) as [u|]; [apply filter_len|]. destruct (k_scheme k =? 3); [lens; lia|].
    unfold enc_uri, enc_uri_size. pose proof (mask1_len ty). pose proof (sep_len id 7). pose proof (sep_len id (Z.shiftl 1 ty)).
    destruct (k_scope k =? 1); cbn [orb]; [lens; lia|]. destruct (k_scope k =? 2); cbn [orb]; [lens; lia|].
    destruct (k_scope k =? 3); lens; lia. }
  set (ut := match k_uri k with Some u => quoted u | None => _ end) in *.
  set (us := match k_uri k with Some u => zlen u | None => _ end) in *.
  assert (zlen (if k_output_iv k then str ",IV=0x" ++ hex_string (k_iv k) else []) <= if k_output_iv k then zlen (str ",IV=0x") + 16 * 2 else 0) as V.
  { destruct (k_output_iv k); [|lens; lia]. rewrite zlen_app, hex_len. lens. lia. }
  set (vt := if k_output_iv k then str ",IV=0x" ++ _ else _) in *. set (vs := if k_output_iv k then _ + _ else _) in *.
  assert (forall x y, zlen (if zlen x =? 0 then [] else str y ++ quoted x ++ [quote]) <= if zlen x =? 0 then 0 else zlen (str y) + 1 + zlen x) as Q.
  { intros x y. destruct (zlen x =? 0); [lens; lia|]. pose proof (filter_len (fun c => negb ((c =? quote) || (c =? 10) || (c =? 13))) x).
    fold (quoted x) in H0. rewrite !zlen_app. lens. lia. }
  pose proof (Q (k_format k) ",KEYFORMAT="""%string) as Q1. pose proof (Q (k_format_versions k) ",KEYFORMATVERSIONS="""%string) as Q2. clear Q.
  set (f1 := if zlen (k_format k) =? 0 then [] else _) in *. set (f2 := if zlen (k_format k) =? 0 then 0 else _) in *.
  set (g1 := if zlen (k_format_versions k) =? 0 then [] else _) in *. set (g2 := if zlen (k_format_versions k) =? 0 then 0 else _) in *.
  clearbody mt ut us vt vs f1 f2 g1 g2. lens. lia.
Qed.

(* ----- the head *)

Lemma control_fits f c t : zlen (server_control f c t) <= server_control_size.
Proof.
  unfold server_control, server_control_size. cbv zeta.
  set (block := f_one_media f && _ && _). set (hold := if _ && _ then _ else 0). clearbody block hold.
  destruct (negb block && (f_skip_percent f =? 0) && (hold =? 0)); [lens; unfold INT32_LEN; lia|].
  assert (forall v, zlen (dec (v / 1000) ++ str "." ++ dec3 (v mod 1000)) <= 14) as S by (intros v; apply secs_len).
  pose proof (S (u64 (t * f_skip_percent f * 10))) as S1. pose proof (S (u64 (c_part_duration c * hold * 10) / c_timescale c)) as S2. clear S.
  set (x1 := dec (u64 (t * f_skip_percent f * 10) / 1000) ++ _) in *.
  set (x2 := dec (u64 (c_part_duration c * hold * 10) / c_timescale c / 1000) ++ _) in *. clearbody x1 x2.
  destruct block, (f_skip_percent f =? 0), (hold =? 0); cbn [orb negb]; lens; unfold INT32_LEN; lia.
Qed.

Lemma header_fits f c :
  zlen (header_text f c) <=
  zlen (str "#EXTM3U" ++ [nl] ++ str "#EXT-X-TARGETDURATION:%uD" ++ [nl]
        ++ str "#EXT-X-VERSION:%uD" ++ [nl] ++ str "#EXT-X-MEDIA-SEQUENCE:%uD" ++ [nl]
        ++ str "#EXT-X-DISCONTINUITY-SEQUENCE:%uD" ++ [nl] ++ str "#EXT-X-INDEPENDENT-SEGMENTS" ++ [nl]
        ++ str "#EXT-X-ALLOW-CACHE:YES" ++ [nl]) + 1 + 4 * INT32_LEN.
Proof.
  unfold header_text. cbv zeta. pose proof (dec_length (target_duration c)). pose proof (dec_length (version f c)).
  pose proof (dec_length (h_sequence (c_header c))). pose proof (dec_length (u32 (h_first_period_index (c_header c) - h_skipped_periods (c_header c)))).
  lens. unfold INT32_LEN. lia.
Qed.

Lemma part_inf_fits f c : zlen (part_inf f c) <= zlen (str "#EXT-X-PART-INF:PART-TARGET=%uD.%03uD" ++ [nl]) + 2 * INT32_LEN.
Proof.
  unfold part_inf. destruct (_ && _); [|lens; unfold INT32_LEN; lia].
  pose proof (secs_len (u32 (rescale (c_part_duration c) (c_timescale c) 1000))). lens. unfold INT32_LEN. lia.
Qed.

Lemma skip_fits (b : bool) n : zlen (if b then str "#EXT-X-SKIP:SKIPPED-SEGMENTS=" ++ dec n ++ [nl] else []) <=
  zlen (str "#EXT-X-SKIP:SKIPPED-SEGMENTS=%uD" ++ [nl]) + INT32_LEN.
Proof. pose proof (dec_length n). destruct b; lens; unfold INT32_LEN; lia. Qed.

(* ----- the reports *)

Lemma report_fits c id r : zlen (report_text c id r) <=
  zlen (str "#EXT-X-RENDITION-REPORT:URI=""") + zlen (str "index")
     + sep_selector_size id + zlen (str ".m3u8")
     + zlen (str ",LAST-MSN=%uD") + INT32_LEN + zlen (str ",LAST-PART=%uD") + INT32_LEN + 2.
Proof.
  unfold report_text. pose proof (sep_len id (Z.shiftl 1 (r_type r))). pose proof (dec_length (r_last_sequence r)). pose proof (dec_length (r_last_part r)).
  destruct (_ =? _), (_ =? _); lens; unfold INT32_LEN; lia.
Qed.

Lemma reports_fit c : zlen (reports_text c) <= reports_size c.
Proof.
  unfold reports_text, reports_size. induction (c_reports c) as [|[id rs] l IH]; cbn [flat_map fold_right fst snd]; [lens; lia|].
  rewrite zlen_app.
  assert (forall k, (forall r, zlen (report_text c id r) <= k) -> zlen (flat_map (report_text c id) rs) <= k * zlen rs) as X.
  { intros k K. induction rs as [|r rs IHr]; cbn [flat_map]; [lens; lia|]. specialize (K r). rewrite zlen_app, zlen_cons. lia. }
  specialize (X _ (report_fits c id)). lia.
Qed.

(* ----- the parts *)

Lemma flags_fit d : zlen (if negb (Z.land d PART_INDEPENDENT =? 0) then str ",INDEPENDENT=YES"
   else if negb (Z.land d PART_GAP =? 0) then str ",GAP=YES" else []) = part_flags_size d.
Proof. unfold part_flags_size. destruct (negb _); [reflexivity|]. destruct (negb _); reflexivity. Qed.

Lemma parts_fit ms sfx seg l : sfx <> [] -> forall i t s, zlen (parts_loop ms sfx seg i t s l) <= parts_size sfx l.
Proof.
  intros N. assert (zlen (removelast sfx) = zlen sfx - 1) as RL.
  { destruct (exists_last N) as (x & a & ->). rewrite removelast_last. lens. lia. }
  unfold parts_size. induction l as [|d l IH]; intros i t s; cbn [parts_loop fold_right]; [lens; lia|].
  rewrite (zlen_cons d l).
  pose proof (dec_length seg). pose proof (dec_length (i + 1)).
  assert (0 <= part_flags_size d) as F by (rewrite <- flags_fit; apply zlen_nonneg).
  destruct (d =? PRELOAD_HINT).
  - specialize (IH (i + 1) t s). rewrite !zlen_app in *. rewrite RL. lens. unfold INT32_LEN in *. lia.
  - cbv zeta. specialize (IH (i + 1) (t + Z.land d PART_MASK) ((t + Z.land d PART_MASK) / ms)).
    pose proof (secs_len (u32 ((t + Z.land d PART_MASK) / ms - s))).
    rewrite !zlen_app in *. rewrite flags_fit, RL. lens. unfold INT32_LEN in *. lia.
Qed.

Lemma parts_size_nonneg sfx l : sfx <> [] -> 0 <= parts_size sfx l.
Proof. intros N. pose proof (parts_fit 1 sfx 0 l N 0 0 0) as P. pose proof (zlen_nonneg (parts_loop 1 sfx 0 0 0 0 l)). lia. Qed.

Definition tps (sfx : list Z) (l : list (Z * list Z)) : Z := fold_right (fun ps a => parts_size sfx (snd ps) + a) 0 l.

Lemma tps_nonneg sfx l : sfx <> [] -> 0 <= tps sfx l.
Proof. intros N. unfold tps. induction l as [|p l IH]; cbn [fold_right]; [lia|]. pose proof (parts_size_nonneg sfx (snd p) N). lia. Qed.

Lemma tps_skip sfx i l : sfx <> [] -> tps sfx (skip_parts i l) <= tps sfx l.
Proof.
  intros N. unfold tps. induction l as [|p l IH]; cbn [skip_parts fold_right]; [lia|].
  destruct (fst p >=? i); [cbn [fold_right]; lia|]. pose proof (parts_size_nonneg sfx (snd p) N). lia.
Qed.

(* ----- the segments: the writer and the counter go together *)

Definition seg_len (sfx : list Z) (isz : Z) : Z :=
  zlen (str "#EXTINF:") + INT32_LEN + zlen (str ".000," ++ [nl]) + zlen (str "seg") + zlen (str "-") + isz + zlen sfx.
Definition rate_len : Z := zlen (str "#EXT-X-BITRATE:") + 1 + INT32_LEN.
Definition gap_len : Z := zlen (str "#EXT-X-GAP" ++ [nl]).

Definition together (w : wst) (b : bst) : Prop :=
  b_index b = w_index w /\ b_time b = w_time w /\ b_start b = w_start w /\ b_last b = w_last w /\ b_bi b = w_bi w.

Definition spent (sfx : list Z) (w : wst) (b : bst) : Z :=
  zlen (w_out w) + tps sfx (w_parts w) - rate_len * b_rates b - gap_len * b_gaps b.

Lemma step_together ms sfx es d isz w b : sfx <> [] -> together w b ->
  0 <= w_index w < INVALID_INDEX -> zlen (dec (w_index w + 1)) <= isz ->
  together (seg_step ms sfx es d w) (count_step ms es d b)
  /\ spent sfx (seg_step ms sfx es d w) (count_step ms es d b) <= spent sfx w b + seg_len sfx isz.
Proof.
  intros N (T1 & T2 & T3 & T4 & T5) I D. unfold seg_step, count_step. rewrite T1, T2, T3, T4, T5.
  destruct (segment_info_get (w_bi w) es (w_index w) (u32 ((w_time w + d) / ms - w_start w))) as [bi rate] eqn:E.
  set (dm := u32 ((w_time w + d) / ms - w_start w)) in *.
  set (pt := if w_index w =? part_index (w_parts w) then match w_parts w with p :: _ => parts_write ms sfx (w_time w) p | [] => [] end else []).
  set (lf := if w_index w =? part_index (w_parts w) then tl (w_parts w) else w_parts w).
  assert (zlen pt + tps sfx lf <= tps sfx (w_parts w)) as PT.
  { unfold pt, lf. destruct (w_index w =? part_index (w_parts w)); [|lens; lia].
    destruct (w_parts w) as [|p l]; cbn [tl]; [lens; lia|]. unfold tps. cbn [fold_right]. unfold parts_write.
    pose proof (parts_fit ms sfx (u32 (fst p + 1)) (snd p) N 0 (w_time w) (w_time w / ms)). lia. }
  clearbody pt lf. pose proof (secs_len dm) as S. pose proof (dec_length (kbps rate)) as K.
  unfold spent, seg_len, rate_len, gap_len, together, extinf in *.
  destruct (rate =? 0) eqn:E0; cbn [negb andb].
  - cbn [b_index b_time b_start b_last b_bi b_rates b_gaps w_out w_index w_time w_start w_last w_bi w_parts]. split; [repeat split|].
    lens. unfold INT32_LEN. lia.
  - destruct (negb (kbps rate =? NO_BITRATE) && negb (kbps rate =? w_last w)) eqn:E1.
    + cbn [b_index b_time b_start b_last b_bi b_rates b_gaps w_out w_index w_time w_start w_last w_bi w_parts]. split; [repeat split|].
      lens. unfold INT32_LEN. lia.
    + cbn [b_index b_time b_start b_last b_bi b_rates b_gaps w_out w_index w_time w_start w_last w_bi w_parts]. split; [repeat split|].
      lens. unfold INT32_LEN. lia.
Qed.

Lemma step_index ms sfx es d w : w_index (seg_step ms sfx es d w) = w_index w + 1.
Proof. unfold seg_step. destruct (segment_info_get _ _ _ _). reflexivity. Qed.

Lemma run_together ms sfx es top ds : sfx <> [] -> forall w b, together w b ->
  0 <= w_index w -> w_index w + zlen ds <= INVALID_INDEX -> w_index w + zlen ds <= top ->
  let w' := fold_left (fun s d => seg_step ms sfx es d s) ds w in
  let b' := fold_left (fun s d => count_step ms es d s) ds b in
  together w' b' /\ w_index w' = w_index w + zlen ds
  /\ spent sfx w' b' <= spent sfx w b + seg_len sfx (print_len top) * zlen ds.
Proof.
  intros N. induction ds as [|d ds IH]; intros w b T I1 I2 I3; cbn [fold_left].
  - cbv zeta. rewrite zlen_nil in *. split; [exact T|]. lia.
  - rewrite zlen_cons in *. pose proof (zlen_nonneg ds) as ZP.
    destruct (step_together ms sfx es d (print_len top) w b N T) as [T' S].
    + lia.
    + apply dec_fits; unfold INVALID_INDEX in *; lia.
    + specialize (IH (seg_step ms sfx es d w) (count_step ms es d b) T'). rewrite step_index in IH.
      destruct (IH ltac:(lia) ltac:(lia) ltac:(lia)) as (A & B & C). cbv zeta. split; [exact A|]. split; [rewrite B; lia|]. lia.
Qed.

Lemma seg_len_pos sfx top : 0 <= seg_len sfx (print_len top).
Proof. unfold seg_len, print_len. pose proof (print_pos 20 top). pose proof (zlen_nonneg sfx). lens. unfold INT32_LEN. lia. Qed.

Lemma count_mono ms es d b : b_gaps b <= b_gaps (count_step ms es d b) /\ b_rates b <= b_rates (count_step ms es d b).
Proof.
  unfold count_step. destruct (segment_info_get _ _ _ _) as [bi rate]. destruct (rate =? 0); [cbn; lia|].
  destruct (_ && _); cbn; lia.
Qed.

Lemma period_fits ms sfx es lst single p parts bi gaps rates top :
  sfx <> [] -> elts_ok lst (p_elts p) -> 0 <= p_index p -> p_index p + p_count p <= INVALID_INDEX -> p_index p + p_count p <= top ->
  let s := period_count ms es p bi gaps rates in
  let '(o, parts', bi') := period_segments ms sfx es single p parts bi in
  zlen o + (if single then tps sfx parts' else 0)
    <= (if single then tps sfx parts else 0) + rate_len * (b_rates s - rates) + gap_len * (b_gaps s - gaps)
       + seg_len sfx (print_len top) * p_count p
  /\ (is_pending p = false -> bi' = b_bi s).
Proof.
  intros N EO I1 I2 I3 s. destruct (period_shape _ _ EO) as (_ & DE & PE & PC & _).
  unfold period_segments. set (parts0 := if single then skip_parts (p_index p) parts else []).
  rewrite elts_fold. fold (unroll (done_elts p)). rewrite DE.
  set (w0 := {| w_out := []; w_index := p_index p; w_time := p_time p; w_start := p_time p / ms; w_last := 0; w_parts := parts0; w_bi := bi |}).
  set (b0 := {| b_index := p_index p; b_time := p_time p; b_start := p_time p / ms; b_last := 0; b_bi := bi; b_gaps := gaps; b_rates := rates |}).
  pose proof (zlen_nonneg (durations p)) as ZP.
  destruct (run_together ms sfx es top (durations p) N w0 b0) as (T & WI & SP).
  { repeat split. }
  { exact I1. }
  { change (w_index w0) with (p_index p). destruct (is_pending p); lia. }
  { change (w_index w0) with (p_index p). destruct (is_pending p); lia. }
  set (w1 := fold_left (fun s d => seg_step ms sfx es d s) (durations p) w0) in *.
  set (b1 := fold_left (fun s d => count_step ms es d s) (durations p) b0) in *.
  assert (s = if is_pending p then count_step ms es 0 b1 else b1) as ES.
  { unfold s, period_count. rewrite elts_fold. fold (unroll (p_elts p)). fold b0. unfold b1. rewrite <- DE.
    unfold done_elts. destruct (is_pending p) eqn:EP; [|reflexivity].
    destruct EO as (done & F & [[E _]|[_ E]]).
    - exfalso. unfold is_pending in EP. rewrite E in EP. destruct (rev done) as [|e r] eqn:R; [discriminate|].
      assert (In e done) as IN by (rewrite in_rev, R; left; reflexivity). rewrite Forall_forall in F. specialize (F e IN). unfold PENDING in EP. lia.
    - rewrite E, removelast_last. unfold unroll. rewrite flat_map_app, fold_left_app. reflexivity. }
  assert (b_rates b1 <= b_rates s /\ b_gaps b1 <= b_gaps s) as [M1 M2].
  { rewrite ES. destruct (is_pending p); [pose proof (count_mono ms es 0 b1); lia | lia]. }
  assert (tps sfx parts0 <= if single then tps sfx parts else 0) as TP.
  { unfold parts0. destruct single; [apply tps_skip; exact N | cbn; lia]. }
  unfold spent in SP. cbn [w_out w_parts w0 b_rates b_gaps b0] in SP. rewrite zlen_nil in SP.
  assert (0 <= rate_len /\ 0 <= gap_len) as [RL GL] by (split; vm_compute; discriminate).
  pose proof (tps_nonneg sfx (w_parts w1) N) as TN.
  assert (rate_len * b_rates b1 <= rate_len * b_rates s) as M3 by (apply Z.mul_le_mono_nonneg_l; assumption).
  assert (gap_len * b_gaps b1 <= gap_len * b_gaps s) as M4 by (apply Z.mul_le_mono_nonneg_l; assumption).
  pose proof (seg_len_pos sfx top) as SL.
  assert (seg_len sfx (print_len top) * zlen (durations p) <= seg_len sfx (print_len top) * p_count p) as M5
    by (apply Z.mul_le_mono_nonneg_l; [exact SL | destruct (is_pending p); lia]).
  rewrite !Z.mul_sub_distr_l.
  destruct (is_pending p && (w_index w1 =? part_index (w_parts w1))) eqn:EH.
  - apply andb_true_iff in EH. destruct EH as [EH _]. split; [|congruence].
    rewrite zlen_app. destruct (w_parts w1) as [|x l]; cbn [tl].
    + rewrite zlen_nil. unfold tps in *. cbn [fold_right] in *. destruct single; lia.
    + unfold parts_write. pose proof (parts_fit ms sfx (u32 (fst x + 1)) (snd x) N 0 (w_time w1) (w_time w1 / ms)).
      pose proof (tps_nonneg sfx l N). change (tps sfx (x :: l)) with (parts_size sfx (snd x) + tps sfx l) in *. destruct single; lia.
  - split; [destruct single; lia|]. intros EP. rewrite ES, EP. destruct T as (_ & _ & _ & _ & T). symmetry. exact T.
Qed.
