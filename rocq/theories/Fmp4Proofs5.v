From Coq Require Import ZArith List Bool Lia ZifyBool.
From Verif Require Import Lists Bytes Fmp4Model Fmp4Spec Fmp4Proofs Fmp4Proofs2 Fmp4Proofs3 Fmp4Proofs4.
Import ListNotations.
Open Scope Z_scope.

Lemma fold_bound (a b : list fr -> Z) ts (P : track -> Prop) : Forall P ts ->
  (forall t, P t -> a (t_frames t) <= b (t_frames t)) ->
  fold_right (fun t n => a (t_frames t) + n) 0 ts <= fold_right (fun t n => b (t_frames t) + n) 0 ts.
Proof.
  intros F H. induction F as [|t ts Pt F IH]; cbn; [lia|]. specialize (H t Pt). lia.
Qed.

Lemma runs_bound L ts : (forall i t, nth_error ts i = Some t -> of i L = t_frames t) ->
  0 <= zsum (map (runs_of L) (seq 0 (length ts))) <= fold_right (fun t n => zlen (t_frames t) + n) 0 ts.
Proof.
  intro H. assert (E := zsum_tracks (@zlen fr) L ts 0). cbn [Nat.add] in E. rewrite <- E by auto.
  assert (B : forall l, 0 <= zsum (map (runs_of L) l) <= zsum (map (fun i => zlen (of i L)) l)).
  { induction l as [|i l IH]; cbn; [lia|]. fold (zsum (map (runs_of L) l)). fold (zsum (map (fun i => zlen (of i L)) l)).
    pose proof (sws_bound (combine (ats i 0 L) (of i L)) None) as B.
    rewrite zlen_combine in B by apply ats_length. unfold runs_of at 1 3. lia. }
  apply B.
Qed.

Lemma sizes_nonneg l : Forall (fun f => is_u32 (f_size f) /\ is_u32 (f_dur f) /\ is_u32 (f_delay f)) l -> 0 <= sizes l.
Proof.
  induction 1 as [|f l (A & _) F IH]; [cbn; lia|]. change (sizes (f :: l)) with (f_size f + sizes l).
  unfold is_u32 in A. lia.
Qed.

Lemma total_of_segm s : Forall good_track (s_tracks s) ->
  total (frames_of s) = fold_right (fun t n => sizes (t_frames t) + n) 0 (s_tracks s).
Proof.
  intro G. destruct (frames_of_order s) as (F & O). rewrite (total_tracks _ _ F).
  apply (zsum_tracks sizes (frames_of s) (s_tracks s) 0). intros i t N. now apply O.
Qed.

Lemma moof_bound s sdi x : 0 <= x_size x ->
  24 <= moof_of s sdi x <= 24 + (48 + x_size x) * zlen (s_tracks s) +
    fold_right (fun t n => 36 * zlen (t_frames t) + n) 0 (s_tracks s).
Proof.
  intro X. destruct (frames_of_order s) as (F & O).
  pose proof (runs_bound (frames_of s) (s_tracks s) O) as R. unfold moof_of, moof_size.
  set (runs := zsum _) in *.
  assert (A : 0 <= fold_right (fun t n => zlen (t_frames t) * trun_size (t_type t) + n) 0 (s_tracks s) <=
    fold_right (fun t n => 36 * zlen (t_frames t) + n) 0 (s_tracks s) -
    20 * fold_right (fun t n => zlen (t_frames t) + n) 0 (s_tracks s)).
  { clear. induction (s_tracks s) as [|t ts IH]; cbn [fold_right]; [lia|].
    pose proof (zlen_nonneg (t_frames t)). destruct (t_type t); cbn [trun_size]; lia. }
  pose proof (zlen_nonneg (s_tracks s)). destruct (0 <? sdi); nia.
Qed.

Lemma good_segm_bounds s : good_segm s ->
  24 + 48 * zlen (s_tracks s) + fold_right (fun t n => 36 * zlen (t_frames t) + n) 0 (s_tracks s) + 8 +
    total (frames_of s) < 2 ^ 31 /\
  zlen (s_meta s) < 2 ^ 31 /\ Forall (fun t => zlen (t_frames t) < 2 ^ 26) (s_tracks s) /\
  zlen (s_tracks s) < 2 ^ 32 - 1.
Proof.
  intros (G & B). rewrite (total_of_segm s G). pose proof (zlen_nonneg (s_meta s)).
  assert (A : 0 <= fold_right (fun t n => sizes (t_frames t) + n) 0 (s_tracks s) /\
    0 <= fold_right (fun t n => 36 * zlen (t_frames t) + n) 0 (s_tracks s) /\
    48 * zlen (s_tracks s) + fold_right (fun t n => 36 * zlen (t_frames t) + n) 0 (s_tracks s) +
    fold_right (fun t n => sizes (t_frames t) + n) 0 (s_tracks s) <=
    fold_right (fun t n => sizes (t_frames t) + 200 * zlen (t_frames t) + 200 + n) 0 (s_tracks s) /\
    Forall (fun t => 200 * zlen (t_frames t) <=
      fold_right (fun t n => sizes (t_frames t) + 200 * zlen (t_frames t) + 200 + n) 0 (s_tracks s)) (s_tracks s)).
  { clear B. induction G as [|t ts (G1 & _) G IH].
    - cbn. repeat split; try lia. constructor.
    - cbn [fold_right]. rewrite zlen_cons. pose proof (zlen_nonneg (t_frames t)). pose proof (sizes_nonneg _ G1).
      destruct IH as (I1 & I2 & I3 & I4). pose proof (zlen_nonneg ts). repeat split; try lia. constructor; [lia|].
      eapply Forall_impl; [|exact I4]. cbv beta. intros a Ha. lia. }
  destruct A as (A1 & A2 & A3 & A4). pose proof (zlen_nonneg (s_tracks s)).
  repeat split; try lia. eapply Forall_impl; [|exact A4]. cbv beta. intros t Ht. lia.
Qed.

Lemma number_combine {B} (g : track -> B) ts : forall ix,
  map (fun p => (Z.of_nat (fst p) + 1, g (snd p))) (number ix ts) =
  combine (map Z.of_nat (seq (S ix) (length ts))) (map g ts).
Proof.
  induction ts as [|t ts IH]; intro ix; [reflexivity|].
  cbn [number map length seq combine fst snd]. rewrite IH. f_equal. f_equal. lia.
Qed.

Lemma number_nth ts : forall ix i t, In (i, t) (number ix ts) -> (ix <= i)%nat /\ nth_error ts (i - ix) = Some t.
Proof.
  induction ts as [|t ts IH]; intros ix i t' H; cbn in H; [contradiction|].
  destruct H as [E|H].
  - injection E as <- <-. rewrite Nat.sub_diag. auto.
  - destruct (IH _ _ _ H) as (A & B). split; [lia|]. replace (i - ix)%nat with (S (i - S ix)) by lia. exact B.
Qed.

(* The data of a segment. *)
Lemma segment_data mem s : Forall good_track (s_tracks s) ->
  exists ws, segment_writes false s = (ws, true) /\
    concat (map (wbytes mem) ws) =
    mdat mem (frames_of s) (map (fun t => (t_base t, t_len t)) (s_tracks s)).
Proof.
  intro G. destruct (frames_of_order s) as (F & O). pose proof (frames_nonneg s G) as NN.
  unfold segment_writes. set (ps := map (fun t => (t_base t, t_len t)) (s_tracks s)).
  assert (Lp : length ps = length (s_tracks s)) by apply map_length.
  destruct (reads_spec mem (frames_of s) ps NN) as (rs & Er & Eb & Ei & Ez).
  { now rewrite Lp. }
  { intros i p N. unfold ps in N. destruct (nth_error (s_tracks s) i) as [t|] eqn:Nt.
    - rewrite (map_nth_error _ _ _ Nt) in N. injection N as <-. rewrite (O i t Nt). cbn.
      rewrite Forall_forall in G. destruct (G t (nth_error_In _ _ Nt)) as (_ & H & _). exact H.
    - exfalso. apply nth_error_None in Nt. assert (i < length ps)%nat by (apply nth_error_Some; unfold ps; rewrite N; discriminate). lia. }
  rewrite Er. eexists. split; [reflexivity|]. rewrite writes_spec; auto; cbn [snd]; try lia.
  - rewrite map_length. rewrite Forall_forall in *. intros r I.
    assert (In (fst (fst r)) (map fst (frames_of s))) as J.
    { rewrite <- Ei. apply in_map_iff. eauto. }
    apply in_map_iff in J. destruct J as (q & <- & J). exact (F q J).
  - rewrite map_length. intros i Hi. unfold cnt_of.
    destruct (nth_error (s_tracks s) i) as [t|] eqn:Nt; [|apply nth_error_None in Nt; lia].
    assert (Nn := map_nth_error (fun t => length (t_frames t)) _ _ Nt).
    rewrite (nth_error_nth _ _ _ Nn), <- (O i t Nt). unfold of. rewrite map_length.
    clear - Ei. revert rs Ei. induction (frames_of s) as [|[j f] L IH]; intros [|[[k a] b] rs] E; cbn in E; try discriminate; [reflexivity|].
    injection E as -> E. cbn [filter fst]. destruct (Nat.eqb j i); cbn [length]; now rewrite (IH rs E).
Qed.

Lemma plain_ok mem s : good_segm s ->
  exists h ys body,
    plain_segment mem s = Ok (zlen body, body) /\
    build_header s 1 no_ext true = Ok ([], zlen body) /\
    demux body = Some (combine (map Z.of_nat (seq 1 (length (s_tracks s)))) (map (expected mem) (s_tracks s))) /\
    let M := moof_of s 1 no_ext in
    body = flat (pre_boxes s (M + 8 + total (frames_of s)) ++
                 [(MOOF, flat ((MFHD, be 4 0 ++ be 4 (s_index s)) :: ys)); (MDAT, h)]) /\
    8 + zlen (flat ((MFHD, be 4 0 ++ be 4 (s_index s)) :: ys)) = M /\ M < 2 ^ 31 /\
    zlen h = total (frames_of s) /\ M + 8 + total (frames_of s) < 2 ^ 31 /\ zlen (s_meta s) < 2 ^ 31.
Proof.
  intro G. destruct (good_segm_bounds s G) as (B1 & B2 & B3 & B4). destruct G as (G & _).
  pose proof (moof_bound s 1 no_ext ltac:(cbn; lia)) as MB. cbn [x_size no_ext] in MB.
  pose proof (frames_nonneg s G) as NN. pose proof (total_nonneg _ NN) as T0.
  destruct (header_gen s 1 no_ext [] G B2) as (h & ys & H1 & H2 & Zh & Hf & Zm & Ta & Tk & Tn); auto; try lia.
  { cbn. lia. }
  destruct (segment_data mem s G) as (ws & Ew & Eb).
  set (ps := map (fun t => (t_base t, t_len t)) (s_tracks s)) in *.
  set (data := mdat mem (frames_of s) ps) in *.
  assert (Zd : zlen data = total (frames_of s)) by now apply mdat_len.
  exists data, ys, (h ++ data). specialize (Hf data Zd).
  split.
  { unfold plain_segment. rewrite H1, Ew. unfold wbytes in Eb. rewrite Eb. do 2 f_equal. rewrite zlen_app, Zd. reflexivity. }
  split; [rewrite H2, zlen_app, Zd; reflexivity|]. split.
  2:{ cbv zeta. rewrite <- Zd in *. repeat split; auto; lia. }
  rewrite (demux_gen s 1 [] (frames_of s) (moof_of s 1 no_ext) ys data _ _ (h ++ data) B2 ltac:(lia) ltac:(lia) Hf Zm); auto.
  2:{ eapply Forall_impl; [|exact G]. intros t Gt. destruct (earliest_good t Gt). lia. }
  f_equal. rewrite <- (number_combine (expected mem) (s_tracks s) 0). apply map_ext_in.
  intros [i t] I. cbn [fst snd]. f_equal. destruct (number_nth _ _ _ _ I) as (_ & N). rewrite Nat.sub_0_r in N.
  destruct (frames_of_order s) as (F & O).
  apply play_expected.
  - rewrite Forall_forall in G. apply G. eapply nth_error_In, N.
  - rewrite ats_length. now rewrite (O i t N).
  - rewrite <- (O i t N). assert (Np : nth_error ps i = Some (t_base t, t_len t)) by (unfold ps; now rewrite (map_nth_error _ _ _ N)).
    pose proof (mdat_cut mem (frames_of s) ps h 0 NN) as C.
    replace (pre_size s + (moof_of s 1 no_ext + 8)) with (zlen h - 0) by lia.
    apply (C ltac:(unfold ps; rewrite map_length; exact F) ltac:(lia) ltac:(pose proof (zlen_nonneg h); lia) i _ Np (t_dts t)).
Qed.

Lemma durations_total t : 0 <= durations (t_frames t) < 2 ^ 32 -> total_dur t = durations (t_frames t).
Proof. intro H. unfold total_dur, u64. apply Z.mod_small. change (fold_right _ 0 (t_frames t)) with (durations (t_frames t)). lia. Qed.

Lemma durations_nonneg l : Forall (fun f => is_u32 (f_size f) /\ is_u32 (f_dur f) /\ is_u32 (f_delay f)) l -> 0 <= durations l.
Proof.
  induction 1 as [|f l (_ & A & _) F IH]; [cbn; lia|]. change (durations (f :: l)) with (f_dur f + durations l).
  unfold is_u32 in A. lia.
Qed.

Lemma sidx_read scale e size dur : 0 <= e < 2 ^ 63 -> 0 <= size < 2 ^ 32 -> 0 <= dur < 2 ^ 32 ->
  (let p := sidx_body scale e size dur in
   if unbe (slice 0 1 p) =? 0
   then Some (unbe (slice 24 4 p), unbe (slice 12 4 p), unbe (slice 28 4 p))
   else Some (unbe (slice 32 4 p), unbe (slice 12 8 p), unbe (slice 36 4 p))) = Some (size, e, dur).
Proof.
  intros A B C. cbv zeta. unfold sidx_body. destruct (Z.gtb_spec e (2 ^ 32 - 1)) as [D|D].
  - assert (E : forall l, unbe (slice 0 1 (be 4 16777216 ++ l)) = 1) by reflexivity. rewrite E. change (1 =? 0) with false. cbv iota.
    assert (S1 : slice 32 4 (be 4 16777216 ++ be 4 1 ++ be 4 scale ++ be 8 e ++ be 8 0 ++ be 4 1 ++ be 4 size ++ be 4 dur ++ be 4 2415919104) = be 4 size).
    { do 3 (rewrite (slice_skip _ _ 4); [|apply zlen_be|lia]). do 2 (rewrite (slice_skip _ _ 8); [|apply zlen_be|lia]).
      rewrite (slice_skip _ _ 4); [|apply zlen_be|lia]. apply slice0. apply zlen_be. }
    assert (S2 : slice 12 8 (be 4 16777216 ++ be 4 1 ++ be 4 scale ++ be 8 e ++ be 8 0 ++ be 4 1 ++ be 4 size ++ be 4 dur ++ be 4 2415919104) = be 8 e).
    { do 3 (rewrite (slice_skip _ _ 4); [|apply zlen_be|lia]). apply slice0. apply zlen_be. }
    assert (S3 : slice 36 4 (be 4 16777216 ++ be 4 1 ++ be 4 scale ++ be 8 e ++ be 8 0 ++ be 4 1 ++ be 4 size ++ be 4 dur ++ be 4 2415919104) = be 4 dur).
    { do 3 (rewrite (slice_skip _ _ 4); [|apply zlen_be|lia]). do 2 (rewrite (slice_skip _ _ 8); [|apply zlen_be|lia]).
      do 2 (rewrite (slice_skip _ _ 4); [|apply zlen_be|lia]). apply slice0. apply zlen_be. }
    rewrite S1, S2, S3, !unbe_be4, unbe_be8 by lia. reflexivity.
  - assert (E : forall l, unbe (slice 0 1 (be 4 0 ++ l)) = 0) by reflexivity. rewrite E. change (0 =? 0) with true. cbv iota.
    assert (S1 : slice 24 4 (be 4 0 ++ be 4 1 ++ be 4 scale ++ be 4 e ++ be 4 0 ++ be 4 1 ++ be 4 size ++ be 4 dur ++ be 4 2415919104) = be 4 size).
    { do 6 (rewrite (slice_skip _ _ 4); [|apply zlen_be|lia]). apply slice0. apply zlen_be. }
    assert (S2 : slice 12 4 (be 4 0 ++ be 4 1 ++ be 4 scale ++ be 4 e ++ be 4 0 ++ be 4 1 ++ be 4 size ++ be 4 dur ++ be 4 2415919104) = be 4 e).
    { do 3 (rewrite (slice_skip _ _ 4); [|apply zlen_be|lia]). apply slice0. apply zlen_be. }
    assert (S3 : slice 28 4 (be 4 0 ++ be 4 1 ++ be 4 scale ++ be 4 e ++ be 4 0 ++ be 4 1 ++ be 4 size ++ be 4 dur ++ be 4 2415919104) = be 4 dur).
    { do 7 (rewrite (slice_skip _ _ 4); [|apply zlen_be|lia]). apply slice0. apply zlen_be. }
    rewrite S1, S2, S3, !unbe_be4 by lia. reflexivity.
Qed.

Lemma sidx_plain mem s t body total_ : good_segm s -> s_tracks s = [t] -> durations (t_frames t) < 2 ^ 32 ->
  plain_segment mem s = Ok (total_, body) ->
  exists front rest, body = front ++ rest /\ slice 4 4 rest = MOOF /\
    sidx_says body = Some (zlen rest,
      match expected mem t with w :: _ => w_pts w | [] => t_dts t end, durations (t_frames t)).
Proof.
  intros G Et Hd P. destruct (plain_ok mem s G) as (d & ys & body' & P' & _ & _ & Eb & Zm & M31 & Zd & B31 & Hm).
  rewrite P in P'. injection P' as -> ->.
  set (M := moof_of s 1 no_ext) in *. set (mf := be 4 0 ++ be 4 (s_index s)) in *.
  set (rest := flat [(MOOF, flat ((MFHD, mf) :: ys)); (MDAT, d)]).
  exists (flat (pre_boxes s (M + 8 + total (frames_of s)))), rest.
  assert (Er : body' = flat (pre_boxes s (M + 8 + total (frames_of s))) ++ rest) by (rewrite Eb; apply flat_app).
  split; [exact Er|].
  assert (Zr : zlen rest = M + 8 + total (frames_of s)).
  { unfold rest. rewrite (flat_cons MOOF), (flat_cons MDAT), !zlen_app, !zlen_bx by reflexivity. change (zlen (flat [])) with 0. clear - Zm Zd. lia. }
  split.
  { unfold rest. rewrite flat_cons. unfold bx, atom_header. rewrite <- !app_assoc.
    rewrite (slice_skip _ _ 4); [|apply zlen_be|lia]. apply slice0. reflexivity. }
  assert (Gt : good_track t). { destruct G as (G & _). rewrite Et in G. now inversion G. }
  destruct (earliest_good t Gt) as (Ee & Eb2).
  pose proof (zlen_nonneg (flat ((MFHD, mf) :: ys))). unfold sidx_says. rewrite Eb, file_boxes by (auto; lia). rewrite named_app.
  change (named SIDX [(zlen (flat (pre_boxes s (M + 8 + total (frames_of s)))), MOOF, flat ((MFHD, mf) :: ys));
     (zlen (flat (pre_boxes s (M + 8 + total (frames_of s)))) + 8 + zlen (flat ((MFHD, mf) :: ys)), MDAT, d)]) with (@nil box).
  rewrite app_nil_r.
  assert (Pk : pick SIDX (pre_boxes s (M + 8 + total (frames_of s))) =
    [sidx_body (t_scale t) (earliest t) (M + 8 + total (frames_of s)) (total_dur t)]).
  { unfold pre_boxes. rewrite Et, !pick_app. destruct (0 <? emsg_size s); reflexivity. }
  destruct (one_named _ _ 0 _ Pk) as (b & -> & ->). cbv zeta.
  assert (D0 : 0 <= durations (t_frames t)) by (apply durations_nonneg; apply Gt).
  rewrite Zr. rewrite durations_total by lia.
  pose proof (sidx_read (t_scale t) (earliest t) (M + 8 + total (frames_of s)) (durations (t_frames t))) as R.
  cbv zeta in R. rewrite R; [|lia| |lia].
  2:{ pose proof (zlen_nonneg rest). lia. }
  do 3 f_equal. rewrite Ee. unfold expected, delay0. destruct (t_frames t) as [|f l]; cbn [placed map].
  - destruct (t_type t); lia.
  - destruct (t_type t); cbn [w_pts]; lia.
Qed.
