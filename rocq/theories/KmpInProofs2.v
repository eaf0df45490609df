(* Proofs for the KMP input, continued: what the owner is told about the
   packets of a client. *)
From Coq Require Import ZArith List Bool Arith Lia.
From Coq Require Import ZifyBool ZifyNat.
From Verif Require Import Lists Bytes KmpInModel KmpInSpec KmpInProofs.
Import ListNotations.
Open Scope Z_scope.

(* ---- the wire format ---- *)

Lemma field_here n z r : 0 <= z < 256 ^ Z.of_nat n -> field 0 n (le n z ++ r) = z.
Proof.
  intros H. unfold field. cbn [skipn].
  rewrite firstn_app, firstn_all2 by (rewrite le_length; lia).
  rewrite le_length, Nat.sub_diag, firstn_O, app_nil_r. apply unle_le_small. exact H.
Qed.

Lemma field_skip off n a r : (length a <= off)%nat ->
  field off n (a ++ r) = field (off - length a) n r.
Proof. intros H. unfold field. rewrite skipn_app, skipn_all2 by lia. reflexivity. Qed.

Lemma field_wire_here off n a z r :
  off = length a -> 0 <= z < 256 ^ Z.of_nat n -> field off n (a ++ le n z ++ r) = z.
Proof.
  intros -> H. rewrite field_skip by lia. rewrite Nat.sub_diag. apply field_here. exact H.
Qed.

Lemma wire_header_length t h d : length (wire_header t h d) = 16%nat.
Proof. unfold wire_header. rewrite !app_length, !le_length. reflexivity. Qed.

Lemma wire_header_bytes t h d : bytes (wire_header t h d).
Proof. unfold wire_header. repeat (apply bytes_app; split); apply le_bytes. Qed.

Lemma wire_header_fields t h d :
  0 <= t < 2 ^ 32 -> sized h d ->
  h_type (wire_header t h d) = t /\
  h_header_size (wire_header t h d) = 16 + Z.of_nat (length h) /\
  h_data_size (wire_header t h d) = Z.of_nat (length d).
Proof.
  intros Ht (_ & _ & Hh & Hd). unfold wire_header, h_type, h_header_size, h_data_size.
  split; [|split].
  - apply field_here. exact Ht.
  - apply field_wire_here; [rewrite le_length; reflexivity|].
    change (256 ^ Z.of_nat 4) with 4294967296. lia.
  - rewrite app_assoc. apply field_wire_here; [rewrite app_length, !le_length; reflexivity|].
    change (256 ^ Z.of_nat 4) with 4294967296. lia.
Qed.

Definition known (t : Z) : Prop :=
  t = pt_connect \/ t = pt_media_info \/ t = pt_frame \/ t = pt_null \/ t = pt_end.

Lemma known_u32 t : known t -> 0 <= t < 2 ^ 32.
Proof.
  unfold known, pt_connect, pt_media_info, pt_frame, pt_null, pt_end. cbn. lia.
Qed.

Lemma wire_header_ok t h d : known t -> sized h d -> header_ok (wire_header t h d) = true.
Proof.
  intros Ht Hs. destruct (wire_header_fields t h d (known_u32 t Ht) Hs) as (H1 & H2 & H3).
  unfold header_ok. cbv zeta. rewrite H1, H2, H3.
  destruct Hs as (_ & _ & Hh & Hd). change (Z.of_nat packet_header_size) with 16.
  unfold max_header_size, max_data_size. unfold known in Ht. lia.
Qed.

Lemma fbytes_wire o f evs t h d : known t -> sized h d ->
  fbytes o (FRun [] 0 [] f evs) (wire t h d)
    = fpacket o (wire_header t h d) (h ++ d) f evs.
Proof.
  intros Ht Hs. unfold wire. rewrite fbytes_app.
  rewrite fbytes_hdr_full by (rewrite ?wire_header_length; cbn; lia).
  change ([] ++ wire_header t h d) with (wire_header t h d).
  unfold fheader. rewrite wire_header_ok by assumption. cbn [negb]. cbv zeta.
  destruct (wire_header_fields t h d (known_u32 t Ht) Hs) as (_ & H2 & H3). rewrite H2, H3.
  destruct (16 + Z.of_nat (length h) + Z.of_nat (length d) - 16 =? 0) eqn:E.
  - assert (h = []) by (apply length_zero_iff_nil; lia).
    assert (d = []) by (apply length_zero_iff_nil; lia). subst. reflexivity.
  - rewrite fbytes_body_full by (rewrite ?app_length; lia). reflexivity.
Qed.

(* nothing is told before a packet is complete *)
Lemma fbytes_wire_prefix o f evs t h d l r : known t -> sized h d ->
  wire t h d = l ++ r -> r <> [] ->
  exists hdr lft body, fbytes o (FRun [] 0 [] f evs) l = FRun hdr lft body f evs.
Proof.
  intros Ht Hs Hw Hr.
  assert (Hlen : (length (wire t h d) = length l + length r)%nat) by (rewrite Hw; apply app_length).
  assert (Hr0 : (0 < length r)%nat) by (destruct r; [congruence|cbn; lia]).
  unfold wire in Hlen. rewrite !app_length, wire_header_length in Hlen.
  destruct (Nat.lt_ge_cases (length l) 16) as [Hl|Hl].
  - rewrite fbytes_hdr by (cbn; lia). eauto.
  - assert (Hp : l = wire_header t h d ++ skipn 16 l).
    { rewrite <- (firstn_skipn 16 l) at 1. f_equal.
      assert (E : firstn 16 (wire t h d) = wire_header t h d).
      { unfold wire. rewrite <- (wire_header_length t h d) at 1. apply firstn_app_exact. }
      rewrite <- E, Hw, firstn_app. replace (16 - length l)%nat with 0%nat by lia.
      rewrite firstn_O, app_nil_r. reflexivity. }
    rewrite Hp, fbytes_app.
    rewrite fbytes_hdr_full by (rewrite ?wire_header_length; cbn; lia).
    change ([] ++ wire_header t h d) with (wire_header t h d).
    unfold fheader. rewrite wire_header_ok by assumption. cbn [negb]. cbv zeta.
    destruct (wire_header_fields t h d (known_u32 t Ht) Hs) as (_ & H2 & H3). rewrite H2, H3.
    assert (Hsk : length (skipn 16 l) = (length l - 16)%nat) by apply skipn_length.
    replace (16 + Z.of_nat (length h) + Z.of_nat (length d) - 16 =? 0) with false by lia.
    rewrite fbytes_body by lia. eauto.
Qed.

Lemma wire_frame_length fr : length (wire_frame fr) = 24%nat.
Proof. unfold wire_frame. rewrite !app_length, !le_length. reflexivity. Qed.

Lemma i64_wire z : - 2 ^ 63 <= z < 2 ^ 63 -> i64 (z mod 2 ^ 64) = z.
Proof.
  intros H. unfold i64. destruct (Z.neg_nonneg_cases z) as [Hn|Hn].
  - replace (z mod 2 ^ 64) with (z + 2 ^ 64)
      by (symmetry; rewrite <- (Z.mod_add z 1) by lia; rewrite Z.mul_1_l; apply Z.mod_small; lia).
    replace (z + 2 ^ 64 <? 2 ^ 63) with false by lia. lia.
  - rewrite Z.mod_small by lia. replace (z <? 2 ^ 63) with true by lia. reflexivity.
Qed.

Lemma i32_wire z : - 2 ^ 31 <= z < 2 ^ 31 -> i32 (z mod 2 ^ 32) = z.
Proof.
  intros H. unfold i32. destruct (Z.neg_nonneg_cases z) as [Hn|Hn].
  - replace (z mod 2 ^ 32) with (z + 2 ^ 32)
      by (symmetry; rewrite <- (Z.mod_add z 1) by lia; rewrite Z.mul_1_l; apply Z.mod_small; lia).
    replace (z + 2 ^ 32 <? 2 ^ 31) with false by lia. lia.
  - rewrite Z.mod_small by lia. replace (z <? 2 ^ 31) with true by lia. reflexivity.
Qed.

Lemma field_le n off a z r : off = length a ->
  field off n (a ++ le n z ++ r) = z mod 256 ^ Z.of_nat n.
Proof.
  intros ->. unfold field. rewrite skipn_app_exact, firstn_app.
  rewrite firstn_all2 by (rewrite le_length; lia).
  rewrite le_length, Nat.sub_diag, firstn_O, app_nil_r. apply unle_le.
Qed.

Lemma parse_wire_frame fr : ok_frame fr -> parse_frame (wire_frame fr) = fr.
Proof.
  intros (H1 & H2 & H3 & H4). unfold parse_frame.
  assert (A1 : field 0 8 (wire_frame fr) = f_created fr mod 256 ^ Z.of_nat 8).
  { unfold wire_frame. apply (field_le 8 0 []). reflexivity. }
  assert (A2 : field 8 8 (wire_frame fr) = f_dts fr mod 256 ^ Z.of_nat 8).
  { unfold wire_frame. apply field_le. rewrite le_length. reflexivity. }
  assert (A3 : field 16 4 (wire_frame fr) = f_flags fr mod 256 ^ Z.of_nat 4).
  { unfold wire_frame. rewrite app_assoc. apply field_le. rewrite app_length, !le_length. reflexivity. }
  assert (A4 : field 20 4 (wire_frame fr) = f_pts_delay fr mod 256 ^ Z.of_nat 4).
  { unfold wire_frame. rewrite !app_assoc. rewrite <- (app_nil_r (le 4 (f_pts_delay fr))).
    apply field_le. rewrite !app_length, !le_length. reflexivity. }
  rewrite A1, A2, A3, A4.
  change (256 ^ Z.of_nat 8) with (2 ^ 64). change (256 ^ Z.of_nat 4) with (2 ^ 32).
  rewrite !i64_wire, i32_wire by assumption. rewrite (Z.mod_small (f_flags fr)) by assumption.
  destruct fr; reflexivity.
Qed.

Lemma is_key_spec fr : is_key fr = true <-> key_frame fr.
Proof.
  unfold is_key, key_frame, flag_key. change 1 with (Z.ones 1).
  rewrite Z.land_ones by lia. change (2 ^ 1) with 2. rewrite Zmod_odd.
  destruct (Z.odd (f_flags fr)); cbn; split; congruence.
Qed.

Lemma mask_shown fr : mask_flags fr = shown fr.
Proof.
  unfold mask_flags, shown, flag_mask, flag_key. change 1 with (Z.ones 1).
  rewrite Z.land_ones by lia. reflexivity.
Qed.

(* ---- histories ---- *)

Lemma snoc_split {A} (ps : list A) x a y b :
  ps ++ [x] = a ++ y :: b ->
  (b = [] /\ x = y /\ ps = a) \/ (exists b', b = b' ++ [x] /\ ps = a ++ y :: b').
Proof.
  intros H. destruct b as [|z b] using rev_ind.
  - apply app_inj_tail in H. destruct H; subst. auto.
  - clear IHb. right. exists b. change (a ++ y :: b ++ [z]) with (a ++ (y :: b) ++ [z]) in H.
    rewrite app_assoc in H. apply app_inj_tail in H. destruct H as (H1 & ->). auto.
Qed.

Lemma media_snoc ps p : media_in_force (ps ++ [p])
  = match p with PMediaInfo mi _ _ => Some mi | _ => media_in_force ps end.
Proof.
  induction ps as [|q ps IH]; [destruct p; reflexivity|].
  destruct q; cbn [app media_in_force]; rewrite IH; destruct p; reflexivity.
Qed.

Lemma frames_snoc ps p : frames_sent (ps ++ [p])
  = match p with PFrame _ _ _ => frames_sent ps + 1 | _ => frames_sent ps end.
Proof.
  unfold frames_sent. rewrite filter_app, app_length. destruct p; cbn; lia.
Qed.

Lemma frames_nonneg ps : 0 <= frames_sent ps.
Proof. unfold frames_sent. lia. Qed.

Lemma flowing_nil skip keep : ~ flowing skip keep [].
Proof. intros (a & fr & ext & data & b & H & _). destruct a; discriminate. Qed.

Lemma flowing_media skip keep ps mi ext data : ~ flowing skip keep (ps ++ [PMediaInfo mi ext data]).
Proof.
  intros (a & fr & ext' & data' & b & H & Hm & _).
  apply snoc_split in H. destruct H as [(-> & H & _)|(b' & -> & _)]; [discriminate|].
  rewrite media_snoc in Hm. discriminate.
Qed.

Lemma flowing_null skip keep ps p :
  (match p with PNull _ _ | PEnd _ _ => True | _ => False end) ->
  flowing skip keep (ps ++ [p]) <-> flowing skip keep ps.
Proof.
  intros Hp. split.
  - intros (a & fr & ext & data & b & H & Hm & Hc).
    apply snoc_split in H. destruct H as [(-> & -> & _)|(b' & -> & ->)]; [contradiction|].
    exists a, fr, ext, data, b'. rewrite media_snoc in Hm. destruct p; try contradiction; auto.
  - intros (a & fr & ext & data & b & -> & Hm & Hc).
    exists a, fr, ext, data, (b ++ [p]). rewrite <- app_assoc. split; [reflexivity|].
    rewrite media_snoc. destruct p; try contradiction; auto.
Qed.

Lemma flowing_frame skip keep ps fr ext data :
  flowing skip keep (ps ++ [PFrame fr ext data]) <->
  flowing skip keep ps \/ (key_frame fr /\ data <> [] /\ skip <= frames_sent ps) \/
  (keep = true /\ frames_sent ps + 1 = skip).
Proof.
  split.
  - intros (a & fr' & ext' & data' & b & H & Hm & Hc).
    apply snoc_split in H. destruct H as [(-> & E & ->)|(b' & -> & ->)].
    + inversion E; subst. right. exact Hc.
    + left. exists a, fr', ext', data', b'. rewrite media_snoc in Hm. auto.
  - intros [(a & fr' & ext' & data' & b & -> & Hm & Hc)|Hc].
    + exists a, fr', ext', data', (b ++ [PFrame fr ext data]). rewrite <- app_assoc.
      split; [reflexivity|]. rewrite media_snoc. auto.
    + exists ps, fr, ext, data, []. auto.
Qed.

Lemma tally_snoc x fs y : tally x (fs ++ [y]) = tally x fs + (if fate_eq_dec y x then 1 else 0).
Proof.
  unfold tally. rewrite count_occ_app. cbn [count_occ].
  destruct (fate_eq_dec y x); lia.
Qed.

(* the filter after the packets [ps] *)
Record finv (initial skip : Z) (keep : bool) (ps : list pkt) (fs : list fate) (f : fltr)
    : Prop := mkFinv {
  fi_cur : cur_frame_id f = (initial + frames_sent ps) mod 2 ^ 64;
  fi_skip : skip_left f = Z.max 0 (skip - frames_sent ps);
  fi_keep : skip_wait_key f = keep;
  fi_none : media_in_force ps = None -> timescale f = 0 /\ wait_key f = false;
  fi_some : forall mi, media_in_force ps = Some mi ->
      0 < timescale f /\ media_type f = media_type_of mi /\
      (wait_key f = true -> media_type_of mi = media_video /\ ~ flowing skip keep ps) /\
      (wait_key f = false -> media_type_of mi = media_video -> flowing skip keep ps);
  fi_dup : skipped_duplicate f = tally Duplicate fs;
  fi_empty : skipped_empty f = tally Empty fs;
  fi_dur : skipped_empty_duration f = tally EmptyDuration fs;
  fi_nomi : skipped_no_media_info f = tally NoMediaInfo fs;
  fi_nokey : skipped_no_key f = tally NoKey fs;
  fi_recv : received_frames f = tally Delivered fs
}.

Lemma finv_frame initial skip keep ps fs f fr ext data f' d :
  0 <= skip -> finv initial skip keep ps fs f ->
  frame_filter f fr (Z.of_nat (length data)) = (f', d) ->
  exists x, frame_fate skip keep ps fr data x /\ (d = true <-> x = Delivered) /\
    cur_frame_id f' = cur_frame_id f /\
    finv initial skip keep (ps ++ [PFrame fr ext data]) (fs ++ [x]) (next_frame f').
Proof.
  intros Hsk [Hcur Hskip Hkeep Hnone Hsome Hd He Hed Hnm Hnk Hr] H.
  destruct f as [ts mt cur sl wk swk rf rk rd sd se sed sm sk].
  cbn [cur_frame_id skip_left skip_wait_key timescale media_type wait_key skipped_duplicate
    skipped_empty skipped_empty_duration skipped_no_media_info skipped_no_key received_frames] in *.
  pose proof (frames_nonneg ps) as Hfn.
  unfold frame_filter in H.
  assert (Hcur' : u64 (cur + 1) = (initial + frames_sent (ps ++ [PFrame fr ext data])) mod 2 ^ 64).
  { rewrite frames_snoc, Hcur. unfold u64. rewrite Zplus_mod_idemp_l. f_equal. lia. }
  assert (Hdata : (Z.of_nat (length data) =? 0) = true <-> data = []).
  { rewrite Z.eqb_eq. destruct data; cbn [length]; split; intros; try lia; try congruence; reflexivity. }
  destruct (0 <? sl) eqn:E0.
  { inversion H; subst f' d; clear H. exists Duplicate.
    split; [constructor; lia|]. split; [split; discriminate|]. split; [reflexivity|].
    constructor; cbn [next_frame cur_frame_id skip_left skip_wait_key timescale media_type wait_key skipped_duplicate
      skipped_empty skipped_empty_duration skipped_no_media_info skipped_no_key received_frames];
      rewrite ?tally_snoc; cbn [fate_eq_dec fate_rec fate_rect]; try lia; try assumption.
    - rewrite frames_snoc. lia.
    - rewrite media_snoc. intros Hm. destruct (Hnone Hm) as (-> & ->).
      split; [reflexivity|]. destruct ((sl - 1 <=? 0) && swk); reflexivity.
    - rewrite media_snoc. intros mi Hm. destruct (Hsome mi Hm) as (S1 & S2 & S3 & S4).
      split; [exact S1|]. split; [exact S2|]. rewrite flowing_frame.
      destruct ((sl - 1 <=? 0) && swk) eqn:E1.
      + apply andb_true_iff in E1. destruct E1 as (E1 & E2).
        split; [discriminate|]. intros _ _. right. right. split; [congruence|lia].
      + split.
        * intros Hw. destruct (S3 Hw) as (S5 & S6). split; [exact S5|].
          intros [Hf|[(_ & _ & Hf)|(Hf & Hf2)]]; [contradiction|lia|].
          assert (Hsw : swk = true) by congruence. rewrite Hsw, andb_true_r in E1. lia.
        * intros Hw Hv. left. apply S4; assumption. }
  assert (Hge : skip <= frames_sent ps) by lia.
  destruct (ts <=? 0) eqn:E1.
  { assert (Hm : media_in_force ps = None).
    { destruct (media_in_force ps) as [mi|] eqn:Em; [|reflexivity].
      destruct (Hsome mi eq_refl) as (S1 & _). lia. }
    inversion H; subst f' d; clear H. exists NoMediaInfo.
    split; [constructor; assumption|]. split; [split; discriminate|]. split; [reflexivity|].
    constructor; cbn [next_frame cur_frame_id skip_left skip_wait_key timescale media_type wait_key skipped_duplicate
      skipped_empty skipped_empty_duration skipped_no_media_info skipped_no_key received_frames];
      rewrite ?tally_snoc, ?media_snoc; cbn [fate_eq_dec fate_rec fate_rect]; try lia; try assumption.
    rewrite frames_snoc. lia. }
  destruct (media_in_force ps) as [mi|] eqn:Em.
  2:{ destruct (Hnone eq_refl) as (S1 & _). lia. }
  destruct (Hsome mi eq_refl) as (S1 & S2 & S3 & S4). subst mt.
  destruct (Z.of_nat (length data) =? 0) eqn:E2.
  { inversion H; subst f' d; clear H. exists Empty.
    split; [econstructor; try eassumption; apply Hdata; reflexivity|].
    split; [split; discriminate|]. split; [reflexivity|].
    constructor; cbn [next_frame cur_frame_id skip_left skip_wait_key timescale media_type wait_key skipped_duplicate
      skipped_empty skipped_empty_duration skipped_no_media_info skipped_no_key received_frames];
      rewrite ?tally_snoc, ?media_snoc, ?Em; cbn [fate_eq_dec fate_rec fate_rect]; try lia; try assumption.
    all: try (rewrite frames_snoc; lia); try discriminate.
    - intros mi0 E. inversion E; subst mi0. split; [exact S1|]. split; [reflexivity|].
      rewrite flowing_frame. rewrite (proj1 Hdata eq_refl). split.
      + intros Hw. destruct (S3 Hw) as (S5 & S6). split; [exact S5|].
        intros [Hf|[(_ & Hf & _)|(Hf & Hf2)]]; [contradiction|congruence|lia].
      + intros Hw Hv. left. apply S4; assumption. }
  assert (Hne : data <> []) by (intros Hn; apply Hdata in Hn; discriminate).
  destruct ((media_type_of mi =? media_subtitle) && (f_pts_delay fr <=? 0)) eqn:E3.
  { apply andb_true_iff in E3. destruct E3 as (E3 & E4).
    inversion H; subst f' d; clear H. exists EmptyDuration.
    split; [eapply fate_empty_duration; try eassumption; lia|].
    split; [split; discriminate|]. split; [reflexivity|].
    constructor; cbn [next_frame cur_frame_id skip_left skip_wait_key timescale media_type wait_key skipped_duplicate
      skipped_empty skipped_empty_duration skipped_no_media_info skipped_no_key received_frames];
      rewrite ?tally_snoc, ?media_snoc, ?Em; cbn [fate_eq_dec fate_rec fate_rect]; try lia; try assumption.
    all: try (rewrite frames_snoc; lia); try discriminate.
    - intros mi0 E. inversion E; subst mi0. split; [exact S1|]. split; [reflexivity|].
      unfold media_video, media_subtitle in *. split.
      + intros Hw. destruct (S3 Hw) as (S5 & S6). lia.
      + intros Hw Hv. lia. }
  assert (Hsub : media_type_of mi = media_subtitle -> 0 < f_pts_delay fr).
  { intros Hs. rewrite Hs, Z.eqb_refl in E3. cbn [andb] in E3. lia. }
  destruct (wk && negb (is_key fr)) eqn:E4.
  { apply andb_true_iff in E4. destruct E4 as (-> & E4). apply negb_true_iff in E4.
    assert (Hnk' : ~ key_frame fr) by (rewrite <- is_key_spec; congruence).
    destruct (S3 eq_refl) as (S5 & S6).
    inversion H; subst f' d; clear H. exists NoKey.
    split; [eapply fate_no_key; eassumption|].
    split; [split; discriminate|]. split; [reflexivity|].
    constructor; cbn [next_frame cur_frame_id skip_left skip_wait_key timescale media_type wait_key skipped_duplicate
      skipped_empty skipped_empty_duration skipped_no_media_info skipped_no_key received_frames];
      rewrite ?tally_snoc, ?media_snoc, ?Em; cbn [fate_eq_dec fate_rec fate_rect]; try lia; try assumption.
    all: try (rewrite frames_snoc; lia); try discriminate.
    - intros mi0 E. inversion E; subst mi0. split; [exact S1|]. split; [reflexivity|].
      rewrite flowing_frame. split.
      + intros _. split; [exact S5|].
        intros [Hf|[(Hf & _)|(Hf & Hf2)]]; [contradiction|contradiction|lia].
      + discriminate. }
  inversion H; subst f' d; clear H. exists Delivered.
  assert (Hflow : media_type_of mi = media_video -> key_frame fr \/ flowing skip keep ps).
  { intros Hv. destruct wk.
    - left. apply is_key_spec. cbn [andb] in E4. apply negb_false_iff in E4. exact E4.
    - right. apply S4; auto. }
  split; [eapply fate_delivered; eassumption|].
  split; [split; auto|]. split; [reflexivity|].
  constructor; cbn [next_frame cur_frame_id skip_left skip_wait_key timescale media_type wait_key skipped_duplicate
    skipped_empty skipped_empty_duration skipped_no_media_info skipped_no_key received_frames];
    rewrite ?tally_snoc, ?media_snoc, ?Em; cbn [fate_eq_dec fate_rec fate_rect]; try lia; try assumption.
  all: try (rewrite frames_snoc; lia); try discriminate.
  - intros mi0 E. inversion E; subst mi0. split; [exact S1|]. split; [reflexivity|].
    split; [discriminate|]. intros _ Hv. apply flowing_frame.
    destruct (Hflow Hv); auto.
Qed.

Lemma firstn_all_app {A} n (a b : list A) : length a = n -> firstn n (a ++ b) = a.
Proof. intros <-. apply firstn_app_exact. Qed.
Lemma skipn_all_app {A} n (a b : list A) : length a = n -> skipn n (a ++ b) = b.
Proof. intros <-. apply skipn_app_exact. Qed.

Ltac known_t := unfold known; tauto.

Lemma told_run o initial skip keep evs0 ps f0 :
  agreeable o -> 0 <= skip -> finv initial skip keep [] [] f0 ->
  Forall ok_pkt ps -> no_end ps ->
  exists evs fs f,
    fbytes o (FRun [] 0 [] f0 evs0) (encode_all ps) = FRun [] 0 [] f (rev evs ++ evs0) /\
    told initial skip keep ps evs fs /\ finv initial skip keep ps fs f.
Proof.
  intros (Hal & Hc & Hmi & Hfr) Hsk Hf0. induction ps as [|p ps IH] using rev_ind; intros Hok Hne.
  - exists [], [], f0. split; [reflexivity|]. split; [constructor|exact Hf0].
  - apply Forall_app in Hok. destruct Hok as (Hok & Hokp). inversion Hokp as [|x y Hp _]; subst.
    apply Forall_app in Hne. destruct Hne as (Hne & Hnep). inversion Hnep as [|x y Hpe _]; subst.
    destruct (IH Hok Hne) as (evs & fs & f & IH1 & IH2 & IH3).
    unfold encode_all. rewrite map_app, concat_app. fold (encode_all ps).
    rewrite fbytes_app, IH1. cbn [map concat]. rewrite app_nil_r.
    destruct p as [mi ext data|fr ext data|ext data|ext data]; [| | |contradiction].
    + destruct Hp as (Hl & Hts & Hs).
      unfold encode. rewrite fbytes_wire by (try known_t; exact Hs).
      destruct (wire_header_fields pt_media_info (mi ++ ext) data ltac:(cbn; unfold pt_media_info; lia) Hs) as (H1 & H2 & H3).
      unfold fpacket. rewrite H1. change (pt_media_info =? pt_connect) with false.
      rewrite Z.eqb_refl. cbv iota zeta. unfold fmedia. rewrite H2, H3.
      pose proof Hs as (_ & _ & Hs1 & Hs2). rewrite app_length in *.
      rewrite u32_small by lia.
      replace (16 + Z.of_nat (length mi + length ext) - 16 <? 32) with false by lia.
      replace (Z.to_nat (16 + Z.of_nat (length mi + length ext) - 16))
        with (length (mi ++ ext)) by (rewrite app_length; lia).
      rewrite skipn_app_exact. rewrite <- app_assoc. rewrite (firstn_all_app 32) by exact Hl.
      cbv zeta. change (mi_timescale mi) with (timescale_of mi).
      replace (timescale_of mi <=? 0) with false by lia.
      change (mi_media_type mi) with (media_type_of mi).
      eexists (evs ++ [EMediaInfo mi data (Z.of_nat (length data))]), fs, _.
      split; [|split].
      * rewrite rev_app_distr. cbn [rev app].
        destruct (Hmi (EMediaInfo mi data (Z.of_nat (length data)) :: rev evs ++ evs0)) as [-> | ->];
          reflexivity.
      * constructor. exact IH2.
      * destruct IH3 as [G1 G2 G3 G4 G5 G6 G7 G8 G9 G10 G11].
        constructor; cbn [cur_frame_id skip_left skip_wait_key timescale media_type wait_key skipped_duplicate
          skipped_empty skipped_empty_duration skipped_no_media_info skipped_no_key received_frames];
          rewrite ?frames_snoc, ?media_snoc; try assumption.
        -- discriminate.
        -- intros mi0 E. inversion E; subst mi0. split; [lia|]. split; [reflexivity|]. split.
           ++ intros Hv. split; [lia|]. apply flowing_media.
           ++ intros Hv Hv2. rewrite Hv2 in Hv. discriminate.
    + destruct Hp as (Hofr & Hs).
      unfold encode. rewrite fbytes_wire by (try known_t; exact Hs).
      destruct (wire_header_fields pt_frame (wire_frame fr ++ ext) data ltac:(cbn; unfold pt_frame; lia) Hs) as (H1 & H2 & H3).
      unfold fpacket. rewrite H1. change (pt_frame =? pt_connect) with false.
      change (pt_frame =? pt_media_info) with false.
      rewrite Z.eqb_refl. cbv iota zeta. unfold fframe. rewrite H2, H3.
      pose proof Hs as (_ & _ & Hs1 & Hs2).
      assert (Hl : length (wire_frame fr ++ ext) = (24 + length ext)%nat)
        by (rewrite app_length, wire_frame_length; reflexivity).
      rewrite u32_small by lia.
      replace (16 + Z.of_nat (length (wire_frame fr ++ ext)) - 16 <? 24) with false by lia.
      replace (Z.to_nat (16 + Z.of_nat (length (wire_frame fr ++ ext)) - 16))
        with (length (wire_frame fr ++ ext)) by lia.
      rewrite skipn_app_exact. rewrite <- app_assoc.
      rewrite (firstn_all_app 24) by apply wire_frame_length.
      rewrite parse_wire_frame by exact Hofr. cbv zeta.
      destruct (frame_filter f fr (Z.of_nat (length data))) as [f' d] eqn:Ef.
      destruct (finv_frame _ _ _ _ _ _ _ ext _ _ _ Hsk IH3 Ef) as (x & X1 & X2 & X3 & X4).
      destruct d.
      * rewrite (proj1 X2 eq_refl) in *.
        exists (evs ++ [EFrame ((initial + frames_sent ps) mod 2 ^ 64) (shown fr) data (Z.of_nat (length data))]),
          (fs ++ [Delivered]), (next_frame f').
        rewrite X3, (fi_cur _ _ _ _ _ _ IH3), mask_shown.
        split; [|split].
        -- rewrite rev_app_distr. cbn [rev app].
           destruct (Hfr (EFrame ((initial + frames_sent ps) mod 2 ^ 64) (shown fr) data
             (Z.of_nat (length data)) :: rev evs ++ evs0)) as [-> | ->]; reflexivity.
        -- constructor; assumption.
        -- exact X4.
      * exists evs, (fs ++ [x]), (next_frame f'). split; [reflexivity|]. split; [|exact X4].
        eapply told_dropped; [exact IH2|exact X1|]. intros E. apply X2 in E. discriminate.
    + unfold encode. rewrite fbytes_wire by (try known_t; exact Hp).
      destruct (wire_header_fields pt_null ext data ltac:(cbn; unfold pt_null; lia) Hp) as (H1 & _).
      unfold fpacket. rewrite H1. change (pt_null =? pt_connect) with false.
      change (pt_null =? pt_media_info) with false. change (pt_null =? pt_frame) with false.
      rewrite Z.eqb_refl. cbv iota zeta.
      exists evs, fs, f. split; [reflexivity|]. split; [constructor; exact IH2|].
      destruct IH3 as [G1 G2 G3 G4 G5 G6 G7 G8 G9 G10 G11].
      constructor; rewrite ?frames_snoc, ?media_snoc; try assumption.
      intros mi Hm. destruct (G5 mi Hm) as (S1 & S2 & S3 & S4).
      rewrite flowing_null by exact Logic.I. auto.
Qed.

(* ---- the connect packet ---- *)

Lemma connect_fields_length k : length (k_channel k) = 32%nat -> length (k_track k) = 32%nat ->
  length (connect_fields k) = 88%nat.
Proof. intros H1 H2. unfold connect_fields. rewrite !app_length, !le_length, H1, H2. reflexivity. Qed.

Lemma encode_connect_split k : ok_connect k ->
  encode_connect k = connect_fixed k ++ k_ext k ++ k_data k /\ length (connect_fixed k) = 104%nat /\
  connect_fixed k = wire_header pt_connect (connect_fields k ++ k_ext k) (k_data k) ++ connect_fields k.
Proof.
  intros (H1 & H2 & _). pose proof (connect_fields_length k H1 H2) as Hl.
  unfold connect_fixed, encode_connect, wire.
  set (wh := wire_header pt_connect (connect_fields k ++ k_ext k) (k_data k)).
  assert (Hwl : length (wh ++ connect_fields k) = 104%nat)
    by (unfold wh; rewrite app_length, wire_header_length, Hl; reflexivity).
  assert (E : wh ++ (connect_fields k ++ k_ext k) ++ k_data k
    = (wh ++ connect_fields k) ++ k_ext k ++ k_data k) by (rewrite <- !app_assoc; reflexivity).
  rewrite E, (firstn_all_app 104) by exact Hwl. auto.
Qed.

Definition start_filter (initial skip : Z) (keep : bool) : fltr :=
  mkFilter 0 0 initial skip false keep 0 0 0 0 0 0 0 0.

Lemma start_finv initial skip keep : 0 <= initial < 2 ^ 64 -> 0 <= skip ->
  finv initial skip keep [] [] (start_filter initial skip keep).
Proof.
  intros H1 H2. constructor; cbn; try reflexivity.
  - rewrite Z.add_0_r, Z.mod_small by lia. reflexivity.
  - lia.
  - auto.
  - discriminate.
Qed.

Lemma connect_run o k skip keep :
  ok_connect k -> (forall h, o_connect_data o h = AOk) ->
  o_connected o (connect_fixed k) = inl (skip, keep) ->
  fbytes o (FConn []) (encode_connect k)
    = FRun [] 0 [] (start_filter (k_initial k) skip keep)
        (if o_has_connect_data o then [EConnectData (k_data k)] else []).
Proof.
  intros Hk Hcd Hcon. destruct (encode_connect_split k Hk) as (E & Hl & Hfix).
  destruct Hk as (Hk1 & Hk2 & Hk3 & Hk4).
  rewrite E, fbytes_app. rewrite fbytes_conn_full by (cbn [length Nat.add]; lia).
  change ([] ++ connect_fixed k) with (connect_fixed k).
  destruct (wire_header_fields pt_connect (connect_fields k ++ k_ext k) (k_data k)
    ltac:(cbn; unfold pt_connect; lia) Hk4) as (H1 & H2 & H3).
  set (wh := wire_header pt_connect (connect_fields k ++ k_ext k) (k_data k)) in *.
  assert (Hwh : firstn 16 (connect_fixed k) = wh).
  { rewrite Hfix. apply firstn_all_app. apply wire_header_length. }
  assert (F1 : h_type (connect_fixed k) = pt_connect).
  { rewrite <- H1, <- Hwh. symmetry. apply field_firstn. lia. }
  assert (F2 : h_header_size (connect_fixed k) = 16 + Z.of_nat (length (connect_fields k ++ k_ext k))).
  { rewrite <- H2, <- Hwh. symmetry. apply field_firstn. lia. }
  assert (F3 : h_data_size (connect_fixed k) = Z.of_nat (length (k_data k))).
  { rewrite <- H3, <- Hwh. symmetry. apply field_firstn. lia. }
  assert (F4 : c_initial_frame_id (connect_fixed k) = k_initial k).
  { rewrite Hfix. unfold c_initial_frame_id.
    rewrite field_skip by (unfold wh; rewrite wire_header_length; lia).
    replace (80 - length wh)%nat with 64%nat by (unfold wh; rewrite wire_header_length; reflexivity).
    unfold connect_fields. rewrite app_assoc.
    apply field_wire_here; [rewrite app_length; lia|].
    change (256 ^ Z.of_nat 8) with (2 ^ 64). lia. }
  pose proof (connect_fields_length k Hk1 Hk2) as Hcl.
  destruct Hk4 as (_ & _ & Hs1 & Hs2).
  rewrite app_length, Hcl in F2, Hs1.
  unfold fconnect. rewrite F1, F2, F3, F4, Z.eqb_refl, Hcon. cbn [negb].
  unfold max_header_size, max_data_size, invalid_frame_id.
  replace ((16 + Z.of_nat (88 + length (k_ext k)) <? 104)
    || (64 * 1024 <? 16 + Z.of_nat (88 + length (k_ext k)))) with false by lia.
  replace (16 * 1024 * 1024 <? Z.of_nat (length (k_data k))) with false by lia.
  replace (2 ^ 64 - 1 <=? k_initial k) with false by lia. cbv zeta. rewrite Hwh.
  assert (Hsk : Z.to_nat (h_header_size wh - 104) = length (k_ext k)).
  { rewrite H2, app_length, Hcl. lia. }
  destruct (16 + Z.of_nat (88 + length (k_ext k)) + Z.of_nat (length (k_data k)) - 104 =? 0) eqn:E0.
  - assert (He : k_ext k = []) by (apply length_zero_iff_nil; lia).
    assert (Hd : k_data k = []) by (apply length_zero_iff_nil; lia).
    rewrite He, Hd. unfold fconnect_data. destruct (o_has_connect_data o); cbn [negb]; [|reflexivity].
    rewrite Hcd, skipn_nil. reflexivity.
  - rewrite fbytes_body_full by (rewrite ?app_length; lia).
    unfold fpacket. rewrite H1, Z.eqb_refl. unfold fconnect_data. rewrite Hsk.
    change ([] ++ k_ext k ++ k_data k) with (k_ext k ++ k_data k).
    rewrite skipn_app_exact, Hcd.
    destruct (o_has_connect_data o); reflexivity.
Qed.

Lemma bytes_encode p : ok_pkt p -> bytes (encode p).
Proof.
  intros H.
  assert (Hw : forall t h d, sized h d -> bytes (wire t h d)).
  { intros t h d (H1 & H2 & _). unfold wire. apply bytes_app. split; [apply wire_header_bytes|].
    apply bytes_app. auto. }
  destruct p; unfold ok_pkt, encode in *; apply Hw; try apply H.
Qed.

Lemma bytes_encode_all ps : Forall ok_pkt ps -> bytes (encode_all ps).
Proof.
  induction 1 as [|p ps Hp _ IH]; [constructor|].
  unfold encode_all. cbn [map concat]. apply bytes_app. split; [apply bytes_encode, Hp|exact IH].
Qed.

Lemma bytes_encode_connect k : ok_connect k -> bytes (encode_connect k).
Proof.
  intros (_ & _ & _ & H1 & H2 & _). unfold encode_connect, wire. apply bytes_app.
  split; [apply wire_header_bytes|]. apply bytes_app. auto.
Qed.
