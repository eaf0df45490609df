From Coq Require Import ZArith List Bool Lia ZifyBool.
From Verif Require Import Lists Bytes Fmp4Model Fmp4Spec Fmp4Proofs Fmp4Proofs2 Fmp4Proofs3 Fmp4Proofs4 Fmp4Proofs5.
From Verif Require Import CencModel CencSpec CencProofs CencProofs2 CencProofs3 CencProofs4.
Import ListNotations.
Open Scope Z_scope.

(* ------------------------------------------------------------------ *)
(* The nal units of a frame                                             *)

Lemma Forall_firstn {A} (P : A -> Prop) n l : Forall P l -> Forall P (firstn n l).
Proof. intro F. rewrite <- (firstn_skipn n l) in F. now apply Forall_app in F. Qed.
Lemma Forall_skipn {A} (P : A -> Prop) n l : Forall P l -> Forall P (skipn n l).
Proof. intro F. rewrite <- (firstn_skipn n l) in F. now apply Forall_app in F. Qed.

Lemma nals_flat nl : 1 <= nl <= 4 -> forall fuel l ns, Forall is_byte l ->
  nals_from fuel nl l = Some ns -> l = flatn nl ns /\ Forall (ok_nal nl) ns.
Proof.
  intro Hnl. induction fuel as [|fuel IH]; intros l ns F H.
  - destruct l; [|discriminate]. injection H as <-. split; [reflexivity|constructor].
  - destruct l as [|b l0]; [injection H as <-; split; [reflexivity|constructor]|].
    set (l := b :: l0) in *. cbn [nals_from] in H. fold l in H. unfold l in H at 1. cbv iota in H.
    set (n := unbe (slice 0 nl l)) in *.
    destruct ((nl <? zlen l) && (1 <=? n) && (nl + n <=? zlen l)) eqn:C; [|discriminate].
    assert (C1 : nl < zlen l /\ 1 <= n /\ nl + n <= zlen l) by (clear - C; lia). destruct C1 as (C1 & C2 & C3).
    destruct (nals_from fuel nl (skipn (Z.to_nat (nl + n)) l)) as [r|] eqn:R; [|discriminate]. injection H as <-.
    apply IH in R; [|now apply Forall_skipn]. destruct R as (R1 & R2).
    assert (ZL : zlen l = Z.of_nat (length l)) by reflexivity.
    assert (L1 : length (slice 0 nl l) = Z.to_nat nl) by (unfold slice; rewrite firstn_length; cbn [skipn Z.to_nat]; lia).
    assert (B1 : Forall is_byte (slice 0 nl l)) by (unfold slice; apply Forall_firstn, Forall_skipn; auto).
    assert (L2 : zlen (slice nl n l) = n) by (unfold slice, zlen; rewrite firstn_length, skipn_length; lia).
    pose proof (unbe_bound _ B1) as Bd. fold n in Bd. rewrite L1, Z2Nat.id in Bd by lia.
    split.
    + rewrite flatn_cons. unfold nal_bytes. rewrite L2. unfold n at 1. rewrite <- L1, be_unbe by auto. rewrite <- R1.
      unfold slice. cbn [skipn Z.to_nat]. rewrite <- app_assoc.
      replace (Z.to_nat (nl + n)) with (Z.to_nat nl + Z.to_nat n)%nat by lia.
      rewrite <- skipn_skipn_add, firstn_skipn, firstn_skipn. reflexivity.
    + constructor; [|exact R2]. split; [unfold slice; apply Forall_firstn, Forall_skipn; auto|lia].
Qed.

Lemma frames_nals cd nl ds : 1 <= nl <= 4 -> Forall (good_frame cd nl) ds -> Forall (Forall is_byte) ds ->
  exists nss, Forall2 (fun d ns => nals nl d = Some ns) ds nss /\ ds = map (flatn nl) nss /\
    Forall (fun ns => Forall (ok_nal nl) ns /\ zlen ns < 65536) nss /\ fits_all cd nl nss.
Proof.
  intros Hnl G. induction G as [|d ds (ns & N & Zn & Fs) G IH]; intro B.
  - exists []. repeat split; constructor.
  - apply Forall_cons_iff in B. destruct B as (Bd & B). destruct (IH B) as (nss & I1 & I2 & I3 & I4).
    destruct (nals_flat nl Hnl _ _ _ Bd N) as (D & O). exists (ns :: nss). split; [constructor; auto|].
    split; [cbn [map]; now rewrite D, I2 at 1|]. split; [constructor; auto|]. constructor; [|exact I4]. split; [|exact Zn].
    rewrite Forall_forall in *. intros n I. specialize (Fs n I). destruct (O n I) as (_ & O2).
    assert (256 ^ nl <= 2 ^ 32).
    { change (2 ^ 32) with (256 ^ 4). apply Z.pow_le_mono_r; lia. }
    unfold fit, protect. destruct (slice_nal cd n); cbn [fst snd]; [lia|]. specialize (Fs eq_refl). lia.
Qed.

Lemma zlen_flatn_ge nl ns : 1 <= nl -> Forall (ok_nal nl) ns -> 2 * zlen ns <= zlen (flatn nl ns).
Proof.
  intro Hnl. induction 1 as [|n ns (_ & O) F IH]; [reflexivity|]. rewrite flatn_cons, zlen_app, zlen_cons.
  unfold nal_bytes. rewrite zlen_app, zlen_be. lia.
Qed.

Lemma auxs_bound cd nl nss : 1 <= nl -> Forall (fun ns => Forall (ok_nal nl) ns /\ zlen ns < 65536) nss -> forall fs q,
  map f_size fs = map (fun ns => zlen (flatn nl ns)) nss ->
  0 <= zlen (auxs cd nl q nss) <= 10 * zlen fs + 3 * sizes fs /\ zlen nss = zlen fs.
Proof.
  intros Hnl. induction 1 as [|ns nss (O & Zn) F IH]; intros [|f fs] q Hm; try discriminate; [cbn; lia|].
  cbn [map] in Hm. injection Hm as Hf Hm. destruct (IH fs (q + 1) Hm) as (I1 & I2).
  cbn [auxs sizes fold_right]. fold (sizes fs). rewrite zlen_app, (zlen_entry_bytes cd nl (be 8 q) ns (be_length 8 q)), !zlen_cons.
  pose proof (zlen_flatn_ge nl ns Hnl O). pose proof (zlen_nonneg ns). lia.
Qed.

Lemma frame_data_zlen mem t : Forall (fun f => 0 <= f_size f) (t_frames t) ->
  map zlen (frame_data mem t) = map f_size (t_frames t).
Proof.
  unfold frame_data. generalize (t_dts t) (t_base t). induction (t_frames t) as [|f fs IH]; intros d a F; [reflexivity|].
  apply Forall_cons_iff in F. destruct F as (F0 & F). cbn [placed map]. rewrite IH by auto. f_equal. now apply zlen_bytes.
Qed.

Lemma frame_data_bytes mem t : (forall a, is_byte (mem a)) -> Forall (Forall is_byte) (frame_data mem t).
Proof.
  intro M. unfold frame_data. rewrite Forall_map. apply Forall_forall. intros [[f d] a] _. unfold bytes.
  rewrite Forall_map. apply Forall_forall. intros. apply M.
Qed.

Lemma last_nals nl fs nss : map f_size fs = map (fun ns => zlen (flatn nl ns)) nss -> fs <> [] -> ends_with_data fs ->
  last nss [] <> [].
Proof.
  intros Hm N Ed. destruct (exists_last N) as (fs' & f & ->). unfold ends_with_data in Ed. rewrite rev_unit in Ed.
  rewrite map_app in Hm. cbn [map] in Hm.
  assert (Nn : nss <> []) by (intros ->; cbn in Hm; symmetry in Hm; now apply app_cons_not_nil in Hm).
  destruct (exists_last Nn) as (nss' & ns & ->). rewrite map_app in Hm. cbn [map] in Hm. apply app_inj_tail in Hm.
  destruct Hm as (_ & Hm). rewrite last_last. intros ->. change (zlen (flatn nl [])) with 0 in Hm. lia.
Qed.

Lemma default_size_bound szs : Forall is_byte szs -> 0 <= default_size szs < 256.
Proof.
  intro F. unfold default_size. destruct szs as [|z l]; [lia|]. apply Forall_cons_iff in F. destruct F as (F & _).
  destruct (forallb _ l); [exact F|lia].
Qed.

(* ------------------------------------------------------------------ *)
(* The file                                                             *)

Lemma zlen_cenc_boxes def count0 szs off flags count aux :
  zlen (flat (cenc_boxes def count0 szs off flags count aux)) =
  17 + (if def =? 0 then zlen szs else 0) + 20 + 16 + zlen aux.
Proof.
  unfold cenc_boxes. rewrite !flat_cons. change (flat []) with (@nil Z). rewrite !zlen_app, !zlen_bx by reflexivity.
  unfold saiz_body, saio_body, senc_body. rewrite !zlen_app, !zlen_be. change (zlen [def]) with 1.
  change (zlen (@nil Z)) with 0. destruct (def =? 0); change (zlen (@nil Z)) with 0; lia.
Qed.

Lemma moof_ge s x t : s_tracks s = [t] -> 0 <= x_size x -> x_size x <= moof_of s 0 x.
Proof.
  intros Et X. unfold moof_of, moof_size. rewrite Et.
  assert (A : forall l, 0 <= zsum (map (runs_of (frames_of s)) l)).
  { induction l as [|i l IH]; [cbn; lia|]. cbn [map]. unfold zsum in *. cbn [fold_right].
    assert (0 <= runs_of (frames_of s) i) by (unfold runs_of; apply sws_bound). lia. }
  specialize (A (seq 0 (length [t]))). cbn [fold_right]. change (zlen [t]) with 1. cbn [Z.ltb Z.compare].
  assert (0 <= zlen (t_frames t) * trun_size (t_type t)).
  { pose proof (zlen_nonneg (t_frames t)). apply Z.mul_nonneg_nonneg; [auto|]. destruct (t_type t); cbn; lia. }
  change (0 <? 0) with false. cbv iota. lia.
Qed.

Lemma good_size_single s t : s_tracks s = [t] -> good_size s ->
  4 * sizes (t_frames t) + 200 * zlen (t_frames t) + zlen (s_meta s) + 400 < 2 ^ 30.
Proof. intros Et. unfold good_size. rewrite Et. cbn [fold_right]. lia. Qed.

(* The file with the header that announces the entries and what is encrypted. *)
Lemma video_file E cd nl mem s t nss q :
  1 <= nl <= 4 -> s_tracks s = [t] -> good_track t -> good_size s ->
  frame_data mem t = map (flatn nl) nss ->
  Forall (fun ns => Forall (ok_nal nl) ns /\ zlen ns < 65536) nss -> fits_all cd nl nss ->
  exists h, video_header s (auxs cd nl q nss) (aux_sizes nss) = Ok h /\
    let file := h ++ encs E cd nl q nss in
    demux file = Some [(1, shows (t_type t) (t_dts t) (t_frames t) (enc_list E cd nl q nss))] /\
    clear_demux by_senc E file = Some [(1, expected mem t)] /\
    entries_of by_senc file = Some [ents_of cd nl q nss] /\
    (Forall (fun ns => zlen ns <= 40) nss ->
       clear_demux by_saiz E file = Some [(1, expected mem t)] /\
       entries_of by_saiz file = Some [ents_of cd nl q nss]).
Proof.
  intros Hnl Et Gt Gs Hd Ok_ Fi. pose proof (good_size_single s t Et Gs) as B.
  assert (NN : Forall (fun f => 0 <= f_size f) (t_frames t)).
  { destruct Gt as (G & _). eapply Forall_impl; [|exact G]. intros f ((H & _) & _). exact H. }
  pose proof (frame_data_zlen mem t NN) as Hz. rewrite Hd, map_map in Hz. symmetry in Hz.
  destruct (auxs_bound cd nl nss ltac:(lia) Ok_ (t_frames t) q Hz) as (Ba & Bn).
  pose proof (sizes_nonneg (t_frames t) (proj1 Gt)) as S0. pose proof (zlen_nonneg (s_meta s)) as M0.
  pose proof (zlen_nonneg (t_frames t)) as F0.
  set (aux := auxs cd nl q nss) in *. set (szs := aux_sizes nss).
  assert (Zs : zlen szs = zlen (t_frames t)) by (unfold szs, aux_sizes, zlen in *; rewrite map_length; exact Bn).
  assert (Bs : Forall is_byte szs).
  { unfold szs, aux_sizes. rewrite Forall_map. apply Forall_forall. intros ns _. apply Z.mod_pos_bound. lia. }
  set (def := default_size szs). pose proof (default_size_bound szs Bs) as Bd. fold def in Bd.
  set (x := video_ext (zlen (concat (map t_frames (s_tracks s)))) aux szs).
  assert (Xs : x_size x = 17 + (if def =? 0 then zlen szs else 0) + 20 + 16 + zlen aux) by reflexivity.
  assert (Bx : 0 <= x_size x < 2 ^ 30 /\ x_size x <= 53 + 11 * zlen (t_frames t) + 3 * sizes (t_frames t)).
  { rewrite Xs. clear - Ba Zs F0 S0 M0 B. destruct (def =? 0); lia. }
  destruct Bx as (Bx & Bx').
  pose proof (moof_bound s 0 x (proj1 Bx)) as MB. pose proof (moof_ge s x t Et (proj1 Bx)) as MG.
  rewrite Et in MB. cbn [fold_right] in MB. change (zlen [t]) with 1 in MB.
  set (M := moof_of s 0 x) in *.
  set (n := zlen (concat (map t_frames (s_tracks s)))) in *.
  assert (En : n = zlen (t_frames t)) by (unfold n; rewrite Et; cbn [map concat]; now rewrite app_nil_r).
  set (xb := cenc_boxes def (zlen szs) szs (M - zlen aux) 2 n aux).
  destruct (cenc_boxes_ok def (zlen szs) szs (M - zlen aux) 2 n aux) as (Xk & Xf); [lia|lia|]. fold xb in Xk, Xf.
  assert (Xw : x_write x M = flat xb).
  { unfold xb, cenc_boxes. rewrite !flat_cons. change (flat []) with (@nil Z). rewrite app_nil_r.
    rewrite <- saiz_bx, <- saio_bx, <- senc_bx. reflexivity. }
  assert (Xz : zlen (flat xb) = x_size x) by (unfold xb; rewrite zlen_cenc_boxes, Xs; reflexivity).
  destruct (enc_file s t x xb) as (h & tb & H1 & H2 & Nm & (front & Hfr & Zfr) & Fl); auto; try lia.
  exists h. split.
  { unfold video_header. fold n. fold x. rewrite H1. reflexivity. }
  intro file.
  assert (Hl : map zlen (enc_list E cd nl q nss) = map f_size (t_frames t)).
  { rewrite enc_list_zlen, map_map by auto. symmetry. exact Hz. }
  assert (Ef : file = h ++ concat (enc_list E cd nl q nss)) by (unfold file; now rewrite encs_concat).
  assert (Sn : by_senc file (pre_size s) tb = Some (ents_of cd nl q nss)).
  { rewrite (by_senc_ok file (pre_size s) tb 2 n aux xb); [|apply Nm; discriminate|reflexivity|lia|lia].
    change (Z.testbit 2 1) with true. replace (Z.to_nat n) with (length nss).
    - unfold aux. apply entries_back; auto.
    - unfold zlen in Bn, En. lia. }
  assert (Dc : decrypt_all E (ents_of cd nl q nss) (shows (t_type t) (t_dts t) (t_frames t) (enc_list E cd nl q nss)) = Some (expected mem t)).
  { rewrite expected_shows, Hd. apply decrypt_list; auto.
    - eapply Forall_impl; [|exact Ok_]. intros ns (F & _). eapply Forall_impl; [|exact F]. intros a (_ & Q). lia.
    - unfold zlen in Bn. lia. }
  assert (Core : forall info, info file (pre_size s) tb = Some (ents_of cd nl q nss) ->
    clear_demux info E file = Some [(1, expected mem t)] /\ entries_of info file = Some [ents_of cd nl q nss]).
  { intros info Hi. destruct (Fl _ info E Hl) as (_ & F2 & F3). cbv zeta in F2, F3. rewrite <- Ef in F2, F3.
    rewrite Hi in F2, F3. rewrite Dc in F3. auto. }
  split; [destruct (Fl _ by_senc E Hl) as (F1 & _); cbv zeta in F1; rewrite <- Ef in F1; exact F1|].
  destruct (Core by_senc Sn) as (C1 & C2). split; [exact C1|]. split; [exact C2|]. intro F40.
  apply Core.
  assert (Off : 0 <= M - zlen aux < 2 ^ 32).
  { assert (zlen aux <= x_size x) by (rewrite Xs; clear - Zs F0; destruct (def =? 0); lia).
    clear - H MG MB Bx Bx' B S0 F0 M0 Ba. lia. }
  rewrite (by_saiz_ok file (pre_size s) tb def szs (M - zlen aux) xb); auto; try lia.
  2:{ intros D. apply default_size_repeat. exact D. }
  assert (Es : szs = map (fun ns => 10 + 6 * zlen ns) nss).
  { unfold szs, aux_sizes. apply map_ext_in. intros ns I. rewrite Forall_forall in F40. specialize (F40 ns I).
    pose proof (zlen_nonneg ns). apply Z.mod_small. lia. }
  rewrite Es. clear Es.
  set (X := flat [(SAIZ, saiz_body def (zlen szs) szs); (SAIO, saio_body (M - zlen aux))] ++
            atom_header (8 + zlen (senc_body 2 n aux)) SENC ++ be 4 2 ++ be 4 n).
  assert (Fx : flat xb = X ++ aux).
  { unfold xb, cenc_boxes, X. rewrite !flat_cons. change (flat []) with (@nil Z). rewrite !app_nil_r.
    unfold bx at 3. unfold senc_body at 2. rewrite <- !app_assoc. reflexivity. }
  replace (pre_size s + (M - zlen aux)) with (zlen (front ++ X)).
  2:{ rewrite Fx, zlen_app in Zfr. rewrite zlen_app. clear - Zfr. lia. }
  assert (Ef2 : file = (front ++ X) ++ aux ++ (atom_header (sizes (t_frames t) + 8) MDAT ++ encs E cd nl q nss)).
  { unfold file. rewrite Hfr, Fx, <- !app_assoc. reflexivity. }
  rewrite Ef2. unfold aux. apply cut_back; auto.
Qed.

(* The same, whatever is in the entries. *)
Lemma video_file_any E cd nl mem s t nss q :
  1 <= nl <= 4 -> s_tracks s = [t] -> good_track t -> good_size s ->
  frame_data mem t = map (flatn nl) nss ->
  Forall (fun ns => Forall (ok_nal nl) ns /\ zlen ns < 65536) nss ->
  exists h, video_header s (auxs cd nl q nss) (aux_sizes nss) = Ok h /\
    let file := h ++ encs E cd nl q nss in
    clear_demux by_senc E file =
      match read_entries true (length nss) (auxs cd nl q nss) with
      | Some es =>
          match decrypt_all E es (shows (t_type t) (t_dts t) (t_frames t) (enc_list E cd nl q nss)) with
          | Some r => Some [(1, r)]
          | None => None
          end
      | None => None
      end.
Proof.
  intros Hnl Et Gt Gs Hd Ok_. pose proof (good_size_single s t Et Gs) as B.
  assert (NN : Forall (fun f => 0 <= f_size f) (t_frames t)).
  { destruct Gt as (G & _). eapply Forall_impl; [|exact G]. intros f ((H & _) & _). exact H. }
  pose proof (frame_data_zlen mem t NN) as Hz. rewrite Hd, map_map in Hz. symmetry in Hz.
  destruct (auxs_bound cd nl nss ltac:(lia) Ok_ (t_frames t) q Hz) as (Ba & Bn).
  pose proof (sizes_nonneg (t_frames t) (proj1 Gt)) as S0. pose proof (zlen_nonneg (s_meta s)) as M0.
  pose proof (zlen_nonneg (t_frames t)) as F0.
  set (aux := auxs cd nl q nss) in *. set (szs := aux_sizes nss).
  assert (Zs : zlen szs = zlen (t_frames t)) by (unfold szs, aux_sizes, zlen in *; rewrite map_length; exact Bn).
  assert (Bs : Forall is_byte szs).
  { unfold szs, aux_sizes. rewrite Forall_map. apply Forall_forall. intros ns _. apply Z.mod_pos_bound. lia. }
  set (def := default_size szs). pose proof (default_size_bound szs Bs) as Bd. fold def in Bd.
  set (x := video_ext (zlen (concat (map t_frames (s_tracks s)))) aux szs).
  assert (Xs : x_size x = 17 + (if def =? 0 then zlen szs else 0) + 20 + 16 + zlen aux) by reflexivity.
  assert (Bx : 0 <= x_size x < 2 ^ 30 /\ x_size x <= 53 + 11 * zlen (t_frames t) + 3 * sizes (t_frames t)).
  { rewrite Xs. clear - Ba Zs F0 S0 M0 B. destruct (def =? 0); lia. }
  destruct Bx as (Bx & Bx').
  pose proof (moof_bound s 0 x (proj1 Bx)) as MB. pose proof (moof_ge s x t Et (proj1 Bx)) as MG.
  rewrite Et in MB. cbn [fold_right] in MB. change (zlen [t]) with 1 in MB.
  set (M := moof_of s 0 x) in *.
  set (n := zlen (concat (map t_frames (s_tracks s)))) in *.
  assert (En : n = zlen (t_frames t)) by (unfold n; rewrite Et; cbn [map concat]; now rewrite app_nil_r).
  set (xb := cenc_boxes def (zlen szs) szs (M - zlen aux) 2 n aux).
  destruct (cenc_boxes_ok def (zlen szs) szs (M - zlen aux) 2 n aux) as (Xk & Xf); [lia|lia|]. fold xb in Xk, Xf.
  assert (Xw : x_write x M = flat xb).
  { unfold xb, cenc_boxes. rewrite !flat_cons. change (flat []) with (@nil Z). rewrite app_nil_r.
    rewrite <- saiz_bx, <- saio_bx, <- senc_bx. reflexivity. }
  assert (Xz : zlen (flat xb) = x_size x) by (unfold xb; rewrite zlen_cenc_boxes, Xs; reflexivity).
  destruct (enc_file s t x xb) as (h & tb & H1 & H2 & Nm & (front & Hfr & Zfr) & Fl); auto; try lia.
  exists h. split.
  { unfold video_header. fold n. fold x. rewrite H1. reflexivity. }
  intro file.
  assert (Hl : map zlen (enc_list E cd nl q nss) = map f_size (t_frames t)).
  { rewrite enc_list_zlen, map_map by auto. symmetry. exact Hz. }
  assert (Ef : file = h ++ concat (enc_list E cd nl q nss)) by (unfold file; now rewrite encs_concat).
  destruct (Fl _ by_senc E Hl) as (_ & _ & F3). cbv zeta in F3. rewrite <- Ef in F3. rewrite F3.
  rewrite (by_senc_ok file (pre_size s) tb 2 n aux xb); [|apply Nm; discriminate|reflexivity|lia|lia].
  change (Z.testbit 2 1) with true. replace (Z.to_nat n) with (length nss) by (unfold zlen in Bn, En; lia). reflexivity.
Qed.
