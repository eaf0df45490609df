From Coq Require Import ZArith List Bool Lia ZifyBool.
From Verif Require Import Lists Bytes Fmp4Model Fmp4Spec Fmp4Proofs Fmp4Proofs2 Fmp4Proofs3 Fmp4Proofs4 Fmp4Proofs5.
From Verif Require Import CencModel CencSpec CencProofs CencProofs3 CencProofs4 CencProofs5.
Import ListNotations.
Open Scope Z_scope.

(* ------------------------------------------------------------------ *)
(* Audio: what is written                                               *)

Fixpoint ctr_list (E : list Z -> list Z) (q : Z) (ds : list (list Z)) : list (list Z) :=
  match ds with [] => [] | d :: ds => ctr E (be 8 q) 0 d :: ctr_list E (q + 1) ds end.

Section audio.
Variables (E : list Z -> list Z) (cap : Z).
Hypotheses (HE : block_cipher E) (Hcap : 16 <= cap).

Lemma audio_empties pend : forall y0 fs q a w fuel src,
  y0 <= 0 -> ok_wb cap w -> fs <> [] -> src <> [] ->
  exists y0' a' w', y0' <= 0 /\ ok_wb cap w' /\ stream w' = stream w /\
    audio_rounds E cap (pend + fuel) (Ast y0 (repeat 0 pend ++ fs) (be 8 q) a w) src =
    audio_rounds E cap fuel (Ast y0' fs (be 8 (q + Z.of_nat pend)) a' w') src.
Proof.
  induction pend as [|pend IH]; intros y0 fs q a w fuel src Hy O Nf Ns.
  - exists y0, a, w. rewrite Z.add_0_r. auto.
  - destruct src as [|b src]; [congruence|]. cbn [repeat app plus audio_rounds y_frame y_frames y_iv y_wb].
    destruct (Z.leb_spec y0 0) as [_|C]; [|lia]. cbn [bind y_frame y_frames y_iv y_wb y_aes].
    replace (Z.to_nat (Z.min (zlen (b :: src)) 0)) with 0%nat by (pose proof (zlen_nonneg (b :: src)); lia).
    cbn [firstn skipn].
    destruct (write_encrypted_ok E cap (be 8 q) HE (be_length 8 q) Hcap 1 [] w (set_iv (be 8 q)) 0) as (w' & st & W & S & O' & _); auto.
    { apply at_set_iv. }
    rewrite W. cbn [bind]. change (0 - Z.of_nat 0) with 0. change (0 >? 0) with false. cbv iota. rewrite incr_be.
    destruct (repeat 0 pend ++ fs) as [|z zs] eqn:Er; [destruct pend; cbn in Er; congruence|]. rewrite <- Er.
    destruct (IH 0 fs (q + 1) st w' fuel (b :: src)) as (y1 & a1 & w1 & I1 & I2 & I3 & I4); auto; [lia|].
    exists y1, a1, w1. split; [exact I1|]. split; [exact I2|]. split; [rewrite I3, S; apply app_nil_r|].
    rewrite I4. do 3 f_equal. lia.
Qed.

Lemma audio_frame y0 d fs q a w fuel : y0 <= 0 -> ok_wb cap w -> d <> [] ->
  exists a' w', ok_wb cap w' /\ stream w' = stream w ++ ctr E (be 8 q) 0 d /\ (fs = [] -> w_out w' = stream w') /\
    audio_rounds E cap (S fuel) (Ast y0 (zlen d :: fs) (be 8 q) a w) d =
    Ok (Ast 0 fs (be 8 (q + 1)) a' w').
Proof.
  intros Hy O Nd. destruct d as [|b d0]; [congruence|]. set (d := b :: d0) in *.
  cbn [audio_rounds y_frame y_frames y_iv y_wb]. unfold d at 1. cbv iota.
  destruct (Z.leb_spec y0 0) as [_|C]; [|lia]. cbn [bind y_frame y_frames y_iv y_wb y_aes].
  rewrite Z.min_id. replace (Z.to_nat (zlen d)) with (length d) by (unfold zlen; lia). rewrite firstn_all, skipn_all.
  destruct (write_encrypted_ok E cap (be 8 q) HE (be_length 8 q) Hcap (S (length d)) d w (set_iv (be 8 q)) 0) as (w' & st & W & S & O' & _); auto.
  { apply at_set_iv. }
  rewrite W. cbn [bind]. replace (zlen d - Z.of_nat (length d)) with 0 by (unfold zlen; lia).
  change (0 >? 0) with false. cbv iota. rewrite incr_be. destruct fs as [|f fs].
  - destruct (flush_ok cap false w' ltac:(lia)) as (F1 & F2). exists st, (wb_flush cap false w').
    split; [exact F1|]. split; [now rewrite F2|]. split; [intros _; unfold stream, wb_flush; cbn [w_out w_buf]; now rewrite app_nil_r|]. destruct fuel; reflexivity.
  - exists st, w'. split; [exact O'|]. split; [exact S|]. split; [discriminate|]. destruct fuel; reflexivity.
Qed.

Lemma audio_writes_ok ds : last ds [] <> [] -> forall pend y0 q a w,
  y0 <= 0 -> ok_wb cap w ->
  exists y', audio_writes E cap (Ast y0 (repeat 0 pend ++ map zlen ds) (be 8 q) a w) ds = Ok y' /\
    w_out (y_wb y') = stream w ++ concat (ctr_list E (q + Z.of_nat pend) ds).
Proof.
  induction ds as [|d ds IH]; intros Hl pend y0 q a w Hy O; [cbn in Hl; congruence|].
  cbn [map audio_writes ctr_list concat]. destruct d as [|b d0] eqn:Ed.
  - assert (Hl' : last ds [] <> []) by (destruct ds; [cbn in Hl; congruence|exact Hl]).
    replace (audio_rounds E cap _ _ []) with (Ok (Ast y0 (repeat 0 pend ++ zlen (@nil Z) :: map zlen ds) (be 8 q) a w)) by reflexivity.
    cbn [bind]. change (zlen (@nil Z)) with 0.
    replace (repeat 0 pend ++ 0 :: map zlen ds) with (repeat 0 (S pend) ++ map zlen ds).
    2:{ change (repeat 0 (S pend)) with (0 :: repeat 0 pend). rewrite repeat_cons, <- app_assoc. reflexivity. }
    destruct (IH Hl' (S pend) y0 q a w Hy O) as (y' & I1 & I2). exists y'. split; [exact I1|]. rewrite I2.
    cbn [ctr app]. do 3 f_equal. lia.
  - rewrite <- Ed in *. assert (Nd : d <> []) by (rewrite Ed; discriminate).
    cbn [y_frames]. rewrite app_length, repeat_length. cbn [length]. rewrite map_length.
    replace (S (length d + (pend + S (length ds)))) with (pend + S (S (length d + length ds)))%nat by lia.
    destruct (audio_empties pend y0 (zlen d :: map zlen ds) q a w (S (S (length d + length ds))) d Hy O) as (y1 & a1 & w1 & A1 & A2 & A3 & A4); [discriminate|exact Nd|].
    rewrite A4. clear A4.
    destruct (audio_frame y1 d (map zlen ds) (q + Z.of_nat pend) a1 w1 (S (length d + length ds)) A1 A2 Nd) as (a2 & w2 & B1 & B2 & B3 & B4).
    rewrite B4. cbn [bind]. destruct ds as [|d' ds'] eqn:Eds.
    + eexists. split; [reflexivity|]. cbn [y_wb]. rewrite B3, B2, A3 by reflexivity. cbn [ctr_list concat]. now rewrite app_nil_r.
    + rewrite <- Eds in *. assert (Hl' : last ds [] <> []) by (rewrite Eds in *; exact Hl).
      destruct (IH Hl' 0%nat 0 (q + Z.of_nat pend + 1) a2 w2) as (y' & I1 & I2); [lia|exact B1|].
      cbn [repeat app] in I1. exists y'. split; [exact I1|]. rewrite I2, B2, A3, <- app_assoc. do 4 f_equal. lia.
Qed.

End audio.

Lemma ctr_list_zlen E ds : forall q, map zlen (ctr_list E q ds) = map zlen ds.
Proof. induction ds as [|d ds IH]; intro q; [reflexivity|]. cbn [ctr_list map]. now rewrite IH, zlen_ctr. Qed.

(* ------------------------------------------------------------------ *)
(* The entries                                                          *)

Fixpoint aents (q : Z) (n : nat) : list entry :=
  match n with O => [] | S n => (be 8 q, None) :: aents (q + 1) n end.

Lemma zlen_audio_aux n : forall q, zlen (audio_aux n (be 8 q)) = 8 * Z.of_nat n.
Proof.
  induction n as [|n IH]; intro q; [reflexivity|]. cbn [audio_aux]. rewrite incr_be, zlen_app, zlen_be, IH. lia.
Qed.

Lemma aentry_back iv r : length iv = 8%nat -> read_entry false (iv ++ r) = Some ((iv, None), r).
Proof.
  intro L. assert (Zi : zlen iv = 8) by (unfold zlen; rewrite L; reflexivity). unfold read_entry.
  rewrite zlen_app, Zi. pose proof (zlen_nonneg r). destruct (Z.leb_spec 8 (8 + zlen r)) as [_|C]; [|lia].
  rewrite slice0 by auto. rewrite skipn_all_zlen by auto. reflexivity.
Qed.

Lemma aentries_back n : forall q, read_entries false n (audio_aux n (be 8 q)) = Some (aents q n).
Proof.
  induction n as [|n IH]; intro q; [reflexivity|]. cbn [audio_aux read_entries aents]. rewrite incr_be.
  rewrite aentry_back by apply be_length. now rewrite IH.
Qed.

Lemma acut_back n : forall q front back,
  cut_entries (front ++ audio_aux n (be 8 q) ++ back) (zlen front) (repeat 8 n) = Some (aents q n).
Proof.
  induction n as [|n IH]; intros q front back; [reflexivity|].
  cbn [repeat cut_entries audio_aux aents]. rewrite incr_be, <- app_assoc.
  rewrite (slice_skip front (zlen front) (zlen front)) by (auto; lia). rewrite Z.sub_diag, slice0 by apply zlen_be.
  change (8 <? 8) with false. rewrite <- (app_nil_r (be 8 q)) at 1. rewrite aentry_back by apply be_length.
  specialize (IH (q + 1) (front ++ be 8 q) back). rewrite zlen_app, zlen_be, <- app_assoc in IH.
  change (Z.of_nat 8) with 8 in IH. now rewrite IH.
Qed.

Lemma adecrypt E k ds : forall q d fs, length fs = length ds ->
  decrypt_all E (aents q (length ds)) (shows k d fs (ctr_list E q ds)) = Some (shows k d fs ds).
Proof.
  induction ds as [|x ds IH]; intros q d [|f fs] Hl; try discriminate; [reflexivity|].
  injection Hl as Hl. cbn [length aents shows ctr_list]. specialize (IH (q + 1) (d + f_dur f) fs Hl).
  destruct k; cbn [decrypt_all w_data w_pts w_dur w_sync]; unfold decrypt; cbn [fst snd]; rewrite ctr_ctr, IH; reflexivity.
Qed.

(* ------------------------------------------------------------------ *)
(* The file                                                             *)

Lemma audio_file E mem s t q :
  s_tracks s = [t] -> good_track t -> good_size s ->
  exists h, build_header s 0 (audio_ext (zlen (t_frames t)) (be 8 q)) false = Ok (h, zlen h + sizes (t_frames t)) /\
    let file := h ++ concat (ctr_list E q (frame_data mem t)) in
    zlen file = zlen h + sizes (t_frames t) /\
    demux file = Some [(1, shows (t_type t) (t_dts t) (t_frames t) (ctr_list E q (frame_data mem t)))] /\
    forall info, info = by_senc \/ info = by_saiz ->
      clear_demux info E file = Some [(1, expected mem t)] /\
      entries_of info file = Some [aents q (length (t_frames t))].
Proof.
  intros Et Gt Gs. pose proof (good_size_single s t Et Gs) as B.
  assert (NN : Forall (fun f => 0 <= f_size f) (t_frames t)).
  { destruct Gt as (G & _). eapply Forall_impl; [|exact G]. intros f ((H & _) & _). exact H. }
  pose proof (frame_data_zlen mem t NN) as Hz.
  assert (Hn : length (frame_data mem t) = length (t_frames t)) by (apply (f_equal (@length Z)) in Hz; now rewrite !map_length in Hz).
  pose proof (sizes_nonneg (t_frames t) (proj1 Gt)) as S0. pose proof (zlen_nonneg (s_meta s)) as M0.
  pose proof (zlen_nonneg (t_frames t)) as F0. set (n := zlen (t_frames t)) in *.
  assert (Nn : Z.to_nat n = length (t_frames t)) by (unfold n, zlen; lia).
  set (x := audio_ext n (be 8 q)). set (aux := audio_aux (Z.to_nat n) (be 8 q)).
  assert (Za : zlen aux = 8 * n) by (unfold aux; rewrite zlen_audio_aux; lia).
  assert (Xs : x_size x = 17 + 20 + 16 + 8 * n) by reflexivity.
  assert (Bx : 0 <= x_size x < 2 ^ 30) by lia.
  pose proof (moof_bound s 0 x (proj1 Bx)) as MB. pose proof (moof_ge s x t Et (proj1 Bx)) as MG.
  rewrite Et in MB. cbn [fold_right] in MB. change (zlen [t]) with 1 in MB. fold n in MB.
  set (M := moof_of s 0 x) in *. set (szs := repeat 8 (Z.to_nat n)).
  assert (Zs : zlen szs = n) by (unfold szs, zlen at 1; rewrite repeat_length; lia).
  set (xb := cenc_boxes 8 (zlen szs) szs (M - 8 * n) 0 n aux).
  destruct (cenc_boxes_ok 8 (zlen szs) szs (M - 8 * n) 0 n aux) as (Xk & Xf); [lia|lia|]. fold xb in Xk, Xf.
  assert (Xw : x_write x M = flat xb).
  { unfold xb, cenc_boxes. rewrite !flat_cons. change (flat []) with (@nil Z). rewrite app_nil_r.
    rewrite <- saiz_bx, <- saio_bx, <- senc_bx, Zs. reflexivity. }
  assert (Xz : zlen (flat xb) = x_size x) by (unfold xb; rewrite zlen_cenc_boxes, Xs, Za; reflexivity).
  destruct (enc_file s t x xb) as (h & tb & H1 & H2 & Nm & (front & Hfr & Zfr) & Fl); auto; try lia.
  exists h. split; [exact H1|]. intro file.
  assert (Hl : map zlen (ctr_list E q (frame_data mem t)) = map f_size (t_frames t)) by now rewrite ctr_list_zlen.
  split.
  { unfold file. rewrite zlen_app. f_equal. clear - Hl. generalize dependent (ctr_list E q (frame_data mem t)).
    induction (t_frames t) as [|f fs IH]; intros [|d ds] Hl; try discriminate; [reflexivity|].
    injection Hl as Hd Hl. cbn [concat sizes fold_right]. fold (sizes fs). rewrite zlen_app, (IH ds Hl), Hd. reflexivity. }
  split; [apply (Fl _ by_senc E Hl)|]. intros info Hi.
  assert (Hin : info file (pre_size s) tb = Some (aents q (length (t_frames t)))).
  { destruct Hi as [-> | ->].
    - rewrite (by_senc_ok file (pre_size s) tb 0 n aux xb); [|apply Nm; discriminate|reflexivity|lia|lia].
      change (Z.testbit 0 1) with false. unfold aux. rewrite aentries_back, Nn. reflexivity.
    - rewrite (by_saiz_ok file (pre_size s) tb 8 szs (M - 8 * n) xb); auto; try lia.
      2:{ intros _. unfold szs. now rewrite repeat_length. }
      set (X := flat [(SAIZ, saiz_body 8 (zlen szs) szs); (SAIO, saio_body (M - 8 * n))] ++
                atom_header (8 + zlen (senc_body 0 n aux)) SENC ++ be 4 0 ++ be 4 n).
      assert (Fx : flat xb = X ++ aux).
      { unfold xb, cenc_boxes, X. rewrite !flat_cons. change (flat []) with (@nil Z). rewrite !app_nil_r.
        unfold bx at 3. unfold senc_body at 2. rewrite <- !app_assoc. reflexivity. }
      replace (pre_size s + (M - 8 * n)) with (zlen (front ++ X)).
      2:{ rewrite Fx, zlen_app in Zfr. rewrite zlen_app. clear - Zfr Za. lia. }
      assert (Ef2 : file = (front ++ X) ++ aux ++ (atom_header (sizes (t_frames t) + 8) MDAT ++ concat (ctr_list E q (frame_data mem t)))).
      { unfold file. rewrite Hfr, Fx, <- !app_assoc. reflexivity. }
      rewrite Ef2. unfold aux, szs. rewrite acut_back, Nn. reflexivity. }
  destruct (Fl _ info E Hl) as (_ & F2 & F3). cbv zeta in F2, F3. fold file in F2, F3. rewrite Hin in F2, F3.
  split; [|exact F2]. rewrite F3. rewrite <- Hn. rewrite adecrypt by auto. now rewrite expected_shows.
Qed.
