From Coq Require Import ZArith List Bool Lia ZifyBool.
From Verif Require Import Lists Bytes Fmp4Model Fmp4Spec Fmp4Proofs Fmp4Proofs2 Fmp4Proofs3 Fmp4Proofs4 Fmp4Proofs5.
From Verif Require Import CencModel CencSpec CencProofs.
Import ListNotations.
Open Scope Z_scope.

(* ------------------------------------------------------------------ *)
(* One track                                                            *)

Lemma single_frames s t : s_tracks s = [t] -> frames_of s = map (pair 0%nat) (t_frames t).
Proof.
  intro E. destruct (frames_of_order s) as (F & O). rewrite E in F, O. specialize (O 0%nat t eq_refl).
  rewrite <- O. clear O. unfold of. revert F. generalize (frames_of s). induction l as [|[i f] l IH]; intro F; [reflexivity|].
  apply Forall_cons_iff in F. destruct F as (Fi & F). cbn in Fi. assert (i = 0%nat) by lia. subst i.
  cbn [filter fst Nat.eqb map snd]. now rewrite <- (IH F).
Qed.

Lemma reads_single fs : forall d pos avail, Forall (fun f => is_u32 (f_size f) /\ is_u32 (f_dur f) /\ is_u32 (f_delay f)) fs ->
  sizes fs <= avail ->
  reads (map (pair 0%nat) fs) [(pos, avail)] =
  (map (fun p => (0%nat, snd p, f_size (fst (fst p)))) (placed d pos fs), true).
Proof.
  induction fs as [|f fs IH]; intros d pos avail F Ha; [reflexivity|]. cbn [map reads nth_error].
  pose proof (sizes_nonneg fs (Forall_inv_tail F)) as S0. change (sizes (f :: fs)) with (f_size f + sizes fs) in Ha.
  destruct (Z.ltb_spec avail (f_size f)) as [C|_]; [lia|]. cbn [set_nth].
  rewrite (IH (d + f_dur f) (pos + f_size f) (avail - f_size f) (Forall_inv_tail F)) by lia.
  cbn [placed map fst snd]. reflexivity.
Qed.

Lemma writes_reuse rs : forall cnt, writes true rs cnt (0, 0) = map (fun r => (snd (fst r), snd r)) rs.
Proof.
  induction rs as [|[[i a] n] rs IH]; intro cnt; [reflexivity|]. cbn [writes].
  destruct (Nat.pred (nth i cnt 0%nat)); cbn [snd app negb Z.eqb]; rewrite IH; reflexivity.
Qed.

Lemma single_writes mem s t : s_tracks s = [t] -> good_track t ->
  exists ws, segment_writes true s = (ws, true) /\
    map (fun w => bytes mem (fst w) (snd w)) ws = frame_data mem t.
Proof.
  intros E G. unfold segment_writes. rewrite (single_frames s t E), E. cbn [map].
  destruct G as (G1 & G2 & _). rewrite (reads_single _ (t_dts t) _ _ G1 G2). eexists. split; [reflexivity|].
  rewrite writes_reuse, !map_map. unfold frame_data. apply map_ext. intros [[f d] a]. reflexivity.
Qed.

(* ------------------------------------------------------------------ *)
(* The data of the frames                                               *)

Fixpoint shows (k : mtype) (d : Z) (fs : list fr) (ds : list (list Z)) : list shown :=
  match fs, ds with
  | f :: fs, x :: ds =>
      match k with
      | Video => Shown (d + f_delay f) (f_dur f) (Some (f_key f)) x
      | Audio => Shown d (f_dur f) None x
      | Webvtt => Shown d (f_delay f) None x
      end :: shows k (d + f_dur f) fs ds
  | _, _ => []
  end.

Lemma expected_shows mem t : expected mem t = shows (t_type t) (t_dts t) (t_frames t) (frame_data mem t).
Proof.
  unfold expected, frame_data. generalize (t_dts t) (t_base t).
  induction (t_frames t) as [|f fs IH]; intros d a; [reflexivity|]. cbn [placed map shows]. rewrite <- IH. reflexivity.
Qed.

Definition mem_of (base : Z) (body : list Z) (a : Z) : Z := nth (Z.to_nat (a - base)) body 0.

Lemma bytes_mem_of base pre x post : bytes (mem_of base (pre ++ x ++ post)) (base + zlen pre) (zlen x) = x.
Proof.
  unfold bytes, mem_of, zlen. rewrite Nat2Z.id. apply (nth_ext _ _ 0 0).
  - now rewrite map_length, seq_length.
  - intros i Hi. rewrite map_length, seq_length in Hi.
    rewrite (nth_indep _ 0 (nth (Z.to_nat (base + Z.of_nat (length pre) + Z.of_nat 0 - base)) (pre ++ x ++ post) 0)) by (rewrite map_length, seq_length; lia).
    rewrite (map_nth (fun i => nth (Z.to_nat (base + Z.of_nat (length pre) + Z.of_nat i - base)) (pre ++ x ++ post) 0)).
    rewrite seq_nth by lia. rewrite Nat.add_0_l.
    replace (Z.to_nat (base + Z.of_nat (length pre) + Z.of_nat i - base)) with (length pre + i)%nat by lia.
    rewrite app_nth2 by lia. replace (length pre + i - length pre)%nat with i by lia. now rewrite app_nth1 by lia.
Qed.

Lemma frame_data_mem_of t ds : map zlen ds = map f_size (t_frames t) ->
  frame_data (mem_of (t_base t) (concat ds)) t = ds.
Proof.
  intro H. unfold frame_data. generalize (t_dts t).
  assert (G : forall fs ds pre d, map zlen ds = map f_size fs ->
    map (fun p => let '(f, _, a) := p in bytes (mem_of (t_base t) (pre ++ concat ds)) a (f_size f))
      (placed d (t_base t + zlen pre) fs) = ds).
  { clear. induction fs as [|f fs IH]; intros [|x ds] pre d H; try discriminate; [reflexivity|].
    cbn [map] in H. injection H as H1 H2. cbn [placed map concat]. rewrite <- H1. f_equal.
    - apply bytes_mem_of.
    - specialize (IH ds (pre ++ x) (d + f_dur f) H2). rewrite zlen_app, Z.add_assoc in IH.
      rewrite <- app_assoc in IH. exact IH. }
  intro d. specialize (G (t_frames t) ds [] d H). change (zlen (@nil Z)) with 0 in G. rewrite Z.add_0_r in G. exact G.
Qed.

(* ------------------------------------------------------------------ *)
(* The file                                                             *)

(* A segment of one track with its boxes xb at the end of the moof. *)
Lemma enc_file s t x xb :
  s_tracks s = [t] -> good_track t -> zlen (s_meta s) < 2 ^ 31 ->
  moof_of s 0 x + 8 + sizes (t_frames t) < 2 ^ 31 -> zlen (t_frames t) < 2 ^ 26 ->
  0 <= x_size x < 2 ^ 30 ->
  Forall ok_box xb -> Forall foreign xb -> x_write x (moof_of s 0 x) = flat xb -> zlen (flat xb) = x_size x ->
  exists h tb,
    build_header s 0 x false = Ok (h, zlen h + sizes (t_frames t)) /\
    build_header s 0 x true = Ok ([], zlen h + sizes (t_frames t)) /\
    (forall n, n <> TFHD -> n <> TFDT -> n <> TRUN -> exists bs, boxes tb = Some bs /\ map b_body (named n bs) = pick n xb) /\
    (exists front, h = front ++ flat xb ++ atom_header (sizes (t_frames t) + 8) MDAT /\
       zlen front + zlen (flat xb) = pre_size s + moof_of s 0 x) /\
    forall ds info E, map zlen ds = map f_size (t_frames t) ->
      let file := h ++ concat ds in
      demux file = Some [(1, shows (t_type t) (t_dts t) (t_frames t) ds)] /\
      entries_of info file =
        match info file (pre_size s) tb with Some es => Some [es] | None => None end /\
      clear_demux info E file =
        match info file (pre_size s) tb with
        | Some es =>
            match decrypt_all E es (shows (t_type t) (t_dts t) (t_frames t) ds) with
            | Some r => Some [(1, r)]
            | None => None
            end
        | None => None
        end.
Proof.
  intros Et Gt Hm HM Hf Hx Xk Xf Xw Xs.
  assert (G : Forall good_track (s_tracks s)) by (rewrite Et; auto).
  pose proof (frames_nonneg s G) as NN. pose proof (single_frames s t Et) as Es.
  assert (Tot : total (frames_of s) = sizes (t_frames t)).
  { rewrite (total_of_segm s G), Et. cbn [fold_right]. lia. }
  pose proof (moof_bound s 0 x ltac:(lia)) as MB.
  pose proof (sizes_nonneg (t_frames t) (proj1 Gt)) as S0.
  destruct (header_gen s 0 x xb G Hm) as (h & ys & H1 & H2 & Zh & Hfl & Zm & Ta & Tk & Tn); auto; try lia.
  { rewrite Et. auto. }
  rewrite Tot in *. set (M := moof_of s 0 x) in *. set (mf := be 4 0 ++ be 4 (s_index s)) in *.
  rewrite Et in Ta. destruct ys as [|y ys]; [contradiction|]. cbn [trafs_are] in Ta. destruct Ta as (Ty & Tys).
  destruct ys as [|? ?]; [clear Tys|contradiction].
  assert (Ty' := Ty). destruct Ty' as (tr & rs & Ey & Tt & Tb & Ar & Cr).
  change (Z.of_nat 0 + 1) with 1 in *.
  set (tb := flat (traf_boxes 1 0 (earliest t) tr xb)) in *.
  exists h, tb. split; [exact H1|]. split; [exact H2|]. split; [|split].
  - intros n N1 N2 N3. eexists. unfold tb. rewrite boxes_flat by (apply ok_traf_boxes; auto). split; [reflexivity|].
    rewrite named_pick. unfold traf_boxes. change (?a :: ?b :: tr ++ xb) with ([a; b] ++ tr ++ xb). rewrite !pick_app.
    rewrite (pick_none n tr).
    2:{ eapply Forall_impl; [|exact Tt]. cbn. intros z -> C. auto. }
    rewrite pick_none; [reflexivity|]. constructor; [cbn; auto|]. constructor; [cbn; auto|constructor].
  - (* xb at the end of the moof *)
    specialize (Hfl (repeat 0 (Z.to_nat (sizes (t_frames t))))).
    assert (Zr : zlen (repeat 0 (Z.to_nat (sizes (t_frames t)))) = sizes (t_frames t)) by (unfold zlen; rewrite repeat_length; lia).
    specialize (Hfl Zr). set (zs := repeat 0 (Z.to_nat (sizes (t_frames t)))) in *.
    exists (flat (pre_boxes s (M + 8 + sizes (t_frames t))) ++ atom_header M MOOF ++ bx MFHD mf ++
            atom_header (8 + zlen tb) TRAF ++ bx TFHD (tfhd_body 1 0) ++ bx TFDT (tfdt_body (earliest t)) ++ flat tr).
    assert (Et2 : tb = bx TFHD (tfhd_body 1 0) ++ bx TFDT (tfdt_body (earliest t)) ++ flat tr ++ flat xb).
    { unfold tb, traf_boxes. rewrite (flat_cons TFHD), (flat_cons TFDT), flat_app. reflexivity. }
    assert (Hh : h = (flat (pre_boxes s (M + 8 + sizes (t_frames t))) ++ atom_header M MOOF ++ bx MFHD mf ++
            atom_header (8 + zlen tb) TRAF ++ bx TFHD (tfhd_body 1 0) ++ bx TFDT (tfdt_body (earliest t)) ++ flat tr) ++
            flat xb ++ atom_header (sizes (t_frames t) + 8) MDAT).
    { apply (app_inv_tail zs). rewrite Hfl, flat_app, <- !app_assoc. f_equal.
      rewrite (flat_cons MOOF), (flat_cons MDAT). unfold bx at 1. rewrite Zm, <- !app_assoc. f_equal.
      rewrite (flat_cons MFHD), <- !app_assoc. f_equal. rewrite Ey, (flat_cons TRAF). unfold bx at 1. rewrite <- !app_assoc. f_equal.
      change (flat []) with (@nil Z). cbn [app]. rewrite Et2 at 1. rewrite <- !app_assoc. do 4 f_equal.
      unfold bx. rewrite Zr, app_nil_r. do 2 f_equal. lia. }
    split; [exact Hh|]. pose proof (f_equal zlen Hh) as Zq. rewrite Zh in Zq.
    rewrite (zlen_app _ (flat xb ++ _)), (zlen_app (flat xb)) in Zq.
    assert (Za : zlen (atom_header (sizes (t_frames t) + 8) MDAT) = 8) by (unfold atom_header; rewrite zlen_app, zlen_be; reflexivity).
    rewrite Za in Zq. lia.
  - intros ds info E Hd. cbv zeta. set (body := concat ds). set (file := h ++ body).
    assert (Zb : zlen body = sizes (t_frames t)).
    { unfold body, sizes. clear - Hd. revert ds Hd. induction (t_frames t) as [|f fs IH]; intros [|x ds] H; try discriminate; [reflexivity|].
      cbn [map] in H. injection H as Hz H2. cbn [concat fold_right]. rewrite zlen_app, Hz. now rewrite (IH ds H2). }
    specialize (Hfl body Zb). fold file in Hfl.
    assert (De : demux file = Some [(1, shows (t_type t) (t_dts t) (t_frames t) ds)]).
    { rewrite (demux_gen s 0 xb (frames_of s) M [y] body mf _ file Hm ltac:(lia) ltac:(lia) Hfl Zm); auto.
      - rewrite Et. cbn [number map]. change (Z.of_nat 0 + 1) with 1. do 3 f_equal.
        transitivity (expected (mem_of (t_base t) body) t).
        + apply play_expected; auto.
          * rewrite ats_length, Es. unfold of. rewrite map_length. clear. induction (t_frames t) as [|f fs IH]; [reflexivity|].
            cbn [map filter fst Nat.eqb length]. now rewrite IH.
          * destruct (frames_of_order s) as (F & O).
            assert (Np : nth_error (map (fun t => (t_base t, t_len t)) (s_tracks s)) 0 = Some (t_base t, t_len t)) by (rewrite Et; reflexivity).
            pose proof (mdat_cut (mem_of (t_base t) body) (frames_of s) (map (fun t => (t_base t, t_len t)) (s_tracks s)) h 0 NN
               ltac:(rewrite map_length; exact F) ltac:(lia) ltac:(pose proof (zlen_nonneg h); lia) 0%nat _ Np (t_dts t)) as C.
            rewrite (O 0%nat t) in C by (rewrite Et; reflexivity). cbn [fst] in C.
            replace (pre_size s + (M + 8)) with (zlen h - 0) by lia.
            replace file with (h ++ mdat (mem_of (t_base t) body) (frames_of s) (map (fun t => (t_base t, t_len t)) (s_tracks s))).
            { exact C. }
            unfold file. f_equal. rewrite Es, Et. cbn [map].
            assert (R : forall fs d pos av m, mdat m (map (pair 0%nat) fs) [(pos, av)] =
               concat (map (fun p => let '(f, _, a) := p in bytes m a (f_size f)) (placed d pos fs))).
            { clear. induction fs as [|f fs IH]; intros d pos av m; [reflexivity|]. cbn [map mdat nth set_nth placed concat].
              now rewrite (IH (d + f_dur f)). }
            rewrite (R _ (t_dts t)). fold (frame_data (mem_of (t_base t) body) t). unfold body at 1. now rewrite frame_data_mem_of.
        + rewrite expected_shows. unfold body. now rewrite frame_data_mem_of.
      - rewrite Et. cbn [trafs_are]. auto.
      - rewrite Et. reflexivity.
      - rewrite Et. constructor; [|constructor]. destruct (earliest_good t Gt). lia. }
    split; [exact De|].
    assert (Eb : boxes file = Some (locate 0 (pre_boxes s (M + 8 + sizes (t_frames t))) ++
          [(pre_size s, MOOF, flat [(MFHD, mf); y]); (pre_size s + M, MDAT, body)])).
    { rewrite Hfl, file_boxes by (auto; lia). rewrite zlen_pre.
      replace (pre_size s + 8 + zlen (flat [(MFHD, mf); y])) with (pre_size s + M) by lia. reflexivity. }
    pose proof (pre_names s (M + 8 + sizes (t_frames t))) as PN.
    assert (N1 : named MOOF (locate 0 (pre_boxes s (M + 8 + sizes (t_frames t))) ++
          [(pre_size s, MOOF, flat [(MFHD, mf); y]); (pre_size s + M, MDAT, body)]) = [(pre_size s, MOOF, flat [(MFHD, mf); y])]).
    { rewrite named_app, named_none; [reflexivity|]. eapply Forall_impl; [|exact PN]; cbn; intros z (? & ?); auto. }
    assert (N2 : named MDAT (locate 0 (pre_boxes s (M + 8 + sizes (t_frames t))) ++
          [(pre_size s, MOOF, flat [(MFHD, mf); y]); (pre_size s + M, MDAT, body)]) = [(pre_size s + M, MDAT, body)]).
    { rewrite named_app, named_none; [reflexivity|]. eapply Forall_impl; [|exact PN]; cbn; intros z (? & ?); auto. }
    assert (Bm : boxes (flat [(MFHD, mf); y]) = Some (locate 0 [(MFHD, mf); y])).
    { apply boxes_flat. constructor; [|exact Tk]. split; [reflexivity|]. cbn. lia. }
    assert (N3 : exists b, named TRAF (locate 0 [(MFHD, mf); y]) = [b] /\ b_body b = tb).
    { apply one_named. rewrite Ey. reflexivity. }
    destruct N3 as (b & Nb & Bb).
    assert (Tf : traf file (pre_size s) tb = Some (1, shows (t_type t) (t_dts t) (t_frames t) ds)).
    { unfold demux in De. rewrite Eb, N1, N2 in De. change (b_body (pre_size s, MOOF, flat [(MFHD, mf); y])) with (flat [(MFHD, mf); y]) in De.
      change (b_pos (pre_size s, MOOF, flat [(MFHD, mf); y])) with (pre_size s) in De.
      rewrite Bm, Nb in De. cbn [all] in De. rewrite Bb in De. destruct (traf file (pre_size s) tb); [|discriminate]. congruence. }
    split.
    + unfold entries_of. rewrite Eb, N1. change (b_body (pre_size s, MOOF, flat [(MFHD, mf); y])) with (flat [(MFHD, mf); y]).
      change (b_pos (pre_size s, MOOF, flat [(MFHD, mf); y])) with (pre_size s). rewrite Bm, Nb. cbn [all]. rewrite Bb.
      destruct (info file (pre_size s) tb); reflexivity.
    + unfold clear_demux. rewrite Eb, N1, N2. change (b_body (pre_size s, MOOF, flat [(MFHD, mf); y])) with (flat [(MFHD, mf); y]).
      change (b_pos (pre_size s, MOOF, flat [(MFHD, mf); y])) with (pre_size s). rewrite Bm, Nb. cbn [all]. rewrite Bb, Tf.
      destruct (info file (pre_size s) tb); [|reflexivity]. destruct (decrypt_all _ _ _); reflexivity.
Qed.
