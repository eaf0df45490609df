(* C90-C93: segments encrypted by the scheme "cenc".  See CencSpec.v for the player. *)

From Coq Require Import ZArith List Bool Lia.
From Verif Require Import Lists Bytes Fmp4Model Fmp4Spec CencModel CencSpec.
From Verif Require Import Fmp4Proofs Fmp4Proofs5 CencProofs3 CencProofs4 CencProofs6 CencProofs7.
Import ListNotations.
Open Scope Z_scope.

(* What is asked of a segment of video: one track; the frames are of nal units, and the
   last is not empty. *)
Definition good_video (cd : codec) (nl : Z) (mem : Z -> Z) (s : segm) (t : track) : Prop :=
  1 <= nl <= 4 /\ (forall a, is_byte (mem a)) /\ s_tracks s = [t] /\ good_track t /\
  good_size s /\ Forall (good_frame cd nl) (frame_data mem t) /\ ends_with_data (t_frames t).

Definition good_audio (s : segm) (t : track) : Prop :=
  s_tracks s = [t] /\ good_track t /\ good_size s /\ ends_with_data (t_frames t).

(* No frame has more than 40 nal units. *)
Definition few_nals (nl : Z) (mem : Z -> Z) (t : track) : Prop :=
  Forall (fun d => match nals nl d with Some ns => zlen ns <= 40 | None => False end)
    (frame_data mem t).

(* C90: a player with the key gets all frames with their bytes, times, durations and sync
   flags, from what the senc box says; and from what saiz and saio say too if no frame has
   more than 40 nal units. *)
Theorem C90_encrypted_video_plays_partial : forall E cap cd nl enc_iv mem s t,
  block_cipher E -> 16 <= cap -> good_video cd nl mem s t ->
  exists file,
    cenc_video E cap cd nl enc_iv mem s = Ok file /\
    clear_demux by_senc E file = Some [(1, expected mem t)] /\
    (few_nals nl mem t -> clear_demux by_saiz E file = Some [(1, expected mem t)]).
Proof.
  intros E cap cd nl enc_iv mem s t HE Hc (Hnl & Hm & Et & Gt & Gs & Gf & Ed).
  destruct (video_all E cap cd nl enc_iv mem s t HE Hc Hnl Hm Et Gt Gs Gf Ed) as (file & nss & V & N & _ & S & _ & Z).
  exists file. split; [exact V|]. split; [exact S|]. intro F. apply Z. clear - N F. unfold few_nals in F.
  induction N as [|d ns ds nss H N IH]; [constructor|]. apply Forall_cons_iff in F. destruct F as (F0 & F).
  rewrite H in F0. constructor; auto.
Qed.
Print Assumptions C90_encrypted_video_plays_partial.

(* C91: what is encrypted of a frame is the data of its slices: of each nal unit of a slice
   all but the length and the first byte, and of others nothing. *)
Theorem C91_slices_are_protected : forall E cap cd nl enc_iv mem s t,
  block_cipher E -> 16 <= cap -> good_video cd nl mem s t ->
  exists file es,
    cenc_video E cap cd nl enc_iv mem s = Ok file /\
    entries_of by_senc file = Some [es] /\
    Forall2 (fun d e => exists ns, nals nl d = Some ns /\ snd e = Some (map (protect cd nl) ns))
      (frame_data mem t) es.
Proof.
  intros E cap cd nl enc_iv mem s t HE Hc (Hnl & Hm & Et & Gt & Gs & Gf & Ed).
  destruct (video_all E cap cd nl enc_iv mem s t HE Hc Hnl Hm Et Gt Gs Gf Ed) as (file & nss & V & N & _ & _ & S & _).
  exists file. eexists. split; [exact V|]. split; [exact S|]. clear - N. generalize (iv0 enc_iv t) as q.
  induction N as [|d ns ds nss H N IH]; intro q; constructor; [|apply IH]. exists ns. auto.
Qed.
Print Assumptions C91_slices_are_protected.

(* C92: of a segment of audio the announced size is the size of the body, and a player with
   the key gets all frames, by senc and by saiz and saio. *)
Theorem C92_encrypted_audio_plays : forall E cap enc_iv mem s t,
  block_cipher E -> 16 <= cap -> good_audio s t ->
  exists total file,
    cenc_audio E cap enc_iv mem s = Ok (total, file) /\ total = zlen file /\
    clear_demux by_senc E file = Some [(1, expected mem t)] /\
    clear_demux by_saiz E file = Some [(1, expected mem t)].
Proof.
  intros E cap enc_iv mem s t HE Hc (Et & Gt & Gs & Ed).
  destruct (audio_all E cap enc_iv mem s t HE Hc Et Gt Gs Ed) as (file & A & _ & I).
  exists (zlen file), file. split; [exact A|]. split; [reflexivity|]. split; apply I; auto.
Qed.
Print Assumptions C92_encrypted_audio_plays.

(* C92: all bytes of all frames of audio are encrypted. *)
Theorem C92_all_audio_is_protected : forall E cap enc_iv mem s t,
  block_cipher E -> 16 <= cap -> good_audio s t ->
  exists total file es,
    cenc_audio E cap enc_iv mem s = Ok (total, file) /\
    entries_of by_senc file = Some [es] /\ length es = length (t_frames t) /\
    Forall (fun e => snd e = None) es.
Proof.
  intros E cap enc_iv mem s t HE Hc (Et & Gt & Gs & Ed).
  destruct (audio_all E cap enc_iv mem s t HE Hc Et Gt Gs Ed) as (file & A & _ & I).
  destruct (I by_senc (or_introl eq_refl)) as (_ & S).
  exists (zlen file), file. eexists. split; [exact A|]. split; [exact S|]. clear. generalize (iv0 enc_iv t) as q.
  induction (length (t_frames t)) as [|n IH]; intro q; [split; [reflexivity|constructor]|].
  cbn [aents length]. destruct (IH (q + 1)) as (I1 & I2). split; [now rewrite I1|constructor; auto].
Qed.
Print Assumptions C92_all_audio_is_protected.

(* C93: the initialization vectors of the frames of a segment are all different. *)
Theorem C93_vectors_differ_video : forall E cap cd nl enc_iv mem s t,
  block_cipher E -> 16 <= cap -> good_video cd nl mem s t ->
  exists file es,
    cenc_video E cap cd nl enc_iv mem s = Ok file /\
    entries_of by_senc file = Some [es] /\ NoDup (map fst es).
Proof.
  intros E cap cd nl enc_iv mem s t HE Hc (Hnl & Hm & Et & Gt & Gs & Gf & Ed).
  destruct (video_all E cap cd nl enc_iv mem s t HE Hc Hnl Hm Et Gt Gs Gf Ed) as (file & nss & V & N & _ & _ & S & _).
  exists file. eexists. split; [exact V|]. split; [exact S|]. rewrite ents_ivs. apply ivs_NoDup.
  clear - N Gs Gt Et.
  pose proof (nss_length _ _ _ _ N) as L.
  unfold good_size in Gs. rewrite Et in Gs. cbn [fold_right] in Gs. rewrite L.
  pose proof (Fmp4Proofs5.sizes_nonneg (t_frames t) (proj1 Gt)). unfold zlen in Gs. lia.
Qed.
Print Assumptions C93_vectors_differ_video.

(* C93: so are those of two segments of a track one after the other if no frame is shorter
   than a sixtieth of a second. *)
Theorem C93_vectors_differ_between_audio_segments_partial : forall E cap enc_iv mem s t s' t',
  block_cipher E -> 16 <= cap -> good_audio s t -> good_audio s' t' ->
  0 < t_scale t -> t_scale t' = t_scale t -> 0 <= t_dts t ->
  t_dts t + durations (t_frames t) <= t_dts t' -> t_dts t' * 60 < 2 ^ 63 ->
  Forall (fun f => t_scale t <= 60 * f_dur f) (t_frames t) ->
  exists n file n' file' es es',
    cenc_audio E cap enc_iv mem s = Ok (n, file) /\ entries_of by_senc file = Some [es] /\
    cenc_audio E cap enc_iv mem s' = Ok (n', file') /\ entries_of by_senc file' = Some [es'] /\
    NoDup (map fst es ++ map fst es').
Proof.
  intros E cap enc_iv mem s t s' t' HE Hc (Et & Gt & Gs & Ed) (Et' & Gt' & Gs' & Ed') S0 Se D0 Dd Db Fr.
  destruct (audio_all E cap enc_iv mem s t HE Hc Et Gt Gs Ed) as (file & A & _ & I).
  destruct (audio_all E cap enc_iv mem s' t' HE Hc Et' Gt' Gs' Ed') as (file' & A' & _ & I').
  destruct (I by_senc (or_introl eq_refl)) as (_ & S). destruct (I' by_senc (or_introl eq_refl)) as (_ & S').
  exists (zlen file), file, (zlen file'), file'. eexists. eexists.
  split; [exact A|]. split; [exact S|]. split; [exact A'|]. split; [exact S'|].
  rewrite !aents_ivs. replace (length (t_frames t')) with (Z.to_nat (zlen (t_frames t'))) by (unfold zlen; lia).
  apply ivs_segments; auto; [|unfold zlen; lia].
  unfold good_size in Gs'. rewrite Et' in Gs'. cbn [fold_right] in Gs'.
  pose proof (Fmp4Proofs5.sizes_nonneg (t_frames t') (proj1 Gt')). unfold zlen in *. lia.
Qed.
Print Assumptions C93_vectors_differ_between_audio_segments_partial.

Theorem C93_vectors_differ_between_video_segments_partial : forall E cap cd nl enc_iv mem mem' s t s' t',
  block_cipher E -> 16 <= cap -> good_video cd nl mem s t -> good_video cd nl mem' s' t' ->
  0 < t_scale t -> t_scale t' = t_scale t -> 0 <= t_dts t ->
  t_dts t + durations (t_frames t) <= t_dts t' -> t_dts t' * 60 < 2 ^ 63 ->
  Forall (fun f => t_scale t <= 60 * f_dur f) (t_frames t) ->
  exists file file' es es',
    cenc_video E cap cd nl enc_iv mem s = Ok file /\ entries_of by_senc file = Some [es] /\
    cenc_video E cap cd nl enc_iv mem' s' = Ok file' /\ entries_of by_senc file' = Some [es'] /\
    NoDup (map fst es ++ map fst es').
Proof.
  intros E cap cd nl enc_iv mem mem' s t s' t' HE Hc (Hnl & Hm & Et & Gt & Gs & Gf & Ed) (_ & Hm' & Et' & Gt' & Gs' & Gf' & Ed')
    S0 Se D0 Dd Db Fr.
  destruct (video_all E cap cd nl enc_iv mem s t HE Hc Hnl Hm Et Gt Gs Gf Ed) as (file & nss & V & N & _ & _ & S & _).
  destruct (video_all E cap cd nl enc_iv mem' s' t' HE Hc Hnl Hm' Et' Gt' Gs' Gf' Ed') as (file' & nss' & V' & N' & _ & _ & S' & _).
  exists file, file'. eexists. eexists. split; [exact V|]. split; [exact S|]. split; [exact V'|]. split; [exact S'|].
  rewrite !ents_ivs.
  rewrite (nss_length _ _ _ _ N), (nss_length _ _ _ _ N').
  replace (length (t_frames t')) with (Z.to_nat (zlen (t_frames t'))) by (unfold zlen; lia).
  apply ivs_segments; auto; [|unfold zlen; lia].
  unfold good_size in Gs'. rewrite Et' in Gs'. cbn [fold_right] in Gs'.
  pose proof (Fmp4Proofs5.sizes_nonneg (t_frames t') (proj1 Gt')). unfold zlen in *. lia.
Qed.
Print Assumptions C93_vectors_differ_between_video_segments_partial.

(* ------------------------------------------------------------------ *)
(* Examples                                                             *)

Definition E0 (b : list Z) : list Z := map (fun x => (7 * x + 3) mod 256) (rev b).
Lemma E0_block : block_cipher E0.
Proof. intros b L. unfold E0. now rewrite map_length, rev_length. Qed.

Definition mem_list (l : list Z) (a : Z) : Z := nth (Z.to_nat a) l 0.
Lemma mem_list_bytes l : forallb (fun b => (0 <=? b) && (b <? 256)) l = true -> forall a, is_byte (mem_list l a).
Proof.
  intros F a. unfold mem_list. destruct (le_lt_dec (length l) (Z.to_nat a)) as [H|H].
  - rewrite nth_overflow by exact H. split; [discriminate|reflexivity].
  - rewrite forallb_forall in F. specialize (F _ (nth_In l 0 H)). apply andb_prop in F. destruct F as (F1 & F2).
    apply Z.leb_le in F1. apply Z.ltb_lt in F2. split; assumption.
Qed.

(* An access unit delimiter, then a slice; an empty frame; two slices. *)
Definition data0 : list Z :=
  [0; 2; 9; 48] ++ [0; 20; 101] ++ map Z.of_nat (seq 1 19) ++
  [0; 3; 65; 10; 11] ++ [0; 1; 1].
Definition video0 : track :=
  Track Video 90000 180000 [Fr 26 true 3000 3000; Fr 0 false 3000 0; Fr 8 false 3000 6000] 0 34.
Definition segm0 : segm := Segm 3 [video0] [].
Definition iv00 : list Z := [255; 255; 255; 255; 255; 255; 255; 0].

Lemma segm0_good : good_video Avc 2 (mem_list data0) segm0 video0.
Proof.
  split; [split; discriminate|]. split; [apply mem_list_bytes; vm_compute; reflexivity|]. split; [reflexivity|].
  split; [|split; [vm_compute; reflexivity|split; [|vm_compute; reflexivity]]].
  - split; [|split; [vm_compute; discriminate|split; [|vm_compute; split; [discriminate|reflexivity]]]];
      cbn [video0 t_frames]; repeat constructor; vm_compute; congruence.
  - match goal with |- Forall _ ?l => let v := eval vm_compute in l in change l with v end.
    constructor; [|constructor; [|constructor; [|constructor]]]; eexists;
      (split; [vm_compute; reflexivity|]); (split; [vm_compute; reflexivity|]);
      repeat constructor; vm_compute; congruence.
Qed.

Lemma few_nals0 : few_nals 2 (mem_list data0) video0.
Proof.
  unfold few_nals. match goal with |- Forall _ ?l => let v := eval vm_compute in l in change l with v end.
  repeat constructor; vm_compute; discriminate.
Qed.

Example C90_ex :
  match cenc_video E0 32 Avc 2 iv00 (mem_list data0) segm0 with
  | Ok file => (clear_demux by_senc E0 file, clear_demux by_saiz E0 file, entries_of by_saiz file)
  | Err => (None, None, None)
  end =
  let want := Some [(1,
    [Shown 183000 3000 (Some true) (firstn 26 data0); Shown 183000 3000 (Some false) [];
     Shown 192000 3000 (Some false) [0; 3; 65; 10; 11; 0; 1; 1]])] in
  (want, want,
   Some [[([255; 255; 255; 255; 255; 255; 255; 120], Some [(4, 0); (3, 19)]);
          ([255; 255; 255; 255; 255; 255; 255; 121], Some []);
          ([255; 255; 255; 255; 255; 255; 255; 122], Some [(3, 2); (3, 0)])]]).
Proof. vm_compute. reflexivity. Qed.

(* What is sent is not what was put in. *)
Example C91_ex :
  match cenc_video E0 32 Avc 2 iv00 (mem_list data0) segm0 with
  | Ok file => match demux file with Some [(_, w :: _)] => firstn 12 (w_data w) | _ => [] end
  | Err => []
  end = [0; 2; 9; 48; 0; 20; 101; 2; 1; 0; 7; 6].
Proof. vm_compute. reflexivity. Qed.

(* Two segments of audio of 48 kHz with the vectors wrapping around 2^64. *)
Definition audio0 : track :=
  Track Audio 48000 96000 [Fr 5 true 1024 0; Fr 0 true 1024 0; Fr 20 true 1024 0] 3 25.
Definition audio1 : track := Track Audio 48000 99072 [Fr 9 true 1024 0] 3 9.
Definition segm1 : segm := Segm 3 [audio0] [].
Definition segm2 : segm := Segm 4 [audio1] [].

Lemma segm1_good : good_audio segm1 audio0.
Proof.
  split; [reflexivity|]. split; [|split; vm_compute; reflexivity].
  split; [|split; [vm_compute; discriminate|vm_compute; split; [discriminate|reflexivity]]];
    cbn [audio0 t_frames]; repeat constructor; vm_compute; congruence.
Qed.
Lemma segm2_good : good_audio segm2 audio1.
Proof.
  split; [reflexivity|]. split; [|split; vm_compute; reflexivity].
  split; [|split; [vm_compute; discriminate|vm_compute; split; [discriminate|reflexivity]]];
    cbn [audio1 t_frames]; repeat constructor; vm_compute; congruence.
Qed.

Definition info_of (E : list Z -> list Z) (s : segm) :=
  match cenc_audio E 32 [255; 255; 255; 255; 255; 255; 255; 135] (mem_list data0) s with
  | Ok (total, file) =>
      Some (total - zlen file, clear_demux by_senc E file, clear_demux by_saiz E file, entries_of by_senc file)
  | Err => None
  end.

Example C92_ex : info_of E0 segm1 =
  let want := Some [(1,
    [Shown 96000 1024 None [48; 0; 20; 101; 1]; Shown 97024 1024 None [];
     Shown 98048 1024 None (map Z.of_nat (seq 2 18) ++ [0; 3])])] in
  Some (0, want, want,
    Some [[([255; 255; 255; 255; 255; 255; 255; 255], None); ([0; 0; 0; 0; 0; 0; 0; 0], None);
           ([0; 0; 0; 0; 0; 0; 0; 1], None)]]).
Proof. vm_compute. reflexivity. Qed.

Example C93_ex_hypotheses :
  t_dts audio0 + durations (t_frames audio0) = t_dts audio1 /\
  Forall (fun f => t_scale audio0 <= 60 * f_dur f) (t_frames audio0).
Proof. split; [reflexivity|]. cbn [audio0 t_frames]. repeat constructor; vm_compute; discriminate. Qed.

(* ------------------------------------------------------------------ *)
(* Where the code does not keep to it                                   *)

(* C90, a frame of 41 nal units: its auxiliary data has 256 bytes, and saiz says 0. *)
Definition data41 : list Z := concat (repeat [1; 65] 41).
Definition segm41 : segm := Segm 1 [Track Video 90000 0 [Fr 82 true 3000 0] 0 82] [].

Lemma segm41_good : good_video Avc 1 (mem_list data41) segm41 (Track Video 90000 0 [Fr 82 true 3000 0] 0 82).
Proof.
  split; [split; discriminate|]. split; [apply mem_list_bytes; vm_compute; reflexivity|]. split; [reflexivity|].
  split; [|split; [vm_compute; reflexivity|split; [|vm_compute; reflexivity]]].
  - split; [|split; [vm_compute; discriminate|split; [|vm_compute; split; [discriminate|reflexivity]]]];
      cbn [t_frames]; repeat constructor; vm_compute; congruence.
  - match goal with |- Forall _ ?l => let v := eval vm_compute in l in change l with v end.
    constructor; [|constructor]. eexists. split; [vm_compute; reflexivity|]. split; [vm_compute; reflexivity|].
    repeat constructor; vm_compute; congruence.
Qed.

Theorem C90_41_nals_by_saiz_refuted :
  exists E cap cd nl enc_iv mem s t file,
    block_cipher E /\ 16 <= cap /\ good_video cd nl mem s t /\
    cenc_video E cap cd nl enc_iv mem s = Ok file /\
    clear_demux by_senc E file = Some [(1, expected mem t)] /\
    clear_demux by_saiz E file = None.
Proof.
  destruct (cenc_video E0 32 Avc 1 iv00 (mem_list data41) segm41) as [file|] eqn:V; [|vm_compute in V; discriminate].
  exists E0, 32, Avc, 1, iv00, (mem_list data41), segm41, (Track Video 90000 0 [Fr 82 true 3000 0] 0 82), file.
  split; [exact E0_block|]. split; [discriminate|]. split; [exact segm41_good|]. split; [exact V|].
  vm_compute in V. injection V as <-. split; vm_compute; reflexivity.
Qed.
Print Assumptions C90_41_nals_by_saiz_refuted.

(* C90, a frame of one nal unit that is not of a slice, with its length at least 65536
   bytes: the number of clear bytes does not fit, and the frame cannot be decrypted. *)
Theorem C90_long_nal_refuted : forall E cap cd nl enc_iv mem s t n,
  block_cipher E -> 16 <= cap -> 1 <= nl <= 4 -> (forall a, is_byte (mem a)) ->
  s_tracks s = [t] -> good_track t -> good_size s ->
  frame_data mem t = [be (Z.to_nat nl) (zlen n) ++ n] -> Forall is_byte n -> 1 <= zlen n < 256 ^ nl ->
  slice_nal cd n = false -> 65536 <= nl + zlen n ->
  nals nl (be (Z.to_nat nl) (zlen n) ++ n) = Some [n] /\
  exists file, cenc_video E cap cd nl enc_iv mem s = Ok file /\ clear_demux by_senc E file = None.
Proof.
  intros E cap cd nl enc_iv mem s t n HE Hc Hnl Hm Et Gt Gs Hd Bn Zn Sn Ln.
  split; [now apply nals_single|]. exact (long_nal E cap cd nl enc_iv mem s t n HE Hc Hnl Hm Et Gt Gs Hd (conj Bn Zn) Sn Ln).
Qed.
Print Assumptions C90_long_nal_refuted.

(* Such a frame: 65532 bytes of filler. *)
Definition filler : list Z := 12 :: repeat 255 (Z.to_nat 65531).
Definition filler_track : track := Track Video 90000 0 [Fr 65536 true 3000 0] 0 65536.
Example C90_long_nal_ex :
  let mem := mem_of 0 (be 4 (zlen filler) ++ filler) in
  frame_data mem filler_track = [be 4 (zlen filler) ++ filler] /\ good_track filler_track /\
  good_size (Segm 1 [filler_track] []) /\ slice_nal Avc filler = false /\ 65536 <= 4 + zlen filler.
Proof.
  intro mem. assert (Zf : zlen filler = 65532).
  { unfold filler. rewrite zlen_cons. unfold zlen. rewrite repeat_length, Z2Nat.id by discriminate. reflexivity. }
  split; [|split; [|split; [vm_compute; reflexivity|split; [reflexivity|rewrite Zf; discriminate]]]].
  - unfold frame_data, filler_track. cbn [t_dts t_base t_frames placed map f_size].
    set (x := be 4 (zlen filler) ++ filler) in *.
    pose proof (bytes_mem_of 0 [] x []) as B. cbn [app] in B. rewrite app_nil_r in B. change (0 + zlen (@nil Z)) with 0 in B.
    assert (Zx : zlen x = 65536) by (unfold x; rewrite Fmp4Proofs.zlen_app, Fmp4Proofs.zlen_be, Zf; reflexivity).
    rewrite Zx in B. unfold mem. fold x. clearbody x. rewrite B. reflexivity.
  - split; [|split; [vm_compute; discriminate|split; [|vm_compute; split; [discriminate|reflexivity]]]];
      cbn [filler_track t_frames]; repeat constructor; vm_compute; congruence.
Qed.

(* C90, an empty last frame: there is no header, not even the data. *)
Definition last_empty : segm :=
  Segm 1 [Track Video 90000 0 [Fr 8 true 3000 0; Fr 0 true 3000 0] 26 8] [].
Theorem C90_empty_last_frame_refuted :
  cenc_video E0 32 Avc 2 iv00 (mem_list data0) last_empty = Ok [].
Proof. vm_compute. reflexivity. Qed.
Print Assumptions C90_empty_last_frame_refuted.

(* C92, an empty last frame: the body is shorter than announced. *)
Definition last_empty_audio : segm :=
  Segm 1 [Track Audio 90000 0 [Fr 8 true 3000 0; Fr 0 true 3000 0] 26 8] [].
Theorem C92_empty_last_frame_refuted :
  match cenc_audio E0 32 iv00 (mem_list data0) last_empty_audio with
  | Ok (total, file) => (total - zlen file, clear_demux by_senc E0 file)
  | Err => (0, None)
  end = (8, None).
Proof. vm_compute. reflexivity. Qed.
Print Assumptions C92_empty_last_frame_refuted.

(* C93, audio of 96 kHz has 93.75 frames in a second: in segments of 64 frames, the last 24
   vectors of one are those of the first 24 frames of the next. *)
Definition fast (dts : Z) : track := Track Audio 96000 dts (repeat (Fr 1 true 1024 0) 64) 0 64.
Theorem C93_vectors_of_fast_frames_refuted :
  exists E cap enc_iv mem s t s' t' n file n' file' es es',
    block_cipher E /\ 16 <= cap /\ good_audio s t /\ good_audio s' t' /\
    t_dts t' = t_dts t + durations (t_frames t) /\
    cenc_audio E cap enc_iv mem s = Ok (n, file) /\ entries_of by_senc file = Some [es] /\
    cenc_audio E cap enc_iv mem s' = Ok (n', file') /\ entries_of by_senc file' = Some [es'] /\
    skipn 40 es = firstn 24 es'.
Proof.
  assert (G : forall d, 0 <= d < 2 ^ 63 -> good_audio (Segm 1 [fast d] []) (fast d)).
  { intros d D. split; [reflexivity|]. split; [|split; vm_compute; reflexivity].
    split; [|split; [vm_compute; discriminate|exact D]].
    cbn [fast t_frames]. apply Forall_forall. intros f I. apply repeat_spec in I. subst f. vm_compute.
    repeat split; congruence. }
  pose proof (G 0 ltac:(lia)) as G0. pose proof (G 65536 ltac:(lia)) as G1.
  exists E0, 32, iv00, (mem_list data0), (Segm 1 [fast 0] []), (fast 0), (Segm 1 [fast 65536] []), (fast 65536).
  assert (H : 16 <= 32) by discriminate.
  destruct (audio_all E0 32 iv00 (mem_list data0) (Segm 1 [fast 0] []) (fast 0) E0_block H
    (proj1 G0) (proj1 (proj2 G0)) (proj1 (proj2 (proj2 G0))) (proj2 (proj2 (proj2 G0)))) as (f0 & A0 & _ & I0).
  destruct (audio_all E0 32 iv00 (mem_list data0) (Segm 1 [fast 65536] []) (fast 65536) E0_block H
    (proj1 G1) (proj1 (proj2 G1)) (proj1 (proj2 (proj2 G1))) (proj2 (proj2 (proj2 G1)))) as (f1 & A1 & _ & I1).
  destruct (I0 by_senc (or_introl eq_refl)) as (_ & S0). destruct (I1 by_senc (or_introl eq_refl)) as (_ & S1).
  exists (zlen f0), f0, (zlen f1), f1. eexists. eexists.
  split; [exact E0_block|]. split; [exact H|]. split; [exact G0|]. split; [exact G1|]. split; [reflexivity|].
  split; [exact A0|]. split; [exact S0|]. split; [exact A1|]. split; [exact S1|]. vm_compute. reflexivity.
Qed.
Print Assumptions C93_vectors_of_fast_frames_refuted.
