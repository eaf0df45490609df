From Coq Require Import ZArith List Bool Lia ZifyBool.
From Verif Require Import Lists Bytes Fmp4Model Fmp4Spec Fmp4Proofs Fmp4Proofs2 Fmp4Proofs3 Fmp4Proofs4 Fmp4Proofs5.
From Verif Require Import CencModel CencSpec CencProofs CencProofs2 CencProofs3 CencProofs4 CencProofs5 CencProofs6.
Import ListNotations.
Open Scope Z_scope.

Definition iv0 (enc_iv : list Z) (t : track) : Z := u64 (unbe enc_iv + Z.quot (t_dts t * 60) (t_scale t)).

Lemma good_sizes t : good_track t -> Forall (fun f => 0 <= f_size f) (t_frames t).
Proof. intros (G & _). eapply Forall_impl; [|exact G]. intros f ((H & _) & _). exact H. Qed.

Lemma video_all E cap cd nl enc_iv mem s t :
  block_cipher E -> 16 <= cap -> 1 <= nl <= 4 -> (forall a, is_byte (mem a)) ->
  s_tracks s = [t] -> good_track t -> good_size s ->
  Forall (good_frame cd nl) (frame_data mem t) -> ends_with_data (t_frames t) ->
  exists file nss,
    cenc_video E cap cd nl enc_iv mem s = Ok file /\
    Forall2 (fun d ns => nals nl d = Some ns) (frame_data mem t) nss /\
    demux file = Some [(1, shows (t_type t) (t_dts t) (t_frames t) (enc_list E cd nl (iv0 enc_iv t) nss))] /\
    clear_demux by_senc E file = Some [(1, expected mem t)] /\
    entries_of by_senc file = Some [ents_of cd nl (iv0 enc_iv t) nss] /\
    (Forall (fun ns => zlen ns <= 40) nss ->
       clear_demux by_saiz E file = Some [(1, expected mem t)] /\
       entries_of by_saiz file = Some [ents_of cd nl (iv0 enc_iv t) nss]).
Proof.
  intros HE Hcap Hnl Hm Et Gt Gs Gf Ed.
  destruct (frames_nals cd nl (frame_data mem t) Hnl Gf (frame_data_bytes mem t Hm)) as (nss & N1 & N2 & N3 & N4).
  destruct (video_file E cd nl mem s t nss (iv0 enc_iv t) Hnl Et Gt Gs N2 N3 N4) as (h & H1 & H2). cbv zeta in H2.
  exists (h ++ encs E cd nl (iv0 enc_iv t) nss), nss. split; [|split; [exact N1|exact H2]].
  pose proof (frame_data_zlen mem t (good_sizes t Gt)) as Hz.
  unfold cenc_video. rewrite Et. destruct (t_frames t) as [|f fs] eqn:Ef.
  - rewrite N2 in Hz. destruct nss; [|discriminate]. cbn [auxs aux_sizes map] in H1. rewrite H1. cbn [encs]. now rewrite app_nil_r.
  - destruct (single_writes mem s t Et Gt) as (ws & W1 & W2). rewrite W1. cbv iota. rewrite W2, N2.
    rewrite N2, map_map in Hz. rewrite <- Hz.
    destruct (writes_ok E cap cd nl (video_header s) HE Hcap Hnl nss N3) with (pend := 0%nat)
      (v := video_init nl (first_iv enc_iv t) (map (fun x => zlen (flatn nl x)) nss)) (q := iv0 enc_iv t)
      (aux := @nil Z) (szs := @nil Z) (out := @nil Z) as (F & V1 & V2).
    + apply (last_nals nl (f :: fs)); [now symmetry|discriminate|exact Ed].
    + cbn [repeat app]. exists (Aes [] []), 0, wb_init. split; [reflexivity|]. split; [apply ok_init; lia|reflexivity].
    + rewrite V1. cbn [repeat app]. rewrite H1. cbn [bind]. destruct (V2 h) as (V3 & V4). rewrite V3, V4.
      cbn [app Z.of_nat]. rewrite Z.add_0_r. reflexivity.
Qed.

Lemma nss_length nl mem t nss : Forall2 (fun d ns => nals nl d = Some ns) (frame_data mem t) nss ->
  length nss = length (t_frames t).
Proof.
  intro N. assert (L : length (frame_data mem t) = length nss) by (induction N; cbn [length]; auto).
  rewrite <- L. unfold frame_data. rewrite map_length. generalize (t_dts t) (t_base t).
  induction (t_frames t); intros; cbn [placed length]; auto.
Qed.

Lemma last_data mem t : good_track t -> t_frames t <> [] -> ends_with_data (t_frames t) -> last (frame_data mem t) [] <> [].
Proof.
  intros Gt N Ed. pose proof (frame_data_zlen mem t (good_sizes t Gt)) as Hm.
  destruct (exists_last N) as (fs' & f & Ef). rewrite Ef in *. unfold ends_with_data in Ed. rewrite rev_unit in Ed.
  rewrite map_app in Hm. cbn [map] in Hm. set (ds := frame_data mem t) in *.
  assert (Nn : ds <> []) by (intro C; rewrite C in Hm; cbn in Hm; now apply app_cons_not_nil in Hm).
  destruct (exists_last Nn) as (ds' & d & Eds). rewrite Eds in *. rewrite map_app in Hm. cbn [map] in Hm. apply app_inj_tail in Hm.
  destruct Hm as (_ & Hm). rewrite last_last. intros ->. change (zlen (@nil Z)) with 0 in Hm. lia.
Qed.

Lemma audio_all E cap enc_iv mem s t :
  block_cipher E -> 16 <= cap -> s_tracks s = [t] -> good_track t -> good_size s -> ends_with_data (t_frames t) ->
  exists file,
    cenc_audio E cap enc_iv mem s = Ok (zlen file, file) /\
    demux file = Some [(1, shows (t_type t) (t_dts t) (t_frames t) (ctr_list E (iv0 enc_iv t) (frame_data mem t)))] /\
    forall info, info = by_senc \/ info = by_saiz ->
      clear_demux info E file = Some [(1, expected mem t)] /\
      entries_of info file = Some [aents (iv0 enc_iv t) (length (t_frames t))].
Proof.
  intros HE Hcap Et Gt Gs Ed.
  destruct (audio_file E mem s t (iv0 enc_iv t) Et Gt Gs) as (h & H1 & H2 & H3). cbv zeta in H2, H3.
  eexists. split; [|exact H3]. unfold cenc_audio. rewrite Et.
  change (first_iv enc_iv t) with (be 8 (iv0 enc_iv t)). rewrite H1.
  destruct (single_writes mem s t Et Gt) as (ws & W1 & W2). rewrite W1. cbv iota. rewrite W2.
  pose proof (frame_data_zlen mem t (good_sizes t Gt)) as Hz. rewrite <- Hz, H2. destruct (t_frames t) as [|f fs] eqn:Ef.
  - destruct (frame_data mem t); [|discriminate]. reflexivity.
  - destruct (audio_writes_ok E cap HE Hcap (frame_data mem t)) with (pend := 0%nat) (y0 := 0) (q := iv0 enc_iv t)
      (a := Aes [] []) (w := wb_init) as (y & A1 & A2).
    + apply last_data; auto; rewrite Ef; [discriminate|exact Ed].
    + lia.
    + apply ok_init. lia.
    + cbn [repeat app] in A1. rewrite A1. cbn [bind]. rewrite A2. cbn [Z.of_nat]. rewrite Z.add_0_r. reflexivity.
Qed.

(* ------------------------------------------------------------------ *)
(* Initialization vectors                                               *)

Definition ivs (q : Z) (n : nat) : list (list Z) := map (fun i => be 8 (q + Z.of_nat i)) (seq 0 n).

Lemma ivs_S q n : ivs q (S n) = be 8 q :: ivs (q + 1) n.
Proof.
  unfold ivs. cbn [seq map]. rewrite Z.add_0_r. f_equal. rewrite <- seq_shift, map_map. apply map_ext. intro i. f_equal. lia.
Qed.

Lemma ents_ivs cd nl nss : forall q, map fst (ents_of cd nl q nss) = ivs q (length nss).
Proof. induction nss as [|ns nss IH]; intro q; [reflexivity|]. cbn [ents_of map length]. now rewrite ivs_S, IH. Qed.

Lemma aents_ivs n : forall q, map fst (aents q n) = ivs q n.
Proof. induction n as [|n IH]; intro q; [reflexivity|]. cbn [aents map]. now rewrite ivs_S, IH. Qed.

Lemma be_inj n x y : 0 <= x - y < 256 ^ Z.of_nat n -> be n x = be n y -> x = y.
Proof.
  intros H E. apply (f_equal unbe) in E. rewrite !unbe_be in E.
  assert (P : 0 < 256 ^ Z.of_nat n) by (apply Z.pow_pos_nonneg; lia).
  assert (M : (x - y) mod 256 ^ Z.of_nat n = 0) by (rewrite Zminus_mod, E, Z.sub_diag; apply Z.mod_0_l; lia).
  rewrite Z.mod_small in M by lia. lia.
Qed.

Lemma ivs_in q n v : In v (ivs q n) <-> exists i, q <= i < q + Z.of_nat n /\ v = be 8 i.
Proof.
  unfold ivs. rewrite in_map_iff. split.
  - intros (i & <- & I). apply in_seq in I. exists (q + Z.of_nat i). split; [lia|reflexivity].
  - intros (i & H & ->). exists (Z.to_nat (i - q)). split; [f_equal; lia|]. apply in_seq. lia.
Qed.

Lemma ivs_NoDup n : forall q, Z.of_nat n <= 2 ^ 64 -> NoDup (ivs q n).
Proof.
  induction n as [|n IH]; intros q H; [constructor|]. rewrite ivs_S. constructor; [|apply IH; lia].
  intro I. apply ivs_in in I. destruct I as (i & Hi & Hv). symmetry in Hv. apply be_inj in Hv; [lia|].
  change (256 ^ Z.of_nat 8) with (2 ^ 64). lia.
Qed.

Lemma ivs_two q n q' n' : q + Z.of_nat n <= q' -> q' + Z.of_nat n' - q <= 2 ^ 64 -> NoDup (ivs q n ++ ivs q' n').
Proof.
  intros H1 H2. assert (A : NoDup (ivs q' n')) by (apply ivs_NoDup; lia).
  revert q H1 H2. induction n as [|n IH]; intros q H1 H2; [exact A|]. rewrite ivs_S. cbn [app]. constructor.
  - intro I. apply in_app_or in I. destruct I as [I|I]; apply ivs_in in I; destruct I as (i & Hi & Hv); symmetry in Hv;
      apply be_inj in Hv; try lia; change (256 ^ Z.of_nat 8) with (2 ^ 64); lia.
  - apply IH; lia.
Qed.

Lemma be_u64 x : be 8 (u64 x) = be 8 x.
Proof.
  rewrite <- (be_unbe (be 8 x)) by (unfold be; apply Forall_rev, le_bytes). rewrite be_length, unbe_be. reflexivity.
Qed.

Lemma ivs_u64 q n : ivs (u64 q) n = ivs q n.
Proof.
  unfold ivs. apply map_ext. intro i. rewrite <- (be_u64 (u64 q + Z.of_nat i)), <- (be_u64 (q + Z.of_nat i)). f_equal.
  unfold u64. rewrite Zplus_mod_idemp_l. reflexivity.
Qed.

(* Segments one after the other, when frames are not more often than 60 times a second. *)
Lemma ivs_segments enc_iv t t' n' :
  0 < t_scale t -> t_scale t' = t_scale t -> 0 <= t_dts t ->
  t_dts t + durations (t_frames t) <= t_dts t' -> t_dts t' * 60 < 2 ^ 63 -> n' < 2 ^ 32 ->
  Forall (fun f => t_scale t <= 60 * f_dur f) (t_frames t) -> 0 <= n' ->
  NoDup (ivs (iv0 enc_iv t) (length (t_frames t)) ++ ivs (iv0 enc_iv t') (Z.to_nat n')).
Proof.
  intros S0 Se D0 Dd Db Nb Fr N0. unfold iv0. rewrite Se, !ivs_u64.
  assert (L : Z.of_nat (length (t_frames t)) * t_scale t <= 60 * durations (t_frames t)).
  { clear - Fr. induction Fr as [|f fs F Fr IH]; [cbn; lia|]. cbn [length durations fold_right]. fold (durations fs). lia. }
  set (S := t_scale t) in *. set (n := Z.of_nat (length (t_frames t))) in *.
  assert (0 <= n) by (unfold n; lia).
  assert (0 <= n * S) by (apply Z.mul_nonneg_nonneg; lia).
  rewrite !Z.quot_div_nonneg by lia.
  assert (K : t_dts t * 60 / S + n <= t_dts t' * 60 / S).
  { rewrite <- Z.div_add by lia. apply Z.div_le_mono; lia. }
  assert (0 <= t_dts t * 60 / S) by (apply Z.div_pos; lia).
  assert (t_dts t' * 60 / S <= t_dts t' * 60) by (apply Z.div_le_upper_bound; [lia|]; nia).
  apply ivs_two; fold n; lia.
Qed.

(* ------------------------------------------------------------------ *)
(* A frame of one long nal unit that is not of a slice                   *)

Lemma nals_single nl n : 1 <= nl <= 4 -> 1 <= zlen n < 256 ^ nl -> nals nl (nal_bytes nl n) = Some [n].
Proof.
  intros Hnl Hn. unfold nals.
  assert (Zb : zlen (be (Z.to_nat nl) (zlen n)) = nl) by (rewrite zlen_be; lia).
  assert (Zt : zlen (nal_bytes nl n) = nl + zlen n) by (unfold nal_bytes; rewrite zlen_app, Zb; reflexivity).
  destruct (nal_bytes nl n) as [|b l0] eqn:El; [change (zlen (@nil Z)) with 0 in Zt; lia|].
  cbn [length nals_from]. rewrite Zt, <- El.
  assert (U : unbe (slice 0 nl (nal_bytes nl n)) = zlen n).
  { unfold nal_bytes. rewrite slice0 by auto. apply unbe_be_small. rewrite Z2Nat.id by lia. lia. }
  rewrite U. replace ((nl <? nl + zlen n) && (1 <=? zlen n) && (nl + zlen n <=? nl + zlen n)) with true by lia.
  replace (skipn (Z.to_nat (nl + zlen n)) (nal_bytes nl n)) with (@nil Z).
  2:{ symmetry. apply skipn_all2. unfold zlen in Zt at 1. rewrite <- El in Zt. lia. }
  replace (slice nl (zlen n) (nal_bytes nl n)) with n.
  - destruct (length l0); reflexivity.
  - unfold nal_bytes. pose proof (slice_app (be (Z.to_nat nl) (zlen n)) nl n (zlen n) Zb eq_refl []) as Q.
    rewrite app_nil_r in Q. now rewrite Q.
Qed.

Lemma long_nal E cap cd nl enc_iv mem s t n :
  block_cipher E -> 16 <= cap -> 1 <= nl <= 4 -> (forall a, is_byte (mem a)) ->
  s_tracks s = [t] -> good_track t -> good_size s ->
  frame_data mem t = [nal_bytes nl n] -> ok_nal nl n -> slice_nal cd n = false -> 65536 <= nl + zlen n ->
  exists file, cenc_video E cap cd nl enc_iv mem s = Ok file /\ clear_demux by_senc E file = None.
Proof.
  intros HE Hcap Hnl Hm Et Gt Gs Hd On Sn Ln.
  assert (Fn : flatn nl [n] = nal_bytes nl n) by (unfold flatn; cbn [map concat]; apply app_nil_r).
  assert (N2 : frame_data mem t = map (flatn nl) [[n]]) by (cbn [map]; now rewrite Fn).
  assert (N3 : Forall (fun ns => Forall (ok_nal nl) ns /\ zlen ns < 65536) [[n]]) by (repeat constructor; apply On).
  destruct (video_file_any E cd nl mem s t [[n]] (iv0 enc_iv t) Hnl Et Gt Gs N2 N3) as (h & H1 & H2). cbv zeta in H2.
  exists (h ++ encs E cd nl (iv0 enc_iv t) [[n]]). 
  pose proof (frame_data_zlen mem t (good_sizes t Gt)) as Hz. rewrite N2 in Hz. cbn [map] in Hz.
  destruct (t_frames t) as [|f [|? ?]] eqn:Ef; try discriminate. cbn [map] in Hz. split.
  - unfold cenc_video. rewrite Et, Ef.
    destruct (single_writes mem s t Et Gt) as (ws & W1 & W2). rewrite W1. cbv iota. rewrite W2, N2. cbn [map]. rewrite <- Hz.
    destruct (writes_ok E cap cd nl (video_header s) HE Hcap Hnl [[n]] N3) with (pend := 0%nat)
      (v := video_init nl (first_iv enc_iv t) [zlen (flatn nl [n])]) (q := iv0 enc_iv t)
      (aux := @nil Z) (szs := @nil Z) (out := @nil Z) as (F & V1 & V2).
    + discriminate.
    + cbn [repeat app]. exists (Aes [] []), 0, wb_init. split; [reflexivity|]. split; [apply ok_init; lia|reflexivity].
    + cbn [map] in V1. rewrite V1. cbn [repeat app]. rewrite H1. cbn [bind]. destruct (V2 h) as (V3 & V4). rewrite V3, V4.
      cbn [app Z.of_nat]. rewrite Z.add_0_r. reflexivity.
  - rewrite H2. clear H1 H2. cbn [length read_entries auxs].
    assert (P : protect cd nl n = (nl + zlen n, 0)) by (unfold protect; now rewrite Sn).
    assert (R : read_entry true (entry_bytes cd nl (be 8 (iv0 enc_iv t)) [n] ++ []) =
      Some ((be 8 (iv0 enc_iv t), Some [((nl + zlen n) mod 65536, 0)]), [])).
    { unfold read_entry. rewrite app_nil_r, zlen_entry_bytes by apply be_length. change (10 + 6 * zlen [n]) with 16.
      change (8 <=? 16) with true. change (10 <=? 16) with true. cbv iota.
      unfold entry_bytes, subs_bytes. cbn [map concat]. rewrite app_nil_r. change (zlen [n]) with 1.
      rewrite (slice0 8) by apply zlen_be. rewrite (slice_skip _ _ 8) by (try apply zlen_be; lia).
      rewrite (slice0 2) by apply zlen_be. rewrite app_assoc.
      rewrite skipn_all_zlen by (rewrite app_length, !be_length; reflexivity).
      rewrite unbe_be2 by lia. change (Z.to_nat 1) with 1%nat. cbn [subsamples].
      unfold sub_bytes. rewrite P. cbn [fst snd]. rewrite zlen_app, !zlen_be. change (6 <=? Z.of_nat 2 + Z.of_nat 4) with true. cbv iota.
      rewrite (slice0 2) by apply zlen_be. rewrite (slice_skip _ _ 2) by (try apply zlen_be; lia).
      assert (Q : slice (2 - 2) 4 (be 4 0) = be 4 0) by reflexivity. rewrite Q, unbe_be.
      replace (skipn 6 (be 2 (nl + zlen n) ++ be 4 0)) with (@nil Z) by reflexivity.
      reflexivity. }
    rewrite R. cbn [shows enc_list].
    assert (D : decrypt E (be 8 (iv0 enc_iv t), Some [((nl + zlen n) mod 65536, 0)]) (enc_nals E cd nl (be 8 (iv0 enc_iv t)) 0 [n]) = None).
    { unfold decrypt. cbn [fst snd decrypt_subs]. rewrite zlen_enc_nals, Fn by auto. rewrite Z.add_0_r.
      assert (Zt : zlen (nal_bytes nl n) = nl + zlen n) by (unfold nal_bytes; rewrite zlen_app, zlen_be; lia). rewrite Zt.
      pose proof (Z.mod_pos_bound (nl + zlen n) 65536 ltac:(lia)) as Mb.
      destruct (Z.leb_spec ((nl + zlen n) mod 65536) (nl + zlen n)) as [_|C]; [|reflexivity].
      assert (Ze : zlen (enc_nals E cd nl (be 8 (iv0 enc_iv t)) 0 [n]) = nl + zlen n) by (rewrite zlen_enc_nals, Fn; auto).
      destruct (skipn (Z.to_nat ((nl + zlen n) mod 65536)) (enc_nals E cd nl (be 8 (iv0 enc_iv t)) 0 [n])) as [|? ?] eqn:Sk; [|reflexivity].
      apply (f_equal (@length Z)) in Sk. rewrite skipn_length in Sk. unfold zlen in Ze at 1. cbn [length] in Sk. lia. }
    destruct (t_type t); cbn [decrypt_all w_data]; rewrite D; reflexivity.
Qed.
