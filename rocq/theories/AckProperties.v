(* Properties C27 and C28: the ack maps of the transcoder *)
From Coq Require Import List ZArith Bool Lia.
From Verif Require Import AckModel AckSpec AckProofs.
Import ListNotations.
Local Open Scope Z_scope.

(* ---- C27: video ---- *)

(* An acknowledged output frame [ack] was added with a timestamp [q] close to that
   of an input frame [i]; the id reported is the last key frame at or before [i]
   (the initial id, if there is none), and the offset is the distance, modulo 2^32 *)
Theorem C27_map : forall id0 m ins outs acks ack id off m',
  vreach id0 m ins outs acks -> video_map m ack = AOk (id, off, m') ->
  exists i p k q,
    In (i, p, k) ins /\ In (ack, q) outs /\ close p q /\
    (id = id0 \/ exists p', In (id, p', true) ins) /\
    id0 <= id <= i /\
    (forall j p', In (j, p', true) ins -> j <= i -> j <= id) /\
    off = (id - i) mod 2 ^ 32.
Proof.
  intros id0 m ins outs acks ack id off m' R E. pose proof (vreach_vinv _ _ _ _ _ R) as I.
  pose proof (vreach_increasing _ _ _ _ _ R) as Hinc.
  unfold video_map in E. destruct (find_split _ (v_output m)) as [[o rest]|] eqn:Ef;
    [|destruct (v_output m); discriminate].
  injection E as <- <- <-. apply find_split_spec in Ef. destruct Ef as (pre & rest' & Eo & -> & Hp & _).
  apply Z.eqb_eq in Hp.
  destruct (vi_out _ _ _ _ _ I o) as (i & p & k & q & H1 & H2 & H3 & H4 & H5).
  { rewrite Eo. apply in_or_app. right. left. reflexivity. }
  exists i, p, k, q. change (fst (snd o)) with (key_of o). rewrite H4, H5, Hp in *.
  pose proof (vi_lo _ _ _ _ _ I) as Hlo.
  destruct (last_key_spec id0 ins i Hinc Hlo) as (A & B & C).
  assert (Hle : last_key id0 ins i <= i) by (apply last_key_le; eapply Hlo; eassumption).
  unfold w32. auto 10.
Qed.
Print Assumptions C27_map.

(* The reported input ids never decrease *)
Theorem C27_monotone : forall id0 m ins outs acks l1 a i l2 b j l3,
  vreach id0 m ins outs acks -> acks = l1 ++ (a, i) :: l2 ++ (b, j) :: l3 -> i <= j.
Proof.
  intros id0 m ins outs acks l1 a i l2 b j l3 R ->. pose proof (vi_sorted _ _ _ _ _ (vreach_vinv _ _ _ _ _ R)) as H.
  rewrite map_app in H. cbn [map snd] in H. rewrite map_app in H. cbn [map snd] in H.
  apply nondec_app in H. destruct H as (H & _ & _). apply nondec_app in H. destruct H as (_ & H & _).
  cbn [nondec] in H. destruct H as [H _]. apply H. apply in_or_app. right. left. reflexivity.
Qed.
Print Assumptions C27_monotone.

(* Every output key frame can be acknowledged until a later one was *)
Theorem C27_ack_available : forall id0 m ins outs acks before a after,
  vreach id0 m ins outs acks -> map fst outs = before ++ a :: after ->
  (forall x, In x (map fst acks) -> ~ In x after) ->
  exists id off m', video_map m a = AOk (id, off, m').
Proof.
  intros id0 m ins outs acks before a after R Eo Hack. pose proof (vreach_vinv _ _ _ _ _ R) as I.
  destruct (vi_pre _ _ _ _ _ I) as (pre & Ep & Hpre). rewrite Ep in Eo.
  assert (Hin : In a (map fst (v_output m))).
  { destruct (split_at pre (map fst (v_output m)) a before after Eo) as [H|[e He]]; [exact H|].
    destruct pre as [|x pre].
    - cbn in Eo. rewrite Eo. apply in_or_app. right. left. reflexivity.
    - destruct Hpre as (b & o & r & Hb & Er); [discriminate|]. exfalso. apply (Hack b Hb). rewrite He, Er.
      apply in_or_app. right. left. reflexivity. }
  apply in_map_iff in Hin. destruct Hin as (o & Hf & Hin).
  destruct (find_split_some (fun o => fst o =? a) (v_output m) o Hin) as (y & r & Es); [apply Z.eqb_eq; exact Hf|].
  unfold video_map. rewrite Es. eauto.
Qed.
Print Assumptions C27_ack_available.

(* A history that meets the hypotheses: two groups of pictures, both acknowledged;
   the second output key frame is made from an input that is not one. *)
Definition C27_ops : list vop :=
  [VIn 10 0 true; VIn 11 3000 false; VOut 500 10 true; VIn 12 6000 true; VIn 13 9000 false;
   VOut 501 3000 false; VOut 502 9100 true; VAck 500].
Example C27_history : exists m, vreach 10 m
  [(10, 0, true); (11, 3000, false); (12, 6000, true); (13, 9000, false)] [(500, 10); (502, 9100)] [(500, 10)] /\
  match video_map m 502 with AOk (id, off, _) => id = 12 /\ off = 2 ^ 32 - 1 | _ => False end.
Proof.
  assert (E : match vrun (video_new 10) [] [] [] C27_ops with
    | Some (m, i, o, a) => Some (i, o, a, match video_map m 502 with AOk (id, off, _) => Some (id, off) | _ => None end)
    | None => None end
    = Some ([(10, 0, true); (11, 3000, false); (12, 6000, true); (13, 9000, false)], [(500, 10); (502, 9100)],
        [(500, 10)], Some (12, 2 ^ 32 - 1))) by (vm_compute; reflexivity).
  destruct (vrun (video_new 10) [] [] [] C27_ops) as [[[[m i] o] a]|] eqn:Er; [|discriminate].
  injection E as -> -> -> E2. exists m. split.
  - eapply vrun_reach; [apply vr_new| |exact Er]. vm_compute. reflexivity.
  - destruct (video_map m 502) as [[[id off] m']| |]; try discriminate. injection E2 as -> ->. split; reflexivity.
Qed.

(* The offset reported with the id is not the distance from the key frame to the
   frame: for the history above it is 2^32 - 1, not 1. *)
Theorem C27_offset_refuted : exists id0 m ins outs acks ack id off m',
  vreach id0 m ins outs acks /\ video_map m ack = AOk (id, off, m') /\
  (forall i p k, In (i, p, k) ins -> i < id + off).
Proof.
  destruct C27_history as (m & R & H). destruct (video_map m 502) as [[[id off] m']| |] eqn:E; try contradiction.
  destruct H as [-> ->]. do 9 eexists. split; [exact R|]. split; [exact E|].
  intros i p k Hin. cbn in Hin. change (2 ^ 32) with 4294967296.
  repeat (destruct Hin as [Hin|Hin]; [injection Hin as <- _ _; lia|]). destruct Hin.
Qed.
Print Assumptions C27_offset_refuted.

(* An ack before the first output key frame reads the front of an empty deque *)
Theorem C27_empty_refuted : forall id0, exists m, vreach id0 m [] [] [] /\ forall ack, video_map m ack = AUB.
Proof. intros id0. exists (video_new id0). split; [apply vr_new|]. reflexivity. Qed.
Print Assumptions C27_empty_refuted.

(* An ack of an output frame that is not a key frame is answered with its own id,
   beyond every input frame *)
Theorem C27_default_refuted : exists id0 m ins outs acks ack,
  vreach id0 m ins outs acks /\
  ack_default (video_map m ack) m ack = AOk (ack, 0, m) /\ (forall i p k, In (i, p, k) ins -> i < ack).
Proof.
  assert (E : match vrun (video_new 10) [] [] [] C27_ops with
    | Some (m, i, o, a) => Some (i, o, a, match video_map m 501 with AThrow => true | _ => false end)
    | None => None end
    = Some ([(10, 0, true); (11, 3000, false); (12, 6000, true); (13, 9000, false)], [(500, 10); (502, 9100)],
        [(500, 10)], true)) by (vm_compute; reflexivity).
  destruct (vrun (video_new 10) [] [] [] C27_ops) as [[[[m i] o] a]|] eqn:Er; [|discriminate].
  injection E as -> -> -> E2. destruct (video_map m 501) eqn:Ev; try discriminate.
  exists 10, m. do 3 eexists. exists 501. split; [|split].
  - eapply vrun_reach; [apply vr_new| |exact Er]. vm_compute. reflexivity.
  - rewrite Ev. reflexivity.
  - intros j p k Hin. cbn in Hin.
    repeat (destruct Hin as [Hin|Hin]; [injection Hin as <- _ _; lia|]). destruct Hin.
Qed.
Print Assumptions C27_default_refuted.

(* ---- C28: audio ---- *)

(* The offset of a frame is the number of samples of all the frames before it,
   also of those that were removed *)
Theorem C28_offset : forall e id h ds fd,
  (e = 0 \/ e = 1) -> 0 <= id < 2 ^ 64 - 2 -> reach e id h ds -> h_base h <= fd <= h_last h ->
  exists hi, offset_by_frame h fd = AOk (samples_before id ds fd, hi).
Proof. intros e id h ds fd He Hid R Hfd. apply (hinv_offset e); auto. apply reach_hinv; auto. Qed.
Print Assumptions C28_offset.

(* The frames that can be asked for: all from the first that was not removed, of
   which [h_last] is the last, up to the frame added last *)
Theorem C28_range : forall e id h ds,
  (e = 0 \/ e = 1) -> 0 <= id < 2 ^ 64 - 2 -> reach e id h ds ->
  id <= h_base h /\ h_base h <= h_last h /\
  (ds <> [] -> h_last h = id + Z.of_nat (length ds) - 1 + e).
Proof.
  intros e id h ds He Hid R. pose proof (reach_hinv e id h ds He Hid R) as I.
  pose proof (hv_base _ _ _ _ I). pose proof (hv_bl _ _ _ _ I). pose proof (hv_last _ _ _ _ I) as L.
  split; [lia|]. split; [lia|]. intros Hne. destruct ds; [congruence|exact L].
Qed.
Print Assumptions C28_range.

(* Looking up an offset finds the frame that covers it, and the samples into it,
   unless it is the start of the frames that are left and the first of them has no
   samples (see C28_zero_refuted) *)
Theorem C28_lookup : forall e id h ds off,
  (e = 0 \/ e = 1) -> 0 <= id < 2 ^ 64 - 2 -> reach e id h ds -> ds <> [] ->
  samples_before id ds (h_base h) <= off <= zsum ds ->
  (samples_before id ds (h_base h) < off \/ Forall (Z.lt 0) ds) ->
  exists fid rem, frame_by_offset h off = AOk (fid, rem) /\
    h_base h <= fid <= id + Z.of_nat (length ds) /\ position id ds off fid rem /\
    (forall g, h_base h <= g < fid -> samples_before id ds g < off).
Proof.
  intros e id h ds off He Hid R Hne Hoff Hpos. pose proof (reach_hinv e id h ds He Hid R) as I.
  rewrite (before_base e id h ds I) in *. apply (hinv_lookup e); auto; [lia|apply (reach_nonneg e id h); exact R|].
  destruct Hpos as [H|H]; [left; exact H|right].
  pose proof (hv_in _ _ _ _ I) as X. destruct (h_q h) as [|[v k] q]; [exact Logic.I|].
  inversion X as [|? ? Hx _]. subst. cbn in Hx. rewrite Forall_forall in H. specialize (H _ Hx). lia.
Qed.
Print Assumptions C28_lookup.

(* An ack of an output frame gives the input frame, and the samples into it, at
   the same number of samples from the start *)
Theorem C28_map_partial : forall id_in id_out m din dout acks ack,
  0 <= id_in < 2 ^ 64 - 2 -> 0 <= id_out < 2 ^ 64 - 2 ->
  areach id_in id_out m din dout acks -> din <> [] ->
  h_base (a_out m) <= ack <= h_last (a_out m) ->
  samples_before id_out dout ack <= zsum din ->
  exists fid rem m', audio_map m ack = AOk (fid, rem, m') /\
    position id_in din (samples_before id_out dout ack) fid rem.
Proof.
  intros id_in id_out m din dout acks ack Hi Ho R Hne Hack Hle.
  destruct (areach_ainv _ _ _ _ _ _ Hi Ho R) as [I _].
  apply (audio_map_ok id_in id_out m din dout acks ack); auto; lia.
Qed.
Print Assumptions C28_map_partial.

(* The input ids reported never decrease, in whatever order the acks come *)
Theorem C28_monotone_partial : forall id_in id_out m din dout acks l1 a i l2 b j l3,
  0 <= id_in < 2 ^ 64 - 2 -> 0 <= id_out < 2 ^ 64 - 2 ->
  areach id_in id_out m din dout acks -> acks = l1 ++ (a, i) :: l2 ++ (b, j) :: l3 -> i <= j.
Proof.
  intros id_in id_out m din dout acks l1 a i l2 b j l3 Hi Ho R. revert l1 l2 l3.
  induction R as
    [|m dout acks dur m' R IH Hd E|m din dout acks fd dur m' R IH Hne Hfd Hgap Hd E
     |m din dout acks id n R IH|m din dout acks n m' t R IH Hn Hl E E2|m din dout acks ack fid rem m' R IH E]; auto.
  - intros l1 l2 l3 H. destruct l1; discriminate.
  - intros l1 l2 l3 H.
    destruct (exists_last (l := (b, j) :: l3)) as (l3' & x & Ex); [discriminate|].
    rewrite Ex in H. rewrite app_comm_cons, !app_assoc in H. apply app_inj_tail in H. destruct H as [H <-].
    destruct l3' as [|y l3'].
    + injection Ex as -> -> _. rewrite app_nil_r in H.
      destruct (areach_ainv _ _ _ _ _ _ Hi Ho R) as [I L].
      pose proof (areach_bound _ _ _ _ _ _ _ _ _ _ Hi Ho R E) as [B1 B2].
      destruct (audio_ack_step id_in id_out m din dout acks ack fid rem m') as (_ & _ & M); auto; try lia.
      apply (M a i). rewrite H. apply in_or_app. right. left. reflexivity.
    + injection Ex as <- Ex. apply (IH l1 l2 l3'). rewrite H, <- app_assoc. reflexivity.
Qed.
Print Assumptions C28_monotone_partial.

(* A history that meets the hypotheses of C28_offset and C28_lookup: three frames,
   two lost ones, one more, and the first frame removed *)
Example C28_reach_example : exists h,
  reach 0 100 h [1024; 1024; 0; 0; 512] /\ h_base h = 101 /\ h_last h = 104 /\
  offset_by_frame h 104 = AOk (2048, 2048) /\
  frame_by_offset h 2148 = AOk (104, 100).
Proof.
  assert (R1 : reach 0 100 (mk_hist [(1024, 1)] 100 100 0) [1024]) by (apply r_first; [lia|vm_compute; reflexivity]).
  assert (R2 : reach 0 100 (mk_hist [(1024, 2)] 100 101 0) [1024; 1024]).
  { apply (r_add 0 100 _ _ 101 1024 _ R1); [discriminate|cbn; lia|cbn; lia|lia|vm_compute; reflexivity]. }
  assert (R3 : reach 0 100 (mk_hist [(1024, 2); (0, 2); (512, 1)] 100 104 0) [1024; 1024; 0; 0; 512]).
  { apply (r_add 0 100 _ _ 104 512 _ R2); [discriminate|cbn; lia|cbn; lia|lia|vm_compute; reflexivity]. }
  exists (mk_hist [(1024, 1); (0, 2); (512, 1)] 101 104 1024). split; [|repeat split].
  exact (r_remove 0 100 _ _ 100 R3).
Qed.

(* One for the audio map: outputs of half the size, one of them acknowledged *)
Example C28_map_example : exists m,
  areach 100 200 m [1024; 1024] [512; 512; 512] [(201, 100)] /\ h_base (a_out m) = 201 /\
  match audio_map m 203 with AOk (fid, rem, _) => (fid, rem) = (101, 512) | _ => False end.
Proof.
  assert (R1 : areach 100 200 (mk_amap (mk_hist [(1024, 1)] 100 100 0) [] (hist_new 200)) [1024] [] []).
  { eapply ra_first; [apply ra_new|lia|vm_compute; reflexivity]. }
  apply (ra_filtered 100 200 _ _ _ _ (Some 100) 1024) in R1.
  assert (R2 := ra_out 100 200 _ _ _ _ 512 _ false R1 ltac:(lia) ltac:(cbn; lia)
    ltac:(vm_compute; reflexivity) ltac:(vm_compute; reflexivity)).
  assert (R3 : areach 100 200 (mk_amap (mk_hist [(1024, 2)] 100 101 0) [(100, 512)] (mk_hist [(512, 1)] 200 201 0))
                 [1024; 1024] [512] []).
  { apply (ra_in 100 200 _ _ _ _ 101 1024 _ R2); [discriminate|cbn; lia|cbn; lia|lia|vm_compute; reflexivity]. }
  apply (ra_filtered 100 200 _ _ _ _ (Some 101) 1024) in R3.
  assert (R4 := ra_out 100 200 _ _ _ _ 512 _ false R3 ltac:(lia) ltac:(cbn; lia)
    ltac:(vm_compute; reflexivity) ltac:(vm_compute; reflexivity)).
  assert (R5 := ra_out 100 200 _ _ _ _ 512 _ false R4 ltac:(lia) ltac:(cbn; lia)
    ltac:(vm_compute; reflexivity) ltac:(vm_compute; reflexivity)).
  assert (R6 := ra_ack 100 200 _ _ _ _ 201 100 512 _ R5 ltac:(vm_compute; reflexivity)).
  eexists. split; [exact R6|]. split; vm_compute; reflexivity.
Qed.

(* Looking up the start of the frames that are left divides by zero when the first
   of them was lost *)
Theorem C28_zero_refuted : exists h ds,
  reach 0 100 h ds /\ ds <> [] /\ frame_by_offset h (samples_before 100 ds (h_base h)) = AUB.
Proof.
  assert (R1 : reach 0 100 (mk_hist [(1024, 1)] 100 100 0) [1024]) by (apply r_first; [lia|vm_compute; reflexivity]).
  assert (R2 : reach 0 100 (mk_hist [(1024, 1); (0, 2); (1024, 1)] 100 103 0) [1024; 0; 0; 1024]).
  { apply (r_add 0 100 _ _ 103 1024 _ R1); [discriminate|cbn; lia|cbn; lia|lia|vm_compute; reflexivity]. }
  exists (mk_hist [(0, 1); (1024, 1)] 102 103 1024), [1024; 0; 0; 1024].
  split; [exact (r_remove 0 100 _ _ 101 R2)|]. split; [discriminate|]. vm_compute. reflexivity.
Qed.
Print Assumptions C28_zero_refuted.

(* When the first input frames are lost, the first ack divides by zero *)
Theorem C28_first_gap_refuted :
  arun (audio_new 100 200) [] [AIn 102 1024; AOut 1024; AAck 200] = AUB.
Proof. vm_compute. reflexivity. Qed.
Print Assumptions C28_first_gap_refuted.

(* When input frames are lost later, the correction of the output durations makes
   one negative: of two acks in order the second is answered with an input frame
   before that of the first *)
Theorem C28_gap_refuted : exists m,
  arun (audio_new 100 200) []
    [AIn 100 1024; AFilt 100 1024; AOut 1024; AIn 103 1024; AFilt 103 1024; AOut 1024; AAck 201; AAck 202]
  = AOk (m, [(201, 101); (202, 100)]).
Proof. eexists. vm_compute. reflexivity. Qed.
Print Assumptions C28_gap_refuted.

(* Output frames larger than input frames: with the filter passing all samples
   unchanged, all the input was encoded and all the output acknowledged, but the
   answer is half of the input *)
Theorem C28_lag_refuted : exists m,
  arun (audio_new 100 200) []
    [AIn 100 512; AFilt 100 512; AIn 101 512; AFilt 101 512; AOut 1024;
     AIn 102 512; AFilt 102 512; AIn 103 512; AFilt 103 512; AOut 1024; AAck 202] = AOk (m, [(202, 102)]) /\
  length (a_filtered m) = 2%nat.
Proof. eexists. split; vm_compute; reflexivity. Qed.
Print Assumptions C28_lag_refuted.
