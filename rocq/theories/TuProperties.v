(* Properties C29 to C32: helpers of the transcoder *)
From Coq Require Import List ZArith Bool Lia Arith ZifyBool ZifyNat.
From Verif Require Import TuModel TuSpec TuProofs.
Import ListNotations.
Local Open Scope Z_scope.

(* ---- C29: clock estimation ---- *)

(* The estimate is taken from a sample, among the last 100, whose dts is nearest.
   [f] is what the memory of the ring held before. *)
Theorem C29_nearest : forall f l dts,
  l <> [] -> Z.abs dts <= 2 ^ 61 -> Forall (fun s => Z.abs (fst s) <= 2 ^ 61 /\ Z.abs (snd s) <= 2 ^ 61) l ->
  exists s, In s (lastn 100 l) /\
    ce_get (push_all (ce_init f) l) dts = Some (dts - fst s + snd s) /\
    forall s', In s' (lastn 100 l) -> Z.abs (dts - fst s) <= Z.abs (dts - fst s').
Proof.
  intros f l dts Hne Hd Hb. rewrite (ce_get_scan f l dts Hne Hd Hb).
  assert (Hb2 : forall s, In s (rev (lastn 100 l)) -> Z.abs (fst s) <= 2 ^ 61).
  { intros s Hs. apply in_rev in Hs. rewrite Forall_forall in Hb. apply Hb.
    rewrite <- (firstn_skipn (length l - 100) l). apply in_or_app. right. exact Hs. }
  destruct (scan_spec dts (rev (lastn 100 l)) (2 ^ 63 - 1) 0) as [[S1 S2]|(s & S1 & S2 & S3 & S4)].
  - exfalso.
    assert (exists s, In s (rev (lastn 100 l))) as [s Hs].
    { destruct (rev (lastn 100 l)) as [|s r] eqn:E; [|exists s; left; reflexivity].
      assert (L : length (rev (lastn 100 l)) = O) by (rewrite E; reflexivity).
      rewrite rev_length, lastn_length in L. destruct l; [congruence|cbn [length] in L; lia]. }
    specialize (S2 s Hs). specialize (Hb2 s Hs). lia.
  - exists s. split; [apply in_rev; exact S1|]. split; [rewrite S2; reflexivity|].
    intros s' Hs'. apply S4. apply -> in_rev. exact Hs'.
Qed.
Print Assumptions C29_nearest.

(* A timestamp that is kept maps to the clock pushed with it, the last time *)
Theorem C29_exact : forall f l dts c a b,
  Z.abs dts <= 2 ^ 61 -> Forall (fun s => Z.abs (fst s) <= 2 ^ 61 /\ Z.abs (snd s) <= 2 ^ 61) l ->
  lastn 100 l = a ++ (dts, c) :: b -> (forall s, In s b -> fst s <> dts) ->
  ce_get (push_all (ce_init f) l) dts = Some c.
Proof.
  intros f l dts c a b Hd Hb E Hn.
  assert (Hne : l <> []) by (intros ->; destruct a; discriminate).
  rewrite (ce_get_scan f l dts Hne Hd Hb), E, rev_app_distr. cbn [rev]. rewrite <- app_assoc. cbn [app].
  f_equal. apply scan_exact; [lia|]. intros s Hs. apply Hn. apply in_rev. exact Hs.
Qed.
Print Assumptions C29_exact.

Example C29_example : ce_get (push_all (ce_init (fun _ => (0, 0)))
  (map (fun i => (Z.of_nat i * 10, Z.of_nat i * 100)) (seq 0 250))) 2003 = Some 20003 /\
  ce_get (push_all (ce_init (fun _ => (0, 0)))
  (map (fun i => (Z.of_nat i * 10, Z.of_nat i * 100)) (seq 0 250))) 10 = Some (10 - 1500 + 15000).
Proof. split; vm_compute; reflexivity. Qed.

(* ---- C30: the window of the bitrate ---- *)

(* The window holds the bytes of the frames of the last 10 seconds, as long as dts
   does not decrease and less than 700 frames are in the window, the last moment
   excepted.  [h] is what the memory of the ring held before. *)
Theorem C30_window_partial : forall h l,
  l <> [] -> Forall (fun f => 0 <= fst f < 2 ^ 63 /\ 0 <= snd f < 2 ^ 31) l ->
  (forall a f b g c, l = a ++ f :: b ++ g :: c -> fst f <= fst g) ->
  Z.of_nat (length l) < 2 ^ 64 ->
  (forall a b, l = a ++ b -> b <> [] -> Z.of_nat (length (in_window a)) < 700) ->
  ss_total (add_all (ss_init h) l) = sizes (in_window l).
Proof.
  intros h l Hne Hf Hs Hlen Hwin. apply si_total. apply sinv_all; auto.
  clear Hne Hf Hlen Hwin. induction l as [|f l IH]; [exact Logic.I|]. split.
  - intros g Hg. apply in_split in Hg. destruct Hg as (b & c & ->). apply (Hs [] f b g c). reflexivity.
  - apply IH. intros a f' b g c E. apply (Hs (f :: a) f' b g c). rewrite E. reflexivity.
Qed.
Print Assumptions C30_window_partial.

(* 25 frames a second for 12 seconds: those of the last 10 are counted *)
Example C30_example :
  let l := map (fun i => (Z.of_nat i * 3600, 1000 + Z.of_nat i)) (seq 0 300) in
  ss_total (add_all (ss_init (fun _ => (7, 7))) l) = sizes (in_window l) /\ length (in_window l) = 250%nat /\
  (forall a b, l = a ++ b -> b <> [] -> Z.of_nat (length (in_window a)) < 700).
Proof.
  split; [vm_compute; reflexivity|]. split; [vm_compute; reflexivity|].
  intros a b E _. set (l := map _ _) in *.
  assert (L : length l = 300%nat) by (unfold l; rewrite map_length, seq_length; reflexivity).
  rewrite E, app_length in L.
  assert (length (in_window a) <= length a)%nat; [|lia].
  unfold in_window. generalize (fun f : Z * Z => last_dts a - fst f <? 10 * 90000). intros p. clear.
  induction a as [|x a IH]; cbn; [lia|]. destruct (p x); cbn; lia.
Qed.

(* With 700 frames in the window, as at 70 frames a second, the next one replaces
   the oldest before it is taken out: a frame 10 seconds later should leave only its
   own 5 bytes *)
Theorem C30_refuted :
  let l := repeat (0, 1) 700 ++ [(900000, 5)] in
  sizes (in_window l) = 5 /\ ss_total (add_all (ss_init (fun _ => (0, 0))) l) = 705.
Proof. split; vm_compute; reflexivity. Qed.
Print Assumptions C30_refuted.

(* When dts goes back, frames of the last second are taken out: the 900 bytes of
   the frame before are not counted *)
Theorem C30_order_refuted :
  let l := [(180000, 900); (170000, 2)] in
  sizes (in_window l) = 902 /\ ss_total (add_all (ss_init (fun _ => (0, 0))) l) = 2.
Proof. repeat split; vm_compute; reflexivity. Qed.
Print Assumptions C30_order_refuted.

(* ---- C31: the droppers ---- *)

(* No packet with the key flag is dropped *)
Theorem C31_packet_key : forall d q dts flags d', key_flag flags = true ->
  drop_packet d q dts flags <> (d', true).
Proof.
  intros d q dts flags d' H E. unfold drop_packet in E. rewrite H in E.
  destruct (dr_wait d || _) in E; discriminate.
Qed.
Print Assumptions C31_packet_key.

(* After a packet was dropped, all are, up to the next key frame, which passes *)
Theorem C31_packet_resume : forall nonkey decoded a q dts flags b k,
  let all := a ++ (q, dts, flags) :: b ++ [k] in
  let out := packets (dr_init nonkey decoded) all in
  nth (length a) out false = true ->
  Forall (fun p => key_flag (snd p) = false) b ->
  firstn (length b) (skipn (S (length a)) out) = repeat true (length b) /\
  nth (S (length a) + length b) out false = negb (key_flag (snd k)).
Proof.
  intros nonkey decoded a q dts flags b k all out H Hb. subst all out.
  revert H. generalize (dr_init nonkey decoded). induction a as [|[[q' dts'] flags'] a IH]; intros d H.
  - cbn [app length packets nth skipn] in *.
    destruct (drop_packet d q dts flags) as [d1 b1] eqn:E1. cbn [nth] in H. subst b1. cbn [skipn].
    assert (W : dr_wait d1 = true).
    { unfold drop_packet in E1. destruct (dr_wait d || _); [|discriminate]. destruct (key_flag flags); [discriminate|].
      injection E1 as <-. reflexivity. }
    clear E1. revert d1 W. induction b as [|[[q1 t1] f1] b IHb]; intros d1 W; cbn [app length packets firstn repeat nth Nat.add].
    + split; [reflexivity|]. destruct k as [[q2 t2] f2]. unfold drop_packet. rewrite W. cbn [orb snd].
      destruct (key_flag f2); reflexivity.
    + inversion Hb as [|? ? Hf Hb']. subst. cbn [snd] in Hf.
      destruct (drop_packet d1 q1 t1 f1) as [d2 b2] eqn:E2. unfold drop_packet in E2. rewrite W, Hf in E2. cbn [orb] in E2.
      injection E2 as <- <-. destruct (IHb Hb' (mk_dr true (dr_nonkey d1) (dr_decoded d1) (dr_count d1) (dr_skipped d1)) eq_refl) as [I1 I2].
      split; [f_equal; exact I1|exact I2].
  - cbn [app length packets] in *. destruct (drop_packet d q' dts' flags') as [d1 b1]. cbn [nth skipn Nat.add] in *.
    apply IH. exact H.
Qed.
Print Assumptions C31_packet_resume.

(* A packet is dropped only when it, or one since the last key frame that passed,
   was late by more than the threshold *)
Theorem C31_packet_reason : forall nonkey decoded l,
  Forall (fun p => fst (fst p) - snd (fst p) <= nonkey * 90000) l ->
  packets (dr_init nonkey decoded) l = repeat false (length l).
Proof.
  intros nonkey decoded l. unfold dr_init.
  induction l as [|[[q t] f] l IH]; intros H; [reflexivity|]. inversion H as [|? ? Hp Hl]. subst. cbn [fst snd] in Hp.
  cbn [packets length repeat]. unfold drop_packet at 1. cbn [dr_wait dr_nonkey orb].
  destruct (Z.gtb_spec (q - t) (nonkey * 90000)); [lia|]. f_equal. apply IH. exact Hl.
Qed.
Print Assumptions C31_packet_reason.

Example C31_packet_example :
  packets (dr_init 3 1) [(0, 0, 1); (0, 0, 0); (300000, 10000, 0); (300000, 299999, 0); (300000, 299999, 1); (300000, 299999, 0)]
  = [false; false; true; true; false; false].
Proof. vm_compute. reflexivity. Qed.

(* Never more than three frames in a row are dropped, whatever the thresholds *)
Theorem C31_frame_row : forall nonkey decoded l a b,
  frames (dr_init nonkey decoded) l <> a ++ [true; true; true; true] ++ b.
Proof.
  intros nonkey decoded l a b E.
  assert (D : dinv (dr_init nonkey decoded) 0) by (constructor; cbn; lia).
  destruct (frames_skip l _ _ D _ _ E) as (d' & r' & l' & D' & E').
  pose proof (frames_row l' d' r' D' 4 b (eq_sym E')). lia.
Qed.
Print Assumptions C31_frame_row.

Example C31_frame_example :
  frames (dr_init 10 1) (repeat (400000, mk_fr 0 0 false) 9) = [false; true; true; true; false; true; true; true; false].
Proof. vm_compute. reflexivity. Qed.

(* The test for key frames looks at bit 0 of the flags of the frame *)
Theorem C31_frame_flag : forall d q f d', key_flag (fr_flags f) = true -> drop_frame d q f <> (d', true).
Proof. intros d q f d' H E. unfold drop_frame in E. rewrite H in E. discriminate. Qed.
Print Assumptions C31_frame_flag.

(* which is not the mark of a key frame: a decoded key frame, with no flags, is
   dropped *)
Theorem C31_frame_key_refuted : exists l f, fr_key_frame f = true /\
  frames (dr_init 10 1) (l ++ [(400000, f)]) = [false; true].
Proof. exists [(400000, mk_fr 0 0 false)], (mk_fr 0 0 true). split; vm_compute; reflexivity. Qed.
Print Assumptions C31_frame_key_refuted.

(* With the thresholds of the default configuration no frame is ever dropped *)
Theorem C31_frame_default : forall n l, frames (dr_init n n) l = repeat false (length l).
Proof.
  intros n l. assert (E : dr_nonkey (dr_init n n) = dr_decoded (dr_init n n)) by reflexivity.
  revert E. generalize (dr_init n n). induction l as [|[q f] l IH]; intros d E; [reflexivity|].
  cbn [frames length repeat]. unfold drop_frame.
  destruct (key_flag (fr_flags f)); [f_equal; apply IH; exact E|].
  destruct ((q - fr_dts f >? dr_decoded d) && (q - fr_dts f <? dr_nonkey d)) eqn:Eb; [lia|].
  f_equal. apply IH. exact E.
Qed.
Print Assumptions C31_frame_default.

(* ---- C32: the vector ---- *)

(* While memory for growing is available, no operation touches memory outside of
   the items, and the vector holds what a list would *)
Theorem C32_list : forall ops,
  Forall (fun o => match o with (OAdd _, ok) => ok = true | _ => True end) ops ->
  exists v, vec_run vec_init ops = Some v /\
    let l := fold_left list_op (map fst ops) [] in
    v_total v = length l /\ (v_total v <= v_capacity v)%nat /\
    forall i, vec_get v i = Some (if (0 <=? i) && (i <? Z.of_nat (length l)) then nth (Z.to_nat i) l 0 else 0).
Proof.
  intros ops H.
  assert (P : forall v l, vecinv v l -> exists v', vec_run v ops = Some v' /\ vecinv v' (fold_left list_op (map fst ops) l)).
  { revert H. induction ops as [|[o ok] ops IH]; intros H v l I; [exists v; split; [reflexivity|exact I]|].
    inversion H as [|? ? H1 H2]. subst. cbn [vec_run map fst fold_left].
    assert (exists v', vec_op v (o, ok) = Some v' /\ vecinv v' (list_op l o)) as (v' & E & I').
    { destruct o as [x|i x|i]; cbn [vec_op].
      - rewrite H1. destruct (vec_add_inv v l x I) as (v' & E & I' & _). eauto.
      - destruct (vec_set_inv v l i x I) as (v' & E & I' & _). eauto.
      - destruct (vec_delete_inv v l i ok I) as (v' & E & I' & _). eauto. }
    rewrite E. apply IH; assumption. }
  destruct (P vec_init []) as (v & E & I).
  { constructor; [exists (repeat None 4); reflexivity|reflexivity|cbn; lia]. }
  exists v. split; [exact E|]. cbv zeta. split; [apply I|]. split.
  - destruct I as [[junk Ei] Et _]. rewrite Et. unfold v_capacity. rewrite Ei, app_length, map_length. lia.
  - intros i. apply vec_get_inv. exact I.
Qed.
Print Assumptions C32_list.

(* The capacity is at most 4, or less than four times the number of items *)
Theorem C32_capacity : forall ops v,
  Forall (fun o => snd o = true) ops -> vec_run vec_init ops = Some v ->
  (v_capacity v <= 4 \/ v_capacity v < 4 * v_total v)%nat.
Proof.
  intros ops v H E.
  assert (P : forall v0 l, vecinv v0 l -> (v_capacity v0 <= 4 \/ v_capacity v0 < 4 * length l)%nat ->
    vec_run v0 ops = Some v -> (v_capacity v <= 4 \/ v_capacity v < 4 * v_total v)%nat).
  { clear E. revert H. induction ops as [|[o ok] ops IH]; intros H v0 l I Hc E.
    - cbn in E. injection E as <-. rewrite (vv_total _ _ I). exact Hc.
    - inversion H as [|? ? H1 H2]. subst. cbn [snd] in H1. subst ok. cbn [vec_run] in E.
      pose proof I as [[junk Ei] Et Ec].
      assert (Hle : (length l <= v_capacity v0)%nat) by (unfold v_capacity; rewrite Ei, app_length, map_length; lia).
      destruct o as [x|i x|i]; cbn [vec_op] in E.
      + destruct (vec_add_inv v0 l x I) as (v' & E' & I' & C'). rewrite E' in E. apply (IH H2 v' (l ++ [x]) I'); [|exact E].
        rewrite C', app_length. cbn [length]. destruct (Nat.eqb_spec (v_capacity v0) (length l)); lia.
      + destruct (vec_set_inv v0 l i x I) as (v' & E' & I' & C'). rewrite E' in E. eapply (IH H2 v' _ I'); [|exact E].
        assert (L : length (list_op l (OSet i x)) = length l).
        { cbn [list_op]. destruct ((0 <=? i) && (i <? Z.of_nat (length l))) eqn:Eb; [|reflexivity].
          destruct (split_nth l (Z.to_nat i)) as (a & y & b & El & La & -> & ->); [lia|]. rewrite El, !app_length. reflexivity. }
        rewrite C', L. exact Hc.
      + destruct (vec_delete_inv v0 l i true I) as (v' & E' & I' & C'). rewrite E' in E. eapply (IH H2 v' _ I'); [|exact E].
        rewrite C' by reflexivity. clear C' E' I' E IH. cbn [list_op].
        destruct ((0 <=? i) && (i <? Z.of_nat (length l))) eqn:Eb; cbn [andb]; [|exact Hc].
        destruct (split_nth l (Z.to_nat i)) as (a & y & b & El & La & -> & ->); [lia|].
        rewrite El in *. rewrite !app_length in *. cbn [length] in *.
        pose proof (Nat.div_mod (v_capacity v0) 4 ltac:(lia)). pose proof (Nat.div_mod (v_capacity v0) 2 ltac:(lia)).
        pose proof (Nat.mod_upper_bound (v_capacity v0) 4 ltac:(lia)). pose proof (Nat.mod_upper_bound (v_capacity v0) 2 ltac:(lia)).
        destruct (Nat.ltb_spec 0 (length a + S (length b) - 1)), (Nat.eqb_spec (length a + S (length b) - 1) (v_capacity v0 / 4)); cbn [andb]; lia. }
  apply (P vec_init []); [constructor; [exists (repeat None 4); reflexivity|reflexivity|cbn; lia]|cbn; lia|exact E].
Qed.
Print Assumptions C32_capacity.

Example C32_example :
  let ops := map (fun i => (OAdd (Z.of_nat i + 10), true)) (seq 0 20) ++ map (fun _ => (ODelete 1, true)) (seq 0 16) ++ [(OSet 2 99, true)] in
  match vec_run vec_init ops with
  | Some v => (map (vec_get v) [0; 1; 2; 3; 4; -1], v_capacity v)
  | None => ([], O)
  end = ([Some 10; Some 27; Some 99; Some 29; Some 0; Some 0], 8%nat).
Proof. vm_compute. reflexivity. Qed.

(* When memory runs out, adding writes behind the end of the items *)
Theorem C32_oom_refuted : exists ops,
  vec_run vec_init ops <> None /\ vec_run vec_init (ops ++ [(OAdd 5, false)]) = None.
Proof.
  exists [(OAdd 1, true); (OAdd 2, true); (OAdd 3, true); (OAdd 4, true)]. split; vm_compute; [discriminate|reflexivity].
Qed.
Print Assumptions C32_oom_refuted.
