(* Proofs about the segment index: the invariant holds. *)

From Coq Require Import ZArith List Bool Lia ZifyBool Sorted.
From Verif Require Import IdxModel IdxSpec IdxProofs IdxProofs2.
Import ListNotations.
Open Scope Z_scope.

(* The end of ngx_live_segment_index_persisted. *)
Definition finish (c : conf) (s : st) (hi : Z) (ok : bool) (snap : option isnap)
  (prev : option Z) : st :=
  match snap with
  | None => s
  | Some n =>
      if negb ok && negb (hi <=? sn_max n) then close_ack s n
      else
        match prev with
        | None => close_write c s n
        | Some k =>
            match find k (s_all s) with
            | None => ub s
            | Some y =>
                let s := if x_bad y then ub s else s in
                let s := match x_snap y with
                         | Some m => close_free s m
                         | None => s
                         end in
                upd k (idx_snap (Some n)) s
            end
        end
  end.

(* What holds for the snapshot in hand when the loop is over. *)
Definition in_hand (s s2 : st) (ks : list Z) (prev : option Z) (n : isnap) : Prop :=
  (exists h, In h (s_all s) /\ In (x_key h) ks /\ x_snap h = Some n /\ x_per h = PNone /\
     x_key h <= sn_max n /\
     forall y, In y (s_all s) -> In (x_key y) ks -> x_key h < x_key y -> x_snap y = None) /\
  match prev with
  | None => fit_snap s2 n
  | Some k =>
      In k (s_pend s2) /\ k < sn_max n <= s_top s2 /\
      forall y, In y (s_all s2) -> k < x_key y <= sn_max n -> x_per y <> PNone
  end.

Lemma persisted_shape : forall c N nf s b ok,
  1 <= c_bucket c -> inv c N s -> b * c_bucket c + c_bucket c <= N ->
  (persisted c nf s (b * c_bucket c) (b * c_bucket c + c_bucket c) ok = s /\
   forall y, In y (s_all s) -> x_key y / c_bucket c = b -> x_per y <> PNone) \/
  exists x ks s2 snap prev,
    In x (s_all s) /\ x_per x = PNone /\ x_key x / c_bucket c = b /\
    (forall k, In k ks <-> b * c_bucket c <= k < b * c_bucket c + c_bucket c /\
       In k (map x_key (s_all s))) /\
    StronglySorted Z.lt ks /\
    (forall y, In y (s_all s) -> In (x_key y) ks -> x_per y = PNone) /\
    mark ok ks (set_queues s (s_pend s2) (s_done s2)) None = (s2, snap) /\
    s_all s2 = map (marked ok ks) (s_all s) /\
    rest (set_queues s (s_pend s2) (s_done s2)) s2 /\
    inv c N s2 /\
    (forall n, snap = Some n -> in_hand s s2 ks prev n) /\
    (snap = None -> forall y, In y (s_all s) -> In (x_key y) ks -> x_snap y = None) /\
    (forall k, prev = Some k -> k < b * c_bucket c) /\
    persisted c nf s (b * c_bucket c) (b * c_bucket c + c_bucket c) ok =
    finish c (free_non_forced c nf s2) (b * c_bucket c + c_bucket c) ok snap prev.
Proof.
  intros c N nf s b ok HB HI HN. unfold persisted.
  set (lo := b * c_bucket c) in *. set (hi := lo + c_bucket c) in *.
  destruct (first_ge lo (s_all s)) as [x|] eqn:EF.
  2:{ left. split; [reflexivity|]. intros y Hy E. apply bucket_of in E; [|exact HB].
      pose proof (first_ge_none _ _ y EF Hy). subst lo. lia. }
  apply first_ge_some in EF; [|apply (v_sort _ _ _ HI)].
  destruct EF as (Hx & HL & HF).
  destruct (hi <=? x_key x) eqn:EH.
  { left. split; [reflexivity|]. intros y Hy E. apply bucket_of in E; [|exact HB].
    specialize (HF y Hy). subst lo hi. lia. }
  assert (EXB : x_key x / c_bucket c = b).
  { apply bucket_of; [exact HB|]. subst lo hi. lia. }
  destruct (negb (is_none (x_per x))) eqn:EPN.
  { left. split; [reflexivity|]. intros y Hy E EY.
    pose proof (v_uni _ _ _ HI y x Hy Hx ltac:(congruence) EY) as E2.
    rewrite E2 in EPN. discriminate EPN. }
  assert (EPX : x_per x = PNone) by (destruct (x_per x); [reflexivity|discriminate EPN|discriminate EPN]).
  right.
  set (range := filter (fun y => (x_key x <=? x_key y) && (x_key y <? hi)) (s_all s)).
  set (ks := map x_key range).
  assert (SAME : forall y, In y (s_all s) -> lo <= x_key y < hi -> x_per y = PNone).
  { intros y Hy L. apply (v_uni _ _ _ HI x y Hx Hy); [|exact EPX].
    rewrite EXB. symmetry. apply bucket_of; [exact HB|]. subst lo hi. lia. }
  assert (HK : forall k, In k ks <-> lo <= k < hi /\ In k (map x_key (s_all s))).
  { intros k. unfold ks, range. rewrite in_range. split; [intros [A B]; split; [lia|exact B]|].
    intros [A B]. split; [|exact B]. apply in_map_iff in B.
    destruct B as (y & <- & Hy). specialize (HF y Hy). lia. }
  assert (HKS : StronglySorted Z.lt ks) by (apply ss_map_filter, (v_sort _ _ _ HI)).
  assert (EUB : existsb (fun y => negb (is_none (x_per y))) range = false).
  { destruct (existsb _ range) eqn:E; [|reflexivity]. apply existsb_exists in E.
    destruct E as (y & Hy & E). apply filter_In in Hy. destruct Hy as [Hy L].
    rewrite (SAME y Hy) in E; [discriminate E|lia]. }
  rewrite EUB.
  pose proof (map_fst_pair _ _ (ins_pos (x_key x) (s_done s))) as EINS. rewrite EINS.
  set (P := fst (ins_pos (x_key x) (s_done s))). set (Q := snd (ins_pos (x_key x) (s_done s))).
  set (pend' := filter (fun k => negb (existsb (Z.eqb k) ks)) (s_pend s)).
  set (s1 := set_queues s pend' (P ++ ks ++ Q)).
  set (prev := before (x_key x) None (s_pend s)).
  pose proof (mark_ok ok ks s1 None HKS (v_sort _ _ _ HI) (v_bad _ _ _ HI)) as HM.
  destruct (mark ok ks s1 None) as [s2 snap] eqn:EM. destruct HM as (EA & ER & EC).
  assert (EQ1 : s_pend s2 = pend') by (rewrite (r_pend _ _ ER); reflexivity).
  assert (EQ2 : s_done s2 = P ++ ks ++ Q) by (rewrite (r_done _ _ ER); reflexivity).
  assert (ES1 : s1 = set_queues s (s_pend s2) (s_done s2)).
  { unfold s1. rewrite EQ1, EQ2. reflexivity. }
  assert (I2 : inv c N s2).
  { eapply (marked_inv c N s s2 b ok x ks); try assumption.
    - subst lo hi. lia.
    - rewrite <- ES1. exact ER. }
  assert (HPX : In (x_key x) (s_pend s)).
  { apply (v_pin _ _ _ HI). exists x. tauto. }
  pose proof (before_spec (x_key x) (s_pend s) None (v_psort _ _ _ HI) HPX) as HBEF.
  specialize (HBEF ltac:(discriminate)). fold prev in HBEF.
  exists x, ks, s2, snap, prev.
  split; [exact Hx|]. split; [exact EPX|]. split; [exact EXB|].
  split; [exact HK|]. split; [exact HKS|].
  split.
  { intros y Hy Hk. apply SAME; [exact Hy|]. apply HK in Hk. tauto. }
  split; [rewrite <- ES1; exact EM|]. split; [exact EA|].
  split; [rewrite <- ES1; exact ER|]. split; [exact I2|].
  assert (KX0 : forall k, prev = Some k -> In k (s_pend s) /\ k < lo).
  { intros k ->. destruct HBEF as (Hk & HLk & _). destruct Hk as [Hk|Hk]; [|discriminate Hk].
    split; [exact Hk|].
    apply (v_pin _ _ _ HI) in Hk. destruct Hk as (z & Hz & <- & _).
    destruct (Z_lt_le_dec (x_key z) lo); [assumption|]. specialize (HF z Hz l). lia. }
  split; [|split; [|split; [intros k Hk; apply KX0; exact Hk|reflexivity]]].
  2:{ intros ->. destruct EC as [_ EC]. exact EC. }
  intros n ->. destruct EC as [[EC _]|(h & Hh & Hhk & EHS & HLATE)]; [discriminate EC|].
  change (s_all s1) with (s_all s) in Hh, HLATE.
  destruct (v_snap _ _ _ HI h n Hh EHS) as (HPH & HLH & HDH).
  split.
  { exists h. split; [exact Hh|]. split; [exact Hhk|]. split; [exact EHS|].
    split; [exact HPH|]. split; [lia|exact HLATE]. }
  apply HK in Hhk. destruct Hhk as [HLh _].
  assert (TOP : s_top s2 = s_top s) by (rewrite (r_top _ _ ER); reflexivity).
  (* what is between the place where the snapshot goes and its last segment *)
  assert (BTW : forall y, In y (s_all s2) -> x_per y = PNone -> x_key y <= sn_max n ->
    x_key y < x_key x /\ In (x_key y) (s_pend s)).
  { intros y Hy EY L. rewrite EA in Hy. apply in_map_iff in Hy.
    destruct Hy as (z & E & Hz). change (s_all s1) with (s_all s) in Hz.
    assert (MZ : member ks (x_key z) = false /\ x_per z = PNone /\ x_key y = x_key z).
    { subst y. unfold marked in EY |- *. destruct (member ks (x_key z)); [|tauto].
      cbn [x_per] in EY. destruct ok; discriminate EY. }
    destruct MZ as (M & EPZ & EKZ).
    assert (NK : ~ In (x_key z) ks) by (intros H; apply member_in in H; congruence).
    rewrite HK in NK.
    assert (x_key z < lo \/ hi <= x_key z).
    { destruct (Z_lt_le_dec (x_key z) lo); [left; assumption|].
      destruct (Z_lt_le_dec (x_key z) hi); [|right; assumption].
      exfalso. apply NK. split; [lia|apply in_map; exact Hz]. }
    destruct H as [H|H].
    - split; [lia|]. apply (v_pin _ _ _ HI). exists z. split; [exact Hz|]. split; [lia|exact EPZ].
    - exfalso. apply (HDH z Hz); [lia|exact EPZ]. }
  destruct prev as [k|].
  - destruct HBEF as (Hk & HLk & HMAX). destruct Hk as [Hk|Hk]; [|discriminate Hk].
    assert (KX : k < lo) by (apply KX0; reflexivity).
    split; [|split].
    + rewrite EQ1. unfold pend'. apply filter_In. split; [exact Hk|].
      fold (member ks k). destruct (member ks k) eqn:M; [|reflexivity].
      apply member_in, HK in M. lia.
    + rewrite TOP. specialize (HF h Hh ltac:(lia)). lia.
    + intros y Hy L E. destruct (BTW y Hy E ltac:(lia)) as [A B].
      specialize (HMAX _ B A). lia.
  - destruct HBEF as (_ & HMIN). split; [|split].
    + split; [rewrite TOP; lia|]. intros y Hy L E.
      destruct (BTW y Hy E L) as [A B]. specialize (HMIN _ B). lia.
    + intros f Hf. apply (r_out _ _ ER) in Hf. change (s_out s1) with (s_out s) in Hf.
      destruct (v_low _ _ _ HI f Hf) as [_ C].
      destruct (Z_lt_le_dec (fi_max f) (x_key h)) as [L|L]; [lia|].
      exfalso. exact (C h Hh L HPH).
    + intros p Hp. rewrite (r_ps _ _ ER) in Hp. change (s_psnap s1) with (s_psnap s) in Hp.
      destruct (v_ps _ _ _ HI p Hp) as [[_ C] _].
      destruct (Z_lt_le_dec (sn_max p) (x_key h)) as [L|L]; [lia|].
      exfalso. exact (C h Hh L HPH).
Qed.

Lemma fewer_pend : forall c N s s' k,
  inv c N s -> inv c N s' -> fewer s s' -> In k (s_pend s) ->
  In k (map x_key (s_all s')) ->
  forall y, In y (s_all s') -> x_key y = k -> x_per y = PNone.
Proof.
  intros c N s s' k HI HI' (_ & _ & _ & _ & _ & _ & HF) HK _ y Hy E.
  apply (v_pin _ _ _ HI) in HK. destruct HK as (x & Hx & EX & EP).
  destruct (HF y Hy) as (z & Hz & E1 & E2 & _).
  assert (z = x) by (eapply ss_inj; [apply (v_sort _ _ _ HI)|exact Hz|exact Hx|congruence]).
  subst z. congruence.
Qed.

Lemma hand_fewer : forall s s2 s' ks k n,
  fewer s2 s' -> in_hand s s2 ks (Some k) n ->
  k < sn_max n <= s_top s' /\
  forall y, In y (s_all s') -> k < x_key y <= sn_max n -> x_per y <> PNone.
Proof.
  intros s s2 s' ks k n (A1 & _ & _ & _ & _ & _ & A7) (_ & _ & HL & HB).
  split; [rewrite A1; exact HL|]. intros y Hy L.
  destruct (A7 y Hy) as (x & Hx & E1 & E2 & _). rewrite E2. apply HB; [exact Hx|lia].
Qed.

(* What stays when the result of a media file is dealt with. *)
Definition stays (s s' : st) : Prop :=
  map x_key (s_all s') = map x_key (s_all s) \/ incl (map x_key (s_all s')) (map x_key (s_all s)).

Definition same_rest (s s' : st) : Prop :=
  s_next s' = s_next s /\ s_min s' = s_min s /\ s_top s' = s_top s /\
  s_bucket s' = s_bucket s /\ s_last s' = s_last s /\
  (forall y, In y (s_all s') -> exists x, In x (s_all s) /\ x_key y = x_key x /\
     incl (x_cln y) (x_cln x)).

Lemma same_rest_refl : forall s, same_rest s s.
Proof.
  intros s. repeat split; try reflexivity. intros y Hy. exists y.
  split; [exact Hy|]. split; [reflexivity|apply incl_refl].
Qed.

Lemma same_rest_trans : forall a b d, same_rest a b -> same_rest b d -> same_rest a d.
Proof.
  intros a b d (A1 & A2 & A3 & A4 & A5 & A6) (B1 & B2 & B3 & B4 & B5 & B6).
  repeat split; try congruence. intros y Hy.
  destruct (B6 y Hy) as (x & Hx & E1 & E2). destruct (A6 x Hx) as (z & Hz & F1 & F2).
  exists z. split; [exact Hz|]. split; [congruence|]. eapply incl_tran; eassumption.
Qed.

Lemma same_idx_rest : forall s s', same_idx s s' -> same_rest s s'.
Proof.
  intros s s' (A1 & A2 & A3 & A4 & A5 & A6 & A7 & A8).
  repeat split; try assumption. intros y Hy. rewrite A1 in Hy. exists y.
  split; [exact Hy|]. split; [reflexivity|apply incl_refl].
Qed.

Lemma shrinks_rest : forall s s', shrinks s s' -> s_next s' = s_next s -> same_rest s s'.
Proof.
  intros s s' [] HN. repeat split; try assumption. intros y Hy.
  destruct (h_in y Hy) as (x & Hx & E1 & _ & _ & _ & E2). exists x. tauto.
Qed.

Lemma free_idx_rest : forall c N nf s t k,
  inv c N s -> same_rest s (fst (free_idx nf s t k)).
Proof.
  intros c N nf s t k HI. unfold free_idx. destruct nf; [apply same_rest_refl|].
  destruct (find k (s_all s)) as [x|] eqn:EF; [|apply same_idx_rest; repeat split].
  apply find_some in EF. destruct EF as [Hx EX].
  rewrite (v_bad _ _ _ HI x Hx).
  set (s1 := if x_free x then s else emit (upd k idx_free s) (EFree k)).
  assert (R1 : same_rest s s1 /\ inv c N s1).
  { unfold s1. destruct (x_free x); [split; [apply same_rest_refl|exact HI]|].
    assert (S : shrinks s (upd k idx_free s)).
    { eapply upd_shrinks; [exact HI|]. intros y Hy _.
      cbn [idx_free x_key x_per x_bad x_snap x_cln].
      repeat split; try reflexivity; [apply (v_bad _ _ _ HI y Hy)|left; reflexivity|].
      apply incl_refl. }
    assert (E : soft (upd k idx_free s) (emit (upd k idx_free s) (EFree k)))
      by (apply soft_emit; intros f; discriminate).
    split.
    - eapply same_rest_trans; [apply shrinks_rest; [exact S|reflexivity]|].
      apply same_idx_rest, soft_same, E.
    - eapply soft_inv; [exact E|]. eapply shrinks_inv; [exact S|exact HI]. }
  destruct R1 as [R1 I1].
  set (s2 := match x_snap x with
             | Some n => upd k (idx_snap None) (close_ack s1 n)
             | None => s1
             end).
  assert (R2 : same_rest s1 s2 /\ inv c N s2).
  { unfold s2. destruct (x_snap x) as [n|]; [|split; [apply same_rest_refl|exact I1]].
    pose proof (soft_close_ack c N s1 n I1) as SA.
    pose proof (soft_inv _ _ _ _ SA I1) as I1'.
    assert (S : shrinks (close_ack s1 n) (upd k (idx_snap None) (close_ack s1 n))).
    { eapply upd_shrinks; [exact I1'|]. intros y Hy _.
      cbn [idx_snap x_key x_per x_bad x_snap x_cln].
      repeat split; try reflexivity; [right; reflexivity|apply incl_refl]. }
    split; [|eapply shrinks_inv; [exact S|exact I1']].
    eapply same_rest_trans; [apply same_idx_rest, soft_same, SA|].
    apply shrinks_rest; [exact S|reflexivity]. }
  destruct R2 as [R2 I2].
  destruct (x_cln x); cbn [fst].
  - eapply same_rest_trans; [exact R1|]. eapply same_rest_trans; [exact R2|].
    apply shrinks_rest; [apply (remove_shrinks c N s2 k I2)|reflexivity].
  - eapply same_rest_trans; eassumption.
Qed.

Lemma free_upto_rest : forall c N nf lim ks s t,
  inv c N s -> NoDup ks -> (forall k, In k ks -> In k (map x_key (s_all s))) ->
  same_rest s (fst (free_upto nf lim ks s t)).
Proof.
  intros c N nf lim. induction ks as [|k r IH]; intros s t HI HN HK; cbn [free_upto].
  - apply same_rest_refl.
  - destruct (lim <? k); [apply same_rest_refl|].
    pose proof (free_idx_ok c N nf s t k HI (HK k (or_introl eq_refl))) as H.
    pose proof (free_idx_rest c N nf s t k HI) as R.
    destruct (free_idx nf s t k) as [s1 t1]. cbn [fst] in R.
    destruct H as (I1 & F1 & L1 & K1).
    inversion HN as [|? ? HN1 HN2]; subst.
    eapply same_rest_trans; [exact R|]. apply IH; [exact I1|exact HN2|].
    intros a Ha. apply K1; [apply HK; right; exact Ha|].
    intros ->. apply HN1. exact Ha.
Qed.

Lemma free_non_forced_rest : forall c N nf s,
  inv c N s -> same_rest s (free_non_forced c nf s).
Proof.
  intros c N nf s HI. unfold free_non_forced.
  destruct (s_last s) as [l|]; [|apply same_rest_refl].
  destruct (l <? c_force c); [apply same_rest_refl|].
  pose proof (free_upto_rest c N nf (l - c_force c) (s_done s) s 0 HI
    (ss_nodup _ (v_dsort _ _ _ HI))) as R.
  destruct (free_upto nf (l - c_force c) (s_done s) s 0) as [s' t]. cbn [fst] in R.
  eapply same_rest_trans; [apply R|apply same_idx_rest, soft_same, soft_truncate].
  intros k Hk. apply (v_din _ _ _ HI) in Hk. destruct Hk as (x & Hx & <- & _).
  apply in_map. exact Hx.
Qed.

Lemma mark_rest : forall ok ks s s2,
  s_all s2 = map (marked ok ks) (s_all s) ->
  rest (set_queues s (s_pend s2) (s_done s2)) s2 -> same_rest s s2.
Proof.
  intros ok ks s s2 EA ER. repeat split.
  - rewrite (r_next _ _ ER). reflexivity.
  - rewrite (r_min _ _ ER). reflexivity.
  - rewrite (r_top _ _ ER). reflexivity.
  - rewrite (r_bucket _ _ ER). reflexivity.
  - rewrite (r_last _ _ ER). reflexivity.
  - intros y Hy. rewrite EA in Hy. apply in_map_iff in Hy. destruct Hy as (x & <- & Hx).
    exists x. split; [exact Hx|]. unfold marked. destruct (member _ _);
      (split; [reflexivity|apply incl_refl]).
Qed.

Lemma finish_ok : forall c N s s2 s3 hi ok snap prev ks,
  inv c N s2 -> inv c N s3 -> fewer s2 s3 ->
  (forall a, In a (s_pend s2) -> In a (map x_key (s_all s3))) ->
  (forall n, snap = Some n -> in_hand s s2 ks prev n) ->
  inv c N (finish c s3 hi ok snap prev) /\ same_rest s3 (finish c s3 hi ok snap prev).
Proof.
  intros c N s s2 s3 hi ok snap prev ks I2 I3 F HP HH. unfold finish.
  destruct snap as [n|]; [|split; [exact I3|apply same_rest_refl]].
  specialize (HH n eq_refl).
  destruct (negb ok && negb (hi <=? sn_max n)).
  { pose proof (soft_close_ack c N s3 n I3) as S.
    split; [eapply soft_inv; [exact S|exact I3]|apply same_idx_rest, soft_same, S]. }
  destruct prev as [k|].
  - destruct (find k (s_all s3)) as [y|] eqn:EF.
    2:{ exfalso. destruct HH as (_ & HK & _). apply HP in HK. apply in_map_iff in HK.
        destruct HK as (y & E & Hy). eapply find_none; [exact EF|exact Hy|exact E]. }
    apply find_some in EF. destruct EF as [Hy EY]. rewrite (v_bad _ _ _ I3 y Hy).
    set (s4 := match x_snap y with Some m => close_free s3 m | None => s3 end).
    assert (S : soft s3 s4).
    { unfold s4. destruct (x_snap y); [apply soft_close_free|apply soft_refl]. }
    pose proof (soft_inv _ _ _ _ S I3) as I4.
    assert (F4 : fewer s2 s4) by (eapply fewer_trans; [exact F|apply soft_fewer; exact S]).
    destruct (hand_fewer s s2 s4 ks k n F4 HH) as [HL HB].
    destruct HH as (_ & HK & _).
    assert (HK4 : In k (map x_key (s_all s4))).
    { rewrite (f_all _ _ S). apply HP. exact HK. }
    split.
    + apply hand_inv; [exact I4|exact HK4| |lia|exact HB].
      exact (fewer_pend c N s2 s4 k I2 I4 F4 HK HK4).
    + eapply same_rest_trans; [apply same_idx_rest, soft_same, S|].
      repeat split. intros z Hz. rewrite upd_all in Hz. apply in_map_iff in Hz.
      destruct Hz as (w & <- & Hw). exists w. split; [exact Hw|].
      destruct (x_key w =? k); (split; [reflexivity|apply incl_refl]).
  - destruct HH as (_ & HFIT).
    destruct (close_write_ok c N s3 n I3 (fit_snap_fewer _ _ _ F HFIT)) as [A B].
    split; [exact A|apply same_idx_rest; exact B].
Qed.

Lemma persisted_ok : forall c N nf s b ok,
  1 <= c_bucket c -> inv c N s -> b * c_bucket c + c_bucket c <= N ->
  let s' := persisted c nf s (b * c_bucket c) (b * c_bucket c + c_bucket c) ok in
  inv c N s' /\ same_rest s s'.
Proof.
  intros c N nf s b ok HB HI HN s'. unfold s'.
  destruct (persisted_shape c N nf s b ok HB HI HN) as [[E _]|H].
  - rewrite E. split; [exact HI|apply same_rest_refl].
  - destruct H as (x & ks & s2 & snap & prev & Hx & EPX & EXB & HK & HKS & HPS & EM & EA &
      ER & I2 & HH & _ & _ & E).
    rewrite E. destruct (free_non_forced_ok c N nf s2 I2) as (I3 & F3 & L3 & P3).
    destruct (finish_ok c N s s2 (free_non_forced c nf s2)
      (b * c_bucket c + c_bucket c) ok snap prev ks I2 I3 F3 P3 HH) as [A B].
    split; [exact A|]. eapply same_rest_trans; [eapply mark_rest; [exact EA|exact ER]|].
    eapply same_rest_trans; [apply (free_non_forced_rest c N nf s2 I2)|exact B].
Qed.

(* ------------------------------------------------------------------ *)
(* The writes of media files                                            *)

Lemma media_done_ok : forall c N nf s b ok,
  1 <= c_bucket c -> inv c N s -> b * c_bucket c + c_bucket c <= N ->
  inv c N (media_done c nf s b ok) /\ same_rest s (media_done c nf s b ok).
Proof.
  intros c N nf s b ok HB HI HN. unfold media_done.
  pose proof (unlock_shrinks c N s (is_cw b) HI) as S.
  pose proof (shrinks_inv _ _ _ _ S HI) as I1.
  destruct (persisted_ok c N nf (unlock (is_cw b) s) b ok HB I1 HN) as [A B].
  split; [exact A|]. eapply same_rest_trans; [apply shrinks_rest; [exact S|reflexivity]|exact B].
Qed.

(* A cleanup entry is added. *)
Lemma lock_inv : forall c N s k e,
  inv c N s -> (forall b, e = CWrite b -> b * c_bucket c + c_bucket c <= N) ->
  inv c N (upd k (fun x => idx_cln (x_cln x ++ [e]) x) s).
Proof.
  intros c N s k e HI HE.
  set (f := fun x => idx_cln (x_cln x ++ [e]) x).
  assert (IN2 : forall y, In y (s_all (upd k f s)) -> exists z,
    In z (s_all s) /\ x_key y = x_key z /\ x_per y = x_per z /\ x_bad y = x_bad z /\
    x_snap y = x_snap z /\ (forall b, In (CWrite b) (x_cln y) ->
      In (CWrite b) (x_cln z) \/ e = CWrite b)).
  { intros y Hy. rewrite upd_all in Hy. apply in_map_iff in Hy.
    destruct Hy as (z & <- & Hz). exists z. split; [exact Hz|].
    destruct (x_key z =? k).
    - repeat split; try reflexivity. intros b Hb. cbn [f idx_cln x_cln] in Hb.
      apply in_app_or in Hb. destruct Hb as [Hb|[Hb|[]]]; [left; exact Hb|right; exact Hb].
    - repeat split; try reflexivity. intros b Hb. left. exact Hb. }
  assert (OUT2 : forall z, In z (s_all s) -> exists y,
    In y (s_all (upd k f s)) /\ x_key y = x_key z /\ x_per y = x_per z).
  { intros z Hz. exists (if x_key z =? k then f z else z).
    split; [rewrite upd_all; apply in_map_iff; exists z; split; [reflexivity|exact Hz]|].
    destruct (x_key z =? k); split; reflexivity. }
  assert (EC : forall m, covered s m -> covered (upd k f s) m).
  { intros m [A C]. split; [exact A|]. intros y Hy L.
    destruct (IN2 y Hy) as (z & Hz & E1 & E2 & _). rewrite E2. apply C; [exact Hz|lia]. }
  destruct HI as []. split; try assumption.
  - rewrite upd_all, upd_key; [exact v_sort|]. intros y. reflexivity.
  - intros a. change (s_pend (upd k f s)) with (s_pend s). rewrite v_pin. split.
    + intros (z & Hz & E & P). destruct (OUT2 z Hz) as (y & Hy & E1 & E2).
      exists y. split; [exact Hy|]. split; congruence.
    + intros (y & Hy & E & P). destruct (IN2 y Hy) as (z & Hz & E1 & E2 & _).
      exists z. split; [exact Hz|]. split; congruence.
  - intros a. change (s_done (upd k f s)) with (s_done s). rewrite v_din. split.
    + intros (z & Hz & E & P). destruct (OUT2 z Hz) as (y & Hy & E1 & E2).
      exists y. split; [exact Hy|]. split; congruence.
    + intros (y & Hy & E & P). destruct (IN2 y Hy) as (z & Hz & E1 & E2 & _).
      exists z. split; [exact Hz|]. split; congruence.
  - intros y Hy. destruct (IN2 y Hy) as (z & Hz & E1 & _). rewrite E1. apply v_top. exact Hz.
  - intros y Hy. destruct (IN2 y Hy) as (z & Hz & _ & _ & E & _). rewrite E. apply v_bad. exact Hz.
  - intros y m Hy E. destruct (IN2 y Hy) as (z & Hz & E1 & E2 & _ & ES & _).
    rewrite ES in E. destruct (v_snap z m Hz E) as (A & B & C).
    rewrite E1, E2. split; [exact A|]. split; [exact B|].
    intros u Hu L. destruct (IN2 u Hu) as (w & Hw & F1 & F2 & _). rewrite F2.
    apply C; [exact Hw|lia].
  - intros y z Hy Hz E P. destruct (IN2 y Hy) as (u & Hu & E1 & E2 & _).
    destruct (IN2 z Hz) as (w & Hw & F1 & F2 & _). rewrite F2.
    apply (v_uni u w Hu Hw); congruence.
  - intros y Hy P. destruct (IN2 y Hy) as (z & Hz & E1 & E2 & _). rewrite E1.
    apply v_late; [exact Hz|congruence].
  - intros y b Hy Hb. destruct (IN2 y Hy) as (z & Hz & _ & _ & _ & _ & E).
    destruct (E b Hb) as [E'|E']; [exact (v_cw z b Hz E')|exact (HE b E')].
  - intros g Hg. apply EC, v_low. exact Hg.
  - intros m E. destruct (v_ps m E) as [A B]. split; [apply EC; exact A|exact B].
Qed.

Lemma write_file_ok : forall c N s b,
  1 <= c_bucket c -> inv c N s -> b * c_bucket c + c_bucket c <= N ->
  inv c N (write_file c s b) /\ s_next (write_file c s b) = s_next s /\
  s_min (write_file c s b) = s_min s /\ s_top (write_file c s b) = s_top s /\
  s_bucket (write_file c s b) = s_bucket s /\ s_last (write_file c s b) = s_last s /\
  (forall y, In y (s_all (write_file c s b)) -> exists x, In x (s_all s) /\ x_key y = x_key x).
Proof.
  intros c N s b HB HI HN. unfold write_file.
  pose proof (soft_pop s) as S. destruct (pop s) as [go s1]. cbn [snd] in S.
  pose proof (soft_inv _ _ _ _ S HI) as I1.
  assert (P : forall ok, let s' := persisted c false s1 (b * c_bucket c)
     (b * c_bucket c + c_bucket c) ok in
     inv c N s' /\ s_next s' = s_next s /\ s_min s' = s_min s /\ s_top s' = s_top s /\
     s_bucket s' = s_bucket s /\ s_last s' = s_last s /\
     (forall y, In y (s_all s') -> exists x, In x (s_all s) /\ x_key y = x_key x)).
  { intros ok. destruct (persisted_ok c N false s1 b ok HB I1 HN) as (A & B1 & B2 & B3 & B4 & B5 & B6).
    destruct S as []. split; [exact A|]. repeat split; try congruence.
    intros y Hy. destruct (B6 y Hy) as (x & Hx & E & _). exists x. rewrite <- f_all. tauto. }
  destruct (media_holder _ _ (s_all s1)) as [k|]; [|apply P].
  destruct go; [|apply P].
  split.
  - apply lock_inv; [exact I1|]. intros d E. injection E as <-. exact HN.
  - destruct S as []. repeat split; try assumption. intros y Hy. rewrite upd_all in Hy.
    apply in_map_iff in Hy. destruct Hy as (x & <- & Hx). exists x. rewrite <- f_all.
    split; [exact Hx|]. destruct (x_key x =? k); reflexivity.
Qed.

(* ------------------------------------------------------------------ *)
(* The operations                                                       *)

Lemma inv_mono : forall c N M s, N <= M -> inv c N s -> inv c M s.
Proof.
  intros c N M s HL []. split; try assumption.
  - destruct v_init as (A & B & C). repeat split; try tauto; lia.
  - intros x Hx P. specialize (v_late x Hx P). lia.
  - intros x b Hx Hb. specialize (v_cw x b Hx Hb). lia.
  - intros b E. specialize (v_bucket b E). lia.
  - intros l E. specialize (v_last l E). lia.
Qed.

Lemma set_bucket_inv : forall c N s b,
  inv c N s -> (forall d, b = Some d -> d * c_bucket c < N) -> inv c N (set_bucket s b).
Proof. intros c N s b [] H. split; assumption. Qed.

Lemma set_last_inv : forall c N s k, inv c N s -> k < N -> inv c N (set_last s k).
Proof.
  intros c N s k [] H. split; try assumption. intros l E. injection E as <-. exact H.
Qed.

Lemma set_next_inv : forall c N s n, inv c N s -> inv c N (set_next s n).
Proof. intros c N s n []. split; assumption. Qed.

Lemma set_min_inv : forall c N s m, inv c N s -> s_min s <= m -> inv c N (set_min s m).
Proof.
  intros c N s m [] H. split; try assumption.
  cbn [set_min s_min s_top]. lia.
Qed.

Lemma create_inv : forall c s k,
  1 <= c_bucket c -> inv c (s_next s) s ->
  s_next s <= k -> s_top s < k -> k < 4294967295 -> inv c (s_next s) (create s k).
Proof.
  intros c s k HB HI HL HT HM. unfold create.
  set (new := Idx k PNone None false false []).
  assert (EC : forall m, covered s m -> covered (create s k) m).
  { intros m [A C]. split; [cbn [create set_top s_top]; lia|].
    intros y Hy L. cbn [create set_top set_queues set_all s_all] in Hy.
    apply in_app_or in Hy. destruct Hy as [Hy|[<-|[]]]; [exact (C y Hy L)|].
    cbn [x_key] in L. lia. }
  destruct HI as [].
  assert (OLD : forall x, In x (s_all s) -> x_key x < k).
  { intros x Hx. specialize (v_top x Hx). lia. }
  assert (EA : forall y, In y (s_all s ++ [new]) <-> In y (s_all s) \/ y = new).
  { intros y. rewrite in_app_iff. cbn [In]. split; intros [H|H]; [left; exact H| |left; exact H|].
    - destruct H as [H|[]]. right. symmetry. exact H.
    - right. left. symmetry. exact H. }
  split; cbn [set_top set_queues set_all s_all s_pend s_done s_top s_min s_bucket s_last s_out
    s_wr s_wfr s_psnap s_ub]; try assumption.
  - rewrite map_app. apply ss_app. split; [exact v_sort|].
    split; [constructor; [constructor|constructor]|].
    intros a b Ha [<-|[]]. apply in_map_iff in Ha. destruct Ha as (x & <- & Hx).
    apply OLD. exact Hx.
  - apply ss_app. split; [exact v_psort|].
    split; [constructor; [constructor|constructor]|].
    intros a b Ha [<-|[]]. apply v_pin in Ha. destruct Ha as (x & Hx & <- & _).
    apply OLD. exact Hx.
  - intros a. rewrite in_app_iff, v_pin. split.
    + intros [(x & Hx & E)|[<-|[]]]; [exists x; rewrite EA; tauto|].
      exists new. rewrite EA. repeat split; try reflexivity. right. reflexivity.
    + intros (x & Hx & E1 & E2). apply EA in Hx. destruct Hx as [Hx| ->];
        [left; exists x; tauto|]. right. left. exact E1.
  - intros a. rewrite v_din. split.
    + intros (x & Hx & E). exists x. rewrite EA. tauto.
    + intros (x & Hx & E1 & E2). apply EA in Hx. destruct Hx as [Hx| ->];
        [exists x; tauto|]. exfalso. apply E2. reflexivity.
  - intros x Hx. apply EA in Hx. destruct Hx as [Hx| ->].
    + specialize (v_top x Hx). specialize (OLD x Hx). lia.
    + cbn [new x_key]. lia.
  - lia.
  - intros x Hx. apply EA in Hx. destruct Hx as [Hx| ->]; [apply v_bad; exact Hx|reflexivity].
  - intros x n Hx E. apply EA in Hx. destruct Hx as [Hx| ->]; [|discriminate E].
    destruct (v_snap x n Hx E) as (A & B & C). split; [exact A|]. split; [lia|].
    intros y Hy L. apply EA in Hy. destruct Hy as [Hy| ->]; [exact (C y Hy L)|].
    cbn [new x_key] in L. lia.
  - intros x y Hx Hy E P. apply EA in Hx. apply EA in Hy.
    destruct Hx as [Hx| ->], Hy as [Hy| ->].
    + exact (v_uni x y Hx Hy E P).
    + reflexivity.
    + cbn [new x_key] in E. destruct (x_per y) eqn:EP; [reflexivity| |].
      * exfalso. pose proof (v_late y Hy ltac:(congruence)) as H.
        symmetry in E. apply bucket_of in E; [|exact HB].
        assert (HK : k / c_bucket c = k / c_bucket c) by reflexivity.
        apply bucket_of in HK; [|exact HB].
        assert (x_key y / c_bucket c = k / c_bucket c) by (apply bucket_of; assumption).
        rewrite H0 in H. lia.
      * exfalso. pose proof (v_late y Hy ltac:(congruence)) as H.
        symmetry in E. apply bucket_of in E; [|exact HB].
        assert (HK : k / c_bucket c = k / c_bucket c) by reflexivity.
        apply bucket_of in HK; [|exact HB].
        assert (x_key y / c_bucket c = k / c_bucket c) by (apply bucket_of; assumption).
        rewrite H0 in H. lia.
    + reflexivity.
  - intros x Hx P. apply EA in Hx. destruct Hx as [Hx| ->]; [exact (v_late x Hx P)|].
    exfalso. apply P. reflexivity.
  - intros x b Hx Hb. apply EA in Hx. destruct Hx as [Hx| ->]; [exact (v_cw x b Hx Hb)|].
    destruct Hb.
  - intros f Hf. apply (EC (fi_max f)), v_low. exact Hf.
  - intros n E. destruct (v_ps n E) as [A B]. split; [exact (EC _ A)|exact B].
Qed.

Lemma snap_inv : forall c s x,
  1 <= c_bucket c -> inv c (s_next s) s ->
  last_idx (s_all s) = Some x -> s_next s <= x_key x ->
  inv c (s_next s) (create_snap s true).
Proof.
  intros c s x HB HI EL HL. unfold create_snap. rewrite EL.
  destruct (last_idx_some _ _ EL) as (r & ER).
  assert (Hx : In x (s_all s)) by (rewrite ER; apply in_or_app; right; left; reflexivity).
  rewrite (v_bad _ _ _ HI x Hx).
  assert (F : inv c (s_next s) (fail s)) by (destruct HI; split; assumption).
  destruct (x_snap x) as [n|]; [exact F|].
  set (k := x_key x) in *.
  assert (HI' : inv c (s_next s) (upd k (idx_snap (Some (Isnap k k))) s)).
  { apply hand_inv; [exact HI|unfold k; apply in_map; exact Hx| | |].
    - intros y Hy E. destruct (x_per y) eqn:EP; [reflexivity| |];
        (exfalso; pose proof (v_late _ _ _ HI y Hy ltac:(congruence)) as H;
         assert (x_key y / c_bucket c = x_key y / c_bucket c) as HK by reflexivity;
         apply bucket_of in HK; [|exact HB]; lia).
    - cbn [sn_max]. pose proof (v_top _ _ _ HI x Hx). fold k in H. lia.
    - cbn [sn_max]. intros y Hy L. lia. }
  eapply soft_inv; [apply soft_snaps|]. eapply soft_inv; [apply soft_emit|exact HI'].
  intros f. discriminate.
Qed.

Lemma free_below_ok : forall c N m ks s,
  inv c N s -> NoDup ks -> (forall k, In k ks -> In k (map x_key (s_all s))) ->
  inv c N (free_below m ks s) /\ same_rest s (free_below m ks s).
Proof.
  intros c N m. induction ks as [|k r IH]; intros s HI HN HK; cbn [free_below].
  - split; [exact HI|apply same_rest_refl].
  - destruct (m <=? k); [split; [exact HI|apply same_rest_refl]|].
    pose proof (free_idx_ok c N false s 0 k HI (HK k (or_introl eq_refl))) as H.
    pose proof (free_idx_rest c N false s 0 k HI) as R.
    destruct (free_idx false s 0 k) as [s1 t1]. cbn [fst] in R |- *.
    destruct H as (I1 & F1 & L1 & K1).
    inversion HN as [|? ? HN1 HN2]; subst.
    destruct (IH s1 I1 HN2) as [A B].
    { intros a Ha. apply K1; [apply HK; right; exact Ha|].
      intros ->. apply HN1. exact Ha. }
    split; [exact A|]. eapply same_rest_trans; eassumption.
Qed.

Lemma expire_ok : forall c N s m,
  inv c N s -> s_min s <= m -> inv c N (expire s m) /\ s_next (expire s m) = s_next s.
Proof.
  intros c N s m HI HM. unfold expire.
  pose proof (set_min_inv c N s m HI HM) as I1.
  destruct (free_below_ok c N m (map x_key (s_all (set_min s m))) (set_min s m) I1) as [A B].
  - apply ss_nodup. exact (v_sort _ _ _ I1).
  - intros k Hk. exact Hk.
  - split; [exact A|]. destruct B as (E & _). exact E.
Qed.

Lemma cleanup_ok : forall c N l s,
  1 <= c_bucket c -> inv c N s ->
  (forall b, In (CWrite b) l -> b * c_bucket c + c_bucket c <= N) ->
  inv c N (cleanup c l s) /\ same_rest s (cleanup c l s).
Proof.
  intros c N. induction l as [|e l IH]; intros s HB HI HL; cbn [cleanup].
  - split; [exact HI|apply same_rest_refl].
  - destruct e as [i|b].
    + pose proof (unlock_shrinks c N s (is_cr i) HI) as S.
      assert (E : soft (unlock (is_cr i) s) (emit (unlock (is_cr i) s) (ECut i)))
        by (apply soft_emit; intros f; discriminate).
      destruct (IH (emit (unlock (is_cr i) s) (ECut i)) HB) as [A B].
      * eapply soft_inv; [exact E|]. eapply shrinks_inv; [exact S|exact HI].
      * intros b Hb. apply HL. right. exact Hb.
      * split; [exact A|]. eapply same_rest_trans; [|exact B].
        eapply same_rest_trans; [apply shrinks_rest; [exact S|reflexivity]|].
        apply same_idx_rest, soft_same, E.
    + destruct (media_done_ok c N true s b false HB HI (HL b (or_introl eq_refl))) as [A1 B1].
      destruct (IH (media_done c true s b false) HB A1) as [A B].
      * intros d Hd. apply HL. right. exact Hd.
      * split; [exact A|]. eapply same_rest_trans; eassumption.
Qed.

(* With no_free set, nothing leaves. *)
Lemma nofree_upto : forall lim ks s t, free_upto true lim ks s t = (s, t).
Proof.
  intros lim. induction ks as [|k r IH]; intros s t; cbn [free_upto]; [reflexivity|].
  destruct (lim <? k); [reflexivity|]. cbn [free_idx]. apply IH.
Qed.

Lemma nofree_non_forced : forall c s, free_non_forced c true s = s.
Proof.
  intros c s. unfold free_non_forced. destruct (s_last s) as [l|]; [|reflexivity].
  destruct (l <? c_force c); [reflexivity|]. rewrite nofree_upto. reflexivity.
Qed.

Lemma finish_keys : forall c N s hi ok snap prev,
  inv c N s -> map x_key (s_all (finish c s hi ok snap prev)) = map x_key (s_all s).
Proof.
  intros c N s hi ok snap prev HI. unfold finish. destruct snap as [n|]; [|reflexivity].
  destruct (negb ok && negb (hi <=? sn_max n)).
  { rewrite (f_all _ _ (soft_close_ack c N s n HI)). reflexivity. }
  destruct prev as [k|].
  - destruct (find k (s_all s)) as [y|]; [|reflexivity].
    rewrite upd_all, upd_key by reflexivity.
    destruct (x_snap y) as [m|]; [unfold close_free; rewrite drop_all|];
      destruct (x_bad y); reflexivity.
  - unfold close_write. destruct (s_wr s) as [w|].
    + cbn [set_psnap s_all]. destruct (s_psnap s); [unfold close_free; rewrite drop_all|]; reflexivity.
    + destruct (sn_max n <? s_min s); [rewrite (f_all _ _ (soft_ack s _)); reflexivity|].
      set (f := scope_of c s (sn_max n)).
      set (s1 := if fi_delta f then s else
                 if s_hist s <=? sn_max n then set_hist s 0 (s_hv s) else s).
      assert (E1 : s_all s1 = s_all s).
      { unfold s1. destruct (fi_delta f); [reflexivity|].
        destruct (s_hist s <=? sn_max n); reflexivity. }
      pose proof (soft_pop s1) as S. destruct (pop s1) as [b s2]. cbn [snd] in S.
      pose proof (f_all _ _ S) as E2.
      destruct b; [cbn [set_write emit s_all]; congruence|].
      rewrite (f_all _ _ (soft_ack s2 (sn_fr n))). congruence.
Qed.

Lemma nofree_done_keys : forall c N s b ok,
  1 <= c_bucket c -> inv c N s -> b * c_bucket c + c_bucket c <= N ->
  map x_key (s_all (media_done c true s b ok)) = map x_key (s_all s).
Proof.
  intros c N s b ok HB HI HN. unfold media_done.
  pose proof (unlock_shrinks c N s (is_cw b) HI) as S.
  pose proof (shrinks_inv _ _ _ _ S HI) as I1.
  assert (E1 : map x_key (s_all (unlock (is_cw b) s)) = map x_key (s_all s)).
  { unfold unlock. cbn [set_all s_all]. apply map_key. intros x _. reflexivity. }
  destruct (persisted_shape c N true (unlock (is_cw b) s) b ok HB I1 HN) as [[E _]|H].
  - rewrite E. exact E1.
  - destruct H as (x & ks & s2 & snap & prev & Hx & EPX & EXB & HK & HKS & HPS & EM & EA &
      ER & I2 & HH & _ & _ & E).
    rewrite E, nofree_non_forced, (finish_keys c N) by exact I2.
    rewrite EA, <- E1. apply map_key. intros y _. unfold marked. destruct (member _ _); reflexivity.
Qed.

Lemma cleanup_keys : forall c N l s,
  1 <= c_bucket c -> inv c N s ->
  (forall b, In (CWrite b) l -> b * c_bucket c + c_bucket c <= N) ->
  map x_key (s_all (cleanup c l s)) = map x_key (s_all s).
Proof.
  intros c N. induction l as [|e l IH]; intros s HB HI HL; cbn [cleanup]; [reflexivity|].
  destruct e as [i|b].
  - pose proof (unlock_shrinks c N s (is_cr i) HI) as S.
    rewrite IH; [|exact HB| |].
    + cbn [emit s_all]. unfold unlock. cbn [set_all s_all]. apply map_key. intros x _. reflexivity.
    + eapply soft_inv; [apply soft_emit; intros f; discriminate|].
      eapply shrinks_inv; [exact S|exact HI].
    + intros b Hb. apply HL. right. exact Hb.
  - pose proof (HL b (or_introl eq_refl)) as Hb.
    destruct (media_done_ok c N true s b false HB HI Hb) as [A1 _].
    rewrite IH; [|exact HB|exact A1|].
    + exact (nofree_done_keys c N s b false HB HI Hb).
    + intros d Hd. apply HL. right. exact Hd.
Qed.

Lemma watermark_loop_ok : forall c N ks s t,
  1 <= c_bucket c -> inv c N s -> NoDup ks ->
  (forall k, In k ks -> In k (map x_key (s_all s))) ->
  inv c N (fst (watermark_loop c ks s t)) /\ same_rest s (fst (watermark_loop c ks s t)).
Proof.
  intros c N. induction ks as [|k r IH]; intros s t HB HI HN HK; cbn [watermark_loop].
  - split; [exact HI|apply same_rest_refl].
  - pose proof (soft_pop s) as S. destruct (pop s) as [low s1]. cbn [snd] in S.
    pose proof (soft_inv _ _ _ _ S HI) as I1.
    pose proof (same_idx_rest _ _ (soft_same _ _ S)) as R1.
    destruct (negb low); [split; assumption|].
    destruct (s_next s1 <=? k); [split; assumption|].
    assert (HK1 : forall a, In a (k :: r) -> In a (map x_key (s_all s1))).
    { intros a Ha. rewrite (f_all _ _ S). apply HK. exact Ha. }
    clear HK. pose proof (HK1 k (or_introl eq_refl)) as Hk.
    destruct (find k (s_all s1)) as [x|] eqn:EF.
    2:{ exfalso. apply in_map_iff in Hk. destruct Hk as (y & E & Hy).
        eapply find_none; [exact EF|exact Hy|exact E]. }
    apply find_some in EF. destruct EF as [Hx EX].
    assert (HCL : forall b, In (CWrite b) (x_cln x) -> b * c_bucket c + c_bucket c <= N).
    { intros b Hb. exact (v_cw _ _ _ I1 x b Hx Hb). }
    destruct (cleanup_ok c N (x_cln x) s1 HB I1 HCL) as [I2 R2].
    pose proof (cleanup_keys c N (x_cln x) s1 HB I1 HCL) as EK2.
    set (s2 := cleanup c (x_cln x) s1) in *.
    assert (R02 : same_rest s s2) by (eapply same_rest_trans; eassumption).
    assert (HK2 : forall a, In a (k :: r) -> In a (map x_key (s_all s2))).
    { intros a Ha. rewrite EK2. apply HK1. exact Ha. }
    destruct (find k (s_all s2)) as [y|] eqn:EF2.
    2:{ exfalso. specialize (HK2 k (or_introl eq_refl)). apply in_map_iff in HK2.
        destruct HK2 as (y & E & Hy). eapply find_none; [exact EF2|exact Hy|exact E]. }
    destruct (x_cln y); [|split; assumption].
    pose proof (free_idx_ok c N false s2 t k I2 (HK2 k (or_introl eq_refl))) as H.
    pose proof (free_idx_rest c N false s2 t k I2) as R3.
    destruct (free_idx false s2 t k) as [s3 t3]. cbn [fst] in R3.
    destruct H as (I3 & F3 & L3 & K3).
    inversion HN as [|? ? HN1 HN2]; subst.
    destruct (IH s3 t3 HB I3 HN2) as [A B].
    { intros a Ha. apply K3; [apply HK2; right; exact Ha|]. intros ->. apply HN1. exact Ha. }
    split; [exact A|]. eapply same_rest_trans; [exact R02|].
    eapply same_rest_trans; eassumption.
Qed.

Lemma watermark_ok : forall c N s,
  1 <= c_bucket c -> inv c N s -> inv c N (watermark c s) /\ same_rest s (watermark c s).
Proof.
  intros c N s HB HI. unfold watermark.
  destruct (watermark_loop_ok c N (map x_key (s_all s)) s 0 HB HI
    (ss_nodup _ (v_sort _ _ _ HI)) (fun k Hk => Hk)) as [A B].
  destruct (watermark_loop c (map x_key (s_all s)) s 0) as [s' t]. cbn [fst] in A, B.
  split; [eapply soft_inv; [apply soft_truncate|exact A]|].
  eapply same_rest_trans; [exact B|apply same_idx_rest, soft_same, soft_truncate].
Qed.

Lemma write_done_ok : forall c N s ok stored,
  inv c N s -> s_wr s <> None ->
  inv c N (write_done c s ok stored) /\ same_idx s (write_done c s ok stored).
Proof.
  intros c N s ok stored HI HW. unfold write_done.
  destruct (s_wr s) as [f|] eqn:EW; [|congruence].
  destruct (v_wr _ _ _ HI f EW) as [HST HWF].
  destruct (s_wfr s) as [fr|]; [|congruence]. clear HWF HW.
  pose proof (soft_ack s fr) as S. pose proof (soft_inv _ _ _ _ S HI) as I1.
  set (s1 := frames_ack s fr) in *.
  (* the files *)
  set (s2 := set_write s1 None None).
  set (s3 := if ok || stored
             then if fi_delta f then set_files s2 (s_index s2) (Some f)
                  else set_files s2 (Some f) (s_delta s2)
             else s2).
  set (s4 := if ok
             then emit (if fi_delta f then set_succ s3 (s_succ s3) (fi_max f)
                        else set_succ s3 (fi_max f) (s_succd s3)) (EStored f)
             else s3).
  assert (S4 : soft s2 s4).
  { assert (S3 : soft s2 s3).
    { unfold s3. destruct (ok || stored); [|apply soft_refl].
      destruct (fi_delta f); split; reflexivity. }
    eapply soft_trans; [exact S3|]. unfold s4. destruct ok; [|apply soft_refl].
    eapply soft_trans; [|apply soft_emit; intros g; discriminate].
    destruct (fi_delta f); split; reflexivity. }
  assert (SI : same_idx s s4).
  { destruct (soft_same _ _ S) as (A1 & A2 & A3 & A4 & A5 & A6 & A7 & A8).
    destruct (soft_same _ _ S4) as (B1 & B2 & B3 & B4 & B5 & B6 & B7 & B8).
    unfold s2 in *. cbn [set_write s_all s_pend s_done s_last s_next s_min s_top s_bucket] in *.
    repeat split; congruence. }
  assert (OUT : forall g, In (EStart g) (s_out s4) <-> In (EStart g) (s_out s)).
  { intros g. rewrite (f_out _ _ S4). unfold s2. cbn [set_write s_out].
    apply (f_out _ _ S). }
  (* the invariant with no snapshot waiting *)
  assert (I5 : inv c N (set_psnap s4 None)).
  { assert (I2 : inv c N (set_psnap s2 None)).
    { destruct I1 as []. split; try assumption.
      - intros g E. discriminate E.
      - intros _. split; reflexivity.
      - intros n E. discriminate E. }
    eapply soft_inv; [|exact I2].
    destruct S4 as []. split; try assumption. reflexivity. }
  destruct (s_psnap s4) as [n|] eqn:EP.
  - pose proof (f_ps _ _ S4) as EP2. rewrite EP in EP2. cbn [set_write s_psnap] in EP2.
    change (s_psnap s2) with (s_psnap s1) in EP2. rewrite (f_ps _ _ S) in EP2.
    destruct (s_psnap s) as [p|] eqn:EPS; [|discriminate EP2].
    cbn [option_map] in EP2. injection EP2 as EP2.
    destruct (v_ps _ _ _ HI p EPS) as [HC HF].
    destruct SI as (A1 & A2 & A3 & A4 & A5 & A6 & A7 & A8).
    assert (FS : fit_snap (set_psnap s4 None) n).
    { split; [|split].
      - rewrite EP2. destruct HC as [C1 C2].
        split; cbn [set_psnap s_top s_all]; [rewrite A7|rewrite A1]; assumption.
      - intros g Hg. rewrite EP2. apply HF, OUT. exact Hg.
      - intros q E. discriminate E. }
    destruct (close_write_ok c N (set_psnap s4 None) n I5 FS) as [B1 B2].
    split; [exact B1|].
    destruct B2 as (C1 & C2 & C3 & C4 & C5 & C6 & C7 & C8).
    cbn [set_psnap s_all s_pend s_done s_last s_next s_min s_top s_bucket] in *.
    repeat split; congruence.
  - split; [|exact SI]. destruct I5 as []. split; try assumption.
    + intros E. split; [exact (proj1 (v_nowr E))|exact EP].
    + intros n E. congruence.
Qed.

Lemma hist_inv : forall c N s, inv c N s -> inv c N (history_changed s).
Proof. intros c N s HI. eapply soft_inv; [apply soft_hist|exact HI]. Qed.

Lemma round_up_ge : forall n b, 1 <= b -> n <= round_up n b.
Proof.
  intros n b HB. unfold round_up.
  pose proof (Z.div_mod (n + b - 1) b ltac:(lia)).
  pose proof (Z.mod_pos_bound (n + b - 1) b ltac:(lia)). lia.
Qed.

Lemma round_up_bucket : forall n b a, 1 <= b -> a * b < n -> a * b + b <= round_up n b.
Proof.
  intros n b a HB HL. unfold round_up.
  assert (a + 1 <= (n + b - 1) / b) by (apply Z.div_le_lower_bound; lia). nia.
Qed.

Lemma inactive_ok : forall c s,
  1 <= c_bucket c -> inv c (s_next s) s ->
  inv c (s_next (inactive c s)) (inactive c s).
Proof.
  intros c s HB HI. unfold inactive.
  set (s1 := match s_bucket s with
             | Some b => set_bucket (write_file c s b) None
             | None => s
             end).
  set (M := round_up (s_next s) (c_bucket c)).
  assert (IM : inv c M s).
  { eapply inv_mono; [|exact HI]. apply round_up_ge. exact HB. }
  assert (H1 : inv c M s1 /\ s_next s1 = s_next s).
  { unfold s1. destruct (s_bucket s) as [b|] eqn:EB; [|split; [exact IM|reflexivity]].
    pose proof (v_bucket _ _ _ HI b EB) as HL.
    destruct (write_file_ok c M s b HB IM) as (A & B & _).
    - apply round_up_bucket; assumption.
    - split; [apply set_bucket_inv; [exact A|discriminate]|exact B]. }
  destruct H1 as [A B]. cbn [set_next s_next]. rewrite B.
  apply set_next_inv. exact A.
Qed.

Lemma segment_created_ok : forall c s ex,
  1 <= c_bucket c -> inv c (s_next s + 1) s ->
  (forall b, s_bucket s = Some b -> b * c_bucket c < s_next s) ->
  inv c (s_next s + 1) (segment_created c s ex) /\
  s_next (segment_created c s ex) = s_next s.
Proof.
  intros c s ex HB HI HBK. unfold segment_created.
  set (k := s_next s). set (b := k / c_bucket c).
  assert (HKB : b * c_bucket c <= k < b * c_bucket c + c_bucket c).
  { apply bucket_of; [exact HB|reflexivity]. }
  set (s1 := match s_bucket s with
             | Some l => if l =? b then s else set_bucket (write_file c s l) None
             | None => s
             end).
  assert (H1 : inv c (k + 1) s1 /\ s_next s1 = k).
  { unfold s1. destruct (s_bucket s) as [l|] eqn:EB; [|split; [exact HI|reflexivity]].
    destruct (l =? b) eqn:E; [split; [exact HI|reflexivity]|].
    specialize (HBK l eq_refl). fold k in HBK.
    assert (l < b) by nia.
    destruct (write_file_ok c (k + 1) s l HB HI ltac:(nia)) as (A & B & _).
    split; [apply set_bucket_inv; [exact A|discriminate]|exact B]. }
  destruct H1 as [I1 E1].
  destruct (negb ((k + 1) mod c_bucket c =? 0)) eqn:EM.
  - destruct ex; [|split; assumption]. split; [|exact E1].
    apply set_bucket_inv; [exact I1|]. intros d E. injection E as <-. lia.
  - assert (HE : b * c_bucket c + c_bucket c <= k + 1).
    { assert (EZ : (k + 1) mod c_bucket c = 0) by lia.
      pose proof (Z.div_mod (k + 1) (c_bucket c) ltac:(lia)) as DM. rewrite EZ in DM.
      assert ((k + 1) / c_bucket c = b + 1); [|nia].
      assert (b < (k + 1) / c_bucket c) by nia. nia. }
    destruct (write_file_ok c (k + 1) s1 b HB I1 HE) as (A & B & _).
    assert (W : inv c (k + 1) (set_bucket (write_file c s1 b) None) /\
      s_next (set_bucket (write_file c s1 b) None) = k).
    { split; [apply set_bucket_inv; [exact A|discriminate]|].
      cbn [set_bucket s_next]. congruence. }
    destruct (s_bucket s1); [exact W|]. destruct ex; [exact W|split; assumption].
Qed.

Lemma ready_ok : forall c s ex,
  1 <= c_bucket c -> inv c (s_next s) s -> inv c (s_next (ready c s ex)) (ready c s ex).
Proof.
  intros c s ex HB HI. unfold ready.
  assert (F : inv c (s_next (fail s)) (fail s)) by (destruct HI; split; assumption).
  destruct (find (s_next s) (s_all s)) as [x|] eqn:EF; [|exact F].
  apply find_some in EF. destruct EF as [Hx EX].
  destruct (match s_last s with Some l => x_key x <=? l | None => false end); [exact F|].
  clear F. set (k := x_key x) in *.
  set (s1 := emit (set_last s k) (EReady k ex)).
  assert (I1 : inv c (s_next s + 1) s1).
  { eapply soft_inv; [apply soft_emit; intros f; discriminate|].
    apply set_last_inv; [|lia]. eapply inv_mono; [|exact HI]. lia. }
  set (s2 := if ex then (if x_bad x then ub s1 else s1) else fst (free_idx false s1 0 k)).
  assert (H2 : inv c (s_next s + 1) s2 /\ same_rest s1 s2).
  { unfold s2. destruct ex.
    - rewrite (v_bad _ _ _ HI x Hx). split; [exact I1|apply same_rest_refl].
    - pose proof (free_idx_ok c (s_next s + 1) false s1 0 k I1) as H.
      pose proof (free_idx_rest c (s_next s + 1) false s1 0 k I1) as R.
      destruct (free_idx false s1 0 k) as [s' t']. cbn [fst] in R |- *.
      split; [|exact R]. apply H. change (s_all s1) with (s_all s). unfold k.
      apply in_map. exact Hx. }
  destruct H2 as [I2 R2].
  destruct (free_non_forced_ok c (s_next s + 1) false s2 I2) as (I3 & _).
  pose proof (free_non_forced_rest c (s_next s + 1) false s2 I2) as R3.
  set (s3 := free_non_forced c false s2) in *.
  set (s4 := if s_snaps s3 <=? 0 then emit s3 EAckAll else s3).
  assert (S4 : soft s3 s4).
  { unfold s4. destruct (s_snaps s3 <=? 0); [apply soft_emit; intros f; discriminate|apply soft_refl]. }
  pose proof (soft_inv _ _ _ _ S4 I3) as I4.
  assert (E4 : s_next s4 = s_next s /\ s_bucket s4 = s_bucket s).
  { destruct R2 as (A1 & _ & _ & A4 & _). destruct R3 as (B1 & _ & _ & B4 & _).
    destruct S4 as []. rewrite f_next, f_bucket, B1, B4, A1, A4. split; reflexivity. }
  destruct E4 as [EN EB].
  destruct (segment_created_ok c s4 ex HB) as [A B].
  - rewrite EN. exact I4.
  - intros b E. rewrite EB in E. rewrite EN. exact (v_bucket _ _ _ HI b E).
  - cbn [set_next s_next]. rewrite B, EN in *. apply set_next_inv. exact A.
Qed.

Lemma init_inv : forall c orc,
  0 <= c_init c < 4294967295 -> inv c (s_next (init c orc)) (init c orc).
Proof.
  intros c orc HI. split; cbn [init s_all s_pend s_done s_top s_min s_next s_bucket s_last s_out
    s_wr s_wfr s_psnap s_ub]; try (intros; contradiction); try constructor; try discriminate;
    try lia; try (intros; discriminate); try reflexivity.
  - intros [].
  - intros (x & [] & _).
  - intros [].
  - intros (x & [] & _).
Qed.

Lemma step_ok : forall c s o,
  1 <= c_bucket c -> inv c (s_next s) s -> fits s o ->
  inv c (s_next (step c s o)) (step c s o).
Proof.
  intros c s o HB HI [HE HF]. destruct o; cbn [step].
  - destruct HF as (A & B & C). exact (create_inv c s k HB HI A B C).
  - destruct HF as (-> & x & EL & HL).
    assert (E : s_next (create_snap s true) = s_next s).
    { unfold create_snap. rewrite EL. destruct (x_bad x); [reflexivity|].
      destruct (x_snap x); reflexivity. }
    rewrite E. exact (snap_inv c s x HB HI EL HL).
  - exact (ready_ok c s ex HB HI).
  - destruct HF as (x & Hx & Hb).
    destruct (media_done_ok c (s_next s) false s b ok HB HI (v_cw _ _ _ HI x b Hx Hb))
      as (A & B & _).
    rewrite B. exact A.
  - apply (lock_inv c (s_next s) s k (CRead id) HI). intros b E. discriminate E.
  - exact (shrinks_inv _ _ _ _ (unlock_shrinks c (s_next s) s (is_cr id) HI) HI).
  - destruct (write_done_ok c (s_next s) s ok stored HI HF) as (A & _ & _ & _ & _ & B & _).
    rewrite B. exact A.
  - destruct (watermark_ok c (s_next s) s HB HI) as (A & B & _). rewrite B. exact A.
  - destruct (expire_ok c (s_next s) s m HI ltac:(tauto)) as (A & B). rewrite B. exact A.
  - exact (hist_inv c (s_next s) s HI).
  - exact (inactive_ok c s HB HI).
  - destruct HF.
Qed.

Theorem reach_inv : forall c s,
  sane c -> c_init c < 4294967295 -> reach c s -> inv c (s_next s) s.
Proof.
  intros c s (HB & _ & _ & H0) HM HR. induction HR as [orc|s o HR IH HF].
  - apply init_inv. lia.
  - exact (step_ok c s o HB IH HF).
Qed.
