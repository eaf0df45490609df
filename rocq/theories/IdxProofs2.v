(* Proofs about the segment index: the result of a media file. *)

From Coq Require Import ZArith List Bool Lia ZifyBool Sorted.
From Verif Require Import IdxModel IdxSpec IdxProofs.
Import ListNotations.
Open Scope Z_scope.

Definition member (ks : list Z) (k : Z) : bool := existsb (Z.eqb k) ks.

Lemma member_in : forall ks k, member ks k = true <-> In k ks.
Proof.
  intros ks k. unfold member. rewrite existsb_exists. split.
  - intros (a & Ha & E). assert (k = a) by lia. subst a. exact Ha.
  - intros H. exists k. split; [exact H|lia].
Qed.

(* What the loop does to an index. *)
Definition marked (ok : bool) (ks : list Z) (x : idx) : idx :=
  if member ks (x_key x)
  then Idx (x_key x) (if ok then POk else PErr) None false (x_free x) (x_cln x)
  else x.

(* Everything but the list of the indexes is as before, or softly changed. *)
Record rest (s s' : st) : Prop := {
  r_pend : s_pend s' = s_pend s;
  r_done : s_done s' = s_done s;
  r_last : s_last s' = s_last s;
  r_next : s_next s' = s_next s;
  r_min : s_min s' = s_min s;
  r_top : s_top s' = s_top s;
  r_bucket : s_bucket s' = s_bucket s;
  r_wr : s_wr s' = s_wr s;
  r_wfr : s_wfr s' = s_wfr s;
  r_ps : s_psnap s' = s_psnap s;
  r_out : forall f, In (EStart f) (s_out s') <-> In (EStart f) (s_out s);
  r_ub : s_ub s' = s_ub s
}.

Lemma rest_refl : forall s, rest s s.
Proof. intros s. split; reflexivity. Qed.

Lemma rest_trans : forall a b d, rest a b -> rest b d -> rest a d.
Proof.
  intros a b d [] []. split; try congruence.
  intros f. rewrite r_out1. apply r_out0.
Qed.

Lemma rest_upd : forall k f s, rest s (upd k f s).
Proof. intros k f s. split; reflexivity. Qed.

Lemma rest_emit : forall s e, (forall f, e <> EStart f) -> rest s (emit s e).
Proof.
  intros s e He. split; try reflexivity.
  intros f. cbn [emit s_out In]. split; [|tauto].
  intros [E|E]; [destruct (He f E)|exact E].
Qed.

Lemma rest_drop : forall s f, rest s (frames_drop s f).
Proof.
  intros s f. eapply rest_trans; [apply (rest_emit s (EDrop f)); discriminate|].
  unfold frames_drop, frames_free. destruct (_ <=? 0); split; reflexivity.
Qed.

Lemma drop_all : forall s f, s_all (frames_drop s f) = s_all s.
Proof.
  intros s f. unfold frames_drop, frames_free. destruct (_ <=? 0); reflexivity.
Qed.

Lemma mark_ok : forall ok ks s cur,
  StronglySorted Z.lt ks -> StronglySorted Z.lt (map x_key (s_all s)) ->
  (forall x, In x (s_all s) -> x_bad x = false) ->
  let '(s', cur') := mark ok ks s cur in
  s_all s' = map (marked ok ks) (s_all s) /\ rest s s' /\
  match cur' with
  | None => cur = None /\
      forall x, In x (s_all s) -> In (x_key x) ks -> x_snap x = None
  | Some n =>
      (cur = Some n /\ forall x, In x (s_all s) -> In (x_key x) ks -> x_snap x = None) \/
      (exists x, In x (s_all s) /\ In (x_key x) ks /\ x_snap x = Some n /\
        forall y, In y (s_all s) -> In (x_key y) ks -> x_key x < x_key y -> x_snap y = None)
  end.
Proof.
  intros ok. induction ks as [|k r IH]; intros s cur HK HS HB; cbn [mark].
  - split; [|split; [apply rest_refl|]].
    + rewrite <- map_id at 1. apply map_ext. intros x. reflexivity.
    + destruct cur as [n|]; [left|]; (split; [reflexivity|intros x _ []]).
  - inversion HK as [|? ? HK' HF]; subst. rewrite Forall_forall in HF.
    set (p := if ok then POk else PErr).
    set (s1 := upd k (idx_per p) s).
    set (s2 := emit s1 (if ok then EMedia k else ELost k)).
    assert (R2 : rest s s2).
    { eapply rest_trans; [apply (rest_upd k (idx_per p))|]. unfold s2.
      apply rest_emit; destruct ok; discriminate. }
    assert (A2 : s_all s2 = map (fun x => if x_key x =? k then idx_per p x else x) (s_all s)).
    { unfold s2. destruct ok; reflexivity. }
    assert (K2 : map x_key (s_all s2) = map x_key (s_all s)).
    { rewrite A2. apply upd_key. intros x. reflexivity. }
    assert (B2 : forall x, In x (s_all s2) -> x_bad x = false).
    { intros x Hx. rewrite A2 in Hx. apply in_map_iff in Hx.
      destruct Hx as (y & <- & Hy).
      destruct (x_key y =? k); [change (x_bad y = false)|]; apply HB; exact Hy. }
    destruct (find k (s_all s2)) as [x|] eqn:EF.
    + apply find_some in EF. destruct EF as [Hx2 EX].
      rewrite (B2 x Hx2).
      rewrite A2 in Hx2. apply in_map_iff in Hx2. destruct Hx2 as (x0 & E0 & Hx0).
      assert (EK0 : x_key x0 = k).
      { destruct (x_key x0 =? k) eqn:E; [lia|]. subst x0. lia. }
      rewrite EK0, Z.eqb_refl in E0. subst x.
      change (x_snap (idx_per p x0)) with (x_snap x0).
      destruct (x_snap x0) as [n|] eqn:ES.
      * set (s3 := match cur with Some m => close_free s2 m | None => s2 end).
        assert (R3 : rest s2 s3).
        { unfold s3. destruct cur; [apply rest_drop|apply rest_refl]. }
        assert (A3 : s_all s3 = s_all s2).
        { unfold s3. destruct cur; [apply drop_all|reflexivity]. }
        set (s4 := upd k (idx_snap None) s3).
        assert (A4 : s_all s4 = map (fun x => if x_key x =? k
            then idx_snap None (idx_per p x) else x) (s_all s)).
        { unfold s4. rewrite upd_all, A3, A2, map_map. apply map_ext. intros y.
          destruct (x_key y =? k) eqn:E.
          - change (x_key (idx_per p y)) with (x_key y). rewrite E. reflexivity.
          - rewrite E. reflexivity. }
        assert (K4 : map x_key (s_all s4) = map x_key (s_all s)).
        { rewrite A4. apply upd_key. intros y. reflexivity. }
        assert (B4 : forall y, In y (s_all s4) -> x_bad y = false).
        { intros y Hy. rewrite A4 in Hy. apply in_map_iff in Hy.
          destruct Hy as (z & <- & Hz). destruct (x_key z =? k); [reflexivity|].
          apply HB. exact Hz. }
        assert (HS4 : StronglySorted Z.lt (map x_key (s_all s4))) by (rewrite K4; exact HS).
        specialize (IH s4 (Some n) HK' HS4 B4).
        destruct (mark ok r s4 (Some n)) as [s' cur'].
        destruct IH as (IA & IR & IC).
        split; [|split].
        -- rewrite IA, A4, map_map. apply map_ext. intros y.
           unfold marked. cbn [member existsb]. fold (member r (x_key y)).
           destruct (x_key y =? k) eqn:E; cbn [orb].
           ++ cbn [idx_snap idx_per x_key x_per x_snap x_bad x_free x_cln].
              destruct (member r (x_key y)); reflexivity.
           ++ reflexivity.
        -- eapply rest_trans; [exact R2|]. eapply rest_trans; [exact R3|].
           eapply rest_trans; [apply (rest_upd k (idx_snap None))|exact IR].
        -- assert (LATE : forall y, In y (s_all s) -> In (x_key y) r ->
             In y (s_all s4)).
           { intros y Hy Hr. rewrite A4. apply in_map_iff. exists y.
             specialize (HF _ Hr). destruct (x_key y =? k) eqn:E; [lia|].
             split; [reflexivity|exact Hy]. }
           destruct cur' as [n'|].
           2:{ destruct IC as [IC _]. discriminate IC. }
           right. destruct IC as [[IC1 IC2]|(z & Hz & Hzr & ESz & IC2)].
           ++ injection IC1 as <-. exists x0. rewrite EK0.
              split; [exact Hx0|]. split; [left; reflexivity|]. split; [exact ES|].
              intros y Hy [Hk|Hr] L; [lia|]. apply IC2; [apply LATE; assumption|exact Hr].
           ++ rewrite A4 in Hz. apply in_map_iff in Hz. destruct Hz as (z0 & EZ & Hz0).
              destruct (x_key z0 =? k) eqn:E.
              { subst z. cbn [idx_snap idx_per x_snap] in ESz. discriminate ESz. }
              subst z. exists z0. split; [exact Hz0|]. split; [right; exact Hzr|].
              split; [exact ESz|]. intros y Hy [Hk|Hr] L.
              { specialize (HF _ Hzr). lia. }
              apply IC2; [apply LATE; assumption|exact Hr|exact L].
      * assert (HS2 : StronglySorted Z.lt (map x_key (s_all s2))) by (rewrite K2; exact HS).
        specialize (IH s2 cur HK' HS2 B2).
        destruct (mark ok r s2 cur) as [s' cur']. destruct IH as (IA & IR & IC).
        split; [|split].
        -- rewrite IA, A2, map_map. apply map_ext_in. intros y Hy.
           unfold marked. cbn [member existsb]. fold (member r (x_key y)).
           destruct (x_key y =? k) eqn:E; cbn [orb]; [|reflexivity].
           assert (y = x0) by (eapply ss_inj; [exact HS|exact Hy|exact Hx0|lia]).
           subst y. cbn [idx_per x_key x_per x_snap x_bad x_free x_cln].
           destruct (member r (x_key x0)); [reflexivity|].
           unfold idx_per. rewrite ES, (HB x0 Hx0). reflexivity.
        -- eapply rest_trans; eassumption.
        -- assert (LATE : forall y, In y (s_all s) -> In (x_key y) r -> In y (s_all s2)).
           { intros y Hy Hr. rewrite A2. apply in_map_iff. exists y.
             specialize (HF _ Hr). destruct (x_key y =? k) eqn:E; [lia|].
             split; [reflexivity|exact Hy]. }
           assert (HERE : forall y, In y (s_all s) -> x_key y = k -> x_snap y = None).
           { intros y Hy E.
             assert (y = x0) by (eapply ss_inj; [exact HS|exact Hy|exact Hx0|lia]).
             subst y. exact ES. }
           destruct cur' as [n'|].
           ++ destruct IC as [[IC1 IC2]|(z & Hz & Hzr & ESz & IC2)].
              ** left. split; [exact IC1|]. intros y Hy [Hk|Hr];
                   [apply HERE; [exact Hy|lia]|apply IC2; [apply LATE; assumption|exact Hr]].
              ** right. rewrite A2 in Hz. apply in_map_iff in Hz.
                 destruct Hz as (z0 & EZ & Hz0).
                 assert (EZK : x_key z0 = x_key z) by (rewrite <- EZ; destruct (x_key z0 =? k); reflexivity).
                 assert (EZS : x_snap z0 = x_snap z) by (rewrite <- EZ; destruct (x_key z0 =? k); reflexivity).
                 exists z0. split; [exact Hz0|]. split; [right; rewrite EZK; exact Hzr|].
                 split; [congruence|]. intros y Hy [Hk|Hr] L.
                 { apply HERE; [exact Hy|lia]. }
                 apply IC2; [apply LATE; assumption|exact Hr|lia].
           ++ destruct IC as [IC1 IC2]. split; [exact IC1|]. intros y Hy [Hk|Hr];
                [apply HERE; [exact Hy|lia]|apply IC2; [apply LATE; assumption|exact Hr]].
    + assert (HS2 : StronglySorted Z.lt (map x_key (s_all s2))) by (rewrite K2; exact HS).
      specialize (IH s2 cur HK' HS2 B2).
      destruct (mark ok r s2 cur) as [s' cur']. destruct IH as (IA & IR & IC).
      assert (NOT : forall y, In y (s_all s) -> x_key y <> k).
      { intros y Hy E. assert (HI2 : In k (map x_key (s_all s2))).
        { rewrite K2, <- E. apply in_map. exact Hy. }
        apply in_map_iff in HI2. destruct HI2 as (z & Ez & Hz).
        eapply find_none; [exact EF|exact Hz|exact Ez]. }
      assert (A2' : s_all s2 = s_all s).
      { rewrite A2. rewrite <- map_id. apply map_ext_in. intros y Hy.
        destruct (x_key y =? k) eqn:E; [exfalso; apply (NOT y Hy); lia|reflexivity]. }
      rewrite A2' in IA, IC.
      split; [|split].
      * rewrite IA. apply map_ext_in. intros y Hy. unfold marked. cbn [member existsb].
        fold (member r (x_key y)). specialize (NOT y Hy).
        destruct (x_key y =? k) eqn:E; [lia|reflexivity].
      * eapply rest_trans; eassumption.
      * destruct cur' as [n'|].
        -- destruct IC as [[IC1 IC2]|(z & Hz & Hzr & ESz & IC2)].
           ++ left. split; [exact IC1|]. intros y Hy [Hk|Hr];
                [exfalso; apply (NOT y Hy); lia|apply IC2; assumption].
           ++ right. exists z. split; [exact Hz|]. split; [right; exact Hzr|].
              split; [exact ESz|]. intros y Hy [Hk|Hr] L;
                [exfalso; apply (NOT y Hy); lia|apply IC2; assumption].
        -- destruct IC as [IC1 IC2]. split; [exact IC1|]. intros y Hy [Hk|Hr];
             [exfalso; apply (NOT y Hy); lia|apply IC2; assumption].
Qed.

(* ------------------------------------------------------------------ *)

Lemma bucket_of : forall B b k, 1 <= B -> (b * B <= k < b * B + B <-> k / B = b).
Proof.
  intros B b k HB. split.
  - intros H. symmetry. apply (Z.div_unique k B b (k - b * B)); lia.
  - intros <-. pose proof (Z.div_mod k B ltac:(lia)). pose proof (Z.mod_pos_bound k B ltac:(lia)).
    lia.
Qed.

Lemma in_range : forall x hi l k,
  In k (map x_key (filter (fun y => (x_key x <=? x_key y) && (x_key y <? hi)) l)) <->
  x_key x <= k < hi /\ In k (map x_key l).
Proof.
  intros x hi l k. rewrite !in_map_iff. split.
  - intros (y & <- & Hy). apply filter_In in Hy. destruct Hy as [Hy L].
    split; [lia|]. exists y. tauto.
  - intros (L & y & <- & Hy). exists y. split; [reflexivity|].
    apply filter_In. split; [exact Hy|lia].
Qed.

Lemma map_fst_pair : forall A B (p : A * B), p = (fst p, snd p).
Proof. intros A B [a b]. reflexivity. Qed.

(* The invariant after the loop, for any state that has the lists of the loop. *)
Lemma marked_inv : forall c N s s2 b ok x ks,
  1 <= c_bucket c ->
  inv c N s ->
  b * c_bucket c + c_bucket c <= N ->
  In x (s_all s) -> x_per x = PNone ->
  b * c_bucket c <= x_key x < b * c_bucket c + c_bucket c ->
  (forall y, In y (s_all s) -> b * c_bucket c <= x_key y -> x_key x <= x_key y) ->
  (forall k, In k ks <-> b * c_bucket c <= k < b * c_bucket c + c_bucket c /\
     In k (map x_key (s_all s))) ->
  StronglySorted Z.lt ks ->
  s_all s2 = map (marked ok ks) (s_all s) ->
  s_pend s2 = filter (fun k => negb (existsb (Z.eqb k) ks)) (s_pend s) ->
  s_done s2 = fst (ins_pos (x_key x) (s_done s)) ++ ks ++ snd (ins_pos (x_key x) (s_done s)) ->
  rest (set_queues s (s_pend s2) (s_done s2)) s2 ->
  inv c N s2.
Proof.
  intros c N s s2 b ok x ks HB HI HN Hx HP HL HF HK HKS EA EP ED [].
  cbn [set_queues s_last s_next s_min s_top s_bucket s_wr s_wfr s_psnap s_out s_ub] in *.
  clear r_pend0 r_done0.
  assert (EKEYS : map x_key (s_all s2) = map x_key (s_all s)).
  { rewrite EA. apply map_key. intros y _. unfold marked. destruct (member _ _); reflexivity. }
  assert (SAME : forall y, In y (s_all s) ->
    b * c_bucket c <= x_key y < b * c_bucket c + c_bucket c -> x_per y = PNone).
  { intros y Hy L. apply (v_uni _ _ _ HI x y Hx Hy); [|exact HP].
    transitivity b; [apply bucket_of; assumption|symmetry; apply bucket_of; assumption]. }
  assert (INM : forall y, In y (s_all s) ->
    (member ks (x_key y) = true <->
     b * c_bucket c <= x_key y < b * c_bucket c + c_bucket c)).
  { intros y Hy. rewrite member_in, HK. split; [tauto|]. intros L. split; [exact L|].
    apply in_map. exact Hy. }
  assert (IN2 : forall y, In y (s_all s2) -> exists z, In z (s_all s) /\ y = marked ok ks z).
  { intros y Hy. rewrite EA in Hy. apply in_map_iff in Hy. destruct Hy as (z & E & Hz).
    exists z. split; [exact Hz|symmetry; exact E]. }
  assert (MK : forall z, x_key (marked ok ks z) = x_key z).
  { intros z. unfold marked. destruct (member _ _); reflexivity. }
  assert (MC : forall z, x_cln (marked ok ks z) = x_cln z).
  { intros z. unfold marked. destruct (member _ _); reflexivity. }
  assert (MP : forall z, x_per (marked ok ks z) = PNone <->
    x_per z = PNone /\ member ks (x_key z) = false).
  { intros z. unfold marked. destruct (member ks (x_key z)) eqn:E.
    - cbn [x_per]. destruct ok; split; try discriminate; intros [_ H]; discriminate H.
    - split; [tauto|]. tauto. }
  assert (EC : forall m, covered s m -> covered s2 m).
  { intros m [A C]. split; [congruence|]. intros y Hy L.
    destruct (IN2 y Hy) as (z & Hz & ->). rewrite MK in L. intros E.
    apply MP in E. destruct E as [E _]. exact (C z Hz L E). }
  destruct HI as []. split.
  - rewrite EKEYS. exact v_sort.
  - rewrite EP. apply ss_filter. exact v_psort.
  - intros k. rewrite EP, filter_In, v_pin. fold (member ks k). split.
    + intros ((y & Hy & E & EPn) & M). exists (marked ok ks y).
      split; [rewrite EA; apply in_map; exact Hy|]. split; [rewrite MK; exact E|].
      apply MP. split; [exact EPn|]. rewrite E. destruct (member ks k); [discriminate M|reflexivity].
    + intros (y & Hy & E & EPn). destruct (IN2 y Hy) as (z & Hz & ->).
      rewrite MK in E. apply MP in EPn. destruct EPn as [EPn M]. rewrite E in M.
      split; [|rewrite M; reflexivity]. exists z. tauto.
  - rewrite ED. pose proof (ins_pos_spec (x_key x) (s_done s) v_dsort) as HINS.
    destruct (ins_pos (x_key x) (s_done s)) as [p q]. cbn [fst snd].
    destruct HINS as (E1 & A1 & A2). pose proof v_dsort as HD. rewrite E1 in HD.
    apply ss_app in HD. destruct HD as (P1 & P2 & P3).
    apply ss_app. split; [exact P1|]. split.
    + apply ss_app. split; [exact HKS|]. split; [exact P2|].
      intros u v Hu Hv. apply HK in Hu. specialize (A2 v Hv).
      assert (HVD : In v (s_done s)) by (rewrite E1; apply in_or_app; right; exact Hv).
      apply v_din in HVD. destruct HVD as (y & Hy & E & EN).
      destruct (Z_lt_le_dec v (b * c_bucket c + c_bucket c)) as [L|L]; [|lia].
      exfalso. apply EN. apply SAME; [exact Hy|lia].
    + intros u v Hu Hv. specialize (A1 u Hu). apply in_app_or in Hv.
      destruct Hv as [Hv|Hv].
      * apply HK in Hv. destruct Hv as [L Hv]. apply in_map_iff in Hv.
        destruct Hv as (y & <- & Hy). specialize (HF y Hy ltac:(lia)). lia.
      * apply P3; assumption.
  - intros k. rewrite ED. pose proof (ins_pos_spec (x_key x) (s_done s) v_dsort) as HINS.
    destruct (ins_pos (x_key x) (s_done s)) as [p q]. cbn [fst snd].
    destruct HINS as (E1 & _ & _).
    assert (EIN : In k (p ++ ks ++ q) <-> In k (s_done s) \/ In k ks).
    { rewrite E1, !in_app_iff. tauto. }
    rewrite EIN, v_din. split.
    + intros [(y & Hy & E & EN)|Hk].
      * exists (marked ok ks y). split; [rewrite EA; apply in_map; exact Hy|].
        split; [rewrite MK; exact E|]. intros E2. apply MP in E2. tauto.
      * pose proof Hk as Hk'. apply HK in Hk. destruct Hk as [L Hk]. apply in_map_iff in Hk.
        destruct Hk as (y & E & Hy). exists (marked ok ks y).
        split; [rewrite EA; apply in_map; exact Hy|]. split; [rewrite MK; exact E|].
        intros E2. apply MP in E2. destruct E2 as [_ M]. rewrite E in M.
        apply member_in in Hk'. congruence.
    + intros (y & Hy & E & EN). destruct (IN2 y Hy) as (z & Hz & ->). rewrite MK in E.
      destruct (member ks (x_key z)) eqn:M.
      * right. apply member_in. rewrite <- E. exact M.
      * left. exists z. split; [exact Hz|]. split; [exact E|]. intros E2. apply EN.
        apply MP. tauto.
  - intros y Hy. destruct (IN2 y Hy) as (z & Hz & ->). rewrite MK, r_top0. apply v_top. exact Hz.
  - rewrite r_top0, r_min0. exact v_init.
  - intros y Hy. destruct (IN2 y Hy) as (z & Hz & ->). unfold marked.
    destruct (member _ _); [reflexivity|apply v_bad; exact Hz].
  - intros y n Hy E. destruct (IN2 y Hy) as (z & Hz & ->).
    assert (M : member ks (x_key z) = false /\ x_snap z = Some n).
    { unfold marked in E. destruct (member ks (x_key z)); [discriminate E|]. tauto. }
    destruct M as [M ES]. destruct (v_snap z n Hz ES) as (A & B & C).
    split; [apply MP; tauto|]. rewrite MK, r_top0. split; [exact B|].
    intros u Hu L. destruct (IN2 u Hu) as (w & Hw & ->). rewrite MK in L.
    intros E2. apply MP in E2. destruct E2 as [E2 _]. exact (C w Hw L E2).
  - intros y z Hy Hz E P. destruct (IN2 y Hy) as (u & Hu & ->).
    destruct (IN2 z Hz) as (w & Hw & ->). rewrite !MK in E.
    apply MP in P. destruct P as [P M]. apply MP.
    split; [exact (v_uni u w Hu Hw E P)|].
    destruct (member ks (x_key w)) eqn:M2; [|reflexivity]. exfalso.
    apply (INM w Hw) in M2. apply bucket_of in M2; [|exact HB].
    assert (member ks (x_key u) = true); [|congruence].
    apply (INM u Hu). apply bucket_of; [exact HB|congruence].
  - intros y Hy P. destruct (IN2 y Hy) as (z & Hz & ->). rewrite MK.
    destruct (member ks (x_key z)) eqn:M.
    + apply (INM z Hz) in M. apply bucket_of in M; [|exact HB]. rewrite M. exact HN.
    + apply v_late; [exact Hz|]. intros E. apply P, MP. tauto.
  - intros y d Hy Hd. destruct (IN2 y Hy) as (z & Hz & ->). rewrite MC in Hd.
    exact (v_cw z d Hz Hd).
  - rewrite r_bucket0. exact v_bucket.
  - rewrite r_last0. exact v_last.
  - intros f Hf. apply EC, v_low, r_out0. exact Hf.
  - intros f Hf. rewrite r_wr0 in Hf. destruct (v_wr f Hf) as [A B].
    rewrite r_wfr0. split; [apply r_out0; exact A|exact B].
  - rewrite r_wr0, r_wfr0, r_ps0. exact v_nowr.
  - intros n E. rewrite r_ps0 in E. destruct (v_ps n E) as [A B].
    split; [apply EC; exact A|]. intros f Hf. apply B, r_out0. exact Hf.
  - rewrite r_ub0. exact v_ub.
Qed.

(* A snapshot is handed to an index that waits. *)
Lemma hand_inv : forall c N s k n,
  inv c N s -> In k (map x_key (s_all s)) ->
  (forall y, In y (s_all s) -> x_key y = k -> x_per y = PNone) ->
  k <= sn_max n <= s_top s ->
  (forall y, In y (s_all s) -> k < x_key y <= sn_max n -> x_per y <> PNone) ->
  inv c N (upd k (idx_snap (Some n)) s).
Proof.
  intros c N s k n HI HK HP HL HB.
  assert (EKEYS : map x_key (s_all (upd k (idx_snap (Some n)) s)) = map x_key (s_all s)).
  { rewrite upd_all. apply upd_key. intros y. reflexivity. }
  assert (IN2 : forall y, In y (s_all (upd k (idx_snap (Some n)) s)) -> exists z,
    In z (s_all s) /\ x_key y = x_key z /\ x_per y = x_per z /\ x_cln y = x_cln z /\
    x_bad y = false /\ ((x_key z = k /\ x_snap y = Some n) \/ (x_key z <> k /\ x_snap y = x_snap z))).
  { intros y Hy. rewrite upd_all in Hy. apply in_map_iff in Hy.
    destruct Hy as (z & <- & Hz). exists z. split; [exact Hz|].
    destruct (x_key z =? k) eqn:E.
    - repeat split; try reflexivity. left. split; [lia|reflexivity].
    - repeat split; try reflexivity; [apply (v_bad _ _ _ HI z Hz)|]. right.
      split; [lia|reflexivity]. }
  assert (OUT2 : forall z, In z (s_all s) -> exists y,
    In y (s_all (upd k (idx_snap (Some n)) s)) /\ x_key y = x_key z /\ x_per y = x_per z).
  { intros z Hz. exists (if x_key z =? k then idx_snap (Some n) z else z).
    split; [rewrite upd_all; apply in_map_iff; exists z; split; [reflexivity|exact Hz]|].
    destruct (x_key z =? k); split; reflexivity. }
  assert (EC : forall m, covered s m -> covered (upd k (idx_snap (Some n)) s) m).
  { intros m [A C]. split; [exact A|]. intros y Hy L.
    destruct (IN2 y Hy) as (z & Hz & E1 & E2 & _). rewrite E2. apply C; [exact Hz|lia]. }
  destruct HI as []. split; try assumption.
  - rewrite EKEYS. exact v_sort.
  - intros a. change (s_pend (upd k (idx_snap (Some n)) s)) with (s_pend s).
    rewrite v_pin. split.
    + intros (z & Hz & E & P). destruct (OUT2 z Hz) as (y & Hy & E1 & E2).
      exists y. split; [exact Hy|]. split; congruence.
    + intros (y & Hy & E & P). destruct (IN2 y Hy) as (z & Hz & E1 & E2 & _).
      exists z. split; [exact Hz|]. split; congruence.
  - intros a. change (s_done (upd k (idx_snap (Some n)) s)) with (s_done s).
    rewrite v_din. split.
    + intros (z & Hz & E & P). destruct (OUT2 z Hz) as (y & Hy & E1 & E2).
      exists y. split; [exact Hy|]. split; congruence.
    + intros (y & Hy & E & P). destruct (IN2 y Hy) as (z & Hz & E1 & E2 & _).
      exists z. split; [exact Hz|]. split; congruence.
  - intros y Hy. destruct (IN2 y Hy) as (z & Hz & E1 & _). rewrite E1. apply v_top. exact Hz.
  - intros y Hy. destruct (IN2 y Hy) as (z & Hz & _ & _ & _ & E & _). exact E.
  - intros y m Hy E. destruct (IN2 y Hy) as (z & Hz & E1 & E2 & _ & _ & [[EK ES]|[EK ES]]).
    + rewrite ES in E. injection E as <-. rewrite E1, E2, EK.
      split; [apply HP; assumption|]. split; [exact HL|].
      intros u Hu L. destruct (IN2 u Hu) as (w & Hw & F1 & F2 & _). rewrite F2.
      apply HB; [exact Hw|lia].
    + rewrite ES in E. destruct (v_snap z m Hz E) as (A & B & C).
      rewrite E1, E2. split; [exact A|]. split; [exact B|].
      intros u Hu L. destruct (IN2 u Hu) as (w & Hw & F1 & F2 & _). rewrite F2.
      apply C; [exact Hw|lia].
  - intros y z Hy Hz E P. destruct (IN2 y Hy) as (u & Hu & E1 & E2 & _).
    destruct (IN2 z Hz) as (w & Hw & F1 & F2 & _). rewrite F2.
    apply (v_uni u w Hu Hw); congruence.
  - intros y Hy P. destruct (IN2 y Hy) as (z & Hz & E1 & E2 & _). rewrite E1.
    apply v_late; [exact Hz|congruence].
  - intros y b Hy Hb. destruct (IN2 y Hy) as (z & Hz & _ & _ & E & _). rewrite E in Hb.
    exact (v_cw z b Hz Hb).
  - intros f Hf. apply EC, v_low. exact Hf.
  - intros m E. destruct (v_ps m E) as [A B]. split; [apply EC; exact A|exact B].
Qed.
