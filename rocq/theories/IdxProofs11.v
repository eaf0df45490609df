(* Proofs about the segment index: what happens when storage works. *)

From Coq Require Import ZArith List Bool Lia ZifyBool Sorted Permutation.
From Verif Require Import IdxModel IdxSpec IdxProofs IdxProofs2 IdxProofs3 IdxProofs4 IdxProofs5
  IdxProofs6 IdxProofs7 IdxProofs8 IdxProofs9 IdxProofs10.
Import ListNotations.
Open Scope Z_scope.

Lemma cal_mics : forall c N a b,
  mics c N clab a b -> frz (fst a) -> cal c N a -> frz (fst b) /\ cal c N b.
Proof.
  intros c N a b H. induction H as [a|l a b d HP HM H IH]; intros HZ HC; [split; assumption|].
  apply IH; [eapply frz_mic; eassumption|eapply cal_mic; eassumption].
Qed.

Lemma pers_clab : forall F L l, pers F true L l -> clab l.
Proof.
  intros F L l H. destruct l; cbn [pers clab] in *; try exact I; try exact H; try discriminate.
  apply H.
Qed.

Lemma fnf_mics : forall c N s e,
  1 <= c_bucket c -> 0 <= c_init c -> inv c N s ->
  mics c N clab (s, e) (free_non_forced c false s, e).
Proof.
  intros c N s e HB HC HI.
  destruct (free_non_forced_run c N true s e HB HC HI) as [(L & _ & M) _].
  eapply mics_imp; [|exact M]. intros l. apply pers_clab.
Qed.

Lemma fnf_keep : forall c N s k,
  inv c N s -> cal c N (free_non_forced c false s, []) -> keep s k ->
  keep (free_non_forced c false s) k.
Proof.
  intros c N s k HI HC (x & Hx & EX & EP & _).
  destruct (free_non_forced_ok c N false s HI) as (I3 & FW & _ & K).
  assert (HK : In k (s_pend s)).
  { apply (v_pin _ _ _ HI). exists x. repeat split; assumption. }
  specialize (K k HK). apply in_map_iff in K. destruct K as (y & EY & Hy).
  destruct FW as (_ & _ & _ & _ & _ & _ & FW). destruct (FW y Hy) as (x0 & Hx0 & A & B & _).
  assert (x0 = x).
  { eapply ss_inj; [exact (v_sort _ _ _ HI)|exact Hx0|exact Hx|congruence]. }
  subst x0. exists y. split; [exact Hy|]. split; [exact EY|].
  assert (EP' : x_per y = PNone) by congruence. split; [exact EP'|].
  pose proof (k_held _ _ _ HC y Hy) as HH. destruct (x_free y); [|reflexivity].
  destruct (HH eq_refl EP').
Qed.

Lemma write_file_calm : forall c N s e b k,
  1 <= c_bucket c -> s_orc s = [] -> keep s k -> k / c_bucket c = b ->
  exists q, write_file c s b = upd q (add_write b) s /\
    mics c N clab (s, e) (write_file c s b, e).
Proof.
  intros c N s e b k HB HO (x & Hx & EX & EP & EF) Eb. unfold write_file, pop. rewrite HO.
  unfold media_holder.
  pose proof (Z.div_mod k (c_bucket c) ltac:(lia)) as DM.
  pose proof (Z.mod_pos_bound k (c_bucket c) ltac:(lia)) as MB.
  destruct (filter (fun x0 : idx => (b * c_bucket c <=? x_key x0) &&
      (x_key x0 <? b * c_bucket c + c_bucket c) && negb (x_free x0)) (s_all s)) as [|q r] eqn:E.
  - exfalso. assert (In x []) as [].
    rewrite <- E. apply filter_In. split; [exact Hx|]. rewrite EF, EX.
    rewrite Eb in DM. apply andb_true_intro. split; [apply andb_true_intro; split; lia|reflexivity].
  - exists (x_key q). split; [reflexivity|].
    eapply mics_one; [|apply (m_lock c N s e (x_key q) b)]. exact I.
Qed.

(* The bucket whose media file is not written yet. *)
Definition bk (c : conf) (s : st) : Prop :=
  forall b, s_bucket s = Some b ->
    b * c_bucket c < s_next s < b * c_bucket c + c_bucket c /\
    exists ex, In (EReady (s_next s - 1) ex) (s_out s).

Lemma created_calm : forall c N s e,
  1 <= c_bucket c -> s_orc s = [] -> keep s (s_next s) ->
  (forall b, s_bucket s = Some b -> b * c_bucket c < s_next s < b * c_bucket c + c_bucket c) ->
  mics c N clab (s, e) (segment_created c s true, e) /\
  s_next (segment_created c s true) = s_next s /\
  forall b, s_bucket (segment_created c s true) = Some b ->
    b * c_bucket c < s_next s + 1 < b * c_bucket c + c_bucket c.
Proof.
  intros c N s e HB HO HK HBK. unfold segment_created.
  set (k := s_next s) in *. set (B := c_bucket c) in *.
  assert (E : (match s_bucket s with
               | Some l => if l =? k / B then s else set_bucket (write_file c s l) None
               | None => s
               end) = s).
  { destruct (s_bucket s) as [l|] eqn:EB; [|reflexivity]. specialize (HBK l eq_refl).
    assert (l = k / B).
    { apply Z.div_unique with (r := k - l * B); lia. }
    destruct (l =? k / B) eqn:EL; [reflexivity|lia]. }
  rewrite E.
  pose proof (Z.div_mod k B ltac:(lia)) as DM.
  pose proof (Z.mod_pos_bound k B ltac:(lia)) as MB.
  destruct ((k + 1) mod B =? 0) eqn:EM; cbn [negb].
  - destruct (write_file_calm c N s e (k / B) k HB HO HK eq_refl) as (q & EQ & M).
    assert (G : mics c N clab (s, e) (set_bucket (write_file c s (k / B)) None, e) /\
      s_next (set_bucket (write_file c s (k / B)) None) = k /\
      forall b, s_bucket (set_bucket (write_file c s (k / B)) None) = Some b ->
        b * B < k + 1 < b * B + B).
    { split; [|split].
      - eapply mics_app; [exact M|]. eapply quiet_mics; [exact I|apply bucket_quiet].
      - rewrite EQ. reflexivity.
      - intros b Hb. discriminate Hb. }
    destruct (s_bucket s); exact G.
  - split; [|split].
    + eapply quiet_mics; [exact I|apply bucket_quiet].
    + reflexivity.
    + intros b Hb. cbn [set_bucket s_bucket] in Hb. injection Hb as <-.
      assert (NE : (k + 1) mod B <> 0) by lia. clear EM E. clearbody k B.
      assert (k mod B + 1 <> B).
      { intros H. apply NE. replace (k + 1) with (0 + (k / B + 1) * B) by nia.
        rewrite Z.mod_add by lia. apply Z.mod_0_l. lia. }
      nia.
Qed.

Lemma cal_open : forall c s x,
  1 <= c_bucket c -> inv c (s_next s) s -> In x (s_all s) -> x_key x = s_next s ->
  cal c (s_next s) (s, []) -> cal c (s_next s + 1) (opened s true, []).
Proof.
  intros c s x HB HI Hx EX HC. destruct HC. cbn [fst snd] in *.
  assert (IN : forall v, v <> EReady (s_next s) true ->
    In v (s_out (opened s true)) <-> In v (s_out s)).
  { intros v HV. unfold opened. cbn [emit set_last s_out In].
    split; [intros [H|H]; [congruence|exact H]|right; assumption]. }
  split; cbn [fst snd]; try assumption.
  - intros k. rewrite !IN by discriminate. apply k_free.
  - intros m. rewrite IN by discriminate. intros H. destruct (k_ack m H) as [A B].
    split; [exact A|]. destruct B as [B|(f & B1 & B2)]; [left; exact B|right; exists f].
    split; [right; exact B1|exact B2].
  - intros k ex [H|H].
    + injection H as <- <-. left. exists x. split; [exact Hx|]. split; [exact EX|].
      assert (EP : x_per x = PNone).
      { destruct (x_per x) eqn:EP; [reflexivity| |];
          pose proof (v_late _ _ _ HI x Hx ltac:(congruence)) as V; rewrite EX in V;
          pose proof (Z.div_mod (s_next s) (c_bucket c) ltac:(lia));
          pose proof (Z.mod_pos_bound (s_next s) (c_bucket c) ltac:(lia)); nia. }
      split; [exact EP|]. pose proof (k_held x Hx) as HH.
      destruct (x_free x); [destruct (HH eq_refl EP)|reflexivity].
    + destruct (k_ready k ex H) as [A|A]; [left; exact A|right; right; exact A].
  - intros k. rewrite IN by discriminate. intros H. specialize (k_late k H). lia.
Qed.

Lemma ready_calm : forall c s,
  1 <= c_bucket c -> 0 <= c_init c -> inv c (s_next s) s -> frz s ->
  cal c (s_next s) (s, []) -> bk c s ->
  ready c s true = fail s \/
  exists s', ready c s true = set_next s' (s_next s + 1) /\ s_next s' = s_next s /\
    (exists x, In x (s_all s) /\ x_key x = s_next s) /\
    (forall l, s_last s = Some l -> l < s_next s) /\
    mics c (s_next s + 1) clab (opened s true, []) (s', []) /\
    forall b, s_bucket s' = Some b ->
      b * c_bucket c < s_next s + 1 < b * c_bucket c + c_bucket c.
Proof.
  intros c s HB HC HI HZ HCA HBK. unfold ready.
  destruct (find (s_next s) (s_all s)) as [x|] eqn:EF; [|left; reflexivity].
  apply find_some in EF. destruct EF as [Hx EX].
  destruct (match s_last s with Some l => x_key x <=? l | None => false end) eqn:ELT;
    [left; reflexivity|right].
  rewrite EX in *. rewrite (v_bad _ _ _ HI x Hx).
  fold (opened s true).
  pose proof (frz_open s true x Hx EX HZ) as ZO.
  pose proof (cal_open c s x HB HI Hx EX HCA) as CO.
  set (s1 := opened s true) in *. set (k := s_next s) in *.
  assert (I1 : inv c (k + 1) s1).
  { eapply soft_inv; [apply soft_emit; intros f; discriminate|].
    apply set_last_inv; [|fold k; lia]. eapply inv_mono; [|exact HI]. lia. }
  destruct (free_non_forced_ok c (k + 1) false s1 I1) as (I3 & _).
  pose proof (free_non_forced_rest c (k + 1) false s1 I1) as R3.
  pose proof (fnf_mics c (k + 1) s1 [] HB HC I1) as M3.
  destruct (cal_mics _ _ _ _ M3 ZO CO) as [Z3 C3].
  assert (K1 : keep s1 k).
  { destruct (k_ready _ _ _ CO k true (or_introl eq_refl)) as [A|A]; [exact A|].
    cbn [fst] in A. destruct A as [A|A]; [discriminate A|].
    pose proof (k_late _ _ _ HCA k A) as V. fold k in V.
    pose proof (Z.div_mod k (c_bucket c) ltac:(lia)).
    pose proof (Z.mod_pos_bound k (c_bucket c) ltac:(lia)). nia. }
  pose proof (fnf_keep c (k + 1) s1 k I1 C3 K1) as K3.
  set (s3 := free_non_forced c false s1) in *.
  set (s4 := if s_snaps s3 <=? 0 then emit s3 EAckAll else s3).
  assert (M4 : mics c (k + 1) clab (s3, []) (s4, [])).
  { unfold s4. destruct (s_snaps s3 <=? 0) eqn:E; [|constructor].
    eapply mics_one; [|apply m_all; lia]. exact I. }
  assert (E4 : s_all s4 = s_all s3 /\ s_next s4 = s_next s3 /\ s_bucket s4 = s_bucket s3 /\
    s_orc s4 = s_orc s3).
  { unfold s4. destruct (s_snaps s3 <=? 0); repeat split. }
  destruct E4 as (A1 & A2 & A3 & A4). destruct R3 as (B1 & _ & _ & B4 & _).
  assert (EN : s_next s4 = k) by (rewrite A2, B1; reflexivity).
  destruct (created_calm c (k + 1) s4 [] HB) as (G1 & G2 & G3).
  - rewrite A4. exact (k_orc _ _ _ C3).
  - rewrite EN. destruct K3 as (y & Hy & K3). exists y. rewrite A1. split; assumption.
  - intros b Hb. rewrite EN. apply HBK. rewrite <- Hb, A3, B4. reflexivity.
  - exists (segment_created c s4 true).
    split; [rewrite G2, EN; reflexivity|]. split; [rewrite G2, EN; reflexivity|].
    split; [exists x; split; assumption|].
    split; [intros l E; rewrite E in ELT; lia|].
    split.
    + eapply mics_app; [exact M3|]. eapply mics_app; [exact M4|exact G1].
    + intros b Hb. specialize (G3 b Hb). rewrite EN in G3. exact G3.
Qed.

(* Segments leave the timelines after their media file was written. *)
Lemma free_below_calm : forall c N m ks s e,
  inv c N s -> NoDup ks -> (forall k, In k ks -> In k (map x_key (s_all s))) -> m <= N ->
  (forall x, In x (s_all s) -> x_key x < m -> x_per x <> PNone) ->
  mics c N clab (s, e) (free_below m ks s, e).
Proof.
  intros c N m. induction ks as [|k r IH]; intros s e HI HN HK HM HP; cbn [free_below].
  - constructor.
  - destruct (m <=? k) eqn:EM; [constructor|].
    pose proof (HK k (or_introl eq_refl)) as Hk. apply in_map_iff in Hk.
    destruct Hk as (x & EX & Hx).
    pose proof (free_idx_ok c N false s 0 k HI (HK k (or_introl eq_refl))) as H.
    destruct (free_idx_mics c N s 0 x e HI Hx ltac:(lia)) as (M1 & _ & _). rewrite EX in M1.
    destruct (free_idx false s 0 k) as [s1 t1]. cbn [fst] in M1 |- *.
    destruct H as (I1 & F1 & L1 & K1).
    inversion HN as [|a0 l0 HN1 HN2]. subst a0 l0.
    pose proof (HP x Hx ltac:(lia)) as EP.
    assert (NS : x_snap x = None).
    { destruct (x_snap x) as [n|] eqn:ES; [|reflexivity].
      destruct (v_snap _ _ _ HI x n Hx ES) as [A _]. congruence. }
    eapply mics_app.
    + eapply mics_imp; [|exact M1].
      intros l Hl. destruct l; cbn [frees clab] in *; try exact I; try contradiction; try congruence.
      destruct Hl as (_ & -> & _). exact EP.
    + apply IH; try assumption.
      * intros a Ha. apply K1; [apply HK; right; exact Ha|]. intros ->. apply HN1. exact Ha.
      * intros y Hy HL. destruct F1 as (_ & _ & _ & _ & _ & _ & F1).
        destruct (F1 y Hy) as (z & Hz & A & B & _). rewrite B. apply HP; [exact Hz|lia].
Qed.

Lemma inactive_calm : forall c s,
  1 <= c_bucket c -> inv c (s_next s) s -> cal c (s_next s) (s, []) -> bk c s ->
  exists s', inactive c s = set_next s' (round_up (s_next s) (c_bucket c)) /\
    s_next s' = s_next s /\ s_bucket s' = None /\
    mics c (round_up (s_next s) (c_bucket c)) clab (s, []) (s', []).
Proof.
  intros c s HB HI HC HBK. unfold inactive.
  set (M := round_up (s_next s) (c_bucket c)).
  destruct (s_bucket s) as [b|] eqn:EB.
  - destruct (HBK b EB) as [HL (ex & HR)].
    assert (K : keep s (s_next s - 1)).
    { destruct (k_ready _ _ _ HC _ ex HR) as [A|A]; [exact A|exfalso].
      pose proof (k_late _ _ _ HC _ A) as V.
      assert (b = (s_next s - 1) / c_bucket c).
      { apply Z.div_unique with (r := s_next s - 1 - b * c_bucket c); lia. }
      subst b. lia. }
    destruct (write_file_calm c M s [] b (s_next s - 1) HB (k_orc _ _ _ HC) K) as (q & EQ & MM).
    { symmetry. apply Z.div_unique with (r := s_next s - 1 - b * c_bucket c); lia. }
    exists (set_bucket (write_file c s b) None).
    assert (EN : s_next (write_file c s b) = s_next s) by (rewrite EQ; reflexivity).
    split; [cbn [set_bucket s_next]; rewrite EN; reflexivity|]. split; [exact EN|].
    split; [reflexivity|].
    eapply mics_app; [exact MM|]. eapply quiet_mics; [exact I|apply bucket_quiet].
  - exists s. split; [reflexivity|]. split; [reflexivity|]. split; [exact EB|constructor].
Qed.

Lemma decomp_calm : forall c s o,
  1 <= c_bucket c -> 0 <= c_init c -> inv c (s_next s) s -> frz s ->
  cal c (s_next s) (s, []) -> bk c s -> calm s o -> decomp c clab s o.
Proof.
  intros c s o HB HC HI HZ HCA HBK [[HE HF] HO]. destruct o; cbn [decomp]; try exact I.
  - cbn in HO. subst ex.
    destruct (ready_calm c s HB HC HI HZ HCA HBK) as [E|(s' & A & B & D & D2 & M & _)];
      [left; exact E|right]. exists s'. repeat (split; [assumption|]). exact M.
  - cbn in HO. subst ok. destruct HF as (x & Hx & Hb).
    destruct (media_done_run c (s_next s) false s b true [] HB HC HI (v_cw _ _ _ HI x b Hx Hb))
      as (L & _ & M).
    eapply mics_imp; [|exact M]. intros l. apply pers_clab.
  - intros n. exact I.
  - destruct HO.
  - unfold expire. apply free_below_calm.
    + apply set_min_inv; [exact HI|lia].
    + apply ss_nodup, (v_sort _ _ _ HI).
    + intros k Hk. exact Hk.
    + lia.
    + exact HO.
  - destruct (inactive_calm c s HB HI HCA HBK) as (s' & A & B & _ & M).
    exists s'. split; [exact A|]. split; [exact B|exact M].
Qed.
