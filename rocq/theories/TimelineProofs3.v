(* Removing segments from the manifest and from the timeline. *)
From Coq Require Import List ZArith Bool Lia ZifyBool ZifyNat.
From Verif Require Import SegListModel SegListSpec SegListProofs SegListProofs2 SegListProofs3 TimelineModel TimelineSpec TimelineProofs TimelineProofs2.
Import ListNotations.
Local Open Scope Z_scope.

Lemma starts_tl init ps V : starts init ps V -> Forall2 started (tl ps) (tl V).
Proof. destruct ps, V; cbn; intros H; try contradiction; [constructor|apply H]. Qed.

Lemma m_dst c ps V m MV : pers c ps V -> mok c ps V m MV -> (m_count m <= 0 <-> MV = []).
Proof.
  intros P M. pose proof (mok_nonempty _ _ _ _ _ P M) as NE. destruct M as (M1 & _). rewrite M1. split; intros H.
  - apply flat_nil; [exact NE|]. apply len_zero. exact H.
  - subst. cbn. lia.
Qed.

Lemma m_set_iter c ps V m MV it : mok c ps V m MV -> (forall l, (exists post, iat c (p_iter (m_first m)) (l ++ post)) -> MV <> [] -> exists post, iat c it (l ++ post)) ->
  mok c ps V (set_first m (set_iter (m_first m) it)) MV.
Proof.
  intros (M1 & M2 & M3 & M) H. split; [exact M1|]. split; [exact M2|]. split; [exact M3|]. destruct MV as [|mv V2]; [exact Logic.I|].
  destruct M as (P1 & p & P2 & V1 & v & pre & EP & EV & L & E & NE & K & NX & S). exists P1, p, P2, V1, v, pre. cbn. repeat (split; [assumption|]).
  split; [|auto]. destruct K as (K1 & K2 & K3 & K4). split; [cbn; apply H; [exact K1|discriminate]|]. cbn. auto.
Qed.

Lemma m_remove_segments_ok c ps V now bc bd : wf (cl_list c) -> pers c ps V -> Forall2 started (tl ps) (tl V) -> NoDup (map p_id ps) ->
  forall fuel m MV, mok c ps V m MV -> (length (flat MV) <= fuel)%nat ->
  exists m', m_remove_segments fuel c ps now bc bd m = Some m' /\
    mok c ps V m' (popn (trim (m_fine (m_conf m) (m_target m) bc bd) (flat MV)) MV) /\ same_static m m' /\
    m_pindex m' + len (popn (trim (m_fine (m_conf m) (m_target m) bc bd) (flat MV)) MV) = m_pindex m + len MV.
Proof.
  intros W P ST N. induction fuel as [|f IH]; intros m MV M L.
  - pose proof (proj2 (m_dst _ _ _ _ _ P M)) as Z. assert (E : flat MV = []) by (destruct (flat MV); [auto|cbn in L; lia]).
    pose proof (flat_nil _ (mok_nonempty _ _ _ _ _ P M) E) as ->. cbn [m_remove_segments]. specialize (Z eq_refl). replace (m_count m <=? 0) with true by lia.
    exists m. cbn. split; [reflexivity|]. split; [exact M|]. split; [apply ss_refl|reflexivity].
  - cbn [m_remove_segments]. destruct (m_count m <=? 0) eqn:Z0.
    { assert (MV = []) as -> by (apply (m_dst _ _ _ _ _ P M); lia). exists m. cbn. split; [reflexivity|]. split; [exact M|]. split; [apply ss_refl|reflexivity]. }
    assert (NE : MV <> []) by (intros E; apply (m_dst _ _ _ _ _ P M) in E; lia).
    pose proof (mok_nonempty _ _ _ _ _ P M) as NEV.
    destruct (flat MV) as [|s r] eqn:EF; [exfalso; apply NE; apply flat_nil; auto|]. cbn [trim].
    assert (LIM : (m_count m + bc <=? mc_max_segs (m_conf m)) && (m_dur m + bd <=? mc_max_dur (m_conf m)) = within (mc_max_segs (m_conf m)) (mc_max_dur (m_conf m)) bc bd (s :: r)).
    { destruct M as (M1 & M2 & _). rewrite M1, M2, EF. reflexivity. }
    rewrite LIM. unfold m_fine at 1 3. destruct (within (mc_max_segs (m_conf m)) (mc_max_dur (m_conf m)) bc bd (s :: r)) eqn:WI; cbn [orb].
    { exists m. cbn [popn]. split; [reflexivity|]. split; [exact M|]. split; [apply ss_refl|reflexivity]. }
    assert (REC : forall m1, mok c ps V m1 MV -> same_static m m1 -> m_pindex m1 = m_pindex m ->
              exists m', (do m2 <- m_remove_segment c ps now m1; m_remove_segments f c ps now bc bd m2) = Some m' /\
                mok c ps V m' (popn (S (trim (m_fine (m_conf m) (m_target m) bc bd) r)) MV) /\ same_static m m' /\
                m_pindex m' + len (popn (S (trim (m_fine (m_conf m) (m_target m) bc bd) r)) MV) = m_pindex m + len MV).
    { intros m1 M1 S1 I1. destruct (m_remove_ok _ _ _ now _ _ W P ST N M1 NE) as (m2 & G & M2 & S2 & I2). rewrite G.
      assert (F2 : flat (pop1 MV) = r) by (rewrite flat_pop, EF by exact NEV; reflexivity).
      destruct (IH m2 (pop1 MV) M2) as (m' & G' & M' & S' & I'); [rewrite F2; cbn in L; lia|]. rewrite F2 in *.
      pose proof (ss_trans _ _ _ S1 S2) as S3. destruct S3 as (C1 & C2 & C3 & C4 & C5 & C6). rewrite C1, C3 in M', I'.
      exists m'. split; [exact G'|]. split; [exact M'|]. split; [eapply ss_trans; [|exact S']; eapply ss_trans; eauto|]. cbn [popn]. lia. }
    destruct (mc_end (m_conf m)); [|apply REC; [exact M|apply ss_refl|reflexivity]|apply REC; [exact M|apply ss_refl|reflexivity]].
    destruct MV as [|mv V2]; [contradiction|]. clear NE. destruct M as (M1 & M2 & M3 & M). pose proof M as MM.
    destruct MM as (P1 & p & P2 & V1 & v & pre & EP & EV & LL & E & NE & ((post & A) & K) & NX & S).
    destruct (v_segs mv) as [|s0 ss] eqn:EM; [contradiction|]. assert (s0 = s) as -> by (rewrite flat_cons, EM in EF; cbn in EF; congruence).
    cbn [app] in A. destruct (iat_peek _ _ _ _ W A) as (it & G & A'). rewrite G. cbn [m_dur set_first m_target].
    assert (M' : mok c ps V (set_first m (set_iter (m_first m) it)) (mv :: V2)).
    { apply m_set_iter; [split; [exact M1|]; split; [exact M2|]; split; [exact M3|]; rewrite EM; exact M|]. intros l (q & B) _. exists q.
      rewrite (iat_unique _ _ _ _ B A). exact A'. }
    rewrite M2, EF.
    destruct (sum_dur (s :: r) <? m_target m * 3 + s_dur s).
    + exists (set_first m (set_iter (m_first m) it)). cbn [popn]. split; [reflexivity|]. split; [exact M'|]. split; [repeat split|reflexivity].
    + apply REC; [exact M'|repeat split|reflexivity].
Qed.

Lemma m_truncate_ok c ps V now index : wf (cl_list c) -> pers c ps V -> Forall2 started (tl ps) (tl V) -> NoDup (map p_id ps) ->
  forall fuel m MV, mok c ps V m MV -> (length (flat MV) <= fuel)%nat ->
  exists m', m_truncate fuel c ps now index m = Some m' /\ mok c ps V m' (popn (trim (after index) (flat MV)) MV) /\ same_static m m' /\
    m_pindex m' + len (popn (trim (after index) (flat MV)) MV) = m_pindex m + len MV.
Proof.
  intros W P ST N. induction fuel as [|f IH]; intros m MV M L.
  - pose proof (proj2 (m_dst _ _ _ _ _ P M)) as Z. assert (E : flat MV = []) by (destruct (flat MV); [auto|cbn in L; lia]).
    pose proof (flat_nil _ (mok_nonempty _ _ _ _ _ P M) E) as ->. cbn [m_truncate]. specialize (Z eq_refl). replace (0 <? m_count m) with false by lia. cbn [andb].
    exists m. cbn. split; [reflexivity|]. split; [exact M|]. split; [apply ss_refl|reflexivity].
  - cbn [m_truncate]. destruct (0 <? m_count m) eqn:Z0; cbn [andb].
    2:{ assert (MV = []) as -> by (apply (m_dst _ _ _ _ _ P M); lia). exists m. cbn. split; [reflexivity|]. split; [exact M|]. split; [apply ss_refl|reflexivity]. }
    assert (NE : MV <> []) by (intros E; apply (m_dst _ _ _ _ _ P M) in E; lia).
    pose proof (mok_nonempty _ _ _ _ _ P M) as NEV.
    destruct (flat MV) as [|s r] eqn:EF; [exfalso; apply NE; apply flat_nil; auto|]. cbn [trim after].
    assert (KE : p_key (m_first m) = s_index s).
    { destruct MV as [|mv V2]; [contradiction|]. destruct M as (_ & _ & _ & P1 & p & P2 & V1 & v & pre & _ & _ & _ & _ & NE' & (_ & K & _) & _).
      rewrite flat_cons in EF. destruct (v_segs mv) as [|s0 ss]; [contradiction|]. cbn in EF. injection EF as -> _. destruct K as (K & _). lia. }
    rewrite KE. destruct (s_index s <=? index) eqn:C.
    + replace (index <? s_index s) with false by lia. destruct (m_remove_ok _ _ _ now _ _ W P ST N M NE) as (m2 & G & M2 & S2 & I2). rewrite G.
      assert (F2 : flat (pop1 MV) = r) by (rewrite flat_pop, EF by exact NEV; reflexivity).
      destruct (IH m2 (pop1 MV) M2) as (m' & G' & M' & S' & I'); [rewrite F2; cbn in L; lia|]. rewrite F2 in *.
      exists m'. split; [exact G'|]. split; [exact M'|]. split; [eapply ss_trans; eauto|]. cbn [popn]. lia.
    + replace (index <? s_index s) with true by lia. exists m. cbn [popn]. split; [reflexivity|]. split; [exact M|]. split; [apply ss_refl|reflexivity].
Qed.

(* --- the timeline --- *)
Definition same_tl (t t' : timeline) : Prop :=
  t_id t' = t_id t /\ t_last_time t' = t_last_time t /\ t_conf t' = t_conf t /\ t_created t' = t_created t /\ t_m t' = t_m t.
Lemma st_refl t : same_tl t t. Proof. repeat split. Qed.
Lemma st_trans a b c : same_tl a b -> same_tl b c -> same_tl a c.
Proof. unfold same_tl. intuition congruence. Qed.

Definition incl_ids (t t' : timeline) : Prop := incl (map p_id (t_periods t')) (map p_id (t_periods t)).

Lemma t_remove_ok c t V MV : wf (cl_list c) -> tok c t V -> mok c (t_periods t) V (t_m t) MV -> V <> [] -> len (flat MV) < len (flat V) ->
  exists t', t_remove_segment c t = Some t' /\ tok c t' (pop1 V) /\ mok c (t_periods t') (pop1 V) (t_m t') MV /\ same_tl t t' /\ incl_ids t t' /\
    t_removed t' + t_dur t' = t_removed t + t_dur t.
Proof.
  intros W [T1 T2 T3 T4 T5 T6 T7] M NE LT. destruct V as [|v V]; [contradiction|]. clear NE. unfold t_remove_segment. revert T1 T2 T4 M. intros T1 T2 T4 M.
  destruct (t_periods t) as [|p ps] eqn:EP; [inversion T1|]. inversion T1 as [|? ? ? ? (K & NE & CO) T1']; subst. cbn [starts] in T2. destruct T2 as [T2 T2'].
  destruct (v_segs v) as [|s ss] eqn:EV; [contradiction|]. destruct (pop_ok _ _ _ _ W K) as (p' & G & K' & I1 & I2 & I3 & I4 & I5). rewrite G, I3.
  rewrite flat_cons, EV in *. cbn [app] in T3, T5, T6, LT. rewrite len_cons in T5, LT. cbn [sum_dur] in T6. cbn [map] in T4. inversion T4 as [|? ? N1 N2]; subst.
  destruct ss as [|s' ss].
  - change (0 <? len (@nil seg)) with false. cbn iota. unfold pop1. rewrite EV. eexists. split; [reflexivity|]. split; [|split; [|split; [repeat split|split]]].
    + constructor; cbn [t_periods t_init_time t_count t_dur t_pcount]; auto.
      * destruct ps as [|p2 ps]; inversion T1' as [|? v2 ? V' ? ?]; subst; [exact Logic.I|]. cbn [starts]. inversion T2'; subst. auto.
      * eapply numbered_tl. exact T3.
      * cbn [app] in T5. lia.
      * cbn [app] in T6. lia.
      * rewrite len_cons in T7. lia.
    + destruct M as (M1 & M2 & M3 & M). split; [exact M1|]. split; [exact M2|]. split; [exact M3|]. cbn [t_periods t_m]. destruct MV as [|mv V2]; [exact Logic.I|].
      destruct M as (P1 & q & P2 & V1 & u & pre & E1 & E2 & L & E & NE' & M'). destruct P1 as [|q1 P1].
      * destruct V1; [|cbn in L; lia]. cbn in E1, E2. injection E2 as <- <-. rewrite EV in E. rewrite flat_cons in LT.
        exfalso. destruct (v_segs mv) as [|m0 [|m1 ms]]; [contradiction| |].
        -- cbn [app] in LT. rewrite len_cons in LT. lia.
        -- destruct pre as [|a pre]; cbn in E; [discriminate|]. injection E as _ E. destruct pre; discriminate.
      * destruct V1 as [|u1 V1]; [cbn in L; lia|]. cbn in E1, E2. injection E1 as <- ->. injection E2 as <- ->.
        exists P1, q, P2, V1, u, pre. split; [reflexivity|]. split; [reflexivity|]. split; [cbn in L; lia|]. auto.
    + unfold incl_ids. rewrite EP. cbn. apply incl_tl. apply incl_refl.
    + cbn. lia.
  - rewrite len_cons in *. pose proof (len_nonneg ss). replace (0 <? 1 + len ss) with true by lia. unfold pop1. rewrite EV. eexists. split; [reflexivity|].
    split; [|split; [|split; [repeat split|split]]].
    + constructor; cbn [t_periods t_init_time t_count t_dur t_pcount]; auto.
      * constructor; [|exact T1']. split; [exact K'|]. split; [cbn; discriminate|]. cbn [v_corr]. congruence.
      * cbn [starts v_start]. auto.
      * rewrite flat_cons. cbn [v_segs]. eapply numbered_tl. exact T3.
      * cbn [map]. rewrite I1. constructor; auto.
      * rewrite flat_cons. cbn [v_segs]. lia.
      * rewrite flat_cons. cbn [v_segs]. lia.
    + destruct M as (M1 & M2 & M3 & M). split; [exact M1|]. split; [exact M2|]. split; [exact M3|]. cbn [t_periods t_m]. destruct MV as [|mv V2]; [exact Logic.I|].
      destruct M as (P1 & q & P2 & V1 & u & pre & E1 & E2 & L & E & NE' & M'). destruct P1 as [|q1 P1].
      * destruct V1; [|cbn in L; lia]. cbn in E1, E2. injection E1 as <- <-. injection E2 as <- <-. rewrite EV in E. rewrite flat_cons in LT.
        destruct pre as [|a pre].
        { exfalso. cbn in E. rewrite <- E in LT. cbn [app] in LT. rewrite !len_cons in LT. lia. }
        cbn in E. injection E as <- E. exists [], p', ps, [], (mk_pv (v_start v) (v_corr v) (s' :: ss)), pre. cbn [app v_segs]. split; [reflexivity|]. split; [reflexivity|]. split; [reflexivity|].
        split; [exact E|]. auto.
      * destruct V1 as [|u1 V1]; [cbn in L; lia|]. cbn in E1, E2. injection E1 as <- ->. injection E2 as <- ->.
        exists (p' :: P1), q, P2, (mk_pv (v_start v) (v_corr v) (s' :: ss) :: V1), u, pre. split; [reflexivity|]. split; [reflexivity|]. split; [cbn in *; lia|]. auto.
    + unfold incl_ids. rewrite EP. cbn. rewrite I1. apply incl_refl.
    + cbn. lia.
Qed.

Lemma incl_ids_refl t : incl_ids t t. Proof. apply incl_refl. Qed.
Lemma incl_ids_trans a b c : incl_ids a b -> incl_ids b c -> incl_ids a c.
Proof. unfold incl_ids. intros H1 H2. eapply incl_tran; eauto. Qed.

Lemma tok_nonempty c t V : tok c t V -> nonempty V.
Proof. intros T. eapply pers_nonempty. apply T. Qed.

Lemma t_loop_ok c bc bd MV : wf (cl_list c) ->
  forall fuel t V, tok c t V -> mok c (t_periods t) V (t_m t) MV -> (length (flat V) <= fuel)%nat ->
  exists t', t_remove_loop fuel c bc bd t = Some t' /\
    tok c t' (popn (trim (t_fine (t_conf t) (len (flat MV)) bc bd) (flat V)) V) /\
    mok c (t_periods t') (popn (trim (t_fine (t_conf t) (len (flat MV)) bc bd) (flat V)) V) (t_m t') MV /\ same_tl t t' /\ incl_ids t t' /\
    t_removed t' + t_dur t' = t_removed t + t_dur t.
Proof.
  intros W. induction fuel as [|f IH]; intros t V T M L.
  - assert (E : flat V = []) by (destruct (flat V); [auto|cbn in L; lia]). rewrite E. pose proof (flat_nil _ (tok_nonempty _ _ _ T) E) as ->.
    pose proof (tk_per _ _ _ T) as P. cbn [t_remove_loop]. inversion P as [EP|]. exists t. cbn. repeat split; auto using incl_ids_refl; try apply T; try apply M.
  - cbn [t_remove_loop]. pose proof (tk_per _ _ _ T) as P. destruct (t_periods t) as [|p ps] eqn:EP.
    { inversion P; subst. exists t. cbn. rewrite EP. split; [reflexivity|]. split; [exact T|]. split; [exact M|]. split; [apply st_refl|]. split; [apply incl_ids_refl|reflexivity]. }
    assert (NE : V <> []) by (intros ->; inversion P). pose proof (tok_nonempty _ _ _ T) as NEV.
    destruct (flat V) as [|s r] eqn:EF; [exfalso; apply NE; apply flat_nil; auto|]. cbn [trim].
    assert (FI : t_fine (t_conf t) (len (flat MV)) bc bd (s :: r) =
      (t_count t <=? m_count (t_m t)) || ((t_count t + bc <=? c_max_segs (t_conf t)) && (t_dur t + bd <=? c_max_dur (t_conf t)))).
    { rewrite (tk_count _ _ _ T), (tk_dur _ _ _ T), EF, (proj1 M). reflexivity. }
    rewrite FI. destruct (t_count t <=? m_count (t_m t)) eqn:C1; cbn [orb].
    { exists t. cbn [popn]. rewrite EP. split; [reflexivity|]. split; [exact T|]. split; [exact M|]. split; [apply st_refl|]. split; [apply incl_ids_refl|reflexivity]. }
    destruct ((t_count t + bc <=? c_max_segs (t_conf t)) && (t_dur t + bd <=? c_max_dur (t_conf t))).
    { exists t. cbn [popn]. rewrite EP. split; [reflexivity|]. split; [exact T|]. split; [exact M|]. split; [apply st_refl|]. split; [apply incl_ids_refl|reflexivity]. }
    rewrite <- EP in M. destruct (t_remove_ok _ _ _ _ W T M NE) as (t1 & G & T1 & M1 & S1 & I1 & R1).
    { rewrite (tk_count _ _ _ T), (proj1 M) in C1. lia. }
    rewrite G. assert (F2 : flat (pop1 V) = r) by (rewrite flat_pop, EF by exact NEV; reflexivity).
    destruct (IH t1 (pop1 V) T1 M1) as (t' & G' & T' & M' & S' & I' & R'); [rewrite F2; cbn in L; lia|]. rewrite F2 in *.
    destruct S1 as (S11 & S12 & S13 & S14 & S15). rewrite S13 in *. exists t'. split; [exact G'|]. split; [exact T'|]. split; [exact M'|].
    split; [eapply st_trans; [|exact S']; repeat split; auto|]. split; [eapply incl_ids_trans; eauto|lia].
Qed.

(* the loop that removes the segments up to an index, once they are not in the manifest any more *)
Lemma t_trunc_ok c index MV : wf (cl_list c) -> (forall s, In s (flat MV) -> index < s_index s) ->
  forall fuel t V, tok c t V -> mok c (t_periods t) V (t_m t) MV -> (length (flat V) <= fuel)%nat ->
  exists t', t_truncate_loop fuel c index t = Some t' /\ tok c t' (popn (trim (after index) (flat V)) V) /\
    mok c (t_periods t') (popn (trim (after index) (flat V)) V) (t_m t') MV /\ same_tl t t' /\ incl_ids t t' /\ t_removed t' + t_dur t' = t_removed t + t_dur t.
Proof.
  intros W HM. induction fuel as [|f IH]; intros t V T M L.
  - assert (E : flat V = []) by (destruct (flat V); [auto|cbn in L; lia]). rewrite E. pose proof (flat_nil _ (tok_nonempty _ _ _ T) E) as ->.
    pose proof (tk_per _ _ _ T) as P. cbn [t_truncate_loop]. inversion P as [EP|]. exists t. cbn. repeat split; auto using incl_ids_refl; try apply T; try apply M.
  - cbn [t_truncate_loop]. pose proof (tk_per _ _ _ T) as P. destruct (t_periods t) as [|p ps] eqn:EP.
    { inversion P; subst. exists t. cbn. rewrite EP. split; [reflexivity|]. split; [exact T|]. split; [exact M|]. split; [apply st_refl|]. split; [apply incl_ids_refl|reflexivity]. }
    assert (NE : V <> []) by (intros ->; inversion P). pose proof (tok_nonempty _ _ _ T) as NEV.
    destruct (flat V) as [|s r] eqn:EF; [exfalso; apply NE; apply flat_nil; auto|]. cbn [trim after].
    assert (KE : p_key p = s_index s).
    { destruct V as [|v V]; [contradiction|]. inversion P as [|? ? ? ? ((_ & K & _) & NE' & _) _]; subst. rewrite flat_cons in EF. destruct (v_segs v) as [|s0 ss]; [contradiction|].
      cbn in EF. injection EF as -> _. destruct K as (K & _). lia. }
    rewrite KE. destruct (index <? s_index s) eqn:C.
    { exists t. cbn [popn]. rewrite EP. split; [reflexivity|]. split; [exact T|]. split; [exact M|]. split; [apply st_refl|]. split; [apply incl_ids_refl|reflexivity]. }
    rewrite <- EP in M. destruct (t_remove_ok _ _ _ _ W T M NE) as (t1 & G & T1 & M1 & S1 & I1 & R1).
    { destruct (mok_suffix _ _ _ _ _ M) as (pre & E). rewrite E, len_app. destruct pre as [|x pre]; [|rewrite len_cons; pose proof (len_nonneg pre); lia].
      cbn in E. exfalso. specialize (HM s). rewrite <- E, EF in HM. specialize (HM ltac:(left; reflexivity)). lia. }
    rewrite G. assert (F2 : flat (pop1 V) = r) by (rewrite flat_pop, EF by exact NEV; reflexivity).
    destruct (IH t1 (pop1 V) T1 M1) as (t' & G' & T' & M' & S' & I' & R'); [rewrite F2; cbn in L; lia|]. rewrite F2 in *.
    exists t'. split; [exact G'|]. split; [exact T'|]. split; [exact M'|].
    split; [eapply st_trans; eauto|]. split; [eapply incl_ids_trans; eauto|lia].
Qed.
