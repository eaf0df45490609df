(* The last segment gets its duration. *)
From Coq Require Import List ZArith Bool Lia ZifyBool ZifyNat.
From Verif Require Import SegListModel SegListSpec SegListProofs SegListProofs2 SegListProofs3 TimelineModel TimelineSpec TimelineProofs TimelineProofs2 TimelineProofs3 TimelineProofs4 TimelineProofs5 TimelineProofs6.
Import ListNotations.
Local Open Scope Z_scope.

Lemma set_last_snoc V v d : set_last (V ++ [v]) d = V ++ [mk_pv (v_start v) (v_corr v) (set_last_dur (v_segs v) d)].
Proof. induction V as [|w V IH]; [reflexivity|]. cbn [app set_last]. rewrite IH. destruct V; reflexivity. Qed.
Lemma sld_snoc q x d : set_last_dur (q ++ [x]) d = q ++ [mk_seg (s_index x) (s_time x) d].
Proof. induction q as [|y q IH]; [reflexivity|]. cbn [app set_last_dur]. rewrite IH. destruct q; reflexivity. Qed.

Definition m_post (m m' : manifest) (d : Z) : Prop :=
  m_conf m' = m_conf m /\ m_target m' = m_target (m_post_add m d) /\ m_target_segs m' = m_target_segs (m_post_add m d) /\ m_seq m' = m_seq m /\
  m_durs m' = m_durs (m_post_add m d) /\ m_pindex m' = m_pindex m.

Section Update.
Variables (c : chlist) (d : Z) (l' : slist) (pre : list seg) (x : seg).
Hypothesis W : wf (cl_list c).
Hypothesis D : 0 <= d.
Hypothesis H : update_last (cl_list c) d = Some l'.
Hypothesis EL : segs (cl_list c) = pre ++ [x].
Let c' := mk_cl l' (cl_base c).
Let x' := mk_seg (s_index x) (s_time x) d.

Lemma upd_segs : wf (cl_list c') /\ segs (cl_list c') = pre ++ [x'] /\ s_dur x = 0.
Proof.
  destruct (update_last_ok _ _ _ W D H) as (W' & q & s & S1 & S2 & S3). cbn [cl_list c']. rewrite EL in S1. apply snoc_inj in S1 as [<- <-].
  split; [exact W'|]. split; [exact S3|exact S2].
Qed.

(* an iterator that has more than the last segment after it *)
Lemma iat_upd it q s : iat c it (q ++ [s; x]) -> iat c' it (q ++ [s; x']).
Proof. intros A. eapply iat_update; eauto. Qed.

Lemma iat_ends it post : iat c it post -> post <> [] -> exists q, post = q ++ [x].
Proof.
  intros (_ & p0 & _ & E & _) NE. destruct (seg_snoc _ NE) as (q & y & ->). rewrite EL, app_assoc in E. apply snoc_inj in E as [_ <-]. eauto.
Qed.

Lemma pok_upd_other p ss : pok c p ss -> ss <> [] -> p_key p + p_count p - 1 <> s_index x -> pok c' p ss.
Proof.
  intros R NE L. pose proof R as ((post & A) & K). split; [|exact K]. destruct (iat_ends _ _ A) as (q & E); [destruct ss; [contradiction|discriminate]|].
  destruct (seg_snoc _ NE) as (q0 & y & E0). assert (PN : post <> []).
  { intros ->. rewrite app_nil_r in E. rewrite E0 in E. apply app_inj_tail in E as [_ ->]. rewrite E0 in R. destruct (pok_end _ _ _ _ R) as [_ R2]. lia. }
  destruct (seg_snoc _ PN) as (q1 & z & E1). subst post ss. rewrite !app_assoc in E. apply app_inj_tail in E as [<- ->].
  destruct (seg_snoc (y :: q1) ltac:(discriminate)) as (q2 & w & E2). exists (q1 ++ [x']).
  assert (Q : q0 ++ y :: q1 = q0 ++ q2 ++ [w]) by (rewrite E2; reflexivity).
  replace ((q0 ++ [y]) ++ q1 ++ [x]) with ((q0 ++ q2) ++ [w; x]) in A.
  2:{ replace ((q0 ++ [y]) ++ q1 ++ [x]) with ((q0 ++ y :: q1) ++ [x]) by (rewrite <- ?app_assoc; reflexivity). rewrite Q, <- ?app_assoc. reflexivity. }
  apply iat_upd in A. replace ((q0 ++ q2) ++ [w; x']) with ((q0 ++ [y]) ++ q1 ++ [x']) in A; [exact A|].
  replace ((q0 ++ [y]) ++ q1 ++ [x']) with ((q0 ++ y :: q1) ++ [x']) by (rewrite <- ?app_assoc; reflexivity). rewrite Q, <- ?app_assoc. reflexivity.
Qed.

Lemma pok_upd_last p q id corr : pok c p (q ++ [x]) ->
  exists it, (if p_count p =? 1 then cl_last c' else Some (p_iter p)) = Some it /\
    pok c' (mk_period id (p_key p) it (p_time p) corr (p_dur p + d) (p_count p)) (q ++ [x']).
Proof.
  intros ((post & A) & K & DU & C). destruct upd_segs as (W' & S' & X0).
  assert (PE : post = []).
  { destruct (unsnoc post) as [[q1 z]|] eqn:U; [|apply unsnoc_none in U; exact U]. exfalso. apply unsnoc_some in U. subst post.
    destruct (iat_ends _ _ A) as (q2 & E); [destruct q; discriminate|]. rewrite app_assoc in E. apply app_inj_tail in E as [<- ->].
    pose proof A as (_ & p0 & _ & E2 & _). pose proof (segs_numbered _ W) as NU. rewrite E2 in NU.
    replace (p0 ++ (q ++ [x]) ++ q1 ++ [x]) with ((p0 ++ q) ++ x :: q1 ++ [x]) in NU by (rewrite <- ?app_assoc; reflexivity).
    pose proof (numbered_lt _ _ _ x NU ltac:(apply in_or_app; right; left; reflexivity)). lia. }
  subst post. rewrite app_nil_r in A. rewrite len_app in C. change (len [x]) with 1 in C.
  assert (REST : forall it, iat c' it (q ++ [x']) -> pok c' (mk_period id (p_key p) it (p_time p) corr (p_dur p + d) (p_count p)) (q ++ [x'])).
  { intros it A'. split; [exists []; rewrite app_nil_r; exact A'|]. cbn [p_key p_time p_dur p_count]. rewrite sum_app in DU |- *. rewrite len_app. cbn [sum_dur] in *. change (len [x']) with 1.
    split; [|cbn [s_dur x']; lia]. apply consec_app in K as (K1 & K2 & K3 & _). apply consec_app. split; [exact K1|]. cbn. auto. }
  destruct (p_count p =? 1) eqn:C1.
  - assert (q = []) as -> by (apply len_zero; lia). destruct (iat_last c' pre x' W' S') as (it & G & A'). exists it. split; [exact G|]. apply REST. exact A'.
  - destruct (seg_snoc q) as (q0 & y & ->); [intros ->; cbn in C; lia|]. exists (p_iter p). split; [reflexivity|]. apply REST.
    rewrite <- app_assoc in *. apply iat_upd. exact A.
Qed.

(* the last segment of the list is in a timeline only as its last one *)
Lemma tok_last_in t V : tok c t V -> In (s_index x) (map s_index (flat V)) -> exists V0 v q, V = V0 ++ [v] /\ v_segs v = q ++ [x].
Proof.
  intros T I. apply in_map_iff in I as (y & E & I). pose proof (tok_nonempty _ _ _ T) as NE. pose proof (tk_num _ _ _ T) as NU. pose proof (tk_per _ _ _ T) as P.
  destruct (unsnoc V) as [[V0 v]|] eqn:U; [|apply unsnoc_none in U; subst V; destruct I]. apply unsnoc_some in U. subst V. exists V0, v.
  assert (NV : v_segs v <> []) by (apply Forall_app in NE as [_ NE]; inversion NE; auto). destruct (seg_snoc _ NV) as (q & z & EZ). exists q. split; [reflexivity|].
  rewrite EZ. f_equal. f_equal.
  assert (INS : forall s, In s (flat (V0 ++ [v])) -> In s (segs (cl_list c))).
  { intros s Is. unfold flat in Is. apply in_flat_map in Is as (w & Iw & Is). clear - P Iw Is. induction P as [|p u ps V R _ IH]; [destruct Iw|].
    destruct Iw as [->|Iw]; [eapply pok_in; [apply R|exact Is]|apply IH; exact Iw]. }
  pose proof (segs_numbered _ W) as NS.
  assert (yx : y = x).
  { apply (numbered_nodup pre []); [rewrite <- EL; exact NS|rewrite <- EL; apply INS; exact I|exact E]. }
  subst y. rewrite flat_snoc, EZ, app_assoc in NU, I. apply in_app_or in I as [I|[->|[]]]; [|reflexivity]. exfalso.
  apply in_split in I as (a & b & EA). rewrite EA, <- app_assoc in NU. cbn [app] in NU.
  assert (s_index x < s_index z) by (eapply numbered_lt; [exact NU|apply in_or_app; right; left; reflexivity]).
  assert (Iz : In z (pre ++ [x])) by (rewrite <- EL; apply INS; rewrite flat_snoc, EZ; apply in_or_app; right; apply in_or_app; right; left; reflexivity).
  rewrite EL in NS. apply in_app_or in Iz as [Iz|[->|[]]]; [|lia]. apply in_split in Iz as (a' & b' & ->). rewrite <- app_assoc in NS. cbn [app] in NS.
  assert (s_index z < s_index x) by (eapply numbered_lt; [exact NS|apply in_or_app; right; left; reflexivity]). lia.
Qed.

Lemma prel_upd_other p v : prel c p v -> ~ In (s_index x) (map s_index (v_segs v)) -> prel c' p v.
Proof.
  intros (R & NE & CO) N. split; [|auto]. apply pok_upd_other; auto. intros Q. apply N. destruct (seg_snoc _ NE) as (q & y & E). rewrite E in R.
  destruct (pok_end _ _ _ _ R) as [_ R2]. apply in_map_iff. exists y. split; [lia|]. rewrite E. apply in_or_app. right. left. reflexivity.
Qed.

(* the periods before the last one do not have the last segment *)
Lemma not_in_front V0 v q w : numbered (flat (V0 ++ [v])) -> v_segs v = q ++ [x] -> In w V0 -> ~ In (s_index x) (map s_index (v_segs w)).
Proof.
  intros N E I Q. apply in_map_iff in Q as (y & EY & Iy). rewrite flat_snoc, E, app_assoc in N. assert (IF : In y (flat V0)) by (eapply in_flat; eauto).
  apply in_split in IF as (a & b & EA). rewrite EA in N. rewrite <- !app_assoc in N. cbn [app] in N.
  pose proof (numbered_lt _ _ _ x N ltac:(apply in_or_app; right; apply in_or_app; right; left; reflexivity)). lia.
Qed.

Lemma pers_upd ps V : pers c ps V -> (forall v, In v V -> ~ In (s_index x) (map s_index (v_segs v))) -> pers c' ps V.
Proof.
  intros P N. induction P as [|p v ps V R _ IH]; constructor.
  - apply prel_upd_other; [exact R|]. apply N. left. reflexivity.
  - apply IH. intros w I. apply N. right. exact I.
Qed.

Lemma sum_snoc_upd q : sum_dur (q ++ [x']) = sum_dur (q ++ [x]) + d.
Proof. destruct upd_segs as (_ & _ & X0). rewrite !sum_app. cbn. lia. Qed.

Lemma update_one_ok t V MV : st c t V MV ->
  exists t', update_one c' (s_index x) d t = Some t' /\ t_id t' = t_id t /\ t_conf t' = t_conf t /\ t_created t' = t_created t /\ t_removed t' = t_removed t /\
    map p_id (t_periods t') = map p_id (t_periods t) /\
    if ends_at V (s_index x) then st c' t' (set_last V d) (set_last MV d) /\ t_last_time t' = t_last_time t + d /\
        (if 0 <? m_count (t_m t) then m_post (t_m t) (t_m t') d else t_m t' = t_m t) /\ (exists V0 v q, V = V0 ++ [v] /\ v_segs v = q ++ [x])
    else t' = t /\ st c' t V MV.
Proof.
  intros [T M]. pose proof (tk_per _ _ _ T) as P. pose proof (Forall2_length _ _ _ P) as PL. pose proof (tok_nonempty _ _ _ T) as NE. unfold update_one.
  assert (OTHER : ends_at V (s_index x) = false -> st c' t V MV).
  { intros EA. assert (NI : ~ In (s_index x) (map s_index (flat V))).
    { intros I. destruct (tok_last_in _ _ T I) as (V0 & v & q & -> & E). unfold ends_at in EA. rewrite flat_snoc, E, app_assoc, unsnoc_snoc, Z.eqb_refl in EA. discriminate. }
    assert (NV : forall v, In v V -> ~ In (s_index x) (map s_index (v_segs v))).
    { intros v I Q. apply NI. apply in_map_iff in Q as (y & E & Iy). apply in_map_iff. exists y. split; [exact E|]. eapply in_flat; eauto. }
    split.
    - eapply tok_change; [|exact T]. intros p v I R. apply prel_upd_other; auto.
    - eapply mok_change; [|exact M]. intros p ss p0 _ (v & I & E) NS R. apply pok_upd_other; auto. intros Q. apply (NV v I). destruct (seg_snoc _ NS) as (q & y & ES). rewrite ES in R.
      destruct (pok_end _ _ _ _ R) as [_ R2]. apply in_map_iff. exists y. split; [lia|]. rewrite E, ES. apply in_or_app. right. apply in_or_app. right. left. reflexivity. }
  destruct (unsnoc (t_periods t)) as [[ps p]|] eqn:U.
  2:{ apply unsnoc_none in U. rewrite (tok_nil _ _ _ T U) in *. exists t. cbn [ends_at flat flat_map unsnoc] in *. do 6 (split; [reflexivity|]). split; [reflexivity|]. apply OTHER. reflexivity. }
  apply unsnoc_some in U. destruct (unsnoc V) as [[V0 v]|] eqn:UV; [|apply unsnoc_none in UV; subst V; rewrite U, app_length in PL; cbn in PL; lia].
  apply unsnoc_some in UV. subst V. rewrite U in P, M. rewrite U, !app_length in PL. cbn in PL.
  pose proof P as PP. apply Forall2_split in PP as [PP1 PP2]; [|lia]. inversion PP2 as [|? ? ? ? (R & NV & CO) _]; subst.
  destruct (seg_snoc _ NV) as (q & z & EZ). rewrite EZ in R. destruct (pok_end _ _ _ _ R) as [R1 R2].
  assert (EA : ends_at (V0 ++ [v]) (s_index x) = (p_key p + p_count p - 1 =? s_index x)).
  { unfold ends_at. rewrite flat_snoc, EZ, app_assoc, unsnoc_snoc. f_equal. lia. }
  destruct (p_key p + p_count p - 1 =? s_index x) eqn:C; cbn [negb].
  2:{ exists t. do 6 (split; [reflexivity|]). rewrite EA. split; [reflexivity|]. apply OTHER. exact EA. }
  assert (z = x) as ->.
  { destruct (tok_last_in t (V0 ++ [v]) T) as (V1 & w & q1 & E1 & E2).
    - apply in_map_iff. exists z. split; [lia|]. rewrite flat_snoc, EZ. apply in_or_app. right. apply in_or_app. right. left. reflexivity.
    - apply app_inj_tail in E1 as [<- <-]. rewrite EZ in E2. apply app_inj_tail in E2. apply E2. }
  clear OTHER. rewrite EA. destruct (pok_upd_last p q (p_id p) (p_corr p) R) as (it & G & R'). rewrite G.
  set (p' := mk_period (p_id p) (p_key p) it (p_time p) (p_corr p) (p_dur p + d) (p_count p)) in *.
  set (v' := mk_pv (v_start v) (v_corr v) (q ++ [x'])).
  assert (SV : set_last (V0 ++ [v]) d = V0 ++ [v']) by (rewrite set_last_snoc, EZ, sld_snoc; reflexivity).
  pose proof (tk_num _ _ _ T) as NU.
  assert (P0' : pers c' ps V0) by (apply pers_upd; [exact PP1|]; intros w I; eapply not_in_front; eauto).
  (* the manifest *)
  assert (MM : exists m', (if 0 <? m_count (t_m t) then
                   do f <- (if m_pcount (t_m t) =? 1 then
                              let f := m_first (t_m t) in
                              do it <- (if p_count f =? 1 then cl_last c' else Some (p_iter f));
                              Some (mk_period (p_id f) (p_key f) it (p_time f) (p_corr f) (p_dur f + d) (p_count f))
                            else Some (m_first (t_m t)));
                   Some (m_post_add (mk_m (m_conf (t_m t)) (m_avail (t_m t)) f (m_next (t_m t)) (m_init_time (t_m t)) (m_init_index (t_m t)) (m_pindex (t_m t)) (m_target (t_m t))
                           (m_target_segs (t_m t)) (m_seq (t_m t)) (m_modified (t_m t)) (m_durs (t_m t)) (m_dur (t_m t) + d) (m_count (t_m t)) (m_pcount (t_m t))) d)
                 else Some (t_m t)) = Some m' /\ mok c' (ps ++ [p']) (V0 ++ [v']) m' (set_last MV d) /\ (if 0 <? m_count (t_m t) then m_post (t_m t) m' d else m' = t_m t)).
  { pose proof M as (M1 & M2 & M3 & MX). destruct MV as [|mv V2].
    - change (len (flat [])) with 0 in M1. rewrite M1. cbn [Z.ltb Z.compare]. exists (t_m t). split; [reflexivity|]. cbn [set_last]. split; [|reflexivity].
      split; [exact M1|]. split; [exact M2|]. split; [exact M3|exact Logic.I].
    - destruct MX as (P1 & p1 & P2 & V1 & u & p0 & EP & EV & L & E & NM & K & NX & S). rewrite flat_cons, len_app in M1. rewrite len_cons in M3.
      pose proof (len_pos _ NM). pose proof (len_nonneg (flat V2)). pose proof (len_nonneg V2). replace (0 <? m_count (t_m t)) with true by lia.
      destruct (unsnoc V2) as [[V2' w]|] eqn:U2.
      + apply unsnoc_some in U2. subst V2. replace (m_pcount (t_m t) =? 1) with false by (rewrite len_app in M3; change (len [w]) with 1 in M3; pose proof (len_nonneg V2'); lia).
        eexists. split; [reflexivity|]. split; [|repeat split].
        replace (V1 ++ u :: V2' ++ [w]) with ((V1 ++ u :: V2') ++ [w]) in EV by (rewrite <- app_assoc; reflexivity). apply snoc_inj in EV as [-> <-].
        assert (exists P2', P2 = P2' ++ [p] /\ ps = P1 ++ p1 :: P2') as (P2' & -> & ->).
        { destruct (unsnoc P2) as [[P2' p2]|] eqn:U3.
          - apply unsnoc_some in U3. subst P2. replace (P1 ++ p1 :: P2' ++ [p2]) with ((P1 ++ p1 :: P2') ++ [p2]) in EP by (rewrite <- app_assoc; reflexivity).
            apply snoc_inj in EP as [-> ->]. eauto.
          - apply unsnoc_none in U3. subst P2. apply snoc_inj in EP as [-> ->]. rewrite app_length in PL. cbn in PL. lia. }
        change (mv :: V2' ++ [v]) with ((mv :: V2') ++ [v]). rewrite set_last_snoc, EZ, sld_snoc. fold x'. fold v'.
        change (mv :: V2' ++ [v]) with ((mv :: V2') ++ [v]) in M2. rewrite flat_snoc, EZ in M2.
        split; [cbn [m_count m_post_add]; rewrite flat_snoc, M1, flat_snoc, flat_cons, EZ; cbn [v_segs v']; rewrite !len_app; cbn; lia|].
        split; [cbn [m_dur m_post_add]; rewrite flat_snoc, M2; cbn [v_segs v']; rewrite !(sum_app (flat (mv :: V2'))), sum_snoc_upd; lia|].
        split; [cbn [m_pcount m_post_add]; rewrite M3; unfold len; cbn [app length]; rewrite !app_length; cbn [length]; lia|].
        cbn [app]. exists P1, p1, (P2' ++ [p']), V1, u, p0. cbn [m_first m_next m_init_time m_post_add].
        split; [rewrite <- app_assoc; reflexivity|]. split; [rewrite <- app_assoc; reflexivity|]. repeat (split; [assumption|]). split; [|split; [|exact S]].
        * apply pok_upd_other; auto. intros Q. destruct (seg_snoc _ NM) as (q1 & y & ES). rewrite ES in K. destruct (pok_end _ _ _ _ K) as [_ K2].
          apply (not_in_front (V1 ++ u :: V2') v q u NU EZ ltac:(apply in_or_app; right; left; reflexivity)). apply in_map_iff. exists y. split; [lia|]. rewrite E, ES.
          apply in_or_app. right. apply in_or_app. right. left. reflexivity.
        * rewrite NX. destruct P2'; reflexivity.
      + apply unsnoc_none in U2. subst V2. rewrite len_nil in M3. replace (m_pcount (t_m t) =? 1) with true by lia. apply snoc_inj in EV as [-> <-].
        assert (P2 = [] /\ ps = P1 /\ p = p1) as (-> & -> & ->).
        { destruct (unsnoc P2) as [[P2' p2]|] eqn:U3.
          - apply unsnoc_some in U3. subst P2. replace (P1 ++ p1 :: P2' ++ [p2]) with ((P1 ++ p1 :: P2') ++ [p2]) in EP by (rewrite <- app_assoc; reflexivity).
            apply snoc_inj in EP as [-> ->]. rewrite app_length in PL. cbn in PL. lia.
          - apply unsnoc_none in U3. subst P2. apply snoc_inj in EP as [-> ->]. auto. }
        destruct (seg_snoc _ NM) as (q1 & y & ES). assert (y = x) as ->.
        { rewrite EZ, ES, app_assoc in E. apply app_inj_tail in E as [_ ->]. reflexivity. }
        rewrite ES in K. destruct (pok_upd_last _ q1 (p_id (m_first (t_m t))) (p_corr (m_first (t_m t))) K) as (it1 & G1 & K'). cbv zeta. rewrite G1.
        eexists. split; [reflexivity|]. split; [|repeat split]. cbn [set_last]. rewrite ES, sld_snoc. fold x'. cbn [flat flat_map] in M1. change (len []) with 0 in M1.
        rewrite flat_cons in M2. cbn [flat flat_map] in M2. rewrite app_nil_r, ES in M2. rewrite ES, len_app in M1.
        split; [cbn [m_count m_post_add]; rewrite flat_cons; cbn [v_segs flat flat_map]; rewrite app_nil_r, len_app; cbn in *; lia|].
        split; [cbn [m_dur m_post_add]; rewrite flat_cons; cbn [v_segs flat flat_map]; rewrite app_nil_r, sum_snoc_upd; lia|].
        split; [cbn [m_pcount m_post_add]; rewrite M3; reflexivity|].
        exists P1, p', [], V1, v', p0. cbn [m_first m_next m_init_time m_post_add v_segs v_start]. split; [reflexivity|]. split; [reflexivity|]. split; [exact L|].
        split; [cbn [v_segs v']; rewrite EZ, ES, app_assoc in E; apply app_inj_tail in E as [-> _]; rewrite <- app_assoc; reflexivity|].
        split; [intros Q; apply app_eq_nil in Q as [_ Q]; discriminate|]. split; [exact K'|]. split; [exact NX|exact S]. }
  destruct MM as (m' & GM & M' & MP). cbv zeta in GM |- *. rewrite GM. eexists. split; [reflexivity|]. cbn [t_id t_conf t_created t_removed t_periods t_last_time t_m].
  repeat (split; [reflexivity|]). split; [rewrite U, !map_app; reflexivity|]. split; [|split; [reflexivity|split; [exact MP|]]].
  2:{ exists V0, v, q. auto. }
  rewrite SV. split; [|exact M']. destruct T as [T1 T2 T3 T4 T5 T6 T7]. rewrite U in *.
  constructor; cbn [t_periods t_init_time t_count t_dur t_pcount].
  - apply pers_snoc; [exact P0'|]. split; [exact R'|]. split; [cbn; intros Q; apply app_eq_nil in Q as [_ Q]; discriminate|exact CO].
  - eapply starts_last; [lia|exact T2|reflexivity|reflexivity].
  - rewrite flat_snoc in *. rewrite EZ in T3. cbn [v_segs v']. rewrite app_assoc in *. apply numbered_snoc; [eapply numbered_app_l; exact T3|].
    intros y I. cbn [s_index x']. apply in_split in I as (a & b & EB). rewrite EB, <- app_assoc in T3. eapply numbered_lt; [exact T3|]. apply in_or_app. right. left. reflexivity.
  - rewrite map_app in *. exact T4.
  - rewrite flat_snoc in *. rewrite EZ in T5. cbn [v_segs v']. rewrite !len_app in *. exact T5.
  - rewrite flat_snoc in *. rewrite EZ in T6. cbn [v_segs v']. rewrite !(sum_app (flat V0)) in *. rewrite sum_snoc_upd. lia.
  - rewrite len_app in *. exact T7.
Qed.
End Update.
