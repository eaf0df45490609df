(* Adding a segment to a timeline, and giving the last segment its duration. *)
From Coq Require Import List ZArith Bool Lia ZifyBool ZifyNat.
From Verif Require Import SegListModel SegListSpec SegListProofs SegListProofs2 SegListProofs3 TimelineModel TimelineSpec TimelineProofs TimelineProofs2 TimelineProofs3 TimelineProofs4 TimelineProofs5.
Import ListNotations.
Local Open Scope Z_scope.

Definition m_kept (m m' : manifest) : Prop :=
  m_conf m' = m_conf m /\ m_target m' = m_target m /\ m_target_segs m' = m_target_segs m /\ m_seq m' = m_seq m /\ m_durs m' = m_durs m /\ m_pindex m' = m_pindex m.

(* where the last period ends *)
Lemma pok_end c p ss x : pok c p (ss ++ [x]) -> p_time p + p_dur p = s_end x /\ p_key p + p_count p = s_index x + 1.
Proof.
  intros (_ & K & D & C). apply consec_app in K as (_ & K1 & K2 & _). rewrite sum_app in D. rewrite len_app in C. cbn [sum_dur] in D. change (len [x]) with 1 in C.
  unfold s_end. lia.
Qed.
Lemma seg_snoc ss : ss <> [] -> exists q x, ss = q ++ [x] :> list seg.
Proof. intros H. destruct (unsnoc ss) as [[q x]|] eqn:E; [apply unsnoc_some in E; eauto|apply unsnoc_none in E; contradiction]. Qed.

Lemma NoDup_app_iff_snoc {A} (l : list A) x : NoDup l -> ~ In x l -> NoDup (l ++ [x]).
Proof.
  induction l as [|y l IH]; intros N I; cbn; [constructor; [intros []|constructor]|]. inversion N; subst. constructor.
  - intros Q. apply in_app_or in Q as [Q|[->|[]]]; [contradiction|]. apply I. left. reflexivity.
  - apply IH; [assumption|]. intros Q. apply I. right. exact Q.
Qed.

Definition correction (t : timeline) (time : Z) : Z :=
  if negb (c_gap (t_conf t) =? -1) && negb (t_last_time t =? 0) then t_last_time t + c_gap (t_conf t) - time else 0.

Lemma starts_snoc init ps V p v : starts init ps V -> started p v -> (ps = [] -> v_start v = init) -> starts init (ps ++ [p]) (V ++ [v]).
Proof.
  intros A B C. destruct ps as [|q ps], V as [|w V]; cbn in A; try contradiction.
  - cbn. split; [apply C; reflexivity|constructor].
  - cbn. destruct A as [A1 A2]. split; [exact A1|]. apply Forall2_app; [exact A2|constructor; [exact B|constructor]].
Qed.
Lemma starts_last init ps V p v p' v' : length ps = length V -> starts init (ps ++ [p]) (V ++ [v]) -> v_start v' = v_start v -> p_time p' = p_time p -> starts init (ps ++ [p']) (V ++ [v']).
Proof.
  intros L A B C. destruct ps as [|q ps], V as [|w V]; cbn in L; try lia.
  - cbn in *. destruct A as [A _]. split; [congruence|constructor].
  - cbn [app starts] in *. destruct A as [A1 A2]. split; [exact A1|]. apply Forall2_split in A2 as [A2 A3]; [|lia]. apply Forall2_app; [exact A2|].
    inversion A3; subst. constructor; [|constructor]. unfold started in *. congruence.
Qed.

Definition ids_below (t : timeline) (pid : nat) : Prop := forall i, In i (map p_id (t_periods t)) -> (i < pid)%nat.

Lemma take_ok c t V MV pid s force now now_segs mcorr : wf (cl_list c) -> segs (cl_list c) = now_segs ++ [s] -> st c t V MV ->
  (forall x, In x (flat V) -> s_index x < s_index s) -> ids_below t pid ->
  exists t1 pid' p0 p t2,
    add_to_period c true pid (s_time s) (s_index s) force t = Some (t1, pid', false) /\ unsnoc (t_periods t1) = Some (p0, p) /\
    t_add_segment (set_last_time t1 (s_time s + s_dur s + p_corr p)) now (s_dur s) = Some t2 /\
    st c t2 (put V s (force || breaks V s) (correction t (s_time s))) (match MV with [] => [mk_pv (s_time s) mcorr [s]] | _ => put MV s (force || breaks V s) (correction t (s_time s)) end) /\
    (pid <= pid')%nat /\ ids_below t2 pid' /\ t_last_time t2 = s_time s + s_dur s + p_corr p /\
    (forall V0 v, put V s (force || breaks V s) (correction t (s_time s)) = V0 ++ [v] -> v_corr v = p_corr p) /\
    t_id t2 = t_id t /\ t_conf t2 = t_conf t /\ t_created t2 = t_created t /\ t_removed t2 = t_removed t /\ m_kept (t_m t) (t_m t2).
Proof.
  intros W E [T M] LT ID. destruct (iat_last _ _ _ W E) as (it & CL & A). pose proof (segs_numbered _ W) as NU. pose proof (tk_per _ _ _ T) as P. pose proof (Forall2_length _ _ _ P) as PL.
  assert (NB : (match option_map snd (unsnoc (t_periods t)) with
           | Some p => force || negb (s_time s =? p_time p + p_dur p) || negb (s_index s =? p_key p + p_count p)
           | None => true end) = force || breaks V s).
  { unfold breaks. destruct (unsnoc (t_periods t)) as [[ps p]|] eqn:U; cbn [option_map snd].
    - apply unsnoc_some in U. rewrite U in P. destruct (unsnoc V) as [[V0 v]|] eqn:UV.
      + apply unsnoc_some in UV. subst V. apply Forall2_split in P as [_ P]; [|rewrite U, !app_length in PL; cbn in PL; lia]. inversion P as [|? ? ? ? (R & NE & _) _]; subst.
        rewrite flat_snoc. destruct (seg_snoc _ NE) as (q & x & EX). rewrite EX in *. rewrite app_assoc, unsnoc_snoc.
        destruct (pok_end _ _ _ _ R) as [R1 R2]. rewrite R1, R2, orb_assoc. reflexivity.
      + apply unsnoc_none in UV. subst V. rewrite U, app_length in PL. cbn in PL. lia.
    - apply unsnoc_none in U. rewrite (tok_nil _ _ _ T U). cbn. rewrite orb_true_r. reflexivity. }
  unfold add_to_period. rewrite NB. destruct (force || breaks V s) eqn:NP; cbn [negb].
  - (* a new period *)
    rewrite CL. cbn [t_conf t_last_time t_m t_periods t_id t_init_time t_created t_removed t_dur t_count t_pcount].
    fold (correction t (s_time s)). set (corr := correction t (s_time s)). set (p := mk_period pid (s_index s) it (s_time s) corr 0 0).
    destruct (m_new_ok c (t_periods t) V (t_m t) MV p it s now corr mcorr CL A P M eq_refl eq_refl) as (m1 & G & M' & MK). rewrite G.
    eexists _, _, (t_periods t), p, _. split; [reflexivity|]. cbn [t_periods]. rewrite unsnoc_snoc. split; [reflexivity|].
    unfold t_add_segment, set_last_time. cbn [t_periods]. rewrite unsnoc_snoc. split; [reflexivity|]. cbn [t_m t_periods t_id t_conf t_created t_last_time t_removed].
    split.
    { split; [|exact M']. unfold put. destruct T as [T1 T2 T3 T4 T5 T6 T7]. constructor; cbn [t_periods t_init_time t_count t_dur t_pcount].
      - apply pers_snoc; [exact T1|]. split; [apply first_pok; exact A|]. split; [discriminate|reflexivity].
      - apply starts_snoc; [destruct (unsnoc (t_periods t)) as [[? ?]|] eqn:U; [exact T2|apply unsnoc_none in U; rewrite U in *; destruct V; cbn in *; auto]|reflexivity|].
        intros Q. rewrite Q. reflexivity.
      - rewrite flat_snoc. cbn [v_segs]. apply numbered_snoc; [exact T3|exact LT].
      - rewrite map_app. cbn [map period_add p_id]. apply NoDup_app_iff_snoc; [exact T4|]. intros Q. apply ID in Q. cbn in Q. lia.
      - rewrite flat_snoc, len_app. cbn [v_segs]. change (len [s]) with 1. lia.
      - rewrite flat_snoc, sum_app. cbn [v_segs sum_dur]. lia.
      - rewrite len_app. change (len [mk_pv (s_time s) corr [s]]) with 1. lia. }
    split; [lia|]. split.
    { intros i. cbn [t_periods]. rewrite map_app. intros Q. apply in_app_or in Q as [Q|[<-|[]]]; [apply ID in Q; lia|cbn; lia]. }
    split; [reflexivity|]. split; [intros V0 v Q; unfold put in Q; apply app_inj_tail in Q as [_ <-]; reflexivity|]. repeat (split; [reflexivity|]). exact MK.
  - (* the last period goes on *)
    apply orb_false_iff in NP as [-> NP]. destruct (unsnoc (t_periods t)) as [[ps p]|] eqn:U; cbn [option_map snd] in NB; [|discriminate].
    apply unsnoc_some in U. destruct (unsnoc V) as [[V0 v]|] eqn:UV; [|apply unsnoc_none in UV; subst V; rewrite U, app_length in PL; cbn in PL; lia].
    apply unsnoc_some in UV. subst V. cbn [orb] in NB. apply orb_false_iff in NB as [NB1 NB2]. cbn [t_m]. rewrite U in P, M.
    destruct (m_ext_ok c ps V0 p v (t_m t) MV s now it mcorr now_segs CL A E NU P M ltac:(lia) ltac:(lia)) as (m1 & G & M' & MK).
    set (tt := mk_tl (t_id t) (t_periods t) _ _ _ _ _ _ _ _ _).
    assert (G' : (if m_pcount (t_m t) =? 0 then (do m <- m_add_first_period c (t_m t) (s_time s) (s_index s); Some (set_m tt m, pid, false)) else Some (tt, pid, false)) =
                 Some (set_m tt m1, pid, false)).
    { destruct (m_pcount (t_m t) =? 0); [rewrite G; reflexivity|]. injection G as <-. reflexivity. }
    rewrite G'. clear G'. eexists _, _, ps, p, _. split; [reflexivity|]. unfold tt, set_m, t_add_segment, set_last_time. cbn [t_m t_periods t_id t_conf t_created t_last_time t_removed t_init_time t_dur t_count t_pcount option_map].
    rewrite U, unsnoc_snoc. split; [reflexivity|]. split; [reflexivity|]. cbn [t_m t_periods t_id t_conf t_created t_last_time t_removed].
    unfold put at 1. rewrite grow_snoc. pose proof P as PP. apply Forall2_split in PP as [PP1 PP2]; [|rewrite U, !app_length in PL; cbn in PL; lia]. inversion PP2 as [|? ? ? ? R _]; subst.
    split.
    { split; [|unfold mput in M'; exact M']. destruct T as [T1 T2 T3 T4 T5 T6 T7]. rewrite U in *. constructor; cbn [t_periods t_init_time t_count t_dur t_pcount option_map snd].
      - apply pers_snoc; [exact PP1|]. destruct R as (R1 & R2 & R3). split; [cbn [v_segs]; eapply pok_extend; eauto; lia|].
        split; [cbn; intros Q; apply app_eq_nil in Q as [_ Q]; discriminate|exact R3].
      - eapply starts_last; [|exact T2|reflexivity|reflexivity]. rewrite !app_length in PL. cbn in PL. lia.
      - rewrite flat_snoc in *. cbn [v_segs]. rewrite app_assoc. apply numbered_snoc; [exact T3|exact LT].
      - rewrite map_app in *. exact T4.
      - rewrite flat_snoc in *. cbn [v_segs]. rewrite app_assoc, len_app. change (len [s]) with 1. lia.
      - rewrite flat_snoc in *. cbn [v_segs]. rewrite app_assoc, sum_app. cbn [sum_dur]. lia.
      - rewrite len_app in *. exact T7. }
    split; [lia|]. split.
    { intros i. cbn [t_periods]. intros Q. apply ID. rewrite U. rewrite map_app in *. exact Q. }
    split; [reflexivity|]. split.
    { intros V1 w Q. unfold put in Q. rewrite grow_snoc in Q. apply app_inj_tail in Q as [_ <-]. cbn. symmetry. apply R. }
    repeat (split; [reflexivity|]). exact MK.
Qed.

(* no memory for a period: nothing is added *)
Lemma fail_ok c t V MV pid s force alloc : st c t V MV -> forall t1 pid', add_to_period c alloc pid (s_time s) (s_index s) force t = Some (t1, pid', true) ->
  st c t1 V MV /\ pid' = pid /\ alloc = false /\ t_id t1 = t_id t /\ t_conf t1 = t_conf t /\ t_last_time t1 = t_last_time t /\ t_m t1 = t_m t /\ t_periods t1 = t_periods t /\ t_created t1 = t_created t.
Proof.
  intros [T M] t1 pid' H. unfold add_to_period in H. revert H. cbv zeta.
  set (newp := match option_map snd (unsnoc (t_periods t)) with Some p => _ | None => true end). cbn [t_periods t_m t_conf t_last_time].
  destruct newp.
  - destruct alloc; cbn [negb].
    + destruct (cl_last c); [|discriminate]. destruct (m_add_period _ _ _); discriminate.
    + intros H. injection H as <- <-. split; [|repeat split]. split; [|exact M]. destruct T as [T1 T2 T3 T4 T5 T6 T7]. constructor; auto.
      cbn [t_periods t_init_time]. destruct (unsnoc (t_periods t)) as [[? ?]|] eqn:U; [exact T2|]. apply unsnoc_none in U. rewrite U in *. destruct V; cbn in *; auto.
  - destruct (m_pcount (t_m t) =? 0); [destruct (m_add_first_period _ _ _ _); discriminate|discriminate].
Qed.
Lemma fail_cases c t V MV pid s force now_segs : wf (cl_list c) -> segs (cl_list c) = now_segs ++ [s] -> st c t V MV ->
  (exists t1, add_to_period c false pid (s_time s) (s_index s) force t = Some (t1, pid, true)) \/
  add_to_period c false pid (s_time s) (s_index s) force t = add_to_period c true pid (s_time s) (s_index s) force t.
Proof.
  intros _ _ _. unfold add_to_period. cbv zeta. set (newp := match option_map snd (unsnoc (t_periods t)) with Some p => _ | None => true end). destruct newp; cbn [negb].
  - left. eexists. reflexivity.
  - right. reflexivity.
Qed.
