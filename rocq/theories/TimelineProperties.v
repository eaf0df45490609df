(* The timelines of a channel: what viewers can play. *)
From Coq Require Import List ZArith Bool Lia ZifyBool ZifyNat.
From Verif Require Import SegListModel SegListSpec SegListProofs SegListProofs2 SegListProofs3 TimelineModel TimelineSpec TimelineProofs TimelineProofs2 TimelineProofs3
  TimelineProofs4 TimelineProofs5 TimelineProofs6 TimelineProofs7 TimelineProofs8 TimelineProofs9 TimelineProofs10 TimelineProofs11 TimelineProofs12 TimelineProofs13 TimelineProofs14.
Import ListNotations.
Local Open Scope Z_scope.

(* --- C48: what a timeline shows --- *)

(* no call follows a pointer to something freed *)
Theorem C48_defined : forall h, reach any h ->
  (forall now nalloc allocs s force, fresh h s -> add h now nalloc allocs s force <> None) /\
  (forall d, 0 <= d -> update_last_segment h d <> None) /\
  (forall now index, truncate h now index <> None) /\ (forall now, cleanup h now <> None) /\ (forall now id, get h now id <> None).
Proof.
  intros h HR. pose proof (reach_inv _ _ HR) as CV. split; [|split; [|split; [|split]]].
  - intros now na al s f F. destruct (add_segment_ok h now na al s f CV (proj1 F) (fresh_lt _ _ CV F) (proj2 (proj2 F))) as (h1 & r1 & E1 & _). unfold add. rewrite E1. discriminate.
  - intros d D. destruct (update_last_segment_ok h d CV D) as (h1 & r1 & E1 & _). rewrite E1. discriminate.
  - intros now i. destruct (truncate_ok h now i CV) as (h1 & E1 & _). rewrite E1. discriminate.
  - intros now. destruct (cleanup_ok h now CV) as (h1 & b & E1 & _). rewrite E1. discriminate.
  - intros now id. destruct (get_ok h now id CV) as [[Q _]|(t & h1 & t1 & _ & Q & _)]; rewrite Q; discriminate.
Qed.
Print Assumptions C48_defined.

(* a timeline can be read; its segments are the last ones that it took, in order; they are in the segment list;
   the manifest is the end of the timeline, with the same periods; each period is without a gap *)
Theorem C48_history : forall h R id t, hist h R -> find_tl id (ch_tls h) = Some t ->
  exists V M, tl_view (ch_list h) t = Some V /\ m_view (ch_list h) t = Some M /\
    (exists old, r_log (R id) = old ++ flat V) /\ (exists older, flat V = older ++ concat M) /\
    M = map v_segs (popn (length (flat V) - length (concat M)) V) /\
    (forall x, In x (flat V) -> In x (segs (cl_list (ch_list h)))) /\ numbered (flat V) /\
    (forall v, In v V -> exists s r, v_segs v = s :: r /\ consecutive (s_index s) (s_time s) (v_segs v)).
Proof.
  intros h R id t H F. pose proof (reach_inv _ _ (hist_reach _ _ H)) as CV. destruct (hist_told _ _ H id t F) as (V & MV & S & L & _). destruct (seen_at h t V MV CV S) as [TV TM].
  exists V, (map v_segs MV). split; [exact TV|]. split; [exact TM|]. split; [exact L|]. rewrite concat_segs. pose proof (tk_per _ _ _ (proj1 S)) as P.
  split; [apply (mok_suffix _ _ _ _ _ (proj2 S))|]. split; [apply (m_suffix _ _ _ _ S)|]. split; [intros x I; eapply st_in; eauto|]. split; [apply (tk_num _ _ _ (proj1 S))|].
  intros v I. clear - P I. induction P as [|p w ps W R _ IH]; [destruct I|]. destruct I as [->|I]; [|apply IH; exact I]. destruct R as ((_ & K & _) & NE & _). destruct (v_segs v) as [|s r]; [contradiction|].
  exists s, r. split; [reflexivity|]. pose proof K as (K1 & K2 & _). rewrite K1, K2. exact K.
Qed.
Print Assumptions C48_history.

(* the counters are those of what is shown, whatever happened *)
Theorem C48_counters : forall h id t, reach any h -> find_tl id (ch_tls h) = Some t ->
  exists V M, tl_view (ch_list h) t = Some V /\ m_view (ch_list h) t = Some M /\ M = map v_segs (popn (length (flat V) - length (concat M)) V) /\
    t_count t = len (flat V) /\ t_dur t = sum_dur (flat V) /\ t_pcount t = len V /\
    m_count (t_m t) = len (concat M) /\ m_dur (t_m t) = sum_dur (concat M) /\ m_pcount (t_m t) = len M.
Proof.
  intros h id t H F. pose proof (reach_inv _ _ H) as CV. destruct (seen h id t CV F) as (_ & _ & V & MV & S & _ & TV & TM). exists V, (map v_segs MV). rewrite concat_segs.
  split; [exact TV|]. split; [exact TM|]. split; [apply (m_suffix _ _ _ _ S)|]. destruct S as [[T1 T2 T3 T4 T5 T6 T7] (M1 & M2 & M3 & _)]. repeat (split; [assumption|]). unfold len in *. rewrite map_length. exact M3.
Qed.
Print Assumptions C48_counters.

Lemma put_nonempty V s force corr : nonempty V -> nonempty (put V s (force || breaks V s) corr).
Proof.
  intros NE. unfold put. destruct (force || breaks V s) eqn:NP; [apply Forall_app; split; [exact NE|constructor; [discriminate|constructor]]|].
  destruct V as [|v V]; [rewrite (breaks_nil [] s eq_refl), orb_true_r in NP; discriminate|]. apply (mput_nonempty (v :: V) s false 0). exact NE.
Qed.

(* what one call does to one timeline, as the proofs have it *)
Lemma add_found h now nalloc allocs s force h' r id t V M : reach any h -> fresh h s -> add h now nalloc allocs s force = Some (h', r) -> r <> RcError ->
  find_tl id (ch_tls h) = Some t -> tl_view (ch_list h) t = Some V -> m_view (ch_list h) t = Some M ->
  exists MV t' V' MV' alloc e, st (ch_list h) t V MV /\ M = map v_segs MV /\ lt_ok t V /\ find_tl id (ch_tls h') = Some t' /\ st (ch_list h') t' V' MV' /\
    tl_view (ch_list h') t' = Some V' /\ m_view (ch_list h') t' = Some (map v_segs MV') /\ (forall x, In x (flat V') -> ch_min h' <= s_index x) /\
    outcome (ch_scale h) (s_time s + s_dur s / 2) now s force alloc t V MV t' V' MV' e false.
Proof.
  intros H F E NR FT TV TM. pose proof (reach_inv _ _ H) as CV. destruct (seen h id t CV FT) as (_ & _ & V0 & MV & S & L & TV0 & TM0). rewrite TV in TV0. injection TV0 as <-. rewrite TM in TM0. injection TM0 as ->.
  destruct (add_segment_ok h now nalloc allocs s force CV (proj1 F) (fresh_lt _ _ CV F) (proj2 (proj2 F))) as (h1 & r1 & E1 & C1 & _ & K). unfold add in E. rewrite E in E1. injection E1 as <- <-.
  destruct (K NR) as (_ & _ & _ & _ & _ & (res & ER & FR & _) & _).
  pose proof (Forall2_find_fst _ _ _ id FR ltac:(intros ? ? Q; apply Q)) as FF. rewrite <- ER, FT in FF. destruct FF as (t2 & e & F2 & _ & (_ & A)). cbn [fst snd] in A.
  destruct (A V MV S L) as (V' & MV' & alloc & S' & MI & O). destruct (seen_at h' t2 V' MV' C1 S') as [TV' TM'].
  exists MV, t2, V', MV', alloc, e. repeat (split; [assumption || reflexivity|]). exact O.
Qed.

(* a new segment: a timeline that takes it appends it, in the last period or in a new one, and removes as much
   as its limits ask for; the others remove what is too old *)
Theorem C48_add : forall h now nalloc allocs s force h' r id t V M, reach any h -> fresh h s -> add h now nalloc allocs s force = Some (h', r) -> r <> RcError ->
  find_tl id (ch_tls h) = Some t -> tl_view (ch_list h) t = Some V -> m_view (ch_list h) t = Some M ->
  exists t' V' M', find_tl id (ch_tls h') = Some t' /\ tl_view (ch_list h') t' = Some V' /\ m_view (ch_list h') t' = Some M' /\
    if takes t (s_time s + s_dur s / 2) then
      let ML := concat M ++ [s] in
      let k' := trim (m_fine (m_conf (t_m t)) (m_target (t_m t)) 0 0) ML in
      let k := trim (t_fine (t_conf t) (len (skipn k' ML)) 0 0) (flat V ++ [s]) in
      exists corr, V' = popn k (put V s (force || breaks V s) corr) /\ concat M' = skipn k' ML
    else
      let (k, k') := expire (ch_scale h) now t (flat V) (concat M) in V' = popn k V /\ concat M' = skipn k' (concat M).
Proof.
  intros h now na al s f h' r id t V M H F E NR FT TV TM. destruct (add_found _ _ _ _ _ _ _ _ _ _ _ _ H F E NR FT TV TM) as (MV & t' & V' & MV' & alloc & e & S & -> & L & F' & S' & TV' & TM' & _ & O).
  exists t', V', (map v_segs MV'). split; [exact F'|]. split; [exact TV'|]. split; [exact TM'|]. rewrite !concat_segs. pose proof (mok_nonempty _ _ _ _ _ (tk_per _ _ _ (proj1 S)) (proj2 S)) as NM. inversion O; subst.
  - match goal with HT : takes t _ = false |- _ => rewrite HT end. match goal with HE : (k, k') = _ |- _ => rewrite <- HE end. split; [reflexivity|]. apply flat_popn. exact NM.
  - match goal with HT : takes t _ = true |- _ => rewrite HT end. cbv zeta. exists corr. unfold V1, newp, MV1. rewrite put_flat_all, mput_flat. split.
    + do 3 f_equal. rewrite flat_popn by (apply mput_nonempty; exact NM). rewrite mput_flat. reflexivity.
    + rewrite flat_popn by (apply mput_nonempty; exact NM). rewrite mput_flat. reflexivity.
Qed.
Print Assumptions C48_add.

(* the call says whether the new segment is in a manifest *)
Theorem C48_result : forall h now nalloc allocs s force h' r, reach any h -> fresh h s -> add h now nalloc allocs s force = Some (h', r) -> r <> RcError ->
  (r = RcOk <-> exists id t' M', find_tl id (ch_tls h') = Some t' /\ m_view (ch_list h') t' = Some M' /\ In s (concat M')).
Proof.
  intros h now na al s f h' r H F E NR. pose proof (reach_inv _ _ H) as CV.
  destruct (add_segment_ok h now na al s f CV (proj1 F) (fresh_lt _ _ CV F) (proj2 (proj2 F))) as (h1 & r1 & E1 & C1 & _ & K). unfold add in E. rewrite E in E1. injection E1 as <- <-.
  destruct (K NR) as (_ & _ & _ & _ & _ & (res & ER & FR & RR) & _).
  assert (ONE : forall t r, In t (ch_tls h) -> added h h' (s_time s + s_dur s / 2) now s f t (fst r) (snd r) -> forall M', m_view (ch_list h') (fst r) = Some M' -> (snd r = true <-> In s (concat M'))).
  { intros t rr It (_ & A) M' TM. destruct (ci_tls _ CV t It) as (V & MV & S & L & _). destruct (A V MV S L) as (V' & MV' & alloc & S' & _ & O).
    destruct (seen_at h' _ V' MV' C1 S') as [_ TM']. rewrite TM in TM'. injection TM' as ->. rewrite concat_segs. pose proof (mok_nonempty _ _ _ _ _ (tk_per _ _ _ (proj1 S)) (proj2 S)) as NM.
    assert (OLD : forall x, In x (flat MV) -> s_index x < s_index s).
    { intros x Ix. apply (fresh_lt _ _ CV F). eapply st_in; [exact S|]. destruct (mok_suffix _ _ _ _ _ (proj2 S)) as (p & EP). rewrite EP. apply in_or_app. right. exact Ix. }
    inversion O as [t9 k k' TK CF CC CLT SS EX PI Q1 Q2 Q3 Q4 Q5| |t9 V9 MV9 TK CF newp corr V1 MV1 EM EV CO SQ CR TG PI Q1 Q2 Q3 Q4 Q5]; subst.
    - split; [discriminate|]. intros Ix. rewrite flat_popn in Ix by exact NM. apply in_skipn in Ix. apply OLD in Ix. lia.
    - match goal with |- context[popn ?k MV1] => set (W := popn k MV1) in * end. assert (NW : nonempty W) by (apply nonempty_popn; apply mput_nonempty; exact NM).
      split.
      + intros Q. destruct W as [|w W'] eqn:EW; [discriminate|]. assert (T : tail_of (flat (w :: W')) (flat MV ++ [s])).
        { rewrite <- EW. unfold W. rewrite flat_popn by (apply mput_nonempty; exact NM). unfold MV1. rewrite mput_flat. apply tail_skip. apply tail_refl. }
        destruct T as (p & EP). assert (NF : flat (w :: W') <> []). { inversion NW as [|? ? N1 _]; subst. unfold flat. cbn. intros Q9. apply app_eq_nil in Q9 as [Q9 _]. contradiction. }
        destruct (exists_last NF) as (q & y & EY). rewrite EY in *. rewrite app_assoc in EP. apply app_inj_tail in EP as [_ ->]. apply in_or_app. right. left. reflexivity.
      + intros Q. destruct W; [destruct Q|reflexivity]. }
  rewrite RR. split.
  - intros Q. destruct (existsb snd res) eqn:EB; [|discriminate]. apply existsb_exists in EB as (rr & Ir & Er). destruct (Forall2_in_r _ _ _ _ FR Ir) as (t & It & A).
    assert (Ih : In (fst rr) (ch_tls h')) by (rewrite ER; apply in_map; exact Ir). destruct (seen h' (t_id (fst rr)) (fst rr) C1 (in_find _ _ (ci_ids _ C1) Ih)) as (_ & _ & V' & MV' & S' & _ & _ & TM).
    exists (t_id (fst rr)), (fst rr), (map v_segs MV'). split; [apply in_find; [apply C1|exact Ih]|]. split; [exact TM|]. apply (ONE t rr It A _ TM). exact Er.
  - intros (id & t' & M' & F' & TM & I). destruct (find_in _ _ _ F') as [I' _]. rewrite ER in I'. apply in_map_iff in I' as (rr & <- & Ir). destruct (Forall2_in_r _ _ _ _ FR Ir) as (t & It & A).
    replace (existsb snd res) with true; [reflexivity|]. symmetry. apply existsb_exists. exists rr. split; [exact Ir|]. apply (ONE t rr It A _ TM). exact I.
Qed.
Print Assumptions C48_result.

(* the duration of a pending segment becomes known: it is set wherever the segment is shown, nothing else changes *)
Theorem C48_update_last : forall h d h', reach any h -> 0 <= d -> update_last_segment h d = Some (h', RcOk) ->
  ch_pending h' = false /\
  forall id t V M, find_tl id (ch_tls h) = Some t -> tl_view (ch_list h) t = Some V -> m_view (ch_list h) t = Some M ->
    exists t' V' M', find_tl id (ch_tls h') = Some t' /\ tl_view (ch_list h') t' = Some V' /\ m_view (ch_list h') t' = Some M' /\
      if ends_at V (ch_last h) then V' = set_last V d /\ concat M' = set_last_dur (concat M) d else V' = V /\ M' = M.
Proof.
  intros h d h' H D E. pose proof (reach_inv _ _ H) as CV. destruct (update_last_segment_ok h d CV D) as (h1 & r1 & E1 & C1 & _ & K). rewrite E in E1. injection E1 as <- <-.
  destruct (K eq_refl) as (_ & CP & _ & FR & _). split; [exact CP|]. intros id t V M FT TV TM.
  destruct (seen h id t CV FT) as (_ & _ & V0 & MV & S & L & TV0 & TM0). rewrite TV in TV0. injection TV0 as <-. rewrite TM in TM0. injection TM0 as ->.
  pose proof (Forall2_find _ _ _ id FR ltac:(intros ? ? Q; apply Q)) as FF. rewrite FT in FF. destruct FF as (t2 & F2 & (_ & _ & _ & A)). specialize (A V MV S).
  destruct (ends_at V (ch_last h)).
  - destruct A as (S' & _). destruct (seen_at h' _ _ _ C1 S') as [TV' TM']. exists t2, (set_last V d), (map v_segs (set_last MV d)). split; [exact F2|]. split; [exact TV'|]. split; [exact TM'|]. split; [reflexivity|].
    rewrite !concat_segs. apply flat_set_last. eapply mok_nonempty; [apply S|apply S].
  - destruct A as [-> S']. destruct (seen_at h' _ _ _ C1 S') as [TV' TM']. exists t, V, (map v_segs MV). auto 6.
Qed.
Print Assumptions C48_update_last.

(* --- C49: the limits of the windows --- *)

Lemma m_fine_cases mc tg l : m_fine mc tg 0 0 l = true -> (len l <= mc_max_segs mc /\ sum_dur l <= mc_max_dur mc) \/ (mc_end mc = EndOff /\ exists x r, l = x :: r /\ sum_dur r < 3 * tg).
Proof.
  unfold m_fine, within. intros H. apply orb_prop in H as [H|H]; [left; lia|]. right. destruct (mc_end mc); try discriminate. split; [reflexivity|]. destruct l as [|x r]; [discriminate|]. exists x, r. split; [reflexivity|]. cbn [sum_dur] in H. lia.
Qed.
Lemma m_fine_no mc tg x r : m_fine mc tg 0 0 (x :: r) = false -> ~ (len (x :: r) <= mc_max_segs mc /\ sum_dur (x :: r) <= mc_max_dur mc) /\ (mc_end mc = EndOff -> 3 * tg <= sum_dur r).
Proof.
  unfold m_fine, within. intros H. apply orb_false_elim in H as [H1 H2]. split; [lia|]. intros Q. rewrite Q in H2. cbn [sum_dur] in H2. lia.
Qed.

Lemma skipn_pred {A} (l : list A) k : (0 < k <= length l)%nat -> exists x, skipn (k - 1) l = x :: skipn k l /\ In x (firstn k l).
Proof.
  revert k. induction l as [|y l IH]; intros k L; [cbn in L; lia|]. destruct k as [|k]; [lia|]. cbn [Nat.sub]. rewrite Nat.sub_0_r. destruct k as [|k].
  - exists y. split; [reflexivity|]. left. reflexivity.
  - cbn in L. destruct (IH (S k) ltac:(lia)) as (x & E & I). cbn [Nat.sub] in E. rewrite Nat.sub_0_r in E. exists x. split; [exact E|]. right. exact I.
Qed.
Lemma skipn_add {A} (p q : list A) : skipn (length p) (p ++ q) = q.
Proof. rewrite skipn_app, Nat.sub_diag, skipn_all. reflexivity. Qed.

(* a manifest that took a segment is within its limits, unless the segment alone is too long, or the manifest is
   not finished and would be shorter than three target durations without its first segment; and no segment is
   removed that could have been kept *)
Theorem C49_manifest : forall h now nalloc allocs s force h' r id t M, reach any h -> fresh h s -> add h now nalloc allocs s force = Some (h', r) -> r <> RcError ->
  find_tl id (ch_tls h) = Some t -> m_view (ch_list h) t = Some M -> takes t (s_time s + s_dur s / 2) = true ->
  let mc := m_conf (t_m t) in
  exists t' M' gone, find_tl id (ch_tls h') = Some t' /\ m_view (ch_list h') t' = Some M' /\ concat M ++ [s] = gone ++ concat M' /\
    (concat M' = [] \/ (len (concat M') <= mc_max_segs mc /\ sum_dur (concat M') <= mc_max_dur mc) \/
     (mc_end mc = EndOff /\ exists x kept, concat M' = x :: kept /\ sum_dur kept < 3 * m_target (t_m t))) /\
    (forall q x p, gone = q ++ x :: p ->
       ~ (len (x :: p ++ concat M') <= mc_max_segs mc /\ sum_dur (x :: p ++ concat M') <= mc_max_dur mc) /\
       (mc_end mc = EndOff -> 3 * m_target (t_m t) <= sum_dur (p ++ concat M'))) /\
    (1 <= mc_max_segs mc -> s_dur s <= mc_max_dur mc -> concat M' <> []) /\
    (mc_end mc = EndOff -> 0 < m_target (t_m t) -> concat M' <> []).
Proof.
  intros h now na al s f h' r id t M H F E NR FT TM TK mc. pose proof (reach_inv _ _ H) as CV. destruct (seen h id t CV FT) as (_ & _ & V & _ & _ & _ & TV & _).
  destruct (C48_add h now na al s f h' r id t V M H F E NR FT TV TM) as (t' & V' & M' & F' & _ & TM' & A). rewrite TK in A. cbv zeta in A. destruct A as (corr & _ & EM). fold mc in EM.
  set (L := concat M ++ [s]) in *. set (fine := m_fine mc (m_target (t_m t)) 0 0) in *. destruct (trim_spec fine L) as [P1 P2]. pose proof (trim_le fine L) as LE.
  exists t', M', (firstn (trim fine L) L). split; [exact F'|]. split; [exact TM'|]. split; [rewrite EM; symmetry; apply firstn_skipn|]. split; [|split; [|split]].
  - rewrite EM. destruct P1 as [P1|P1]; [left; exact P1|]. right. apply m_fine_cases. exact P1.
  - intros q x p EG. assert (LL : L = q ++ x :: p ++ concat M') by (rewrite EM, <- (firstn_skipn (trim fine L) L) at 1; rewrite EG, <- app_assoc; reflexivity).
    assert (LQ : (length q < trim fine L)%nat). { apply (f_equal (@length _)) in EG. rewrite firstn_length, app_length in EG. cbn in EG. lia. }
    specialize (P2 _ LQ). rewrite LL, skipn_add in P2. apply m_fine_no. exact P2.
  - intros B1 B2. assert (T : (trim fine L < length L)%nat).
    { apply trim_keeps; [unfold L; destruct (concat M); discriminate|]. intros x q EQ. unfold L in EQ. apply app_inj_tail in EQ as [_ <-]. unfold fine, m_fine, within. cbn [len length sum_dur]. change (len [s]) with 1. lia. }
    rewrite EM. intros Q. apply (f_equal (@length _)) in Q. rewrite skipn_length in Q. cbn in Q. lia.
  - intros B1 B2. assert (T : (trim fine L < length L)%nat).
    { apply trim_keeps; [unfold L; destruct (concat M); discriminate|]. intros x q EQ. unfold fine, m_fine. fold mc. rewrite B1. cbn [sum_dur]. lia. }
    rewrite EM. intros Q. apply (f_equal (@length _)) in Q. rewrite skipn_length in Q. cbn in Q. lia.
Qed.
Print Assumptions C49_manifest.

(* a timeline that took a segment is within its limits or shows no more than its manifest; and no segment is
   removed that could have been kept *)
Theorem C49_timeline : forall h now nalloc allocs s force h' r id t V, reach any h -> fresh h s -> add h now nalloc allocs s force = Some (h', r) -> r <> RcError ->
  find_tl id (ch_tls h) = Some t -> tl_view (ch_list h) t = Some V -> takes t (s_time s + s_dur s / 2) = true ->
  let cf := t_conf t in
  exists t' V' M' gone, find_tl id (ch_tls h') = Some t' /\ tl_view (ch_list h') t' = Some V' /\ m_view (ch_list h') t' = Some M' /\ flat V ++ [s] = gone ++ flat V' /\
    (flat V' = concat M' \/ (len (flat V') <= c_max_segs cf /\ sum_dur (flat V') <= c_max_dur cf)) /\
    (forall q x p, gone = q ++ x :: p -> ~ (len (x :: p ++ flat V') <= c_max_segs cf /\ sum_dur (x :: p ++ flat V') <= c_max_dur cf)).
Proof.
  intros h now na al s f h' r id t V H F E NR FT TV TK cf. pose proof (reach_inv _ _ H) as CV. destruct (seen h id t CV FT) as (_ & _ & V0 & MV & S & _ & TV0 & TM). rewrite TV in TV0. injection TV0 as <-.
  destruct (C48_add h now na al s f h' r id t V _ H F E NR FT TV TM) as (t' & V' & M' & F' & TV' & TM' & A). rewrite TK in A. cbv zeta in A. destruct A as (corr & EV & EM). fold cf in EV.
  pose proof (reach_inv _ _ (r_add _ _ _ _ _ _ _ _ _ H F E)) as C1. destruct (seen h' id t' C1 F') as (_ & _ & V2 & MV' & S' & _ & TV2 & TM2). rewrite TV' in TV2. injection TV2 as <-. rewrite TM' in TM2. injection TM2 as ->.
  rewrite <- EM in EV. rewrite concat_segs in *. set (L := flat V ++ [s]) in *. set (fine := t_fine cf (len (flat MV')) 0 0) in *. destruct (trim_spec fine L) as [P1 P2]. pose proof (trim_le fine L) as LE.
  assert (EF : flat V' = skipn (trim fine L) L).
  { rewrite EV, flat_popn by (apply put_nonempty; eapply tok_nonempty; apply S). rewrite put_flat_all. reflexivity. }
  exists t', V', (map v_segs MV'), (firstn (trim fine L) L). split; [exact F'|]. split; [exact TV'|]. split; [exact TM'|]. split; [rewrite EF; symmetry; apply firstn_skipn|]. rewrite concat_segs. split.
  - destruct (mok_suffix _ _ _ _ _ (proj2 S')) as (p & EP). destruct P1 as [P1|P1].
    + left. rewrite <- EF in P1. rewrite P1 in *. symmetry in EP. apply app_eq_nil in EP as [_ EP]. auto.
    + rewrite <- EF in P1. unfold fine, t_fine, within in P1. apply orb_prop in P1 as [P1|P1]; [left|right; lia]. apply Z.leb_le in P1. rewrite EP, len_app in P1. unfold len in P1. destruct p; [exact EP|cbn [length] in P1; lia].
  - intros q x p EG. assert (LL : L = q ++ x :: p ++ flat V') by (rewrite EF, <- (firstn_skipn (trim fine L) L) at 1; rewrite EG, <- app_assoc; reflexivity).
    assert (LQ : (length q < trim fine L)%nat). { apply (f_equal (@length _)) in EG. rewrite firstn_length, app_length in EG. cbn in EG. lia. }
    specialize (P2 _ LQ). rewrite LL, skipn_add in P2. unfold fine, t_fine, within in P2. lia.
Qed.
Print Assumptions C49_timeline.

(* a timeline that gets no more segments empties: when it is looked up, what is removed is what is too old *)
Theorem C49_expire : forall h now id t V M, reach any h -> find_tl id (ch_tls h) = Some t -> tl_view (ch_list h) t = Some V -> m_view (ch_list h) t = Some M ->
  c_active (t_conf t) && ch_active h = false ->
  exists h' t' V' M', get h now id = Some (Some (h', t')) /\ ch_list h' = ch_list h /\ tl_view (ch_list h') t' = Some V' /\ m_view (ch_list h') t' = Some M' /\
    (let (k, k') := expire (ch_scale h) now t (flat V) (concat M) in V' = popn k V /\ concat M' = skipn k' (concat M)) /\
    (t_created t < now -> c_max_dur (t_conf t) <= (now - t_created t) * ch_scale h -> mc_max_dur (m_conf (t_m t)) <= (now - t_created t) * ch_scale h ->
     mc_end (m_conf (t_m t)) <> EndOff -> (forall x, In x (flat V) -> 0 < s_dur x) -> V' = [] /\ M' = []).
Proof.
  intros h now id t V M H FT TV TM NA. pose proof (reach_inv _ _ H) as CV. destruct (seen h id t CV FT) as (_ & _ & V0 & MV & S & _ & TV0 & TM0). rewrite TV in TV0. injection TV0 as <-. rewrite TM in TM0. injection TM0 as ->.
  destruct (get_ok h now id CV) as [[_ Q]|(t1 & h1 & t2 & FT1 & E1 & C1 & EL & F2 & I2 & OT & A)]; [congruence|]. rewrite FT in FT1. injection FT1 as <-. rewrite NA in A.
  destruct (A V MV S) as (k & k' & (S' & _) & EX). rewrite <- EL in S'. destruct (seen_at h1 _ _ _ C1 S') as [TV' TM']. unfold expired_cut in EX.
  pose proof (mok_nonempty _ _ _ _ _ (tk_per _ _ _ (proj1 S)) (proj2 S)) as NM. pose proof (tok_nonempty _ _ _ (proj1 S)) as NE.
  exists h1, t2, (popn k V), (map v_segs (popn k' MV)). split; [exact E1|]. split; [exact EL|]. split; [exact TV'|]. split; [exact TM'|]. rewrite !concat_segs. rewrite <- EX. split; [split; [reflexivity|apply flat_popn; exact NM]|].
  intros B1 B2 B3 B4 B5. destruct (flat V) as [|x0 r0] eqn:EF0.
  { assert (V = []) as -> by (destruct V as [|v V]; [reflexivity|]; inversion NE; subst; unfold flat in EF0; cbn in EF0; apply app_eq_nil in EF0 as [Q _]; contradiction).
    destruct (mok_suffix _ _ _ _ _ (proj2 S)) as (p & EP). cbn in EP. symmetry in EP. apply app_eq_nil in EP as [_ EP].
    assert (MV = []) as -> by (destruct MV as [|v MV]; [reflexivity|]; inversion NM; subst; unfold flat in EP; cbn in EP; apply app_eq_nil in EP as [Q _]; contradiction).
    rewrite !popn_all; [split; reflexivity|constructor|cbn; lia|constructor|cbn; lia]. }
  assert (SP : forall l, l <> [] -> (forall x, In x l -> 0 < s_dur x) -> 0 < sum_dur l).
  { clear. induction l as [|x l IH]; intros N P; [contradiction|]. cbn [sum_dur]. pose proof (P x (or_introl eq_refl)). destruct l as [|y l]; [cbn; lia|]. specialize (IH ltac:(discriminate) ltac:(intros z I; apply P; right; exact I)). lia. }
  unfold expire in EX. rewrite <- EF0 in *. assert (PS : 0 < sum_dur (flat V)) by (apply SP; [rewrite EF0; discriminate|exact B5]).
  replace ((now <=? t_created t) || (sum_dur (flat V) <=? 0)) with false in EX by lia. cbv zeta in EX.
  set (bd := (now - t_created t) * ch_scale h) in *. set (bc := bd * len (flat V) / sum_dur (flat V)) in *. injection EX as EK EK'.
  assert (ALL : forall fine l, (forall p q, l = p ++ q -> q <> [] -> fine q = false) -> trim fine l = length l).
  { clear. intros fine l. induction l as [|x l IH]; intros Q; [reflexivity|]. cbn [trim]. rewrite (Q [] (x :: l) eq_refl ltac:(discriminate)). cbn [length]. f_equal. apply IH. intros p q E. apply (Q (x :: p) q). rewrite E. reflexivity. }
  assert (KM : k' = length (flat MV)).
  { rewrite EK'. apply ALL. intros p q EQ NQ. unfold m_fine, within. assert (0 < sum_dur q).
    { apply SP; [exact NQ|]. intros x I. apply B5. destruct (mok_suffix _ _ _ _ _ (proj2 S)) as (pp & EP). rewrite EP, EQ. apply in_or_app. right. apply in_or_app. right. exact I. }
    destruct (mc_end (m_conf (t_m t))); [contradiction| |]; rewrite orb_false_r; lia. }
  assert (KT : k = length (flat V)).
  { rewrite EK. rewrite <- EK', KM, skipn_all. apply ALL. intros p q EQ NQ. unfold t_fine, within. assert (0 < sum_dur q). { apply SP; [exact NQ|]. intros x I. apply B5. rewrite EQ. apply in_or_app. right. exact I. }
    change (len (@nil seg)) with 0. assert (0 < len q) by (destruct q; [contradiction|]; unfold len; cbn; lia). lia. }
  split; [apply popn_all; [exact NE|lia]|]. rewrite popn_all; [reflexivity|exact NM|lia].
Qed.
Print Assumptions C49_expire.
