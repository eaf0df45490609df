(* What is read of a timeline; one timeline when a segment is added to the channel. *)
From Coq Require Import List ZArith Bool Lia ZifyBool ZifyNat.
From Verif Require Import SegListModel SegListSpec SegListProofs SegListProofs2 SegListProofs3 TimelineModel TimelineSpec TimelineProofs TimelineProofs2 TimelineProofs3
  TimelineProofs4 TimelineProofs5 TimelineProofs6 TimelineProofs7.
Import ListNotations.
Local Open Scope Z_scope.

(* --- reading --- *)
Lemma read_periods_ok c ps V : wf (cl_list c) -> pers c ps V -> Forall2 started ps V -> read_periods c ps = Some V.
Proof.
  intros W P S. revert S. induction P as [|p v ps V (R & _ & CO) _ IH]; intros S; [reflexivity|]. inversion S as [|? ? ? ? S1 S2]; subst. cbn [read_periods].
  unfold read_period. rewrite (pok_read _ _ _ W R), (IH S2), CO, <- S1. destruct v; reflexivity.
Qed.
Lemma tl_view_ok c t V : wf (cl_list c) -> tok c t V -> tl_view c t = Some V.
Proof.
  intros W [T1 T2 _ _ _ _ _]. unfold tl_view. destruct (t_periods t) as [|p ps]; inversion T1 as [|? v ? V' (R & _ & CO) P]; subst; [reflexivity|].
  destruct T2 as [T2 T3]. unfold read_period. rewrite (pok_read _ _ _ W R), (read_periods_ok _ _ _ W P T3), CO, <- T2. destruct v; reflexivity.
Qed.
Lemma follow_ok c P1 : forall P2 V2, wf (cl_list c) -> pers c P2 V2 -> Forall2 started P2 V2 -> NoDup (map p_id (P1 ++ P2)) ->
  forall fuel, (length P2 <= fuel)%nat -> follow c (P1 ++ P2) fuel (head_id P2) = Some V2.
Proof.
  intros P2. revert P1. induction P2 as [|p P2 IH]; intros P1 V2 W P S N fuel L; inversion P as [|? v ? V' (R & _ & CO) P']; subst; [destruct fuel; reflexivity|].
  inversion S as [|? ? ? ? S1 S2]; subst. destruct fuel as [|f]; [cbn in L; lia|]. cbn [head_id follow]. rewrite (deref_mid _ _ _ N).
  unfold read_period. rewrite (pok_read _ _ _ W R). replace (P1 ++ p :: P2) with ((P1 ++ [p]) ++ P2) in * by (rewrite <- app_assoc; reflexivity).
  rewrite (IH (P1 ++ [p]) V' W P' S2 N f ltac:(cbn in L; lia)), CO, <- S1. destruct v; reflexivity.
Qed.
Lemma m_view_ok c t V MV : wf (cl_list c) -> st c t V MV -> m_view c t = Some (map v_segs MV).
Proof.
  intros W [T M]. unfold m_view. pose proof (m_dst _ _ _ _ _ (tk_per _ _ _ T) M) as Z. pose proof M as (M1 & _). destruct MV as [|mv V2].
  - change (len (flat [])) with 0 in M1. rewrite M1. reflexivity.
  - assert (0 < m_count (t_m t)) by (destruct (Z_le_dec (m_count (t_m t)) 0) as [Q|Q]; [apply Z in Q; discriminate|lia]). replace (m_count (t_m t) =? 0) with false by lia.
    destruct M as (_ & _ & _ & P1 & p & P2 & V1 & v & pre & EP & EV & L & E & NE & K & NX & S). unfold read_period at 1. rewrite (pok_read _ _ _ W K), NX.
    pose proof (tk_per _ _ _ T) as P. pose proof (tk_start _ _ _ T) as ST. rewrite EP, EV in P, ST.
    assert (ST2 : Forall2 started P2 V2).
    { apply starts_tl in ST. destruct P1 as [|q P1], V1 as [|w V1]; cbn in L; try lia; cbn [app tl] in ST; [exact ST|]. apply Forall2_split in ST as [_ ST]; [|lia]. inversion ST; auto. }
    apply Forall2_split in P as [_ P]; [|exact L]. inversion P as [|? ? ? ? _ P']; subst. rewrite EP.
    replace (P1 ++ p :: P2) with ((P1 ++ [p]) ++ P2) by (rewrite <- app_assoc; reflexivity).
    rewrite (follow_ok c (P1 ++ [p]) P2 V2 W P' ST2); [reflexivity| |rewrite !app_length; lia].
    rewrite <- app_assoc. cbn [app]. rewrite <- EP. apply T.
Qed.

(* --- the corrected time at which the last segment ends --- *)
Definition lt_ok (t : timeline) (V : list pview) : Prop := forall V0 v q x, V = V0 ++ [v] -> v_segs v = q ++ [x] -> t_last_time t = s_end x + v_corr v.

Lemma pop1_last V V0 v q x : nonempty V -> pop1 V = V0 ++ [v] -> v_segs v = q ++ [x] -> exists V1 w q1, V = V1 ++ [w] /\ v_segs w = q1 ++ [x] /\ v_corr w = v_corr v.
Proof.
  intros NE E EX. destruct V as [|u V]; [destruct V0; discriminate|]. inversion NE as [|? ? NU _]; subst. unfold pop1 in E. destruct (v_segs u) as [|s [|s' ss]] eqn:EU; [contradiction| |].
  - subst V. exists (u :: V0), v, q. auto.
  - destruct V0 as [|z V0]; cbn in E; injection E as <- E.
    + subst V. cbn [v_segs] in EX. exists [], u, (s :: q). rewrite EU, EX. auto.
    + subst V. exists (u :: V0), v, q. auto.
Qed.
Lemma popn_last k V V0 v q x : nonempty V -> popn k V = V0 ++ [v] -> v_segs v = q ++ [x] -> exists V1 w q1, V = V1 ++ [w] /\ v_segs w = q1 ++ [x] /\ v_corr w = v_corr v.
Proof.
  revert V. induction k as [|k IH]; intros V NE E EX; [exists V0, v, q; auto|]. cbn [popn] in E.
  destruct (IH _ (nonempty_pop _ NE) E EX) as (V1 & w & q1 & A & B & C). destruct (pop1_last _ _ _ _ _ NE A B) as (V2 & u & q2 & A' & B' & C').
  exists V2, u, q2. split; [exact A'|]. split; [exact B'|]. congruence.
Qed.
Lemma lt_popn t t' k V : nonempty V -> t_last_time t' = t_last_time t -> lt_ok t V -> lt_ok t' (popn k V).
Proof.
  intros NE E L V0 v q x A B. destruct (popn_last _ _ _ _ _ _ NE A B) as (V1 & w & q1 & A' & B' & C'). rewrite E, (L _ _ _ _ A' B'). lia.
Qed.

Lemma first_index_le V d : (forall x, In x (flat V) -> True) -> numbered (flat V) -> forall x, In x (flat V) -> first_index V d <= s_index x.
Proof.
  intros _ N x I. unfold first_index. destruct (flat V) as [|s r]; [destruct I|]. destruct I as [->|I]; [lia|]. pose proof (numbered_lt [] s r x N I). lia.
Qed.

(* --- one timeline --- *)
Definition man_put (MV : list pview) (s : seg) (newp : bool) (corr : Z) : list pview := mput MV s newp corr.

Inductive outcome (scale middle now : Z) (s : seg) (force alloc : bool) (t : timeline) (V MV : list pview) : timeline -> list pview -> list pview -> bool -> bool -> Prop :=
| o_other : forall t' k k', takes t middle = false ->
    t_conf t' = (if c_active (t_conf t) && (c_start (t_conf t) <=? middle) then deactivate (t_conf t) else t_conf t) ->
    t_created t' = t_created t -> t_last_time t' = t_last_time t -> same_static (t_m t) (t_m t') ->
    (k, k') = expire scale now t (flat V) (flat MV) ->
    m_pindex (t_m t') + len (popn k' MV) = m_pindex (t_m t) + len MV ->
    outcome scale middle now s force alloc t V MV t' (popn k V) (popn k' MV) false false
| o_failed : forall t', takes t middle = true -> alloc = false -> t_conf t' = t_conf t -> t_last_time t' = t_last_time t -> t_m t' = t_m t ->
    outcome scale middle now s force alloc t V MV t' V MV false true
| o_taken : forall t' V' MV', takes t middle = true -> t_conf t' = t_conf t ->
    let newp := force || breaks V s in
    let corr := correction t (s_time s) in
    let V1 := put V s newp corr in
    let MV1 := mput MV s newp corr in
    MV' = popn (trim (m_fine (m_conf (t_m t)) (m_target (t_m t)) 0 0) (flat MV1)) MV1 ->
    V' = popn (trim (t_fine (t_conf t) (len (flat MV')) 0 0) (flat V1)) V1 ->
    m_conf (t_m t') = m_conf (t_m t) ->
    m_seq (t_m t') = m_seq (t_m t) + (match MV' with [] => 0 | _ => 1 end) ->
    (MV' <> [] -> t_created t' = now) ->
    m_target (t_m t') = (match MV' with [] => m_target (t_m t) | _ => if 0 <? s_dur s then m_target (m_post_add (t_m t) (s_dur s)) else m_target (t_m t) end) ->
    m_pindex (t_m t') + len MV' = m_pindex (t_m t) + len MV1 ->
    outcome scale middle now s force alloc t V MV t' V' MV' (match MV' with [] => false | _ => true end) false.

Lemma breaks_nil V s : V = [] -> breaks V s = true.
Proof. intros ->. reflexivity. Qed.

Lemma add_one_ok c scale middle now alloc pid s force t V MV min now_segs : wf (cl_list c) -> segs (cl_list c) = now_segs ++ [s] -> st c t V MV -> lt_ok t V ->
  (forall x, In x (flat V) -> s_index x < s_index s) -> ids_below t pid ->
  exists t' min' ex pid' failed V' MV', add_one c scale middle now alloc pid (s_time s) (s_index s) (s_dur s) force t min = Some (t', min', ex, pid', failed) /\
    st c t' V' MV' /\ lt_ok t' V' /\ ids_below t' pid' /\ (pid <= pid')%nat /\ t_id t' = t_id t /\ min' <= min /\
    (failed = false -> forall x, In x (flat V') -> min' <= s_index x) /\ (failed = false -> min' = min \/ exists x, In x (flat V') /\ s_index x = min') /\
    outcome scale middle now s force alloc t V MV t' V' MV' ex failed.
Proof.
  intros W E S LT LE ID. unfold add_one.
  assert (INA : forall t0, t_periods t0 = t_periods t -> st c t0 V MV -> t_last_time t0 = t_last_time t -> t_id t0 = t_id t -> t_created t0 = t_created t -> t_m t0 = t_m t ->
     c_max_segs (t_conf t0) = c_max_segs (t_conf t) -> c_max_dur (t_conf t0) = c_max_dur (t_conf t) ->
     t_conf t0 = (if c_active (t_conf t) && (c_start (t_conf t) <=? middle) then deactivate (t_conf t) else t_conf t) -> takes t middle = false ->
     exists t' min' ex pid' failed V' MV', (do (t1, min1) <- t_inactive_remove c scale now t0 min; Some (t1, min1, false, pid, false)) = Some (t', min', ex, pid', failed) /\
       st c t' V' MV' /\ lt_ok t' V' /\ ids_below t' pid' /\ (pid <= pid')%nat /\ t_id t' = t_id t /\ min' <= min /\
       (failed = false -> forall x, In x (flat V') -> min' <= s_index x) /\ (failed = false -> min' = min \/ exists x, In x (flat V') /\ s_index x = min') /\
       outcome scale middle now s force alloc t V MV t' V' MV' ex failed).
  { intros t0 Z0 S0 Z1 Z2 Z3 Z4 Z5 Z6 Z7 TK. destruct (t_inactive_ok c scale now t0 V MV min W S0) as (t' & k & k' & G & S' & A1 & A2 & A3 & A4 & A5 & A6 & A7 & A8 & A9). rewrite G.
    pose proof (tok_nonempty _ _ _ (proj1 S)) as NE. pose proof (tk_num _ _ _ (proj1 S')) as NU.
    eexists t', _, false, pid, false, (popn k V), (popn k' MV). split; [reflexivity|]. split; [exact S'|]. split; [eapply lt_popn; [exact NE|rewrite A2; exact Z1|exact LT]|].
    split; [intros i I; apply ID; rewrite <- Z0; apply A6; exact I|]. split; [lia|]. split; [congruence|]. split; [lia|]. split.
    { intros _ x I. pose proof (first_index_le (popn k V) min ltac:(auto) NU x I). lia. }
    split.
    { intros _. unfold first_index. destruct (flat (popn k V)) as [|x r] eqn:EF; [left; lia|]. destruct (Z_lt_dec (s_index x) min) as [Q|Q]; [right; exists x; split; [left; reflexivity|lia]|left; lia]. }
    apply o_other; [exact TK|congruence|congruence|congruence|rewrite Z4 in A5; exact A5| |rewrite <- Z4; exact A8].
    rewrite A9. unfold expire, t_fine. rewrite Z3, Z4, Z5, Z6. reflexivity. }
  destruct (negb (c_active (t_conf t)) || (middle <? c_start (t_conf t))) eqn:C1.
  { apply INA; auto.
    - destruct (c_active (t_conf t) && (c_start (t_conf t) <=? middle)) eqn:Q; [lia|reflexivity].
    - unfold takes. lia. }
  destruct (c_end (t_conf t) <=? middle) eqn:C2.
  { apply INA; auto.
    - destruct S as [[T1 T2 T3 T4 T5 T6 T7] M]. split; [constructor; assumption|exact M].
    - destruct t as [a b c0 d e f g i j k l]. cbn. destruct g; reflexivity.
    - replace (c_active (t_conf t) && (c_start (t_conf t) <=? middle)) with true by lia. reflexivity.
    - unfold takes. lia. }
  clear INA. assert (TK : takes t middle = true) by (unfold takes; lia).
  destruct (take_ok c t V MV pid s force now now_segs (correction t (s_time s)) W E S LE ID) as (t1 & pid' & p0 & p & t2 & G1 & G2 & G3 & S2 & PI & ID2 & L2 & CO & I1 & I2 & I3 & I4 & MK).
  assert (FAIL : (exists t3, add_to_period c alloc pid (s_time s) (s_index s) force t = Some (t3, pid, true)) \/
                 add_to_period c alloc pid (s_time s) (s_index s) force t = Some (t1, pid', false)).
  { destruct alloc; [right; exact G1|]. destruct (fail_cases c t V MV pid s force now_segs W E S) as [F|F]; [left; exact F|right; rewrite F; exact G1]. }
  destruct FAIL as [(t3 & F)|F]; rewrite F.
  { destruct (fail_ok _ _ _ _ _ _ _ _ S _ _ F) as (S3 & _ & AL & B1 & B2 & B3 & B4 & B5 & B6). exists t3, min, false, pid, true, V, MV. split; [reflexivity|]. split; [exact S3|].
    split; [intros V0 v q x Q1 Q2; rewrite B3; eapply LT; eauto|]. split; [intros i I; apply ID; rewrite <- B5; exact I|]. split; [lia|]. split; [exact B1|]. split; [lia|].
    split; [discriminate|]. split; [discriminate|]. apply o_failed; auto. }
  rewrite G2. cbv zeta. rewrite G3.
  set (newp := force || breaks V s) in *. set (corr := correction t (s_time s)) in *.
  set (V1 := put V s newp corr) in *. replace (match MV with [] => [mk_pv (s_time s) corr [s]] | _ => put MV s newp corr end) with (mput MV s newp corr) in S2 by (destruct MV; reflexivity).
  set (MV1 := mput MV s newp corr) in *.
  destruct (t_remove_segments_ok c now 0 0 t2 V1 MV1 min W S2) as (t' & G & S' & A1 & A2 & A3 & A4 & A5 & A6 & A7 & A8). cbv zeta in *. rewrite G.
  destruct MK as (K1 & K2 & K3 & K4 & K5 & K6). rewrite K1, K2 in *. rewrite I2 in *.
  set (MV' := popn (trim (m_fine (m_conf (t_m t)) (m_target (t_m t)) 0 0) (flat MV1)) MV1) in *.
  set (V' := popn (trim (t_fine (t_conf t) (len (flat MV')) 0 0) (flat V1)) V1) in *.
  assert (NV1 : nonempty V1) by (eapply tok_nonempty; apply S2).
  assert (LT2 : lt_ok t2 V1).
  { intros V0 v q x Q1 Q2. rewrite L2, (CO _ _ Q1).
    assert (x = s) as ->; [|unfold s_end; lia].
    assert (FX : flat V1 = flat V ++ [s]).
    { apply put_flat. intros Q ->. unfold newp in Q. rewrite (breaks_nil [] s eq_refl), orb_true_r in Q. discriminate. }
    rewrite Q1, flat_snoc, Q2, app_assoc in FX. apply app_inj_tail in FX. apply FX. }
  assert (MIN1 : forall x, In x (flat V') -> Z.min min (first_index V' min) <= s_index x).
  { intros x I. pose proof (first_index_le V' min ltac:(auto) (tk_num _ _ _ (proj1 S')) x I). lia. }
  assert (MIN2 : Z.min min (first_index V' min) = min \/ exists x, In x (flat V') /\ s_index x = Z.min min (first_index V' min)).
  { unfold first_index. destruct (flat V') as [|x r] eqn:EF; [left; lia|]. destruct (Z_lt_dec (s_index x) min) as [Q|Q]; [right; exists x; split; [left; reflexivity|lia]|left; lia]. }
  pose proof (m_dst _ _ _ _ _ (tk_per _ _ _ (proj1 S')) (proj2 S')) as DS. destruct A5 as (SS1 & SS2 & SS3 & SS4 & SS5 & SS6).
  destruct (m_count (t_m t') <=? 0) eqn:CM.
  - assert (EM : MV' = []) by (apply DS; lia). eexists t', _, false, pid', false, V', MV'. split; [reflexivity|]. split; [exact S'|]. split; [eapply lt_popn; [exact NV1|exact A2|exact LT2]|].
    split; [intros i I; apply ID2; apply A6; exact I|]. split; [exact PI|]. split; [congruence|]. split; [lia|]. split; [intros _; exact MIN1|]. split; [intros _; exact MIN2|].
    replace false with (match MV' with [] => false | _ => true end) at 1 by (rewrite EM; reflexivity).
    apply o_taken; auto; try congruence.
    + fold newp corr MV1. rewrite SS5, K4, EM. lia.
    + rewrite EM, SS3, K2. reflexivity.
    + fold newp corr MV1. rewrite A8, K6. reflexivity.
  - assert (EM : MV' <> []) by (intros Q; apply DS in Q; lia).
    set (mm := if 0 <? s_dur s then m_post_add (t_m t') (s_dur s) else t_m t').
    exists (set_created (set_m t' (m_next_seq mm)) now), (Z.min min (first_index V' min)), true, pid', false, V', MV'.
    split; [reflexivity|]. split.
    { destruct S' as [[T1 T2 T3 T4 T5 T6 T7] M]. split; [constructor; assumption|]. destruct M as (M1 & M2 & M3 & M). unfold mm. destruct (0 <? s_dur s); (split; [exact M1|]; split; [exact M2|]; split; [exact M3|exact M]). }
    split; [intros V0 v q x Q1 Q2; cbn [set_created set_m t_last_time]; revert Q1 Q2; eapply lt_popn; [exact NV1|exact A2|exact LT2]|].
    split; [intros i I; apply ID2; apply A6; exact I|]. split; [exact PI|]. split; [cbn; congruence|]. split; [lia|]. split; [intros _; exact MIN1|]. split; [intros _; exact MIN2|].
    replace true with (match MV' with [] => false | _ => true end) at 1 by (destruct MV'; [contradiction|reflexivity]).
    apply o_taken; auto; try congruence; cbn [set_created set_m t_m t_conf t_created m_next_seq m_conf m_seq m_target m_pindex]; fold newp corr MV1.
    + unfold mm. destruct (0 <? s_dur s); cbn [m_conf m_post_add]; congruence.
    + assert (Q : m_seq mm = m_seq (t_m t')) by (unfold mm; destruct (0 <? s_dur s); reflexivity). rewrite Q, SS5, K4. destruct MV'; [contradiction|lia].
    + unfold mm. destruct MV' as [|? ?]; [contradiction|]. destruct (0 <? s_dur s); [|congruence]. unfold m_post_add. cbn [m_target]. rewrite SS1, SS3, SS4, K1, K2, K3. reflexivity.
    + assert (Q : m_pindex mm = m_pindex (t_m t')) by (unfold mm; destruct (0 <? s_dur s); reflexivity). rewrite Q, A8, K6. reflexivity.
Qed.
