(* Leaving out the first segments of a manifest. *)
From Coq Require Import List ZArith Bool Lia ZifyBool ZifyNat.
From Verif Require Import SegListModel SegListSpec SegListProofs SegListProofs2 SegListProofs3 TimelineModel TimelineSpec TimelineProofs TimelineProofs2 TimelineProofs4
  TimelineProofs11 TimelineProofs13 TimelineProofs14 ServeModel ServeSpec ServeProofs.
Import ListNotations.
Local Open Scope Z_scope.

Definition above (max : Z) (l : list seg) : Z := sum_dur l - dur_below max l.
Lemma below_app max a b : dur_below max (a ++ b) = dur_below max a + dur_below max b.
Proof. unfold dur_below. rewrite filter_app, sum_app. reflexivity. Qed.
Lemma below_all max l : (forall s, In s l -> s_index s < max) -> dur_below max l = sum_dur l.
Proof. intros A. unfold dur_below. rewrite filter_all; [reflexivity|]. intros x I. specialize (A x I). lia. Qed.
Lemma below_none max l : (forall s, In s l -> max <= s_index s) -> dur_below max l = 0.
Proof. intros A. unfold dur_below. rewrite filter_none; [reflexivity|]. intros x I. specialize (A x I). lia. Qed.
Lemma sum_nonneg l : (forall s, In s l -> 0 <= s_dur s) -> 0 <= sum_dur l.
Proof. induction l as [|s l IH]; intros A; cbn [sum_dur]; [lia|]. pose proof (A s (or_introl eq_refl)). specialize (IH (fun x I => A x (or_intror I))). lia. Qed.
Lemma below_bounds max l : (forall s, In s l -> 0 <= s_dur s) -> 0 <= dur_below max l <= sum_dur l.
Proof.
  induction l as [|s l IH]; intros A; [unfold dur_below; cbn; lia|]. pose proof (A s (or_introl eq_refl)). specialize (IH (fun x I => A x (or_intror I))). change (s :: l) with ([s] ++ l). rewrite below_app, sum_app.
  unfold dur_below at 1 3. cbn [filter]. destruct (s_index s <? max); cbn [sum_dur]; lia.
Qed.
Lemma below_split max ss : numbered ss -> exists u w, ss = u ++ w /\ (forall s, In s u -> s_index s < max) /\ (forall s, In s w -> max <= s_index s) /\ dur_below max ss = sum_dur u.
Proof.
  intros N. assert (E : exists u w, ss = u ++ w /\ (forall s, In s u -> s_index s < max) /\ (forall s, In s w -> max <= s_index s)).
  { induction ss as [|s ss IH]; [exists [], []; split; [reflexivity|]; split; intros ? []|]. destruct (s_index s <? max) eqn:C.
    - destruct (IH (numbered_tl _ _ N)) as (u & w & -> & U & W). exists (s :: u), w. split; [reflexivity|]. split; [|exact W]. intros x [<-|I]; [lia|apply U; exact I].
    - exists [], (s :: ss). split; [reflexivity|]. split; [intros ? []|]. intros x [<-|I]; [lia|]. pose proof (numbered_lt [] s ss x N I). lia. }
  destruct E as (u & w & E & U & W). exists u, w. split; [exact E|]. split; [exact U|]. split; [exact W|]. rewrite E, below_app, (below_all max u U), (below_none max w W). lia.
Qed.

Lemma at_dur u out : 0 < out <= sum_dur u -> exists a x b, u = a ++ x :: b /\ sum_dur b < out <= sum_dur (x :: b).
Proof.
  induction u as [|y u IH]; intros B; [cbn in B; lia|]. destruct (out <=? sum_dur u) eqn:C.
  - destruct (IH ltac:(lia)) as (a & x & b & -> & H). exists (y :: a), x, b. auto.
  - exists [], y, u. split; [reflexivity|]. lia.
Qed.

Lemma lookup_unique l t x time : wf l -> tree_of l t -> chronological (segs l) -> In x (segs l) -> s_time x <= time < s_end x ->
  exists it pre post, get_segment_index l t time false = Some (it, s_index x, s_time x) /\ segs l = pre ++ x :: post /\ rest l it = Some (map s_dur (x :: post)).
Proof.
  intros W T C Hx Bx. pose proof (lookup_time l t time W T C) as K. pose proof W as (W1 & W2 & _). destruct (get_segment_index l t time false) as [[[it idx] tm]|]; [|exfalso; exact (proj1 K x Hx Bx)].
  destruct K as (pre & s & post & K1 & K2 & K3 & K4 & K5 & _). assert (x = s) as ->.
  { rewrite K1 in Hx. pose proof (segs_of_dur (l_nodes l)) as D. fold (segs l) in D. rewrite K1 in C. assert (P : forall u, In u (pre ++ s :: post) -> 0 <= s_dur u) by (intros u Hu; apply D; auto; rewrite K1; exact Hu).
    apply in_app_or in Hx as [Hx|[<-|Hx]]; [|reflexivity|].
    - apply in_split in Hx as (u & v & ->). rewrite <- app_assoc in C, P. pose proof (chronological_lt u x (v ++ s :: post) s P C ltac:(apply in_elt)). lia.
    - pose proof (chronological_lt pre s post x P C Hx). lia. }
  exists it, pre, post. subst. auto.
Qed.

Lemma split_unique a x b c d : numbered (a ++ x :: b) -> a ++ x :: b = c ++ x :: d -> a = c /\ b = d.
Proof.
  intros N E. destruct (app_cons_cases _ _ _ _ _ _ E) as [L|[(-> & _ & ->)|L]]; [|auto|].
  - destruct (app_cons_lt _ _ _ _ _ _ E L) as (m & A & B). exfalso. pose proof (numbered_lt a x b x N). rewrite B in H. specialize (H ltac:(apply in_elt)). lia.
  - symmetry in E. destruct (app_cons_lt _ _ _ _ _ _ E L) as (m & A & B). rewrite <- E in N. exfalso. pose proof (numbered_lt c x d x N). rewrite B in H. specialize (H ltac:(apply in_elt)). lia.
Qed.

Lemma flat1 v : flat [v] = v_segs v. Proof. rewrite flat_cons. change (flat []) with (@nil seg). apply app_nil_r. Qed.
Lemma skip_pending_ok c nt max : wf (cl_list c) -> tree_of (cl_list c) nt -> forall P V tp ts pd, pers c P V -> numbered (flat V) ->
  match skip_pending c nt (rev P) max tp ts pd with
  | None => dur_below max (flat V) = 0
  | Some (p, r, pdur, tp', ts', pd') => exists P0 P2 V0 v V2, P = P0 ++ p :: P2 /\ V = V0 ++ v :: V2 /\ length P0 = length V0 /\ r = rev P0 /\ pdur = dur_below max (v_segs v) /\
      p_key p <= max /\ (forall s, In s (flat V2) -> max <= s_index s) /\ tp' = tp + len V2 /\ ts' = ts + len (flat V2) /\ pd' = pd + above max (flat (v :: V2))
  end.
Proof.
  intros W T P. induction P as [|p P IH] using rev_ind; intros V tp ts pd PV NU; [inversion PV; subst; reflexivity|].
  destruct (pers_snoc_inv _ _ _ _ PV) as (V0 & v & -> & PV0 & RP). pose proof RP as (PK & NE & _). pose proof PK as ((post & IT) & CO & DU & CN). rewrite rev_app_distr. cbn [rev app skip_pending].
  assert (LEN : length P = length V0) by (eapply Forall2_length; exact PV0). rewrite flat_app, flat_cons in NU. change (flat []) with (@nil seg) in NU. rewrite app_nil_r in NU.
  destruct (p_key p + p_count p <=? max) eqn:C1.
  - exists P, [], V0, v, []. rewrite flat1. change (flat []) with (@nil seg). change (len (@nil seg)) with 0. change (len (@nil pview)) with 0.
    assert (ALL : dur_below max (v_segs v) = sum_dur (v_segs v)) by (apply below_all; intros s I; pose proof (pok_next _ _ _ _ PK I); lia). unfold above. rewrite ALL, DU. do 5 (split; [first [reflexivity|assumption]|]).
    split; [pose proof (len_nonneg (v_segs v)); lia|]. split; [intros ? []|]. split; [lia|]. split; lia.
  - destruct (max <? p_key p) eqn:C2.
    + assert (NONE : forall s, In s (v_segs v) -> max <= s_index s) by (intros s I; pose proof (pok_next _ _ _ _ PK I); lia).
      specialize (IH V0 (tp + 1) (ts + p_count p) (pd + p_dur p) PV0 (numbered_app_l _ _ NU)). destruct (skip_pending c nt (rev P) max (tp + 1) (ts + p_count p) (pd + p_dur p)) as [[[[[[p1 r] d] tp'] ts'] pd']|].
      * destruct IH as (P0 & P2 & V1 & v1 & V2 & -> & -> & L & -> & -> & K & A & -> & -> & ->). exists P0, (P2 ++ [p]), V1, v1, (V2 ++ [v]). rewrite <- !app_assoc. split; [reflexivity|]. split; [reflexivity|]. split; [exact L|]. split; [reflexivity|]. split; [reflexivity|]. split; [exact K|].
        rewrite flat_app, flat_cons. change (flat []) with (@nil seg). rewrite app_nil_r. split; [intros s I; apply in_app_or in I as [I|I]; [apply A; exact I|apply NONE; exact I]|]. rewrite !len_app. change (len [v]) with 1. split; [lia|]. split; [lia|].
        rewrite !flat_cons, flat_app, flat_cons. change (flat []) with (@nil seg). rewrite app_nil_r. unfold above. rewrite !below_app, !sum_app, (below_none max (v_segs v) NONE). lia.
      * rewrite flat_app, flat_cons. change (flat []) with (@nil seg). rewrite app_nil_r, below_app, IH, (below_none max (v_segs v) NONE). reflexivity.
    + destruct (pok_split _ _ _ max PK ltac:(lia)) as (a & x & b & EV & XI & LA). rewrite EV, <- app_assoc in IT. cbn [app] in IT. destruct IT as (r0 & pre & _ & SG & _). rewrite app_assoc in SG.
      destruct (iter_init_found (cl_list c) nt (pre ++ a) x (b ++ post) true W T SG) as (it & II & _). rewrite XI in II. rewrite II. exists P, [], V0, v, []. rewrite flat1. change (flat []) with (@nil seg). change (len (@nil seg)) with 0. change (len (@nil pview)) with 0.
      assert (TX : s_time x = p_time p + sum_dur a). { rewrite EV in CO. apply consec_app in CO as [_ (_ & Q & _)]. exact Q. }
      assert (DB : dur_below max (v_segs v) = sum_dur a). { rewrite EV, below_app. assert (NV : numbered (a ++ x :: b)) by (rewrite <- EV; eapply numbered_app_r; exact NU). rewrite (below_all max a), (below_none max (x :: b)); [lia| |].
        - intros s [<-|I]; [lia|]. pose proof (numbered_mid _ _ _ _ NV I). lia.
        - intros s I. pose proof (numbered_mid_l _ _ _ _ NV I). lia. }
      unfold above. rewrite DB, DU. do 4 (split; [first [reflexivity|assumption]|]). split; [lia|]. split; [lia|]. split; [intros ? []|]. split; [lia|]. split; lia.
Qed.

Lemma skip_back_ok c max : forall P0 V0 p v pdur out tp ts, pers c P0 V0 -> prel c p v -> pdur = dur_below max (v_segs v) -> (forall s, In s (flat V0) -> s_index s < max) -> 0 < out <= dur_below max (flat (V0 ++ [v])) ->
  exists p' P1 P2 V1 v' V2 out', skip_back (rev P0) p pdur out tp ts = Some (p', rev P1, dur_below max (v_segs v'), out', tp + len V2, ts + len (flat V2)) /\
    P0 ++ [p] = P1 ++ p' :: P2 /\ V0 ++ [v] = V1 ++ v' :: V2 /\ length P1 = length V1 /\ out' = out - dur_below max (flat V2) /\ 0 < out' <= dur_below max (v_segs v').
Proof.
  intros P0. induction P0 as [|q P0 IH] using rev_ind; intros V0 p v pdur out tp ts PV RP -> BE B.
  - inversion PV; subst. cbn [rev app] in *. rewrite flat_cons in B. change (flat []) with (@nil seg) in B. rewrite app_nil_r in B. unfold skip_back. replace (dur_below max (v_segs v) <? out) with false by lia.
    exists p, [], [], [], v, [], out. change (flat []) with (@nil seg). change (len (@nil seg)) with 0. change (len (@nil pview)) with 0. rewrite !Z.add_0_r. change (dur_below max []) with 0. split; [reflexivity|]. do 3 (split; [reflexivity|]). split; [lia|lia].
  - destruct (pers_snoc_inv _ _ _ _ PV) as (V1 & u & -> & PV1 & RQ). rewrite rev_app_distr. cbn [rev app]. assert (ST : forall out tp ts pdur p, skip_back (q :: rev P0) p pdur out tp ts = if pdur <? out then skip_back (rev P0) q (p_dur q) (out - pdur) (tp + 1) (ts + p_count p) else Some (p, q :: rev P0, pdur, out, tp, ts)) by reflexivity. rewrite ST.
    destruct (dur_below max (v_segs v) <? out) eqn:C.
    + assert (DQ : p_dur q = dur_below max (v_segs u)). { destruct RQ as ((_ & _ & D & _) & _). rewrite D. symmetry. apply below_all. intros s I. apply BE. rewrite flat_app, flat_cons. apply in_or_app. right. apply in_or_app. left. exact I. }
      rewrite !flat_app, !flat_cons in B. change (flat []) with (@nil seg) in B. rewrite !app_nil_r, !below_app in B.
      destruct (IH V1 q u (p_dur q) (out - dur_below max (v_segs v)) (tp + 1) (ts + p_count p) PV1 RQ DQ) as (p' & P1 & P2 & V2 & v' & V3 & out' & E & EP & EV & L & EO & BO).
      { intros s I. apply BE. rewrite flat_app. apply in_or_app. left. exact I. } { rewrite flat_app, flat_cons. change (flat []) with (@nil seg). rewrite app_nil_r, below_app. lia. }
      exists p', P1, (P2 ++ [p]), V2, v', (V3 ++ [v]), out'. destruct RP as ((_ & _ & _ & CP) & _). rewrite E, CP, flat_app, flat_cons. change (flat []) with (@nil seg). rewrite app_nil_r, !len_app, below_app. change (len [v]) with 1. split; [do 2 f_equal; [f_equal|]; lia|].
      split; [rewrite EP, <- app_assoc; reflexivity|]. split; [rewrite EV, <- app_assoc; reflexivity|]. split; [exact L|]. split; [lia|exact BO].
    + exists p, (P0 ++ [q]), [], (V1 ++ [u]), v, [], out. rewrite rev_app_distr. change (flat []) with (@nil seg). change (len (@nil seg)) with 0. change (len (@nil pview)) with 0. rewrite !Z.add_0_r. change (dur_below max []) with 0. split; [reflexivity|]. split; [reflexivity|]. split; [reflexivity|].
      rewrite !app_length. rewrite (Forall2_length _ _ _ PV1). split; [reflexivity|]. lia.
Qed.

(* --- the whole --- *)
Lemma leave_out_mid M1 : forall pre ss M2, ss <> [] -> leave_out (length (concat M1) + length pre) (M1 ++ (pre ++ ss) :: M2) = ss :: M2.
Proof.
  induction M1 as [|a M1 IH]; intros pre ss M2 NE; cbn [concat app leave_out].
  - cbn [length]. rewrite app_length. destruct ss as [|x ss]; [contradiction|]. cbn [length]. replace (Nat.leb (length pre + S (length ss)) (0 + length pre)) with false by (symmetry; apply Nat.leb_gt; lia).
    rewrite Nat.add_0_l, skipn_app, skipn_all, Nat.sub_diag. reflexivity.
  - rewrite app_length. replace (Nat.leb (length a) (length a + length (concat M1) + length pre)) with true by (symmetry; apply Nat.leb_le; lia).
    replace (length a + length (concat M1) + length pre - length a)%nat with (length (concat M1) + length pre)%nat by lia. apply IH. exact NE.
Qed.

Definition effective (h : channel) (tk : option track) (max : Z) : Z := if pending_on h tk max then u32 (max - 1) else max.

Lemma seg_dur_nonneg c p ss s : wf (cl_list c) -> pok c p ss -> In s ss -> 0 <= s_dur s.
Proof. intros W P I. eapply segs_of_dur; [apply W|]. eapply pok_in; [exact P|exact I]. Qed.
Lemma pers_dur c P V s : wf (cl_list c) -> pers c P V -> In s (flat V) -> 0 <= s_dur s.
Proof.
  intros W PV. induction PV as [|p v P V R _ IH]; [intros []|]. rewrite flat_cons. intros I. apply in_app_or in I as [I|I]; [|apply IH; exact I]. eapply seg_dur_nonneg; [exact W|apply R|exact I].
Qed.

Lemma pers_split_at c : forall P1 P2 V1 V2, pers c (P1 ++ P2) (V1 ++ V2) -> length P1 = length V1 -> pers c P1 V1 /\ pers c P2 V2.
Proof.
  induction P1 as [|p P1 IH]; intros P2 V1 V2 PV L; destruct V1 as [|v V1]; try discriminate; [split; [constructor|exact PV]|]. cbn [app] in PV. inversion PV as [|? ? ? ? R PV']; subst. injection L as L. destruct (IH P2 V1 V2 PV' L) as [A B]. split; [constructor; assumption|exact B].
Qed.

Lemma skip_find h t nt tk max pct hd V F K : let c := ch_list h in let out := output_duration (ch_scale h) pct (m_target (t_m t)) in let mx := effective h tk max in
  wf (cl_list c) -> tree_of (cl_list c) nt -> chronological (segs (cl_list c)) -> tok c t V -> flat V = F ++ K -> m_dur (t_m t) = sum_dur K ->
  if (0 <? out) && (out <? dur_below mx K) then
    exists p P1 P2 V1 v V2 a x b it post, t_periods t = P1 ++ p :: P2 /\ V = V1 ++ v :: V2 /\ length P1 = length V1 /\ v_segs v = a ++ x :: b /\
      dur_below mx (b ++ flat V2) < out <= dur_below mx (x :: b ++ flat V2) /\ iat c it (x :: b ++ post) /\
      let sps := m_pcount (t_m t) - len V2 - 1 in
      skip_segments h t nt tk max pct hd = Some (Some (mk_period 0 (s_index x) it (s_time x) 0 0 (len (x :: b)), head_id P2,
        mk_hd (if sps =? 0 then hd_first_index hd else hd_first_index hd + sps) (if sps =? 0 then hd_init_time hd else p_time p) (if sps =? 0 then hd_init_index hd else p_key p)
          (hd_sequence hd) (hd_target hd) (hd_end hd) (hd_periods hd) sps (m_count (t_m t) - len (flat V2) - len (x :: b))
          (if p_key p <? s_index x then s_index x else match rev P1 with [] => hd_last_skipped hd | q :: _ => p_key q + p_count q - 1 end)))
  else skip_segments h t nt tk max pct hd = Some None.
Proof.
  intros c out mx W T CH TK EF MD. pose proof (tk_per _ _ _ TK) as PV. pose proof (tk_num _ _ _ TK) as NU. unfold skip_segments. fold c. fold out. fold (effective h tk max). fold mx.
  assert (ND : forall s, In s (flat V) -> 0 <= s_dur s) by (intros s I; eapply pers_dur; eauto). pose proof (below_bounds mx K ltac:(intros s I; apply ND; rewrite EF; apply in_or_app; auto)) as BK.
  assert (AF : 0 <= above mx F /\ (0 < above mx F -> dur_below mx K = 0)).
  { pose proof (below_bounds mx F ltac:(intros s I; apply ND; rewrite EF; apply in_or_app; auto)) as BF. unfold above. split; [lia|]. intros Q. apply below_none. intros s I. rewrite EF in NU. destruct (below_split mx F (numbered_app_l _ _ NU)) as (u & w & E & U & WW & D).
    destruct w as [|y w]; [rewrite app_nil_r in E; subst u; lia|]. pose proof (WW y ltac:(left; reflexivity)). rewrite E, <- app_assoc in NU. cbn [app] in NU. pose proof (numbered_mid u y (w ++ K) s NU ltac:(apply in_or_app; right; exact I)). lia. }
  destruct ((m_dur (t_m t) <=? out) || (out <=? 0)) eqn:C0. { replace ((0 <? out) && (out <? dur_below mx K)) with false by lia. reflexivity. }
  pose proof (skip_pending_ok c nt mx W T (t_periods t) V 0 0 0 PV NU) as SP. destruct (skip_pending c nt (rev (t_periods t)) mx 0 0 0) as [[[[[[p r] d] tp] ts] pd]|].
  2: { rewrite EF, below_app in SP. pose proof (below_bounds mx F ltac:(intros s I; apply ND; rewrite EF; apply in_or_app; auto)) as BF. replace ((0 <? out) && (out <? dur_below mx K)) with false by lia. reflexivity. }
  destruct SP as (P0 & P2 & V0 & v & V2 & EP & EV & LP & -> & -> & KEY & HI & -> & -> & ->). rewrite EP, EV in PV. destruct (pers_split_at _ P0 (p :: P2) V0 (v :: V2) PV LP) as [PV0 PV1]. inversion PV1 as [|? ? ? ? RP PV2]; subst.
  assert (LO : forall s, In s (flat V0) -> s_index s < mx).
  { intros s I. destruct (v_segs v) as [|y vs] eqn:EY; [destruct RP as (_ & NE & _); contradiction|]. destruct RP as ((_ & CO & _) & _). rewrite EY in CO. destruct CO as (Y & _). rewrite flat_app, flat_cons, EY in NU. cbn [app] in NU. pose proof (numbered_mid_l (flat V0) y _ s NU I). lia. }
  assert (PD : 0 + above mx (flat (v :: V2)) = above mx F + above mx K).
  { assert (Q : above mx (flat V0) = 0) by (unfold above; rewrite below_all by exact LO; lia). assert (R : above mx (flat (V0 ++ v :: V2)) = above mx (flat V0) + above mx (flat (v :: V2))) by (unfold above; rewrite flat_app, sum_app, below_app; lia).
    rewrite EF in R. unfold above in *. rewrite sum_app, below_app in R. lia. }
  destruct (m_dur (t_m t) <=? out + (0 + above mx (flat (v :: V2)))) eqn:C1. { rewrite PD, MD in C1. unfold above in C1, AF. replace ((0 <? out) && (out <? dur_below mx K)) with false by lia. reflexivity. }
  rewrite PD, MD in C1. unfold above in C1, AF. replace ((0 <? out) && (out <? dur_below mx K)) with true by lia.
  assert (DV : dur_below mx (flat (V0 ++ [v])) = dur_below mx F + dur_below mx K). { rewrite <- below_app, <- EF, !flat_app, flat1, flat_cons, !below_app. rewrite (below_none mx (flat V2) HI). lia. }
  pose proof (below_bounds mx F ltac:(intros s I; apply ND; rewrite EF; apply in_or_app; auto)) as BF.
  destruct (skip_back_ok c mx P0 V0 p v (dur_below mx (v_segs v)) out (0 + len V2) (0 + len (flat V2)) PV0 RP eq_refl LO ltac:(lia)) as (p' & P1 & P2' & V1 & v' & V2' & out' & SB & EP' & EV' & LP' & EO & BO). rewrite SB.
  assert (EPP : t_periods t = P1 ++ p' :: P2' ++ P2). { rewrite EP. change (p :: P2) with ([p] ++ P2). rewrite app_assoc, EP', <- app_assoc. reflexivity. }
  assert (EVV : V0 ++ v :: V2 = V1 ++ v' :: V2' ++ V2). { change (v :: V2) with ([v] ++ V2). rewrite app_assoc, EV', <- app_assoc. reflexivity. }
  rewrite <- EP, EPP, EVV in PV. destruct (pers_split_at _ P1 (p' :: P2' ++ P2) V1 (v' :: V2' ++ V2) PV LP') as [_ PV1']. inversion PV1' as [|? ? ? ? RP' _]; subst. rewrite EVV in NU, EF, ND, TK.
  assert (NV : numbered (v_segs v')) by (rewrite flat_app, flat_cons in NU; eapply numbered_app_l, numbered_app_r; exact NU). destruct (below_split mx (v_segs v') NV) as (u & w & EU & U1 & U2 & DU). rewrite DU in BO.
  destruct (at_dur u _ BO) as (a & x & b & EX & BX). assert (EVX : v_segs v' = a ++ x :: b ++ w) by (rewrite EU, EX, <- app_assoc; reflexivity).
  destruct RP' as (PK & _ & _). pose proof PK as ((post & IT) & CO & DD & CN). assert (COX := CO). rewrite EVX in COX. apply consec_app in COX as [_ (XI & XT & _)].
  destruct IT as (r0 & pre0 & _ & SG & _). assert (IX : In x (segs (cl_list c))) by (rewrite SG, EVX; apply in_or_app; right; apply in_or_app; left; apply in_elt).
  assert (TT : p_time p' + dur_below mx (v_segs v') - (out - dur_below mx (flat V2')) = s_time x + (sum_dur (x :: b) - (out - dur_below mx (flat V2')))). { rewrite DU, EX, sum_app. lia. }
  destruct (lookup_unique (cl_list c) nt x (p_time p' + dur_below mx (v_segs v') - (out - dur_below mx (flat V2'))) W T CH IX) as (it & lpre & lpost & GS & LS & LR). { rewrite TT. unfold s_end. cbn [sum_dur] in BX |- *. lia. }
  rewrite GS. rewrite EPP. rewrite deref_mid by (rewrite <- EPP; apply TK).
  assert (NUM : numbered (segs (cl_list c))) by (apply segs_numbered; exact W). rewrite SG, EVX, <- !app_assoc in LS. cbn [app] in LS. rewrite app_assoc in LS. rewrite SG, EVX, <- !app_assoc in NUM. cbn [app] in NUM. rewrite app_assoc in NUM. destruct (split_unique _ _ _ _ _ NUM LS) as [EL ER].
  exists p', P1, (P2' ++ P2), V1, v', (V2' ++ V2), a, x, (b ++ w), (to_abs (cl_base c) it), post. split; [reflexivity|]. split; [exact EVV|]. split; [exact LP'|]. split; [exact EVX|].
  assert (BB : dur_below mx b = sum_dur b) by (apply below_all; intros s I; apply U1; rewrite EX; apply in_or_app; right; right; exact I). assert (BBX : dur_below mx (x :: b) = sum_dur (x :: b)) by (apply below_all; intros s I; apply U1; rewrite EX; apply in_or_app; right; exact I).
  split. { change (x :: (b ++ w) ++ flat (V2' ++ V2)) with ((x :: b ++ w) ++ flat (V2' ++ V2)). change (x :: b ++ w) with ((x :: b) ++ w). rewrite flat_app, !below_app, BB, BBX, (below_none mx w U2), (below_none mx (flat V2) HI). lia. }
  split. { exists it, (pre0 ++ a). split; [apply to_rel_abs|]. split; [rewrite SG, EVX, <- !app_assoc; cbn [app]; rewrite <- ?app_assoc; reflexivity|]. rewrite LR, <- ER. reflexivity. }
  assert (CNT : p_key p' + p_count p' - s_index x = len (x :: b ++ w)). { rewrite CN, EVX, len_app. lia. } rewrite CNT.
  assert (L2 : 0 + len V2 + len V2' = len (V2' ++ V2)) by (rewrite len_app; lia). assert (L3 : 0 + len (flat V2) + len (flat V2') = len (flat (V2' ++ V2))) by (rewrite flat_app, len_app; lia). rewrite L2, L3.
  do 3 f_equal. destruct (m_pcount (t_m t) - len (V2' ++ V2) - 1 =? 0); reflexivity.
Qed.
