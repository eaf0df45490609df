(* The whole timeline, and how it follows the changes of the segment list. *)
From Coq Require Import List ZArith Bool Lia ZifyBool ZifyNat.
From Verif Require Import SegListModel SegListSpec SegListProofs SegListProofs2 SegListProofs3 TimelineModel TimelineSpec TimelineProofs TimelineProofs2 TimelineProofs3.
Import ListNotations.
Local Open Scope Z_scope.

Definition st (c : chlist) (t : timeline) (V MV : list pview) : Prop := tok c t V /\ mok c (t_periods t) V (t_m t) MV.

Definition first_index (V : list pview) (dflt : Z) : Z := match flat V with [] => dflt | s :: _ => s_index s end.

Lemma tok_set_m c t m V : tok c t V -> tok c (set_m t m) V.
Proof. intros [T1 T2 T3 T4 T5 T6 T7]. constructor; assumption. Qed.

Lemma tok_key c t V p ps : tok c t V -> t_periods t = p :: ps -> exists s r, flat V = s :: r /\ s_index s = p_key p.
Proof.
  intros T E. pose proof (tk_per _ _ _ T) as P. rewrite E in P. inversion P as [|? v ? V' ((_ & K & _) & NE & _) P']; subst. rewrite flat_cons.
  destruct (v_segs v) as [|s ss]; [contradiction|]. exists s, (ss ++ flat V'). split; [reflexivity|]. apply K.
Qed.
Lemma tok_nil c t V : tok c t V -> t_periods t = [] -> V = [].
Proof. intros T E. pose proof (tk_per _ _ _ T) as P. rewrite E in P. inversion P. reflexivity. Qed.

Lemma lower_min_ok c t V min : tok c t V -> lower_min t min = Z.min min (first_index V min).
Proof.
  intros T. unfold lower_min, first_index. destruct (t_periods t) as [|p ps] eqn:E.
  - rewrite (tok_nil _ _ _ T E). cbn. lia.
  - destruct (tok_key _ _ _ _ _ T E) as (s & r & -> & <-). destruct (s_index s <? min) eqn:Q; lia.
Qed.

Lemma t_remove_segments_ok c now bc bd t V MV min : wf (cl_list c) -> st c t V MV ->
  let MV' := popn (trim (m_fine (m_conf (t_m t)) (m_target (t_m t)) bc bd) (flat MV)) MV in
  let V' := popn (trim (t_fine (t_conf t) (len (flat MV')) bc bd) (flat V)) V in
  exists t', t_remove_segments c now bc bd t min = Some (t', Z.min min (first_index V' min)) /\ st c t' V' MV' /\
    t_id t' = t_id t /\ t_last_time t' = t_last_time t /\ t_conf t' = t_conf t /\ t_created t' = t_created t /\ same_static (t_m t) (t_m t') /\
    incl_ids t t' /\ t_removed t' + t_dur t' = t_removed t + t_dur t /\ m_pindex (t_m t') + len MV' = m_pindex (t_m t) + len MV.
Proof.
  intros W [T M] MV' V'. unfold t_remove_segments.
  destruct (m_remove_segments_ok c (t_periods t) V now bc bd W (tk_per _ _ _ T) (starts_tl _ _ _ (tk_start _ _ _ T)) (tk_ids _ _ _ T) (Z.to_nat (m_count (t_m t))) (t_m t) MV M) as (m & G & M' & S & I).
  { rewrite (proj1 M). unfold len. lia. }
  rewrite G. fold MV' in M', I. destruct (t_loop_ok c bc bd MV' W (Z.to_nat (t_count t)) (set_m t m) V) as (t' & G' & T' & M2 & S' & I' & R').
  { apply tok_set_m. exact T. }
  { exact M'. }
  { rewrite (tk_count _ _ _ T). unfold len. lia. }
  rewrite G'. change (t_conf (set_m t m)) with (t_conf t) in T', M2. fold V' in T', M2. destruct S' as (S1 & S2 & S3 & S4 & S5). cbn [set_m t_m] in S5.
  exists t'. rewrite (lower_min_ok _ _ _ _ T'). split; [reflexivity|]. split; [split; [exact T'|exact M2]|]. rewrite S1, S2, S3, S4, S5.
  repeat (split; [reflexivity|]). split; [exact S|]. split; [exact I'|]. split; [exact R'|exact I].
Qed.

(* an inactive timeline: the time since the last segment counts *)
Lemma t_inactive_ok c scale now t V MV min : wf (cl_list c) -> st c t V MV ->
  exists t' k k', t_inactive_remove c scale now t min = Some (t', Z.min min (first_index (popn k V) min)) /\ st c t' (popn k V) (popn k' MV) /\
    t_id t' = t_id t /\ t_last_time t' = t_last_time t /\ t_conf t' = t_conf t /\ t_created t' = t_created t /\ same_static (t_m t) (t_m t') /\
    incl_ids t t' /\ t_removed t' + t_dur t' = t_removed t + t_dur t /\ m_pindex (t_m t') + len (popn k' MV) = m_pindex (t_m t) + len MV /\
    (k, k') = expire scale now t (flat V) (flat MV).
Proof.
  intros W S. pose proof (mok_nonempty _ _ _ _ _ (tk_per _ _ _ (proj1 S)) (proj2 S)) as NE. unfold expire. rewrite <- (tk_dur _ _ _ (proj1 S)). unfold t_inactive_remove. destruct ((now <=? t_created t) || (t_dur t <=? 0)) eqn:C.
  - exists t, O, O. destruct S as [T M]. rewrite (lower_min_ok _ _ _ _ T). cbn [popn]. split; [reflexivity|]. split; [split; assumption|].
    repeat (split; [reflexivity|]). split; [apply ss_refl|]. split; [apply incl_ids_refl|]. split; [reflexivity|]. split; reflexivity.
  - destruct (t_remove_segments_ok c now ((now - t_created t) * scale * t_count t / t_dur t) ((now - t_created t) * scale) t V MV min W S) as (t' & G & S' & A1 & A2 & A3 & A4 & A5 & A6 & A7 & A8).
    eexists t', _, _. split; [exact G|]. split; [exact S'|]. repeat (split; [assumption|]). destruct S as [T _]. rewrite (flat_popn _ MV NE), (tk_count _ _ _ T). reflexivity.
Qed.

Lemma numbered_after index l : numbered l -> forall s, In s (skipn (trim (after index) l) l) -> index < s_index s.
Proof.
  induction l as [|x l IH]; intros N s I; [destruct I|]. cbn [trim after] in I. destruct (index <? s_index x) eqn:C.
  - cbn [skipn] in I. destruct I as [->|I]; [lia|]. pose proof (numbered_lt [] x l s N I). lia.
  - cbn [skipn] in I. apply IH; [eapply numbered_tl; exact N|exact I].
Qed.

Lemma mok_num c ps V m MV : mok c ps V m MV -> numbered (flat V) -> numbered (flat MV).
Proof. intros M N. destruct (mok_suffix _ _ _ _ _ M) as (pre & E). rewrite E in N. eapply numbered_app_r. exact N. Qed.

Lemma t_truncate_ok c now index t V MV : wf (cl_list c) -> st c t V MV -> c_no_trunc (t_conf t) = false ->
  exists t', t_truncate c now index t = Some t' /\ st c t' (popn (trim (after index) (flat V)) V) (popn (trim (after index) (flat MV)) MV) /\
    t_id t' = t_id t /\ t_last_time t' = t_last_time t /\ t_conf t' = t_conf t /\ t_created t' = t_created t /\ same_static (t_m t) (t_m t') /\
    incl_ids t t' /\ t_removed t' + t_dur t' = t_removed t + t_dur t /\ m_pindex (t_m t') + len (popn (trim (after index) (flat MV)) MV) = m_pindex (t_m t) + len MV.
Proof.
  intros W [T M] NT. unfold t_truncate. rewrite NT.
  destruct (m_truncate_ok c (t_periods t) V now index W (tk_per _ _ _ T) (starts_tl _ _ _ (tk_start _ _ _ T)) (tk_ids _ _ _ T) (Z.to_nat (m_count (t_m t))) (t_m t) MV M) as (m & G & M' & S & I).
  { rewrite (proj1 M). unfold len. lia. }
  rewrite G. pose proof (mok_nonempty _ _ _ _ _ (tk_per _ _ _ T) M) as NE.
  destruct (t_trunc_ok c index (popn (trim (after index) (flat MV)) MV) W) with (fuel := Z.to_nat (t_count t)) (t := set_m t m) (V := V) as (t' & G' & T' & M2 & S' & I' & R').
  { rewrite flat_popn by exact NE. apply numbered_after. eapply mok_num; [exact M|apply T]. }
  { apply tok_set_m. exact T. }
  { exact M'. }
  { rewrite (tk_count _ _ _ T). unfold len. lia. }
  rewrite G'. destruct S' as (S1 & S2 & S3 & S4 & S5). cbn [set_m t_m] in S5.
  exists t'. split; [reflexivity|]. split; [split; [exact T'|exact M2]|]. rewrite S1, S2, S3, S4, S5.
  repeat (split; [reflexivity|]). split; [exact S|]. split; [exact I'|]. split; [exact R'|exact I].
Qed.

(* --- the segment list changes --- *)
Lemma tok_change c c' t V : (forall p v, In v V -> prel c p v -> prel c' p v) -> tok c t V -> tok c' t V.
Proof.
  intros H [T1 T2 T3 T4 T5 T6 T7]. constructor; auto. clear - H T1. unfold pers in *. induction T1 as [|p v ps V R _ IH]; constructor.
  - apply H; [left; reflexivity|exact R].
  - apply IH. intros q w I. apply H. right. exact I.
Qed.

Lemma mok_change c c' ps V m MV : (forall p ss pre, pre ++ ss <> [] -> (exists v, In v V /\ v_segs v = pre ++ ss) -> ss <> [] -> pok c p ss -> pok c' p ss) -> mok c ps V m MV -> mok c' ps V m MV.
Proof.
  intros H (M1 & M2 & M3 & M). split; [exact M1|]. split; [exact M2|]. split; [exact M3|]. destruct MV as [|mv V2]; [exact Logic.I|].
  destruct M as (P1 & p & P2 & V1 & v & pre & EP & EV & L & E & NE & K & NX & S). exists P1, p, P2, V1, v, pre. repeat (split; [assumption|]).
  split; [|auto]. eapply H; [| |exact NE|exact K].
  - rewrite <- E. intros Q. rewrite E in Q. apply app_eq_nil in Q as [_ Q]. contradiction.
  - exists v. split; [rewrite EV; apply in_or_app; right; left; reflexivity|exact E].
Qed.

Lemma pok_add c alloc i t d l' p ss : wf (cl_list c) -> 0 <= d -> (forall s, In s (segs (cl_list c)) -> s_index s < i) ->
  seg_add (cl_list c) alloc i t d = Some l' -> pok c p ss -> pok (mk_cl l' (cl_base c)) p ss.
Proof.
  intros W D L H ((post & A) & K). split; [|exact K]. exists (post ++ [mk_seg i t d]). rewrite app_assoc. eapply iat_add; eauto.
Qed.

Lemma st_add c alloc i t d l' tl V MV : wf (cl_list c) -> 0 <= d -> (forall s, In s (segs (cl_list c)) -> s_index s < i) ->
  seg_add (cl_list c) alloc i t d = Some l' -> st c tl V MV -> st (mk_cl l' (cl_base c)) tl V MV.
Proof.
  intros W D L H [T M]. split.
  - eapply tok_change; [|exact T]. intros p v _ (R1 & R2). split; [eapply pok_add; eauto|exact R2].
  - eapply mok_change; [|exact M]. intros p ss _ _ _ _ R. eapply pok_add; eauto.
Qed.

(* a period is not affected by freeing what is before it *)
Lemma pok_free c min p ss : wf (cl_list c) -> ss <> [] -> min <= p_key p -> pok c p ss -> pok (cl_free c min) p ss.
Proof.
  intros W NE L ((post & A) & K). split; [|exact K]. exists post. destruct ss as [|s ss]; [contradiction|]. cbn [app] in *. apply iat_free; auto.
  destruct K as ((K1 & _) & _). lia.
Qed.

Lemma prel_key_in c p v : prel c p v -> exists s r, v_segs v = s :: r /\ s_index s = p_key p.
Proof. intros ((_ & K & _) & NE & _). destruct (v_segs v) as [|s r]; [contradiction|]. exists s, r. split; [reflexivity|]. apply K. Qed.

Lemma in_flat v V s : In v V -> In s (v_segs v) -> In s (flat V).
Proof. intros A B. unfold flat. apply in_flat_map. exists v. auto. Qed.

Lemma st_free c min t V MV : wf (cl_list c) -> (forall s, In s (flat V) -> min <= s_index s) -> st c t V MV -> st (cl_free c min) t V MV.
Proof.
  intros W L [T M]. split.
  - eapply tok_change; [|exact T]. intros p v I R. pose proof R as (R1 & R2 & R3). split; [|auto]. apply pok_free; auto.
    destruct (prel_key_in _ _ _ R) as (s & r & E & Q). rewrite <- Q. apply L. eapply in_flat; [exact I|]. rewrite E. left. reflexivity.
  - eapply mok_change; [|exact M]. intros p ss pre _ (v & I & E) NE R. apply pok_free; auto. destruct ss as [|s ss]; [contradiction|]. destruct R as (_ & (K & _) & _).
    rewrite <- K. apply L. eapply in_flat; [exact I|]. rewrite E. apply in_or_app. right. left. reflexivity.
Qed.
