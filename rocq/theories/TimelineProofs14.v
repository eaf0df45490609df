(* Times relative to the start and the end of a timeline; the target duration. *)
From Coq Require Import List ZArith Bool Lia ZifyBool ZifyNat.
From Verif Require Import SegListModel SegListSpec SegListProofs SegListProofs2 SegListProofs3 TimelineModel TimelineSpec TimelineProofs TimelineProofs2 TimelineProofs3
  TimelineProofs4 TimelineProofs5 TimelineProofs6 TimelineProofs7 TimelineProofs8 TimelineProofs9 TimelineProofs10 TimelineProofs11 TimelineProofs12 TimelineProofs13.
Import ListNotations.
Local Open Scope Z_scope.

Lemma laid_cons gap v V : laid gap (v :: V) = sum_dur (v_segs v) + gap + laid gap V.
Proof. reflexivity. Qed.
Lemma laid_app gap A B : laid gap (A ++ B) = laid gap A + laid gap B.
Proof. induction A as [|v A IH]; [reflexivity|]. cbn [app]. rewrite !laid_cons, IH. lia. Qed.

Lemma pok_hd c p ss : pok c p ss -> ss <> [] -> exists s r, ss = s :: r /\ s_time s = p_time p.
Proof. intros (_ & K & _) NE. destruct ss as [|s r]; [contradiction|]. exists s, r. split; [reflexivity|apply K]. Qed.
Lemma consec_end i t l s q : consecutive i t l -> l = q ++ [s] -> s_end s = t + sum_dur l.
Proof.
  revert i t q. induction l as [|x l IH]; intros i t q K E; [destruct q; discriminate|]. destruct K as (K1 & K2 & K3). cbn [sum_dur]. destruct q as [|y q].
  - injection E as -> ->. unfold s_end. cbn [sum_dur]. lia.
  - injection E as -> E. rewrite (IH _ _ q K3 E). lia.
Qed.

Lemma start_relative_ok c gap ps : forall V off, pers c ps V -> V <> [] ->
  exists x V1 v V2 s r, start_relative ps gap off = Some x /\ V = V1 ++ v :: V2 /\ v_segs v = s :: r /\ x = s_time s + (off - laid gap V1) /\
    (V1 = [] \/ laid gap V1 <= off) /\ (V2 = [] \/ off < laid gap (V1 ++ [v])).
Proof.
  induction ps as [|p ps IH]; intros V off P NE; [inversion P; subst; contradiction|]. inversion P as [|? v ? V' R P']; subst. destruct R as (K & NV & _).
  destruct (pok_hd _ _ _ K NV) as (s & r & ES & TS). pose proof K as (_ & _ & DS & _). cbn [start_relative]. destruct ps as [|p2 ps].
  - inversion P'; subst. exists (p_time p + off), [], v, [], s, r. split; [reflexivity|]. split; [reflexivity|]. split; [exact ES|]. unfold laid. cbn [map fold_right]. split; [lia|]. auto.
  - destruct (off <? p_dur p + gap) eqn:C.
    + exists (p_time p + off), [], v, V', s, r. split; [reflexivity|]. split; [reflexivity|]. split; [exact ES|]. cbn [app]. rewrite laid_cons. unfold laid. cbn [map fold_right]. split; [lia|]. split; [auto|]. right. lia.
    + destruct (IH V' (off - (p_dur p + gap)) P') as (x & V1 & w & V2 & s2 & r2 & E & EV & EW & EX & A & B).
      { intros Q. subst. inversion P'. }
      exists x, (v :: V1), w, V2, s2, r2. split; [exact E|]. split; [rewrite EV; reflexivity|]. split; [exact EW|]. cbn [app]. rewrite !laid_cons. split; [lia|]. split.
      * right. destruct A as [->|A]; [change (laid gap []) with 0; lia|lia].
      * destruct B as [->|B]; [left; reflexivity|right; lia].
Qed.

Lemma end_relative_ok c gap ps : forall V off, pers c ps V -> V <> [] ->
  exists x V1 v V2 s q, end_relative (rev ps) gap off = Some x /\ V = V1 ++ v :: V2 /\ v_segs v = q ++ [s] /\ x = s_end s + gap - (off - laid gap V2) /\
    (V2 = [] \/ laid gap V2 <= off) /\ (V1 = [] \/ off < laid gap (v :: V2)).
Proof.
  induction ps as [|p ps IH] using rev_ind; intros V off P NE; [inversion P; subst; contradiction|].
  destruct (pers_snoc_inv _ _ _ _ P) as (V0 & v & -> & P0 & R). destruct R as (K & NV & _). destruct (exists_last NV) as (q & s & ES). pose proof K as (_ & CS & DS & _).
  pose proof (consec_end _ _ _ _ _ CS ES) as SE. rewrite rev_app_distr. cbn [rev app end_relative]. destruct (rev ps) as [|p2 r2] eqn:ER.
  - assert (ps = []) as -> by (apply (f_equal (@length _)) in ER; rewrite rev_length in ER; destruct ps; [reflexivity|discriminate]). inversion P0; subst.
    exists (p_time p + (p_dur p + gap) - off), [], v, [], s, q. split; [reflexivity|]. split; [reflexivity|]. split; [exact ES|]. change (laid gap []) with 0. split; [lia|]. auto.
  - assert (NV0 : V0 <> []). { intros ->. inversion P0; subst. discriminate. }
    destruct (off <? p_dur p + gap) eqn:C.
    + exists (p_time p + (p_dur p + gap) - off), V0, v, [], s, q. split; [reflexivity|]. split; [reflexivity|]. split; [exact ES|]. rewrite laid_cons. change (laid gap []) with 0. split; [lia|]. split; [auto|]. right. lia.
    + destruct (IH V0 (off - (p_dur p + gap)) P0 NV0) as (x & V1 & w & V2 & s2 & q2 & E & EV & EW & EX & A & B).
      exists x, V1, w, (V2 ++ [v]), s2, q2. split; [exact E|]. split; [rewrite EV, <- app_assoc; reflexivity|]. split; [exact EW|]. rewrite laid_cons in *. rewrite laid_app, laid_cons. change (laid gap []) with 0. split; [lia|]. split.
      * right. destruct A as [->|A]; [change (laid gap []) with 0; lia|lia].
      * destruct B as [->|B]; [left; reflexivity|right; lia].
Qed.

(* --- the target duration --- *)
Definition steady (mc : mconf) : Prop := mc_target_segs mc = 0.
Definition aimed (c : chlist) (t : timeline) : Prop :=
  steady (m_conf (t_m t)) /\ 0 <= m_target (t_m t) /\ forall V MV, st c t V MV -> forall x, In x (flat MV) -> s_dur x <= m_target (t_m t).

Lemma st_mflat c t V MV V2 MV2 : wf (cl_list c) -> st c t V MV -> st c t V2 MV2 -> flat MV = flat MV2.
Proof.
  intros W S S2. pose proof (m_view_ok _ _ _ _ W S) as A. pose proof (m_view_ok _ _ _ _ W S2) as B. rewrite A in B. injection B as B. rewrite <- !concat_segs. rewrite B. reflexivity.
Qed.
Lemma aimed_intro c t V MV : wf (cl_list c) -> steady (m_conf (t_m t)) -> 0 <= m_target (t_m t) -> st c t V MV -> (forall x, In x (flat MV) -> s_dur x <= m_target (t_m t)) -> aimed c t.
Proof. intros W A B S H. split; [exact A|]. split; [exact B|]. intros V2 MV2 S2 x I. rewrite (st_mflat _ _ _ _ _ _ W S2 S) in I. apply H. exact I. Qed.

Lemma in_skipn {A} k (l : list A) x : In x (skipn k l) -> In x l.
Proof. intros I. rewrite <- (firstn_skipn k l). apply in_or_app. right. exact I. Qed.

Lemma conf_validate_steady c mc c' mc' : conf_validate c mc = Some (c', mc') -> mc_target_segs mc' = mc_target_segs mc.
Proof.
  unfold conf_validate. destruct (_ <=? _); [discriminate|]. destruct (_ <? _); [discriminate|]. destruct (_ <? _); [discriminate|]. intros H. injection H as <- <-. reflexivity.
Qed.

Lemma cut_aimed c c' t t' pid : wf (cl_list c') -> good c pid t -> (forall V MV, st c t V MV -> exists k k', cut c' t k k' V MV t') -> aimed c t -> aimed c' t'.
Proof.
  intros W (V & MV & S & _) H (A & B & D). destruct (H V MV S) as (k & k' & S' & K & _). destruct K as (_ & _ & _ & _ & (SS1 & _ & SS3 & _)).
  eapply aimed_intro; [exact W|rewrite SS1; exact A|rewrite SS3; exact B|exact S'|]. intros x I. rewrite SS3. apply (D V MV S).
  rewrite flat_popn in I by (eapply mok_nonempty; [apply S|apply S]). eapply in_skipn. exact I.
Qed.

Lemma post_target m d : steady (m_conf m) -> m_target (m_post_add m d) = Z.max (m_target m) d.
Proof. intros S. unfold m_post_add. cbn [m_target]. rewrite S. cbn [Z.leb orb andb]. destruct (m_target m <? d) eqn:Q; cbn; lia. Qed.

Lemma reach_aimed h : reach steady h -> forall t, In t (ch_tls h) -> aimed (ch_list h) t.
Proof.
  induction 1 as [| h now na al s f h' r HH IH F E | h d h' r HH IH D E | h now i h' HH IH E | h now h' b HH IH E | h now id h' t0 HH IH E | h now id c mc h' HH IH PC E | h id c mc h' HH IH PC E | h id HH IH | h n HH IH N | h b HH IH]; intros t I.
  - destruct I.
  - pose proof (reach_inv _ _ HH) as CV. destruct (add_segment_ok h now na al s f CV (proj1 F) (fresh_lt _ _ CV F) (proj2 (proj2 F))) as (h1 & r1 & E1 & C1 & KE & KO). unfold add in E. rewrite E in E1. injection E1 as <- <-.
    pose proof (fresh_lt _ _ CV F) as FL. pose proof (ci_wf _ C1) as W1.
    (* what a timeline is after one step of the loop *)
    assert (STEP : forall t0 t1 V MV V' MV' alloc e fl, aimed (ch_list h) t0 -> st (ch_list h) t0 V MV -> st (ch_list h') t1 V' MV' -> outcome (ch_scale h) (s_time s + s_dur s / 2) now s f alloc t0 V MV t1 V' MV' e fl -> aimed (ch_list h') t1).
    { intros t0 t1 V MV V' MV' alloc e fl (A1 & A2 & A3) S0 S1 O. pose proof (mok_nonempty _ _ _ _ _ (tk_per _ _ _ (proj1 S0)) (proj2 S0)) as NM. specialize (A3 V MV S0). inversion O; subst.
      - match goal with HS : same_static _ _ |- _ => destruct HS as (SS1 & _ & SS3 & _) end. eapply aimed_intro; [exact W1|rewrite SS1; exact A1|rewrite SS3; exact A2|exact S1|]. intros x Ix. rewrite SS3. apply A3. rewrite flat_popn in Ix by exact NM. eapply in_skipn; exact Ix.
      - match goal with HS : t_m t1 = t_m t0 |- _ => rename HS into HM end. eapply aimed_intro; [exact W1|rewrite HM; exact A1|rewrite HM; exact A2|exact S1|]. intros x Ix. rewrite HM. apply A3. exact Ix.
      - match goal with Q0 : m_conf _ = _ |- _ => rename Q0 into HC end. match goal with Q0 : m_target (t_m t1) = _ |- _ => rename Q0 into HT end.
        assert (SD : 0 <= s_dur s) by apply F. destruct (popn _ MV1) as [|z zs] eqn:EP.
        + eapply aimed_intro; [exact W1|rewrite HC; exact A1|rewrite HT; exact A2|exact S1|]. intros x [].
        + assert (TG : m_target (t_m t1) = Z.max (m_target (t_m t0)) (s_dur s)). { rewrite HT. destruct (0 <? s_dur s) eqn:Q; [apply post_target; exact A1|lia]. }
          eapply aimed_intro; [exact W1|rewrite HC; exact A1|lia|exact S1|]. intros x Ix. rewrite <- EP, flat_popn in Ix by (apply mput_nonempty; exact NM). apply in_skipn in Ix.
          unfold MV1 in Ix. rewrite mput_flat in Ix. apply in_app_or in Ix as [Ix|[<-|[]]]; [specialize (A3 x Ix); lia|lia]. }
    destruct r.
    3:{ destruct (KE eq_refl) as [->|(failed & _ & ES & FR)]; [apply IH; exact I|]. destruct (Forall2_in_r _ _ _ _ FR I) as (t0 & I0 & e & _ & A).
        destruct (ci_tls _ CV t0 I0) as (V & MV & S0 & L0 & _). assert (S0' : st (ch_list h') t0 V MV).
        { unfold add_segment in E. destruct (ch_pending h); [injection E as <-; exact S0|]. destruct (seg_add (cl_list (ch_list h)) na (s_index s) (s_time s) (s_dur s)) as [l|] eqn:SA; [|injection E as <-; exact S0].
          cbv zeta in E. destruct (add_loop _ _ _ _ _ _ _ _ _ _ _ _) as [[[[[tls' mn] ex] pd] fl]|]; [|discriminate]. destruct fl; [|destruct ex; discriminate]. injection E as <-. cbn [ch_list]. eapply st_add; eauto. { apply CV. } apply F. }
        destruct (A V MV S0' L0) as [(V' & MV' & al2 & fl & S1 & _ & _ & O)|(_ & -> & _)].
        - intros x Ix. apply FL. eapply st_in; eauto.
        - eapply STEP; [apply IH; exact I0|exact S0|exact S1|exact O].
        - destruct (IH t0 I0) as (A1 & A2 & A3). eapply aimed_intro; [exact W1|exact A1|exact A2|exact S0'|]. apply (A3 V MV S0). }
    all: destruct (KO ltac:(discriminate)) as (_ & _ & _ & _ & _ & (res & ER & FR & _) & _); rewrite ER in I; apply in_map_iff in I as (rr & <- & I); destruct (Forall2_in_r _ _ _ _ FR I) as (t0 & I0 & _ & A);
      destruct (ci_tls _ CV t0 I0) as (V & MV & S0 & L0 & _); destruct (A V MV S0 L0) as (V' & MV' & al2 & S1 & _ & O); (eapply STEP; [apply IH; exact I0|exact S0|exact S1|exact O]).
  - pose proof (reach_inv _ _ HH) as CV. destruct (update_last_segment_ok h d CV D) as (h1 & r1 & E1 & C1 & KE & K). rewrite E in E1. injection E1 as <- <-.
    destruct r; [|rewrite (KE ltac:(discriminate)) in *; apply IH; exact I|rewrite (KE ltac:(discriminate)) in *; apply IH; exact I].
    destruct (K eq_refl) as (_ & _ & _ & FR & _). destruct (Forall2_in_r _ _ _ _ FR I) as (t0 & I0 & (_ & _ & _ & A)). destruct (ci_tls _ CV t0 I0) as (V & MV & S0 & L0 & _). specialize (A V MV S0).
    destruct (IH t0 I0) as (A1 & A2 & A3). specialize (A3 V MV S0). destruct (ends_at V (ch_last h)).
    + destruct A as (S1 & _ & M). destruct MV as [|z zs]; [rewrite <- M in *; eapply aimed_intro; [apply C1|exact A1|exact A2|exact S1|intros x []]|].
      destruct M as (M1 & M2 & _). rewrite post_target in M2 by exact A1. eapply aimed_intro; [apply C1|rewrite M1; exact A1|lia|exact S1|]. intros x Ix.
      rewrite flat_set_last in Ix by (eapply mok_nonempty; [apply S0|apply S0]). revert Ix A3. generalize (flat (z :: zs)). intros l Ix A3. rewrite M2.
      destruct l as [|y l]; [destruct Ix|]. destruct (@exists_last _ (y :: l) ltac:(discriminate)) as (q & w & EQ). rewrite EQ in *. rewrite sld_app in Ix. apply in_app_or in Ix as [Ix|[<-|[]]]; [|cbn; lia].
      specialize (A3 x ltac:(apply in_or_app; left; exact Ix)). lia.
    + destruct A as [-> S1]. eapply aimed_intro; [apply C1|exact A1|exact A2|exact S1|exact A3].
  - pose proof (reach_inv _ _ HH) as CV. destruct (truncate_ok h now i CV) as (h1 & E1 & C1 & EL & FR & _). rewrite E in E1. injection E1 as <-.
    destruct (Forall2_in_r _ _ _ _ FR I) as (t0 & I0 & (_ & A)). rewrite EL. destruct (ci_tls _ CV t0 I0) as (V & MV & S0 & L0 & ID). pose proof (A V MV S0) as A0. destruct (c_no_trunc (t_conf t0)); [subst; apply IH; exact I0|].
    eapply cut_aimed; [apply CV|exact (ci_tls _ CV t0 I0)| |apply IH; exact I0]. intros V2 MV2 S2. eexists _, _. apply A. exact S2.
  - pose proof (reach_inv _ _ HH) as CV. destruct (cleanup_ok h now CV) as (h1 & b1 & E1 & C1 & KA & KI). rewrite E in E1. injection E1 as <- <-.
    destruct (ch_active h) eqn:AC; [destruct (KA eq_refl) as [-> _]; apply IH; exact I|]. destruct (KI eq_refl) as (FR & _). destruct (Forall2_in_r _ _ _ _ FR I) as (t0 & I0 & (_ & A)).
    eapply cut_aimed; [apply C1|exact (ci_tls _ CV t0 I0)| |apply IH; exact I0]. intros V MV S. destruct (A V MV S) as (k & k' & Q & _). exists k, k'. exact Q.
  - pose proof (reach_inv _ _ HH) as CV. destruct (get_ok h now id CV) as [[Q _]|(t1 & h1 & t2 & FT & E1 & C1 & EL & F2 & I2 & OT & A)]; [congruence|].
    rewrite E in E1. injection E1 as <- <-. rewrite EL. pose proof (in_find _ _ (ci_ids _ C1) I) as FI. destruct (Nat.eq_dec (t_id t) id) as [QI|NI].
    + rewrite QI, F2 in FI. injection FI as ->. destruct (c_active (t_conf t1) && ch_active h); [destruct A as [-> ->]; apply IH; exact I|].
      eapply cut_aimed; [apply CV|exact (ci_tls _ CV t1 (proj1 (find_in _ _ _ FT)))| |apply IH; eapply find_in; exact FT]. intros V MV S. destruct (A V MV S) as (k & k' & Q & _). exists k, k'. exact Q.
    + rewrite (OT _ NI) in FI. apply IH. eapply find_in. exact FI.
  - pose proof (reach_inv _ _ HH) as CV. unfold create in E. destruct (conf_validate c mc) as [[c1 mc1]|] eqn:CF; [|discriminate]. destruct (find_tl id (ch_tls h)) eqn:FN; [discriminate|]. injection E as <-.
    cbn [set_tls ch_list ch_tls] in *. apply in_app_or in I as [I|[<-|[]]]; [apply IH; exact I|].
    destruct (new_good (ch_list h) 0 id (if c_end c1 <=? ch_middle h then deactivate c1 else c1) mc1 (ch_next h) now) as (V & MV & S & _).
    eapply aimed_intro; [apply CV|cbn; unfold steady; rewrite (conf_validate_steady _ _ _ _ CF); exact PC|cbn; lia|exact S|]. intros x Ix. destruct S as [_ (M1 & _)]. cbn in M1. destruct (flat MV) eqn:EF; [destruct Ix|]. unfold len in M1. cbn in M1. lia.
  - pose proof (reach_inv _ _ HH) as CV. unfold update in E. destruct (conf_validate c mc) as [[c1 mc1]|] eqn:CF; [|discriminate]. destruct (find_tl id (ch_tls h)) as [t1|] eqn:FT; [|discriminate]. injection E as <-.
    cbn [set_tls ch_list ch_tls] in *. apply put_in in I as [->|I]; [|apply IH; exact I]. destruct (find_in _ _ _ FT) as [I1 _]. destruct (IH t1 I1) as (A1 & A2 & A3). destruct (ci_tls _ CV t1 I1) as (V & MV & S & _).
    eapply aimed_intro; [apply CV|cbn; unfold steady; rewrite (conf_validate_steady _ _ _ _ CF); exact PC|exact A2|apply set_conf_st; exact S|]. exact (A3 V MV S).
  - apply IH. cbn [remove set_tls ch_tls] in I. apply filter_In in I as [I _]. exact I.
  - apply IH. exact I.
  - apply IH. exact I.
Qed.
