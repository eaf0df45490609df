(* The other operations on the timelines of a channel. *)
From Coq Require Import List ZArith Bool Lia ZifyBool ZifyNat.
From Verif Require Import SegListModel SegListSpec SegListProofs SegListProofs2 SegListProofs3 TimelineModel TimelineSpec TimelineProofs TimelineProofs2 TimelineProofs3
  TimelineProofs4 TimelineProofs5 TimelineProofs6 TimelineProofs7 TimelineProofs8 TimelineProofs9.
Import ListNotations.
Local Open Scope Z_scope.

(* the members that only new segments change *)
Definition kept (t t' : timeline) : Prop :=
  t_id t' = t_id t /\ t_last_time t' = t_last_time t /\ t_conf t' = t_conf t /\ t_created t' = t_created t /\ same_static (t_m t) (t_m t').
Lemma kept_refl t : kept t t.
Proof. repeat split. Qed.

(* segments are removed from the front *)
Definition cut (c : chlist) (t : timeline) (k k' : nat) (V MV : list pview) (t' : timeline) : Prop :=
  st c t' (popn k V) (popn k' MV) /\ kept t t' /\ m_pindex (t_m t') + len (popn k' MV) = m_pindex (t_m t) + len MV.
Definition expired_cut (scale now : Z) (t : timeline) (V MV : list pview) (k k' : nat) : Prop :=
  (k, k') = expire scale now t (flat V) (flat MV).

Lemma inactive_good c scale now t min pid : wf (cl_list c) -> good c pid t ->
  exists t' min', t_inactive_remove c scale now t min = Some (t', min') /\ good c pid t' /\ t_id t' = t_id t /\ min' <= min /\
    (forall V MV, st c t V MV -> exists k k', cut c t k k' V MV t' /\ expired_cut scale now t V MV k k' /\ (forall x, In x (flat (popn k V)) -> min' <= s_index x) /\
       (min' = min \/ exists x, In x (flat (popn k V)) /\ s_index x = min')).
Proof.
  intros W (V & MV & S & LT & ID).
  destruct (t_inactive_ok c scale now t V MV min W S) as (t' & k & k' & G & S' & A1 & A2 & A3 & A4 & A5 & A6 & A7 & A8 & A9).
  exists t', (Z.min min (first_index (popn k V) min)). split; [exact G|]. split.
  { exists (popn k V), (popn k' MV). split; [exact S'|]. split; [eapply lt_popn; [eapply tok_nonempty; apply S|exact A2|exact LT]|]. intros i I. apply ID. apply A6. exact I. }
  split; [exact A1|]. split; [lia|]. intros V2 MV2 S2.
  destruct (t_inactive_ok c scale now t V2 MV2 min W S2) as (t2 & k2 & k2' & G2 & S2' & B1 & B2 & B3 & B4 & B5 & B6 & B7 & B8 & B9).
  rewrite G in G2. injection G2 as <- EM. exists k2, k2'. split; [split; [exact S2'|]; split; [repeat (split; [assumption|]); exact A5|exact B8]|]. split; [exact B9|]. rewrite EM. split.
  - intros x I. pose proof (first_index_le (popn k2 V2) min ltac:(auto) (tk_num _ _ _ (proj1 S2')) x I). lia.
  - unfold first_index. destruct (flat (popn k2 V2)) as [|x r] eqn:EF; [left; lia|]. destruct (Z_lt_dec (s_index x) min) as [Q|Q]; [right; exists x; split; [left; reflexivity|lia]|left; lia].
Qed.

Lemma cleanup_loop_ok c scale now pid : wf (cl_list c) -> forall tls min, (forall t, In t tls -> good c pid t) ->
  exists tls' min', cleanup_loop c scale now tls min = Some (tls', min') /\ min' <= min /\
    Forall2 (fun t t' => good c pid t' /\ t_id t' = t_id t /\ forall V MV, st c t V MV -> exists k k', cut c t k k' V MV t' /\ expired_cut scale now t V MV k k' /\
       (forall x, In x (flat (popn k V)) -> min' <= s_index x)) tls tls' /\
    (min' = min \/ exists t' V MV x, In t' tls' /\ st c t' V MV /\ In x (flat V) /\ s_index x = min').
Proof.
  intros W. induction tls as [|t tls IH]; intros min G.
  - exists [], min. split; [reflexivity|]. split; [lia|]. split; [constructor|]. auto.
  - cbn [cleanup_loop]. destruct (inactive_good c scale now t min pid W (G t (or_introl eq_refl))) as (t' & m1 & E & G' & I & M & H). rewrite E.
    destruct (IH m1 ltac:(intros; apply G; right; assumption)) as (tls' & m2 & E2 & M2 & F & X). rewrite E2.
    exists (t' :: tls'), m2. split; [reflexivity|]. split; [lia|]. split.
    + constructor; [|exact F]. split; [exact G'|]. split; [exact I|]. intros V MV S. destruct (H V MV S) as (k & k' & H1 & H2 & H3 & H4). exists k, k'. split; [exact H1|]. split; [exact H2|].
      intros x Ix. specialize (H3 x Ix). lia.
    + destruct X as [->|(t2 & V & MV & x & X1 & X2 & X3 & X4)].
      * destruct (G t (or_introl eq_refl)) as (V & MV & S & _). destruct (H V MV S) as (k & k' & H1 & H2 & H3 & [->|(x & Ix & Ex)]); [left; reflexivity|].
        right. exists t', (popn k V), (popn k' MV), x. split; [left; reflexivity|]. split; [apply H1|]. auto.
      * right. exists t2, V, MV, x. split; [right; exact X1|]. auto.
Qed.

Lemma cleanup_ok h now : cinv h -> exists h' b, cleanup h now = Some (h', b) /\ cinv h' /\
  (ch_active h = true -> h' = h /\ b = true) /\
  (ch_active h = false ->
     Forall2 (fun t t' => t_id t' = t_id t /\ forall V MV, st (ch_list h) t V MV -> exists k k', cut (ch_list h') t k k' V MV t' /\ expired_cut (ch_scale h) now t V MV k k' /\
        (forall x, In x (flat (popn k V)) -> ch_min h' <= s_index x)) (ch_tls h) (ch_tls h') /\
     (ch_min h' = ch_next h \/ exists t' V MV x, In t' (ch_tls h') /\ st (ch_list h') t' V MV /\ In x (flat V) /\ s_index x = ch_min h') /\ ch_min h' <= ch_next h /\
     b = negb (ch_min h' =? ch_next h) /\
     (exists dropped, segs (cl_list (ch_list h)) = dropped ++ segs (cl_list (ch_list h')) /\ (forall x, In x dropped -> s_index x < ch_min h')) /\
     ch_last h' = ch_last h /\ ch_pending h' = ch_pending h /\ ch_middle h' = ch_middle h /\ ch_truncate h' = ch_truncate h /\ ch_next h' = ch_next h /\ ch_active h' = ch_active h /\ ch_scale h' = ch_scale h).
Proof.
  intros CV. pose proof CV as [CW CT CI CL]. unfold cleanup. destruct (ch_active h) eqn:AC.
  { exists h, true. split; [reflexivity|]. split; [exact CV|]. split; [auto|discriminate]. }
  destruct (cleanup_loop_ok (ch_list h) (ch_scale h) now (ch_pid h) CW (ch_tls h) (ch_next h) CT) as (tls' & min' & E & M & F & X). rewrite E.
  destruct (free_segs (ch_list h) min' CW) as (WF & dr & DR & NE & DRM).
  eexists _, _. split; [reflexivity|].
  assert (LOW : forall t' V MV, In t' tls' -> st (ch_list h) t' V MV -> forall x, In x (flat V) -> min' <= s_index x).
  { intros t' V MV I S x Ix. destruct (Forall2_in_r _ _ _ _ F I) as (t & It & G & _ & H). destruct (CT t It) as (V0 & MV0 & S0 & _). destruct (H V0 MV0 S0) as (k & k' & (H1 & _) & _ & H3).
    pose proof (st_unique _ _ _ _ _ _ CW H1 S) as <-. apply H3. exact Ix. }
  split.
  - constructor; unfold free_old_segments, set_tls; cbn [ch_list ch_tls ch_pid ch_last]; auto.
    + intros t' I. destruct (Forall2_in_r _ _ _ _ F I) as (t & It & (V & MV & S & L & D) & _). exists V, MV. split; [apply st_free; [exact CW|eapply LOW; eauto|exact S]|]. auto.
    + rewrite (Forall2_ids _ _ _ F ltac:(intros x y Q; apply Q)). exact CI.
    + intros pre x Q. rewrite Q, app_assoc in DR. eapply CL. exact DR.
  - split; [discriminate|]. intros _. unfold free_old_segments, set_tls; cbn [ch_list ch_tls ch_pid ch_last ch_min ch_next ch_scale ch_pending ch_middle ch_truncate ch_active].
    split.
    { eapply Forall2_impl; [|exact F]. intros t t' I I' (H0 & H1 & H2). split; [exact H1|]. intros V MV S. destruct (H2 V MV S) as (k & k' & (Q1 & Q2 & Q3) & Q4 & Q5). exists k, k'.
      split; [|auto]. split; [apply st_free; [exact CW|exact Q5|exact Q1]|]. auto. }
    split.
    { destruct X as [->|(t' & V & MV & x & X1 & X2 & X3 & X4)]; [left; reflexivity|]. right. exists t', V, MV, x. split; [exact X1|]. split; [apply st_free; [exact CW|eapply LOW; eauto|exact X2]|]. auto. }
    split; [exact M|]. split; [reflexivity|]. split; [exists dr; auto|]. repeat split; auto.
Qed.

Lemma map_opt_ok {A} (f : A -> option A) (R : A -> A -> Prop) l : (forall x, In x l -> exists y, f x = Some y /\ R x y) -> exists l', map_opt f l = Some l' /\ Forall2 R l l'.
Proof.
  induction l as [|x l IH]; intros H; [exists []; split; [reflexivity|constructor]|]. cbn [map_opt]. destruct (H x (or_introl eq_refl)) as (y & -> & Q).
  destruct IH as (l' & -> & F); [intros z I; apply H; right; exact I|]. exists (y :: l'). split; [reflexivity|constructor; assumption].
Qed.

Definition trunc_cut (c : chlist) (index : Z) (t t' : timeline) : Prop :=
  t_id t' = t_id t /\ forall V MV, st c t V MV ->
    if c_no_trunc (t_conf t) then t' = t
    else cut c t (trim (after index) (flat V)) (trim (after index) (flat MV)) V MV t'.

Lemma truncate_ok h now index : cinv h -> exists h', truncate h now index = Some h' /\ cinv h' /\ ch_list h' = ch_list h /\ Forall2 (trunc_cut (ch_list h) index) (ch_tls h) (ch_tls h') /\
  ch_last h' = ch_last h /\ ch_pending h' = ch_pending h /\ ch_middle h' = ch_middle h /\ ch_truncate h' = index /\ ch_next h' = ch_next h /\ ch_min h' = ch_min h /\ ch_active h' = ch_active h /\ ch_scale h' = ch_scale h.
Proof.
  intros CV. pose proof CV as [CW CT CI CL]. unfold truncate.
  destruct (map_opt_ok (t_truncate (ch_list h) now index) (fun t t' => trunc_cut (ch_list h) index t t' /\ good (ch_list h) (ch_pid h) t') (ch_tls h)) as (tls' & E & F).
  { intros t I. pose proof (CT t I) as G0. destruct G0 as (V & MV & S & LT & ID). destruct (c_no_trunc (t_conf t)) eqn:NT.
    - exists t. unfold t_truncate. rewrite NT. split; [reflexivity|]. split; [split; [reflexivity|]; intros V2 MV2 S2; rewrite NT; reflexivity|exists V, MV; auto].
    - destruct (t_truncate_ok (ch_list h) now index t V MV CW S NT) as (t' & G & S' & A1 & A2 & A3 & A4 & A5 & A6 & A7 & A8). exists t'. split; [exact G|]. split.
      + split; [exact A1|]. intros V2 MV2 S2. rewrite NT. destruct (t_truncate_ok (ch_list h) now index t V2 MV2 CW S2 NT) as (t2 & G2 & S2' & B1 & B2 & B3 & B4 & B5 & B6 & B7 & B8).
        rewrite G in G2. injection G2 as <-. split; [exact S2'|]. split; [repeat (split; [assumption|]); exact A5|exact B8].
      + eexists _, _. split; [exact S'|]. split; [eapply lt_popn; [eapply tok_nonempty; apply S|exact A2|exact LT]|]. intros i Q. apply ID. apply A6. exact Q. }
  rewrite E. eexists. split; [reflexivity|]. split; [|cbn; repeat (split; auto)].
  - constructor; cbn [ch_list ch_tls ch_pid ch_last]; auto.
    + intros t' I. destruct (Forall2_in_r _ _ _ _ F I) as (t & _ & _ & G). exact G.
    + rewrite (Forall2_ids _ _ _ F ltac:(intros x y Q; apply Q)). exact CI.
  - eapply Forall2_impl; [|exact F]. intros t t' _ _ [Q _]. exact Q.
Qed.

Definition updated (c c' : chlist) (last d : Z) (t t' : timeline) : Prop :=
  t_id t' = t_id t /\ t_conf t' = t_conf t /\ t_created t' = t_created t /\ forall V MV, st c t V MV ->
    if ends_at V last then st c' t' (set_last V d) (set_last MV d) /\ t_last_time t' = t_last_time t + d /\
        (match MV with [] => t_m t' = t_m t | _ => m_post (t_m t) (t_m t') d end)
    else t' = t /\ st c' t V MV.

Lemma nonempty_last V : nonempty V -> forall V0 v, V = V0 ++ [v] -> exists q x, v_segs v = q ++ [x].
Proof.
  intros NE V0 v ->. apply Forall_app in NE as [_ NE]. inversion NE as [|? ? H _]; subst. destruct (exists_last H) as (q & x & E). exists q, x. exact E.
Qed.

Lemma update_last_segment_ok h d : cinv h -> 0 <= d -> exists h' r, update_last_segment h d = Some (h', r) /\ cinv h' /\
  (r <> RcOk -> h' = h) /\
  (r = RcOk -> ch_pending h = true /\ ch_pending h' = false /\ (exists pre x, segs (cl_list (ch_list h)) = pre ++ [x] /\ s_index x = ch_last h /\ s_dur x = 0 /\ segs (cl_list (ch_list h')) = pre ++ [mk_seg (s_index x) (s_time x) d]) /\
     Forall2 (updated (ch_list h) (ch_list h') (ch_last h) d) (ch_tls h) (ch_tls h') /\
     ch_last h' = ch_last h /\ ch_middle h' = ch_middle h /\ ch_truncate h' = ch_truncate h /\ ch_next h' = ch_next h /\ ch_min h' = ch_min h /\ ch_active h' = ch_active h /\ ch_scale h' = ch_scale h).
Proof.
  intros CV D. pose proof CV as [CW CT CI CL]. unfold update_last_segment. destruct (ch_pending h) eqn:CP; cbn [negb].
  2:{ exists h, RcError. split; [reflexivity|]. split; [exact CV|]. split; [auto|discriminate]. }
  destruct (update_last (cl_list (ch_list h)) d) as [l|] eqn:U.
  2:{ exists h, RcError. split; [reflexivity|]. split; [exact CV|]. split; [auto|discriminate]. }
  destruct (update_last_ok _ _ _ CW D U) as (W' & pre & x & E & EP & E'). unfold PENDING in EP.
  pose proof (CL _ _ E) as LX. set (c' := mk_cl l (cl_base (ch_list h))).
  destruct (map_opt_ok (update_one c' (ch_last h) d) (fun t t' => updated (ch_list h) c' (ch_last h) d t t' /\ good c' (ch_pid h) t') (ch_tls h)) as (tls' & EM & F).
  { intros t I. destruct (CT t I) as (V & MV & S & LT & ID). rewrite <- LX.
    destruct (update_one_ok (ch_list h) d l pre x CW D U E t V MV S) as (t' & G & A1 & A2 & A3 & A4 & A5 & A6). exists t'. split; [exact G|].
    assert (UP : updated (ch_list h) c' (s_index x) d t t').
    { split; [exact A1|]. split; [exact A2|]. split; [exact A3|]. intros V2 MV2 S2. destruct (update_one_ok (ch_list h) d l pre x CW D U E t V2 MV2 S2) as (t2 & G2 & B1 & B2 & B3 & B4 & B5 & B6).
      rewrite G in G2. injection G2 as <-. destruct (ends_at V2 (s_index x)); [|exact B6]. destruct B6 as (C1 & C2 & C3 & C4). split; [exact C1|]. split; [exact C2|].
      pose proof (m_dst _ _ _ _ _ (tk_per _ _ _ (proj1 S2)) (proj2 S2)) as DS.
      destruct MV2 as [|mv MV2]; [replace (0 <? m_count (t_m t)) with false in C3; [exact C3|]|replace (0 <? m_count (t_m t)) with true in C3; [exact C3|]].
      - pose proof (proj2 DS eq_refl). lia.
      - destruct (m_count (t_m t) <=? 0) eqn:Q; [|lia]. apply Z.leb_le in Q. pose proof (proj1 DS Q) as R. discriminate R. }
    split; [exact UP|]. destruct (ends_at V (s_index x)) eqn:EA.
    - destruct A6 as (C1 & C2 & C3 & (V0 & v & q & EV & EX)). exists (set_last V d), (set_last MV d). split; [exact C1|]. split.
      + intros V1 w q1 y Q1 Q2. rewrite C2, (LT V0 v q x EV EX). rewrite EV, set_last_snoc in Q1. apply app_inj_tail in Q1 as [_ <-]. cbn [v_segs v_corr] in *.
        rewrite EX, sld_snoc in Q2. apply app_inj_tail in Q2 as [_ <-]. unfold s_end. cbn. lia.
      + intros i Q. apply ID. rewrite <- A5. exact Q.
    - destruct A6 as [-> S']. exists V, MV. auto. }
  rewrite EM. eexists _, _. split; [reflexivity|]. split; [|split; [congruence|]].
  - constructor; cbn [ch_list ch_tls ch_pid ch_last]; auto.
    + intros t' I. destruct (Forall2_in_r _ _ _ _ F I) as (t & _ & _ & G). exact G.
    + rewrite (Forall2_ids _ _ _ F ltac:(intros u v Q; apply Q)). exact CI.
    + intros p y Q. cbn [cl_list c'] in Q. rewrite E' in Q. apply app_inj_tail in Q as [_ <-]. cbn. exact LX.
  - intros _. cbn [ch_list ch_tls ch_last ch_min ch_next ch_scale ch_pending ch_middle ch_truncate ch_active]. split; [reflexivity|]. split; [reflexivity|]. split; [exists pre, x; auto|]. split.
    + eapply Forall2_impl; [|exact F]. intros t t' _ _ [Q _]. exact Q.
    + repeat split.
Qed.

(* --- timelines are made, changed and removed --- *)
Lemma cinv_tls h tls : cinv h -> (forall t, In t tls -> good (ch_list h) (ch_pid h) t) -> NoDup (map t_id tls) -> cinv (set_tls h tls).
Proof. intros [CW CT CI CL] A B. constructor; unfold set_tls; cbn [ch_list ch_tls ch_pid ch_last]; auto. Qed.

Lemma put_ids t tls : map t_id (put_tl t tls) = map t_id tls.
Proof. unfold put_tl. rewrite map_map. apply map_ext_in. intros x _. destruct (Nat.eqb (t_id x) (t_id t)) eqn:E; [apply Nat.eqb_eq in E; auto|reflexivity]. Qed.
Lemma put_in t tls x : In x (put_tl t tls) -> x = t \/ In x tls.
Proof. unfold put_tl. intros I. apply in_map_iff in I as (y & E & I). destruct (Nat.eqb (t_id y) (t_id t)); subst; auto. Qed.
Lemma find_put t tls id : find_tl id (put_tl t tls) = if Nat.eqb id (t_id t) then option_map (fun _ => t) (find_tl id tls) else find_tl id tls.
Proof.
  unfold put_tl. induction tls as [|x r IH]; [destruct (Nat.eqb id (t_id t)); reflexivity|]. cbn [map find_tl]. destruct (Nat.eqb (t_id x) (t_id t)) eqn:E.
  - apply Nat.eqb_eq in E. destruct (Nat.eqb (t_id t) id) eqn:Q.
    + rewrite E, Q, Nat.eqb_sym, Q. reflexivity.
    + rewrite IH, E, Q, Nat.eqb_sym, Q. reflexivity.
  - destruct (Nat.eqb (t_id x) id) eqn:Q.
    + apply Nat.eqb_eq in Q. subst id. rewrite E. reflexivity.
    + exact IH.
Qed.

Lemma new_good c pid id cf mc next now : good c pid (new_tl id cf mc next now).
Proof.
  exists [], []. split; [|split; [intros V0 v q x Q; destruct V0; discriminate|intros i []]].
  split; [constructor; cbn; auto; constructor|repeat split].
Qed.
Lemma set_conf_good c pid t cf mc : good c pid t -> good c pid (set_conf t cf mc).
Proof.
  intros (V & MV & [[T1 T2 T3 T4 T5 T6 T7] M] & L & I). exists V, MV. split; [split; [constructor; assumption|exact M]|]. split; [exact L|exact I].
Qed.
Lemma set_conf_st c t cf mc V MV : st c t V MV -> st c (set_conf t cf mc) V MV.
Proof. intros [[T1 T2 T3 T4 T5 T6 T7] M]. split; [constructor; assumption|exact M]. Qed.

Lemma find_none id tls : find_tl id tls = None -> ~ In id (map t_id tls).
Proof.
  intros H I. apply in_map_iff in I as (t & E & I). revert H. induction tls as [|x r IH]; [destruct I|]. cbn [find_tl]. destruct (Nat.eqb (t_id x) id) eqn:Q; [discriminate|].
  destruct I as [->|I]; [rewrite E, Nat.eqb_refl in Q; discriminate|apply IH; exact I].
Qed.

Lemma create_ok h now id c mc h' : cinv h -> create h now id c mc = Some h' -> cinv h'.
Proof.
  intros CV. unfold create. destruct (conf_validate c mc) as [[c1 mc1]|]; [|discriminate]. destruct (find_tl id (ch_tls h)) eqn:F; [discriminate|]. intros Q. injection Q as <-.
  apply cinv_tls; [exact CV| |].
  - intros t I. apply in_app_or in I as [I|[<-|[]]]; [apply (ci_tls _ CV); exact I|apply new_good].
  - rewrite map_app. cbn [map t_id new_tl]. pose proof (find_none _ _ F) as N. pose proof (ci_ids _ CV) as D. revert D N. generalize (map t_id (ch_tls h)). clear. intros l D N.
    induction D as [|y l Ny D IH]; cbn; [constructor; [intros []|constructor]|]. constructor.
    + intros I. apply in_app_or in I as [I|[I|[]]]; [contradiction|]. subst. apply N. left. reflexivity.
    + apply IH. intros I. apply N. right. exact I.
Qed.
Lemma update_ok h id c mc h' : cinv h -> update h id c mc = Some h' -> cinv h'.
Proof.
  intros CV. unfold update. destruct (conf_validate c mc) as [[c1 mc1]|]; [|discriminate]. destruct (find_tl id (ch_tls h)) eqn:F; [|discriminate]. intros Q. injection Q as <-.
  apply cinv_tls; [exact CV| |rewrite put_ids; apply CV].
  intros x I. apply put_in in I as [->|I]; [apply set_conf_good|]; apply (ci_tls _ CV); [eapply find_in; exact F|exact I].
Qed.
Lemma NoDup_map_filter {A} (f : A -> nat) (p : A -> bool) l : NoDup (map f l) -> NoDup (map f (filter p l)).
Proof.
  induction l as [|x l IH]; cbn; intros H; [constructor|]. inversion H as [|? ? N D]; subst. destruct (p x); cbn; [|apply IH; exact D]. constructor; [|apply IH; exact D].
  intros I. apply N. apply in_map_iff in I as (y & <- & I). apply filter_In in I as [I _]. apply in_map. exact I.
Qed.
Lemma remove_ok h id : cinv h -> cinv (remove h id).
Proof.
  intros CV. apply cinv_tls; [exact CV| |apply NoDup_map_filter; apply CV]. intros t I. apply filter_In in I as [I _]. apply (ci_tls _ CV). exact I.
Qed.

Lemma get_ok h now id : cinv h -> (get h now id = Some None /\ find_tl id (ch_tls h) = None) \/
  exists t h' t', find_tl id (ch_tls h) = Some t /\ get h now id = Some (Some (h', t')) /\ cinv h' /\ ch_list h' = ch_list h /\ find_tl id (ch_tls h') = Some t' /\ t_id t' = id /\
    (forall id', id' <> id -> find_tl id' (ch_tls h') = find_tl id' (ch_tls h)) /\
    (if c_active (t_conf t) && ch_active h then h' = h /\ t' = t
     else forall V MV, st (ch_list h) t V MV -> exists k k', cut (ch_list h) t k k' V MV t' /\ expired_cut (ch_scale h) now t V MV k k').
Proof.
  intros CV. unfold get. destruct (find_tl id (ch_tls h)) as [t|] eqn:F; [|left; auto]. right. destruct (find_in _ _ _ F) as [It Ei].
  exists t. destruct (negb (c_active (t_conf t)) || negb (ch_active h)) eqn:Q.
  - destruct (inactive_good (ch_list h) (ch_scale h) now t 0 (ch_pid h) (ci_wf _ CV) (ci_tls _ CV t It)) as (t' & m & E & G & I & _ & H). rewrite E.
    exists (set_tls h (put_tl t' (ch_tls h))), t'. split; [reflexivity|]. split; [reflexivity|]. split.
    { apply cinv_tls; [exact CV| |rewrite put_ids; apply CV]. intros x Ix. apply put_in in Ix as [->|Ix]; [exact G|apply (ci_tls _ CV); exact Ix]. }
    cbn [set_tls ch_list ch_tls]. split; [reflexivity|]. split; [rewrite find_put, I, Ei, Nat.eqb_refl, F; reflexivity|]. split; [congruence|]. split.
    { intros id' N. rewrite find_put, I, Ei. destruct (Nat.eqb id' id) eqn:B; [apply Nat.eqb_eq in B; contradiction|reflexivity]. }
    replace (c_active (t_conf t) && ch_active h) with false by lia. intros V MV S. destruct (H V MV S) as (k & k' & H1 & H2 & _). exists k, k'. auto.
  - exists h, t. split; [reflexivity|]. split; [reflexivity|]. split; [exact CV|]. split; [reflexivity|]. split; [exact F|]. split; [exact Ei|]. split; [auto|].
    replace (c_active (t_conf t) && ch_active h) with true by lia. auto.
Qed.
