(* The timelines of a channel. *)
From Coq Require Import List ZArith Bool Lia ZifyBool ZifyNat.
From Verif Require Import SegListModel SegListSpec SegListProofs SegListProofs2 SegListProofs3 TimelineModel TimelineSpec TimelineProofs TimelineProofs2 TimelineProofs3
  TimelineProofs4 TimelineProofs5 TimelineProofs6 TimelineProofs7 TimelineProofs8.
Import ListNotations.
Local Open Scope Z_scope.

Definition good (c : chlist) (pid : nat) (t : timeline) : Prop := exists V MV, st c t V MV /\ lt_ok t V /\ ids_below t pid.

Lemma st_unique c t V MV V2 MV2 : wf (cl_list c) -> st c t V MV -> st c t V2 MV2 -> V = V2.
Proof. intros W S S2. pose proof (tl_view_ok _ _ _ W (proj1 S)). pose proof (tl_view_ok _ _ _ W (proj1 S2)). congruence. Qed.

Lemma st_in c t V MV s : st c t V MV -> In s (flat V) -> In s (segs (cl_list c)).
Proof.
  intros [T _] I. pose proof (tk_per _ _ _ T) as P. unfold flat in I. apply in_flat_map in I as (w & Iw & Is). clear - P Iw Is.
  induction P as [|p u ps V R _ IH]; [destruct Iw|]. destruct Iw as [->|Iw]; [eapply pok_in; [apply R|exact Is]|apply IH; exact Iw].
Qed.

Definition one (c : chlist) (scale middle now : Z) (s : seg) (force : bool) (failed : bool) (min' : Z) (t t' : timeline) (e : bool) : Prop :=
  t_id t' = t_id t /\ forall V MV, st c t V MV -> lt_ok t V -> (forall x, In x (flat V) -> s_index x < s_index s) ->
    (exists V' MV' alloc f, st c t' V' MV' /\ (failed = false -> forall x, In x (flat V') -> min' <= s_index x) /\ (failed = false -> f = false) /\
       outcome scale middle now s force alloc t V MV t' V' MV' e f) \/
    (failed = true /\ t' = t /\ e = false).

Lemma ids_below_le t a b : (a <= b)%nat -> ids_below t a -> ids_below t b.
Proof. intros L I i Q. apply I in Q. lia. Qed.

Lemma add_loop_ok c scale middle now s force now_segs : wf (cl_list c) -> segs (cl_list c) = now_segs ++ [s] ->
  forall tls allocs pid min, (forall t, In t tls -> good c pid t /\ forall V MV, st c t V MV -> forall x, In x (flat V) -> s_index x < s_index s) ->
  exists res min' pid' failed, add_loop c scale middle now allocs pid (s_time s) (s_index s) (s_dur s) force tls min =
      Some (map fst res, min', existsb snd res, pid', failed) /\
    min' <= min /\ (pid <= pid')%nat /\ Forall2 (fun t r => one c scale middle now s force failed min' t (fst r) (snd r) /\ good c pid' (fst r)) tls res /\
    (failed = false -> min' = min \/ exists r V' MV' x, In r res /\ st c (fst r) V' MV' /\ In x (flat V') /\ s_index x = min').
Proof.
  intros W E. induction tls as [|t tls IH]; intros allocs pid min G.
  - exists [], min, pid, false. cbn. split; [reflexivity|]. split; [lia|]. split; [lia|]. split; [constructor|]. auto.
  - destruct (G t (or_introl eq_refl)) as ((V & MV & S & LT & ID) & LE). cbn [add_loop].
    destruct (add_one_ok c scale middle now (hd true allocs) pid s force t V MV min now_segs W E S LT (LE _ _ S) ID)
      as (t' & min1 & ex & pid1 & f & V' & MV' & A & S' & LT' & ID' & PI & TI & M1 & M2 & M3 & O).
    rewrite A. destruct f.
    + (* no memory *)
      exists ((t', ex) :: map (fun t => (t, false)) tls), min1, pid1, true. cbn [map fst existsb snd]. rewrite map_map. cbn [fst]. rewrite map_id.
      split; [f_equal; f_equal; f_equal; f_equal|].
      { replace (existsb snd (map (fun t0 => (t0, false)) tls)) with false; [rewrite orb_false_r; reflexivity|]. clear. induction tls as [|x r IHr]; [reflexivity|exact IHr]. }
      split; [exact M1|]. split; [exact PI|]. split; [|discriminate]. constructor.
      * cbn [fst snd]. split; [|exists V', MV'; auto]. split; [exact TI|]. intros V2 MV2 S2 LT2 LE2.
        destruct (add_one_ok c scale middle now (hd true allocs) pid s force t V2 MV2 min now_segs W E S2 LT2 LE2 ID) as (t2 & min2 & ex2 & pid2 & f2 & V3 & MV3 & A2 & S3 & _ & _ & _ & _ & _ & _ & _ & O2).
        rewrite A in A2. injection A2 as <- <- <- <- <-. left. exists V3, MV3, (hd true allocs), true. split; [exact S3|]. split; [discriminate|]. split; [discriminate|exact O2].
      * clear IH. assert (GT : forall t0, In t0 tls -> good c pid t0) by (intros t0 I; apply G; right; exact I). clear - GT PI. induction tls as [|x r IHr]; [constructor|]. cbn [map]. constructor.
        -- cbn [fst snd]. split; [split; [reflexivity|]; intros; right; auto|]. destruct (GT x (or_introl eq_refl)) as (Vx & MVx & Sx & Lx & Ix). exists Vx, MVx. split; [exact Sx|]. split; [exact Lx|]. eapply ids_below_le; eauto.
        -- apply IHr. intros t0 I. apply GT. right. exact I.
    + destruct (IH (tl allocs) pid1 min1) as (res & min' & pid' & failed & B & N1 & N2 & N3 & N4).
      { intros t0 I. destruct (G t0 (or_intror I)) as ((V0 & MV0 & S0 & L0 & I0) & LE0). split; [|exact LE0]. exists V0, MV0. split; [exact S0|]. split; [exact L0|]. eapply ids_below_le; eauto. }
      rewrite B. exists ((t', ex) :: res), min', pid', failed. cbn [map fst existsb snd]. split; [reflexivity|]. split; [lia|]. split; [lia|]. split.
      * constructor; [|exact N3]. cbn [fst snd]. split; [|exists V', MV'; split; [exact S'|]; split; [exact LT'|]; eapply ids_below_le; [exact N2|exact ID']].
        split; [exact TI|]. intros V2 MV2 S2 LT2 LE2.
        destruct (add_one_ok c scale middle now (hd true allocs) pid s force t V2 MV2 min now_segs W E S2 LT2 LE2 ID) as (t2 & min2 & ex2 & pid2 & f2 & V3 & MV3 & A2 & S3 & _ & _ & _ & _ & _ & Q2 & _ & O2).
        rewrite A in A2. injection A2 as <- <- <- <- <-. left. exists V3, MV3, (hd true allocs), false. split; [exact S3|].
        split; [intros _ x I; specialize (Q2 eq_refl x I); lia|]. split; [reflexivity|exact O2].
      * intros F. destruct (N4 F) as [->|(r & Vr & MVr & x & I & Sr & Ix & Ex)].
        -- destruct (M3 eq_refl) as [->|(x & I & Q)]; [left; reflexivity|]. right. exists (t', ex), V', MV', x. split; [left; reflexivity|]. auto.
        -- right. exists r, Vr, MVr, x. split; [right; exact I|]. auto.
Qed.

(* --- the invariant of a channel --- *)
Record cinv (h : channel) : Prop := mk_cinv {
  ci_wf : wf (cl_list (ch_list h));
  ci_tls : forall t, In t (ch_tls h) -> good (ch_list h) (ch_pid h) t;
  ci_ids : NoDup (map t_id (ch_tls h));
  ci_last : forall pre x, segs (cl_list (ch_list h)) = pre ++ [x] -> s_index x = ch_last h }.

Lemma seg_add_segs l alloc i t d l' : wf l -> 0 <= d -> (forall s, In s (segs l) -> s_index s < i) -> seg_add l alloc i t d = Some l' ->
  wf l' /\ segs l' = segs l ++ [mk_seg i t d].
Proof.
  intros W D L H. apply (seg_add_ok l alloc i t d l'); auto. intros q y E. destruct (last_node_seg _ _ _ W E) as (p & s & E1 & E2 & _). rewrite <- E2. apply L. rewrite E1. apply in_or_app. right. left. reflexivity.
Qed.

Lemma free_segs c min : wf (cl_list c) -> wf (cl_list (cl_free c min)) /\ exists dropped, segs (cl_list c) = dropped ++ segs (cl_list (cl_free c min)) /\
  (segs (cl_list c) <> [] -> segs (cl_list (cl_free c min)) <> []) /\ (forall s, In s dropped -> s_index s < min).
Proof.
  intros W. destruct (free_nodes_ok _ min W) as (W' & dn & kn & N1 & N2 & N3 & N4 & N5). cbn [cl_free cl_list]. split; [exact W'|]. exists (segs_of dn).
  unfold segs. rewrite N3, N1, segs_of_app. split; [reflexivity|]. split.
  - intros NE Q. destruct W as (W1 & _). rewrite N1 in W1. apply Forall_app in W1 as [W1 W2]. destruct kn as [|k kn].
    + apply NE. rewrite app_nil_r. rewrite N1, app_nil_r in N2. destruct dn; [reflexivity|]. exfalso. apply N2; [discriminate|reflexivity].
    + inversion W2 as [|? ? Wk _]; subst. destruct (node_first k Wk) as (f & fr & F1 & _). cbn in Q. rewrite F1 in Q. discriminate.
  - intros s I. unfold segs_of in I. apply in_flat_map in I as (n & In' & Is). rewrite Forall_forall in N5. specialize (N5 n In').
    destruct W as (W1 & _). rewrite N1 in W1. apply Forall_app in W1 as [W1 _]. rewrite Forall_forall in W1. specialize (W1 n In').
    destruct (node_segs_last n W1) as (x & p & A & B & C). pose proof (expand_numbered (n_elts n) (n_key n) (n_time n) ltac:(apply W1)) as NU. fold (node_segs n) in NU. rewrite A in NU, Is.
    apply in_app_or in Is as [Is|[<-|[]]]; [|lia]. apply in_split in Is as (a & b & ->). rewrite <- app_assoc in NU. cbn [app] in NU.
    pose proof (numbered_lt _ _ _ x NU ltac:(apply in_or_app; right; left; reflexivity)). lia.
Qed.

Lemma in_find t tls : NoDup (map t_id tls) -> In t tls -> find_tl (t_id t) tls = Some t.
Proof.
  induction tls as [|x r IH]; intros N I; [destruct I|]. cbn [map] in N. inversion N as [|? ? N1 N2]; subst. cbn [find_tl]. destruct I as [->|I].
  - rewrite Nat.eqb_refl. reflexivity.
  - destruct (Nat.eqb (t_id x) (t_id t)) eqn:E; [|apply IH; auto]. apply Nat.eqb_eq in E. exfalso. apply N1. rewrite E. apply in_map. exact I.
Qed.
Lemma find_in id tls t : find_tl id tls = Some t -> In t tls /\ t_id t = id.
Proof.
  induction tls as [|x r IH]; cbn [find_tl]; [discriminate|]. destruct (Nat.eqb (t_id x) id) eqn:E.
  - intros H. injection H as <-. apply Nat.eqb_eq in E. split; [left; reflexivity|exact E].
  - intros H. destruct (IH H) as [A B]. split; [right; exact A|exact B].
Qed.


Lemma Forall2_map_r {A B C} (R : A -> B -> Prop) (g : C -> B) a l : Forall2 (fun x y => R x (g y)) a l -> Forall2 R a (map g l).
Proof. induction 1; cbn; constructor; auto. Qed.
Lemma Forall2_impl {A B} (R S : A -> B -> Prop) a b : (forall x y, In x a -> In y b -> R x y -> S x y) -> Forall2 R a b -> Forall2 S a b.
Proof.
  intros H F. induction F as [|x y a b Q _ IH]; constructor; [apply H; cbn; auto|]. apply IH. intros u v I J. apply H; cbn; auto.
Qed.
Lemma Forall2_in_r {A B} (R : A -> B -> Prop) a b y : Forall2 R a b -> In y b -> exists x, In x a /\ R x y.
Proof. induction 1 as [|u v a b H _ IH]; intros I; [destruct I|]. destruct I as [->|I]; [exists u; cbn; auto|]. destruct (IH I) as (x & A1 & A2). exists x. cbn. auto. Qed.
Lemma Forall2_ids (R : timeline -> timeline -> Prop) a b : Forall2 R a b -> (forall x y, R x y -> t_id y = t_id x) -> map t_id b = map t_id a.
Proof. intros F H. induction F as [|x y a b Q _ IH]; [reflexivity|]. cbn. rewrite (H _ _ Q), IH. reflexivity. Qed.

Definition added (h h' : channel) (middle now : Z) (s : seg) (force : bool) (t t' : timeline) (e : bool) : Prop :=
  t_id t' = t_id t /\ forall V MV, st (ch_list h) t V MV -> lt_ok t V ->
    exists V' MV' alloc, st (ch_list h') t' V' MV' /\ (forall x, In x (flat V') -> ch_min h' <= s_index x) /\
       outcome (ch_scale h) middle now s force alloc t V MV t' V' MV' e false.

Lemma add_segment_ok h now nalloc allocs s force : cinv h -> 0 <= s_dur s -> (forall x, In x (segs (cl_list (ch_list h))) -> s_index x < s_index s) -> ch_next h <= s_index s ->
  exists h' r, add_segment h now nalloc allocs (s_time s) (s_index s) (s_dur s) force = Some (h', r) /\ cinv h' /\
    (r = RcError -> h' = h \/
       exists failed, failed = true /\ segs (cl_list (ch_list h')) = segs (cl_list (ch_list h)) ++ [s] /\
         Forall2 (fun t t' => exists e, one (ch_list h') (ch_scale h) (s_time s + s_dur s / 2) now s force failed 0 t t' e) (ch_tls h) (ch_tls h')) /\
    (r <> RcError ->
       ch_pending h = false /\ ch_pending h' = (s_dur s =? PENDING) /\ ch_last h' = s_index s /\ ch_middle h' = s_time s + s_dur s / 2 /\
       (exists dropped, segs (cl_list (ch_list h)) ++ [s] = dropped ++ segs (cl_list (ch_list h')) /\ (forall x, In x dropped -> s_index x < ch_min h')) /\
       (exists res, ch_tls h' = map fst res /\ Forall2 (fun t r => added h h' (s_time s + s_dur s / 2) now s force t (fst r) (snd r)) (ch_tls h) res /\ r = (if existsb snd res then RcOk else RcDone)) /\
       (ch_min h' = ch_next h \/ exists t' V' MV' x, In t' (ch_tls h') /\ st (ch_list h') t' V' MV' /\ In x (flat V') /\ s_index x = ch_min h') /\
       ch_next h' = ch_next h /\ ch_active h' = ch_active h /\ ch_scale h' = ch_scale h /\ ch_truncate h' = ch_truncate h).
Proof.
  intros [CW CT CI CL] D LE NX. unfold add_segment. destruct (ch_pending h) eqn:CP.
  { exists h, RcError. split; [reflexivity|]. split; [constructor; auto|]. split; [auto|]. intros Q. contradiction. }
  destruct (seg_add (cl_list (ch_list h)) nalloc (s_index s) (s_time s) (s_dur s)) as [l|] eqn:A.
  2:{ exists h, RcError. split; [reflexivity|]. split; [constructor; auto|]. split; [auto|]. intros Q. contradiction. }
  destruct (seg_add_segs _ _ _ _ _ _ CW D LE A) as [W' S']. set (c := mk_cl l (cl_base (ch_list h))).
  replace (mk_seg (s_index s) (s_time s) (s_dur s)) with s in S' by (destruct s; reflexivity).
  assert (TR : forall t V MV, st (ch_list h) t V MV -> st c t V MV) by (intros; eapply st_add; eauto).
  assert (LT0 : forall t V MV, In t (ch_tls h) -> st c t V MV -> forall x, In x (flat V) -> s_index x < s_index s).
  { intros t V MV I S x Ix. destruct (CT t I) as (V0 & MV0 & S0 & _). pose proof (st_unique c t _ _ _ _ W' (TR _ _ _ S0) S) as ->. apply LE. eapply st_in; eauto. }
  destruct (add_loop_ok c (ch_scale h) (s_time s + s_dur s / 2) now s force (segs (cl_list (ch_list h))) W' S' (ch_tls h) allocs (ch_pid h) (ch_next h))
    as (res & min' & pid' & failed & B & M1 & PI & F & MM).
  { intros t I. split; [destruct (CT t I) as (V0 & MV0 & S0 & L0 & I0); exists V0, MV0; auto|]. intros V MV S. eapply LT0; eauto. }
  cbv zeta. rewrite B.
  assert (IDS : map t_id (map fst res) = map t_id (ch_tls h)).
  { clear - F. induction F as [|t r tls res [[H _] _] _ IH]; [reflexivity|]. cbn. rewrite H, IH. reflexivity. }
  assert (LAST : forall pre x, segs l = pre ++ [x] -> s_index x = s_index s) by (intros pre x Q; rewrite S' in Q; apply app_inj_tail in Q as [_ <-]; reflexivity).
  destruct failed.
  - eexists _, RcError. split; [reflexivity|]. split; [|split; [|contradiction]].
    + constructor; cbn [ch_list ch_tls ch_pid ch_last]; auto.
      * intros t I. apply in_map_iff in I as (r & <- & I). destruct (Forall2_in_r _ _ _ _ F I) as (t0 & _ & _ & G). exact G.
      * rewrite IDS. exact CI.
    + intros _. right. exists true. split; [reflexivity|]. cbn [ch_list ch_tls]. split; [exact S'|]. apply Forall2_map_r. eapply Forall2_impl; [|exact F]. intros t r _ _ [(H1 & H2) _]. exists (snd r).
      split; [exact H1|]. intros V MV SV LV LX. destruct (H2 V MV SV LV LX) as [(V' & MV' & al & f & Q1 & Q2 & Q3 & Q4)|Q]; [|right; exact Q].
      left. exists V', MV', al, f. split; [exact Q1|]. split; [discriminate|]. split; [discriminate|exact Q4].
  - set (h1 := mk_ch c (map fst res) _ _ _ _ _ _ _ _ _). destruct (free_segs c min' W') as (WF & dr & DR & NE & DRM).
    assert (FST : forall (r : timeline * bool) V' MV', st c (fst r) V' MV' -> (forall x, In x (flat V') -> min' <= s_index x) -> st (cl_free c min') (fst r) V' MV') by (intros; apply st_free; auto).
    assert (MIN : forall (r : timeline * bool) V' MV', In r res -> st c (fst r) V' MV' -> forall x, In x (flat V') -> min' <= s_index x).
    { intros r V' MV' I S x Ix. destruct (Forall2_in_r _ _ _ _ F I) as (t0 & I0 & (_ & H) & _). destruct (CT t0 I0) as (V0 & MV0 & S0 & L0 & _).
      destruct (H V0 MV0 (TR _ _ _ S0) L0 (LT0 _ _ _ I0 (TR _ _ _ S0))) as [(V2 & MV2 & al & f & Q1 & Q2 & _)|[Q _]]; [|discriminate].
      pose proof (st_unique c _ _ _ _ _ W' Q1 S) as ->. apply Q2; auto. }
    eexists _, _. split; [reflexivity|]. split; [|split].
    + constructor; unfold free_old_segments, h1; cbn [ch_list ch_tls ch_pid ch_last].
      * exact WF.
      * intros t I. apply in_map_iff in I as (r & <- & I). destruct (Forall2_in_r _ _ _ _ F I) as (t0 & _ & _ & (V' & MV' & S1 & L1 & I1)). exists V', MV'.
        split; [apply FST; [exact S1|eapply MIN; eauto]|]. auto.
      * rewrite IDS. exact CI.
      * intros pre x Q. cbn [cl_list c] in DR. rewrite Q, app_assoc in DR. eapply LAST. exact DR.
    + destruct (existsb snd res); discriminate.
    + intros _. unfold free_old_segments, h1; cbn [ch_list ch_tls ch_pid ch_last ch_pending ch_middle ch_min ch_next ch_active ch_scale ch_truncate].
      split; [reflexivity|]. split; [reflexivity|]. split; [reflexivity|]. split; [reflexivity|]. split.
      { exists dr. split; [|exact DRM]. rewrite <- S'. exact DR. }
      split.
      { exists res. split; [reflexivity|]. split; [|reflexivity]. eapply Forall2_impl; [|exact F]. intros t r I J [(H1 & H2) _]. split; [exact H1|]. intros V MV SV LV. cbn [ch_list ch_min ch_scale].
        destruct (H2 V MV (TR _ _ _ SV) LV (LT0 _ _ _ I (TR _ _ _ SV))) as [(V' & MV' & al & f & Q1 & Q2 & Q3 & Q4)|[Q _]]; [|discriminate].
        rewrite (Q3 eq_refl) in Q4. exists V', MV', al. split; [apply FST; [exact Q1|apply Q2; reflexivity]|]. split; [apply Q2; reflexivity|exact Q4]. }
      split; [|repeat split]. destruct (MM eq_refl) as [->|(r & V' & MV' & x & I & S & Ix & Ex)]; [left; reflexivity|]. right. exists (fst r), V', MV', x.
      split; [apply in_map; exact I|]. split; [apply FST; [exact S|eapply MIN; eauto]|]. auto.
Qed.
