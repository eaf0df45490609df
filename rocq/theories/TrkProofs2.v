(* The invariant of the tracks, and the writing of a frame. *)

From Coq Require Import List ZArith Lia Bool Arith Sorted.
From Coq Require Import ZifyBool ZifyNat.
From Verif Require Import TrkModel TrkSpec TrkProofs.
Import ListNotations.
Open Scope Z_scope.

Definition metas (u : ups) : list bool := map s_meta (u_streams u).
Definition sids (u : ups) : list nat := map t_sid (u_tracks u).

Definition rdyb (ms : list bool) (sid : nat) : bool := match nth_error ms sid with Some b => b | None => false end.
Definition some {A} (l : list A) : bool := match l with [] => false | _ => true end.

Definition gv (key : track -> Z) (ms : list bool) (t : track) : option Z :=
  if rdyb ms (t_sid t) && some (content (t_fl t)) then Some (key t) else None.
Definition g (key : track -> Z) (u : ups) (i : nat) : option Z :=
  match nth_error (u_tracks u) i with Some t => gv key (metas u) t | None => None end.

Definition tk_ok (n : nat) (t : track) : Prop :=
  wf (t_fl t) /\ (t_sid t < n)%nat /\
  (forall f r, content (t_fl t) = f :: r -> t_dkey t = ukey (f_dts f) /\ Z.abs (f_added f - t_akey t) <= 100) /\
  (t_input t = true \/ content (t_fl t) <> [] -> t_active t = true).

Definition live_ok (t : track) (s : stream) : Prop :=
  t_active t = true -> s_live s = true /\ (s_meta s = true \/ s_timer s <> None).

Definition inv (u : ups) : Prop :=
  (forall i t, nth_error (u_tracks u) i = Some t -> tk_ok (length (u_streams u)) t) /\
  tree_ok (u_dts u) (g t_dkey u) /\ tree_ok (u_added u) (g t_akey u) /\
  (forall i t s, nth_error (u_tracks u) i = Some t -> nth_error (u_streams u) (t_sid t) = Some s -> live_ok t s).

Lemma map_upd {A B} (f : A -> B) (x : A) : forall l i, map f (upd l i x) = upd (map f l) i (f x).
Proof. induction l as [|a r IH]; intros [|i]; cbn; try reflexivity. rewrite IH. reflexivity. Qed.

Lemma upd_same {A} (x : A) : forall l i, nth_error l i = Some x -> upd l i x = l.
Proof. induction l as [|a r IH]; intros [|i] H; cbn in *; try reflexivity; try discriminate; [congruence|]. rewrite IH; auto. Qed.

Lemma ready_b u i : ready u i <-> exists sid, nth_error (sids u) i = Some sid /\ rdyb (metas u) sid = true.
Proof.
  unfold ready, sids, rdyb, metas. split.
  - intros (t & s & H1 & H2 & H3). exists (t_sid t). rewrite nth_error_map, H1. split; [reflexivity|]. rewrite nth_error_map, H2. exact H3.
  - intros (sid & H1 & H2). rewrite nth_error_map in H1. destruct (nth_error (u_tracks u) i) as [t|] eqn:E; [|discriminate].
    injection H1 as <-. rewrite nth_error_map in H2. destruct (nth_error (u_streams u) (t_sid t)) as [s|] eqn:E2; [|discriminate].
    exists t, s. auto.
Qed.

Lemma g_upd key u u' i t t' : u_tracks u' = upd (u_tracks u) i t' -> metas u' = metas u -> nth_error (u_tracks u) i = Some t ->
  forall j, g key u' j = if (j =? i)%nat then gv key (metas u) t' else g key u j.
Proof.
  intros ET EM HT j. unfold g. rewrite ET, EM, upd_nth, HT. destruct (j =? i)%nat; reflexivity.
Qed.

(* what an event other than a change of streams leaves as it is *)
Definition same (u u' : ups) : Prop := metas u' = metas u /\ sids u' = sids u.

Lemma same_refl u : same u u. Proof. split; reflexivity. Qed.
Lemma same_trans a b c : same a b -> same b c -> same a c. Proof. intros (A1 & A2) (B1 & B2). split; congruence. Qed.

Lemma same_ready u u' i : same u u' -> ready u' i <-> ready u i.
Proof. intros (A & B). rewrite !ready_b, A, B. reflexivity. Qed.

Lemma metas_upd u sid s s' : nth_error (u_streams u) sid = Some s -> s_meta s' = s_meta s ->
  map s_meta (upd (u_streams u) sid s') = metas u.
Proof. intros H E. rewrite map_upd. apply upd_same. unfold metas. rewrite nth_error_map, H. cbn. congruence. Qed.

Lemma sids_upd u i t t' : nth_error (u_tracks u) i = Some t -> t_sid t' = t_sid t -> map t_sid (upd (u_tracks u) i t') = sids u.
Proof. intros H E. rewrite map_upd. apply upd_same. unfold sids. rewrite nth_error_map, H. cbn. congruence. Qed.

Lemma pend_upd u u' i t t' : u_tracks u' = upd (u_tracks u) i t' -> nth_error (u_tracks u) i = Some t ->
  forall j, pend u' j = if (j =? i)%nat then content (t_fl t') else pend u j.
Proof. intros ET HT j. unfold pend. rewrite ET, upd_nth, HT. destruct (j =? i)%nat; reflexivity. Qed.

(* ---- closing a track ---- *)

Lemma close_ok u i t : inv u -> nth_error (u_tracks u) i = Some t -> t_input t = false -> content (t_fl t) = [] ->
  exists u', close u i t true = Go u' /\ inv u' /\ same u u' /\ (forall j, pend u' j = pend u j) /\ u_timer u' = u_timer u /\ u_out u' = u_out u /\
    (forall j t', nth_error (u_tracks u') j = Some t' -> exists t0, nth_error (u_tracks u) j = Some t0 /\ t_input t' = t_input t0 /\ t_media t' = t_media t0).
Proof.
  intros (I1 & I2 & I3 & I4) HT HI HC. unfold close.
  set (t' := set_active t false). set (ts := upd (u_tracks u) i t').
  destruct (I1 i t HT) as (T1 & T2 & T3 & T4).
  assert (TK : forall n, (length (u_streams u) = n)%nat -> forall j x, nth_error ts j = Some x -> tk_ok n x).
  { intros n <- j x HX. unfold ts in HX. rewrite upd_nth, HT in HX. destruct (j =? i)%nat; [|exact (I1 j x HX)]. injection HX as <-.
    split; [exact T1|]. split; [exact T2|]. split; [exact T3|]. cbn. intros [H|H]; congruence. }
  assert (SM : map t_sid ts = sids u) by (apply (sids_upd u i t t' HT); reflexivity).
  assert (IN : forall j x, nth_error ts j = Some x -> exists t0, nth_error (u_tracks u) j = Some t0 /\ t_input x = t_input t0 /\ t_media x = t_media t0).
  { intros j x HX. unfold ts in HX. rewrite upd_nth, HT in HX. destruct (j =? i)%nat eqn:C; [|exists x; auto]. injection HX as <-. replace j with i by lia. exists t. auto. }
  assert (GE : forall key, key t' = key t -> forall u', u_tracks u' = ts -> metas u' = metas u -> forall j, g key u' j = g key u j).
  { intros key EK u' ET EM j. rewrite (g_upd key u u' i t t' ET EM HT). destruct (j =? i)%nat eqn:C; [|reflexivity].
    replace j with i by lia. unfold g. rewrite HT. unfold gv. cbn [t' set_active t_sid t_fl]. rewrite HC, EK. reflexivity. }
  assert (PE : forall u', u_tracks u' = ts -> forall j, pend u' j = pend u j).
  { intros u' ET j. rewrite (pend_upd u u' i t t' ET HT). destruct (j =? i)%nat eqn:C; [|reflexivity]. replace j with i by lia. unfold pend. rewrite HT. reflexivity. }
  destruct (existsb _ ts) eqn:EX.
  - eexists. split; [reflexivity|]. split; [|split; [split; [reflexivity|exact SM]|split; [apply PE; reflexivity|split; [reflexivity|split; [reflexivity|exact IN]]]]].
    split; [apply TK; reflexivity|]. split; [eapply tree_ext; [exact I2|apply GE; reflexivity]|]. split; [eapply tree_ext; [exact I3|apply GE; reflexivity]|].
    intros j x s HX HS HA. cbn [set_tracks u_tracks u_streams] in *. unfold ts in HX. rewrite upd_nth, HT in HX. destruct (j =? i)%nat.
    + injection HX as <-. discriminate.
    + exact (I4 j x s HX HS HA).
  - destruct (nth_error (u_streams u) (t_sid t)) as [s|] eqn:ES.
    2: { apply nth_error_None in ES. lia. }
    eexists. split; [reflexivity|].
    set (s' := Stream (s_meta s) false None).
    assert (ME : map s_meta (upd (u_streams u) (t_sid t) s') = metas u) by (apply (metas_upd u _ s s' ES); reflexivity).
    split; [|split; [split; [exact ME|exact SM]|split; [apply PE; reflexivity|split; [reflexivity|split; [reflexivity|exact IN]]]]].
    split; [apply TK; symmetry; apply upd_len|]. split; [eapply tree_ext; [exact I2|apply GE; [reflexivity|reflexivity|exact ME]]|].
    split; [eapply tree_ext; [exact I3|apply GE; [reflexivity|reflexivity|exact ME]]|].
    intros j x s0 HX HS HA. cbn [set_tracks set_streams u_tracks u_streams] in *.
    rewrite upd_nth, ES in HS. destruct (t_sid x =? t_sid t)%nat eqn:CS.
    + exfalso. apply nth_error_In in HX. assert (X : existsb (fun x => (t_sid x =? t_sid t)%nat && t_active x) ts = true).
      { apply existsb_exists. exists x. split; [exact HX|]. rewrite CS, HA. reflexivity. }
      unfold ts, t' in *. congruence.
    + unfold ts in HX. rewrite upd_nth, HT in HX. destruct (j =? i)%nat; [injection HX as <-; discriminate|]. exact (I4 j x s0 HX HS HA).
Qed.

(* ---- writing a frame ---- *)

Lemma cnt_ok l : wf l -> l_cnt l = length (content l).
Proof. intros (ini & lst & _ & _ & _ & _ & _ & C). exact C. Qed.

Lemma write_ok u i t f r (ok : bool) : inv u -> nth_error (u_tracks u) i = Some t -> rdyb (metas u) (t_sid t) = true -> content (t_fl t) = f :: r ->
  if ok then exists u', write_frame u i true true = Go u' /\ inv u' /\ same u u' /\ (forall j, pend u' j = if (j =? i)%nat then r else pend u j) /\
    u_timer u' = u_timer u /\ u_out u' = u_out u ++ [(i, f)] /\
    (forall j t', nth_error (u_tracks u') j = Some t' -> exists t0, nth_error (u_tracks u) j = Some t0 /\ t_input t' = t_input t0 /\ t_media t' = t_media t0)
  else write_frame u i false true = Gone.
Proof.
  intros I HT HR HC. pose proof I as (I1 & I2 & I3 & I4). destruct (I1 i t HT) as (T1 & T2 & T3 & T4).
  destruct (pop_ok _ _ _ T1 HC) as (l & EP & WL & CL).
  unfold write_frame. rewrite HT, (head_ok _ T1), HC. cbn [hd_error]. destruct ok; cbn [negb]; [|reflexivity]. rewrite EP.
  rewrite (cnt_ok l WL), CL.
  assert (MAIN : forall t', t_fl t' = l -> t_sid t' = t_sid t -> t_input t' = t_input t -> t_media t' = t_media t -> t_active t' = t_active t ->
    (forall f' r', r = f' :: r' -> t_dkey t' = ukey (f_dts f') /\ Z.abs (f_added f' - t_akey t') <= 100) ->
    forall d a, tree_ok d (fun j => if (j =? i)%nat then gv t_dkey (metas u) t' else g t_dkey u j) ->
      tree_ok a (fun j => if (j =? i)%nat then gv t_akey (metas u) t' else g t_akey u j) ->
    forall u', u' = set_trees (set_tracks (set_out u (u_out u ++ [(i, f)])) (upd (u_tracks u) i t')) d a ->
    inv u' /\ same u u' /\ (forall j, pend u' j = if (j =? i)%nat then r else pend u j) /\ u_timer u' = u_timer u /\ u_out u' = u_out u ++ [(i, f)] /\
    (forall j t', nth_error (u_tracks u') j = Some t' -> exists t0, nth_error (u_tracks u) j = Some t0 /\ t_input t' = t_input t0 /\ t_media t' = t_media t0)).
  { intros t' E1 E2 E3 E3' E4 K d a TD TA u' ->.
    split; [split; [|split; [|split]]|].
    - intros j x HX. cbn [set_trees set_tracks set_out u_tracks u_streams] in *. rewrite upd_nth, HT in HX. destruct (j =? i)%nat; [|exact (I1 j x HX)].
      injection HX as <-. split; [rewrite E1; exact WL|]. split; [rewrite E2; exact T2|]. split; [rewrite E1, CL; exact K|].
      intros _. rewrite E4. apply T4. right. congruence.
    - eapply tree_ext; [exact TD|]. apply (g_upd t_dkey u _ i t t'); [reflexivity|reflexivity|exact HT].
    - eapply tree_ext; [exact TA|]. apply (g_upd t_akey u _ i t t'); [reflexivity|reflexivity|exact HT].
    - intros j x s HX HS. cbn [set_trees set_tracks set_out u_tracks u_streams] in *. rewrite upd_nth, HT in HX. destruct (j =? i)%nat; [|exact (I4 j x s HX HS)].
      injection HX as <-. rewrite E2 in HS. unfold live_ok. rewrite E4. exact (I4 i t s HT HS).
    - split; [split; [reflexivity|apply (sids_upd u i t t' HT E2)]|].
      split; [intros j; etransitivity; [apply (pend_upd u _ i t t'); [reflexivity|exact HT]|]; rewrite E1, CL; reflexivity|].
      split; [reflexivity|]. split; [reflexivity|].
      intros j x HX. cbn [set_trees set_tracks set_out u_tracks u_streams] in *. rewrite upd_nth, HT in HX. destruct (j =? i)%nat eqn:C; [|exists x; auto].
      injection HX as <-. replace j with i by lia. exists t. auto. }
  assert (GT : g t_dkey u i = Some (t_dkey t) /\ g t_akey u i = Some (t_akey t)).
  { unfold g, gv. rewrite HT, HR, HC. auto. }
  destruct r as [|f' r'].
  - cbn [length Nat.eqb].
    set (t1 := set_fl t l).
    assert (G0 : forall key, gv key (metas u) t1 = None). { intros key. unfold gv, t1. cbn [set_fl t_fl]. rewrite CL, andb_false_r. reflexivity. }
    assert (TR : forall key tree, tree_ok tree (g key u) -> tree_ok (del i tree) (fun j => if (j =? i)%nat then gv key (metas u) t1 else g key u j)).
    { intros key tree H. eapply tree_ext; [exact (tree_del tree _ i H)|]. intros j. rewrite G0. reflexivity. }
    destruct (t_input t) eqn:EI.
    + eexists. split; [reflexivity|].
      eapply (MAIN t1); try reflexivity; [exact EI|discriminate|apply TR; exact I2|apply TR; exact I3].
    + set (u2 := set_trees _ _ _).
      assert (M : inv u2 /\ same u u2 /\ (forall j, pend u2 j = if (j =? i)%nat then [] else pend u j) /\ u_timer u2 = u_timer u /\ u_out u2 = u_out u ++ [(i, f)] /\
        (forall j t', nth_error (u_tracks u2) j = Some t' -> exists t0, nth_error (u_tracks u) j = Some t0 /\ t_input t' = t_input t0 /\ t_media t' = t_media t0)).
      { eapply (MAIN t1); try reflexivity; [exact EI|discriminate|apply TR; exact I2|apply TR; exact I3]. }
      destruct M as (J1 & J2 & J3 & J4 & J5 & J6).
      destruct (close_ok u2 i t1 J1) as (u3 & C1 & C2 & C3 & C4 & C5 & C6 & C7).
      { unfold u2. cbn [set_trees set_tracks u_tracks]. rewrite upd_nth, Nat.eqb_refl, HT. reflexivity. }
      { exact EI. } { exact CL. }
      exists u3. split; [exact C1|]. split; [exact C2|]. split; [exact (same_trans _ _ _ J2 C3)|]. split; [intros j; rewrite C4; apply J3|].
      split; [congruence|]. split; [congruence|]. intros j x HX. destruct (C7 j x HX) as (x0 & X1 & X2 & X3). destruct (J6 j x0 X1) as (x1 & Y1 & Y2 & Y3).
      exists x1. split; [exact Y1|]. split; congruence.
  - cbn [length Nat.eqb]. rewrite (head_ok l WL), CL. cbn [hd_error].
    set (t2 := set_dkey (set_fl t l) (ukey (f_dts f'))).
    assert (GS : forall key t', t_sid t' = t_sid t -> t_fl t' = l -> gv key (metas u) t' = Some (key t')).
    { intros key t' E1 E2. unfold gv. rewrite E1, E2, HR, CL. reflexivity. }
    assert (TD : forall t', t_sid t' = t_sid t -> t_fl t' = l -> t_dkey t' = t_dkey t2 ->
      tree_ok (ins (t_dkey t2) i (del i (u_dts u))) (fun j => if (j =? i)%nat then gv t_dkey (metas u) t' else g t_dkey u j)).
    { intros t' E1 E2 E3. eapply tree_ext.
      - apply tree_ins; [apply (tree_del (u_dts u) _ i I2)|]. cbn beta. rewrite Nat.eqb_refl. reflexivity.
      - intros j. cbn beta. destruct (j =? i)%nat; [|reflexivity]. rewrite (GS t_dkey t' E1 E2), E3. reflexivity. }
    destruct (100 <? Z.abs (f_added f' - t_akey t)) eqn:CA.
    + eexists. split; [reflexivity|]. eapply (MAIN (set_akey t2 (f_added f'))); try reflexivity.
      * intros f0 r0 E. injection E as <- <-. cbn. split; [reflexivity|]. rewrite Z.sub_diag. cbn. lia.
      * apply TD; reflexivity.
      * eapply tree_ext.
        -- apply tree_ins; [apply (tree_del (u_added u) _ i I3)|]. cbn beta. rewrite Nat.eqb_refl. reflexivity.
        -- intros j. cbn beta. destruct (j =? i)%nat; [|reflexivity]. rewrite GS by reflexivity. reflexivity.
    + eexists. split; [reflexivity|]. eapply (MAIN t2); try reflexivity.
      * intros f0 r0 E. injection E as <- <-. split; [reflexivity|]. change (t_akey t2) with (t_akey t). lia.
      * apply TD; reflexivity.
      * eapply tree_ext; [exact I3|]. intros j. cbn beta. destruct (j =? i)%nat eqn:C; [|reflexivity]. rewrite GS by reflexivity.
        replace j with i by lia. symmetry. exact (proj2 GT).
Qed.
