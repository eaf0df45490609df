(* Every event other than the process timer. *)

From Coq Require Import List ZArith Lia Bool Arith Sorted.
From Coq Require Import ZifyBool ZifyNat.
From Verif Require Import TrkModel TrkSpec TrkProofs TrkProofs2 TrkProofs3.
Import ListNotations.
Open Scope Z_scope.

(* what an event does: the invariant; nothing is written; the frames that wait;
   which tracks are ready; the timer *)
Definition effect (now : Z) (u u' : ups) (np : nat -> list frame) (nr : nat -> Prop) : Prop :=
  inv u' /\ u_out u' = u_out u /\ (forall i, pend u' i = np i) /\ (forall i, ready u' i -> pend u' i <> [] -> ready u i \/ nr i) /\
  (forall i, (i < length (u_tracks u))%nat -> sid_of u' i = sid_of u i) /\
  ((u_timer u' = u_timer u /\ forall i, ready u' i -> pend u' i <> [] -> ready u i /\ pend u i <> []) \/ u_timer u' = add_timer now 0 (u_timer u)).

Lemma sid_upd u u' i t t' : u_tracks u' = upd (u_tracks u) i t' -> nth_error (u_tracks u) i = Some t -> t_sid t' = t_sid t -> forall j, sid_of u' j = sid_of u j.
Proof.
  intros E HT ES j. unfold sid_of. rewrite E, upd_nth, HT. destruct (j =? i)%nat eqn:C; [|reflexivity]. replace j with i by lia. rewrite HT. exact ES.
Qed.

Lemma same_sid u u' j : same u u' -> sid_of u' j = sid_of u j.
Proof.
  intros (_ & E). unfold sid_of. unfold sids in E. assert (H : nth_error (map t_sid (u_tracks u')) j = nth_error (map t_sid (u_tracks u)) j) by congruence.
  rewrite !nth_error_map in H. destruct (nth_error (u_tracks u') j), (nth_error (u_tracks u) j); cbn in H; congruence.
Qed.

Lemma rdyb_app ms sid : rdyb (ms ++ [false]) sid = rdyb ms sid.
Proof.
  unfold rdyb. destruct (Nat.lt_ge_cases sid (length ms)) as [H|H].
  - rewrite nth_error_app1 by exact H. reflexivity.
  - rewrite nth_error_app2 by exact H. replace (nth_error ms sid) with (@None bool) by (symmetry; apply nth_error_None; exact H).
    destruct (sid - length ms)%nat as [|n]; [reflexivity|]. destruct n; reflexivity.
Qed.

Lemma effect_refl now u : inv u -> effect now u u (pend u) (fun _ => False).
Proof.
  intros I. split; [exact I|]. split; [reflexivity|]. split; [reflexivity|]. split; [auto|]. split; [reflexivity|]. left. split; [reflexivity|]. auto.
Qed.

Lemma stream_step now u : inv u -> effect now u (set_streams u (u_streams u ++ [Stream false true None])) (pend u) (fun _ => False).
Proof.
  intros I. pose proof I as (I1 & I2 & I3 & I4). set (u' := set_streams u _).
  assert (EM : metas u' = metas u ++ [false]) by (unfold metas, u'; cbn; rewrite map_app; reflexivity).
  assert (GE : forall key j, g key u' j = g key u j).
  { intros key j. unfold g. change (u_tracks u') with (u_tracks u). destruct (nth_error (u_tracks u) j) as [t|]; [|reflexivity]. unfold gv. rewrite EM, rdyb_app. reflexivity. }
  assert (RD : forall i, ready u' i <-> ready u i).
  { intros i. rewrite !ready_b, EM. change (sids u') with (sids u). split; intros (sid & H1 & H2); exists sid; (split; [exact H1|]); rewrite rdyb_app in *; exact H2. }
  split; [|split; [reflexivity|split; [reflexivity|split; [intros i H _; left; apply RD; exact H|split; [reflexivity|left; split; [reflexivity|]]]]]].
  - split; [|split; [eapply tree_ext; [exact I2|apply GE]|split; [eapply tree_ext; [exact I3|apply GE]|]]].
    + intros i t HT. destruct (I1 i t HT) as (T1 & T2 & T3). split; [exact T1|]. split; [|exact T3]. cbn. rewrite app_length. lia.
    + intros i t s HT HS. cbn in HS. destruct (I1 i t HT) as (_ & T2 & _). rewrite nth_error_app1 in HS by exact T2. exact (I4 i t s HT HS).
  - intros i H1 H2. split; [apply RD; exact H1|exact H2].
Qed.

Definition pops := fix pops n l := match n with O => l | S n' => match fl_pop l with Some l' => pops n' l' | None => l end end.

Lemma pops_ok : forall n l, wf l -> (length (content l) = n)%nat -> wf (pops n l) /\ content (pops n l) = [].
Proof.
  induction n as [|n IH]; intros l W E; cbn [pops].
  - split; [exact W|]. destruct (content l); [reflexivity|discriminate].
  - destruct (content l) as [|f r] eqn:EC; [discriminate|]. destruct (pop_ok l f r W EC) as (l' & E1 & E2 & E3). rewrite E1. apply IH; [exact E2|]. rewrite E3. cbn in E. lia.
Qed.

Lemma find_ok u sid media i : find_track u sid media = Some i -> exists t, nth_error (u_tracks u) i = Some t /\ t_sid t = sid /\ t_media t = media.
Proof.
  unfold find_track. intros H. apply find_some in H as (_ & H). destruct (nth_error (u_tracks u) i) as [t|]; [|discriminate]. exists t. split; [reflexivity|]. lia.
Qed.

Lemma timer_some now d o : add_timer now d o <> None.
Proof. unfold add_timer. destruct o as [x|]; [destruct (_ <? _)|]; discriminate. Qed.

Section Attach.
Variables (c : conf) (now : Z) (u : ups) (sid : nat) (s : stream).
Hypothesis HS : nth_error (u_streams u) sid = Some s.
Hypothesis HL : s_live s = true.

Lemma attach_shape ts : exists s', attach c now u sid s ts = set_streams (set_tracks u ts) (upd (u_streams u) sid s') /\
  s_meta s' = s_meta s /\ s_live s' = true /\ (s_meta s' = true \/ s_timer s' <> None).
Proof.
  unfold attach. eexists. split; [reflexivity|]. destruct (s_meta s) eqn:EM; [auto|].
  destruct (_ && _); cbn [s_meta s_live s_timer]; (split; [first [exact EM|reflexivity]|]); (split; [exact HL|]); right; apply timer_some.
Qed.
End Attach.

Lemma conn_step c now u sid media s : inv u -> nth_error (u_streams u) sid = Some s -> s_live s = true ->
  match find_track u sid media with
  | Some i => forall t, nth_error (u_tracks u) i = Some t -> t_input t = false ->
      let drop := (0 <? l_cnt (t_fl t))%nat && s_meta s in
      let u1 := if drop then set_trees u (del i (u_dts u)) (del i (u_added u)) else u in
      let t1 := Track (t_sid t) (t_media t) (pops (l_cnt (t_fl t)) (t_fl t)) (t_dkey t) (t_akey t) true true in
      effect now u (attach c now u1 sid s (upd (u_tracks u1) i t1)) (fun j => if (j =? i)%nat then [] else pend u j) (fun _ => False)
  | None => effect now u (attach c now u sid s (u_tracks u ++ [Track sid media fl_init 0 0 true true])) (pend u) (fun _ => False)
  end.
Proof.
  intros I HS HL. pose proof I as (I1 & I2 & I3 & I4). destruct (find_track u sid media) as [i|] eqn:EF.
  - intros t HT HI drop u1 t1. destruct (find_ok _ _ _ _ EF) as (t' & HT' & HSI & _). rewrite HT in HT'. injection HT' as <-.
    destruct (I1 i t HT) as (T1 & T2 & T3 & T4). pose proof (cnt_ok _ T1) as CN.
    destruct (pops_ok (l_cnt (t_fl t)) (t_fl t) T1 ltac:(lia)) as (P1 & P2).
    assert (E1 : u_tracks u1 = u_tracks u /\ u_streams u1 = u_streams u /\ u_timer u1 = u_timer u /\ u_out u1 = u_out u) by (unfold u1; destruct drop; auto).
    destruct E1 as (E1 & E2 & E3 & E4).
    destruct (attach_shape c now u1 sid s HL (upd (u_tracks u1) i t1)) as (s' & EA & A1 & A2 & A3). rewrite EA, E1, E2. set (u' := set_streams _ _).
    assert (EM : metas u' = metas u) by (unfold metas at 1, u'; cbn [set_streams u_streams]; apply (metas_upd u sid s s' HS A1)).
    assert (ET : u_tracks u' = upd (u_tracks u) i t1) by reflexivity.
    assert (RD : forall j, ready u' j <-> ready u j).
    { intros j. apply same_ready. split; [exact EM|]. unfold sids. rewrite ET. apply (sids_upd u i t t1 HT). reflexivity. }
    assert (PE : forall j, pend u' j = if (j =? i)%nat then [] else pend u j).
    { intros j. rewrite (pend_upd u u' i t t1 ET HT). cbn [t1 t_fl]. rewrite P2. reflexivity. }
    assert (G0 : forall key, gv key (metas u) t1 = None) by (intros key; unfold gv; cbn [t1 t_fl]; rewrite P2, andb_false_r; reflexivity).
    assert (GD : drop = false -> forall key, g key u i = None).
    { intros HD key. unfold g. rewrite HT. unfold gv, rdyb, metas. rewrite nth_error_map, HSI, HS. cbn [option_map].
      unfold drop in HD. destruct (s_meta s); [|reflexivity]. rewrite andb_true_r in HD. destruct (content (t_fl t)); [reflexivity|]. cbn in CN. lia. }
    assert (TR : forall key tree, tree_ok tree (g key u) -> tree_ok (if drop then del i tree else tree) (g key u')).
    { intros key tree H. destruct drop eqn:ED.
      - eapply tree_ext; [exact (tree_del tree _ i H)|]. intros j. rewrite (g_upd key u u' i t t1 ET EM HT), G0. reflexivity.
      - eapply tree_ext; [exact H|]. intros j. rewrite (g_upd key u u' i t t1 ET EM HT), G0. destruct (j =? i)%nat eqn:C; [|reflexivity].
        replace j with i by lia. symmetry. apply GD. reflexivity. }
    split; [|split; [unfold u'; exact E4|split; [exact PE|split; [intros j H _; left; apply RD; exact H|split]]]].
    + split; [|split; [|split]].
      * intros j x HX. rewrite ET, upd_nth, HT in HX. unfold u'. cbn [set_streams u_streams]. rewrite upd_len.
        destruct (j =? i)%nat; [|exact (I1 j x HX)]. injection HX as <-. split; [exact P1|]. split; [exact T2|].
        split; [cbn [t1 t_fl]; rewrite P2; discriminate|]. reflexivity.
      * replace (u_dts u') with (if drop then del i (u_dts u) else u_dts u) by (unfold u', u1; destruct drop; reflexivity). apply TR. exact I2.
      * replace (u_added u') with (if drop then del i (u_added u) else u_added u) by (unfold u', u1; destruct drop; reflexivity). apply TR. exact I3.
      * intros j x s0 HX HS0. unfold u' in HS0. cbn [set_streams u_streams] in HS0. rewrite upd_nth, HS in HS0.
        destruct (t_sid x =? sid)%nat eqn:CS; [injection HS0 as <-; intros _; auto|].
        rewrite ET, upd_nth, HT in HX. destruct (j =? i)%nat eqn:C; [injection HX as <-; cbn in CS; lia|]. exact (I4 j x s0 HX HS0).
    + intros j _. apply (sid_upd u u' i t t1 ET HT). reflexivity.
    + left. split; [unfold u'; exact E3|]. intros j H1 H2. rewrite PE in H2. destruct (j =? i)%nat; [congruence|]. split; [apply RD; exact H1|exact H2].
  - set (t1 := Track sid media fl_init 0 0 true true).
    destruct (attach_shape c now u sid s HL (u_tracks u ++ [t1])) as (s' & EA & A1 & A2 & A3). rewrite EA. set (u' := set_streams _ _).
    assert (EM : metas u' = metas u) by (unfold metas at 1, u'; cbn [set_streams u_streams]; apply (metas_upd u sid s s' HS A1)).
    assert (ET : u_tracks u' = u_tracks u ++ [t1]) by reflexivity.
    assert (NT : forall j x, nth_error (u_tracks u') j = Some x -> nth_error (u_tracks u) j = Some x \/ (x = t1 /\ j = length (u_tracks u) /\ nth_error (u_tracks u) j = None)).
    { intros j x HX. rewrite ET in HX. destruct (Nat.lt_ge_cases j (length (u_tracks u))) as [H|H].
      - rewrite nth_error_app1 in HX by exact H. left. exact HX.
      - rewrite nth_error_app2 in HX by exact H. destruct (j - length (u_tracks u))%nat as [|n] eqn:EJ; [|destruct n; discriminate].
        injection HX as <-. right. split; [reflexivity|]. split; [lia|]. apply nth_error_None. exact H. }
    assert (PE : forall j, pend u' j = pend u j).
    { intros j. unfold pend. destruct (nth_error (u_tracks u') j) as [x|] eqn:HX.
      - destruct (NT j x HX) as [-> |(-> & _ & ->)]; reflexivity.
      - rewrite ET in HX. apply nth_error_None in HX. rewrite app_length in HX. replace (nth_error (u_tracks u) j) with (@None track); [reflexivity|].
        symmetry. apply nth_error_None. lia. }
    assert (GE : forall key j, g key u' j = g key u j).
    { intros key j. unfold g. destruct (nth_error (u_tracks u') j) as [x|] eqn:HX.
      - rewrite EM. destruct (NT j x HX) as [-> |(-> & _ & ->)]; [reflexivity|]. unfold gv. cbn. rewrite andb_false_r. reflexivity.
      - rewrite ET in HX. apply nth_error_None in HX. rewrite app_length in HX. replace (nth_error (u_tracks u) j) with (@None track); [reflexivity|].
        symmetry. apply nth_error_None. lia. }
    assert (RD : forall j, ready u' j -> pend u' j <> [] -> ready u j).
    { intros j H HP. apply ready_b in H as (sd & H1 & H2). apply ready_b. exists sd. rewrite EM in H2. split; [|exact H2].
      unfold sids in *. rewrite nth_error_map in *. destruct (nth_error (u_tracks u') j) as [x|] eqn:HX; [|discriminate].
      destruct (NT j x HX) as [-> |(-> & _ & HN)]; [exact H1|]. exfalso. apply HP. rewrite PE. unfold pend. rewrite HN. reflexivity. }
    split; [|split; [reflexivity|split; [exact PE|split; [|split]]]].
    + split; [|split; [eapply tree_ext; [exact I2|apply GE]|split; [eapply tree_ext; [exact I3|apply GE]|]]].
      * intros j x HX. unfold u' at 1. cbn [set_streams u_streams]. rewrite upd_len. destruct (NT j x HX) as [HX'|(-> & _ & _)]; [exact (I1 j x HX')|].
        split; [exact wf_init|]. split; [cbn; apply nth_error_Some; congruence|]. split; [discriminate|]. reflexivity.
      * intros j x s0 HX HS0. unfold u' in HS0. cbn [set_streams u_streams] in HS0. rewrite upd_nth, HS in HS0.
        destruct (t_sid x =? sid)%nat eqn:CS; [injection HS0 as <-; intros _; auto|].
        destruct (NT j x HX) as [HX'|(-> & _ & _)]; [exact (I4 j x s0 HX' HS0)|]. cbn in CS. lia.
    + intros j H1 H2. left. exact (RD j H1 H2).
    + intros j HJ. unfold sid_of. rewrite ET, nth_error_app1 by exact HJ. reflexivity.
    + left. split; [reflexivity|]. intros j H1 H2. split; [apply (RD j H1 H2)|]. rewrite <- PE. exact H2.
Qed.

(* ---- the timers of streams whose metadata was written are not set ---- *)

Definition calm (u : ups) : Prop := Forall (fun s => s_meta s = true -> s_timer s = None) (u_streams u).

Lemma forall_upd {A} (P : A -> Prop) (x : A) : P x -> forall l i, Forall P l -> Forall P (upd l i x).
Proof. intros HX. induction l as [|a r IH]; intros [|i] H; cbn; [constructor|constructor|constructor|constructor]; try exact HX.
  - exact (Forall_inv_tail H).
  - exact (Forall_inv H).
  - apply IH. exact (Forall_inv_tail H).
Qed.

Lemma close_calm u i t b u' : calm u -> close u i t b = Go u' -> calm u'.
Proof.
  intros C H. unfold close in H. destruct (existsb _ _); [injection H as <-; exact C|]. destruct b; [|discriminate].
  destruct (nth_error (u_streams u) (t_sid t)); [|discriminate]. injection H as <-. unfold calm. cbn. apply forall_upd; [reflexivity|exact C].
Qed.

Lemma write_calm u i ok b u' : calm u -> write_frame u i ok b = Go u' -> calm u'.
Proof.
  intros C H. unfold write_frame in H. destruct (nth_error (u_tracks u) i) as [t|]; [|discriminate]. destruct (fl_head (t_fl t)); [|discriminate].
  destruct (negb ok); [discriminate|]. destruct (fl_pop (t_fl t)) as [l|]; [|discriminate]. destruct (l_cnt l =? 0)%nat.
  - destruct (t_input t); [injection H as <-; exact C|]. revert H. apply close_calm. exact C.
  - destruct (fl_head l); [|discriminate]. destruct (_ <? _); injection H as <-; exact C.
Qed.

Lemma expired_calm c now b : forall fuel u oks u', calm u -> process_expired fuel c now u oks b = Go u' -> calm u'.
Proof.
  induction fuel as [|fuel IH]; intros u oks u' C H; cbn [process_expired] in H; destruct (u_added u) as [|[k i] l]; try (injection H as <-; exact C); [discriminate|].
  destruct (head_of u i) as [f|]; [|discriminate]. destruct (_ <? _); [injection H as <-; exact C|].
  destruct (write_frame u i (hd true oks) b) as [u1| |] eqn:E; try discriminate. revert H. apply IH. revert E. apply write_calm. exact C.
Qed.

Lemma process_calm c now b : forall fuel u oks u', calm u -> process fuel c now u oks b = Go u' -> calm u'.
Proof.
  induction fuel as [|fuel IH]; intros u oks u' C H; cbn [process] in H; destruct (u_dts u) as [|[k i] l]; try (injection H as <-; exact C); [discriminate|].
  destruct (head_of u i) as [f|]; [|discriminate]. destruct (_ <? _).
  - destruct (process_expired (S fuel) c now u oks b) as [u1| |] eqn:E; try discriminate. injection H as <-. apply expired_calm in E; [exact E|exact C].
  - destruct (write_frame u i (hd true oks) b) as [u1| |] eqn:E; try discriminate. revert H. apply IH. revert E. apply write_calm. exact C.
Qed.

(* ---- a frame arrives ---- *)

Lemma add_step c now u i t dts id alloc : inv u -> nth_error (u_tracks u) i = Some t -> t_input t = true ->
  match fst (top_step c now u (TAdd i dts id alloc)) with
  | Ub => False
  | Gone => alloc = false
  | Go u' => if snd (top_step c now u (TAdd i dts id alloc))
             then effect now u u' (fun j => if (j =? i)%nat then pend u j ++ [Frame now dts id] else pend u j) (fun _ => False) /\ u_streams u' = u_streams u /\ Z.of_nat (length (pend u i)) < max_frames
             else u' = u
  end.
Proof.
  intros I HT HI. pose proof I as (I1 & I2 & I3 & I4). destruct (I1 i t HT) as (T1 & T2 & T3 & T4). pose proof (cnt_ok _ T1) as CN.
  unfold top_step. rewrite HT, HI. cbn [negb]. destruct (max_frames <=? Z.of_nat (l_cnt (t_fl t))) eqn:EMX; [reflexivity|].
  assert (MX : Z.of_nat (length (pend u i)) < max_frames) by (unfold pend; rewrite HT; lia). clear EMX.
  pose proof (push_ok (t_fl t) (Frame now dts id) alloc T1) as PO. destruct (fl_push (t_fl t) (Frame now dts id) alloc) as [l|]; [|exact PO].
  destruct PO as (WL & CL). set (t1 := set_fl t l).
  assert (PI : pend u i = content (t_fl t)) by (unfold pend; rewrite HT; reflexivity).
  destruct (0 <? l_cnt (t_fl t))%nat eqn:C0.
  - cbn [fst snd]. set (u' := set_tracks u _). split; [|split; [reflexivity|exact MX]].
    assert (SM : same u u') by (split; [reflexivity|]; unfold sids at 1, u'; cbn [set_tracks u_tracks]; apply (sids_upd u i t t1 HT); reflexivity).
    assert (HC : exists f r, content (t_fl t) = f :: r) by (destruct (content (t_fl t)) as [|f r]; [cbn in CN; lia|eauto]). destruct HC as (f & r & HC).
    assert (PE : forall j, pend u' j = if (j =? i)%nat then pend u j ++ [Frame now dts id] else pend u j).
    { intros j. rewrite (pend_upd u u' i t t1 eq_refl HT). destruct (j =? i)%nat eqn:E; [|reflexivity]. replace j with i by lia. rewrite PI. exact CL. }
    assert (GE : forall key, key t1 = key t -> forall j, g key u' j = g key u j).
    { intros key EK j. rewrite (g_upd key u u' i t t1 eq_refl eq_refl HT). destruct (j =? i)%nat eqn:E; [|reflexivity]. replace j with i by lia.
      unfold g. rewrite HT. unfold gv. cbn [t1 set_fl t_sid t_fl]. rewrite CL, HC. cbn [some app]. rewrite EK. reflexivity. }
    split; [|split; [reflexivity|split; [exact PE|split; [intros j H _; left; apply (same_ready u u' j SM); exact H|split; [intros j _; apply same_sid; exact SM|]]]]].
    + split; [|split; [eapply tree_ext; [exact I2|apply GE; reflexivity]|split; [eapply tree_ext; [exact I3|apply GE; reflexivity]|]]].
      * intros j x HX. cbn [u' set_tracks u_tracks] in HX. rewrite upd_nth, HT in HX. destruct (j =? i)%nat; [|exact (I1 j x HX)]. injection HX as <-.
        split; [exact WL|]. split; [exact T2|]. split; [|intros _; apply T4; left; exact HI].
        cbn [t1 set_fl t_fl t_dkey t_akey]. rewrite CL, HC. intros f' r' E. injection E as <- _. exact (T3 f r HC).
      * intros j x s0 HX HS0. cbn [u' set_tracks u_tracks] in HX. rewrite upd_nth, HT in HX. destruct (j =? i)%nat; [|exact (I4 j x s0 HX HS0)]. injection HX as <-.
        exact (I4 i t s0 HT HS0).
    + left. split; [reflexivity|]. intros j H1 H2. split; [apply (same_ready u u' j SM); exact H1|]. rewrite PE in H2. destruct (j =? i)%nat eqn:E; [|exact H2].
      replace j with i by lia. rewrite PI, HC. discriminate.
  - assert (HC : content (t_fl t) = []) by (destruct (content (t_fl t)); [reflexivity|cbn in CN; lia]).
    set (t2 := set_akey (set_dkey t1 (ukey dts)) now). set (u1 := set_tracks u (upd (u_tracks u) i t2)).
    destruct (nth_error (u_streams u) (t_sid t)) as [s|] eqn:HS; [|apply nth_error_None in HS; cbn; lia].
    assert (SM : same u u1) by (split; [reflexivity|]; unfold sids at 1, u1; cbn [set_tracks u_tracks]; apply (sids_upd u i t t2 HT); reflexivity).
    assert (PE : forall j, pend u1 j = if (j =? i)%nat then pend u j ++ [Frame now dts id] else pend u j).
    { intros j. rewrite (pend_upd u u1 i t t2 eq_refl HT). destruct (j =? i)%nat eqn:E; [|reflexivity]. replace j with i by lia. rewrite PI. exact CL. }
    assert (GN : forall key, g key u i = None) by (intros key; unfold g; rewrite HT; unfold gv; rewrite HC, andb_false_r; reflexivity).
    assert (RB : rdyb (metas u) (t_sid t) = s_meta s) by (unfold rdyb, metas; rewrite nth_error_map, HS; reflexivity).
    assert (GE : forall key j, g key u1 j = if (j =? i)%nat then if s_meta s then Some (key t2) else None else g key u j).
    { intros key j. rewrite (g_upd key u u1 i t t2 eq_refl eq_refl HT). destruct (j =? i)%nat; [|reflexivity].
      unfold gv. cbn [t2 t1 set_akey set_dkey set_fl t_sid t_fl]. rewrite RB, CL, HC. cbn [some app]. rewrite andb_true_r. reflexivity. }
    assert (K1 : forall j x, nth_error (u_tracks u1) j = Some x -> tk_ok (length (u_streams u)) x).
    { intros j x HX. cbn [u1 set_tracks u_tracks] in HX. rewrite upd_nth, HT in HX. destruct (j =? i)%nat; [|exact (I1 j x HX)]. injection HX as <-.
      split; [exact WL|]. split; [exact T2|]. split; [|intros _; apply T4; left; exact HI].
      cbn [t2 t1 set_akey set_dkey set_fl t_fl t_dkey t_akey]. rewrite CL, HC. cbn [app]. intros f' r' E. injection E as <- _. cbn [f_dts f_added]. split; [reflexivity|lia]. }
    assert (K4 : forall j x s0, nth_error (u_tracks u1) j = Some x -> nth_error (u_streams u) (t_sid x) = Some s0 -> live_ok x s0).
    { intros j x s0 HX HS0. cbn [u1 set_tracks u_tracks] in HX. rewrite upd_nth, HT in HX. destruct (j =? i)%nat; [|exact (I4 j x s0 HX HS0)]. injection HX as <-.
      exact (I4 i t s0 HT HS0). }
    destruct (s_meta s) eqn:EM; cbn [fst snd].
    + set (u' := set_timer _ _). split; [|split; [reflexivity|exact MX]].
      split; [|split; [reflexivity|split; [exact PE|split; [intros j H _; left; apply (same_ready u u1 j SM); exact H|split; [intros j _; apply (same_sid u u1); exact SM|right; reflexivity]]]]].
      split; [exact K1|]. split; [|split; [|exact K4]].
      * eapply tree_ext; [exact (tree_ins _ _ (t_dkey t2) i I2 (GN t_dkey))|]. intros j. exact (GE t_dkey j).
      * eapply tree_ext; [exact (tree_ins _ _ (t_akey t2) i I3 (GN t_akey))|]. intros j. exact (GE t_akey j).
    + split; [|split; [reflexivity|exact MX]].
      split; [|split; [reflexivity|split; [exact PE|split; [intros j H _; left; apply (same_ready u u1 j SM); exact H|split; [intros j _; apply (same_sid u u1); exact SM|]]]]].
      * split; [exact K1|]. split; [|split; [|exact K4]].
        -- eapply tree_ext; [exact I2|]. intros j. rewrite GE. destruct (j =? i)%nat eqn:E; [|reflexivity]. replace j with i by lia. symmetry. apply GN.
        -- eapply tree_ext; [exact I3|]. intros j. rewrite GE. destruct (j =? i)%nat eqn:E; [|reflexivity]. replace j with i by lia. symmetry. apply GN.
      * left. split; [reflexivity|]. intros j H1 H2. assert (RJ : ready u j) by (apply (same_ready u u1 j SM); exact H1). split; [exact RJ|].
        rewrite PE in H2. destruct (j =? i)%nat eqn:E; [|exact H2]. exfalso. replace j with i in RJ by lia.
        destruct RJ as (t0 & s0 & R1 & R2 & R3). rewrite HT in R1. injection R1 as <-. rewrite HS in R2. injection R2 as <-. congruence.
Qed.

(* ---- the input of a track disconnects ---- *)

Lemma disc_step c now u i t : inv u -> nth_error (u_tracks u) i = Some t -> t_input t = true ->
  exists u', top_step c now u (TDisc i true) = (Go u', true) /\ effect now u u' (pend u) (fun _ => False).
Proof.
  intros I HT HI. pose proof I as (I1 & I2 & I3 & I4). destruct (I1 i t HT) as (T1 & T2 & T3 & T4). pose proof (cnt_ok _ T1) as CN.
  unfold top_step. rewrite HT, HI. cbn [negb]. set (t1 := set_input t false). set (u1 := set_tracks u (upd (u_tracks u) i t1)).
  assert (SM : same u u1) by (split; [reflexivity|]; unfold sids at 1, u1; cbn [set_tracks u_tracks]; apply (sids_upd u i t t1 HT); reflexivity).
  assert (PE : forall j, pend u1 j = pend u j).
  { intros j. rewrite (pend_upd u u1 i t t1 eq_refl HT). destruct (j =? i)%nat eqn:E; [|reflexivity]. replace j with i by lia. unfold pend. rewrite HT. reflexivity. }
  assert (GE : forall key, key t1 = key t -> forall j, g key u1 j = g key u j).
  { intros key EK j. rewrite (g_upd key u u1 i t t1 eq_refl eq_refl HT). destruct (j =? i)%nat eqn:E; [|reflexivity]. replace j with i by lia.
    unfold g. rewrite HT. unfold gv. cbn [t1 set_input t_sid t_fl]. rewrite EK. reflexivity. }
  assert (IU : inv u1).
  { split; [|split; [eapply tree_ext; [exact I2|apply GE; reflexivity]|split; [eapply tree_ext; [exact I3|apply GE; reflexivity]|]]].
    - intros j x HX. cbn [u1 set_tracks u_tracks] in HX. rewrite upd_nth, HT in HX. destruct (j =? i)%nat; [|exact (I1 j x HX)]. injection HX as <-.
      split; [exact T1|]. split; [exact T2|]. split; [exact T3|]. intros _. apply T4. left. exact HI.
    - intros j x s0 HX HS0. cbn [u1 set_tracks u_tracks] in HX. rewrite upd_nth, HT in HX. destruct (j =? i)%nat; [|exact (I4 j x s0 HX HS0)]. injection HX as <-.
      exact (I4 i t s0 HT HS0). }
  assert (FIN : forall u', inv u' -> same u1 u' -> (forall j, pend u' j = pend u1 j) -> u_timer u' = u_timer u -> u_out u' = u_out u -> effect now u u' (pend u) (fun _ => False)).
  { intros u' IU' SM' PE' ET EO. assert (SM2 : same u u') by (eapply same_trans; eassumption).
    split; [exact IU'|]. split; [exact EO|]. split; [intros j; rewrite PE'; apply PE|]. split; [intros j H _; left; apply (same_ready u u' j SM2); exact H|].
    split; [intros j _; apply same_sid; exact SM2|]. left. split; [exact ET|]. intros j H1 H2. split; [apply (same_ready u u' j SM2); exact H1|]. rewrite <- PE, <- PE'. exact H2. }
  destruct (l_cnt (t_fl t) =? 0)%nat eqn:C0.
  - destruct (close_ok u1 i t1 IU) as (u' & E & A1 & A2 & A3 & A4 & A5 & _).
    + cbn [u1 set_tracks u_tracks]. rewrite upd_nth, HT, Nat.eqb_refl. reflexivity.
    + reflexivity.
    + cbn [t1 set_input t_fl]. destruct (content (t_fl t)); [reflexivity|cbn in CN; lia].
    + exists u'. rewrite E. split; [reflexivity|]. apply FIN; assumption.
  - exists u1. split; [reflexivity|]. apply FIN; [exact IU|apply same_refl|reflexivity|reflexivity|reflexivity].
Qed.

(* ---- the metadata of a stream is written ---- *)

Lemma ready_fold : forall l u (h : nat -> bool), NoDup l ->
  tree_ok (u_dts u) (fun j => if h j then None else g t_dkey u j) -> tree_ok (u_added u) (fun j => if h j then None else g t_akey u j) ->
  (forall i t, nth_error (u_tracks u) i = Some t -> wf (t_fl t)) ->
  (forall i, In i l -> h i = true /\ exists t, nth_error (u_tracks u) i = Some t /\ rdyb (metas u) (t_sid t) = true) ->
  (forall i, h i = true -> ~ In i l -> g t_dkey u i = None /\ g t_akey u i = None) ->
  exists d a, fold_left (fun u i => stream_ready i u) l u = set_trees u d a /\ tree_ok d (g t_dkey u) /\ tree_ok a (g t_akey u).
Proof.
  induction l as [|i l IH]; intros u h ND H1 H2 WF HL HN; cbn [fold_left].
  - exists (u_dts u), (u_added u). split; [destruct u; reflexivity|]. split; (eapply tree_ext; [eassumption|]); intros j; cbn beta; destruct (h j) eqn:E; try reflexivity;
      destruct (HN j E (fun x => x)) as (N1 & N2); assumption.
  - destruct (HL i (or_introl eq_refl)) as (HI & t & HT & HR). inversion ND as [|? ? NI ND']; subst.
    assert (EG : forall key, g key u i = if some (content (t_fl t)) then Some (key t) else None) by (intros key; unfold g; rewrite HT; unfold gv; rewrite HR; reflexivity).
    pose proof (cnt_ok _ (WF i t HT)) as CN.
    set (h' := fun j => h j && negb (j =? i)%nat).
    assert (S1 : exists d a, stream_ready i u = set_trees u d a /\ tree_ok d (fun j => if h' j then None else g t_dkey u j) /\ tree_ok a (fun j => if h' j then None else g t_akey u j)).
    { unfold stream_ready. rewrite HT. destruct (content (t_fl t)) as [|f r] eqn:EC; cbn [length] in CN; rewrite CN; cbn [Nat.ltb Nat.leb].
      - exists (u_dts u), (u_added u). split; [destruct u; reflexivity|].
        split; (eapply tree_ext; [eassumption|]); intros j; unfold h'; cbn beta; destruct (j =? i)%nat eqn:E; rewrite ?andb_true_r, ?andb_false_r; try reflexivity;
          replace j with i by lia; rewrite HI, EG; reflexivity.
      - exists (ins (t_dkey t) i (u_dts u)), (ins (t_akey t) i (u_added u)). split; [reflexivity|].
        split; (eapply tree_ext; [eapply tree_ins; [eassumption|cbn beta; rewrite HI; reflexivity]|]); intros j; unfold h'; cbn beta;
          destruct (j =? i)%nat eqn:E; rewrite ?andb_true_r, ?andb_false_r; try reflexivity; replace j with i by lia; rewrite EG; reflexivity. }
    destruct S1 as (d & a & E & D1 & D2). rewrite E.
    destruct (IH (set_trees u d a) h' ND') as (d' & a' & F & F1 & F2).
    + exact D1.
    + exact D2.
    + exact WF.
    + intros j HJ. destruct (HL j (or_intror HJ)) as (A & B). split; [|exact B]. unfold h'. rewrite A. destruct (j =? i)%nat eqn:EJ; [|reflexivity]. exfalso. apply NI. replace i with j by lia. exact HJ.
    + intros j HJ NJ. unfold h' in HJ. apply andb_true_iff in HJ as (A & B). apply (HN j A). intros [K|K]; [subst j; rewrite Nat.eqb_refl in B; discriminate|exact (NJ K)].
    + exists d', a'. rewrite F. split; [reflexivity|]. split; assumption.
Qed.

Lemma in_tracks_of u sid i : In i (tracks_of u sid) <-> exists t, nth_error (u_tracks u) i = Some t /\ t_sid t = sid.
Proof.
  unfold tracks_of. rewrite filter_In, in_seq. split.
  - intros (_ & H). destruct (nth_error (u_tracks u) i) as [t|]; [|discriminate]. exists t. split; [reflexivity|lia].
  - intros (t & HT & HS). rewrite HT. split; [|lia]. assert (i < length (u_tracks u))%nat by (apply nth_error_Some; congruence). lia.
Qed.

Lemma meta_ok now u sid s d : inv u -> calm u -> nth_error (u_streams u) sid = Some s -> s_timer s = Some d ->
  let u1 := set_streams u (upd (u_streams u) sid (Stream true (s_live s) None)) in
  let u2 := fold_left (fun u i => stream_ready i u) (tracks_of u1 sid) u1 in
  let u' := set_timer u2 (add_timer now 0 (u_timer u2)) in
  effect now u u' (pend u) (fun i => sid_of u i = sid) /\ calm u'.
Proof.
  intros I CA HS HD u1. pose proof I as (I1 & I2 & I3 & I4).
  assert (SN : s_meta s = false).
  { unfold calm in CA. rewrite Forall_forall in CA. specialize (CA s (nth_error_In _ _ HS)). destruct (s_meta s); [|reflexivity]. rewrite CA in HD by reflexivity. discriminate. }
  assert (LS : (sid < length (u_streams u))%nat) by (apply nth_error_Some; congruence).
  assert (RB : forall x, rdyb (metas u1) x = if (x =? sid)%nat then true else rdyb (metas u) x).
  { intros x. unfold rdyb, metas, u1. cbn [set_streams u_streams]. rewrite !nth_error_map, upd_nth, HS. destruct (x =? sid)%nat; reflexivity. }
  assert (R0 : rdyb (metas u) sid = false) by (unfold rdyb, metas; rewrite nth_error_map, HS; exact SN).
  set (h := fun j => match nth_error (u_tracks u) j with Some t => (t_sid t =? sid)%nat | None => false end).
  assert (GH : forall key j, (if h j then None else g key u1 j) = g key u j).
  { intros key j. unfold h, g. change (u_tracks u1) with (u_tracks u). destruct (nth_error (u_tracks u) j) as [t|]; [|reflexivity]. unfold gv. rewrite RB.
    destruct (t_sid t =? sid)%nat eqn:E; [|reflexivity]. replace (t_sid t) with sid by lia. rewrite R0. reflexivity. }
  destruct (ready_fold (tracks_of u1 sid) u1 h) as (d' & a' & F & F1 & F2).
  - unfold tracks_of. apply NoDup_filter. apply seq_NoDup.
  - eapply tree_ext; [exact I2|]. intros j. apply GH.
  - eapply tree_ext; [exact I3|]. intros j. apply GH.
  - intros i t HT. exact (proj1 (I1 i t HT)).
  - intros i HI. apply in_tracks_of in HI as (t & HT & HSD). change (u_tracks u1) with (u_tracks u) in HT. unfold h. rewrite HT. split; [lia|]. exists t. split; [exact HT|].
    rewrite RB, HSD, Nat.eqb_refl. reflexivity.
  - intros i HI NI. exfalso. apply NI. apply in_tracks_of. unfold h in HI. change (u_tracks u1) with (u_tracks u). destruct (nth_error (u_tracks u) i) as [t|]; [|discriminate]. exists t. split; [reflexivity|lia].
  - cbv zeta. rewrite F. set (u' := set_timer _ _). split.
    + split; [|split; [reflexivity|split; [reflexivity|split; [|split; [reflexivity|right; reflexivity]]]]].
      * split; [|split; [exact F1|split; [exact F2|]]].
        -- intros i t HT. unfold u'. cbn. rewrite upd_len. exact (I1 i t HT).
        -- intros i t s0 HT HS0. unfold u' in HS0. cbn in HS0. rewrite upd_nth, HS in HS0. destruct (t_sid t =? sid)%nat eqn:E; [|exact (I4 i t s0 HT HS0)].
           injection HS0 as <-. intros HA. cbn. split; [|left; reflexivity]. assert (L := I4 i t s HT). replace (t_sid t) with sid in L by lia. exact (proj1 (L HS HA)).
      * intros i (t & s0 & R1 & R2 & R3) _. unfold u' in R1, R2. cbn in R1, R2. rewrite upd_nth, HS in R2. destruct (t_sid t =? sid)%nat eqn:E.
        -- right. unfold sid_of. rewrite R1. lia.
        -- left. exists t, s0. auto.
    + unfold calm, u'. cbn. apply forall_upd; [reflexivity|exact CA].
Qed.
