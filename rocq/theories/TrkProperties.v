(* The tracks of an RTMP upstream: C67 - C70. *)

From Coq Require Import List ZArith Lia Bool Arith Sorted.
From Coq Require Import ZifyBool ZifyNat.
From Verif Require Import TrkModel TrkSpec TrkProofs TrkProofs2 TrkProofs3 TrkProofs4 TrkProofs5.
Import ListNotations.
Open Scope Z_scope.

(* ---- C67: each frame of a track is written once, in order ---- *)

(* what was written of a track, then what waits, is what was wanted *)
Theorem C67_order : forall c late now u want rt, trun c late now u want rt -> forall i, of_track i (u_out u) ++ pend u i = want i.
Proof. intros c late now u want rt R. exact (h_want _ _ _ _ _ (trun_hist _ _ _ _ _ _ R)). Qed.
Print Assumptions C67_order.

Theorem C67_safe : forall c late now u want rt now' op, trun c late now u want rt -> now <= now' -> top_ok op -> fst (top_step c now' u op) <> Ub.
Proof.
  intros c late now u want rt now' op R HN OK E. pose proof (hist_step c now u want rt now' op (trun_hist _ _ _ _ _ _ R) HN OK) as S.
  destruct (top_step c now' u op) as [[u'| |] acc]; cbn [fst] in E; [discriminate|discriminate|exact S].
Qed.
Print Assumptions C67_safe.

Theorem C67_bound : forall c late now u want rt, trun c late now u want rt -> forall i, Z.of_nat (length (pend u i)) <= 16384.
Proof. intros c late now u want rt R. exact (h_max _ _ _ _ _ (trun_hist _ _ _ _ _ _ R)). Qed.
Print Assumptions C67_bound.

(* ---- C68: what one run of the process timer writes ---- *)

(* times that fit a tree key *)
Definition dts_ok (u : ups) : Prop := forall i f, ready u i -> In f (pend u i) -> 0 <= f_dts f < 2 ^ 64.
Definition dts_sorted (u : ups) : Prop := forall i, ready u i -> StronglySorted (fun a b => f_dts a <= f_dts b) (pend u i).

Theorem C68_merge : forall c late now u want rt now' oks u' d,
  trun c late now u want rt -> now <= now' -> u_timer u = Some d -> d <= now' -> top_step c now' u (TProc oks true) = (Go u', true) ->
  exists a b, u_out u' = u_out u ++ a ++ b /\
    (* a: frames that waited for min_delay, less the margin; b: frames that waited for max_delay *)
    Forall (fun x => ready u (fst x) /\ f_added (snd x) + min_delay c <= now' + 50) a /\
    Forall (fun x => ready u (fst x) /\ f_added (snd x) + max_delay c <= now') b /\
    (* a is in the order of the times, over all tracks, and comes before all that is left *)
    (dts_ok u -> dts_sorted u ->
       StronglySorted (fun x y => f_dts (snd x) <= f_dts (snd y)) a /\
       forall i f, ready u i -> (In f (of_track i b) \/ In f (pend u' i)) -> Forall (fun x => f_dts (snd x) <= f_dts f) a) /\
    (* what is left did not wait for too long *)
    (forall i f, ready u i -> In f (pend u' i) -> now' < f_added f + max_delay c + 200) /\
    (* nothing is left, or the timer is set for the frame with the lowest time that was not in a *)
    (((forall i, ready u i -> pend u' i = []) /\ b = [] /\ u_timer u' = None) \/
     (exists i f, ready u i /\ (In f (of_track i b) \/ In f (pend u' i)) /\ now' + 50 < f_added f + min_delay c /\ u_timer u' = Some (f_added f + min_delay c) /\
        (dts_ok u -> dts_sorted u -> forall j f', ready u j -> (In f' (of_track j b) \/ In f' (pend u' j)) -> f_dts f <= f_dts f'))).
Proof.
  intros c late now u want rt now' oks u' d R HN HT HD HS. pose proof (trun_hist _ _ _ _ _ _ R) as H. pose proof (h_inv _ _ _ _ _ H) as I.
  cbn [top_step] in HS. rewrite HT in HS. replace (now' <? d) with false in HS by lia. apply (f_equal fst) in HS. cbn [fst] in HS.
  assert (HF : (total u < S (total u))%nat) by lia. set (u0 := set_timer u None) in *.
  pose proof (process_ok c now' (S (total u)) u0 oks I HF eq_refl) as PO. rewrite HS in PO.
  destruct PO as (a & b & P1 & P2 & P3 & P4 & P5 & P6 & P7 & P8 & P9 & P10).
  assert (KEY : dts_ok u -> forall i f, ready u i -> In f (pend u i) -> ukey (f_dts f) = f_dts f).
  { intros DO i f RD HI. unfold ukey. apply Z.mod_small. exact (DO i f RD HI). }
  assert (PE : forall i, pend u i = of_track i a ++ of_track i b ++ pend u' i) by exact P5.
  assert (LEFT : forall i f, (In f (of_track i b) \/ In f (pend u' i)) <-> In f (of_track i b ++ pend u' i)) by (intros i f; symmetry; apply in_app_iff).
  assert (MIN : dts_ok u -> dts_sorted u -> forall a1 x a2, a = a1 ++ x :: a2 -> forall j f, ready u j -> In f (of_track j (x :: a2) ++ of_track j b ++ pend u' j) -> f_dts (snd x) <= f_dts f).
  { intros DO DS a1 x a2 EA j f RD HI.
    assert (EP : pend u j = of_track j a1 ++ of_track j (x :: a2) ++ of_track j b ++ pend u' j) by (rewrite PE, EA, of_app, <- app_assoc; reflexivity).
    destruct (of_track j (x :: a2) ++ of_track j b ++ pend u' j) as [|f0 r] eqn:EQ; [destruct HI|].
    pose proof (P8 a1 x a2 j f0 r EA RD EP) as K.
    assert (RX : ready u (fst x) /\ In (snd x) (pend u (fst x))).
    { split; [rewrite EA in P6; apply Forall_app in P6 as (_ & P6); exact (proj1 (Forall_inv P6))|].
      rewrite PE. apply in_or_app. left. rewrite EA, of_app. apply in_or_app. right. destruct x as [ix fx]. rewrite of_cons. cbn [fst snd]. rewrite Nat.eqb_refl. left. reflexivity. }
    destruct RX as (RX1 & RX2). rewrite (KEY DO _ _ RX1 RX2) in K.
    assert (IN0 : In f0 (pend u j)) by (rewrite EP; apply in_or_app; right; left; reflexivity). rewrite (KEY DO _ _ RD IN0) in K.
    pose proof (DS j RD) as SO. rewrite EP in SO. apply ssorted_app in SO. inversion SO as [|? ? ? FA]; subst. destruct HI as [<-|HI]; [exact K|].
    rewrite Forall_forall in FA. specialize (FA f HI). cbn beta in FA. lia. }
  exists a, b. split; [exact P1|]. split; [exact P6|]. split; [exact P7|]. split; [|split].
  - intros DO DS. split.
    + assert (G : forall a2 a1, a = a1 ++ a2 -> StronglySorted (fun x y => f_dts (snd x) <= f_dts (snd y)) a2).
      { induction a2 as [|x a2 IH]; intros a1 EA; [constructor|]. constructor.
        - apply (IH (a1 ++ [x])). rewrite <- app_assoc. exact EA.
        - apply Forall_forall. intros y HY. apply (MIN DO DS a1 x a2 EA (fst y) (snd y)).
          + rewrite Forall_forall in P6. apply (P6 y). rewrite EA. apply in_or_app. right. right. exact HY.
          + apply in_or_app. left. unfold of_track. apply in_map. apply filter_In. split; [right; exact HY|apply Nat.eqb_refl]. }
      exact (G a [] eq_refl).
    + intros i f RD HI. apply LEFT in HI. apply Forall_forall. intros x HX. apply in_split in HX as (a1 & a2 & EA).
      apply (MIN DO DS a1 x a2 EA i f RD). apply in_or_app. right. exact HI.
  - intros i f RD HI. destruct (pend u' i) as [|f0 r] eqn:EP; [destruct HI|]. pose proof (P9 i f0 r RD EP) as B.
    assert (SO : StronglySorted age (f0 :: r)) by (pose proof (h_sort _ _ _ _ _ H i) as S; rewrite PE, app_assoc, EP in S; exact (ssorted_app _ _ _ S)).
    assert (f_added f0 <= f_added f) by (destruct HI as [<-|HI]; [lia|]; inversion SO as [|? ? ? FA]; subst; rewrite Forall_forall in FA; exact (FA f HI)). lia.
  - destruct P10 as [(K & KT)|(j & f & r & RJ & K1 & K2 & K3 & K4)].
    + left. assert (E0 : forall i, ready u i -> of_track i b = [] /\ pend u' i = []).
      { intros i RD. specialize (K i RD). change (pend u0 i) with (pend u i) in K. rewrite PE in K.
        assert (L : length (of_track i a ++ of_track i b ++ pend u' i) = length (of_track i a)) by congruence. rewrite !app_length in L.
        destruct (of_track i b), (pend u' i); cbn in L; try lia. auto. }
      split; [intros i RD; exact (proj2 (E0 i RD))|]. split; [|exact KT]. destruct b as [|x b]; [reflexivity|].
      pose proof (proj1 (Forall_inv P7)) as RX. destruct (E0 _ RX) as (E1 & _). destruct x as [ix fx]. rewrite of_cons in E1. cbn [fst] in E1. rewrite Nat.eqb_refl in E1. discriminate.
    + right. exists j, f. split; [exact RJ|].
      assert (EJ : of_track j b ++ pend u' j = f :: r) by (change (pend u0 j) with (pend u j) in K1; rewrite PE in K1; apply app_inv_head in K1; exact K1).
      split; [apply LEFT; rewrite EJ; left; reflexivity|]. split; [exact K2|]. split; [exact K3|].
      intros DO DS j' f' RD HI. apply LEFT in HI. destruct (of_track j' b ++ pend u' j') as [|f0 r0] eqn:EP; [destruct HI|].
      assert (EQ : pend u j' = of_track j' a ++ f0 :: r0) by (rewrite PE, EP; reflexivity).
      pose proof (K4 j' f0 r0 RD EQ) as KK.
      assert (I1 : In f (pend u j)) by (rewrite PE, EJ; apply in_or_app; right; left; reflexivity).
      assert (I2 : In f0 (pend u j')) by (rewrite EQ; apply in_or_app; right; left; reflexivity).
      rewrite (KEY DO _ _ RJ I1), (KEY DO _ _ RD I2) in KK.
      pose proof (DS j' RD) as SO. rewrite EQ in SO. apply ssorted_app in SO. inversion SO as [|? ? ? FA]; subst. destruct HI as [<-|HI]; [exact KK|].
      rewrite Forall_forall in FA. specialize (FA f' HI). cbn beta in FA. lia.
Qed.
Print Assumptions C68_merge.

(* ---- C69: no frame waits for ever ---- *)

(* a frame that waits has a timer: the process timer, or that of the metadata of
   its stream *)
Theorem C69_timers : forall c late now u want rt, trun c late now u want rt ->
  forall i f, In f (pend u i) ->
    (ready u i /\ u_timer u <> None) \/
    (exists t s, nth_error (u_tracks u) i = Some t /\ nth_error (u_streams u) (t_sid t) = Some s /\ s_meta s = false /\ s_timer s <> None).
Proof.
  intros c late now u want rt R i f HI. pose proof (trun_hist _ _ _ _ _ _ R) as H. pose proof (h_inv _ _ _ _ _ H) as (I1 & _ & _ & I4).
  unfold pend in HI. destruct (nth_error (u_tracks u) i) as [t|] eqn:HT; [|destruct HI]. destruct (I1 i t HT) as (T1 & T2 & T3 & T4).
  assert (NE : content (t_fl t) <> []) by (destruct (content (t_fl t)); [destruct HI|discriminate]).
  destruct (nth_error (u_streams u) (t_sid t)) as [s|] eqn:HS; [|apply nth_error_None in HS; lia].
  destruct (I4 i t s HT HS (T4 (or_intror NE))) as (_ & L). destruct (s_meta s) eqn:EM.
  - left. assert (RD : ready u i) by (exists t, s; auto). split; [exact RD|]. apply (h_timer _ _ _ _ _ H i RD). unfold pend. rewrite HT. exact NE.
  - right. exists t, s. destruct L as [L|L]; [discriminate|]. auto.
Qed.
Print Assumptions C69_timers.

(* if the process timer is never late by more than l ms, then a frame that still
   waits is young, or the metadata of its stream was written a short time ago *)
Theorem C69_latency : forall c l now u want rt, 0 <= l < 300 -> 0 <= min_delay c -> 0 <= max_delay c -> trun c (Some l) now u want rt ->
  forall i f, ready u i -> In f (pend u i) -> now <= Z.max (f_added f + max_delay c + 200) (rt (sid_of u i)) + min_delay c + l.
Proof.
  intros c l now u want rt HL HM HMX R i f RD HI. pose proof (trun_hist _ _ _ _ _ _ R) as H. destruct (trun_intime _ _ _ _ _ _ HL HM HMX R) as (T1 & T2).
  assert (TN : u_timer u <> None) by (apply (h_timer _ _ _ _ _ H i RD); destruct (pend u i); [destruct HI|discriminate]).
  destruct (u_timer u) as [d|] eqn:ED; [|congruence]. specialize (T1 d eq_refl). specialize (T2 i f d RD HI eq_refl). lia.
Qed.
Print Assumptions C69_latency.

(* ---- C70: a track that is closed frees nothing that is used afterwards ---- *)

(* without a buffer for the unpublish message the upstream is freed while the
   track is closed, and then the track is used *)
Theorem C70_close_refuted : ~ (forall c late now u want rt now' op, trun c late now u want rt -> now <= now' -> fst (top_step c now' u op) <> Ub).
Proof.
  intros H. set (c := Conf 500 1000 3000).
  assert (R0 := trun_start c None 0).
  assert (R1 := trun_step c None 0 ups0 _ _ 0 TStream _ _ R0 (Z.le_refl 0) Logic.I Logic.I eq_refl).
  assert (R2 := trun_step c None 0 _ _ _ 0 (TConn 0 0) _ _ R1 (Z.le_refl 0) Logic.I Logic.I eq_refl).
  apply (H _ _ _ _ _ _ 0 (TDisc 0 false) R2 (Z.le_refl 0)). reflexivity.
Qed.
Print Assumptions C70_close_refuted.

(* ---- concrete cases ---- *)

Definition top_okb (op : top) : bool := match op with TDisc _ unpub | TProc _ unpub => unpub | _ => true end.
Definition on_timeb (late : option Z) (u : ups) (now : Z) : bool :=
  match late, u_timer u with Some l, Some d => now <=? d + l | _, _ => true end.

Fixpoint ex_run (c : conf) (late : option Z) (now : Z) (u : ups) (ops : list (Z * top)) : option (Z * ups) :=
  match ops with
  | [] => Some (now, u)
  | (t, op) :: r =>
      if (now <=? t) && on_timeb late u t && top_okb op then
        match top_step c t u op with (Go u', _) => ex_run c late t u' r | _ => None end
      else None
  end.

Lemma ex_run_ok c late : forall ops now u want rt now' u', trun c late now u want rt -> ex_run c late now u ops = Some (now', u') ->
  exists want' rt', trun c late now' u' want' rt'.
Proof.
  induction ops as [|[t op] r IH]; intros now u want rt now' u' R HS; cbn [ex_run] in HS.
  - injection HS as <- <-. eauto.
  - destruct (now <=? t) eqn:E1; [|discriminate]. destruct (on_timeb late u t) eqn:E2; [|discriminate]. destruct (top_okb op) eqn:E3; [|discriminate]. cbn [andb] in HS.
    destruct (top_step c t u op) as [[u1| |] acc] eqn:E; try discriminate. eapply IH; [|exact HS]. eapply trun_step; [exact R|lia| | |exact E].
    + unfold on_time. unfold on_timeb in E2. destruct late as [l|]; [|exact Logic.I]. intros d HD. rewrite HD in E2. lia.
    + destruct op; cbn in E3 |- *; auto.
Qed.

(* what of the state is compared *)
Definition ex_view (n : nat) (x : option (Z * ups)) : option (Z * list (nat * Z) * list (list Z) * option Z) :=
  match x with
  | Some (now, u) => Some (now, map (fun y => (fst y, f_id (snd y))) (u_out u), map (fun i => map f_id (pend u i)) (seq 0 n), u_timer u)
  | None => None
  end.

Lemma ex_glue c late ops n v : ex_view n (ex_run c late 0 ups0 ops) = Some v ->
  exists now u want rt, trun c late now u want rt /\ Some v = ex_view n (Some (now, u)).
Proof.
  intros H. destruct (ex_run c late 0 ups0 ops) as [[now u]|] eqn:E; [|discriminate]. destruct (ex_run_ok c late ops 0 ups0 _ _ now u (trun_start c late 0) E) as (w & r & R).
  exists now, u, w, r. split; [exact R|]. symmetry. exact H.
Qed.

Definition ex_conf : conf := Conf 500 1000 3000.
(* video and audio frames arrive out of order; the metadata is written; the
   frames are written in the order of their times; one waits *)
Definition ex_ops : list (Z * top) :=
  [(0, TStream); (0, TConn 0 0); (0, TConn 0 1); (0, TAdd 0 1000 1 true); (10, TAdd 0 1040 2 true); (20, TMeta 0); (30, TAdd 1 1010 3 true); (40, TAdd 1 1050 4 true);
   (50, TProc [] true); (505, TProc [] true); (510, TAdd 0 1080 5 true); (560, TProc [] true); (600, TDisc 1 true)].

Example C67_ex : exists now u want rt, trun ex_conf (Some 60) now u want rt /\
  Some (600, [(0%nat, 1); (1%nat, 3); (0%nat, 2); (1%nat, 4)], [[5]; []], Some 1010) = ex_view 2 (Some (now, u)).
Proof. apply (ex_glue ex_conf (Some 60) ex_ops 2). vm_compute. reflexivity. Qed.

(* a track that stays silent does not hold up the other for longer than max_delay *)
Definition ex_ops2 : list (Z * top) :=
  [(0, TStream); (0, TConn 0 0); (0, TConn 0 1); (0, TMeta 0); (0, TAdd 0 5000 1 true); (0, TAdd 1 9000 2 true); (10, TProc [] true); (400, TAdd 0 5040 3 true)].
Example C69_ex : exists now u want rt, trun ex_conf (Some 20) now u want rt /\ Some (400, [], [[1; 3]; [2]], Some 500) = ex_view 2 (Some (now, u)).
Proof. apply (ex_glue ex_conf (Some 20) ex_ops2 2). vm_compute. reflexivity. Qed.
