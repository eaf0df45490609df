(* Histories. *)

From Coq Require Import List ZArith Lia Bool Arith Sorted.
From Coq Require Import ZifyBool ZifyNat.
From Verif Require Import TrkModel TrkSpec TrkProofs TrkProofs2 TrkProofs3 TrkProofs4.
Import ListNotations.
Open Scope Z_scope.

Definition age (a b : frame) : Prop := f_added a <= f_added b.

Record hist (c : conf) (now : Z) (u : ups) (want : nat -> list frame) (rt : nat -> Z) : Prop := Hist {
  h_inv : inv u;
  h_calm : calm u;
  h_want : forall i, of_track i (u_out u) ++ pend u i = want i;
  h_sort : forall i, StronglySorted age (pend u i);
  h_past : forall i f, In f (pend u i) -> f_added f <= now;
  h_max : forall i, Z.of_nat (length (pend u i)) <= max_frames;
  h_timer : forall i, ready u i -> pend u i <> [] -> u_timer u <> None;
  h_soon : 0 <= min_delay c -> forall d, u_timer u = Some d -> d <= now + min_delay c }.

(* in time: only if timers are *)
Definition intime (c : conf) (l now : Z) (u : ups) (rt : nat -> Z) : Prop :=
  (forall d, u_timer u = Some d -> now <= d + l) /\
  (forall i f d, ready u i -> In f (pend u i) -> u_timer u = Some d -> d <= Z.max (f_added f + max_delay c + 200) (rt (sid_of u i)) + min_delay c).

Lemma add_timer_shape now o : (exists d, o = Some d /\ Z.abs (now - d) < 300 /\ add_timer now 0 o = Some d) \/
  (add_timer now 0 o = Some now /\ forall d, o = Some d -> 300 <= Z.abs (now - d)).
Proof.
  unfold add_timer. rewrite Z.add_0_r. destruct o as [d|].
  - destruct (Z.abs (now - d) <? 300) eqn:E; [left; exists d; split; [reflexivity|]; split; [lia|reflexivity]|]. right. split; [reflexivity|]. intros d' K. injection K as <-. lia.
  - right. split; [reflexivity|]. discriminate.
Qed.

Section Effect.
Variables (c : conf) (now now' : Z) (u u' : ups) (want want' : nat -> list frame) (rt rt' : nat -> Z).
Variables (np : nat -> list frame) (nr : nat -> Prop).
Hypothesis H : hist c now u want rt.
Hypothesis HN : now <= now'.
Hypothesis HE : effect now' u u' np nr.
Hypothesis HC : calm u'.
Hypothesis HW : forall i, of_track i (u_out u) ++ np i = want' i.
Hypothesis HP : forall i, np i = pend u i \/ np i = [] \/ exists f, np i = pend u i ++ [f] /\ f_added f = now' /\ Z.of_nat (length (pend u i)) < max_frames.
Hypothesis HR : forall s, rt' s = rt s \/ rt' s = now'.
Hypothesis HX : forall i, nr i -> rt' (sid_of u i) = now'.

Lemma effect_hist : hist c now' u' want' rt'.
Proof using H HN HE HC HW HP.
  clear HR HX. destruct HE as (E1 & E2 & E3 & E4 & E5 & E6). constructor.
  - exact E1.
  - exact HC.
  - intros i. rewrite E2, E3. apply HW.
  - intros i. rewrite E3. destruct (HP i) as [-> |[-> |(f & -> & EF & _)]].
    + apply (h_sort _ _ _ _ _ H).
    + constructor.
    + pose proof (h_past _ _ _ _ _ H i) as PA. pose proof (h_sort _ _ _ _ _ H i) as SO. clear - PA SO EF HN. induction SO as [|x r SO IH FA]; cbn [app].
      * constructor; constructor.
      * constructor; [apply IH; intros y HY; apply PA; right; exact HY|]. apply Forall_app. split; [exact FA|]. constructor; [|constructor]. unfold age. specialize (PA x (or_introl eq_refl)). lia.
  - intros i f HI. rewrite E3 in HI. destruct (HP i) as [K|[K|(f0 & K & EF & _)]]; rewrite K in HI.
    + pose proof (h_past _ _ _ _ _ H i f HI). lia.
    + destruct HI.
    + apply in_app_or in HI as [HI|[<-|[]]]; [pose proof (h_past _ _ _ _ _ H i f HI); lia|lia].
  - intros i. rewrite E3. pose proof (h_max _ _ _ _ _ H i) as MX. destruct (HP i) as [-> |[-> |(f & -> & _ & LM)]]; [exact MX|unfold max_frames; cbn; lia|]. rewrite app_length. cbn [length]. lia.
  - intros i R1 R2. destruct E6 as [(E6 & E7)|E6]; rewrite E6; [|apply timer_some]. destruct (E7 i R1 R2) as (A & B). exact (h_timer _ _ _ _ _ H i A B).
  - intros HM d HD. pose proof (h_soon _ _ _ _ _ H HM) as SO. destruct E6 as [(E6 & _)|E6]; rewrite E6 in HD.
    + specialize (SO d HD). lia.
    + destruct (add_timer_shape now' (u_timer u)) as [(d0 & A & B & C)|(A & B)]; rewrite HD in *; [|injection A as ->; lia]. injection C as ->. specialize (SO _ A). lia.
Qed.

Lemma effect_intime l : 0 <= l < 300 -> 0 <= min_delay c -> 0 <= max_delay c -> intime c l now u rt -> (forall d, u_timer u = Some d -> now' <= d + l) -> intime c l now' u' rt'.
Proof using H HN HE HP HR HX.
  clear HC HW want'. intros HL HM HMX (T1 & T2) OT. destruct HE as (E1 & E2 & E3 & E4 & E5 & E6). split.
  - intros d HD. destruct E6 as [(E6 & _)|E6]; rewrite E6 in HD; [apply OT; exact HD|].
    destruct (add_timer_shape now' (u_timer u)) as [(d0 & A & B & C)|(A & B)]; rewrite HD in *; [|injection A as ->; lia]. injection C as ->. apply OT. exact A.
  - intros i f d R1 HI HD. assert (NE : pend u' i <> []) by (destruct (pend u' i); [destruct HI|discriminate]).
    assert (LI : (i < length (u_tracks u))%nat \/ pend u i = []).
    { destruct (Nat.lt_ge_cases i (length (u_tracks u))) as [K|K]; [left; exact K|right]. unfold pend. replace (nth_error (u_tracks u) i) with (@None track); [reflexivity|]. symmetry. apply nth_error_None. exact K. }
    assert (D1 : d <= now' + min_delay c).
    { pose proof (h_soon _ _ _ _ _ H HM) as SO. destruct E6 as [(E6 & _)|E6]; rewrite E6 in HD.
      - specialize (SO d HD). lia.
      - destruct (add_timer_shape now' (u_timer u)) as [(d0 & A & B & C)|(A & B)]; rewrite HD in *; [|injection A as ->; lia]. injection C as ->. specialize (SO _ A). lia. }
    rewrite E3 in HI. assert (CASE : In f (pend u i) \/ f_added f = now').
    { destruct (HP i) as [K|[K|(f0 & K & EF & _)]]; rewrite K in HI; [left; exact HI|destruct HI|]. apply in_app_or in HI as [HI|[<-|[]]]; [left; exact HI|right; exact EF]. }
    destruct CASE as [IN|EQ]; [|rewrite EQ; lia].
    assert (LT : (i < length (u_tracks u))%nat) by (destruct LI as [K|K]; [exact K|rewrite K in IN; destruct IN]). rewrite (E5 i LT).
    destruct (E4 i R1 NE) as [RD|RN]; [|rewrite (HX i RN); lia].
    destruct (HR (sid_of u i)) as [ER|ER]; rewrite ER; [|lia].
    destruct E6 as [(E6 & _)|E6]; rewrite E6 in HD; [exact (T2 i f d RD IN HD)|].
    assert (TN : u_timer u <> None) by (apply (h_timer _ _ _ _ _ H i RD); destruct (pend u i); [destruct IN|discriminate]).
    destruct (u_timer u) as [d0|] eqn:EU; [|congruence]. specialize (T2 i f d0 RD IN eq_refl). specialize (OT d0 eq_refl).
    destruct (add_timer_shape now' (Some d0)) as [(d1 & A & B & C)|(A & B)]; rewrite HD in *.
    + injection A as ->. injection C as ->. exact T2.
    + injection A as ->. specialize (B d0 eq_refl). lia.
Qed.
End Effect.

Lemma of_app i a b : of_track i (a ++ b) = of_track i a ++ of_track i b.
Proof. unfold of_track. rewrite filter_app, map_app. reflexivity. Qed.

Lemma ssorted_app {A} (R : A -> A -> Prop) a b : StronglySorted R (a ++ b) -> StronglySorted R b.
Proof. induction a as [|x a IH]; cbn; [auto|]. intros S. apply IH. inversion S; assumption. Qed.

Lemma proc_hist c now now' u want rt u' fuel oks : hist c now u want rt -> now <= now' -> (total u < fuel)%nat ->
  process fuel c now' (set_timer u None) oks true = Go u' ->
  hist c now' u' want rt /\ (forall l, 0 <= l -> 0 <= min_delay c -> intime c l now' u' rt).
Proof.
  intros H HN HF HP. pose proof (h_inv _ _ _ _ _ H) as I.
  assert (I0 : inv (set_timer u None)) by exact I.
  pose proof (process_ok c now' fuel (set_timer u None) oks I0 HF eq_refl) as PO. rewrite HP in PO.
  destruct PO as (a & b & P1 & P2 & P3 & P4 & P5 & P6 & P7 & P8 & P9 & P10).
  assert (RD : forall i, ready u' i -> ready u i) by (intros i R; apply (same_ready (set_timer u None) u' i P3) in R; exact R).
  assert (PP : forall i f, In f (pend u' i) -> In f (pend u i)).
  { intros i f HI. change (pend u i) with (pend (set_timer u None) i). rewrite P5, app_assoc. apply in_or_app. right. exact HI. }
  assert (SO : forall i, StronglySorted age (pend u' i)).
  { intros i. pose proof (h_sort _ _ _ _ _ H i) as S. change (pend u i) with (pend (set_timer u None) i) in S. rewrite P5, app_assoc in S. exact (ssorted_app _ _ _ S). }
  assert (TM : forall d, u_timer u' = Some d -> d <= now' + min_delay c /\ now' + 50 < d).
  { intros d HD. destruct P10 as [(_ & K)|(j & f & r & R & K1 & K2 & K3 & _)]; [congruence|]. rewrite K3 in HD. injection HD as <-. unfold ready_margin in K2. split; [|lia].
    assert (In f (pend u j)) by (change (pend u j) with (pend (set_timer u None) j); rewrite K1; apply in_or_app; right; left; reflexivity).
    pose proof (h_past _ _ _ _ _ H j f H0). lia. }
  split.
  - constructor.
    + exact P2.
    + refine (process_calm c now' true fuel (set_timer u None) oks u' _ HP). exact (h_calm _ _ _ _ _ H).
    + intros i. rewrite P1. cbn [set_timer u_out]. rewrite !of_app, <- !app_assoc. rewrite <- (h_want _ _ _ _ _ H i). f_equal. symmetry. exact (P5 i).
    + exact SO.
    + intros i f HI. pose proof (h_past _ _ _ _ _ H i f (PP i f HI)). lia.
    + intros i. pose proof (h_max _ _ _ _ _ H i) as MX. change (pend u i) with (pend (set_timer u None) i) in MX. rewrite P5, !app_length in MX. lia.
    + intros i R NE. destruct P10 as [(K & _)|(j & f & r & _ & _ & _ & K3 & _)]; [|congruence]. exfalso. apply NE. specialize (K i (RD i R)). rewrite P5 in K.
      assert (L : length (of_track i a ++ of_track i b ++ pend u' i) = length (of_track i a)) by congruence. rewrite !app_length in L. destruct (pend u' i); [reflexivity|cbn in L; lia].
    + intros _ d HD. destruct (TM d HD). lia.
  - intros l HL HM. split.
    + intros d HD. destruct (TM d HD). lia.
    + intros i f d R HI HD. destruct (TM d HD) as (D1 & _). destruct (pend u' i) as [|f0 r] eqn:EP; [destruct HI|].
      pose proof (P9 i f0 r (RD i R) EP) as B. assert (f_added f0 <= f_added f).
      { destruct HI as [<-|HI]; [lia|]. specialize (SO i). rewrite EP in SO. inversion SO as [|? ? ? FA]; subst. rewrite Forall_forall in FA. exact (FA f HI). }
      lia.
Qed.

Lemma calm_app u : calm u -> calm (set_streams u (u_streams u ++ [Stream false true None])).
Proof. intros C. unfold calm. cbn. apply Forall_app. split; [exact C|]. constructor; [discriminate|constructor]. Qed.

Lemma attach_calm c now u sid s ts : calm u -> nth_error (u_streams u) sid = Some s -> calm (attach c now u sid s ts).
Proof.
  intros C HS. unfold calm, attach. cbn. apply forall_upd; [|exact C]. unfold calm in C. rewrite Forall_forall in C. specialize (C s (nth_error_In _ _ HS)).
  destruct (s_meta s) eqn:EM; [rewrite EM; exact C|]. destruct (_ && _); cbn; discriminate.
Qed.

(* one event: never a use of freed memory, and the history goes on *)
Lemma hist_step c now u want rt now' op : hist c now u want rt -> now <= now' -> top_ok op ->
  match top_step c now' u op with
  | (Go u', acc) =>
      let want' := if acc then want_step u now' op want else want in
      let rt' := if acc then meta_step now' op rt else rt in
      hist c now' u' want' rt' /\
      (forall l, 0 <= l < 300 -> 0 <= min_delay c -> 0 <= max_delay c -> intime c l now u rt -> (forall d, u_timer u = Some d -> now' <= d + l) -> intime c l now' u' rt')
  | (Gone, _) => True
  | (Ub, _) => False
  end.
Proof.
  intros H HN OK. pose proof (h_inv _ _ _ _ _ H) as I. pose proof (h_calm _ _ _ _ _ H) as CA. pose proof (h_want _ _ _ _ _ H) as HW.
  assert (NONE : hist c now' u want rt /\
      (forall l, 0 <= l < 300 -> 0 <= min_delay c -> 0 <= max_delay c -> intime c l now u rt -> (forall d, u_timer u = Some d -> now' <= d + l) -> intime c l now' u rt)).
  { pose proof (effect_refl now' u I) as E. split.
    - eapply effect_hist; try eassumption. auto.
    - intros l L1 L2 L3 L4 L5. eapply effect_intime; try eassumption; auto; intros i []. }
  destruct op as [|sid media|i dts id alloc|i unpub|sid|oks unpub].
  - cbn [top_step]. pose proof (stream_step now' u I) as E. cbv zeta. split.
    + eapply effect_hist; try eassumption; [apply calm_app; exact CA|auto].
    + intros l L1 L2 L3 L4 L5. eapply effect_intime; try eassumption; auto; intros i [].
  - cbn [top_step]. destruct (nth_error (u_streams u) sid) as [s|] eqn:HS; [|exact NONE]. destruct (s_live s) eqn:HL; cbn [negb]; [|exact NONE].
    pose proof (conn_step c now' u sid media s I HS HL) as E. destruct (find_track u sid media) as [i|] eqn:EF.
    + destruct (find_ok _ _ _ _ EF) as (t & HT & HSI & _). rewrite HT. destruct (t_input t) eqn:HI; [exact NONE|].
      specialize (E t HT HI). cbv zeta in E |- *. fold pops.
      match type of E with effect _ _ ?X _ _ => set (u' := X) in * end.
      assert (EW : forall j, of_track j (u_out u) ++ (if (j =? i)%nat then [] else pend u j) = want_step u now' (TConn sid media) want j).
      { intros j. cbn [want_step]. rewrite EF. destruct (j =? i)%nat; [apply app_nil_r|apply HW]. }
      split.
      * eapply effect_hist; [exact H|exact HN|exact E| |exact EW|intros j; cbn beta; destruct (j =? i)%nat; auto].
        unfold u'. apply attach_calm; destruct (_ && _); assumption.
      * intros l L1 L2 L3 L4 L5. eapply effect_intime; [exact H|exact HN|exact E|intros j; cbn beta; destruct (j =? i)%nat; auto|auto|intros j []|exact L1|exact L2|exact L3|exact L4|exact L5].
    + destruct (s_meta s); [exact NONE|]. cbv zeta. match type of E with effect _ _ ?X _ _ => set (u' := X) in * end.
      assert (EW : forall j, of_track j (u_out u) ++ pend u j = want_step u now' (TConn sid media) want j) by (intros j; cbn [want_step]; rewrite EF; apply HW).
      split.
      * eapply effect_hist; [exact H|exact HN|exact E| |exact EW|auto]. unfold u'. apply attach_calm; assumption.
      * intros l L1 L2 L3 L4 L5. eapply effect_intime; [exact H|exact HN|exact E|auto|auto|intros j []|exact L1|exact L2|exact L3|exact L4|exact L5].
  - destruct (nth_error (u_tracks u) i) as [t|] eqn:HT; [|cbn [top_step]; rewrite HT; exact NONE].
    destruct (t_input t) eqn:HI; [|cbn [top_step]; rewrite HT, HI; exact NONE].
    pose proof (add_step c now' u i t dts id alloc I HT HI) as E. destruct (top_step c now' u (TAdd i dts id alloc)) as [[u'| |] acc]; cbn [fst snd] in E; [|exact Logic.I|destruct E].
    destruct acc; [|subst u'; exact NONE]. destruct E as (E & ES & MX). cbv zeta.
    assert (EW : forall j, of_track j (u_out u) ++ (if (j =? i)%nat then pend u j ++ [Frame now' dts id] else pend u j) = want_step u now' (TAdd i dts id alloc) want j).
    { intros j. cbn [want_step]. rewrite <- HW. destruct (j =? i)%nat; [rewrite app_assoc; reflexivity|reflexivity]. }
    assert (EP : forall j, (if (j =? i)%nat then pend u j ++ [Frame now' dts id] else pend u j) = pend u j \/
       (if (j =? i)%nat then pend u j ++ [Frame now' dts id] else pend u j) = [] \/
       exists f, (if (j =? i)%nat then pend u j ++ [Frame now' dts id] else pend u j) = pend u j ++ [f] /\ f_added f = now' /\ Z.of_nat (length (pend u j)) < max_frames).
    { intros j. destruct (j =? i)%nat eqn:EJ; [|left; reflexivity]. right. right. eexists. split; [reflexivity|]. split; [reflexivity|]. replace j with i by lia. exact MX. }
    split.
    + eapply effect_hist; [exact H|exact HN|exact E| |exact EW|exact EP]. unfold calm. rewrite ES. exact CA.
    + intros l L1 L2 L3 L4 L5. eapply effect_intime; [exact H|exact HN|exact E|exact EP|auto|intros j []|exact L1|exact L2|exact L3|exact L4|exact L5].
  - cbn [top_ok] in OK. subst unpub. destruct (nth_error (u_tracks u) i) as [t|] eqn:HT; [|cbn [top_step]; rewrite HT; exact NONE].
    destruct (t_input t) eqn:HI; [|cbn [top_step]; rewrite HT, HI; exact NONE].
    destruct (disc_step c now' u i t I HT HI) as (u' & ES & E). rewrite ES. cbv zeta. split.
    + eapply effect_hist; [exact H|exact HN|exact E| |exact HW|auto].
      cbn [top_step] in ES. rewrite HT, HI in ES. cbn [negb] in ES. destruct (_ =? _)%nat; [|injection ES as <-; exact CA].
      injection ES as ES. revert ES. apply close_calm. exact CA.
    + intros l L1 L2 L3 L4 L5. eapply effect_intime; [exact H|exact HN|exact E|auto|auto|intros j []|exact L1|exact L2|exact L3|exact L4|exact L5].
  - cbn [top_step]. destruct (nth_error (u_streams u) sid) as [s|] eqn:HS; [|exact NONE]. destruct (s_timer s) as [d|] eqn:HD; [|exact NONE].
    destruct (now' <? d); [exact NONE|]. destruct (meta_ok now' u sid s d I CA HS HD) as (E & CU). cbv zeta in E, CU |- *.
    match type of CU with calm ?X => set (u' := X) in * end. split.
    + eapply effect_hist; [exact H|exact HN|exact E|exact CU|exact HW|auto].
    + intros l L1 L2 L3 L4 L5. eapply effect_intime; [exact H|exact HN|exact E|auto| | |exact L1|exact L2|exact L3|exact L4|exact L5].
      * intros x. cbn [meta_step]. destruct (x =? sid)%nat; auto.
      * intros j EJ. cbn beta in EJ. rewrite EJ. cbn [meta_step]. rewrite Nat.eqb_refl. reflexivity.
  - cbn [top_ok] in OK. subst unpub. cbn [top_step]. destruct (u_timer u) as [d|] eqn:HD; [|exact NONE]. destruct (now' <? d); [exact NONE|].
    assert (HF : (total u < S (total u))%nat) by lia.
    pose proof (process_ok c now' (S (total u)) (set_timer u None) oks I HF eq_refl) as PO.
    destruct (process (S (total u)) c now' (set_timer u None) oks true) as [u'| |] eqn:EP; [|exact Logic.I|destruct PO].
    cbv zeta. destruct (proc_hist _ _ _ _ _ _ _ _ _ H HN HF EP) as (A & B). split; [exact A|]. intros l L1 L2 _ _ _. apply B; [lia|exact L2].
Qed.

Lemma hist_init c now : hist c now ups0 (fun _ => []) (fun _ => 0).
Proof.
  assert (NT : forall i, nth_error (u_tracks ups0) i = None) by (intros [|?]; reflexivity).
  assert (PE : forall i, pend ups0 i = []) by (intros i; unfold pend; rewrite NT; reflexivity).
  constructor.
  - split; [intros i t HT; rewrite NT in HT; discriminate|].
    assert (TR : forall key, tree_ok [] (g key ups0)).
    { intros key. split; [constructor|]. split; [constructor|]. intros k i. unfold g. rewrite NT. split; [intros []|discriminate]. }
    split; [apply TR|]. split; [apply TR|]. intros i t s HT. rewrite NT in HT. discriminate.
  - constructor.
  - intros i. rewrite PE. reflexivity.
  - intros i. rewrite PE. constructor.
  - intros i f HI. rewrite PE in HI. destruct HI.
  - intros i. rewrite PE. cbn. unfold max_frames. lia.
  - intros i _ NE. rewrite PE in NE. congruence.
  - discriminate.
Qed.

Lemma trun_hist c late now u want rt : trun c late now u want rt -> hist c now u want rt.
Proof.
  induction 1 as [now|now u want rt now' op u' acc R IH HN OT OK ES]; [apply hist_init|].
  pose proof (hist_step c now u want rt now' op IH HN OK) as S. rewrite ES in S. exact (proj1 S).
Qed.

Lemma trun_intime c l now u want rt : 0 <= l < 300 -> 0 <= min_delay c -> 0 <= max_delay c -> trun c (Some l) now u want rt -> intime c l now u rt.
Proof.
  intros HL HM HMX R. remember (Some l) as late eqn:E. induction R as [now|now u want rt now' op u' acc R IH HN OT OK ES].
  - split; [discriminate|]. intros i f d _ HI. unfold pend in HI. destruct i; destruct HI.
  - subst late. pose proof (hist_step c now u want rt now' op (trun_hist _ _ _ _ _ _ R) HN OK) as S. rewrite ES in S.
    apply (proj2 S l HL HM HMX IH). exact OT.
Qed.
