(* Proofs about the segment index: when storage works, nothing is acknowledged
   before it is stored. *)

From Coq Require Import ZArith List Bool Lia ZifyBool Sorted Permutation.
From Verif Require Import IdxModel IdxSpec IdxProofs IdxProofs2 IdxProofs3 IdxProofs4 IdxProofs5
  IdxProofs6 IdxProofs7 IdxProofs8 IdxProofs9.
Import ListNotations.
Open Scope Z_scope.

Definition clab (l : lab) : Prop :=
  match l with
  | LAck _ | LCut _ => False
  | LMark _ ok => ok = true
  | LFree _ p => p <> PNone
  | _ => True
  end.

(* A segment that waits for its media file is in memory. *)
Definition keep (s : st) (k : Z) : Prop :=
  exists x, In x (s_all s) /\ x_key x = k /\ x_per x = PNone /\ x_free x = false.

Record cal (c : conf) (N : Z) (a : st * hand) : Prop := {
  k_err : forall x, In x (s_all (fst a)) -> x_per x <> PErr;
  k_free : forall k, In (EFree k) (s_out (fst a)) -> In (EMedia k) (s_out (fst a));
  k_snap : forall x n, In x (s_all (fst a)) -> x_snap x = Some n -> sn_fr n = sn_max n;
  k_ps : forall n, s_psnap (fst a) = Some n -> sn_fr n = sn_max n;
  k_hand : forall n, In n (snd a) -> sn_fr n = sn_max n;
  k_wr : forall f, s_wr (fst a) = Some f -> s_wfr (fst a) = Some (fi_max f);
  k_ack : forall m, In (EAck m) (s_out (fst a)) ->
    covered (fst a) m /\
    (m < s_min (fst a) \/ exists f, In (EStored f) (s_out (fst a)) /\ fi_max f = m);
  k_orc : s_orc (fst a) = [];
  k_ready : forall k ex, In (EReady k ex) (s_out (fst a)) ->
    keep (fst a) k \/ In (EMedia k) (s_out (fst a));
  k_late : forall k, In (EMedia k) (s_out (fst a)) ->
    k / c_bucket c * c_bucket c + c_bucket c <= N;
  k_held : forall x, In x (s_all (fst a)) -> x_free x = true -> x_per x <> PNone
}.

(* What the indexes may become. *)
Definition fine (s s' : st) : Prop :=
  s_top s <= s_top s' /\
  (forall y, In y (s_all s') -> (exists x, In x (s_all s) /\
     x_key y = x_key x /\ x_per y = x_per x /\ x_free y = x_free x)).

Lemma covered_map : forall s s' f m,
  s_top s <= s_top s' -> s_all s' = map f (s_all s) ->
  (forall x, x_key (f x) = x_key x /\ (x_per x <> PNone -> x_per (f x) <> PNone)) ->
  covered s m -> covered s' m.
Proof.
  intros s s' f m HT E HF [A B]. split; [lia|]. intros y Hy HL. rewrite E in Hy.
  apply in_map_iff in Hy. destruct Hy as (x & <- & Hx). destruct (HF x) as [F1 F2].
  apply F2, B; [exact Hx|lia].
Qed.

Lemma keep_map : forall s s' f k,
  s_all s' = map f (s_all s) ->
  (forall x, x_key (f x) = x_key x /\ x_per (f x) = x_per x /\ x_free (f x) = x_free x) ->
  keep s k -> keep s' k.
Proof.
  intros s s' f k E HF (x & A & B & D & F). exists (f x). rewrite E.
  destruct (HF x) as (F1 & F2 & F3). split; [apply in_map; exact A|]. repeat split; congruence.
Qed.

(* Events that say nothing about this. *)
Definition silent (v : ev) : Prop :=
  match v with
  | EFree _ | EMedia _ | EAck _ | EReady _ _ => False
  | _ => True
  end.

Lemma silent_in : forall L o v, Forall silent L -> ~ silent v -> In v (L ++ o) <-> In v o.
Proof.
  intros L o v H HV. rewrite in_app_iff. rewrite Forall_forall in H.
  split; [intros [A|A]; [destruct (HV (H _ A))|exact A]|right; assumption].
Qed.

Lemma cal_same : forall c N M s s' e e' L f,
  cal c N (s, e) -> N <= M -> s_out s' = L ++ s_out s -> Forall silent L ->
  s_all s' = map f (s_all s) ->
  (forall x, x_key (f x) = x_key x /\ x_per (f x) = x_per x /\ x_free (f x) = x_free x) ->
  (forall x n, In x (s_all s) -> x_snap (f x) = Some n -> sn_fr n = sn_max n) ->
  (forall n, s_psnap s' = Some n -> sn_fr n = sn_max n) ->
  (forall n, In n e' -> sn_fr n = sn_max n) ->
  (forall g, s_wr s' = Some g -> s_wfr s' = Some (fi_max g)) ->
  s_min s <= s_min s' -> s_top s <= s_top s' -> s_orc s' = [] ->
  cal c M (s', e').
Proof.
  intros c N M s s' e e' L f [] HN E HL EA HF HSN HPS HE HW HM HT HO. cbn [fst snd] in *.
  assert (IN : forall v, ~ silent v -> In v (s_out s') <-> In v (s_out s)).
  { intros v HV. rewrite E. apply silent_in; assumption. }
  assert (AL : forall y, In y (s_all s') -> exists x, In x (s_all s) /\ y = f x).
  { intros y Hy. rewrite EA in Hy. apply in_map_iff in Hy. destruct Hy as (x & <- & Hx).
    exists x. split; [exact Hx|reflexivity]. }
  split; cbn [fst snd]; try assumption.
  - intros y Hy. destruct (AL y Hy) as (x & Hx & ->). destruct (HF x) as (_ & -> & _).
    apply k_err0, Hx.
  - intros k. rewrite !IN by (intros []). apply k_free0.
  - intros y n Hy HS. destruct (AL y Hy) as (x & Hx & ->). exact (HSN x n Hx HS).
  - intros m. rewrite IN by (intros []). intros H. destruct (k_ack0 m H) as [A B]. split.
    + eapply covered_map; [exact HT|exact EA| |exact A]. intros x.
      destruct (HF x) as (F1 & F2 & _). rewrite F2. split; [exact F1|tauto].
    + destruct B as [B|(g & B1 & B2)]; [left; lia|right]. exists g.
      split; [rewrite E; apply in_or_app; right; exact B1|exact B2].
  - intros k ex. rewrite !IN by (intros []). intros H.
    destruct (k_ready0 k ex H) as [A|A]; [left|right; exact A].
    eapply keep_map; [exact EA|exact HF|exact A].
  - intros k. rewrite IN by (intros []). intros H. specialize (k_late0 k H). lia.
  - intros y Hy. destruct (AL y Hy) as (x & Hx & ->). destruct (HF x) as (_ & -> & ->).
    apply k_held0, Hx.
Qed.

Lemma map_idx : forall (s s' : st), s_all s' = s_all s -> s_all s' = map (fun x => x) (s_all s).
Proof. intros s s' E. rewrite map_id. exact E. Qed.

Lemma cal_id : forall c N M s s' e e' L,
  cal c N (s, e) -> N <= M -> s_out s' = L ++ s_out s -> Forall silent L ->
  s_all s' = s_all s ->
  (forall n, s_psnap s' = Some n -> sn_fr n = sn_max n) ->
  (forall n, In n e' -> sn_fr n = sn_max n) ->
  (forall g, s_wr s' = Some g -> s_wfr s' = Some (fi_max g)) ->
  s_min s <= s_min s' -> s_top s <= s_top s' -> s_orc s' = [] ->
  cal c M (s', e').
Proof.
  intros c N M s s' e e' L HC HN E HL EA HPS HE HW HM HT HO.
  eapply (cal_same c N M s s' e e' L (fun x => x)); try eassumption.
  - apply map_idx. exact EA.
  - intros x. repeat split.
  - intros x n Hx HS. exact (k_snap _ _ _ HC x n Hx HS).
Qed.

(* A snapshot is acknowledged. *)
Lemma cal_ack : forall c N s s' e k,
  cal c N (s, e) -> s_all s' = s_all s -> s_out s' = EAck k :: s_out s ->
  covered s k -> (k < s_min s' \/ exists f, In (EStored f) (s_out s) /\ fi_max f = k) ->
  (forall n, s_psnap s' = Some n -> sn_fr n = sn_max n) ->
  (forall g, s_wr s' = Some g -> s_wfr s' = Some (fi_max g)) ->
  s_min s <= s_min s' -> s_top s' = s_top s -> s_orc s' = [] ->
  cal c N (s', e).
Proof.
  intros c N s s' e k [] EA EO HC HK HPS HW HM HT HO. cbn [fst snd] in *.
  assert (IN : forall v, v <> EAck k -> In v (s_out s') <-> In v (s_out s)).
  { intros v HV. rewrite EO. split; [intros [H|H]; [congruence|exact H]|right; assumption]. }
  assert (CV : forall m, covered s m -> covered s' m).
  { intros m [A B]. split; [lia|]. rewrite EA. exact B. }
  split; cbn [fst snd]; try assumption; try (rewrite EA; assumption).
  - intros q. rewrite !IN by discriminate. apply k_free0.
  - intros m H. rewrite EO in H. destruct H as [H|H].
    + injection H as <-. split; [apply CV; exact HC|].
      destruct HK as [HK|(f & H1 & H2)]; [left; exact HK|right; exists f].
      split; [apply IN; [discriminate|exact H1]|exact H2].
    + destruct (k_ack0 m H) as [A B]. split; [apply CV; exact A|].
      destruct B as [B|(f & H1 & H2)]; [left; lia|right; exists f].
      split; [apply IN; [discriminate|exact H1]|exact H2].
  - intros q ex. rewrite !IN by discriminate. intros H.
    destruct (k_ready0 q ex H) as [(x & A)|A]; [left|right; exact A].
    exists x. rewrite EA. exact A.
  - intros q. rewrite IN by discriminate. apply k_late0.
Qed.

Lemma silent_ev : forall l L,
  match l with LMark _ _ | LFree _ _ | LAck _ | LWrite _ => False | _ => True end ->
  Forall (ev_of l) L -> Forall silent L.
Proof.
  intros l L HL H. eapply Forall_impl; [|exact H]. intros v HV.
  destruct v; cbn [ev_of silent] in *; try exact I; try exact HV.
  - destruct l; try exact HV; exact HL.
  - destruct HV as [p ->]. exact HL.
  - subst l. exact HL.
Qed.

Lemma cal_mic : forall c N l a b,
  clab l -> frz (fst a) -> cal c N a -> mic c N l a b -> cal c N b.
Proof.
  intros c N l a b HP HZ HC HM. destruct (mic_out _ _ _ _ _ HM) as (L & E & HL).
  pose proof (k_orc _ _ _ HC) as HO. pose proof (k_ps _ _ _ HC) as HPS.
  pose proof (k_hand _ _ _ HC) as HH. pose proof (k_wr _ _ _ HC) as HW.
  destruct HM; cbn [fst snd clab] in *; try contradiction.
  - destruct H as (p & d & b & o & -> & HQ).
    eapply (cal_id c N N s _ e e []); try exact HC; try reflexivity; try apply Z.le_refl;
      try assumption; [constructor|]. cbn. apply HQ, HO.
  - eapply cal_id; try exact HC; try exact E; try apply Z.le_refl; try assumption; try reflexivity.
    eapply silent_ev; [|exact HL]. exact I.
  - eapply cal_id; try exact HC; try exact E; try apply Z.le_refl; try assumption; try reflexivity.
    eapply silent_ev; [|exact HL]. exact I.
  - assert (HH' : forall m, In m e -> sn_fr m = sn_max m).
    { intros m Hm. apply HH. right. exact Hm. }
    assert (V : forall (P : st -> Prop), P (emit s (EDrop (sn_fr n))) ->
      P (set_snaps (emit s (EDrop (sn_fr n))) (s_snaps s - 1)) -> P (close_free s n)).
    { intros P H1 H2. unfold close_free, frames_drop, frames_free. destruct (_ <=? 0); assumption. }
    revert E. apply V; intros E; eapply (cal_id c N N s); try exact HC; try exact E;
      try apply Z.le_refl; try assumption; try reflexivity;
      (eapply silent_ev; [|exact HL]; exact I).
  - (* a snapshot is written *)
    pose proof (HH n (or_introl eq_refl)) as HN.
    assert (HH' : forall m, In m e -> sn_fr m = sn_max m).
    { intros m Hm. apply HH. right. exact Hm. }
    assert (HC' : cal c N (s, e)).
    { eapply (cal_id c N N s s (n :: e) e []); try exact HC; try reflexivity; try apply Z.le_refl;
        try assumption. constructor. }
    clear HC HH E HL L. unfold close_write.
    destruct (s_wr s) as [g|] eqn:EW.
    + assert (HPS' : forall m, Some n = Some m -> sn_fr m = sn_max m).
      { intros m Hm. injection Hm as <-. exact HN. }
      assert (G : forall s1, s_all s1 = s_all s -> s_wr s1 = s_wr s -> s_wfr s1 = s_wfr s ->
        s_min s1 = s_min s -> s_top s1 = s_top s -> s_orc s1 = s_orc s ->
        (exists L, s_out s1 = L ++ s_out s /\ Forall silent L) ->
        cal c N (set_psnap s1 (Some n), e)).
      { intros s1 G1 G2 G3 G4 G5 G6 (L & G7 & G8).
        eapply (cal_id c N N s _ e e L); cbn [set_psnap s_out s_all s_psnap s_wr s_wfr s_min s_top s_orc];
          try exact HC'; try apply Z.le_refl; try assumption; try lia; try congruence.
        rewrite G2, G3, EW. exact HW. }
      destruct (s_psnap s) as [p|]; [|apply G; try reflexivity; exists []; split; [reflexivity|constructor]].
      unfold close_free, frames_drop, frames_free. cbn [emit s_snaps].
      destruct (s_snaps s <=? 0); apply G; try reflexivity;
        exists [EDrop (sn_fr p)]; split; try reflexivity; repeat constructor.
    + destruct (sn_max n <? s_min s) eqn:EM.
      * eapply (cal_ack c N s _ e (sn_fr n)); try exact HC'.
        -- unfold frames_ack, frames_free. destruct (_ <=? 0); reflexivity.
        -- apply out_ack.
        -- rewrite HN. apply H0.
        -- left. rewrite HN. unfold frames_ack, frames_free. destruct (_ <=? 0); cbn; lia.
        -- unfold frames_ack, frames_free. destruct (_ <=? 0); exact HPS.
        -- unfold frames_ack, frames_free. destruct (_ <=? 0); cbn; rewrite EW; discriminate.
        -- unfold frames_ack, frames_free. destruct (_ <=? 0); apply Z.le_refl.
        -- unfold frames_ack, frames_free. destruct (_ <=? 0); reflexivity.
        -- unfold frames_ack, frames_free. destruct (_ <=? 0); exact HO.
      * set (f := scope_of c s (sn_max n)).
        assert (FM : fi_max f = sn_max n).
        { unfold f, scope_of. destruct (_ && _); reflexivity. }
        set (s1 := if fi_delta f then s else _).
        assert (V : s_all s1 = s_all s /\ s_min s1 = s_min s /\ s_top s1 = s_top s /\
          s_orc s1 = s_orc s /\ s_out s1 = s_out s /\ s_psnap s1 = s_psnap s).
        { unfold s1. destruct (fi_delta f); [|destruct (_ <=? _)]; repeat split. }
        destruct V as (G1 & G2 & G3 & G4 & G5 & G6).
        unfold pop. rewrite G4, HO.
        eapply (cal_id c N N s _ e e [EStart f]);
          cbn [set_write emit s_out s_all s_psnap s_wr s_wfr s_min s_top s_orc];
          try exact HC'; try apply Z.le_refl; try assumption; try lia; try congruence.
        -- rewrite G5. reflexivity.
        -- repeat constructor.
        -- rewrite G6. exact HPS.
  - (* taken *)
    destruct H as (_ & Hx & EX). pose proof (k_snap _ _ _ HC x n Hx H0) as HN.
    eapply (cal_same c N N s _ e (n :: e) L); try exact HC; try exact E; try apply Z.le_refl;
      try assumption; try reflexivity.
    + eapply silent_ev; [|exact HL]. exact I.
    + intros y. cbv beta. destruct (x_key y =? k); repeat split.
    + intros y m Hy. cbv beta. destruct (x_key y =? k); [discriminate|].
      intros HS. exact (k_snap _ _ _ HC y m Hy HS).
    + intros m [<-|Hm]; [exact HN|apply HH; exact Hm].
  - (* given *)
    pose proof (HH n (or_introl eq_refl)) as HN.
    eapply (cal_same c N N s _ (n :: e) e L); try exact HC; try exact E; try apply Z.le_refl;
      try assumption; try reflexivity.
    + eapply silent_ev; [|exact HL]. exact I.
    + intros y. cbv beta. destruct (x_key y =? k); repeat split.
    + intros y m Hy. cbv beta. destruct (x_key y =? k).
      * intros HS. cbn in HS. injection HS as <-. exact HN.
      * intros HS. exact (k_snap _ _ _ HC y m Hy HS).
    + intros m Hm. apply HH. right. exact Hm.
  - (* marked *)
    subst ok. clear E HL L. destruct H as (HS & Hx & EX). destruct HC. cbn [fst snd] in *.
    cbn [done_pst done_ev].
    assert (IN : forall v, v <> EMedia k ->
      In v (s_out (emit (upd k (idx_per POk) s) (EMedia k))) <-> In v (s_out s)).
    { intros v HV. cbn [emit upd set_all s_out In].
      split; [intros [H|H]; [congruence|exact H]|right; assumption]. }
    assert (MED : forall q, In (EMedia q) (s_out s) ->
      In (EMedia q) (s_out (emit (upd k (idx_per POk) s) (EMedia k)))).
    { intros q Hq. right. exact Hq. }
    assert (AL : forall y, In y (s_all (emit (upd k (idx_per POk) s) (EMedia k))) ->
      exists x0, In x0 (s_all s) /\
        x_key y = x_key x0 /\ x_free y = x_free x0 /\ x_snap y = x_snap x0 /\
        (x_key x0 = k /\ x_per y = POk \/ x_key x0 <> k /\ x_per y = x_per x0)).
    { intros y Hy. cbn [emit upd set_all s_all] in Hy. apply in_map_iff in Hy.
      destruct Hy as (x0 & <- & Hx0). exists x0. split; [exact Hx0|].
      destruct (x_key x0 =? k) eqn:EK; cbn [idx_per x_key x_free x_per x_snap].
      - split; [reflexivity|]. split; [reflexivity|]. split; [reflexivity|].
        left. split; [lia|reflexivity].
      - split; [reflexivity|]. split; [reflexivity|]. split; [reflexivity|].
        right. split; [lia|reflexivity]. }
    split; cbn [fst snd]; try assumption.
    + intros y Hy. destruct (AL y Hy) as (x0 & Hx0 & _ & _ & _ & [[_ A]|[_ A]]); rewrite A;
        [discriminate|apply k_err0, Hx0].
    + intros q. rewrite IN by discriminate. intros Hq. apply MED, k_free0, Hq.
    + intros y m Hy HSN. destruct (AL y Hy) as (x0 & Hx0 & _ & _ & A & _).
      rewrite A in HSN. exact (k_snap0 x0 m Hx0 HSN).
    + intros m. rewrite IN by discriminate. intros Hm. destruct (k_ack0 m Hm) as [A B]. split.
      * eapply (covered_map s); [apply Z.le_refl|cbn [emit upd set_all s_all]; reflexivity| |exact A].
        intros y. cbv beta. destruct (x_key y =? k); cbn; (split; [reflexivity|]);
          intros HNN; [discriminate|exact HNN].
      * destruct B as [B|(f & B1 & B2)]; [left; exact B|right; exists f].
        split; [right; exact B1|exact B2].
    + intros q ex. rewrite IN by discriminate. intros Hq.
      destruct (Z.eq_dec q k) as [->|NE]; [right; left; reflexivity|].
      destruct (k_ready0 q ex Hq) as [(x0 & Hx0 & A)|A]; [left|right; apply MED; exact A].
      exists x0. split; [|exact A]. cbn [emit upd set_all s_all]. apply in_map_iff. exists x0.
      split; [|exact Hx0]. destruct (x_key x0 =? k) eqn:EK; [lia|reflexivity].
    + intros q [Hq|Hq]; [injection Hq as <-; rewrite <- EX; assumption|apply k_late0, Hq].
    + intros y Hy. destruct (AL y Hy) as (x0 & Hx0 & _ & A & _ & [[_ B]|[_ B]]); rewrite A, B;
        [discriminate|apply k_held0, Hx0].
  - (* freed *)
    clear E HL L. destruct H as (HS & Hx & EX). destruct HC. cbn [fst snd] in *.
    assert (MK : In (EMedia k) (s_out s)).
    { rewrite <- EX. apply (z_ok _ HZ x Hx). specialize (k_err0 x Hx).
      destruct (x_per x); congruence. }
    assert (AL : forall y, In y (s_all (emit (upd k idx_free s) (EFree k))) ->
      exists x0, In x0 (s_all s) /\ x_key y = x_key x0 /\ x_per y = x_per x0 /\
        x_snap y = x_snap x0 /\ (x_key x0 = k \/ x_free y = x_free x0)).
    { intros y Hy. cbn [emit upd set_all s_all] in Hy. apply in_map_iff in Hy.
      destruct Hy as (x0 & <- & Hx0). exists x0. split; [exact Hx0|].
      destruct (x_key x0 =? k) eqn:EK; cbn [idx_free x_key x_free x_per x_snap].
      - repeat split. left. lia.
      - repeat split. right. reflexivity. }
    split; cbn [fst snd]; try assumption.
    + intros y Hy. destruct (AL y Hy) as (x0 & Hx0 & _ & A & _). rewrite A. apply k_err0, Hx0.
    + intros q [Hq|Hq]; [injection Hq as <-; right; exact MK|right; apply k_free0, Hq].
    + intros y m Hy HSN. destruct (AL y Hy) as (x0 & Hx0 & _ & _ & A & _).
      rewrite A in HSN. exact (k_snap0 x0 m Hx0 HSN).
    + intros m [Hm|Hm]; [discriminate Hm|]. destruct (k_ack0 m Hm) as [A B]. split.
      * eapply (covered_map s); [apply Z.le_refl|cbn [emit upd set_all s_all]; reflexivity| |exact A].
        intros y. cbv beta. destruct (x_key y =? k); cbn; (split; [reflexivity|]);
          intros HNN; exact HNN.
      * destruct B as [B|(f & B1 & B2)]; [left; exact B|right; exists f].
        split; [right; exact B1|exact B2].
    + intros q ex [Hq|Hq]; [discriminate Hq|].
      destruct (k_ready0 q ex Hq) as [(x0 & Hx0 & A)|A]; [|right; right; exact A].
      destruct (Z.eq_dec q k) as [->|NE]; [right; right; exact MK|left].
      exists x0. split; [|exact A]. cbn [emit upd set_all s_all]. apply in_map_iff. exists x0.
      split; [|exact Hx0]. destruct (x_key x0 =? k) eqn:EK; [lia|reflexivity].
    + intros q [Hq|Hq]; [discriminate Hq|apply k_late0, Hq].
    + intros y Hy. destruct (AL y Hy) as (x0 & Hx0 & A1 & A & _ & [B|B]); rewrite A.
      * intros _. assert (x0 = x) by (eapply ss_inj; [exact HS|exact Hx0|exact Hx|congruence]).
        subst x0. exact HP.
      * rewrite B. apply k_held0, Hx0.
  - (* removed *)
    clear E HL L. destruct H as (HS & Hx & EX). destruct HC. cbn [fst snd] in *.
    assert (SUB : forall y, In y (s_all (remove k s)) -> In y (s_all s)).
    { intros y Hy. cbn [remove set_queues set_all s_all] in Hy. apply filter_In in Hy. tauto. }
    split; cbn [fst snd]; try assumption.
    + intros y Hy. apply k_err0, SUB, Hy.
    + intros y m Hy. apply k_snap0, SUB, Hy.
    + intros m Hm. destruct (k_ack0 m Hm) as [[A1 A2] B]. split; [|exact B].
      split; [exact A1|]. intros y Hy. apply A2, SUB, Hy.
    + intros q ex Hq. destruct (k_ready0 q ex Hq) as [(x0 & Hx0 & A1 & A2 & A3)|A]; [left|right; exact A].
      exists x0. split; [|repeat split; assumption]. cbn [remove set_queues set_all s_all].
      apply filter_In. split; [exact Hx0|].
      destruct (x_key x0 =? k) eqn:EK; [|reflexivity]. exfalso.
      assert (x0 = x) by (eapply ss_inj; [exact HS|exact Hx0|exact Hx|lia]). subst x0. congruence.
    + intros y Hy. apply k_held0, SUB, Hy.
  - eapply (cal_same c N N s _ e e L); try exact HC; try exact E; try apply Z.le_refl;
      try assumption; try (cbn [unlock set_all s_all]; reflexivity).
    + eapply silent_ev; [|exact HL]. exact I.
    + intros y. repeat split.
    + intros y m Hy HS. exact (k_snap _ _ _ HC y m Hy HS).
  - eapply (cal_same c N N s _ e e L); try exact HC; try exact E; try apply Z.le_refl;
      try assumption; try (cbn [upd set_all s_all]; reflexivity).
    + eapply silent_ev; [|exact HL]. exact I.
    + intros y. cbv beta. destruct (x_key y =? k); repeat split.
    + intros y m Hy. cbv beta. destruct (x_key y =? k); intros HS; exact (k_snap _ _ _ HC y m Hy HS).
Qed.
