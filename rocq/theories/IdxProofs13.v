(* Proofs about the segment index: the order of what is seen, and the end of a
   channel. *)

From Coq Require Import ZArith List Bool Lia ZifyBool Sorted Permutation.
From Verif Require Import IdxModel IdxSpec IdxProofs IdxProofs2 IdxProofs3 IdxProofs4 IdxProofs5
  IdxProofs6 IdxProofs7 IdxProofs8.
Import ListNotations.
Open Scope Z_scope.

Definition ord (out : list ev) : Prop :=
  forall l1 f l2, out = l1 ++ EStart f :: l2 ->
  (forall k ex, In (EReady k ex) out -> k <= fi_max f -> dealt l2 k) /\
  (forall g, In (EStart g) l2 -> fi_max g < fi_max f).

Definition plain (v : ev) : Prop :=
  match v with EStart _ | EReady _ _ => False | _ => True end.

Lemma ord_cons : forall v out,
  ord out ->
  (forall k ex f, v = EReady k ex -> In (EStart f) out -> fi_max f < k) ->
  (forall f, v = EStart f ->
     (forall k ex, In (EReady k ex) out -> k <= fi_max f -> dealt out k) /\
     (forall g, In (EStart g) out -> fi_max g < fi_max f)) ->
  ord (v :: out).
Proof.
  intros v out HO HR HS l1 f l2 E. destruct l1 as [|a l1]; cbn [app] in E; injection E as E1 E2.
  - subst v l2. destruct (HS f eq_refl) as [A B]. split; [|exact B].
    intros k ex [H|H]; [discriminate H|]. exact (A k ex H).
  - subst a. destruct (HO l1 f l2 E2) as [A B]. split; [|exact B].
    intros k ex [H|H] HL.
    + assert (HI : In (EStart f) out) by (rewrite E2; apply in_or_app; right; left; reflexivity).
      specialize (HR k ex f H HI). lia.
    + exact (A k ex H HL).
Qed.

Lemma ord_plain : forall L out, Forall plain L -> ord out -> ord (L ++ out).
Proof.
  induction L as [|v L IH]; intros out H HO; [exact HO|].
  inversion H as [|v0 L0 H1 H2]. subst v0 L0. cbn [app].
  apply ord_cons; [apply IH; assumption| |]; intros; subst v; destruct H1.
Qed.

Lemma close_write_out : forall c s n,
  (exists L, s_out (close_write c s n) = L ++ s_out s /\ Forall plain L) \/
  s_out (close_write c s n) = EStart (scope_of c s (sn_max n)) :: s_out s.
Proof.
  intros c s n. unfold close_write. destruct (s_wr s).
  - left. destruct (s_psnap s) as [p|].
    + exists [EDrop (sn_fr p)]. cbn [set_psnap s_out]. unfold close_free. rewrite out_drop.
      split; [reflexivity|repeat constructor].
    + exists []. split; [reflexivity|constructor].
  - destruct (sn_max n <? s_min s).
    + left. exists [EAck (sn_fr n)]. rewrite out_ack. split; [reflexivity|repeat constructor].
    + set (f := scope_of c s (sn_max n)).
      set (s1 := if fi_delta f then s else
                 if s_hist s <=? sn_max n then set_hist s 0 (s_hv s) else s).
      assert (E1 : s_out s1 = s_out s).
      { unfold s1. destruct (fi_delta f); [reflexivity|].
        destruct (s_hist s <=? sn_max n); reflexivity. }
      assert (E2 : s_out (snd (pop s1)) = s_out s).
      { unfold pop. destruct (s_orc s1); exact E1. }
      destruct (pop s1) as [b s2]. cbn [snd] in E2. destruct b.
      * right. cbn [set_write emit s_out]. rewrite E2. reflexivity.
      * left. exists [EAck (sn_fr n)]. rewrite out_ack, E2.
        split; [reflexivity|repeat constructor].
Qed.

Lemma scope_max : forall c s m, fi_max (scope_of c s m) = m.
Proof. intros c s m. unfold scope_of. destruct (_ && _); reflexivity. Qed.

(* A closed segment up to which nothing waits has been dealt with. *)
Lemma frz_dealt : forall s m k ex,
  frz s -> covered s m -> In (EReady k ex) (s_out s) -> k <= m -> dealt (s_out s) k.
Proof.
  intros s m k ex HZ [_ HC] HR HL.
  destruct (z_ready _ HZ k ex HR) as [A|(x & Hx & EX)]; [right; right; exact A|].
  pose proof (HC x Hx ltac:(lia)) as EP.
  destruct (x_per x) eqn:E; [congruence| |].
  - left. rewrite <- EX. exact (z_ok _ HZ x Hx E).
  - right. left. rewrite <- EX. exact (z_err _ HZ x Hx E).
Qed.

Lemma ord_mic : forall c N l a b,
  frz (fst a) -> ord (s_out (fst a)) -> mic c N l a b -> ord (s_out (fst b)).
Proof.
  intros c N l a b HZ HO HM.
  assert (PL : (forall n, l <> LWrite n) -> ord (s_out (fst b))).
  { intros HW. destruct (mic_out _ _ _ _ _ HM) as (L & E & HL). rewrite E.
    apply ord_plain; [|exact HO]. eapply Forall_impl; [|exact HL].
    intros v HV. destruct v; cbn [ev_of plain] in *; try exact I; try contradiction.
    destruct HV as (n & -> & _). exact (HW n eq_refl). }
  destruct HM; try (apply PL; intros m; discriminate). cbn [fst] in *. clear PL.
  destruct (close_write_out c s n) as [(L & E & HL)|E]; rewrite E.
  - apply ord_plain; assumption.
  - destruct H0 as (HC & HF & _). apply ord_cons; [exact HO|intros; discriminate|].
    intros f EF. injection EF as <-. rewrite scope_max. split; [|exact HF].
    intros k ex HR HL. exact (frz_dealt s (sn_max n) k ex HZ HC HR HL).
Qed.

Lemma ord_step : forall c s o,
  1 <= c_bucket c -> 0 <= c_init c -> inv c (s_next s) s -> fits s o ->
  frz s -> ord (s_out s) -> ord (s_out (step c s o)).
Proof.
  intros c s o HB HC HI HF HZ HO.
  pose proof (step_J c (fun _ => True) (fun _ a => frz (fst a) /\ ord (s_out (fst a)))
    (fun _ _ => True)) as G.
  change (ord (s_out (fst (step c s o, @nil isnap)))).
  eapply proj2. apply (G HB HC); clear G.
  - intros N l a b _ [HA HB1] HM. split; [eapply frz_mic|eapply ord_mic]; eassumption.
  - intros N M s0 _ H. exact H.
  - intros N s0 [HA HB1]. split; [destruct HA; split; assumption|exact HB1].
  - intros s0 ex x _ HI0 _ Hx EX HLT [HA HB1]. split; [exact (frz_open s0 ex x Hx EX HA)|].
    cbn [fst] in *. apply ord_cons; [exact HB1| |intros; discriminate].
    intros k ex0 f E HS. injection E as <- <-.
    destruct (v_low _ _ _ HI0 f HS) as [A B].
    destruct (Z.lt_ge_cases (fi_max f) (s_next s0)) as [L|L]; [exact L|exfalso].
    pose proof (B x Hx ltac:(lia)) as EP. pose proof (v_late _ _ _ HI0 x Hx EP) as V.
    rewrite EX in V. pose proof (Z.div_mod (s_next s0) (c_bucket c) ltac:(lia)).
    pose proof (Z.mod_pos_bound (s_next s0) (c_bucket c) ltac:(lia)). nia.
  - intros N s0 _ [HA HB1]. split; [destruct HA; split; assumption|exact HB1].
  - intros N s0 m _ _ [HA HB1]. split; [destruct HA; split; assumption|exact HB1].
  - intros s0 k _ _ HT _ [HA HB1]. split; [exact (frz_create s0 k HT HA)|exact HB1].
  - intros s0 x HI0 Hx HL ES [HA HB1]. split.
    + eapply (frz_same s0 _ [ESnap (x_key x)]); [exact HA|reflexivity| | | |].
      * repeat constructor.
      * apply Z.le_refl.
      * cbn [fst set_snaps emit upd set_all s_all]. reflexivity.
      * intros y. cbv beta. destruct (x_key y =? x_key x); repeat split.
    + apply (ord_plain [ESnap (x_key x)] (s_out s0)); [repeat constructor|exact HB1].
  - intros N s0 k i [HA HB1]. split; [|exact HB1].
    eapply (frz_same s0 _ []); [exact HA|reflexivity| | | |].
    + constructor.
    + apply Z.le_refl.
    + cbn [fst upd set_all s_all]. reflexivity.
    + intros y. cbv beta. destruct (x_key y =? k); repeat split.
  - intros N s0 i [HA HB1]. split; [|exact HB1].
    eapply (frz_same s0 _ []); [exact HA|reflexivity| | | |].
    + constructor.
    + apply Z.le_refl.
    + cbn [fst unlock set_all s_all]. reflexivity.
    + intros y. repeat split.
  - intros N s0 f fr ok stored _ _ _ _ _ [HA HB1].
    split; [exact (frz_ended s0 f fr ok stored HA)|]. cbn [fst]. rewrite ended_out.
    apply ord_plain; [|exact HB1]. destruct ok; repeat constructor.
  - intros s0 [HA HB1]. split; [destruct HA; split; assumption|exact HB1].
  - exact HI.
  - exact HF.
  - apply decomp_any; assumption.
  - exact I.
  - split; assumption.
Qed.

Lemma reach_ord : forall c s,
  sane c -> c_init c < 4294967295 -> reach c s -> ord (s_out s).
Proof.
  intros c s HS HM HR. induction HR as [orc|s o HR IH HF].
  - intros l1 f l2 E. destruct l1; discriminate E.
  - pose proof (reach_inv c s HS HM HR) as HI. pose proof (reach_frz c s HS HM HR) as HZ.
    destruct HS as (HB & _ & _ & HC). exact (ord_step c s o HB HC HI HF HZ IH).
Qed.

(* ------------------------------------------------------------------ *)
(* The end of a channel                                                 *)

Definition reads (l : list cln) : Prop := forall e, In e l -> exists i, e = CRead i.

(* Only who reads a segment changed. *)
Definition only_cln (l l' : list idx) : Prop :=
  Forall2 (fun x y => x_key y = x_key x /\ x_snap y = x_snap x /\ x_bad y = x_bad x /\
    incl (x_cln y) (x_cln x)) l l'.

Lemma only_refl : forall l, only_cln l l.
Proof.
  induction l as [|x l IH]; constructor; [|exact IH]. repeat split. apply incl_refl.
Qed.

Lemma only_trans : forall a b d, only_cln a b -> only_cln b d -> only_cln a d.
Proof.
  intros a b d H. revert d. induction H as [|x y a b (A1 & A2 & A3 & A4) H IH]; intros d H2.
  - inversion H2. constructor.
  - inversion H2 as [|y0 z b0 d0 (B1 & B2 & B3 & B4) H3]. subst. constructor.
    + repeat split; try congruence. eapply incl_tran; eassumption.
    + apply IH. exact H3.
Qed.

Definition same_end (s s' : st) : Prop :=
  s_ub s' = s_ub s /\ s_psnap s' = s_psnap s /\ s_wfr s' = s_wfr s /\
  taken (s_out s') = taken (s_out s).

Lemma cleanup_reads : forall c l s,
  reads l ->
  same_end s (cleanup c l s) /\ only_cln (s_all s) (s_all (cleanup c l s)) /\
  closed (s_out (cleanup c l s)) = closed (s_out s).
Proof.
  intros c. induction l as [|e l IH]; intros s HR; cbn [cleanup].
  - split; [repeat split|]. split; [apply only_refl|reflexivity].
  - destruct (HR e (or_introl eq_refl)) as [i ->].
    destruct (IH (emit (unlock (is_cr i) s) (ECut i))) as ((A1 & A2 & A3 & A4) & B & D).
    { intros e He. apply HR. right. exact He. }
    split; [|split].
    + split; [exact A1|]. split; [exact A2|]. split; [exact A3|]. exact A4.
    + eapply only_trans; [|exact B]. cbn [emit unlock set_all s_all].
      clear. induction (s_all s) as [|x r IH]; cbn [map]; constructor; [|exact IH].
      cbn [idx_cln x_key x_snap x_bad x_cln].
      split; [reflexivity|]. split; [reflexivity|]. split; [reflexivity|].
      intros e He. apply filter_In in He. apply He.
    + exact D.
Qed.

Lemma only_keys : forall l l', only_cln l l' -> map x_key l' = map x_key l.
Proof.
  intros l l' H. induction H as [|x y l l' (A & _) H IH]; [reflexivity|]. cbn [map]. congruence.
Qed.

Lemma only_tsn : forall w l l', only_cln l l' -> tsn w l' = tsn w l.
Proof.
  intros w l l' H. induction H as [|x y l l' (_ & A & _) H IH]; [reflexivity|].
  cbn [tsn fold_right]. fold (tsn w l) (tsn w l'). rewrite A, IH. reflexivity.
Qed.

Lemma free_loop_len : forall c n suf pre s,
  length suf = n ->
  s_all s = pre ++ suf -> StronglySorted Z.lt (map x_key (s_all s)) ->
  (forall x, In x suf -> x_bad x = false /\ reads (x_cln x)) ->
  same_end s (free_loop c (map x_key suf) s) /\
  forall w, tot w (closed (s_out (free_loop c (map x_key suf) s))) =
            tot w (closed (s_out s)) + tsn w suf.
Proof.
  intros c. induction n as [|n IH]; intros [|x suf] pre s HN EA HS HX; try discriminate HN;
    cbn [map free_loop].
  - split; [repeat split|]. intros w. cbn [tsn fold_right]. lia.
  - assert (Hx : In x (s_all s)) by (rewrite EA; apply in_or_app; right; left; reflexivity).
    rewrite (find_held s (x_key x) x) by (split; [exact HS|split; [exact Hx|reflexivity]]).
    destruct (HX x (or_introl eq_refl)) as [HB HR].
    destruct (cleanup_reads c (x_cln x) s HR) as ((A1 & A2 & A3 & A4) & ON & CL).
    set (s1 := cleanup c (x_cln x) s) in *. rewrite EA in ON.
    apply Forall2_app_inv_l in ON. destruct ON as (pre1 & suf1 & ON1 & ON2 & EA1).
    inversion ON2 as [|x0 y l0 suf2 (B1 & B2 & B3 & B4) ON3 E1 E2]. subst x0 l0. subst suf1.
    assert (HS1 : StronglySorted Z.lt (map x_key (s_all s1))).
    { rewrite EA1, map_app. cbn [map]. rewrite B1, (only_keys _ _ ON1), (only_keys _ _ ON3).
      rewrite EA, map_app in HS. exact HS. }
    assert (Hy : In y (s_all s1)) by (rewrite EA1; apply in_or_app; right; left; reflexivity).
    rewrite (find_held s1 (x_key x) y) by (split; [exact HS1|split; [exact Hy|exact B1]]).
    rewrite B3, HB, B2. rewrite <- (only_keys _ _ ON3).
    assert (HX2 : forall z, In z suf2 -> x_bad z = false /\ reads (x_cln z)).
    { clear - ON3 HX. intros z Hz.
      assert (E : exists x0, In x0 suf /\ x_bad z = x_bad x0 /\ incl (x_cln z) (x_cln x0)).
      { clear HX. induction ON3 as [|a b l l' (_ & _ & C1 & C2) H IH]; [destruct Hz|].
        destruct Hz as [<-|Hz]; [exists a; split; [left; reflexivity|split; assumption]|].
        destruct (IH Hz) as (x0 & D1 & D2). exists x0. split; [right; exact D1|exact D2]. }
      destruct E as (x0 & D1 & D2 & D3). destruct (HX x0 (or_intror D1)) as [F1 F2].
      split; [congruence|]. intros e He. apply F2, D3, He. }
    assert (GO : forall s2 d,
      s_all s2 = map (fun z => if x_key z =? x_key x then d z else z) (s_all s1) ->
      (forall z, x_key (d z) = x_key z) ->
      same_end s1 s2 ->
      (forall w, tot w (closed (s_out s2)) = tot w (closed (s_out s1)) + wo w (x_snap x)) ->
      same_end s (free_loop c (map x_key suf2) s2) /\
      forall w, tot w (closed (s_out (free_loop c (map x_key suf2) s2))) =
                tot w (closed (s_out s)) + tsn w (x :: suf)).
    { intros s2 d E2 HD (S1 & S2 & S3 & S4) TW.
      set (g := fun z => if x_key z =? x_key x then d z else z) in *.
      assert (GK : map x_key (s_all s2) = map x_key (s_all s1)).
      { rewrite E2, map_map. apply map_ext. intros z. unfold g.
        destruct (x_key z =? x_key x); [apply HD|reflexivity]. }
      assert (GS : map g suf2 = suf2).
      { rewrite <- (map_id suf2) at 2. apply map_ext_in. intros z Hz. unfold g.
        destruct (x_key z =? x_key x) eqn:EK; [|reflexivity]. exfalso.
        rewrite EA1, map_app in HS1. cbn [map] in HS1.
        assert (HT : StronglySorted Z.lt (x_key y :: map x_key suf2)).
        { clear - HS1. induction pre1 as [|p l IHl]; [exact HS1|].
          cbn [map app] in HS1. inversion HS1. apply IHl. assumption. }
        inversion HT as [|a0 l0 _ HF]. subst a0 l0. rewrite Forall_forall in HF.
        specialize (HF (x_key z) (in_map x_key _ _ Hz)). lia. }
      assert (EA2 : s_all s2 = (map g pre1 ++ [g y]) ++ suf2).
      { rewrite E2, EA1, map_app. cbn [map]. rewrite GS, <- app_assoc. reflexivity. }
      destruct (IH suf2 (map g pre1 ++ [g y]) s2) as ((C1 & C2 & C3 & C4) & C5).
      - cbn [length] in HN. pose proof (f_equal (@length Z) (only_keys _ _ ON3)) as EL.
        rewrite !map_length in EL. lia.
      - exact EA2.
      - rewrite GK. exact HS1.
      - exact HX2.
      - split.
        + split; [congruence|]. split; [congruence|]. split; [congruence|].
          rewrite C4, S4, A4. reflexivity.
        + intros w. rewrite C5, TW, CL. cbn [tsn fold_right]. fold (tsn w suf).
          rewrite (only_tsn w _ _ ON3). lia. }
    destruct (x_snap x) as [m|] eqn:EN.
    + apply (GO (upd (x_key x) idx_bad (close_free s1 m)) idx_bad).
      * cbn [upd set_all s_all]. unfold close_free, frames_drop, frames_free.
        destruct (_ <=? 0); reflexivity.
      * reflexivity.
      * unfold close_free, frames_drop, frames_free. destruct (_ <=? 0); repeat split.
      * intros w. unfold upd. cbn [set_all s_out wo]. unfold close_free. rewrite out_drop.
        cbn [closed flat_map app tot fold_right]. fold (closed (s_out s1)).
        fold (tot w (closed (s_out s1))). lia.
    + apply (GO s1 (fun z => z)).
      * rewrite <- (map_id (s_all s1)) at 1. apply map_ext. intros z.
        destruct (x_key z =? x_key x); reflexivity.
      * reflexivity.
      * repeat split.
      * intros w. cbn [wo]. lia.
Qed.

Lemma free_loop_ok : forall c suf pre s,
  s_all s = pre ++ suf -> StronglySorted Z.lt (map x_key (s_all s)) ->
  (forall x, In x suf -> x_bad x = false /\ reads (x_cln x)) ->
  same_end s (free_loop c (map x_key suf) s) /\
  forall w, tot w (closed (s_out (free_loop c (map x_key suf) s))) =
            tot w (closed (s_out s)) + tsn w suf.
Proof. intros c suf pre s. apply (free_loop_len c (length suf) suf pre s eq_refl). Qed.

Lemma channel_free_ok : forall c s,
  sane c -> c_init c < 4294967295 -> reach c s ->
  (forall x b, In x (s_all s) -> ~ In (CWrite b) (x_cln x)) ->
  s_ub (channel_free c s) = false /\
  Permutation (taken (s_out (channel_free c s))) (closed (s_out (channel_free c s))).
Proof.
  intros c s HS HM HR HW. pose proof (reach_inv c s HS HM HR) as HI.
  destruct (reach_bal c s HS HM HR) as [BT _]. cbn [map tot fold_right] in BT.
  destruct (free_loop_ok c (s_all s) [] s eq_refl (v_sort _ _ _ HI)) as ((A1 & A2 & A3 & A4) & A5).
  { intros x Hx. split; [exact (v_bad _ _ _ HI x Hx)|]. intros e He. destruct e as [i|b].
    - exists i. reflexivity.
    - destruct (HW x b Hx He). }
  unfold channel_free. set (s1 := free_loop c (map x_key (s_all s)) s) in *.
  set (s2 := match s_wfr s1 with
             | Some f => set_write (frames_drop s1 f) None None
             | None => s1
             end).
  assert (H2 : s_ub s2 = s_ub s1 /\ s_psnap s2 = s_psnap s1 /\
    taken (s_out s2) = taken (s_out s1) /\
    forall w, tot w (closed (s_out s2)) = tot w (closed (s_out s1)) + wz w (s_wfr s1)).
  { unfold s2. destruct (s_wfr s1) as [f|]; cbn [wz].
    - assert (E : s_out (set_write (frames_drop s1 f) None None) = EDrop f :: s_out s1).
      { cbn [set_write s_out]. apply out_drop. }
      rewrite E. split; [unfold frames_drop, frames_free; destruct (_ <=? 0); reflexivity|].
      split; [unfold frames_drop, frames_free; destruct (_ <=? 0); reflexivity|].
      split; [reflexivity|]. intros w. cbn [closed flat_map app tot fold_right].
      fold (closed (s_out s1)). fold (tot w (closed (s_out s1))). lia.
    - split; [reflexivity|]. split; [reflexivity|]. split; [reflexivity|]. intros w. lia. }
  destruct H2 as (B1 & B2 & B3 & B4).
  assert (H3 : forall s3, s_ub s3 = s_ub s2 -> taken (s_out s3) = taken (s_out s2) ->
    (forall w, tot w (closed (s_out s3)) = tot w (closed (s_out s2)) + wo w (s_psnap s2)) ->
    s_ub s3 = false /\ Permutation (taken (s_out s3)) (closed (s_out s3))).
  { intros s3 C1 C2 C3. split; [rewrite C1, B1, A1; exact (v_ub _ _ _ HI)|].
    apply tot_perm. intros w. rewrite C2, B3, A4, C3, B4, A5, B2, A2, A3, BT. lia. }
  destruct (s_psnap s2) as [n|]; apply H3.
  - unfold close_free, frames_drop, frames_free. destruct (_ <=? 0); reflexivity.
  - cbn [set_psnap s_out]. unfold close_free. rewrite out_drop. reflexivity.
  - intros w. cbn [set_psnap s_out wo]. unfold close_free. rewrite out_drop.
    cbn [closed flat_map app tot fold_right]. fold (closed (s_out s2)).
    fold (tot w (closed (s_out s2))). lia.
  - reflexivity.
  - reflexivity.
  - intros w. cbn [wo]. lia.
Qed.
