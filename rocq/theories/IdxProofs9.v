(* Proofs about the segment index: what a restart finds. *)

From Coq Require Import ZArith List Bool Lia ZifyBool Sorted Permutation.
From Verif Require Import IdxModel IdxSpec IdxProofs IdxProofs2 IdxProofs3 IdxProofs4 IdxProofs5
  IdxProofs6 IdxProofs7 IdxProofs8.
Import ListNotations.
Open Scope Z_scope.

Record rst (c : conf) (s : st) : Prop := {
  r_top : s_top s < 4294967295;
  r_min : c_init c <= s_min s;
  r_none : s_index s = None -> s_succ s = 0 /\ s_delta s = None;
  r_some : forall i, s_index s = Some i ->
    fi_delta i = false /\ s_succ s = fi_max i /\ c_init c <= fi_min i <= fi_max i /\
    In (EStored i) (s_out s);
  r_delta : forall d, s_delta s = Some d ->
    fi_delta d = true /\ fi_min d <= fi_max d /\ In (EStored d) (s_out s) /\
    ((fi_min d = s_succ s + 1 /\ last_stored (s_out s) = Some d) \/
     (fi_min d <= s_succ s /\ last_stored (s_out s) = s_index s));
  r_nod : s_delta s = None -> last_stored (s_out s) = s_index s;
  r_wr : forall f, s_wr s = Some f ->
    In (EStart f) (s_out s) /\
    (forall g, In (EStored g) (s_out s) -> fi_max g < fi_max f) /\
    (if fi_delta f then s_index s <> None /\ fi_min f = s_succ s + 1 /\ fi_min f <= fi_max f
     else c_init c <= fi_min f <= fi_max f);
  r_st : forall g, In (EStored g) (s_out s) -> In (EStart g) (s_out s);
  r_last : forall g, In (EStored g) (s_out s) ->
    exists f, last_stored (s_out s) = Some f /\ fi_max g <= fi_max f
}.

Definition nost (v : ev) : Prop := match v with EStored _ => False | _ => True end.

Lemma last_stored_app : forall L o, Forall nost L -> last_stored (L ++ o) = last_stored o.
Proof.
  induction L as [|v L IH]; intros o H; [reflexivity|].
  inversion H as [|v0 L0 H1 H2]. subst v0 L0. cbn [app].
  destruct v; cbn [last_stored]; try (apply IH; exact H2). destruct H1.
Qed.

Lemma stored_app : forall L o g, Forall nost L -> In (EStored g) (L ++ o) <-> In (EStored g) o.
Proof.
  intros L o g H. rewrite in_app_iff. rewrite Forall_forall in H.
  split; [intros [A|A]; [destruct (H _ A)|exact A]|right; assumption].
Qed.

Lemma rst_same : forall c s s' L,
  rst c s -> s_out s' = L ++ s_out s -> Forall nost L ->
  s_top s' < 4294967295 -> s_min s <= s_min s' ->
  s_index s' = s_index s -> s_delta s' = s_delta s -> s_succ s' = s_succ s ->
  s_wr s' = s_wr s \/ s_wr s' = None -> rst c s'.
Proof.
  intros c s s' L [] E HL HT HM E1 E2 E3 E4.
  assert (LS : last_stored (s_out s') = last_stored (s_out s)).
  { rewrite E. apply last_stored_app. exact HL. }
  assert (IN : forall g, In (EStored g) (s_out s') <-> In (EStored g) (s_out s)).
  { intros g. rewrite E. apply stored_app. exact HL. }
  assert (IS : forall g, In (EStart g) (s_out s) -> In (EStart g) (s_out s')).
  { intros g H. rewrite E. apply in_or_app. right. exact H. }
  split.
  - exact HT.
  - lia.
  - rewrite E1, E2, E3. exact r_none0.
  - intros i. rewrite E1, E3, IN. apply r_some0.
  - intros d. rewrite E2, E3, E1, LS, IN. apply r_delta0.
  - rewrite E2, LS, E1. exact r_nod0.
  - intros f Hf. destruct E4 as [E4|E4]; [|congruence]. rewrite E4 in Hf.
    destruct (r_wr0 f Hf) as (A & B & D). split; [apply IS; exact A|]. split.
    + intros g. rewrite IN. apply B.
    + rewrite E1, E3. exact D.
  - intros g. rewrite IN. intros H. apply IS, r_st0, H.
  - intros g. rewrite IN, LS. apply r_last0.
Qed.

Lemma nost_ev : forall l L, Forall (ev_of l) L -> Forall nost L.
Proof. intros l L. apply Forall_impl. intros v. destruct v; cbn [ev_of nost]; tauto. Qed.

Lemma sub32_small : forall a b, 0 <= b -> b < a -> a < 4294967296 -> sub32 a b = a - b.
Proof. intros a b H1 H2 H3. unfold sub32. apply Z.mod_small. lia. Qed.

(* Which file is written. *)
Lemma scope_ok : forall c s n,
  1 <= c_init c -> rst c s -> fit_snap s n -> s_min s <= sn_max n ->
  let f := scope_of c s (sn_max n) in
  fi_max f = sn_max n /\ fi_hv f = s_hv s /\
  (if fi_delta f
   then s_hist s = 0 /\ s_index s <> None /\ fi_min f = s_succ s + 1 /\ fi_min f <= fi_max f
   else c_init c <= fi_min f <= fi_max f).
Proof.
  intros c s n HC [] ([HT _] & HF & _) HM. cbv zeta. unfold scope_of.
  set (m := sn_max n) in *. destruct (_ && _) eqn:E; cbn [fi_max fi_hv fi_delta fi_min].
  - split; [reflexivity|]. split; [reflexivity|].
    apply andb_prop in E. destruct E as [E E4]. apply andb_prop in E. destruct E as [E E3].
    apply andb_prop in E. destruct E as [_ E2].
    destruct (s_index s) as [i|] eqn:EI.
    + destruct (r_some0 i eq_refl) as (_ & B & D & G).
      pose proof (HF i (r_st0 i G)). split; [lia|]. split; [discriminate|]. lia.
    + destruct (r_none0 eq_refl) as [B _]. rewrite B in *. exfalso.
      unfold sub32 in E3. rewrite Z.sub_0_r, Z.mod_small in E3 by lia. lia.
  - split; [reflexivity|]. split; [reflexivity|]. lia.
Qed.

(* What a write of a snapshot does to the files. *)
Lemma close_write_view : forall c s n,
  s_orc s = s_orc s ->
  s_top (close_write c s n) = s_top s /\ s_min (close_write c s n) = s_min s /\
  s_index (close_write c s n) = s_index s /\ s_delta (close_write c s n) = s_delta s /\
  s_succ (close_write c s n) = s_succ s /\ s_hv (close_write c s n) = s_hv s.
Proof.
  intros c s n _. unfold close_write, close_free, frames_ack, frames_drop, frames_free.
  destruct (s_wr s).
  - destruct (s_psnap s); cbn [emit s_snaps]; try destruct (_ <=? 0); repeat split.
  - destruct (sn_max n <? s_min s).
    { cbn [emit s_snaps]; destruct (_ <=? 0); repeat split. }
    set (s1 := if fi_delta _ then s else _).
    assert (E : s_top s1 = s_top s /\ s_min s1 = s_min s /\ s_index s1 = s_index s /\
      s_delta s1 = s_delta s /\ s_succ s1 = s_succ s /\ s_hv s1 = s_hv s).
    { unfold s1. destruct (fi_delta _); [|destruct (_ <=? _)]; repeat split. }
    unfold pop. destruct (s_orc s1) as [|[|] r]; [exact E|exact E|].
    cbn [emit set_orc s_snaps]. destruct (_ <=? 0); exact E.
Qed.

Lemma close_ack_view : forall s n,
  s_top (close_ack s n) = s_top s /\ s_min (close_ack s n) = s_min s /\
  s_index (close_ack s n) = s_index s /\ s_delta (close_ack s n) = s_delta s /\
  s_succ (close_ack s n) = s_succ s /\ s_wr (close_ack s n) = s_wr s /\
  s_hv (close_ack s n) = s_hv s /\ s_hist (close_ack s n) = s_hist s.
Proof.
  intros s n. unfold close_ack, frames_ack, frames_drop, frames_free.
  destruct (s_psnap s); [|destruct (s_wr s) eqn:E; [destruct (s_wfr s)|]];
    cbn [emit s_snaps]; try destruct (_ <=? 0); cbn; rewrite ?E; repeat split.
Qed.

Definition new_write (c : conf) (s s' : st) (n : isnap) : Prop :=
  s_wr s = None /\ s_min s <= sn_max n /\
  let f := scope_of c s (sn_max n) in
  s_wr s' = Some f /\ s_out s' = EStart f :: s_out s /\ s_wfr s' = Some (sn_fr n) /\
  s_psnap s' = s_psnap s /\
  s_hist s' = (if fi_delta f then s_hist s
               else if s_hist s <=? sn_max n then 0 else s_hist s).

Lemma close_write_new : forall c s n,
  (s_wr (close_write c s n) = s_wr s /\
   exists L, s_out (close_write c s n) = L ++ s_out s /\ Forall nost L) \/
  new_write c s (close_write c s n) n.
Proof.
  intros c s n. unfold close_write, new_write.
  destruct (s_wr s) as [f|] eqn:EW.
  - left. destruct (s_psnap s) as [p|].
    + unfold close_free, frames_drop, frames_free.
      split; [cbn [emit s_snaps]; destruct (_ <=? 0); exact EW|].
      exists [EDrop (sn_fr p)].
      split; [cbn [emit s_snaps]; destruct (_ <=? 0); reflexivity|repeat constructor].
    + split; [exact EW|]. exists []. split; [reflexivity|constructor].
  - assert (ACK : forall s1, s_wr s1 = None -> s_out s1 = s_out s ->
      s_wr (frames_ack s1 (sn_fr n)) = None /\
      exists L, s_out (frames_ack s1 (sn_fr n)) = L ++ s_out s /\ Forall nost L).
    { intros s1 H1 H2. split.
      - unfold frames_ack, frames_free. destruct (_ <=? 0); exact H1.
      - exists [EAck (sn_fr n)]. rewrite out_ack, H2. split; [reflexivity|repeat constructor]. }
    destruct (sn_max n <? s_min s) eqn:EM; [left; apply ACK; [exact EW|reflexivity]|].
    set (f := scope_of c s (sn_max n)).
    set (s1 := if fi_delta f then s else _).
    assert (E : s_wr s1 = None /\ s_out s1 = s_out s /\ s_psnap s1 = s_psnap s /\
      s_hist s1 = (if fi_delta f then s_hist s
               else if s_hist s <=? sn_max n then 0 else s_hist s)).
    { unfold s1. destruct (fi_delta f); [|destruct (_ <=? _)]; repeat split; exact EW. }
    destruct E as (E1 & E2 & E3 & E4).
    unfold pop. destruct (s_orc s1) as [|[|] r].
    + right. split; [reflexivity|]. split; [lia|]. cbn. rewrite E2.
      repeat split; [exact E3|exact E4].
    + right. split; [reflexivity|]. split; [lia|]. cbn. rewrite E2.
      repeat split; [exact E3|exact E4].
    + left. apply ACK; [exact E1|exact E2].
Qed.

Lemma rst_mic : forall c N l a b,
  1 <= c_init c -> rst c (fst a) -> mic c N l a b -> rst c (fst b).
Proof.
  intros c N l a b HC HR HM. destruct (mic_out _ _ _ _ _ HM) as (L & E & HL).
  pose proof (nost_ev _ _ HL) as HN. clear HL.
  pose proof (r_top _ _ HR) as HT.
  destruct HM; cbn [fst] in *;
    try (eapply rst_same; [exact HR|exact E|exact HN|exact HT|apply Z.le_refl|
         reflexivity|reflexivity|reflexivity|left; reflexivity]).
  - destruct H as (p & d & b & o & -> & _).
    eapply rst_same; [exact HR|exact E|exact HN|exact HT|apply Z.le_refl|
         reflexivity|reflexivity|reflexivity|left; reflexivity].
  - assert (V : forall (P : st -> Prop), P (emit s (EDrop (sn_fr n))) ->
      P (set_snaps (emit s (EDrop (sn_fr n))) (s_snaps s - 1)) -> P (close_free s n)).
    { intros P H1 H2. unfold close_free, frames_drop, frames_free. destruct (_ <=? 0); assumption. }
    revert E. apply V; intros E; eapply rst_same; try exact HR; try exact E; try exact HN;
      try exact HT; try apply Z.le_refl; try reflexivity; left; reflexivity.
  - destruct (close_ack_view s n) as (A1 & A2 & A3 & A4 & A5 & A6 & _).
    eapply rst_same; [exact HR|exact E|exact HN|rewrite A1; exact HT|rewrite A2; apply Z.le_refl|
      exact A3|exact A4|exact A5|left; exact A6].
  - destruct (close_write_view c s n eq_refl) as (A1 & A2 & A3 & A4 & A5 & _).
    destruct (close_write_new c s n) as [(A6 & _)|(W1 & W2 & W3 & W4 & W5 & W6 & W7)].
    + eapply rst_same; [exact HR|exact E|exact HN|rewrite A1; exact HT|rewrite A2; apply Z.le_refl|
        exact A3|exact A4|exact A5|left; exact A6].
    + pose proof (scope_ok c s n HC HR H0 W2) as SC. cbv zeta in SC.
      set (f := scope_of c s (sn_max n)) in *. destruct SC as (SM & SH & SD).
      destruct HR. destruct H0 as (_ & HF & _).
      assert (IN : forall g, In (EStored g) (s_out (close_write c s n)) <-> In (EStored g) (s_out s)).
      { intros g. rewrite W4. split; [intros [H1|H1]; [discriminate H1|exact H1]|right; assumption]. }
      split; rewrite ?A1, ?A2, ?A3, ?A4, ?A5, ?W4; cbn [last_stored]; try assumption.
      * intros i Hi. destruct (r_some0 i Hi) as (B1 & B2 & B3 & B4). repeat split; try assumption; try lia.
        right. exact B4.
      * intros d Hd. destruct (r_delta0 d Hd) as (B1 & B2 & B3 & B4). repeat split; try assumption; try lia.
        right. exact B3.
      * intros g Hg. rewrite W3 in Hg. injection Hg as <-. split; [left; reflexivity|]. split.
        -- intros g [H1|Hg]; [discriminate H1|]. rewrite SM. apply HF, r_st0, Hg.
        -- destruct (fi_delta f); [tauto|exact SD].
      * intros g [H1|Hg]; [discriminate H1|]. right. apply r_st0, Hg.
      * intros g [H1|Hg]; [discriminate H1|]. apply r_last0, Hg.
Qed.

Lemma rst_ended : forall c s f fr ok stored,
  (ok = false -> stored = false) -> s_wr s = Some f -> rst c s ->
  rst c (ended s f fr ok stored).
Proof.
  intros c s f fr ok stored HH EW HR.
  pose proof (ended_out s f fr ok stored) as EO.
  destruct ok.
  2:{ rewrite (HH eq_refl) in *. clear HH stored.
      assert (V : s_top (ended s f fr false false) = s_top s /\
        s_min (ended s f fr false false) = s_min s /\
        s_index (ended s f fr false false) = s_index s /\
        s_delta (ended s f fr false false) = s_delta s /\
        s_succ (ended s f fr false false) = s_succ s /\ s_wr (ended s f fr false false) = None).
      { unfold ended, frames_ack, frames_free. destruct (_ <=? 0); repeat split. }
      destruct V as (V1 & V2 & V3 & V4 & V5 & V6).
      eapply rst_same; [exact HR|exact EO| | | | | | |right; exact V6]; try assumption.
      - repeat constructor.
      - rewrite V1. apply HR.
      - lia. }
  assert (V : s_top (ended s f fr true stored) = s_top s /\
    s_min (ended s f fr true stored) = s_min s /\
    s_index (ended s f fr true stored) = (if fi_delta f then s_index s else Some f) /\
    s_delta (ended s f fr true stored) = (if fi_delta f then Some f else s_delta s) /\
    s_succ (ended s f fr true stored) = (if fi_delta f then s_succ s else fi_max f) /\
    s_wr (ended s f fr true stored) = None).
  { unfold ended, frames_ack, frames_free. destruct (_ <=? 0), (fi_delta f); repeat split. }
  destruct V as (V1 & V2 & V3 & V4 & V5 & V6). cbn [app] in EO.
  assert (IN : forall g, In (EStored g) (s_out (ended s f fr true stored)) <->
    g = f \/ In (EStored g) (s_out s)).
  { intros g. rewrite EO. cbn [In]. split.
    - intros [H|[H|H]]; [left; congruence|discriminate H|right; exact H].
    - intros [->|H]; [left; reflexivity|right; right; exact H]. }
  assert (LS : last_stored (s_out (ended s f fr true stored)) = Some f).
  { rewrite EO. reflexivity. }
  destruct HR. destruct (r_wr0 f EW) as (W1 & W2 & W3).
  split; rewrite ?V1, ?V2, ?V3, ?V4, ?V5, ?LS; try assumption.
  - destruct (fi_delta f); [|discriminate]. intros H. destruct W3 as [W3 _]. congruence.
  - destruct (fi_delta f) eqn:ED.
    + intros i Hi. destruct (r_some0 i Hi) as (B1 & B2 & B3 & B4).
      split; [exact B1|]. split; [exact B2|]. split; [exact B3|]. apply IN. right. exact B4.
    + intros i Hi. injection Hi as <-. split; [exact ED|]. split; [reflexivity|].
      split; [exact W3|]. apply IN. left. reflexivity.
  - destruct (fi_delta f) eqn:ED.
    + intros d Hd. injection Hd as <-. split; [exact ED|]. split; [tauto|].
      split; [apply IN; left; reflexivity|]. left. split; [tauto|reflexivity].
    + intros d Hd. destruct (r_delta0 d Hd) as (B1 & B2 & B3 & _).
      split; [exact B1|]. split; [exact B2|]. split; [apply IN; right; exact B3|].
      right. split; [specialize (W2 d B3); lia|reflexivity].
  - destruct (fi_delta f); [discriminate|reflexivity].
  - intros g Hg. congruence.
  - intros g Hg. apply IN in Hg. rewrite EO. cbn [In]. right. right.
    destruct Hg as [->|Hg]; [exact W1|apply r_st0, Hg].
  - intros g Hg. exists f. split; [reflexivity|]. apply IN in Hg.
    destruct Hg as [->|Hg]; [lia|]. specialize (W2 g Hg). lia.
Qed.

Ltac rsame s0 L := eapply (rst_same _ s0 _ L);
  [eassumption|reflexivity|repeat constructor|cbn; eauto using r_top|cbn; try apply Z.le_refl; try lia|
   reflexivity|reflexivity|reflexivity|left; reflexivity].

Lemma rst_step : forall c s o,
  1 <= c_bucket c -> 1 <= c_init c -> inv c (s_next s) s -> honest s o ->
  rst c s -> rst c (step c s o).
Proof.
  intros c s o HB HC HI [HF HO] HJ.
  pose proof (step_J c (fun _ => True) (fun _ a => rst c (fst a))
    (fun s o => match o with IWriteDone ok st => ok = false -> st = false | _ => True end)) as G.
  change (rst c (fst (step c s o, @nil isnap))). apply G; clear G; try assumption.
  - lia.
  - intros N l a b _ HA HM. eapply rst_mic; eassumption.
  - intros; assumption.
  - intros N s0 H. cbn [fst] in *. rsame s0 (@nil ev).
  - intros s0 ex x _ _ _ _ _ _ H. cbn [fst] in *. rsame s0 [EReady (s_next s0) ex].
  - intros N s0 _ H. cbn [fst] in *. rsame s0 (@nil ev).
  - intros N s0 m _ HM H. cbn [fst] in *. rsame s0 (@nil ev).
  - intros s0 k _ _ _ HK H. cbn [fst] in *. rsame s0 (@nil ev).
  - intros s0 x HI0 Hx HL ES H. cbn [fst] in *. rsame s0 [ESnap (x_key x)].
  - intros N s0 k i H. cbn [fst] in *. rsame s0 (@nil ev).
  - intros N s0 i H. cbn [fst] in *. rsame s0 (@nil ev).
  - intros N s0 f fr ok stored HQ _ EW EF _ H. exact (rst_ended c s0 f fr ok stored HQ EW H).
  - intros s0 H. cbn [fst] in *. rsame s0 (@nil ev).
  - apply decomp_any; try assumption. lia.
Qed.

Lemma honest_reach : forall c s, reach_honest c s -> reach c s.
Proof.
  intros c s H. induction H as [orc|s o H IH [HF _]]; [apply reach_init|].
  apply reach_step; assumption.
Qed.

Lemma reach_rst : forall c s,
  sane c -> 1 <= c_init c < 4294967295 -> reach_honest c s -> rst c s.
Proof.
  intros c s HS HM HR. induction HR as [orc|s o HR IH HF].
  - split; try (intros; discriminate); try (intros; contradiction).
    + cbn. lia.
    + cbn. lia.
    + intros _. split; reflexivity.
    + reflexivity.
  - pose proof (reach_inv c s HS (proj2 HM) (honest_reach c s HR)) as HI.
    destruct HS as (HB & _). exact (rst_step c s o HB (proj1 HM) HI HF IH).
Qed.

(* A restart gives back the last file that was stored. *)
Lemma restore_last : forall c s,
  rst c s -> 1 <= c_init c ->
  match last_stored (s_out s) with
  | None => restore c (s_index s) (s_delta s) = Some ([], c_init c)
  | Some f =>
      if fi_delta f
      then exists i, s_index s = Some i /\ fi_min f = fi_max i + 1 /\
        restore c (s_index s) (s_delta s) =
          Some ([(fi_min i, fi_max i); (fi_min f, fi_max f)], fi_max f + 1)
      else restore c (s_index s) (s_delta s) = Some ([(fi_min f, fi_max f)], fi_max f + 1)
  end.
Proof.
  intros c s [] HC. unfold restore.
  destruct (s_index s) as [i|] eqn:EI.
  2:{ destruct (r_none0 eq_refl) as [_ ED]. rewrite (r_nod0 ED). reflexivity. }
  destruct (r_some0 i eq_refl) as (B1 & B2 & B3 & _).
  assert (RI : read_file c (c_init c) i = Some ([(fi_min i, fi_max i)], fi_max i + 1)).
  { unfold read_file. destruct (fi_max i <? fi_min i) eqn:E; [lia|].
    rewrite Z.eqb_refl. reflexivity. }
  rewrite RI. destruct (s_delta s) as [d|] eqn:ED.
  2:{ rewrite (r_nod0 eq_refl), B1. reflexivity. }
  destruct (r_delta0 d eq_refl) as (D1 & D2 & _ & [[D3 D4]|[D3 D4]]); rewrite D4.
  - rewrite D1. exists i. split; [reflexivity|]. split; [lia|].
    unfold read_file. destruct (fi_max d <? fi_min d) eqn:E; [lia|].
    destruct (fi_min d =? fi_max i + 1) eqn:E2; [|lia].
    rewrite andb_false_r. reflexivity.
  - rewrite B1. unfold read_file. destruct (fi_max d <? fi_min d) eqn:E; [lia|].
    destruct (fi_min d =? fi_max i + 1) eqn:E2; [lia|].
    destruct (fi_max i + 1 =? c_init c) eqn:E3; [lia|]. reflexivity.
Qed.
