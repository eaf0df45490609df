(* The iterators over the segment infos, the media infos and the parts. *)
From Coq Require Import String Ascii ZArith List Bool Lia ZifyBool Sorted.
From Verif Require Import Bytes M3u8Model M3u8Spec M3u8Proofs M3u8Proofs2.
Import ListNotations.
Open Scope Z_scope.

(* ----- segment infos *)


Lemma ascending_tl a l : ascending (a :: l) -> ascending l.
Proof. destruct l; [exact (fun _ => I) | intros [_ H]; exact H]. Qed.

Lemma ascending_hd a l : ascending (a :: l) -> Forall (fun b => a <= b) l.
Proof.
  revert a. induction l as [|b l IH]; intros a H; [constructor|].
  destruct H as [H1 H2]. constructor; [exact H1|]. specialize (IH _ H2).
  eapply Forall_impl; [|exact IH]. intros x; cbn; lia.
Qed.

Lemma iter_adv_adv i j l : forall r, i <= j -> iter_get (iter_adv r l i) j = iter_adv r l j.
Proof.
  unfold iter_get. induction l as [|[k b] l IH]; intros r H; [reflexivity|]. cbn [iter_adv].
  destruct (k <=? i) eqn:E.
  - assert (k <=? j = true) as -> by lia. apply IH. exact H.
  - reflexivity.
Qed.

Definition lag (i : Z) (t : track) (it : iter) : Prop :=
  forall j, i <= j -> iter_get it j = iter_get (iter_reset t) j.

Lemma lag_reset i t : lag i t (iter_reset t).
Proof. intros j H. reflexivity. Qed.

Lemma lag_le i i' t it : i <= i' -> lag i t it -> lag i' t it.
Proof. intros H L j J. apply L. lia. Qed.

Lemma lag_get i t it : lag i t it -> lag i t (iter_get it i).
Proof.
  intros L j J. destruct it as [r l]. unfold iter_get at 2. cbn [fst snd]. rewrite iter_adv_adv by exact J.
  apply (L j J).
Qed.

Lemma adv_fold i l : forall r, ascending (map fst l) ->
  fst (iter_adv r l i) = fold_left (fun r e => if fst e <=? i then snd e else r) l r.
Proof.
  induction l as [|[k b] l IH]; intros r A; [reflexivity|]. cbn [iter_adv fold_left fst snd].
  destruct (k <=? i) eqn:E.
  - apply IH. exact (ascending_tl _ _ A).
  - cbn [fst]. pose proof (ascending_hd _ _ A) as F. cbn [map fst] in F. clear - F E.
    revert r. induction l as [|[m c] l IH]; intros r; [reflexivity|]. cbn [map fst] in F. inversion F; subst. cbn [fold_left fst snd].
    assert (m <=? i = false) as -> by lia. apply IH. assumption.
Qed.


Lemma lag_rate i t it : sinfo_ok t -> lag i t it -> fst (iter_get it i) = rate_at i t.
Proof.
  intros S L. rewrite (L i) by lia. unfold iter_reset, rate_at, iter_get. cbn [fst snd].
  destruct (t_type t =? 2); [reflexivity|]. apply adv_fold. exact S.
Qed.

Lemma estimate_nonneg e b d : 0 <= estimate e b d.
Proof. unfold estimate, u64. apply Z.mod_pos_bound. lia. Qed.

Lemma total_rate_nonneg i d ts : forall es v, total_rate i d ts es = Some v -> 0 <= v.
Proof.
  induction ts as [|t ts IH]; intros es v E; cbn [total_rate] in E; [injection E as <-; lia|].
  destruct es as [|e es]; [injection E as <-; lia|].
  destruct (rate_at i t =? 1); [discriminate|]. destruct (total_rate i d ts es) as [w|] eqn:Ew; [|discriminate].
  injection E as <-. specialize (IH _ _ Ew). pose proof (estimate_nonneg e (rate_at i t) (Z.max 1 d)).
  destruct (rate_at i t =? 0); lia.
Qed.

Lemma info_get_spec i d ts : forall its es acc its' v,
  Forall sinfo_ok ts -> Forall2 (lag i) ts its ->
  0 <= acc -> (forall w, total_rate i d ts es = Some w -> acc + w < 2 ^ 32) ->
  info_get its es i (Z.max 1 d) acc = (its', v) ->
  Forall2 (lag i) ts its'
  /\ v = match total_rate i d ts es with Some w => acc + w | None => 1 end.
Proof.
  induction ts as [|t ts IH]; intros its es acc its' v So L A B E; inversion L as [|? it ? its1 L1 L2]; subst; cbn [info_get] in E.
  - injection E as <- <-. cbn. split; [constructor | lia].
  - destruct es as [|e es]; cbn [total_rate] in *; [injection E as <- <-; split; [exact L | lia]|].
    inversion So as [|? ? So1 So2]; subst.
    rewrite (lag_rate i t it So1 L1) in *. unfold NO_BITRATE in E.
    destruct (rate_at i t =? 1) eqn:E1.
    { injection E as <- <-. split; [constructor; [apply lag_get; exact L1 | exact L2] | reflexivity]. }
    set (add := if rate_at i t =? 0 then 0 else estimate e (rate_at i t) (Z.max 1 d)) in *.
    assert (0 <= add) as Hadd by (unfold add; pose proof (estimate_nonneg e (rate_at i t) (Z.max 1 d)); destruct (rate_at i t =? 0); lia).
    destruct (info_get its1 es i (Z.max 1 d) _) as [x w] eqn:Ex. injection E as <- <-.
    destruct (total_rate i d ts es) as [w0|] eqn:Ew.
    + specialize (B _ eq_refl). pose proof (total_rate_nonneg _ _ _ _ _ Ew) as Hw0.
      assert ((if rate_at i t =? 0 then acc else u32 (acc + estimate e (rate_at i t) (Z.max 1 d))) = acc + add) as EQ.
      { unfold add in *. destruct (rate_at i t =? 0); [lia|]. apply u32_small. lia. }
      rewrite EQ in Ex. eapply IH in Ex; [|assumption|assumption|lia|intros w1 E2; rewrite Ew in E2; injection E2 as <-; lia].
      rewrite Ew in Ex. destruct Ex as [X1 X2].
      split; [constructor; [apply lag_get; exact L1 | exact X1] | lia].
    + eapply IH in Ex; [|assumption|assumption| |intros w1 E2; rewrite Ew in E2; discriminate].
      * rewrite Ew in Ex. destruct Ex as [X1 X2]. split; [constructor; [apply lag_get; exact L1 | exact X1] | exact X2].
      * destruct (rate_at i t =? 0); [exact A|]. apply u32_range.
Qed.


Lemma gap_total0 i d ts : forall es, forallb (fun t => rate_at i t =? 0) ts = true -> total_rate i d ts es = Some 0.
Proof.
  induction ts as [|t ts IH]; intros es G; [reflexivity|]. cbn [forallb] in G. apply andb_true_iff in G. destruct G as [G1 G2].
  cbn [total_rate]. destruct es as [|e es]; [reflexivity|]. rewrite (IH es G2), G1.
  assert (rate_at i t =? 1 = false) as -> by lia. reflexivity.
Qed.

Lemma segment_info_spec c es i d its :
  Forall sinfo_ok (c_tracks c) -> Forall2 (lag i) (c_tracks c) its -> total_ok c es i d ->
  exists its', segment_info_get its es i d =
    (its', match total_rate i d (c_tracks c) es with Some v => v | None => 1 end)
    /\ Forall2 (lag i) (c_tracks c) its'.
Proof.
  intros So L T. unfold segment_info_get.
  replace (if d <=? 0 then 1 else d) with (Z.max 1 d) by (destruct (d <=? 0) eqn:E; lia).
  destruct (info_get its es i (Z.max 1 d) 0) as [x v] eqn:E.
  eapply info_get_spec in E; [|exact So|exact L|lia|].
  - destruct E as [E1 ->]. exists x. split; [destruct (total_rate _ _ _ _); reflexivity | exact E1].
  - intros w Ew. unfold total_ok in T. rewrite Ew in T. destruct (gap_at i c) eqn:G.
    + unfold gap_at in G. rewrite (gap_total0 _ _ _ _ G) in Ew. injection Ew as <-. lia.
    + specialize (T eq_refl). lia.
Qed.

(* the rate is 0 exactly when there is a gap *)
Lemma gap_rate c es i d : total_ok c es i d ->
  (match total_rate i d (c_tracks c) es with Some v => v | None => 1 end =? 0) = gap_at i c.
Proof.
  intros T. destruct (gap_at i c) eqn:G.
  - unfold gap_at in G. rewrite (gap_total0 _ _ _ _ G). reflexivity.
  - unfold total_ok in T. destruct (total_rate _ _ _ _); [specialize (T G); lia | reflexivity].
Qed.

(* ----- media infos *)

Lemma minfo_adv_adv i j l : i <= j -> minfo_adv (minfo_adv l i) j = minfo_adv l j.
Proof.
  intros H. induction l as [|a l IH]; [reflexivity|]. destruct l as [|b l]; [reflexivity|].
  cbn [minfo_adv] in *. destruct (b <=? i) eqn:E.
  - assert (b <=? j = true) as -> by lia. exact IH.
  - cbn [minfo_adv]. reflexivity.
Qed.

Lemma latest_fold i l : forall a, ascending (a :: l) ->
  hd 0 (minfo_adv (a :: l) i) = fold_left (fun a b => if b <=? i then b else a) l a.
Proof.
  induction l as [|b l IH]; intros a A; [reflexivity|].
  cbn [fold_left]. change (minfo_adv (a :: b :: l) i) with (if b <=? i then minfo_adv (b :: l) i else a :: b :: l).
  destruct (b <=? i) eqn:E.
  - apply IH. exact (ascending_tl _ _ A).
  - cbn [hd]. assert (Forall (fun x => b <= x) l) as F by (apply ascending_hd; exact (ascending_tl _ _ A)).
    clear - F E. revert a. induction l as [|x l IH]; intros a; [reflexivity|]. inversion F; subst. cbn [fold_left].
    assert (x <=? i = false) as -> by lia. apply IH. assumption.
Qed.

Lemma latest_hd i l : ascending l -> hd 0 (minfo_adv l i) = latest i l.
Proof.
  destruct l as [|a l]; [reflexivity|]. intros A. rewrite latest_fold by exact A. unfold latest. cbn [hd fold_left].
  destruct (a <=? i); reflexivity.
Qed.

(* the iterators at index [i] *)
Definition mi_at (i : Z) (c : channel) : list (list Z) := map (fun t => minfo_adv (t_minfo t) i) (c_tracks c).

Definition mlag (i : Z) (t : track) (l : list Z) : Prop :=
  forall j, i <= j -> minfo_adv l j = minfo_adv (t_minfo t) j.


Definition pick (index m cur : Z) : Z :=
  if m >? index then (if cur <? m then cur else m)
  else if (cur >? m) && (cur <=? index) then cur else m.

Lemma minfo_get_spec i ts : forall its m its' infos m',
  Forall minfo_ok ts -> Forall2 (mlag i) ts its -> minfo_get its i m = (its', infos, m') ->
  Forall2 (mlag i) ts its'
  /\ infos = map (fun t => if latest i (t_minfo t) <=? i then Some (latest i (t_minfo t)) else None) ts
  /\ m' = fold_left (pick i) (map (fun t => latest i (t_minfo t)) ts) m.
Proof.
  induction ts as [|t ts IH]; intros its m its' infos m' O L E; inversion L as [|? it ? its1 L1 L2]; subst; cbn [minfo_get] in E.
  - injection E as <- <- <-. repeat split. constructor.
  - inversion O as [|? ? (O1 & O2 & O3) O4]; subst.
    assert (hd 0 (minfo_adv it i) = latest i (t_minfo t)) as EH by (rewrite (L1 i) by lia; apply latest_hd; exact O2).
    rewrite EH in E. destruct (minfo_get its1 i _) as [[r' infos1] m1] eqn:E1. injection E as <- <- <-.
    apply IH in E1; [|assumption|assumption]. destruct E1 as (X1 & -> & ->). split; [|split; reflexivity].
    constructor; [|exact X1]. intros j J. rewrite minfo_adv_adv by exact J. apply L1. exact J.
Qed.

Lemma pick_past i l : forall m, m <= i -> 0 <= m ->
  fold_left (pick i) l m = Z.max m (fold_right Z.max 0 (filter (fun x => x <=? i) l)).
Proof.
  induction l as [|x l IH]; intros m M P; cbn [fold_left filter fold_right]; [lia|].
  unfold pick at 2. assert (m >? i = false) as -> by lia.
  destruct (x <=? i) eqn:E; cbn [fold_right].
  - rewrite andb_true_r. destruct (x >? m) eqn:E2; rewrite IH by lia; lia.
  - rewrite andb_false_r. apply IH; assumption.
Qed.

Lemma pick_future i l : forall m, i < m -> Forall (fun x => 0 <= x) l ->
  fold_left (pick i) l m = match filter (fun x => x <=? i) l with
                           | [] => fold_right Z.min m l
                           | past => fold_right Z.max 0 past end.
Proof.
  induction l as [|x l IH]; intros m M F; cbn [fold_left filter fold_right]; [reflexivity|]. inversion F; subst.
  unfold pick at 2. assert (m >? i = true) as -> by lia.
  destruct (x <=? i) eqn:E.
  - assert (x <? m = true) as -> by lia. rewrite pick_past by lia. cbn [fold_right]. reflexivity.
  - destruct (x <? m) eqn:E2; rewrite IH by (assumption || lia).
    + destruct (filter _ l) eqn:Ef; [|reflexivity]. clear - E2. 
      assert (forall k, fold_right Z.min k l = Z.min k (fold_right Z.min k l)) as Hk.
      { intros k. induction l as [|y l IH]; cbn; lia. }
      assert (forall l a b, fold_right Z.min (Z.min a b) l = Z.min a (fold_right Z.min b l)) as Hm.
      { clear. intros l a b. induction l as [|y l IH]; cbn; [reflexivity|]. rewrite IH. lia. }
      rewrite <- Hm. f_equal. lia.
    + destruct (filter _ l) eqn:Ef; [|reflexivity].
      assert (fold_right Z.min m l <= m) by (clear; induction l; cbn; lia). lia.
Qed.

Lemma latest_nonneg i l : l <> [] -> Forall (fun x => 0 <= x < INVALID_INDEX) l -> 0 <= latest i l < INVALID_INDEX.
Proof.
  intros N F. unfold latest. destruct l as [|a l]; [congruence|]. cbn [hd]. inversion F; subst.
  assert (forall l a, 0 <= a < INVALID_INDEX -> Forall (fun x => 0 <= x < INVALID_INDEX) l ->
    0 <= fold_left (fun a b => if b <=? i then b else a) l a < INVALID_INDEX) as X.
  { clear. induction l as [|b l IH]; intros a A G; cbn [fold_left]; [exact A|]. inversion G; subst. apply IH; [|assumption].
    destruct (b <=? i); assumption. }
  apply X; assumption.
Qed.

Lemma media_info_spec i c its :
  Forall minfo_ok (c_tracks c) -> Forall2 (mlag i) (c_tracks c) its -> i < INVALID_INDEX ->
  exists its', media_info_get its i = (its', infos_at i c, info_at i c) /\ Forall2 (mlag i) (c_tracks c) its'.
Proof.
  intros O L I. unfold media_info_get. destruct (minfo_get its i INVALID_INDEX) as [[x y] z] eqn:E.
  apply minfo_get_spec with (ts := c_tracks c) in E; [|exact O|exact L]. destruct E as (E1 & -> & ->).
  exists x. split; [|exact E1]. f_equal. rewrite pick_future; [reflexivity | exact I |].
  apply Forall_forall. intros v V. apply in_map_iff in V. destruct V as (t & <- & T). eapply Forall_forall in O; [|exact T].
  destruct O as (O1 & _ & O3). apply latest_nonneg; assumption.
Qed.

Lemma info_at_range i c : c_tracks c <> [] -> Forall minfo_ok (c_tracks c) -> i < INVALID_INDEX -> 0 <= info_at i c < INVALID_INDEX.
Proof.
  intros N O I. unfold info_at.
  set (l := map (fun t => latest i (t_minfo t)) (c_tracks c)).
  assert (Forall (fun x => 0 <= x < INVALID_INDEX) l) as F.
  { apply Forall_forall. intros v V. apply in_map_iff in V. destruct V as (t & <- & T). eapply Forall_forall in O; [|exact T].
    destruct O as (O1 & _ & O3). apply latest_nonneg; assumption. }
  assert (l <> []) as Nl by (unfold l; destruct (c_tracks c); [congruence | discriminate]).
  clearbody l. assert (0 < INVALID_INDEX) as P by reflexivity. revert P. generalize dependent INVALID_INDEX. intros M _ F P.
  destruct (filter (fun x => x <=? i) l) as [|a r] eqn:Ef.
  - destruct l as [|a l]; [congruence|]. inversion F; subst. cbn [fold_right].
    assert (0 <= fold_right Z.min M l) by (clear - H2 P; induction l; cbn; [lia | inversion H2; subst; specialize (IHl H3); lia]). lia.
  - assert (Forall (fun x => 0 <= x < M) (a :: r)) as G.
    { rewrite <- Ef. clear - F. induction F; cbn; [constructor|]. destruct (x <=? i); [constructor; assumption | assumption]. }
    clear - G P. induction G; cbn [fold_right]; [lia|]. cbn in H. lia.
Qed.

Lemma mlag_le i j t l : i <= j -> mlag i t l -> mlag j t l.
Proof. intros H L k K. apply L. lia. Qed.

(* ----- parts *)


Lemma strict_tl a l : strict (a :: l) -> strict l.
Proof. destruct l; [exact (fun _ => I) | intros [_ H]; exact H]. Qed.

Lemma strict_hd a l : strict (a :: l) -> Forall (fun b => a < b) l.
Proof.
  revert a. induction l as [|b l IH]; intros a H; [constructor|].
  destruct H as [H1 H2]. constructor; [exact H1|]. specialize (IH _ H2).
  eapply Forall_impl; [|exact IH]. intros x; cbn; lia.
Qed.

Lemma skip_skip i j l : i <= j -> skip_parts j (skip_parts i l) = skip_parts j l.
Proof.
  intros H. induction l as [|p l IH]; [reflexivity|]. cbn [skip_parts]. destruct (fst p >=? i) eqn:E; [reflexivity|].
  assert (fst p >=? j = false) as -> by lia. exact IH.
Qed.

Lemma skip_all i l : Forall (fun p => i <= fst p) l -> skip_parts i l = l.
Proof. intros F. destruct F as [|p l H F]; [reflexivity|]. cbn [skip_parts]. assert (fst p >=? i = true) as -> by lia. reflexivity. Qed.

Lemma skip_next i l : strict (map fst l) ->
  skip_parts (i + 1) l = match skip_parts i l with
                         | p :: r => if fst p =? i then r else p :: r
                         | [] => [] end.
Proof.
  induction l as [|p l IH]; intros S; [reflexivity|]. cbn [skip_parts map] in *.
  destruct (fst p >=? i) eqn:E.
  - destruct (fst p =? i) eqn:E2.
    + assert (fst p >=? i + 1 = false) as -> by lia. apply skip_all.
      apply Forall_forall. intros q Q. pose proof (strict_hd _ _ S) as F. rewrite Forall_forall in F.
      specialize (F (fst q) (in_map fst _ _ Q)). lia.
    + assert (fst p >=? i + 1 = true) as -> by lia. reflexivity.
  - assert (fst p >=? i + 1 = false) as -> by lia. apply IH. exact (strict_tl _ _ S).
Qed.

Lemma skip_find i l : strict (map fst l) ->
  find (fun ps => fst ps =? i) l = match skip_parts i l with
                                   | p :: _ => if fst p =? i then Some p else None
                                   | [] => None end.
Proof.
  induction l as [|p l IH]; intros S; [reflexivity|]. cbn [skip_parts find map] in *.
  destruct (fst p =? i) eqn:E2.
  - assert (fst p >=? i = true) as -> by lia. rewrite E2. reflexivity.
  - destruct (fst p >=? i) eqn:E.
    + rewrite E2. pose proof (strict_hd _ _ S) as F. rewrite Forall_forall in F.
      destruct (find _ l) as [q|] eqn:Eq; [|reflexivity]. apply find_some in Eq. destruct Eq as [Q1 Q2].
      specialize (F (fst q) (in_map fst _ _ Q1)). lia.
    + apply IH. exact (strict_tl _ _ S).
Qed.

(* ----- loops over runs of equal durations *)

Lemma times_repeat {A} (g : Z -> A -> A) d n : forall s, times n (g d) s = fold_left (fun s d => g d s) (repeat d n) s.
Proof. induction n as [|n IH]; intros s; [reflexivity|]. cbn [times repeat fold_left]. apply IH. Qed.

Lemma elts_fold {A} (g : Z -> A -> A) l : forall s,
  fold_left (fun s e => times (Z.to_nat (fst e)) (g (snd e)) s) l s
  = fold_left (fun s d => g d s) (flat_map (fun e => repeat (snd e) (Z.to_nat (fst e))) l) s.
Proof.
  induction l as [|e l IH]; intros s; [reflexivity|]. cbn [fold_left flat_map]. rewrite fold_left_app, <- times_repeat. apply IH.
Qed.
