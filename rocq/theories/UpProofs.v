(* Lemmas about the buffers of an RTMP upstream. *)

From Coq Require Import List ZArith Lia Bool Arith Permutation.
From Coq Require Import ZifyBool ZifyNat.
From Verif Require Import BufQueueModel BufQueueSpec BufQueueProofs UpModel UpSpec.
Import ListNotations.
Open Scope Z_scope.

(* ---- memory ---- *)

Lemma zl_app A (a b : list A) : zl (a ++ b) = zl a + zl b.
Proof. unfold zl. rewrite app_length. lia. Qed.

Lemma rd_len mem p e : zl (rd mem p e) = Z.max 0 (e - p).
Proof. unfold zl, rd. rewrite map_length, seq_length. lia. Qed.

Lemma rd_nil mem p e : e <= p -> rd mem p e = [].
Proof. intros H. unfold rd. replace (Z.to_nat (e - p)) with 0%nat by lia. reflexivity. Qed.

Lemma rd_app mem p m e : p <= m <= e -> rd mem p e = rd mem p m ++ rd mem m e.
Proof.
  intros H. unfold rd. replace (Z.to_nat (e - p)) with (Z.to_nat (m - p) + Z.to_nat (e - m))%nat by lia.
  rewrite seq_app, map_app. f_equal.
  assert (G : forall c s t, p + Z.of_nat s = m + Z.of_nat t ->
    map (fun i => mem (p + Z.of_nat i)) (seq s c) = map (fun i => mem (m + Z.of_nat i)) (seq t c)).
  { induction c as [|c IH]; intros s t HS; [reflexivity|]. cbn [seq map]. f_equal; [f_equal; exact HS|]. apply IH. lia. }
  apply G. lia.
Qed.

Lemma rd_ext m1 m2 p e : (forall a, p <= a < e -> m1 a = m2 a) -> rd m1 p e = rd m2 p e.
Proof. intros H. unfold rd. apply map_ext_in. intros i HI. apply in_seq in HI. apply H. lia. Qed.

Lemma rd_wr_other mem p l a e : e <= p \/ p + zl l <= a -> rd (wr mem p l) a e = rd mem a e.
Proof. intros H. apply rd_ext. intros x HX. unfold wr. replace ((p <=? x) && (x <? p + zl l)) with false by lia. reflexivity. Qed.

Lemma rd_wr mem p l : rd (wr mem p l) p (p + zl l) = l.
Proof.
  unfold rd. replace (Z.to_nat (p + zl l - p)) with (length l) by (unfold zl; lia).
  apply nth_ext with (d := 0) (d' := 0); [rewrite map_length, seq_length; reflexivity|].
  intros i HI. rewrite map_length, seq_length in HI.
  rewrite (nth_indep _ 0 (wr mem p l (p + Z.of_nat 0))) by (rewrite map_length, seq_length; exact HI).
  rewrite (map_nth (fun i => wr mem p l (p + Z.of_nat i))), seq_nth by exact HI.
  unfold wr. replace (_ && _) with true by (unfold zl; lia). f_equal. lia.
Qed.

(* ---- where the ranges are ---- *)

Definition in_node (size n : Z) (r : Z * Z) : Prop := n + 8 <= fst r /\ fst r < snd r /\ snd r <= n + size.

Fixpoint placed (size : Z) (used : list Z) (rs : list (Z * Z)) : Prop :=
  match used with
  | [] => rs = []
  | n :: r => exists a b, rs = a ++ b /\ Forall (in_node size n) a /\ placed size r b
  end.

Lemma placed_in size used : forall rs r, placed size used rs -> In r rs -> exists n, In n used /\ in_node size n r.
Proof.
  induction used as [|n used IH]; intros rs r H HI; cbn in H; [subst; contradiction|].
  destruct H as (a & b & -> & FA & PB). apply in_app_or in HI as [HI|HI].
  - rewrite Forall_forall in FA. exists n. split; [left; reflexivity|auto].
  - destruct (IH b r PB HI) as (m & M1 & M2). exists m. split; [right; exact M1|exact M2].
Qed.

Lemma placed_nil size used : placed size used [].
Proof. induction used as [|n used IH]; cbn; [reflexivity|]. exists [], []. auto. Qed.

Lemma placed_node size used n : forall rs, placed size used rs -> placed size (used ++ [n]) rs.
Proof.
  induction used as [|m used IH]; intros rs H; cbn in *.
  - subst. exists [], []. auto.
  - destruct H as (a & b & E & F & P). exists a, b. auto.
Qed.

Lemma placed_range size used n r : forall rs, placed size (used ++ [n]) rs -> in_node size n r -> placed size (used ++ [n]) (rs ++ [r]).
Proof.
  induction used as [|m used IH]; intros rs H HR; cbn in *.
  - destruct H as (a & b & -> & F & ->). exists (a ++ [r]), []. rewrite !app_nil_r. split; [reflexivity|]. split; [|reflexivity].
    apply Forall_app. auto.
  - destruct H as (a & b & -> & F & P). exists a, (b ++ [r]). rewrite app_assoc. auto.
Qed.

Lemma placed_tail size used a : forall b, placed size used (a ++ b) -> placed size used b.
Proof.
  revert a. induction used as [|n used IH]; intros a b H; cbn in *.
  - apply app_eq_nil in H. tauto.
  - destruct H as (x & y & E & F & P). revert a E. induction x as [|r x IHx]; intros a E; cbn in E.
    + subst y. exists [], b. split; [reflexivity|]. split; [constructor|]. eapply IH. exact P.
    + inversion F as [|? ? F1 F2]; subst. destruct a as [|q a]; cbn in E.
      * subst b. exists (r :: x), y. auto.
      * injection E as <- E. apply (IHx F2 a E).
Qed.

Lemma placed_head size used p p' l b : placed size used ((p, l) :: b) -> p <= p' < l -> placed size used ((p', l) :: b).
Proof.
  revert p b. induction used as [|n used IH]; intros p b H HP; cbn in *; [discriminate|].
  destruct H as (x & y & E & F & P). destruct x as [|r x]; cbn in E.
  - subst y. exists [], ((p', l) :: b). split; [reflexivity|]. split; [constructor|]. eapply IH; eauto.
  - injection E as <- ->. inversion F as [|? ? F1 F2]; subst. exists ((p', l) :: x), y. split; [reflexivity|]. split; [|exact P].
    constructor; [|exact F2]. unfold in_node in *. cbn in *. lia.
Qed.

(* dropping nodes up to the one that holds a byte of a range keeps that range
   and those behind it *)
Lemma placed_drop size limit : forall used a r b k,
  all_apart size used -> placed size used (a ++ r :: b) -> fst r <= limit < snd r -> (k < length used)%nat ->
  (forall j n, (j < k)%nat -> nth_error used j = Some n -> ~ inside size n limit) ->
  (forall n, nth_error used k = Some n -> (S k < length used)%nat -> inside size n limit) ->
  placed size (skipn k used) (r :: b).
Proof.
  induction used as [|n used IH]; intros a r b k AP P HL HK H4 H5; [cbn in HK; lia|].
  cbn in AP. destruct AP as (AP1 & AP2). rewrite Forall_forall in AP1.
  pose proof P as P0. cbn [placed] in P. destruct P as (x & y & E & F & P).
  assert (C : (exists x', x = a ++ r :: x') \/ (exists a', a = x ++ a' /\ y = a' ++ r :: b)).
  { clear - E. revert x E. induction a as [|q a IHa]; intros x E; destruct x as [|z x]; cbn in E.
    - right. exists []. auto.
    - injection E as <- ->. left. exists x. reflexivity.
    - right. exists (q :: a). auto.
    - injection E as <- E. destruct (IHa x E) as [(x' & ->)|(a' & -> & ->)]; [left; exists x'; reflexivity|right; exists a'; split; reflexivity]. }
  destruct C as [(x' & ->)|(a' & -> & ->)].
  - apply Forall_app in F as (_ & F). inversion F as [|? ? F1 _]; subst.
    destruct k as [|k].
    + cbn [skipn]. eapply placed_tail. exact P0.
    + exfalso. apply (H4 0%nat n); [lia|reflexivity|]. unfold in_node, inside in *. lia.
  - destruct (placed_in size used (a' ++ r :: b) r P) as (m & M1 & M2); [apply in_or_app; right; left; reflexivity|].
    assert (NI : ~ inside size n limit). { specialize (AP1 m M1). unfold apart, in_node, inside in *. lia. }
    destruct k as [|k].
    + destruct used as [|n2 used]; [contradiction M1|]. exfalso. apply NI. apply H5; [reflexivity|cbn; lia].
    + cbn [skipn]. cbn [length] in HK. apply (IH a' r b k AP2 P HL); [lia| |].
      * intros j q HJ HN. apply (H4 (S j) q); [lia|exact HN].
      * intros q HN HS. apply H5; [exact HN|cbn [length]; lia].
Qed.

(* ---- what send_chain takes ---- *)

Definition flat (mem : Z -> Z) (rs : list (Z * Z)) : list Z := flat_map (fun r => rd mem (fst r) (snd r)) rs.

Lemma flat_app mem a b : flat mem (a ++ b) = flat mem a ++ flat mem b.
Proof. unfold flat. apply flat_map_app. Qed.

Lemma flat_ext m1 m2 rs : (forall r a, In r rs -> fst r <= a < snd r -> m1 a = m2 a) -> flat m1 rs = flat m2 rs.
Proof.
  induction rs as [|r rs IH]; intros H; [reflexivity|]. cbn. f_equal.
  - apply rd_ext. intros a HA. apply (H r); [left; reflexivity|exact HA].
  - apply IH. intros q a HQ HA. apply (H q); [right; exact HQ|exact HA].
Qed.

Lemma send_chain_ok mem : forall busy k o s rest, Forall (fun r => fst r < snd r) busy -> send_chain mem k busy = (o, s, rest) ->
  o ++ flat mem rest = flat mem busy /\
  ((rest = [] /\ s = busy) \/ (exists p l b p', busy = s ++ (p, l) :: b /\ rest = (p', l) :: b /\ p <= p' < l)) /\
  (zl (flat mem busy) <= k -> rest = []).
Proof.
  induction busy as [|(p, l) busy IH]; intros k o s rest F E; cbn [send_chain] in E.
  - injection E as <- <- <-. split; [reflexivity|]. split; [left; auto|auto].
  - inversion F as [|? ? F1 F2]; subst. cbn [fst snd] in F1. destruct (l - p <=? k) eqn:C.
    + destruct (send_chain mem (k - (l - p)) busy) as [[o1 s1] r1] eqn:E1. injection E as <- <- <-.
      destruct (IH _ _ _ _ F2 E1) as (I1 & I2 & I3). split; [|split].
      * cbn. rewrite <- app_assoc, I1. reflexivity.
      * destruct I2 as [(-> & ->)|(p0 & l0 & b & p' & -> & -> & I2)]; [left; auto|right]. exists p0, l0, b, p'. auto.
      * intros H. apply I3. cbn in H. rewrite zl_app, rd_len in H. unfold flat in *. lia.
    + injection E as <- <- <-. split; [|split].
      * cbn. rewrite app_assoc. f_equal. symmetry. apply rd_app. lia.
      * right. exists p, l, busy, (p + Z.max 0 k). split; [reflexivity|]. split; [reflexivity|]. lia.
      * intros H. cbn in H. rewrite zl_app, rd_len in H. unfold zl in H. lia.
Qed.

(* ---- freeing ---- *)

Lemma free_loop_mem : forall l q limit q' rel, bq_free_loop q limit l = (q', rel) -> bq_mem_left q <> None -> bq_mem_left q' <> None.
Proof.
  induction l as [|c l IH]; intros q limit q' rel H HM; cbn in H; [injection H as <- <-; exact HM|].
  destruct (node_contains q c limit); [injection H as <- <-; exact HM|].
  destruct l as [|c2 l]; [injection H as <- <-; exact HM|].
  destruct (bq_release q c) as [q1 r1] eqn:E1. destruct (bq_free_loop q1 limit (c2 :: l)) as [q2 r2] eqn:E2.
  injection H as <- <-. apply (IH _ _ _ _ E2). unfold bq_release in E1.
  destruct (bq_free_left q <=? 0); injection E1 as <- <-; cbn; [destruct (bq_mem_left q); congruence|exact HM].
Qed.

Lemma free_ok q limit a r b us n :
  8 < bq_alloc_size q -> all_apart (bq_alloc_size q) (held q) -> bq_mem_left q <> None -> bq_used q = us ++ [n] ->
  placed (bq_alloc_size q) (bq_used q) (a ++ r :: b) -> fst r <= limit < snd r ->
  exists q' rel us', bq_free_upto q limit = BqOk q' None rel /\
    bq_alloc_size q' = bq_alloc_size q /\ all_apart (bq_alloc_size q) (held q') /\ bq_mem_left q' <> None /\
    bq_used q' = us' ++ [n] /\ placed (bq_alloc_size q) (bq_used q') (r :: b) /\ Permutation (held q) (held q' ++ rel).
Proof.
  intros HS AP HM HU P HL. unfold bq_free_upto.
  assert (NE : bq_used q <> []) by (rewrite HU; destruct us; discriminate).
  destruct (bq_used q) as [|c l] eqn:EU; [congruence|].
  destruct (bq_free_loop q limit (c :: l)) as [q' rel] eqn:EL.
  destruct (free_loop_drop _ _ _ _ _ EL) as (k & K1 & K2 & K3 & K4 & K5 & K6).
  specialize (K2 NE).
  assert (ST : bq_step q (OpFree limit) = BqOk q' None rel) by (cbn; unfold bq_free_upto; rewrite EU, EL; reflexivity).
  destruct (step_held _ _ _ _ _ ST) as (_ & [PM|(x & X & _)]); [|discriminate].
  exists q', rel, (skipn k us). split; [reflexivity|]. split; [exact K6|]. split.
  { apply (all_apart_perm _ _ _ PM) in AP. apply all_apart_app in AP. tauto. }
  split; [eapply free_loop_mem; eauto|].
  assert (KL : (k <= length us)%nat). { rewrite HU, app_length in K2. cbn in K2. lia. }
  split.
  { rewrite K1, HU, skipn_app. replace (k - length us)%nat with 0%nat by lia. reflexivity. }
  split; [|exact PM]. rewrite K1. apply (placed_drop _ limit (c :: l) a r b k); auto.
  - unfold held in AP. apply all_apart_app in AP as (AP & _). rewrite EU in AP. exact AP.
  - intros j m HJ HN HI. apply contains_inside in HI. rewrite (K4 j m HJ HN) in HI. discriminate.
  - intros m HN HK. apply contains_inside. apply K5; auto.
Qed.

(* a new buffer *)
Lemma get_ok q al : all_apart (bq_alloc_size q) (somes al ++ held q) -> bq_mem_left q <> None ->
  match bq_get q (hd None al) with
  | BqOk q' (Some p) _ => exists n, p = n + 8 /\ bq_used q' = bq_used q ++ [n] /\ bq_alloc_size q' = bq_alloc_size q /\ bq_mem_left q' <> None /\
      all_apart (bq_alloc_size q) (somes (tl al) ++ held q') /\ all_apart (bq_alloc_size q) (held q')
  | BqOk q' None _ => q' = q
  | BqUB => False
  end.
Proof.
  intros AP HM. unfold bq_get. destruct (bq_free q) as [|n r] eqn:EF.
  - destruct (bq_mem_left q) as [m|]; [|congruence]. destruct (m <? bq_alloc_size q); [reflexivity|].
    destruct al as [|[x|] al]; cbn [hd]; [reflexivity| |reflexivity].
    exists x. split; [reflexivity|]. cbn [bq_used bq_alloc_size bq_mem_left]. do 2 (split; [reflexivity|]). split; [discriminate|].
    assert (PM : Permutation (somes (Some x :: al) ++ held q) (somes al ++ held (mk_bq (bq_alloc_size q) (Some (m - bq_alloc_size q)) (bq_nbuffers q + 1) (bq_used q ++ [x]) [] (bq_free_left q)))).
    { unfold held. cbn [somes flat_map app bq_used bq_free]. rewrite EF, !app_nil_r.
      rewrite Permutation_middle. apply Permutation_app_head. apply Permutation_cons_append. }
    cbn [tl]. pose proof (all_apart_perm _ _ _ PM AP) as AP2. split; [exact AP2|]. apply all_apart_app in AP2. tauto.
  - exists n. split; [reflexivity|]. cbn [bq_used bq_alloc_size bq_mem_left]. do 2 (split; [reflexivity|]). split; [exact HM|].
    assert (E : held (mk_bq (bq_alloc_size q) (bq_mem_left q) (bq_nbuffers q) (bq_used q ++ [n]) r (bq_free_left q + 1)) = held q).
    { unfold held. cbn [bq_used bq_free]. rewrite EF, <- app_assoc. reflexivity. }
    rewrite E. apply all_apart_app in AP as (A1 & A2 & A3). split; [|exact A2]. apply all_apart_app.
    destruct al as [|[x|] al]; cbn [tl]; [auto| |auto]. cbn in A1. split; [tauto|]. split; [exact A2|].
    intros y z HY HZ. apply A3; [right; exact HY|exact HZ].
Qed.
