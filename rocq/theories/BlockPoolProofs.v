From Coq Require Import List Arith Lia Bool.
From Coq Require Import ZifyBool ZifyNat.
From Verif Require Import Lists BlockPoolModel BlockPoolSpec.
Import ListNotations.

Lemma addr_eqb_spec a b : reflect (a = b) (addr_eqb a b).
Proof.
  destruct a as [a1 a2], b as [b1 b2]. unfold addr_eqb. cbn.
  destruct (Nat.eqb_spec a1 b1), (Nat.eqb_spec a2 b2); constructor; congruence.
Qed.

Lemma item_eqb_spec x y : reflect (x = y) (item_eqb x y).
Proof.
  destruct x as [i a], y as [j b]. unfold item_eqb. cbn.
  destruct (Nat.eqb_spec i j), (addr_eqb_spec a b); constructor; congruence.
Qed.

(* free list chain *)
Fixpoint seg (m : mem) (h : option addr) (l : list addr) : Prop :=
  match l with
  | [] => h = None
  | x :: r => h = Some x /\ seg m (word_ptr (m_word m x)) r
  end.

Lemma seg_ext m m' h l :
  (forall x, In x l -> m_word m' x = m_word m x) -> seg m h l -> seg m' h l.
Proof.
  revert h; induction l as [|x l IH]; intros h He Hs; [exact Hs|].
  destruct Hs as [H1 H2]. split; [exact H1|]. rewrite He by (left; reflexivity).
  apply IH; [|exact H2]. intros y Hy. apply He. right. exact Hy.
Qed.

Lemma linked_seg m x r : linked m (x :: r) -> seg m (Some x) (x :: r).
Proof.
  revert x; induction r as [|y r IH]; intros x H; cbn in H.
  - cbn. rewrite H. auto.
  - destruct H as [H1 H2]. split; [reflexivity|]. rewrite H1. cbn [word_ptr]. apply IH. exact H2.
Qed.

Lemma seg_app m h l x r :
  seg m h l -> l <> [] -> NoDup l -> (forall y, In y (x :: r) -> ~ In y l) ->
  seg m (Some x) (x :: r) ->
  seg (set_word m (last l (0, 0)) (WPtr x)) h (l ++ x :: r).
Proof.
  revert h; induction l as [|a l IH]; intros h Hs Hne Hnd Hdis Hx; [congruence|].
  destruct Hs as [Hh Hs]. apply NoDup_cons_iff in Hnd. destruct Hnd as [Hna Hnd].
  destruct l as [|b l].
  - cbn [last app]. split; [exact Hh|].
    cbn [set_word m_word]. destruct (addr_eqb_spec a a); [|congruence]. cbn [word_ptr].
    eapply seg_ext; [|exact Hx]. intros y Hy. cbn [set_word m_word].
    destruct (addr_eqb_spec a y) as [->|]; [|reflexivity].
    exfalso. apply (Hdis y Hy). left. reflexivity.
  - change (last (a :: b :: l) (0, 0)) with (last (b :: l) (0, 0)).
    cbn [app]. split; [exact Hh|].
    assert (Hneq : last (b :: l) (0, 0) <> a).
    { intros E. apply Hna. rewrite <- E. destruct (exists_last (l := b :: l)) as [l' [z Ez]]; [discriminate|].
      rewrite Ez, last_last. apply in_or_app. right. left. reflexivity. }
    cbn [set_word m_word]. destruct (addr_eqb_spec (last (b :: l) (0, 0)) a); [congruence|].
    apply IH; auto; [discriminate|].
    intros y Hy Hin. apply (Hdis y Hy). right. exact Hin.
Qed.

Definition item (g : ghost) (i : nat) (a : addr) : Prop :=
  In (i, a) (g_live g) \/ In a (g_free g i).

Record inv (page limit : nat) (sizes : list nat) (p : pool) (m : mem) (g : ghost)
    (owner : nat -> nat) : Prop := {
  i_sizes : length (pl_slots p) = length sizes;
  i_slot : forall i s, nth_error (pl_slots p) i = Some s ->
     sl_size s = item_size sizes i /\ sl_size s <= sl_alloc s /\
     sl_alloc s = sl_alloc (init_slot page (nth i sizes 0)) /\
     seg m (sl_head s) (g_free g i) /\
     (g_free g i <> [] -> sl_tail s = Some (last (g_free g i) (0, 0))) /\
     ((sl_end s = 0 /\ sl_pos s = 0 /\ forall a, ~ item g i a) \/
      (sl_chunk s < pl_chunks p /\ owner (sl_chunk s) = i /\ sl_end s = sl_alloc s /\
       sl_pos s <= sl_end s /\ exists k, sl_pos s = k * sl_size s));
  i_nodup_live : NoDup (g_live g);
  i_nodup_free : forall i, NoDup (g_free g i);
  i_disj : forall i a, In (i, a) (g_live g) -> ~ In a (g_free g i);
  i_item : forall i a, item g i a ->
     exists s, nth_error (pl_slots p) i = Some s /\
       owner (fst a) = i /\ fst a < pl_chunks p /\
       nth_error (g_regions g) (fst a) = Some (sl_alloc s) /\
       (exists k, snd a = k * sl_size s) /\ snd a + sl_size s <= sl_alloc s /\
       (fst a = sl_chunk s -> snd a + sl_size s <= sl_pos s);
  i_limit : pl_limit p + sum (map sl_total (pl_slots p)) = limit;
  i_regions : length (g_regions g) = pl_chunks p;
  i_total : sum (map sl_total (pl_slots p)) = sum (g_regions g);
  i_own : forall c, c < pl_chunks p -> exists s,
     nth_error (pl_slots p) (owner c) = Some s /\
     nth_error (g_regions g) c = Some (sl_alloc s)
}.

Lemma round_up page n : 0 < page -> n <= (n + page - 1) / page * page.
Proof.
  intros H. pose proof (Nat.div_mod (n + page - 1) page ltac:(lia)).
  pose proof (Nat.mod_upper_bound (n + page - 1) page ltac:(lia)). lia.
Qed.

Lemma inv_init page limit sizes m :
  0 < page ->
  inv page limit sizes (pool_create page limit sizes) m (mk_ghost [] (fun _ => []) []) (fun _ => 0).
Proof.
  intros Hp. unfold pool_create. constructor; cbn [pl_slots pl_chunks pl_limit g_live g_free g_regions].
  - apply map_length.
  - intros i s H. rewrite nth_error_map in H.
    destruct (nth_error sizes i) as [z|] eqn:E; [|discriminate]. injection H as <-.
    assert (En : nth i sizes 0 = z) by (apply nth_error_nth; exact E).
    unfold item_size. rewrite En. unfold init_slot.
    set (z' := if z <? 8 then 8 else z).
    assert (Hz : z' = Nat.max 8 z) by (unfold z'; destruct (Nat.ltb_spec z 8); lia).
    cbn [sl_size sl_alloc sl_head sl_tail sl_end sl_pos sl_chunk].
    pose proof (round_up page (z' * 4) Hp).
    split; [exact Hz|]. split; [lia|]. split; [reflexivity|]. split; [reflexivity|]. split; [congruence|].
    left. unfold item. cbn. tauto.
  - constructor.
  - intros; constructor.
  - cbn; tauto.
  - unfold item. cbn. tauto.
  - assert (E : sum (map sl_total (map (init_slot page) sizes)) = 0).
    { induction sizes as [|z l IH]; [reflexivity|]. cbn [map]. unfold sum in *. cbn [fold_right].
      rewrite IH. reflexivity. }
    lia.
  - reflexivity.
  - induction sizes as [|z l IH]; [reflexivity|]. cbn [map]. unfold sum in *. cbn [fold_right].
    rewrite IH. reflexivity.
  - intros; lia.
Qed.

(* the free list of the slot of the pool *)
Lemma inv_free_head page limit sizes p m g owner i s :
  inv page limit sizes p m g owner -> nth_error (pl_slots p) i = Some s ->
  (sl_head s = None <-> g_free g i = []) /\
  (forall x, sl_head s = Some x -> exists q, g_free g i = x :: q /\ seg m (word_ptr (m_word m x)) q).
Proof.
  intros H Hs. destruct (i_slot _ _ _ _ _ _ _ H i s Hs) as (_ & _ & _ & Hseg & _).
  destruct (g_free g i) as [|x q]; cbn in Hseg.
  - rewrite Hseg. split; [tauto|]. discriminate.
  - destruct Hseg as [-> Hq]. split; [split; discriminate|].
    intros y [= <-]. exists q. auto.
Qed.

Lemma filter_neq x l : ~ In x l -> filter (fun b => negb (addr_eqb x b)) l = l.
Proof.
  induction l as [|y l IH]; intros H; [reflexivity|]. cbn.
  destruct (addr_eqb_spec x y) as [->|Hne]; cbn; [exfalso; apply H; left; reflexivity|].
  rewrite IH; [reflexivity|]. intros Hin. apply H. right. exact Hin.
Qed.

Lemma filter_neq_head x l : NoDup (x :: l) -> filter (fun b => negb (addr_eqb x b)) (x :: l) = l.
Proof.
  intros H. apply NoDup_cons_iff in H. destruct H as [H _]. cbn.
  destruct (addr_eqb_spec x x); [|congruence]. cbn. apply filter_neq. exact H.
Qed.

Lemma item_live_add g i a r j b : item (live_add g i a r) j b -> item g j b \/ (j = i /\ b = a).
Proof.
  unfold item, live_add. cbn. intros [[[= <- <-]|H]|H]; auto.
  destruct (Nat.eqb_spec i j) as [->|]; [|auto].
  apply filter_In in H. tauto.
Qed.


(* replacing one slot *)
Lemma inv_step page limit sizes p m g owner i s s' lim' ch' regs owner' m' g' :
  inv page limit sizes p m g owner ->
  nth_error (pl_slots p) i = Some s ->
  sl_size s' = sl_size s -> sl_alloc s' = sl_alloc s ->
  pl_chunks p <= ch' ->
  (forall c, c < pl_chunks p -> owner' c = owner c) ->
  g_regions g' = g_regions g ++ regs ->
  pl_chunks p + length regs = ch' ->
  (forall c, pl_chunks p <= c < ch' ->
     owner' c = i /\ nth_error (g_regions g') c = Some (sl_alloc s)) ->
  lim' + sl_total s' = pl_limit p + sl_total s ->
  sl_total s' = sl_total s + sum regs ->
  (forall j, j <> i -> g_free g' j = g_free g j) ->
  seg m' (sl_head s') (g_free g' i) ->
  (g_free g' i <> [] -> sl_tail s' = Some (last (g_free g' i) (0, 0))) ->
  NoDup (g_free g' i) ->
  (forall j x, j <> i -> In x (g_free g j) -> m_word m' x = m_word m x) ->
  ((sl_end s' = 0 /\ sl_pos s' = 0 /\ forall a, ~ item g' i a) \/
   (sl_chunk s' < ch' /\ owner' (sl_chunk s') = i /\ sl_end s' = sl_alloc s /\
    sl_pos s' <= sl_end s' /\ exists k, sl_pos s' = k * sl_size s)) ->
  (forall j b, j <> i -> In (j, b) (g_live g') <-> In (j, b) (g_live g)) ->
  NoDup (g_live g') ->
  (forall a, In (i, a) (g_live g') -> ~ In a (g_free g' i)) ->
  (forall a, item g' i a ->
     owner' (fst a) = i /\ fst a < ch' /\
     nth_error (g_regions g') (fst a) = Some (sl_alloc s) /\
     (exists k, snd a = k * sl_size s) /\ snd a + sl_size s <= sl_alloc s /\
     (fst a = sl_chunk s' -> snd a + sl_size s <= sl_pos s')) ->
  inv page limit sizes (mk_pool lim' ch' (set_nth (pl_slots p) i s')) m' g' owner'.
Proof.
  intros Hinv Hs Hsz Hal Hch Hown Hreg Hrl Hnew Hlim Htot Hfj Hseg Htail Hndf Hmw Hcur Hlj Hndl Hdis Hit.
  pose proof (i_regions _ _ _ _ _ _ _ Hinv) as Hrlen.
  assert (Hilt : i < length (pl_slots p)) by (apply nth_error_Some; congruence).
  assert (Hregold : forall c, c < pl_chunks p -> nth_error (g_regions g') c = nth_error (g_regions g) c).
  { intros c Hc. rewrite Hreg. apply nth_error_app1. lia. }
  assert (Hsum : sum (map sl_total (set_nth (pl_slots p) i s')) + sl_total s =
                 sum (map sl_total (pl_slots p)) + sl_total s').
  { rewrite map_set_nth. apply sum_set_nth. rewrite nth_error_map, Hs. reflexivity. }
  pose proof (i_limit _ _ _ _ _ _ _ Hinv) as Hl. pose proof (i_total _ _ _ _ _ _ _ Hinv) as Ht.
  constructor; cbn [pl_slots pl_chunks pl_limit].
  - rewrite set_nth_length. apply (i_sizes _ _ _ _ _ _ _ Hinv).
  - intros j t Hj. rewrite nth_error_set_nth in Hj. destruct (Nat.eqb_spec i j) as [<-|Hne].
    + rewrite Hs in Hj. injection Hj as <-.
      destruct (i_slot _ _ _ _ _ _ _ Hinv i s Hs) as (A1 & A2 & A3 & _).
      rewrite Hsz, Hal. repeat split; auto.
    + destruct (i_slot _ _ _ _ _ _ _ Hinv j t Hj) as (A1 & A2 & A3 & A4 & A5 & A6).
      rewrite Hfj by congruence. repeat split; auto.
      * eapply seg_ext; [|exact A4]. intros x Hx. apply Hmw with (j := j); auto.
      * destruct A6 as [(B1 & B2 & B3)|(B1 & B2 & B3 & B4 & B5)].
        -- left. repeat split; auto. intros a [Ha|Ha].
           ++ apply Hlj in Ha; [|congruence]. apply (B3 a). left; exact Ha.
           ++ rewrite Hfj in Ha by congruence. apply (B3 a). right; exact Ha.
        -- right. repeat split; auto; [lia|]. rewrite Hown by lia. exact B2.
  - exact Hndl.
  - intros j. destruct (Nat.eq_dec j i) as [->|Hne]; [exact Hndf|]. rewrite Hfj by exact Hne.
    apply (i_nodup_free _ _ _ _ _ _ _ Hinv).
  - intros j a Ha. destruct (Nat.eq_dec j i) as [->|Hne]; [apply Hdis; exact Ha|].
    rewrite Hfj by exact Hne. apply (i_disj _ _ _ _ _ _ _ Hinv). apply Hlj; auto.
  - intros j a Ha. destruct (Nat.eq_dec j i) as [->|Hne].
    + exists s'. rewrite nth_error_set_nth_eq by exact Hilt. rewrite Hsz, Hal.
      split; [reflexivity|]. apply Hit. exact Ha.
    + assert (Ha' : item g j a).
      { destruct Ha as [Ha|Ha]; [left; apply Hlj; auto|right]. rewrite Hfj in Ha by exact Hne. exact Ha. }
      destruct (i_item _ _ _ _ _ _ _ Hinv j a Ha') as (t & T1 & T2 & T3 & T4 & T5 & T6 & T7).
      exists t. rewrite nth_error_set_nth_neq by congruence. rewrite Hown, Hregold by exact T3.
      repeat split; auto. lia.
  - lia.
  - rewrite Hreg, app_length. lia.
  - rewrite Hreg, sum_app. lia.
  - intros c Hc. destruct (Nat.lt_ge_cases c (pl_chunks p)) as [Hlt|Hge].
    + destruct (i_own _ _ _ _ _ _ _ Hinv c Hlt) as (t & T1 & T2).
      rewrite Hown, Hregold by exact Hlt.
      destruct (Nat.eq_dec (owner c) i) as [E|E].
      * exists s'. rewrite E in *. rewrite nth_error_set_nth_eq by exact Hilt. split; [reflexivity|].
        rewrite Hs in T1. injection T1 as <-. rewrite Hal. exact T2.
      * exists t. rewrite nth_error_set_nth_neq by congruence. auto.
    + destruct (Hnew c ltac:(lia)) as [E1 E2]. exists s'. rewrite E1.
      rewrite nth_error_set_nth_eq by exact Hilt. rewrite Hal. auto.
Qed.

(* one allocation, all cases *)
Lemma inv_alloc page limit sizes p m g owner i s ok a p' :
  inv page limit sizes p m g owner ->
  nth_error (pl_slots p) i = Some s ->
  alloc_internal p m i s ok = (Some a, p') ->
  (forall j, ~ In (j, a) (g_live g)) /\
  (match g_free g i with
   | x :: _ => a = x /\ pl_limit p' = pl_limit p /\ pl_chunks p' = pl_chunks p
   | [] => forall j, ~ In a (g_free g j) end) /\
  exists owner', inv page limit sizes p' m (live_add g i a (region_taken p p')) owner'.
Proof.
  intros Hinv Hs Ha.
  pose proof (i_slot _ _ _ _ _ _ _ Hinv i s Hs) as (Hsz & Hsa & Hal & Hseg & Htail & Hcur).
  pose proof (inv_free_head _ _ _ _ _ _ _ _ _ Hinv Hs) as [Hh1 Hh2].
  pose proof (i_regions _ _ _ _ _ _ _ Hinv) as Hrlen.
  assert (Hilt : i < length (pl_slots p)) by (apply nth_error_Some; congruence).
  assert (Hs8 : 0 < sl_size s) by (rewrite Hsz; unfold item_size; lia).
  unfold alloc_internal in Ha.
  destruct (sl_head s) as [x|] eqn:Ehd.
  - (* reuse *)
    injection Ha as <- <-.
    destruct (Hh2 x eq_refl) as (q & Eq & Hq). clear Hh1 Hh2.
    assert (Hxf : In x (g_free g i)) by (rewrite Eq; left; reflexivity).
    assert (Hx : item g i x) by (right; exact Hxf).
    destruct (i_item _ _ _ _ _ _ _ Hinv i x Hx) as (s0 & Hs0 & Hown & Hrest).
    pose proof (i_nodup_free _ _ _ _ _ _ _ Hinv i) as Hnd.
    assert (Hnl : forall j, ~ In (j, x) (g_live g)).
    { intros j Hj. destruct (i_item _ _ _ _ _ _ _ Hinv j x (or_introl Hj)) as (_ & _ & Hown' & _).
      assert (Eji : j = i) by congruence. rewrite Eji in Hj. exact (i_disj _ _ _ _ _ _ _ Hinv i x Hj Hxf). }
    split; [exact Hnl|]. rewrite Eq. split; [cbn; auto|].
    exists owner. unfold region_taken, with_slot. cbn [pl_chunks]. rewrite Nat.eqb_refl.
    assert (Hfree' : g_free (live_add g i x []) i = q).
    { cbn. rewrite Nat.eqb_refl, Eq. rewrite Eq in Hnd. apply filter_neq_head. exact Hnd. }
    rewrite Eq in Hnd. apply NoDup_cons_iff in Hnd. destruct Hnd as [Hxq Hndq].
    eapply inv_step with (s := s) (regs := []); try exact Hinv; try exact Hs; try reflexivity; try lia.
    + cbn. lia.
    + cbn [sl_total sum fold_right]. unfold sum; cbn. lia.
    + intros j Hj. cbn. destruct (Nat.eqb_spec i j); congruence.
    + rewrite Hfree'. exact Hq.
    + rewrite Hfree'. cbn [sl_tail]. intros Hqne. rewrite Htail by (rewrite Eq; discriminate).
      rewrite Eq. destruct q; [congruence|reflexivity].
    + rewrite Hfree'. exact Hndq.
    + cbn [sl_end sl_pos sl_chunk]. destruct Hcur as [(B1 & B2 & B3)|B]; [|right; exact B].
      exfalso. exact (B3 x Hx).
    + intros j b Hj. cbn. split; [intros [[= <- <-]|H]; [congruence|exact H]|auto].
    + cbn. constructor; [apply Hnl|]. apply (i_nodup_live _ _ _ _ _ _ _ Hinv).
    + intros b Hb. rewrite Hfree'. cbn in Hb. destruct Hb as [[= <-]|Hb]; [exact Hxq|].
      intros Hbq. apply (i_disj _ _ _ _ _ _ _ Hinv i b Hb). rewrite Eq. right. exact Hbq.
    + intros b Hb. assert (Hb' : item g i b).
      { destruct (item_live_add _ _ _ _ _ _ Hb) as [H|[_ ->]]; [exact H|exact Hx]. }
      destruct (i_item _ _ _ _ _ _ _ Hinv i b Hb') as (t & T1 & T2 & T3 & T4 & T5 & T6 & T7).
      rewrite Hs in T1. injection T1 as <-. cbn [live_add g_regions]. rewrite app_nil_r.
      cbn [sl_chunk sl_pos]. repeat split; auto.
  - assert (Efr : g_free g i = []) by (apply Hh1; reflexivity). rewrite Efr.
    assert (Hfree' : forall x r, g_free (live_add g i x r) i = []).
    { intros. cbn. rewrite Nat.eqb_refl, Efr. reflexivity. }
    destruct (Nat.ltb_spec (sl_end s - sl_pos s) (sl_size s)) as [Hno|Hroom].
    + (* new region *)
      destruct (Nat.ltb_spec (pl_limit p) (sl_alloc s)) as [|Hlim]; [discriminate|].
      destruct ok; [|discriminate]. cbn [negb] in Ha. injection Ha as <- <-.
      assert (Hfresh : forall j, ~ item g j (pl_chunks p, 0)).
      { intros j Hj. destruct (i_item _ _ _ _ _ _ _ Hinv j _ Hj) as (_ & _ & _ & T & _). cbn in T. lia. }
      split; [intros j Hj; apply (Hfresh j); left; exact Hj|].
      split; [intros j Hj; apply (Hfresh j); right; exact Hj|].
      exists (fun c => if c =? pl_chunks p then i else owner c).
      unfold region_taken. cbn [pl_chunks pl_limit].
      destruct (Nat.eqb_spec (pl_chunks p) (S (pl_chunks p))); [lia|].
      replace (pl_limit p - (pl_limit p - sl_alloc s)) with (sl_alloc s) by lia.
      eapply inv_step with (s := s) (regs := [sl_alloc s]); try exact Hinv; try exact Hs; try reflexivity; try lia.
      * intros c Hc. destruct (Nat.eqb_spec c (pl_chunks p)); [lia|reflexivity].
      * cbn. lia.
      * intros c Hc. assert (c = pl_chunks p) as -> by lia. rewrite Nat.eqb_refl. split; [reflexivity|].
        cbn. rewrite nth_error_app2 by lia. replace (pl_chunks p - length (g_regions g)) with 0 by lia. reflexivity.
      * cbn [sl_total]. lia.
      * cbn [sl_total]. unfold sum; cbn. lia.
      * intros j Hj. cbn. destruct (Nat.eqb_spec i j); congruence.
      * rewrite Hfree'. reflexivity.
      * rewrite Hfree'. congruence.
      * rewrite Hfree'. constructor.
      * right. cbn [sl_chunk sl_end sl_pos]. rewrite Nat.eqb_refl.
        split; [lia|]. split; [reflexivity|]. split; [reflexivity|]. split; [exact Hsa|]. exists 1. lia.
      * intros j b Hj. cbn. split; [intros [[= <- <-]|H]; [congruence|exact H]|auto].
      * cbn. constructor; [|apply (i_nodup_live _ _ _ _ _ _ _ Hinv)].
        intros Hj. apply (Hfresh i). left. exact Hj.
      * intros b _. rewrite Hfree'. cbn. auto.
      * intros b Hb. cbn [sl_chunk sl_pos live_add g_regions].
        destruct (item_live_add _ _ _ _ _ _ Hb) as [Hb'|[_ ->]].
        -- destruct (i_item _ _ _ _ _ _ _ Hinv i b Hb') as (t & T1 & T2 & T3 & T4 & T5 & T6 & T7).
           rewrite Hs in T1. injection T1 as <-.
           destruct (Nat.eqb_spec (fst b) (pl_chunks p)); [lia|].
           rewrite nth_error_app1 by lia. repeat split; auto; lia.
        -- cbn [fst snd]. rewrite Nat.eqb_refl, nth_error_app2 by lia.
           replace (pl_chunks p - length (g_regions g)) with 0 by lia.
           split; [reflexivity|]. split; [lia|]. split; [reflexivity|].
           split; [exists 0; reflexivity|]. split; lia.
    + (* next item of the region *)
      injection Ha as <- <-.
      destruct Hcur as [(B1 & B2 & B3)|(B1 & B2 & B3 & B4 & k & B5)]; [lia|].
      assert (Hfresh : forall j, ~ item g j (sl_chunk s, sl_pos s)).
      { intros j Hj. destruct (i_item _ _ _ _ _ _ _ Hinv j _ Hj) as (t & T1 & T2 & T3 & T4 & T5 & T6 & T7).
        cbn [fst snd] in *. assert (Eji : j = i) by congruence. rewrite Eji in T1.
        rewrite Hs in T1. injection T1 as <-. specialize (T7 eq_refl). lia. }
      split; [intros j Hj; apply (Hfresh j); left; exact Hj|].
      split; [intros j Hj; apply (Hfresh j); right; exact Hj|].
      exists owner. unfold region_taken, with_slot. cbn [pl_chunks]. rewrite Nat.eqb_refl.
      destruct (i_own _ _ _ _ _ _ _ Hinv _ B1) as (t & O1 & O2). rewrite B2, Hs in O1. injection O1 as <-.
      eapply inv_step with (s := s) (regs := []); try exact Hinv; try exact Hs; try reflexivity; try lia.
      * cbn. lia.
      * unfold sum; cbn. lia.
      * intros j Hj. cbn. destruct (Nat.eqb_spec i j); congruence.
      * rewrite Hfree'. reflexivity.
      * rewrite Hfree'. congruence.
      * rewrite Hfree'. constructor.
      * right. cbn [sl_chunk sl_end sl_pos]. repeat split; auto; [lia|]. exists (S k). rewrite B5. lia.
      * intros j b Hj. cbn. split; [intros [[= <- <-]|H]; [congruence|exact H]|auto].
      * cbn. constructor; [|apply (i_nodup_live _ _ _ _ _ _ _ Hinv)].
        intros Hj. apply (Hfresh i). left. exact Hj.
      * intros b _. rewrite Hfree'. cbn. auto.
      * intros b Hb. cbn [sl_chunk sl_pos live_add g_regions]. rewrite app_nil_r.
        destruct (item_live_add _ _ _ _ _ _ Hb) as [Hb'|[_ ->]].
        -- destruct (i_item _ _ _ _ _ _ _ Hinv i b Hb') as (t & T1 & T2 & T3 & T4 & T5 & T6 & T7).
           rewrite Hs in T1. injection T1 as <-. repeat split; auto. intros E. specialize (T7 E). lia.
        -- cbn [fst snd]. repeat split; auto; try lia. exists k. exact B5.
Qed.

Lemma alloc_none p m i s ok p' :
  alloc_internal p m i s ok = (None, p') ->
  p' = p /\ sl_head s = None /\ (pl_limit p < sl_alloc s \/ ok = false).
Proof.
  unfold alloc_internal. destruct (sl_head s); [discriminate|].
  destruct (_ <? _); [|discriminate]. destruct (Nat.ltb_spec (pl_limit p) (sl_alloc s)).
  - intros [= <-]. auto.
  - destruct ok; [discriminate|]. cbn. intros [= <-]. auto.
Qed.

(* a change of memory that keeps the words of the free items *)
Lemma inv_mem page limit sizes p m m' g owner :
  inv page limit sizes p m g owner ->
  (forall i x, In x (g_free g i) -> m_word m' x = m_word m x) ->
  inv page limit sizes p m' g owner.
Proof.
  intros H Hm. destruct H. constructor; auto.
  intros i s Hs. destruct (i_slot0 i s Hs) as (A1 & A2 & A3 & A4 & A5 & A6).
  repeat split; auto. eapply seg_ext; [|exact A4]. intros x Hx. apply (Hm i). exact Hx.
Qed.

Lemma live_not_free page limit sizes p m g owner i a j :
  inv page limit sizes p m g owner -> In (i, a) (g_live g) -> ~ In a (g_free g j).
Proof.
  intros H Hl Hf. destruct (i_item _ _ _ _ _ _ _ H i a (or_introl Hl)) as (_ & _ & O1 & _).
  destruct (i_item _ _ _ _ _ _ _ H j a (or_intror Hf)) as (_ & _ & O2 & _).
  assert (Eij : j = i) by congruence. rewrite Eij in Hf. exact (i_disj _ _ _ _ _ _ _ H i a Hl Hf).
Qed.

Lemma set_word_neq m a w b : a <> b -> m_word (set_word m a w) b = m_word m b.
Proof. intros H. cbn. destruct (addr_eqb_spec a b); congruence. Qed.

Lemma set_word_eq m a w : m_word (set_word m a w) a = w.
Proof. cbn. destruct (addr_eqb_spec a a); congruence. Qed.

Lemma inv_user page limit sizes p m g owner i a w :
  inv page limit sizes p m g owner -> In (i, a) (g_live g) ->
  inv page limit sizes p (set_word m a w) g owner.
Proof.
  intros H Hl. eapply inv_mem; [exact H|]. intros j x Hx. apply set_word_neq.
  intros <-. exact (live_not_free _ _ _ _ _ _ _ _ _ _ H Hl Hx).
Qed.

Lemma existsb_item i a x l : existsb (fun b => item_eqb (i, b) (x, a)) l = true <-> (x = i /\ In a l).
Proof.
  rewrite existsb_exists. split.
  - intros (b & Hb & E). destruct (item_eqb_spec (i, b) (x, a)) as [[= <- <-]|]; [auto|discriminate].
  - intros [-> Ha]. exists a. split; [exact Ha|]. destruct (item_eqb_spec (i, a) (i, a)); congruence.
Qed.

Lemma live_free_in g i l j b :
  In (j, b) (g_live (live_free g i l)) <-> In (j, b) (g_live g) /\ ~ (j = i /\ In b l).
Proof.
  cbn. rewrite filter_In. rewrite <- existsb_item. destruct (existsb _ l); cbn; intuition congruence.
Qed.

Lemma last_in {A} (x : A) r d : In (last (x :: r) d) (x :: r).
Proof.
  destruct (exists_last (l := x :: r)) as [l' [z E]]; [discriminate|]. rewrite E, last_last.
  apply in_or_app. right. left. reflexivity.
Qed.

Lemma last_default {A} (x : A) r d1 d2 : last (x :: r) d1 = last (x :: r) d2.
Proof. revert x; induction r as [|y r IH]; intros x; [reflexivity|]. cbn [last]. apply (IH y). Qed.

Lemma last_app_ne {A} (l : list A) x r d : last (l ++ x :: r) d = last (x :: r) d.
Proof.
  induction l as [|y l IH]; [reflexivity|]. cbn [app].
  destruct (l ++ x :: r) eqn:E; [destruct l; discriminate|]. rewrite <- E in *. cbn [last].
  rewrite E in *. exact IH.
Qed.

Lemma inv_free_list page limit sizes p m g owner i h r p' m' :
  inv page limit sizes p m g owner ->
  Forall (fun a => In (i, a) (g_live g)) (h :: r) -> NoDup (h :: r) ->
  linked m (h :: r) ->
  pool_free_list p m i h (last (h :: r) h) = (p', m') ->
  inv page limit sizes p' m' (live_free g i (h :: r)) owner.
Proof.
  intros Hinv Hl Hnd Hlk E. rewrite Forall_forall in Hl.
  assert (Hh : In (i, h) (g_live g)) by (apply Hl; left; reflexivity).
  destruct (i_item _ _ _ _ _ _ _ Hinv i h (or_introl Hh)) as (s & Hs & _).
  unfold pool_free_list in E. rewrite Hs in E. unfold free_list_internal in E.
  pose proof (i_slot _ _ _ _ _ _ _ Hinv i s Hs) as (Hsz & Hsa & Hal & Hseg & Htail & Hcur).
  pose proof (inv_free_head _ _ _ _ _ _ _ _ _ Hinv Hs) as [Hh1 Hh2].
  assert (Hfree' : g_free (live_free g i (h :: r)) i = g_free g i ++ h :: r).
  { cbn. rewrite Nat.eqb_refl. reflexivity. }
  assert (Hdis : forall y, In y (h :: r) -> forall j, ~ In y (g_free g j)).
  { intros y Hy j. eapply live_not_free; [exact Hinv|apply Hl; exact Hy]. }
  assert (Hmw : forall j x, j <> i -> In x (g_free g j) -> m_word m' x = m_word m x).
  { intros j x Hj Hx. destruct (sl_head s) as [hd|] eqn:Ehd; [|injection E as _ <-; reflexivity].
    destruct (Hh2 hd eq_refl) as (q & Eq & _). rewrite Htail in E by (rewrite Eq; discriminate).
    injection E as _ <-. apply set_word_neq. intros <-.
    assert (Hlast : In (last (g_free g i) (0, 0)) (g_free g i)) by (rewrite Eq; apply last_in).
    destruct (i_item _ _ _ _ _ _ _ Hinv i _ (or_intror Hlast)) as (_ & _ & O1 & _).
    destruct (i_item _ _ _ _ _ _ _ Hinv j _ (or_intror Hx)) as (_ & _ & O2 & _). congruence. }
  assert (Hp' : exists s', p' = mk_pool (pl_limit p) (pl_chunks p) (set_nth (pl_slots p) i s') /\
     sl_size s' = sl_size s /\ sl_alloc s' = sl_alloc s /\ sl_total s' = sl_total s /\
     sl_chunk s' = sl_chunk s /\ sl_pos s' = sl_pos s /\ sl_end s' = sl_end s /\
     sl_tail s' = Some (last (h :: r) h) /\
     sl_head s' = match sl_head s with None => Some h | x => x end).
  { injection E as <- _. eexists. split; [reflexivity|]. cbn. auto 20. }
  destruct Hp' as (s' & -> & P1 & P2 & P3 & P4 & P5 & P6 & P7 & P8).
  eapply inv_step with (s := s) (regs := []); try exact Hinv; try exact Hs; auto.
  - cbn. rewrite app_nil_r. reflexivity.
  - intros c Hc. lia.
  - unfold sum; cbn. lia.
  - intros j Hj. cbn. destruct (Nat.eqb_spec i j); congruence.
  - rewrite Hfree', P8. destruct (sl_head s) as [hd|] eqn:Ehd.
    + destruct (Hh2 hd eq_refl) as (q & Eq & _).
      rewrite Htail in E by (rewrite Eq; discriminate). injection E as _ <-.
      apply seg_app.
      * exact Hseg.
      * rewrite Eq. discriminate.
      * apply (i_nodup_free _ _ _ _ _ _ _ Hinv).
      * intros y Hy. apply Hdis. exact Hy.
      * apply linked_seg. exact Hlk.
    + injection E as _ <-. replace (g_free g i) with (@nil addr) by (symmetry; apply Hh1; reflexivity).
      cbn [app]. apply linked_seg. exact Hlk.
  - intros _. rewrite P7, Hfree', last_app_ne. f_equal. apply last_default.
  - rewrite Hfree'. apply NoDup_app_iff. split; [apply (i_nodup_free _ _ _ _ _ _ _ Hinv)|].
    split; [exact Hnd|]. intros x Hx Hx'. apply (Hdis x Hx' i). exact Hx.
  - rewrite P4, P5, P6. destruct Hcur as [(B1 & B2 & B3)|B]; [|right; exact B].
    exfalso. apply (B3 h). left. exact Hh.
  - intros j b Hj. rewrite live_free_in. intuition.
  - cbn. apply NoDup_filter. apply (i_nodup_live _ _ _ _ _ _ _ Hinv).
  - intros a Ha. apply live_free_in in Ha. destruct Ha as [Ha Hn]. rewrite Hfree'.
    intros Hin. apply in_app_or in Hin. destruct Hin as [Hin|Hin].
    + exact (i_disj _ _ _ _ _ _ _ Hinv i a Ha Hin).
    + apply Hn. auto.
  - intros a Ha. assert (Ha' : item g i a).
    { destruct Ha as [Ha|Ha]; [left; apply live_free_in in Ha; tauto|].
      rewrite Hfree' in Ha. apply in_app_or in Ha. destruct Ha as [Ha|Ha]; [right; exact Ha|left; auto]. }
    destruct (i_item _ _ _ _ _ _ _ Hinv i a Ha') as (t & T1 & T2 & T3 & T4 & T5 & T6 & T7).
    rewrite Hs in T1. injection T1 as <-. rewrite P4, P5. cbn [live_free g_regions]. repeat split; auto.
Qed.

Lemma inv_free page limit sizes p m g owner i a p' m' :
  inv page limit sizes p m g owner -> In (i, a) (g_live g) ->
  pool_free p m i a = (p', m') ->
  inv page limit sizes p' m' (live_free g i [a]) owner.
Proof.
  intros Hinv Hl E. unfold pool_free in E.
  eapply inv_free_list with (m := set_word m a WNull) (h := a) (r := []).
  - apply inv_user with (i := i); [exact Hinv|exact Hl].
  - constructor; [exact Hl|constructor].
  - constructor; [auto|constructor].
  - cbn [linked]. apply set_word_eq.
  - exact E.
Qed.

(* changing only the counters of automatic allocations *)
Lemma inv_stats page limit sizes p m g owner i s u n :
  inv page limit sizes p m g owner -> nth_error (pl_slots p) i = Some s ->
  inv page limit sizes
    (with_slot p i (mk_slot (sl_size s) (sl_nalloc s) (sl_total s) u n
                        (sl_alloc s) (sl_head s) (sl_tail s)
                        (sl_chunk s) (sl_pos s) (sl_end s))) m g owner.
Proof.
  intros Hinv Hs.
  pose proof (i_slot _ _ _ _ _ _ _ Hinv i s Hs) as (Hsz & Hsa & Hal & Hseg & Htail & Hcur).
  unfold with_slot.
  eapply inv_step with (s := s) (regs := []); try exact Hinv; try exact Hs; auto.
  - rewrite app_nil_r. reflexivity.
  - intros; lia.
  - apply (i_nodup_free _ _ _ _ _ _ _ Hinv).
  - intros; reflexivity.
  - apply (i_nodup_live _ _ _ _ _ _ _ Hinv).
  - intros a. apply (i_disj _ _ _ _ _ _ _ Hinv).
  - intros a Ha. destruct (i_item _ _ _ _ _ _ _ Hinv i a Ha) as (t & T1 & T2 & T3 & T4 & T5 & T6 & T7).
    rewrite Hs in T1. injection T1 as <-. cbn [sl_chunk sl_pos]. repeat split; auto.
Qed.

Theorem reach_inv page limit sizes p m g :
  0 < page -> reach page limit sizes p m g -> exists owner, inv page limit sizes p m g owner.
Proof.
  intros Hp H. induction H as [m|p m g i ok a p' H IH E|p m g size ok a p' m' i H IH E Ew
    |p m g i a p' m' H IH Hl E|p m g i h r p' m' H IH Hl Hnd Hlk E|p m g i a w H IH Hl|p m g i a d H IH Hl].
  - eexists. apply inv_init. exact Hp.
  - destruct IH as [owner IH]. unfold pool_alloc in E.
    destruct (nth_error (pl_slots p) i) as [s|] eqn:Es; [|discriminate].
    destruct (inv_alloc _ _ _ _ _ _ _ _ _ _ _ _ IH Es E) as (_ & _ & X). exact X.
  - destruct IH as [owner IH]. unfold auto_alloc in E.
    destruct (auto_search _ _ _ _ _) as [[k|]|]; try discriminate.
    destruct (nth_error (pl_slots p) k) as [s|] eqn:Es; [|discriminate].
    destruct (alloc_internal p m k s ok) as [[a'|] p1] eqn:Ea; [|discriminate].
    destruct (nth_error (pl_slots p1) k) as [s1|] eqn:Es1; [|discriminate].
    injection E as <- <- <-. rewrite set_word_eq in Ew. injection Ew as <-.
    destruct (inv_alloc _ _ _ _ _ _ _ _ _ _ _ _ IH Es Ea) as (_ & _ & owner' & X).
    exists owner'. eapply inv_stats with (u := sl_auto_used s1 + (size + 4)) (n := S (sl_auto_nalloc s1)) in X; [|exact Es1].
    apply inv_user with (i := k) (a := a') (w := WInt k) in X; [|left; reflexivity].
    exact X.
  - destruct IH as [owner IH]. exists owner. eapply inv_free; eassumption.
  - destruct IH as [owner IH]. exists owner. eapply inv_free_list; eassumption.
  - destruct IH as [owner IH]. exists owner. eapply inv_user; eassumption.
  - destruct IH as [owner IH]. exists owner. eapply inv_mem; [exact IH|]. reflexivity.
Qed.

(* ---- what a user can rely on ---- *)

Lemma live_ok page limit sizes p m g :
  0 < page -> reach page limit sizes p m g ->
  NoDup (g_live g) /\
  (forall x y, In x (g_live g) -> In y (g_live g) -> x <> y -> disjoint_items sizes x y) /\
  (forall x, In x (g_live g) -> in_region sizes g x).
Proof.
  intros Hp Hr. destruct (reach_inv _ _ _ _ _ _ Hp Hr) as [owner Hinv].
  split; [apply (i_nodup_live _ _ _ _ _ _ _ Hinv)|]. split.
  - intros [i a] [j b] Hx Hy Hne.
    destruct (i_item _ _ _ _ _ _ _ Hinv i a (or_introl Hx)) as (s & S1 & S2 & S3 & S4 & (k1 & S5) & S6 & S7).
    destruct (i_item _ _ _ _ _ _ _ Hinv j b (or_introl Hy)) as (t & T1 & T2 & T3 & T4 & (k2 & T5) & T6 & T7).
    unfold disjoint_items. cbn [fst snd].
    destruct (Nat.eq_dec (fst a) (fst b)) as [Ef|]; [|left; assumption]. right.
    assert (Eij : j = i) by congruence. rewrite Eij in *. rewrite S1 in T1. injection T1 as <-.
    destruct (i_slot _ _ _ _ _ _ _ Hinv i s S1) as (Hsz & _). rewrite <- Hsz.
    destruct (Nat.lt_trichotomy k1 k2) as [Hlt|[Heq|Hgt]].
    + left. rewrite S5, T5. nia.
    + exfalso. apply Hne. f_equal. destruct a, b; cbn in *. congruence.
    + right. rewrite S5, T5. nia.
  - intros [i a] Hx. destruct (i_item _ _ _ _ _ _ _ Hinv i a (or_introl Hx)) as (s & S1 & S2 & S3 & S4 & S5 & S6 & S7).
    destruct (i_slot _ _ _ _ _ _ _ Hinv i s S1) as (Hsz & _).
    exists (sl_alloc s). cbn [fst snd]. rewrite <- Hsz. auto.
Qed.

Lemma memory_ok page limit sizes p m g :
  0 < page -> reach page limit sizes p m g -> pl_limit p + sum (g_regions g) = limit.
Proof.
  intros Hp Hr. destruct (reach_inv _ _ _ _ _ _ Hp Hr) as [owner Hinv].
  rewrite <- (i_total _ _ _ _ _ _ _ Hinv). apply (i_limit _ _ _ _ _ _ _ Hinv).
Qed.

Lemma alloc_ok page limit sizes p m g i ok r p' :
  0 < page -> reach page limit sizes p m g ->
  pool_alloc p m i ok = (r, p') ->
  match r with
  | Some a =>
      (forall j, ~ In (j, a) (g_live g)) /\
      match g_free g i with
      | x :: _ => a = x /\ pl_limit p' = pl_limit p
      | [] => forall j, ~ In a (g_free g j)
      end
  | None =>
      p' = p /\
      (length sizes <= i \/
       (g_free g i = [] /\
        (pl_limit p < sl_alloc (init_slot page (nth i sizes 0)) \/ ok = false)))
  end.
Proof.
  intros Hp Hr E. destruct (reach_inv _ _ _ _ _ _ Hp Hr) as [owner Hinv].
  unfold pool_alloc in E. destruct (nth_error (pl_slots p) i) as [s|] eqn:Es.
  - destruct r as [a|].
    + destruct (inv_alloc _ _ _ _ _ _ _ _ _ _ _ _ Hinv Es E) as (A & B & _).
      split; [exact A|]. destruct (g_free g i); tauto.
    + destruct (alloc_none _ _ _ _ _ _ E) as (A & B & C). split; [exact A|]. right.
      destruct (i_slot _ _ _ _ _ _ _ Hinv i s Es) as (_ & _ & Hal & _).
      destruct (inv_free_head _ _ _ _ _ _ _ _ _ Hinv Es) as [H1 _]. rewrite <- Hal. tauto.
  - injection E as <- <-. split; [reflexivity|]. left. apply nth_error_None in Es.
    rewrite (i_sizes _ _ _ _ _ _ _ Hinv) in Es. exact Es.
Qed.

(* ---- automatic choice of a slot ---- *)

Lemma search_ok fuel sizes size : sorted sizes -> forall left right1,
  right1 - left < fuel -> right1 <= length sizes -> left <= right1 ->
  (forall j, j < left -> nth j sizes 0 < size) ->
  (forall j, right1 <= j < length sizes -> size <= nth j sizes 0) ->
  exists r, auto_search fuel sizes left right1 size = Some r /\
  match r with
  | Some k => k < length sizes /\ size <= nth k sizes 0 /\
      forall j, j < length sizes -> size <= nth j sizes 0 -> nth k sizes 0 <= nth j sizes 0
  | None => forall j, j < length sizes -> nth j sizes 0 < size
  end.
Proof.
  intros Hso. induction fuel as [|f IH]; intros left right1 Hf Hr Hlr H1 H2; [lia|].
  cbn [auto_search]. destruct (Nat.leb_spec right1 left).
  - destruct (Nat.ltb_spec left (length sizes)) as [Hl|Hl].
    + exists (Some left). split; [reflexivity|]. split; [exact Hl|]. split; [apply H2; lia|].
      intros j Hj Hs. destruct (Nat.lt_ge_cases j left) as [Hjl|Hjl].
      * specialize (H1 j Hjl). lia.
      * apply Hso. lia.
    + exists None. split; [reflexivity|]. intros j Hj. apply H1. lia.
  - assert (Hm : left <= (left + (right1 - 1)) / 2 < right1).
    { split; [apply Nat.div_le_lower_bound; lia|]. apply Nat.div_lt_upper_bound; lia. }
    set (k := (left + (right1 - 1)) / 2) in *.
    destruct (Nat.ltb_spec (nth k sizes 0) size) as [Hlt|Hge].
    + apply IH; try lia. intros j Hj. pose proof (Hso j k ltac:(lia)). lia. exact H2.
    + destruct (Nat.ltb_spec size (nth k sizes 0)) as [Hgt|Heq].
      * apply IH; try lia. exact H1. intros j Hj. pose proof (Hso k j ltac:(lia)). lia.
      * exists (Some k). split; [reflexivity|]. split; [lia|]. split; [lia|]. intros. lia.
Qed.

Lemma slot_sizes page limit sizes p m g owner :
  inv page limit sizes p m g owner ->
  length (map sl_size (pl_slots p)) = length sizes /\
  forall j, j < length sizes -> nth j (map sl_size (pl_slots p)) 0 = item_size sizes j.
Proof.
  intros H. pose proof (i_sizes _ _ _ _ _ _ _ H) as Hl. split; [rewrite map_length; exact Hl|].
  intros j Hj. destruct (nth_error (pl_slots p) j) as [s|] eqn:E.
  - destruct (i_slot _ _ _ _ _ _ _ H j s E) as (<- & _).
    apply nth_error_nth. rewrite nth_error_map, E. reflexivity.
  - apply nth_error_None in E. lia.
Qed.

Lemma auto_alloc_ok page limit sizes p m g size ok r p' m' :
  0 < page -> sorted sizes -> reach page limit sizes p m g ->
  auto_alloc p m size ok = (r, p', m') ->
  match r with
  | Some a => exists i,
      m' = set_word m a (WInt i) /\ i < length sizes /\
      size + 4 <= item_size sizes i /\
      (forall j, j < length sizes -> size + 4 <= item_size sizes j ->
         item_size sizes i <= item_size sizes j) /\
      (exists p1, pool_alloc p m i ok = (Some a, p1) /\ pl_limit p1 = pl_limit p')
  | None =>
      p' = p /\ m' = m /\
      ((forall j, j < length sizes -> item_size sizes j < size + 4) \/
       exists i, i < length sizes /\ size + 4 <= item_size sizes i /\
         (forall j, j < length sizes -> size + 4 <= item_size sizes j ->
            item_size sizes i <= item_size sizes j) /\
         pool_alloc p m i ok = (None, p))
  end.
Proof.
  intros Hp Hso Hr E. destruct (reach_inv _ _ _ _ _ _ Hp Hr) as [owner Hinv].
  destruct (slot_sizes _ _ _ _ _ _ _ Hinv) as [Hlen Hnth].
  unfold auto_alloc in E.
  destruct (search_ok (S (length (map sl_size (pl_slots p)))) (map sl_size (pl_slots p)) (size + 4))
    with (left := 0) (right1 := length (map sl_size (pl_slots p))) as (x & Hx & Hxs); try lia.
  { intros j k Hjk. rewrite Hlen in Hjk. rewrite !Hnth by lia. unfold item_size.
    pose proof (Hso j k Hjk). lia. }
  rewrite Hlen in *. rewrite Hx in E. destruct x as [i|].
  - destruct Hxs as (Hi & Hfit & Hmin). rewrite Hnth in * by exact Hi.
    assert (Hmin' : forall j, j < length sizes -> size + 4 <= item_size sizes j ->
         item_size sizes i <= item_size sizes j).
    { intros j Hj. specialize (Hmin j Hj). rewrite Hnth in Hmin by exact Hj. exact Hmin. }
    unfold pool_alloc.
    destruct (nth_error (pl_slots p) i) as [s|] eqn:Es.
    + destruct (alloc_internal p m i s ok) as [[a|] p1] eqn:Ea.
      * assert (exists s1, nth_error (pl_slots p1) i = Some s1) as [s1 Es1].
        { destruct (inv_alloc _ _ _ _ _ _ _ _ _ _ _ _ Hinv Es Ea) as (_ & _ & o' & Hi').
          destruct (nth_error (pl_slots p1) i) eqn:E1; [eauto|].
          apply nth_error_None in E1. rewrite (i_sizes _ _ _ _ _ _ _ Hi') in E1. lia. }
        rewrite Es1 in E. injection E as <- <- <-. exists i.
        split; [reflexivity|]. split; [exact Hi|]. split; [exact Hfit|]. split; [exact Hmin'|].
        exists p1. rewrite Es. auto.
      * destruct (alloc_none _ _ _ _ _ _ Ea) as (-> & _). injection E as <- <- <-.
        split; [reflexivity|]. split; [reflexivity|]. right. exists i. rewrite Es. auto.
    + apply nth_error_None in Es. rewrite (i_sizes _ _ _ _ _ _ _ Hinv) in Es. lia.
  - injection E as <- <- <-. split; [reflexivity|]. split; [reflexivity|]. left.
    intros j Hj. rewrite <- Hnth by exact Hj. apply Hxs. exact Hj.
Qed.

(* ---- block strings ---- *)

Lemma cut_fuel n : 0 < n -> forall f1 f2 src,
  length src <= f1 -> length src <= f2 -> cut f1 n src = cut f2 n src.
Proof.
  intros Hn. induction f1 as [|f1 IH]; intros f2 src H1 H2.
  - destruct src; [|cbn in H1; lia]. destruct f2; reflexivity.
  - destruct src as [|b src]; [destruct f2; reflexivity|]. cbn [length] in *.
    destruct f2 as [|f2]; [lia|]. cbn [cut]. f_equal.
    apply IH; rewrite skipn_length; cbn [length]; lia.
Qed.

Lemma cut_more n src f : 0 < n -> length src <= f -> cut f n src = cut (length src) n src.
Proof. intros. apply cut_fuel; lia. Qed.

Lemma pieces_nil n : pieces n [] = [].
Proof. reflexivity. Qed.

Lemma pieces_cons n src : 0 < n -> src <> [] ->
  pieces n src = firstn n src :: pieces n (skipn n src).
Proof.
  intros Hn Hs. destruct src as [|b src]; [congruence|]. unfold pieces. cbn [length cut]. f_equal.
  apply cut_more; [exact Hn|]. rewrite skipn_length. cbn [length]. lia.
Qed.

Lemma linked_tl m x l : linked m (x :: l) -> linked m l.
Proof. destruct l; cbn; tauto. Qed.

Lemma linked_next m x l : linked m (x :: l) -> word_ptr (m_word m x) = hd_error l.
Proof. destruct l; cbn; [intros ->; reflexivity|intros [-> _]; reflexivity]. Qed.

Lemma linked_ext m m' l : (forall a, In a l -> m_word m' a = m_word m a) -> linked m l -> linked m' l.
Proof.
  induction l as [|x [|y r] IH]; cbn; intros He H; auto.
  - rewrite He by auto. exact H.
  - destruct H as [H1 H2]. rewrite He by auto. split; [exact H1|]. apply IH; auto.
Qed.

Lemma copy_loop_ok m bl : 0 < bl -> forall nodes src fuel,
  length src <= fuel -> linked m nodes -> map (m_data m) nodes = pieces bl src ->
  bstr_copy_loop fuel m bl (length src) (hd_error nodes) = BOk src.
Proof.
  intros Hbl. induction nodes as [|x l IH]; intros src fuel Hf Hl Hd.
  - destruct src as [|b src]; [|rewrite pieces_cons in Hd by (auto; discriminate); discriminate].
    destruct fuel; reflexivity.
  - destruct src as [|b src']; [discriminate|]. remember (b :: src') as src eqn:Es.
    rewrite pieces_cons in Hd by (auto; rewrite Es; discriminate). cbn [map] in Hd.
    injection Hd as Hd1 Hd2. cbn [hd_error].
    assert (Hlen : 0 < length src) by (rewrite Es; cbn; lia).
    destruct fuel as [|f]; [lia|]. cbn [bstr_copy_loop].
    destruct (Nat.ltb_spec bl (length src)) as [Hlt|Hge].
    + assert (Hsk : length src - bl = length (skipn bl src)) by (rewrite skipn_length; reflexivity).
      rewrite Hsk, (linked_next _ _ _ Hl), IH.
      * rewrite Hd1, firstn_firstn, Nat.min_id, firstn_skipn. reflexivity.
      * rewrite skipn_length. lia.
      * apply linked_tl in Hl. exact Hl.
      * exact Hd2.
    + destruct (length src) as [|n] eqn:En; [lia|]. rewrite Hd1, firstn_firstn.
      rewrite Nat.min_l by lia. rewrite <- En, firstn_all. reflexivity.
Qed.

Lemma holds_copy m g i s nodes src : holds m g i s nodes src -> bstr_copy m s = BOk src.
Proof.
  intros (H1 & H2 & H3 & H4 & H5 & H6 & H7). unfold bstr_copy. rewrite H1, H3.
  destruct src as [|b src].
  - cbn [length]. cbn. reflexivity.
  - apply copy_loop_ok; auto. apply H2. discriminate.
Qed.

(* the links so far, the last one not yet written *)
Fixpoint chain (m : mem) (l : list addr) : Prop :=
  match l with
  | x :: (y :: _) as r => m_word m x = WPtr y /\ chain m r
  | _ => True
  end.

Lemma chain_ext m m' l : (forall a, In a (removelast l) -> m_word m' a = m_word m a) ->
  chain m l -> chain m' l.
Proof.
  induction l as [|x [|y r] IH]; intros He H; cbn; auto.
  cbn in H. destruct H as [H1 H2]. split.
  - rewrite He; [exact H1|]. left. reflexivity.
  - apply IH; [|exact H2]. intros a Ha. apply He. right. exact Ha.
Qed.

Lemma chain_snoc m l x y : chain m (l ++ [x]) -> m_word m x = WPtr y -> chain m ((l ++ [x]) ++ [y]).
Proof.
  induction l as [|a l IH]; intros H E.
  - cbn. auto.
  - cbn [app] in *. destruct (l ++ [x]) as [|b r] eqn:Eb; [destruct l; discriminate|].
    cbn [app] in *. cbn [chain] in *. destruct H as [H1 H2]. split; [exact H1|]. apply IH; auto.
Qed.

Lemma chain_linked m l x : chain m (l ++ [x]) -> m_word m x = WNull -> linked m (l ++ [x]).
Proof.
  induction l as [|a l IH]; intros H E.
  - cbn. exact E.
  - cbn [app] in *. destruct (l ++ [x]) as [|b r] eqn:Eb; [destruct l; discriminate|].
    cbn [chain] in H. cbn [linked]. destruct H as [H1 H2]. split; [exact H1|]. apply IH; auto.
Qed.

Definition last_opt (l : list addr) : option addr :=
  match l with [] => None | x :: r => Some (last (x :: r) x) end.

Lemma last_opt_snoc l x : last_opt (l ++ [x]) = Some x.
Proof.
  destruct l as [|y l]; [reflexivity|]. cbn [last_opt app]. rewrite app_comm_cons, last_last. reflexivity.
Qed.

Lemma hd_error_snoc (l : list addr) x r : hd_error ((l ++ [x]) ++ r) = hd_error (l ++ [x]).
Proof. destruct l; reflexivity. Qed.

(* what a string operation keeps: everything held before, except the nodes [l] *)
Definition keeps (m m' : mem) (g g' : ghost) (l : list addr) : Prop :=
  forall j a, In (j, a) (g_live g) -> ~ In a l ->
    In (j, a) (g_live g') /\ m_word m' a = m_word m a /\ m_data m' a = m_data m a.

Lemma live_same_slot page limit sizes p m g owner i j a :
  inv page limit sizes p m g owner -> In (i, a) (g_live g) -> In (j, a) (g_live g) -> i = j.
Proof.
  intros H H1 H2. destruct (i_item _ _ _ _ _ _ _ H i a (or_introl H1)) as (_ & _ & O1 & _).
  destruct (i_item _ _ _ _ _ _ _ H j a (or_introl H2)) as (_ & _ & O2 & _). congruence.
Qed.

(* giving back one item *)
Lemma free_one page limit sizes p m g i a p' m' :
  0 < page -> reach page limit sizes p m g -> In (i, a) (g_live g) ->
  pool_free p m i a = (p', m') ->
  reach page limit sizes p' m' (live_free g i [a]) /\
  m_word m' a = WNull /\ keeps m m' g (live_free g i [a]) [a].
Proof.
  intros Hp Hr Hl E. split; [eapply r_free; eassumption|].
  destruct (reach_inv _ _ _ _ _ _ Hp Hr) as [owner Hinv].
  pose proof (i_item _ _ _ _ _ _ _ Hinv i a (or_introl Hl)) as (s & Hs & _).
  pose proof (i_slot _ _ _ _ _ _ _ Hinv i s Hs) as (_ & _ & _ & _ & Htail & _).
  pose proof (inv_free_head _ _ _ _ _ _ _ _ _ Hinv Hs) as [Hh1 Hh2].
  assert (Hm' : m' = set_word m a WNull \/
    exists t, In t (g_free g i) /\ m' = set_word (set_word m a WNull) t (WPtr a)).
  { unfold pool_free, pool_free_list in E. rewrite Hs in E. unfold free_list_internal in E.
    destruct (sl_head s) as [h|] eqn:Eh.
    - destruct (Hh2 h eq_refl) as (q & Eq & _). rewrite Htail in E by (rewrite Eq; discriminate).
      injection E as _ <-. right. eexists. split; [|reflexivity]. rewrite Eq. apply last_in.
    - injection E as _ <-. left. reflexivity. }
  assert (Hna : forall t, In t (g_free g i) -> forall j b, In (j, b) (g_live g) -> t <> b).
  { intros t Ht j b Hb <-. exact (live_not_free _ _ _ _ _ _ _ _ _ _ Hinv Hb Ht). }
  split.
  - destruct Hm' as [->|(t & Ht & ->)]; [apply set_word_eq|].
    rewrite set_word_neq by (apply (Hna t Ht i a Hl)). apply set_word_eq.
  - intros j b Hb Hne. assert (Hab : a <> b) by (intros ->; apply Hne; left; reflexivity).
    split; [|split].
    + apply live_free_in. split; [exact Hb|]. intros [_ [Hx|[]]]. congruence.
    + destruct Hm' as [->|(t & Ht & ->)]; [apply set_word_neq; exact Hab|].
      rewrite set_word_neq by (apply (Hna t Ht j b Hb)). apply set_word_neq. exact Hab.
    + destruct Hm' as [->|(t & Ht & ->)]; reflexivity.
Qed.

(* freeing a string gives back its first node, and only that *)
Lemma free_data_ok page limit sizes p m g i h r fuel :
  0 < page -> reach page limit sizes p m g ->
  Forall (fun a => In (i, a) (g_live g)) (h :: r) ->
  exists p' m', bstr_free_data (S (S fuel)) p m i (Some h) = Some (p', m') /\
    reach page limit sizes p' m' (live_free g i [h]) /\
    keeps m m' g (live_free g i [h]) [h].
Proof.
  intros Hp Hr Hf. apply Forall_inv in Hf. cbn [bstr_free_data].
  destruct (pool_free p m i h) as [p' m'] eqn:E.
  destruct (free_one _ _ _ _ _ _ _ _ _ _ Hp Hr Hf E) as (H1 & H2 & H3).
  exists p', m'. rewrite H2. cbn [word_ptr]. auto.
Qed.

Lemma keeps_trans m m1 m2 g g1 g2 l l' :
  keeps m m1 g g1 l -> keeps m1 m2 g1 g2 l' -> (forall a, In a l' -> In a l \/ forall j, ~ In (j, a) (g_live g)) ->
  keeps m m2 g g2 l.
Proof.
  intros H1 H2 Hl j a Ha Hn. destruct (H1 j a Ha Hn) as (A1 & A2 & A3).
  destruct (H2 j a A1) as (B1 & B2 & B3).
  { intros Hin. destruct (Hl a Hin) as [X|X]; [exact (Hn X)|exact (X j Ha)]. }
  split; [exact B1|]. split; congruence.
Qed.

Lemma last_opt_some l x : last_opt l = Some x -> exists l', l = l' ++ [x].
Proof.
  destruct l as [|y l]; [discriminate|]. cbn. intros [= <-].
  destruct (exists_last (l := y :: l)) as [l' [z E]]; [discriminate|]. exists l'.
  rewrite E at 1. f_equal. f_equal. change (z = last (y :: l) y). rewrite E, last_last. reflexivity.
Qed.

Lemma fill_ok page limit sizes i bl oks g0 m0 : 0 < page -> 0 < bl -> forall fuel src p m g ns,
  length src <= fuel ->
  reach page limit sizes p m g ->
  NoDup ns -> Forall (fun a => In (i, a) (g_live g) /\ forall j, ~ In (j, a) (g_live g0)) ns ->
  chain m ns -> keeps m0 m g0 g [] ->
  match bstr_fill fuel p m i bl oks src (hd_error ns) (last_opt ns) with
  | BOk (p', m', data) => exists g' ns',
      reach page limit sizes p' m' g' /\
      NoDup (ns ++ ns') /\
      Forall (fun a => In (i, a) (g_live g') /\ forall j, ~ In (j, a) (g_live g0)) (ns ++ ns') /\
      data = hd_error (ns ++ ns') /\ linked m' (ns ++ ns') /\
      map (m_data m') ns' = pieces bl src /\
      (forall a, In a ns -> m_data m' a = m_data m a) /\
      keeps m0 m' g0 g' []
  | BErr p' m' => exists g', reach page limit sizes p' m' g' /\ keeps m0 m' g0 g' []
  | _ => False
  end.
Proof.
  intros Hp Hbl. induction fuel as [|f IH]; intros src p m g ns Hf Hr Hnd Hns Hch Hk.
  - destruct src; [|cbn in Hf; lia]. cbn [bstr_fill].
    destruct (last_opt ns) as [l|] eqn:El.
    + destruct (last_opt_some _ _ El) as [l' ->]. exists g, [].
      rewrite app_nil_r. rewrite Forall_forall in Hns.
      destruct (Hns l ltac:(apply in_or_app; right; left; reflexivity)) as [Hl1 Hl2].
      split; [eapply r_user_word; eassumption|]. split; [exact Hnd|].
      split; [rewrite Forall_forall; exact Hns|]. split; [reflexivity|].
      split.
      { apply chain_linked; [|apply set_word_eq]. eapply chain_ext; [|exact Hch].
        intros a Ha. rewrite removelast_last in Ha. apply set_word_neq. intros ->.
        apply NoDup_remove_2 in Hnd. apply Hnd. rewrite app_nil_r. exact Ha. }
      split; [reflexivity|]. split; [reflexivity|].
      eapply keeps_trans with (l' := [l]); [exact Hk| |].
      2:{ intros a [Ha|[]]. right. intros j. rewrite <- Ha. apply Hl2. }
      intros j a Ha Hn. split; [exact Ha|]. split; [|reflexivity]. apply set_word_neq.
      intros ->. apply Hn. left. reflexivity.
    + destruct ns; [|discriminate]. exists g, []. cbn.
      split; [exact Hr|]. split; [constructor|]. split; [constructor|]. auto 10.
  - destruct src as [|b src'].
    { specialize (IH [] p m g ns). destruct f; cbn [bstr_fill] in *; apply IH; auto; cbn; lia. }
    cbn [bstr_fill]. remember (b :: src') as src eqn:Es.
    destruct (pool_alloc p m i (oks f)) as [[cur|] p1] eqn:Ea.
    + pose proof (r_alloc _ _ _ _ _ _ _ _ _ _ Hr Ea) as Hr1.
      pose proof (alloc_ok _ _ _ _ _ _ _ _ _ _ Hp Hr Ea) as [Hfresh _].
      set (g1 := live_add g i cur (region_taken p p1)) in *.
      assert (Hcur1 : In (i, cur) (g_live g1)) by (left; reflexivity).
      assert (Hkeep1 : forall j a, In (j, a) (g_live g) -> In (j, a) (g_live g1)) by (intros; right; assumption).
      rewrite Forall_forall in Hns.
      set (m1 := match last_opt ns with None => m | Some l => set_word m l (WPtr cur) end).
      assert (Hm1d : m_data m1 = m_data m) by (unfold m1; destruct (last_opt ns); reflexivity).
      assert (Hr2 : reach page limit sizes p1 m1 g1).
      { unfold m1. destruct (last_opt ns) as [l|] eqn:El; [|exact Hr1].
        destruct (last_opt_some _ _ El) as [l' ->].
        eapply r_user_word; [exact Hr1|]. apply Hkeep1. apply Hns. apply in_or_app. right. left. reflexivity. }
      assert (Hr3 : reach page limit sizes p1 (set_data m1 cur (firstn bl src)) g1).
      { eapply r_user_data; eassumption. }
      assert (Hcn : ~ In cur ns).
      { intros Hin. apply (Hfresh i). apply Hns. exact Hin. }
      assert (Hlen : 0 < length src) by (rewrite Es; cbn; lia).
      specialize (IH (skipn bl src) p1 (set_data m1 cur (firstn bl src)) g1 (ns ++ [cur])).
      rewrite last_opt_snoc in IH.
      replace (match last_opt ns with None => Some cur | _ => hd_error ns end)
        with (hd_error (ns ++ [cur])) by (destruct ns; reflexivity).
      assert (Hfr0 : forall j, ~ In (j, cur) (g_live g0)).
      { intros j Hj. apply (Hfresh j). apply (Hk j cur Hj). auto. }
      assert (IHx := IH).
      match type of IH with ?A -> _ => assert (P1 : A) by (rewrite skipn_length; lia) end.
      specialize (IH P1 Hr3). clear P1.
      match type of IH with ?A -> _ => assert (P1 : A) end.
      { apply NoDup_app_iff. split; [exact Hnd|]. split; [constructor; [auto|constructor]|].
        intros x Hx [<-|[]]. exact (Hcn Hx). }
      specialize (IH P1). clear P1.
      match type of IH with ?A -> _ => assert (P1 : A) end.
      { apply Forall_forall. intros x Hx. apply in_app_or in Hx. destruct Hx as [Hx|[<-|[]]].
        - destruct (Hns x Hx) as [X1 X2]. split; [apply Hkeep1; exact X1|exact X2].
        - split; [exact Hcur1|exact Hfr0]. }
      specialize (IH P1). clear P1.
      match type of IH with ?A -> _ => assert (P1 : A) end.
      { destruct (last_opt ns) as [l|] eqn:El.
        - destruct (last_opt_some _ _ El) as [l' El']. subst ns. apply chain_snoc.
          + eapply chain_ext; [|exact Hch]. intros a Ha. rewrite removelast_last in Ha.
            cbn [set_data m_word]. unfold m1. apply set_word_neq. intros ->.
            apply NoDup_remove_2 in Hnd. apply Hnd. rewrite app_nil_r. exact Ha.
          + cbn [set_data m_word]. unfold m1. apply set_word_eq.
        - destruct ns; [|discriminate]. exact I. }
      specialize (IH P1). clear P1.
      match type of IH with ?A -> _ => assert (P1 : A) end.
      { intros j a Ha Hn. destruct (Hk j a Ha Hn) as (K1 & K2 & K3).
        split; [apply Hkeep1; exact K1|].
        assert (Hac : cur <> a) by (intros ->; apply (Hfr0 j); exact Ha).
        split.
        - cbn [set_data m_word]. unfold m1. destruct (last_opt ns) as [l|] eqn:El; [|exact K2].
          destruct (last_opt_some _ _ El) as [l' El'].
          rewrite set_word_neq; [exact K2|]. intros ->.
          destruct (Hns a) as [_ X]; [rewrite El'; apply in_or_app; right; left; reflexivity|].
          exact (X j Ha).
        - cbn [set_data m_data]. destruct (addr_eqb_spec cur a); [congruence|]. rewrite Hm1d. exact K3. }
      specialize (IH P1). clear P1 IHx.
      destruct (bstr_fill f p1 (set_data m1 cur (firstn bl src)) i bl oks (skipn bl src)
        (hd_error (ns ++ [cur])) (Some cur)) as [[[p2 m2] data]|p2 m2| |]; try exact IH.
      destruct IH as (g' & ns' & A1 & A2 & A3 & A4 & A5 & A6 & A7 & A8).
      rewrite <- app_assoc in *. cbn [app] in *.
      exists g', (cur :: ns'). split; [exact A1|]. split; [exact A2|]. split; [exact A3|].
      split; [exact A4|]. split; [exact A5|]. split.
      * cbn [map]. rewrite pieces_cons by (auto; rewrite Es; discriminate). rewrite A6. f_equal.
        rewrite A7 by (apply in_or_app; right; left; reflexivity). cbn [set_data m_data].
        destruct (addr_eqb_spec cur cur); congruence.
      * split; [|exact A8]. intros a Ha. rewrite A7 by (apply in_or_app; left; exact Ha).
        cbn [set_data m_data]. destruct (addr_eqb_spec cur a) as [<-|]; [contradiction|].
        rewrite Hm1d. reflexivity.
    + pose proof (alloc_ok _ _ _ _ _ _ _ _ _ _ Hp Hr Ea) as [-> _].
      rewrite Forall_forall in Hns.
      destruct (last_opt ns) as [l|] eqn:El.
      * destruct (last_opt_some _ _ El) as [l' El'].
        destruct (Hns l) as [L1 L2]; [rewrite El'; apply in_or_app; right; left; reflexivity|].
        destruct ns as [|h r]; [discriminate|]. cbn [hd_error].
        assert (Hr1 : reach page limit sizes p (set_word m l WNull) g) by (eapply r_user_word; eassumption).
        destruct (free_data_ok _ _ _ _ _ _ i h r f Hp Hr1) as (p2 & m2 & F1 & F2 & F3).
        { apply Forall_forall. intros a Ha. apply Hns. exact Ha. }
        rewrite F1. exists (live_free g i [h]). split; [exact F2|].
        eapply keeps_trans with (l' := [l; h]); [exact Hk| |].
        2:{ intros a [<-|[<-|[]]]; right; [exact L2|].
            apply (Hns h). left. reflexivity. }
        intros j a Ha Hn. destruct (F3 j a Ha) as (K1 & K2 & K3).
        { intros [<-|[]]. apply Hn. right. left. reflexivity. }
        split; [exact K1|]. split; [|exact K3]. rewrite K2. apply set_word_neq.
        intros ->. apply Hn. left. reflexivity.
      * destruct ns; [|discriminate]. cbn. exists g. auto.
Qed.

Lemma holds_keeps page limit sizes p m m' g g' i s nodes src l :
  reach page limit sizes p m g -> keeps m m' g g' l -> holds m g i s nodes src ->
  (forall a, In a nodes -> ~ In a l) -> holds m' g' i s nodes src.
Proof.
  intros Hr Hk (H1 & H2 & H3 & H4 & H5 & H6 & H7) Hd. rewrite Forall_forall in H6.
  assert (K : forall a, In a nodes -> In (i, a) (g_live g') /\ m_word m' a = m_word m a /\ m_data m' a = m_data m a).
  { intros a Ha. apply (Hk i a (H6 a Ha) (Hd a Ha)). }
  split; [exact H1|]. split; [exact H2|]. split; [exact H3|].
  split; [eapply linked_ext; [|exact H4]; intros a Ha; apply K; exact Ha|].
  split; [exact H5|]. split; [apply Forall_forall; intros a Ha; apply K; exact Ha|].
  rewrite <- H7. apply map_ext_in. intros a Ha. apply K. exact Ha.
Qed.

Lemma get_size_ok page limit sizes p m g i :
  0 < page -> reach page limit sizes p m g ->
  pool_get_size p i = if i <? length sizes then item_size sizes i else 0.
Proof.
  intros Hp Hr. destruct (reach_inv _ _ _ _ _ _ Hp Hr) as [owner Hinv]. unfold pool_get_size.
  destruct (nth_error (pl_slots p) i) as [s|] eqn:E.
  - destruct (i_slot _ _ _ _ _ _ _ Hinv i s E) as (-> & _).
    assert (i < length (pl_slots p)) by (apply nth_error_Some; congruence).
    rewrite (i_sizes _ _ _ _ _ _ _ Hinv) in *. destruct (Nat.ltb_spec i (length sizes)); [reflexivity|lia].
  - apply nth_error_None in E. rewrite (i_sizes _ _ _ _ _ _ _ Hinv) in *.
    destruct (Nat.ltb_spec i (length sizes)); [lia|reflexivity].
Qed.

Lemma set_ok page limit sizes p m g i oks dest dnodes dsrc src :
  0 < page -> reach page limit sizes p m g -> holds m g i dest dnodes dsrc ->
  match bstr_set p m i oks dest src with
  | BOk (p', m', s) => exists g' nodes,
      reach page limit sizes p' m' g' /\ holds m' g' i s nodes src /\
      (forall j s2 nodes2 src2, holds m g j s2 nodes2 src2 ->
         (forall a, In a nodes2 -> ~ In a dnodes) ->
         holds m' g' j s2 nodes2 src2 /\ (forall a, In a nodes2 -> ~ In a nodes))
  | BErr p' m' => exists g',
      reach page limit sizes p' m' g' /\
      (forall j s2 nodes2 src2, holds m g j s2 nodes2 src2 -> holds m' g' j s2 nodes2 src2)
  | _ => False
  end.
Proof.
  intros Hp Hr Hd. unfold bstr_set. rewrite (get_size_ok _ _ _ _ _ _ _ Hp Hr).
  destruct (Nat.leb_spec (if i <? length sizes then item_size sizes i else 0) 8) as [|Hbl].
  { exists g. auto. }
  remember (if i <? length sizes then item_size sizes i else 0) as sz eqn:Esz.
  assert (Hbl0 : 0 < sz - 8) by lia. remember (sz - 8) as bl eqn:Ebl.
  pose proof (fill_ok page limit sizes i bl oks g m Hp Hbl0 (length src) src p m g []
    (le_n _) Hr (NoDup_nil _) (Forall_nil _) I) as Hfill.
  cbn [hd_error last_opt] in Hfill.
  assert (Hk0 : keeps m m g g []) by (intros j a Ha _; auto). specialize (Hfill Hk0).
  destruct (bstr_fill (length src) p m i bl oks src None None) as [[[p1 m1] data]|p1 m1| |];
    try contradiction.
  - destruct Hfill as (g1 & ns & A1 & A2 & A3 & A4 & A5 & A6 & _ & A8). cbn [app] in *.
    assert (Hns : holds m1 g1 i (mk_bstr data (length src) bl) ns src).
    { unfold holds. cbn. split; [reflexivity|]. split; [lia|]. split; [exact A4|]. split; [exact A5|].
      split; [exact A2|]. split; [|exact A6]. eapply Forall_impl; [|exact A3]. cbn. tauto. }
    rewrite Forall_forall in A3.
    assert (Hd1 : holds m1 g1 i dest dnodes dsrc).
    { exact (holds_keeps _ _ _ _ _ _ _ _ _ _ _ _ _ Hr A8 Hd (fun _ _ H => H)). }
    assert (Hdis : forall a, In a ns -> forall j, ~ In (j, a) (g_live g)) by (intros a Ha; apply A3; exact Ha).
    destruct dnodes as [|h r].
    + destruct Hd as (D1 & D2 & D3 & D4 & D5 & D6 & D7). rewrite D3. cbn [hd_error bstr_free_data].
      exists g1, ns. split; [exact A1|]. split; [exact Hns|].
      intros j s2 nodes2 src2 H2 Hd2. split; [exact (holds_keeps _ _ _ _ _ _ _ _ _ _ _ _ _ Hr A8 H2 (fun _ _ H => H))|].
      intros a Ha Hin. destruct H2 as (_ & _ & _ & _ & _ & H6 & _). rewrite Forall_forall in H6.
      exact (Hdis a Hin j (H6 a Ha)).
    + destruct Hd1 as (D1 & D2 & D3 & D4 & D5 & D6 & D7). rewrite D3, D1. cbn [hd_error].
      destruct dsrc as [|b ds]; [discriminate|]. cbn [length].
      destruct (free_data_ok _ _ _ _ _ _ i h r (length ds) Hp A1 D6) as (p2 & m2 & F1 & F2 & F3).
      rewrite F1. exists (live_free g1 i [h]), ns. split; [exact F2|].
      assert (Hdl : In (i, h) (g_live g)).
      { destruct Hd as (_ & _ & _ & _ & _ & E6 & _). apply Forall_inv in E6. exact E6. }
      split.
      { eapply holds_keeps; [exact A1|exact F3|exact Hns|]. intros a Ha [<-|[]]. exact (Hdis h Ha i Hdl). }
      intros j s2 nodes2 src2 H2 Hd2. split.
      * pose proof (holds_keeps _ _ _ _ _ _ _ _ _ _ _ _ _ Hr A8 H2 (fun _ _ H => H)) as H2'.
        eapply holds_keeps; [exact A1|exact F3|exact H2'|]. intros a Ha [<-|[]].
        apply (Hd2 h Ha). left. reflexivity.
      * intros a Ha Hin. destruct H2 as (_ & _ & _ & _ & _ & H6 & _). rewrite Forall_forall in H6.
        exact (Hdis a Hin j (H6 a Ha)).
  - destruct Hfill as (g1 & A1 & A8). exists g1. split; [exact A1|].
    intros j s2 nodes2 src2 H2. exact (holds_keeps _ _ _ _ _ _ _ _ _ _ _ _ _ Hr A8 H2 (fun _ _ H => H)).
Qed.

(* freeing a string *)
Lemma free_first page limit sizes p m g i s h r src :
  0 < page -> reach page limit sizes p m g -> holds m g i s (h :: r) src ->
  exists p' m', bstr_free_data (S (bs_len s)) p m i (bs_data s) = Some (p', m') /\
    (p', m') = pool_free p m i h /\
    reach page limit sizes p' m' (live_free g i [h]).
Proof.
  intros Hp Hr (D1 & D2 & D3 & D4 & D5 & D6 & D7). rewrite D3, D1. cbn [hd_error].
  destruct src as [|b ds]; [discriminate|]. cbn [length].
  destruct (free_data_ok _ _ _ _ _ _ i h r (length ds) Hp Hr D6) as (p2 & m2 & F1 & F2 & F3).
  exists p2, m2. split; [exact F1|]. split; [|exact F2].
  cbn [bstr_free_data] in F1. destruct (pool_free p m i h) as [p3 m3] eqn:E.
  destruct (free_one _ _ _ _ _ _ _ _ _ _ Hp Hr (Forall_inv D6) E) as (_ & H2 & _).
  rewrite H2 in F1. cbn in F1. congruence.
Qed.
