(* The properties of the allocator of large buffers (C09, C10). *)
From Coq Require Import List Arith Bool Lia ZArith Sorted.
From Verif Require Import LbaModel LbaSpec LbaProofs LbaQueue LbaReach.
Import ListNotations.

(* C09: the buffers in use are distinct, each is one of the buffers of a mapped
   block; in both builds, for all block geometries. *)
Theorem C09_distinct : forall debug bufs bins l live,
  1 <= bufs -> 1 <= bins -> reach debug bufs bins l live ->
  NoDup live /\ forall b k, In (b, k) live -> mapped l b /\ k < bufs.
Proof.
  intros debug bufs bins l live H1 H2 R. destruct (reach_inv debug bufs bins H1 H2 l live R) as [G B].
  split; [apply (b_nodup_live _ _ B)|]. intros b k Hin. destruct (b_live _ _ B b k Hin) as (Hm & Hk & _).
  destruct (b_good _ _ B _ b Hm) as [_ [_ _ G3 _ _ _ _]]. split.
  - exists (bk_bin (l_block l b)). split; [|exact Hm]. eapply (mapped_bin debug bufs bins H1 H2); eassumption.
  - rewrite (geom_bufs debug bufs bins l G) in G3. lia.
Qed.
Print Assumptions C09_distinct.

(* an allocation returns a buffer that is not in use *)
Theorem C09_alloc_fresh : forall debug bufs bins l live ok b l',
  1 <= bufs -> 1 <= bins -> reach debug bufs bins l live -> lba_alloc l ok = LBuf b l' -> ~ In b live.
Proof. intros debug bufs bins l live ok b l' H1 H2. exact (alloc_fresh debug bufs bins H1 H2 l live ok b l'). Qed.
Print Assumptions C09_alloc_fresh.

(* a block is unmapped only when none of its buffers is in use *)
Theorem C09_unmap_unused : forall debug bufs bins l live b l' c,
  1 <= bufs -> 1 <= bins -> reach debug bufs bins l live -> In b live -> lba_free l b = LDone l' ->
  mapped l c -> ~ mapped l' c -> forall k, ~ In (c, k) (drop b live).
Proof.
  intros debug bufs bins l live [b k] l' c H1 H2 R Hin E Hm Hn.
  destruct (reach_inv debug bufs bins H1 H2 l live R) as [G B].
  pose proof (geom_facts debug bufs bins H1 H2 l G) as (F1 & F2 & _).
  destruct (free_buf_ok l live b k l' F1 F2 B Hin E) as (B' & _ & X & E1 & E2 & E3 & E4).
  apply X.
  - destruct Hm as (i & _ & Hi). eauto.
  - intros (i & Hi). apply Hn. exists i. split; [|exact Hi].
    eapply (mapped_bin debug bufs bins H1 H2); [|exact B'|exact Hi]. eapply geom_keep; eassumption.
Qed.
Print Assumptions C09_unmap_unused.

Local Open Scope Z_scope.
(* the bytes of different buffers of a block do not overlap and lie in the
   block, after its header; each is preceded by its own header of 8 bytes *)
Theorem C09_geometry : forall buf_size stride bufs k j,
  lba_sizes buf_size = Some (stride, bufs) -> 0 <= k < bufs -> 0 <= j < bufs ->
  1 <= bufs /\ stride = buf_size + 8 /\
  40 + 8 <= buf_offset stride k /\ buf_offset stride k + buf_size <= BLOCK_SIZE /\
  (k < j -> buf_offset stride k + buf_size <= buf_offset stride j - 8).
Proof.
  intros buf_size stride bufs k j H Hk Hj. unfold lba_sizes in H.
  destruct (Z.ltb_spec buf_size 8) as [?|Hs8]; [discriminate|]. cbv zeta in H.
  destruct (Z.leb_spec ((BLOCK_SIZE - 40) / (buf_size + 8)) 0) as [|Hpos]; [discriminate|].
  remember ((BLOCK_SIZE - 40) / (buf_size + 8)) as n eqn:En. injection H as <- <-.
  assert (Hn : (buf_size + 8) * n <= BLOCK_SIZE - 40) by (rewrite En; apply Z.mul_div_le; lia).
  assert (H1 : (buf_size + 8) * (k + 1) <= (buf_size + 8) * n) by (apply Z.mul_le_mono_nonneg_l; lia).
  assert (H2 : k < j -> (buf_size + 8) * (k + 1) <= (buf_size + 8) * j) by (intros; apply Z.mul_le_mono_nonneg_l; lia).
  assert (H3 : 0 <= (buf_size + 8) * k) by (apply Z.mul_nonneg_nonneg; lia).
  unfold buf_offset. repeat split; try lia.
Qed.
Print Assumptions C09_geometry.

Example C09_geometry_example : lba_sizes 2048 = Some (2056, 254).
Proof. reflexivity. Qed.
Local Close Scope Z_scope.

(* no call on a buffer in use follows a NULL pointer *)
Theorem C09_no_crash : forall debug bufs bins l live,
  1 <= bufs -> 1 <= bins -> (debug = false \/ 2 <= bufs) -> reach debug bufs bins l live ->
  (forall ok, lba_alloc l ok <> LUB) /\ (forall b, In b live -> exists l', lba_free l b = LDone l').
Proof.
  intros debug bufs bins l live H1 H2 Hd R.
  destruct (reach_inv debug bufs bins H1 H2 l live R) as [G B]. destruct debug.
  - destruct Hd as [?|Hd]; [discriminate|].
    destruct (reach_rinv true bufs bins H1 H2 l live eq_refl Hd R) as [act I].
    pose proof (sized_of true bufs bins H1 H2 l eq_refl Hd G) as Hs. split.
    + intros ok. pose proof (alloc_queue l live act ok Hs B I) as Q. destruct act.
      * destruct Q as [Q1 Q2]. destruct ok.
        -- destruct (Q2 eq_refl) as (b & l' & act' & E & _). congruence.
        -- rewrite Q1. discriminate.
      * destruct Q as (b & k & l' & act' & E & _). congruence.
    + intros [b k] Hin. destruct (free_queue l live act b k Hs B I Hin) as (l' & act' & E & _). eauto.
  - pose proof (reach_dinv bufs bins l live H1 H2 R) as D. split.
    + intros ok E. pose proof (alloc_fine l live ok D B) as F. rewrite E in F. exact F.
    + intros b Hin. pose proof (free_fine l live b D B Hin) as F.
      assert (Hr : match lba_free l b with LBuf _ _ => False | LNull _ => False | _ => True end).
      { unfold lba_free, block_free_buf, block_free.
        repeat match goal with
        | |- context [match ?x with _ => _ end] =>
            match x with context [match _ with _ => _ end] => fail 1 | _ => destruct x end
        | |- True => exact I
        end. }
      destruct (lba_free l b); cbn in *; try contradiction. eauto.
Qed.
Print Assumptions C09_no_crash.

(* the state after a list of calls in which mmap always succeeds *)
Fixpoint hist (cs : list call) (l : lba) (live : list buf) : option (lba * list buf) :=
  match cs with
  | [] => Some (l, live)
  | CAlloc :: r => match lba_alloc l true with LBuf b l' => hist r l' (b :: live) | _ => None end
  | CFree b :: r =>
      if existsb (buf_eqb b) live then
        match lba_free l b with LDone l' => hist r l' (drop b live) | _ => None end
      else None
  end.

Lemma hist_reach debug bufs bins cs : forall l live,
  reach debug bufs bins l live ->
  match hist cs l live with Some (l', live') => reach debug bufs bins l' live' | None => True end.
Proof.
  induction cs as [|[|b] cs IH]; intros l live R; cbn [hist]; [exact R| |].
  - destruct (lba_alloc l true) as [b l'| | |] eqn:E; auto. apply IH. eapply r_alloc; eassumption.
  - destruct (existsb (buf_eqb b) live) eqn:Ex; [|exact I].
    apply existsb_exists in Ex. destruct Ex as (x & Hx & Eb). destruct (buf_eqb_spec b x) as [<-|]; [|discriminate].
    destruct (lba_free l b) as [| |l'|] eqn:E; auto. apply IH. eapply r_free; eassumption.
Qed.

(* what C09_no_crash leaves out: a debug build with one buffer in a block *)
Theorem C09_one_buffer_refuted : exists l live,
  reach true 1 1 l live /\ lba_alloc l true = LUB.
Proof.
  set (cs := [CAlloc; CAlloc; CFree (1, 0); CFree (0, 0)]).
  pose proof (hist_reach true 1 1 cs _ _ (r_init true 1 1)) as R.
  assert (C : match hist cs (lba_create true 1 1) [] with
              | Some (l, live) => match lba_alloc l true with LUB => true | _ => false end
              | None => false end = true) by (vm_compute; reflexivity).
  destruct (hist cs _ _) as [[l live]|]; [|discriminate].
  exists l, live. split; [exact R|]. destruct (lba_alloc l true); try discriminate. reflexivity.
Qed.
Print Assumptions C09_one_buffer_refuted.

(* C10, in debug builds with at least two buffers in a block; it is false in
   release builds, see C10_release_refuted.  A new block is mapped only when every mapped block is
   completely in use, and an allocation fails only then, and if mmap fails *)
Theorem C10_reuse_partial : forall bufs bins l live ok,
  2 <= bufs -> 1 <= bins -> reach true bufs bins l live ->
  (forall b l', lba_alloc l ok = LBuf b l' -> ~ mapped l (fst b) ->
     forall c, mapped l c -> in_use live c = bufs) /\
  (forall l', lba_alloc l ok = LNull l' ->
     ok = false /\ forall c, mapped l c -> in_use live c = bufs).
Proof.
  intros bufs bins l live ok H2 Hi R. assert (H1 : 1 <= bufs) by lia.
  destruct (reach_inv true bufs bins H1 Hi l live R) as [G B].
  destruct (reach_rinv true bufs bins H1 Hi l live eq_refl H2 R) as [act I].
  pose proof (sized_of true bufs bins H1 Hi l eq_refl H2 G) as Hs.
  pose proof (geom_facts true bufs bins H1 Hi l G) as (F1 & F2 & F3 & F4).
  pose proof (geom_bufs true bufs bins l G) as Eb.
  assert (Full : act = [] -> forall c, mapped l c -> in_use live c = bufs).
  { intros -> c (i & Hle & Hc). destruct I as [_ _ A].
    assert (i = l_bin_count l).
    { destruct (Nat.eq_dec i (l_bin_count l)) as [|Hne]; [assumption|]. exfalso. apply (A i). split; [lia|].
      intros X. rewrite X in Hc. exact Hc. }
    subst i. destruct (b_good _ _ B _ c Hc) as [E [_ G2 G3 G4 _ _ G7]].
    rewrite E in G2. symmetry in G2. apply bin_full in G2; lia. }
  pose proof (alloc_queue l live act ok Hs B I) as Q. destruct act as [|a r] eqn:Ea.
  - destruct Q as [Q1 Q2]. split.
    + intros b l' E _. apply Full. reflexivity.
    + intros l' E. split; [|apply Full; reflexivity]. destruct ok; [|reflexivity].
      destruct (Q2 eq_refl) as (b & l'' & act' & E' & _). congruence.
  - destruct Q as (b & k & l'' & act' & E' & _ & Hb & _). split.
    + intros b' l' E Hn. exfalso. rewrite E' in E. injection E as <- <-. apply Hn. cbn [fst].
      eexists. split; [|exact Hb]. eapply (mapped_bin true bufs bins H1 Hi); eassumption.
    + intros l' E. congruence.
Qed.
Print Assumptions C10_reuse_partial.

(* an allocation that maps no block takes from the fullest bin: a bin groups the
   blocks by occupancy, [in_use * bins / bufs] *)
Theorem C10_fullest : forall bufs bins l live ok b k l' c,
  2 <= bufs -> 1 <= bins -> reach true bufs bins l live ->
  lba_alloc l ok = LBuf (b, k) l' -> mapped l b -> mapped l c -> in_use live c < bufs ->
  let bin n := n * Nat.min bufs bins / bufs in
  bin (in_use live c) <= bin (in_use live b).
Proof.
  intros bufs bins l live ok b k l' c H2 Hi R E Hmb Hmc Hc bin. assert (H1 : 1 <= bufs) by lia.
  destruct (reach_inv true bufs bins H1 Hi l live R) as [G B].
  destruct (reach_rinv true bufs bins H1 Hi l live eq_refl H2 R) as [act I].
  pose proof (sized_of true bufs bins H1 Hi l eq_refl H2 G) as Hs.
  pose proof (geom_facts true bufs bins H1 Hi l G) as (F1 & F2 & F3 & F4).
  pose proof (geom_bufs true bufs bins l G) as Eb.
  assert (Ebin : forall n, bin n = bin_of l n).
  { intros n. unfold bin, bin_of. destruct G as (_ & -> & -> & _). reflexivity. }
  assert (Hina : forall d, mapped l d -> in_use live d < bufs -> In (bin (in_use live d)) act).
  { intros d (i & Hle & Hd) Hlt. destruct (b_good _ _ B i d Hd) as [Ed [_ G2 _ _ _ _ G7]].
    rewrite Ebin, <- G7, <- G2, Ed. apply (r_act _ _ I). split; [|intros X; rewrite X in Hd; exact Hd].
    rewrite <- Ed, G2, G7. apply bin_lt; [exact Hs|lia]. }
  specialize (Hina c Hmc Hc).
  pose proof (alloc_queue l live act ok Hs B I) as Q. destruct act as [|a r] eqn:Ea; [contradiction|].
  destruct Q as (b' & k' & l'' & act' & E' & _ & Hb & _). rewrite E' in E. injection E as <- <- <-.
  destruct (b_good _ _ B _ b' Hb) as [Ed [_ G2 _ _ _ _ G7]].
  rewrite (Ebin (in_use live b')), <- G7, <- G2, Ed.
  assert (Hlast : forall x, In x (a :: r) -> x <= last (a :: r) 0).
  { pose proof (r_sorted _ _ I) as S. clear -S. intros x Hx.
    destruct (@exists_last nat (a :: r) ltac:(discriminate)) as (q & z & Ez). rewrite Ez in *. rewrite last_last.
    apply in_app_or in Hx. destruct Hx as [Hx|[<-|[]]]; [|lia].
    apply ss_app in S. destruct S as (_ & _ & S). specialize (S x z Hx (or_introl eq_refl)). lia. }
  apply Hlast. exact Hina.
Qed.
Print Assumptions C10_fullest.

(* at most one mapped block has no buffer in use, in all builds *)
Theorem C10_one_spare : forall debug bufs bins l live b c,
  1 <= bufs -> 1 <= bins -> reach debug bufs bins l live ->
  mapped l b -> mapped l c -> in_use live b = 0 -> in_use live c = 0 -> b = c.
Proof.
  intros debug bufs bins l live b c H1 H2 R (i & _ & Hb) (j & _ & Hc) Ub Uc.
  destruct (reach_inv debug bufs bins H1 H2 l live R) as [G B].
  destruct (b_good _ _ B i b Hb) as [_ Gb]. destruct (b_good _ _ B j c Hc) as [_ Gc].
  apply (b_spare _ _ B i j b c Hb Hc); [rewrite (g_use _ _ _ Gb)|rewrite (g_use _ _ _ Gc)]; assumption.
Qed.
Print Assumptions C10_one_spare.

(* Release builds do not have C10: a block is mapped although the mapped block
   has two free buffers out of three. *)
Theorem C10_release_refuted : exists l live l',
  reach false 3 3 l live /\ lba_alloc l true = LBuf (1, 0) l' /\
  ~ mapped l 1 /\ mapped l 0 /\ in_use live 0 = 1.
Proof.
  set (cs := [CAlloc; CAlloc; CFree (0, 0)]).
  pose proof (hist_reach false 3 3 cs _ _ (r_init false 3 3)) as R.
  assert (C : match hist cs (lba_create false 3 3) [] with
              | Some (l, live) =>
                  (match lba_alloc l true with LBuf b _ => buf_eqb b (1, 0) | _ => false end,
                   l_bin_count l, map (l_blocks l) [0; 1; 2; 3], in_use live 0)
              | None => (false, 0, [], 0) end = (true, 3, [[]; [0]; []; []], 1)) by (vm_compute; reflexivity).
  destruct (hist cs _ _) as [[l live]|]; [|discriminate].
  destruct (lba_alloc l true) as [b l'| | |] eqn:E; try discriminate.
  injection C as C1 C2 B0 B1 B2 B3 C4. destruct (buf_eqb_spec b (1, 0)) as [->|]; [|discriminate].
  exists l, live, l'. split; [exact R|]. split; [exact E|]. split; [|split; [|exact C4]].
  - intros (i & Hi & Hin). rewrite C2 in Hi.
    do 4 (destruct i as [|i]; [rewrite ?B0, ?B1, ?B2, ?B3 in Hin; cbn in Hin; intuition discriminate|]). lia.
  - exists 1. rewrite C2, B1. split; [lia|left; reflexivity].
Qed.
Print Assumptions C10_release_refuted.

(* ... and an allocation fails although mmap would have succeeded *)
Theorem C10_release_null_refuted : exists l live l',
  reach false 3 3 l live /\ lba_alloc l true = LNull l'.
Proof.
  set (cs := [CAlloc; CAlloc; CAlloc; CAlloc; CFree (1, 0); CFree (0, 0); CFree (0, 2); CFree (0, 1); CAlloc]).
  pose proof (hist_reach false 3 3 cs _ _ (r_init false 3 3)) as R.
  assert (C : match hist cs (lba_create false 3 3) [] with
              | Some (l, live) => match lba_alloc l true with LNull _ => true | _ => false end
              | None => false end = true) by (vm_compute; reflexivity).
  destruct (hist cs _ _) as [[l live]|]; [|discriminate].
  destruct (lba_alloc l true) as [|l'| |] eqn:E; try discriminate. eauto.
Qed.
Print Assumptions C10_release_null_refuted.

(* a history in which blocks fill, bins empty, and a block is unmapped *)
Example C09_history :
  match run (lba_create true 3 2) [CAlloc; CAlloc; CAlloc; CAlloc; CFree (0, 1); CFree (1, 0); CFree (0, 0); CFree (0, 2)] with
  | LDone l => (map (l_blocks l) [0; 1; 2], l_count l, match lba_alloc l true with LBuf b _ => Some b | _ => None end)
  | _ => ([], 0, None)
  end = ([[1]; []; []], 2, Some (1, 0)).
Proof. vm_compute. reflexivity. Qed.

(* a block is mapped when the others are full: by hist_reach the state is one of
   [reach] *)
Example C10_reuse_example :
  match hist [CAlloc; CAlloc; CAlloc] (lba_create true 3 2) [] with
  | Some (l, live) =>
      (in_use live 0, match lba_alloc l true with LBuf b _ => Some b | _ => None end,
       match lba_alloc l false with LNull _ => true | _ => false end)
  | None => (0, None, false)
  end = (3, Some (1, 0), true).
Proof. vm_compute. reflexivity. Qed.

(* two blocks with room: the fuller one is used, although it is the older one *)
Example C10_fullest_example :
  match hist [CAlloc; CAlloc; CAlloc; CAlloc; CFree (0, 1)] (lba_create true 3 3) [] with
  | Some (l, live) =>
      (in_use live 0, in_use live 1, match lba_alloc l true with LBuf b _ => Some b | _ => None end)
  | None => (0, 0, None)
  end = (2, 1, Some (0, 1)).
Proof. vm_compute. reflexivity. Qed.
