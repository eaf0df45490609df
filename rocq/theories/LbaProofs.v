From Coq Require Import List Arith Lia Bool Sorted ZArith.
From Coq Require Import ZifyBool ZifyNat.
From Verif Require Import Lists LbaModel LbaSpec.
Import ListNotations.

Lemma upd_eq {A} (f : nat -> A) i x : upd f i x i = x.
Proof. unfold upd. rewrite Nat.eqb_refl. reflexivity. Qed.
Lemma upd_neq {A} (f : nat -> A) i x j : i <> j -> upd f i x j = f j.
Proof. intros H. unfold upd. destruct (Nat.eqb_spec i j); congruence. Qed.

Lemma in_remove b q c : In c (remove_block b q) <-> In c q /\ c <> b.
Proof.
  unfold remove_block. rewrite filter_In. destruct (Nat.eqb_spec b c); cbn; intuition congruence.
Qed.

Lemma nodup_remove b q : NoDup q -> NoDup (remove_block b q).
Proof. apply NoDup_filter. Qed.

Lemma buf_eqb_spec x y : reflect (x = y) (buf_eqb x y).
Proof.
  destruct x as [a b], y as [c d]. unfold buf_eqb. cbn.
  destruct (Nat.eqb_spec a c), (Nat.eqb_spec b d); constructor; congruence.
Qed.

Lemma in_drop b live c : In c (drop b live) <-> In c live /\ c <> b.
Proof.
  unfold drop. rewrite filter_In. destruct (buf_eqb_spec b c); cbn; intuition congruence.
Qed.

Lemma in_use_cons x live b : in_use (x :: live) b = (if fst x =? b then 1 else 0) + in_use live b.
Proof. unfold in_use. cbn [filter]. destruct (fst x =? b); reflexivity. Qed.

Lemma in_use_drop x live b : NoDup live -> In x live ->
  in_use (drop x live) b + (if fst x =? b then 1 else 0) = in_use live b.
Proof.
  induction live as [|y live IH]; intros Hnd Hin; [contradiction|].
  apply NoDup_cons_iff in Hnd. destruct Hnd as [Hy Hnd].
  rewrite in_use_cons. unfold drop. cbn [filter]. destruct (buf_eqb_spec x y) as [->|Hne]; cbn [negb].
  - fold (drop y live). assert (E : drop y live = live).
    { clear -Hy. induction live as [|z live IH]; [reflexivity|]. cbn in Hy. unfold drop. cbn [filter].
      destruct (buf_eqb_spec y z) as [->|]; [tauto|]. cbn [negb]. f_equal. apply IH. tauto. }
    rewrite E. lia.
  - rewrite in_use_cons. fold (drop x live). destruct Hin as [->|Hin]; [congruence|].
    specialize (IH Hnd Hin). lia.
Qed.

Lemma in_use_zero live b : in_use live b = 0 <-> forall k, ~ In (b, k) live.
Proof.
  induction live as [|[c x] live IH]; [cbn; tauto|]. rewrite in_use_cons. cbn [fst In].
  destruct (Nat.eqb_spec c b) as [->|Hne].
  - split; [discriminate|]. intros H. exfalso. apply (H x). left. reflexivity.
  - cbn [Nat.add]. rewrite IH. split; intros H k.
    + intros [E|Hk]; [congruence|exact (H k Hk)].
    + intros Hk. apply (H k). right. exact Hk.
Qed.

(* ---- the blocks ---- *)

Record good (l : lba) (live : list buf) (b : nat) : Prop := {
  g_count : b < l_count l;
  g_bin : bk_bin (l_block l b) = bin_of l (bk_used (l_block l b));
  g_inited : bk_inited (l_block l b) <= l_bufs l;
  g_sum : bk_inited (l_block l b) = length (bk_free (l_block l b)) + bk_used (l_block l b);
  g_nodup : NoDup (bk_free (l_block l b));
  g_free : forall k, In k (bk_free (l_block l b)) -> k < bk_inited (l_block l b);
  g_use : bk_used (l_block l b) = in_use live b
}.

Record binv (l : lba) (live : list buf) : Prop := {
  b_nodup : forall j, NoDup (l_blocks l j);
  b_good : forall j b, In b (l_blocks l j) -> bk_bin (l_block l b) = j /\ good l live b;
  b_live : forall b k, In (b, k) live ->
     In b (l_blocks l (bk_bin (l_block l b))) /\
     k < bk_inited (l_block l b) /\ ~ In k (bk_free (l_block l b));
  b_nodup_live : NoDup live;
  b_spare : forall i j b c, In b (l_blocks l i) -> In c (l_blocks l j) ->
     bk_used (l_block l b) = 0 -> bk_used (l_block l c) = 0 -> b = c
}.

(* only the queue differs *)
Definition same_blocks (l l' : lba) : Prop :=
  l_debug l' = l_debug l /\ l_bin_count l' = l_bin_count l /\ l_initial l' = l_initial l /\
  l_bufs l' = l_bufs l /\ l_blocks l' = l_blocks l /\ l_block l' = l_block l /\ l_count l' = l_count l.

Lemma same_refl l : same_blocks l l.
Proof. repeat split. Qed.

Lemma same_trans l l1 l2 : same_blocks l l1 -> same_blocks l1 l2 -> same_blocks l l2.
Proof. unfold same_blocks. intuition congruence. Qed.

Lemma insert_head_same l h x l' : insert_head l h x = Some l' -> same_blocks l l'.
Proof. unfold insert_head. destruct (l_next l h); [|discriminate]. intros [= <-]. repeat split. Qed.
Lemma insert_tail_same l h x l' : insert_tail l h x = Some l' -> same_blocks l l'.
Proof. unfold insert_tail. destruct (l_prev l h); [|discriminate]. intros [= <-]. repeat split. Qed.
Lemma remove_same l x l' : queue_remove l x = Some l' -> same_blocks l l'.
Proof.
  unfold queue_remove. destruct (l_next l x), (l_prev l x); try discriminate.
  intros [= <-]. destruct (l_debug l) eqn:E; repeat split; cbn; auto.
Qed.

Lemma same_binv l l' live : same_blocks l l' -> binv l live -> binv l' live.
Proof.
  intros (E0 & E1 & E2 & E3 & E4 & E5 & E6) H. destruct H as [H1 H2 H3 H4 H5].
  constructor; rewrite ?E4, ?E5; auto.
  intros j b Hb. destruct (H2 j b Hb) as [A [G1 G2 G3 G4 G5 G6 G7]].
  split; [exact A|]. constructor; unfold bin_of in *; rewrite ?E1, ?E3, ?E4, ?E5, ?E6; auto.
Qed.

(* one block changes its record and its bin *)
Lemma binv_change l l' live live' b :
  binv l live ->
  l_bin_count l' = l_bin_count l -> l_bufs l' = l_bufs l ->
  l_count l <= l_count l' ->
  (forall c, c <> b -> l_block l' c = l_block l c) ->
  (forall j, NoDup (l_blocks l' j)) ->
  (forall j c, c <> b -> In c (l_blocks l' j) <-> In c (l_blocks l j)) ->
  (forall j, In b (l_blocks l' j) <-> j = bk_bin (l_block l' b)) ->
  good l' live' b ->
  (forall c, c <> b -> in_use live' c = in_use live c) ->
  (forall c k, c <> b -> In (c, k) live' <-> In (c, k) live) ->
  (forall k, In (b, k) live' -> k < bk_inited (l_block l' b) /\ ~ In k (bk_free (l_block l' b))) ->
  NoDup live' ->
  (bk_used (l_block l' b) = 0 -> forall j c, c <> b -> In c (l_blocks l j) -> bk_used (l_block l c) <> 0) ->
  binv l' live'.
Proof.
  intros H Ebc Ebb Hcnt Hoth Hnd Hin Hb Hgood Huse Hlive Hliveb Hndl Hsp.
  constructor; auto.
  - intros j c Hc. destruct (Nat.eq_dec c b) as [->|Hne].
    + apply Hb in Hc. split; [congruence|exact Hgood].
    + apply Hin in Hc; [|exact Hne]. destruct (b_good _ _ H j c Hc) as [A [G1 G2 G3 G4 G5 G6 G7]].
      rewrite Hoth by exact Hne. split; [exact A|].
      constructor; unfold bin_of in *; rewrite ?Hoth, ?Ebc, ?Ebb, ?Huse by exact Hne; auto. lia.
  - intros c k Hc. destruct (Nat.eq_dec c b) as [->|Hne].
    + split; [apply Hb; reflexivity|]. apply Hliveb. exact Hc.
    + apply Hlive in Hc; [|exact Hne]. destruct (b_live _ _ H c k Hc) as (A1 & A2 & A3).
      rewrite Hoth by exact Hne. split; [apply Hin; auto|auto].
  - intros i j c d Hc Hd Uc Ud.
    destruct (Nat.eq_dec c b) as [->|Nc], (Nat.eq_dec d b) as [->|Nd]; auto.
    + exfalso. apply Hin in Hd; [|exact Nd]. rewrite Hoth in Ud by exact Nd. exact (Hsp Uc j d Nd Hd Ud).
    + exfalso. apply Hin in Hc; [|exact Nc]. rewrite Hoth in Uc by exact Nc. exact (Hsp Ud i c Nc Hc Uc).
    + apply Hin in Hc, Hd; auto. rewrite Hoth in Uc, Ud by assumption.
      exact (b_spare _ _ H i j c d Hc Hd Uc Ud).
Qed.

Lemma NoDup_snoc {A} (l : list A) x : NoDup l -> ~ In x l -> NoDup (l ++ [x]).
Proof.
  intros H1 H2. apply NoDup_app_iff. split; [exact H1|]. split; [constructor; [auto|constructor]|].
  intros y Hy [<-|[]]. exact (H2 Hy).
Qed.

Lemma binv_init debug bufs bins : binv (lba_create debug bufs bins) [].
Proof. constructor; cbn; try tauto. intros; constructor. constructor. Qed.

(* ---- the arithmetic of bins ---- *)
Lemma bin_zero l : bin_of l 0 = 0.
Proof. unfold bin_of. destruct (l_bufs l); reflexivity. Qed.

Lemma bin_full l used : 0 < l_bufs l -> 0 < l_bin_count l ->
  used <= l_bufs l -> (bin_of l used = l_bin_count l <-> used = l_bufs l).
Proof.
  intros H1 H2 H3. unfold bin_of. split.
  - intros E. pose proof (Nat.mul_div_le (used * l_bin_count l) (l_bufs l) ltac:(lia)) as H.
    rewrite E in H. nia.
  - intros ->. rewrite Nat.mul_comm. apply Nat.div_mul. lia.
Qed.

Lemma bin_le l used : 0 < l_bufs l -> used <= l_bufs l -> bin_of l used <= l_bin_count l.
Proof.
  intros H1 H2. unfold bin_of. apply Nat.div_le_upper_bound; [lia|]. nia.
Qed.

Lemma bin_step l used : 0 < l_bufs l -> l_bin_count l <= l_bufs l ->
  bin_of l (S used) = bin_of l used \/ bin_of l (S used) = S (bin_of l used).
Proof.
  intros H1 H2. unfold bin_of.
  assert (A : used * l_bin_count l / l_bufs l <= S used * l_bin_count l / l_bufs l).
  { apply Nat.div_le_mono; lia. }
  assert (B : S used * l_bin_count l / l_bufs l <= (used * l_bin_count l + 1 * l_bufs l) / l_bufs l).
  { apply Nat.div_le_mono; lia. }
  rewrite Nat.div_add in B by lia. lia.
Qed.

(* ---- what the calls do to the blocks ---- *)

Definition geom (debug : bool) (bufs bins : nat) (l : lba) : Prop :=
  l_debug l = debug /\ l_bufs l = bufs /\
  l_bin_count l = Nat.min bufs bins /\ l_initial l = Nat.min bufs bins / bufs.

Lemma same_geom debug bufs bins l l' : same_blocks l l' -> geom debug bufs bins l -> geom debug bufs bins l'.
Proof. intros (E0 & E1 & E2 & E3 & _). unfold geom. rewrite E0, E1, E2, E3. auto. Qed.

Lemma in_upd_app l o n b j c : ~ In b (upd (l_blocks l) o (remove_block b (l_blocks l o)) n) ->
  c <> b ->
  In c (upd (upd (l_blocks l) o (remove_block b (l_blocks l o))) n
        (upd (l_blocks l) o (remove_block b (l_blocks l o)) n ++ [b]) j) <-> In c (l_blocks l j).
Proof.
  intros _ Hc. assert (G : forall j, In c (upd (l_blocks l) o (remove_block b (l_blocks l o)) j) <-> In c (l_blocks l j)).
  { intros j'. destruct (Nat.eq_dec o j') as [<-|]; [rewrite upd_eq, in_remove; tauto|rewrite upd_neq by auto; tauto]. }
  destruct (Nat.eq_dec n j) as [<-|].
  - rewrite upd_eq, in_app_iff, G. cbn. intuition congruence.
  - rewrite upd_neq by auto. apply G.
Qed.

(* the block part of moving b from bin o to bin n *)
Lemma move_facts l live b o n : binv l live -> In b (l_blocks l o) ->
  let l' := move_block l b o n in
  (forall j, NoDup (l_blocks l' j)) /\
  (forall j c, c <> b -> In c (l_blocks l' j) <-> In c (l_blocks l j)) /\
  (forall j, In b (l_blocks l' j) <-> j = n).
Proof.
  intros H Hb l'.
  assert (Hnot : forall j, ~ In b (upd (l_blocks l) o (remove_block b (l_blocks l o)) j)).
  { intros j. destruct (Nat.eq_dec o j) as [<-|Hne]; [rewrite upd_eq, in_remove; tauto|].
    rewrite upd_neq by auto. intros Hj. destruct (b_good _ _ H j b Hj) as [E1 _].
    destruct (b_good _ _ H o b Hb) as [E2 _]. congruence. }
  assert (Hnd : forall j, NoDup (upd (l_blocks l) o (remove_block b (l_blocks l o)) j)).
  { intros j. destruct (Nat.eq_dec o j) as [<-|Hne]; [rewrite upd_eq; apply nodup_remove|rewrite upd_neq by auto];
    apply (b_nodup _ _ H). }
  unfold l', move_block. cbn [l_blocks with_blocks]. split; [|split].
  - intros j. destruct (Nat.eq_dec n j) as [<-|Hne]; [|rewrite upd_neq by auto; apply Hnd].
    rewrite upd_eq. apply NoDup_snoc; [apply Hnd|apply Hnot].
  - intros j c Hc. apply in_upd_app; auto.
  - intros j. destruct (Nat.eq_dec n j) as [<-|Hne].
    + rewrite upd_eq, in_app_iff. cbn. tauto.
    + rewrite upd_neq by auto. split; [intros X; exfalso; exact (Hnot j X)|congruence].
Qed.

(* a block takes one more buffer *)
Definition take (l : lba) (b : nat) : option (nat * block) :=
  let bk := l_block l b in
  match bk_free bk with
  | k :: r => Some (k, mk_block (bk_bin bk) r (bk_inited bk) (S (bk_used bk)))
  | [] =>
      if bk_inited bk <? l_bufs l then
        Some (bk_inited bk, mk_block (bk_bin bk) [] (S (bk_inited bk)) (S (bk_used bk)))
      else None
  end.

Lemma take_ok l live b j : binv l live -> In b (l_blocks l j) ->
  match take l b with
  | Some (k, bk') =>
      k < bk_inited bk' /\ ~ In k (bk_free bk') /\ ~ In (b, k) live /\
      bk_bin bk' = bk_bin (l_block l b) /\ bk_inited bk' <= l_bufs l /\
      bk_inited bk' = length (bk_free bk') + bk_used bk' /\
      NoDup (bk_free bk') /\ (forall x, In x (bk_free bk') -> x < bk_inited bk') /\
      bk_used bk' = S (bk_used (l_block l b)) /\
      (forall x, In (b, x) live -> x < bk_inited bk' /\ ~ In x (bk_free bk'))
  | None => bk_used (l_block l b) = l_bufs l
  end.
Proof.
  intros H Hb. destruct (b_good _ _ H j b Hb) as [_ [G1 G2 G3 G4 G5 G6 G7]]. unfold take.
  destruct (bk_free (l_block l b)) as [|k r] eqn:Ef.
  - destruct (Nat.ltb_spec (bk_inited (l_block l b)) (l_bufs l)) as [Hlt|Hge].
    + cbn [bk_inited bk_free bk_used bk_bin]. cbn [length] in *.
      repeat split; auto; try lia; cbn; auto.
      * intros Hin. destruct (b_live _ _ H b _ Hin) as (_ & A & _). lia.
      * tauto.
      * destruct (b_live _ _ H b _ H0) as (_ & A & _). lia.
    + cbn [length] in G4. lia.
  - cbn [bk_inited bk_free bk_used bk_bin]. cbn [length] in *.
    apply NoDup_cons_iff in G5. destruct G5 as [G5a G5b].
    repeat split; auto; try lia.
    + apply G6. left. reflexivity.
    + intros Hin. destruct (b_live _ _ H b _ Hin) as (_ & _ & A). rewrite Ef in A. apply A. left. reflexivity.
    + intros x Hx. apply G6. right. exact Hx.
    + destruct (b_live _ _ H b _ H0) as (_ & A & _). exact A.
    + destruct (b_live _ _ H b _ H0) as (_ & _ & A). rewrite Ef in A. intros X. apply A. right. exact X.
Qed.

Lemma in_cons_other (b k : nat) live c x : c <> b -> In (c, x) ((b, k) :: live) <-> In (c, x) live.
Proof. intros H. cbn. split; [intros [[= <- <-]|X]; [congruence|exact X]|auto]. Qed.

Lemma alloc_buf_ok l live b j b' k l' :
  binv l live -> In b (l_blocks l j) ->
  block_alloc_buf l b = LBuf (b', k) l' ->
  b' = b /\ ~ In (b, k) live /\ binv l' ((b, k) :: live) /\ l_count l' = l_count l /\
  l_bin_count l' = l_bin_count l /\ l_bufs l' = l_bufs l /\ l_initial l' = l_initial l /\ l_debug l' = l_debug l.
Proof.
  intros H Hb E. pose proof (take_ok l live b j H Hb) as T.
  destruct (b_good _ _ H j b Hb) as [Hbin Hg].
  unfold block_alloc_buf in E. fold (take l b) in E.
  destruct (take l b) as [[k' bk']|]; [|discriminate].
  destruct T as (T1 & T2 & T3 & T4 & T5 & T6 & T7 & T8 & T9 & T10).
  set (l1 := with_blocks l (l_blocks l) (upd (l_block l) b bk')) in E.
  assert (Huse : in_use ((b, k') :: live) b = bk_used bk').
  { rewrite in_use_cons. cbn [fst]. rewrite Nat.eqb_refl, T9, (g_use _ _ _ Hg). reflexivity. }
  assert (Hothers : forall c, c <> b -> in_use ((b, k') :: live) c = in_use live c).
  { intros c Hc. rewrite in_use_cons. cbn [fst]. destruct (Nat.eqb_spec b c); [congruence|reflexivity]. }
  assert (Hnd : NoDup ((b, k') :: live)) by (constructor; [exact T3|apply (b_nodup_live _ _ H)]).
  assert (Hlk : forall x, In (b, x) ((b, k') :: live) -> x < bk_inited bk' /\ ~ In x (bk_free bk')).
  { intros x [[= <-]|Hx]; [auto|apply T10; exact Hx]. }
  destruct (Nat.eqb_spec (bin_of l (bk_used bk')) (bk_bin (l_block l b))) as [En|En].
  - injection E as <- <- <-. split; [reflexivity|]. split; [exact T3|]. split; [|cbn; auto 10].
    eapply binv_change with (l := l) (live := live) (b := b); auto; cbn [l1 with_blocks l_blocks l_block l_bin_count l_bufs l_count].
    + intros c Hc. apply upd_neq. auto.
    + apply (b_nodup _ _ H).
    + intros; tauto.
    + intros i. rewrite upd_eq, T4, Hbin. split; [|intros ->; exact Hb].
      intros Hi. destruct (b_good _ _ H i b Hi). congruence.
    + destruct Hg as [G1 G2 G3 G4 G5 G6 G7].
      assert (Hb1 : l_block l1 b = bk') by apply upd_eq.
      constructor; rewrite ?Hb1; auto. rewrite T4, <- En. reflexivity.
    + intros c x Hc. apply in_cons_other. exact Hc.
    + rewrite upd_eq. exact Hlk.
    + rewrite upd_eq, T9. discriminate.
  - set (n := bin_of l (bk_used bk')) in *. set (o := bk_bin (l_block l b)) in *.
    set (l2 := move_block l1 b o n) in E.
    assert (Hb2 : binv l2 ((b, k') :: live)).
    { assert (Hblk : l_blocks l2 = l_blocks (move_block l b o n)) by reflexivity.
      destruct (move_facts l live b o n H) as (M1 & M2 & M3); [rewrite Hbin; exact Hb|].
      assert (Hbk : l_block l2 b = mk_block n (bk_free bk') (bk_inited bk') (bk_used bk')).
      { unfold l2, move_block, l1. cbn [l_block with_blocks]. rewrite !upd_eq. reflexivity. }
      eapply binv_change with (l := l) (live := live) (b := b); auto.
      - intros c Hc. unfold l2, move_block, l1. cbn [l_block with_blocks]. rewrite !upd_neq by auto. reflexivity.
      - intros i. rewrite Hbk. cbn [bk_bin]. rewrite Hblk. apply M3.
      - destruct Hg as [G1 G2 G3 G4 G5 G6 G7].
        constructor; rewrite ?Hbk; cbn [bk_bin bk_free bk_inited bk_used]; auto.
      - intros c x Hc. apply in_cons_other. exact Hc.
      - rewrite Hbk. exact Hlk.
      - rewrite Hbk. cbn [bk_used]. rewrite T9. discriminate. }
    destruct (match l_next l2 n with Some _ => Some l2 | None => insert_head l2 o n end) as [l3|] eqn:E3; [|discriminate].
    assert (S3 : same_blocks l2 l3).
    { destruct (l_next l2 n); [injection E3 as <-; apply same_refl|]. eapply insert_head_same. exact E3. }
    assert (exists l4, LBuf (b, k') l4 = LBuf (b', k) l' /\ same_blocks l3 l4) as (l4 & E4 & S4).
    { destruct (is_nil (l_blocks l3 o)).
      - destruct (queue_remove l3 o) as [l4|] eqn:E4; [|discriminate]. exists l4. split; [exact E|].
        eapply remove_same. exact E4.
      - exists l3. split; [exact E|apply same_refl]. }
    injection E4 as <- <- <-. split; [reflexivity|]. split; [exact T3|].
    pose proof (same_trans _ _ _ S3 S4) as S24. split; [eapply same_binv; eassumption|].
    destruct S24 as (E0 & E1 & E2 & E3' & _ & _ & E6). rewrite E0, E1, E2, E3', E6. cbn. auto.
Qed.

Lemma block_alloc_ok l live ok b k l' :
  0 < l_bufs l -> l_initial l = bin_of l 1 ->
  binv l live -> block_alloc l ok = LBuf (b, k) l' ->
  ok = true /\ b = l_count l /\ ~ In (b, k) live /\ binv l' ((b, k) :: live) /\ l_count l' = S (l_count l) /\
  l_bin_count l' = l_bin_count l /\ l_bufs l' = l_bufs l /\ l_initial l' = l_initial l /\ l_debug l' = l_debug l.
Proof.
  intros Hb Hi H E. unfold block_alloc in E. destruct ok; [|discriminate]. cbn [negb] in E.
  set (i := l_initial l) in *. set (n := l_count l) in *.
  set (l1 := mk_lba _ _ _ _ _ _ _ _ _) in E.
  assert (Hfresh : forall j, ~ In n (l_blocks l j)).
  { intros j Hj. destruct (b_good _ _ H j n Hj) as [_ G]. pose proof (g_count _ _ _ G). lia. }
  assert (Hfl : forall x, ~ In (n, x) live).
  { intros x Hx. destruct (b_live _ _ H n x Hx) as (A & _). exact (Hfresh _ A). }
  assert (H1 : binv l1 ((n, 0) :: live)).
  { eapply binv_change with (l := l) (live := live) (b := n); auto; unfold l1; cbn [l_blocks l_block l_bin_count l_bufs l_count].
    - lia.
    - intros c Hc. apply upd_neq. auto.
    - intros j. destruct (Nat.eq_dec i j) as [<-|]; [rewrite upd_eq; apply NoDup_snoc; [apply (b_nodup _ _ H)|apply Hfresh]|].
      rewrite upd_neq by auto. apply (b_nodup _ _ H).
    - intros j c Hc. destruct (Nat.eq_dec i j) as [<-|]; [|rewrite upd_neq by auto; tauto].
      rewrite upd_eq, in_app_iff. cbn. intuition congruence.
    - intros j. rewrite upd_eq. cbn [bk_bin]. destruct (Nat.eq_dec i j) as [<-|].
      + rewrite upd_eq, in_app_iff. cbn. tauto.
      + rewrite upd_neq by auto. split; [intros X; exfalso; exact (Hfresh j X)|congruence].
    - constructor; cbn [l_count l_block l_bufs l_bin_count]; rewrite ?upd_eq; cbn [bk_inited bk_bin bk_free bk_used length]; auto.
      + constructor.
      + cbn. tauto.
      + rewrite in_use_cons. cbn [fst]. rewrite Nat.eqb_refl.
        assert (Z : in_use live n = 0) by (apply in_use_zero; exact Hfl). lia.
    - intros c Hc. rewrite in_use_cons. cbn [fst]. destruct (Nat.eqb_spec n c); [congruence|reflexivity].
    - intros c x Hc. apply in_cons_other. exact Hc.
    - intros x. rewrite upd_eq. cbn. intros [[= <-]|Hx]; [split; [lia|tauto]|exfalso; exact (Hfl x Hx)].
    - constructor; [apply Hfl|apply (b_nodup_live _ _ H)].
    - rewrite upd_eq. discriminate. }
  assert (exists l4, LBuf (n, 0) l4 = LBuf (b, k) l' /\ same_blocks l1 l4) as (l4 & E4 & S4).
  { destruct (l_next l1 i).
    - exists l1. split; [exact E|apply same_refl].
    - destruct (insert_head l1 (l_bin_count l1) i) as [l2|] eqn:E2; [|discriminate].
      exists l2. split; [exact E|]. eapply insert_head_same. exact E2. }
  injection E4 as <- <- <-. split; [reflexivity|]. split; [reflexivity|]. split; [apply Hfl|].
  split; [eapply same_binv; eassumption|].
  destruct S4 as (E0 & E1 & E2 & E3 & _ & _ & E6). rewrite E0, E1, E2, E3, E6. cbn. auto 10.
Qed.

(* freeing *)
Lemma other_ok l b : NoDup (l_blocks l 0) ->
  (other_in_bin0 l b = true <-> exists c, c <> b /\ In c (l_blocks l 0)).
Proof.
  intros Hnd. unfold other_in_bin0. destruct (l_blocks l 0) as [|h r] eqn:E.
  - split; [discriminate|]. intros (c & _ & []).
  - destruct (Nat.eqb_spec h b) as [->|Hne]; cbn [negb orb].
    + destruct r as [|x r].
      * cbn [last]. rewrite Nat.eqb_refl. split; [discriminate|]. intros (c & Hc & [->|[]]). congruence.
      * apply NoDup_cons_iff in Hnd. destruct Hnd as [Hb _].
        split; [intros _; exists x; split; [|right; left; reflexivity]|intros _].
        -- intros ->. apply Hb. left. reflexivity.
        -- change (last (b :: x :: r) b) with (last (x :: r) b).
           destruct (Nat.eqb_spec (last (x :: r) b) b) as [El|]; [|reflexivity].
           exfalso. apply Hb. rewrite <- El.
           destruct (exists_last (l := x :: r)) as [r' [z Ez]]; [discriminate|].
           rewrite Ez, last_last. apply in_or_app. right. left. reflexivity.
    + split; [intros _; exists h; split; [exact Hne|left; reflexivity]|intros _; reflexivity].
Qed.

Lemma in_drop_other b k live c x : c <> b -> In (c, x) (drop (b, k) live) <-> In (c, x) live.
Proof. intros H. rewrite in_drop. intuition congruence. Qed.

(* what the loop invariant says after a free: either the block was unmapped,
   and then had no buffer in use, or it is still there *)
Lemma free_buf_ok l live b k l' :
  0 < l_bufs l -> 0 < l_bin_count l ->
  binv l live -> In (b, k) live -> block_free_buf l b k = LDone l' ->
  binv l' (drop (b, k) live) /\ l_count l' = l_count l /\
  (forall c, (exists i, In c (l_blocks l i)) -> ~ (exists i, In c (l_blocks l' i)) ->
     forall x, ~ In (c, x) (drop (b, k) live)) /\
  l_bin_count l' = l_bin_count l /\ l_bufs l' = l_bufs l /\ l_initial l' = l_initial l /\ l_debug l' = l_debug l.
Proof.
  intros Hbb Hbc H Hin E.
  destruct (b_live _ _ H b k Hin) as (Hmap & Hk1 & Hk2).
  destruct (b_good _ _ H _ b Hmap) as [_ Hg]. destruct Hg as [G1 G2 G3 G4 G5 G6 G7].
  pose proof (b_nodup_live _ _ H) as Hnl.
  assert (Hu : in_use (drop (b, k) live) b + 1 = bk_used (l_block l b)).
  { pose proof (in_use_drop (b, k) live b Hnl Hin) as X. cbn [fst] in X. rewrite Nat.eqb_refl in X. lia. }
  assert (Hothers : forall c, c <> b -> in_use (drop (b, k) live) c = in_use live c).
  { intros c Hc. pose proof (in_use_drop (b, k) live c Hnl Hin) as X. cbn [fst] in X.
    destruct (Nat.eqb_spec b c); [congruence|]. lia. }
  assert (Hnd' : NoDup (drop (b, k) live)) by (apply NoDup_filter; exact Hnl).
  unfold block_free_buf in E. set (u := bk_used (l_block l b) - 1) in *.
  set (o := bk_bin (l_block l b)) in *.
  set (l1 := with_blocks l (l_blocks l) _) in E.
  assert (Hlk : forall x, In (b, x) (drop (b, k) live) ->
     x < bk_inited (l_block l b) /\ ~ In x (k :: bk_free (l_block l b))).
  { intros x Hx. apply in_drop in Hx. destruct Hx as [Hx Hne].
    destruct (b_live _ _ H b x Hx) as (_ & A & B). split; [exact A|]. intros [->|X]; [congruence|exact (B X)]. }
  destruct ((u =? 0) && other_in_bin0 l1 b) eqn:Ec.
  - (* unmapped *)
    apply andb_true_iff in Ec. destruct Ec as [Eu Eo]. apply Nat.eqb_eq in Eu.
    assert (Hnone : forall x, ~ In (b, x) (drop (b, k) live)) by (apply in_use_zero; lia).
    unfold block_free in E. cbn [l1 l_block with_blocks] in E. rewrite upd_eq in E. cbn [bk_bin] in E. fold o in E.
    set (l2 := with_blocks l1 _ _) in E.
    assert (exists l4, LDone l4 = LDone l' /\ same_blocks l2 l4) as (l4 & E4 & S4).
    { change (l_blocks (with_blocks l1 (upd (l_blocks l1) o (remove_block b (l_blocks l1 o))) (l_block l1)) o) with (l_blocks l2 o) in E.
      destruct (is_nil (l_blocks l2 o)).
      - destruct (queue_remove l2 o) as [l3|] eqn:E3; [|discriminate]. exists l3. split; [exact E|].
        eapply remove_same. exact E3.
      - exists l2. split; [exact E|apply same_refl]. }
    injection E4 as ->.
    assert (Hin2 : forall j c, In c (l_blocks l2 j) <-> In c (l_blocks l j) /\ c <> b).
    { intros j c. unfold l2. cbn [with_blocks l_blocks]. destruct (Nat.eq_dec o j) as [<-|Hne].
      - rewrite upd_eq. apply in_remove.
      - rewrite upd_neq by auto. split; [|tauto]. intros Hc. split; [exact Hc|]. intros ->.
        destruct (b_good _ _ H j b Hc) as [X _]. unfold o in Hne. congruence. }
    assert (Hbk2 : forall c, c <> b -> l_block l2 c = l_block l c).
    { intros c Hc. unfold l2, l1. cbn [with_blocks l_block]. apply upd_neq. auto. }
    assert (H2 : binv l2 (drop (b, k) live)).
    { constructor.
      - intros j. unfold l2. cbn [with_blocks l_blocks]. destruct (Nat.eq_dec o j) as [<-|Hne].
        + rewrite upd_eq. apply nodup_remove. apply (b_nodup _ _ H).
        + rewrite upd_neq by auto. apply (b_nodup _ _ H).
      - intros j c Hc. apply Hin2 in Hc. destruct Hc as [Hc Hne]. rewrite Hbk2 by exact Hne.
        destruct (b_good _ _ H j c Hc) as [A [K1 K2 K3 K4 K5 K6 K7]]. split; [exact A|].
        constructor; rewrite ?Hbk2, ?Hothers by exact Hne; auto.
      - intros c x Hc. assert (Hne : c <> b) by (intros ->; exact (Hnone x Hc)).
        apply in_drop in Hc. destruct Hc as [Hc _]. destruct (b_live _ _ H c x Hc) as (A1 & A2 & A3).
        rewrite Hbk2 by exact Hne. split; [apply Hin2; auto|auto].
      - exact Hnd'.
      - intros i j c d Hc Hd. apply Hin2 in Hc, Hd. destruct Hc, Hd. rewrite !Hbk2 by assumption.
        eapply (b_spare _ _ H); eassumption. }
    split; [eapply same_binv; eassumption|].
    destruct S4 as (S0 & S1 & S2 & S3 & S4' & S5 & S6). rewrite S0, S1, S2, S3, S6, S4'. cbn.
    split; [reflexivity|]. split; [|auto].
    intros c [i Hc] Hnc x. destruct (Nat.eq_dec c b) as [->|Hne]; [apply Hnone|].
    exfalso. apply Hnc. exists i. apply Hin2. auto.
  - set (l2 := with_blocks l1 _ _) in E.
    assert (Hspare : u = 0 -> forall j c, c <> b -> In c (l_blocks l j) -> bk_used (l_block l c) <> 0).
    { intros Eu j c Hne Hc Huc. rewrite Eu in Ec. cbn [Nat.eqb andb] in Ec.
      destruct (b_good _ _ H j c Hc) as [Aj [_ K2 _ _ _ _ _]].
      assert (Ej : j = 0) by (rewrite <- Aj, K2, Huc; apply bin_zero). rewrite Ej in Hc.
      assert (X : other_in_bin0 l1 b = true).
      { apply other_ok; [apply (b_nodup _ _ H)|]. exists c. split; [exact Hne|exact Hc]. }
      congruence. }
    assert (Hgood : forall l3, l_count l3 = l_count l -> l_bin_count l3 = l_bin_count l -> l_bufs l3 = l_bufs l ->
      l_block l3 b = mk_block (bin_of l u) (k :: bk_free (l_block l b)) (bk_inited (l_block l b)) u ->
      good l3 (drop (b, k) live) b).
    { intros l3 C1 C2 C3 C4. constructor; rewrite ?C4; cbn [bk_bin bk_free bk_inited bk_used length]; unfold bin_of; rewrite ?C1, ?C2, ?C3; auto.
      - lia.
      - constructor; assumption.
      - intros x [<-|Hx]; [exact Hk1|apply G6; exact Hx].
      - lia. }
    destruct (Nat.eqb_spec (bin_of l u) o) as [En|En].
    + injection E as <-.
      assert (H2 : binv l2 (drop (b, k) live)).
      { assert (Hb2 : l_block l2 b = mk_block o (k :: bk_free (l_block l b)) (bk_inited (l_block l b)) u).
        { unfold l2. cbn [with_blocks l_block]. apply upd_eq. }
        eapply binv_change with (l := l) (live := live) (b := b); auto.
        - intros c Hc. unfold l2, l1. cbn [with_blocks l_block]. rewrite !upd_neq by auto. reflexivity.
        - apply (b_nodup _ _ H).
        - intros; cbn; tauto.
        - intros i. rewrite Hb2. cbn. split; [|intros ->; exact Hmap].
          intros Hi. destruct (b_good _ _ H i b Hi) as [X _]. unfold o. congruence.
        - apply Hgood; auto. rewrite Hb2, En. reflexivity.
        - intros c x Hc. apply in_drop_other. exact Hc.
        - intros x Hx. rewrite Hb2. cbn [bk_inited bk_free]. apply Hlk. exact Hx.
        - rewrite Hb2. cbn [bk_used]. exact Hspare. }
      split; [exact H2|]. cbn. split; [reflexivity|]. split; [|auto].
      intros c Hc Hnc. exfalso. exact (Hnc Hc).
    + set (n := bin_of l u) in *. set (l3 := move_block l2 b o n) in E.
      assert (Hb3 : l_block l3 b = mk_block n (k :: bk_free (l_block l b)) (bk_inited (l_block l b)) u).
      { unfold l3, move_block, l2. cbn [with_blocks l_block]. rewrite !upd_eq. reflexivity. }
      destruct (move_facts l live b o n H Hmap) as (M1 & M2 & M3).
      assert (H3 : binv l3 (drop (b, k) live)).
      { eapply binv_change with (l := l) (live := live) (b := b); auto.
        - intros c Hc. unfold l3, move_block, l2, l1. cbn [with_blocks l_block]. rewrite !upd_neq by auto. reflexivity.
        - intros i. rewrite Hb3. cbn [bk_bin]. apply M3.
        - intros c x Hc. apply in_drop_other. exact Hc.
        - intros x Hx. rewrite Hb3. cbn [bk_inited bk_free]. apply Hlk. exact Hx.
        - rewrite Hb3. cbn [bk_used]. exact Hspare. }
      destruct (match l_next l3 n with Some _ => Some l3 | None => insert_tail l3 o n end) as [l4|] eqn:E4; [|discriminate].
      assert (S3 : same_blocks l3 l4).
      { destruct (l_next l3 n); [injection E4 as <-; apply same_refl|]. eapply insert_tail_same. exact E4. }
      assert (exists l5, LDone l5 = LDone l' /\ same_blocks l4 l5) as (l5 & E5 & S4).
      { destruct (is_nil (l_blocks l4 o) && negb (o =? l_bin_count l4)).
        - destruct (queue_remove l4 o) as [l5|] eqn:E5; [|discriminate]. exists l5. split; [exact E|].
          eapply remove_same. exact E5.
        - exists l4. split; [exact E|apply same_refl]. }
      injection E5 as ->. pose proof (same_trans _ _ _ S3 S4) as S.
      split; [eapply same_binv; eassumption|].
      destruct S as (S0 & S1 & S2 & S3' & S4' & S5 & S6). rewrite S0, S1, S2, S3', S6, S4'. cbn [l3 move_block with_blocks l_count l_bin_count l_bufs l_initial l_debug l2 l1].
      split; [reflexivity|]. split; [|auto].
      intros c [i Hc] Hnc. exfalso. apply Hnc. destruct (Nat.eq_dec c b) as [->|Hne].
      * exists n. apply M3. reflexivity.
      * exists i. apply M2; auto.
Qed.
