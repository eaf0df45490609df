(* Invariants of all histories of the allocator of large buffers. *)
From Coq Require Import List Arith Bool Lia Sorted.
From Verif Require Import LbaModel LbaSpec LbaProofs LbaQueue.
Import ListNotations.

Lemma lba_alloc_cases l ok b l' : lba_alloc l ok = LBuf b l' ->
  block_alloc l ok = LBuf b l' \/ exists c j, In c (l_blocks l j) /\ block_alloc_buf l c = LBuf b l'.
Proof.
  unfold lba_alloc. destruct (l_prev l (l_bin_count l)) as [q|]; [|discriminate].
  destruct (q =? l_bin_count l); [auto|].
  destruct (rev (l_blocks l q)) as [|c r] eqn:E; [discriminate|].
  intros H. right. exists c, q. split; [|exact H]. apply in_rev. rewrite E. left. reflexivity.
Qed.

Lemma lba_alloc_null l ok l' : lba_alloc l ok = LNull l' -> l' = l.
Proof.
  unfold lba_alloc, block_alloc, block_alloc_buf.
  repeat match goal with
  | |- LNull _ = LNull _ -> _ => intros [= <-]; reflexivity
  | |- LBuf _ _ = LNull _ -> _ => discriminate
  | |- LUB = LNull _ -> _ => discriminate
  | |- context [match ?x with _ => _ end] => destruct x
  end.
Qed.

Section Reach.
Variables (debug : bool) (bufs bins : nat).
Hypothesis Hbufs : 1 <= bufs.
Hypothesis Hbins : 1 <= bins.

Lemma geom_init : geom debug bufs bins (lba_create debug bufs bins).
Proof.
  unfold geom, lba_create. cbn [l_debug l_bufs l_bin_count l_initial].
  assert (E : (if bufs <? bins then bufs else bins) = Nat.min bufs bins) by (destruct (Nat.ltb_spec bufs bins); lia).
  rewrite E. auto.
Qed.

Lemma geom_facts l : geom debug bufs bins l ->
  0 < l_bufs l /\ 0 < l_bin_count l /\ l_bin_count l <= l_bufs l /\ l_initial l = bin_of l 1.
Proof.
  intros (_ & E0 & E & E'). unfold bin_of. rewrite E, E', E0. repeat split; try lia.
  rewrite Nat.mul_1_l. reflexivity.
Qed.

Lemma geom_bufs l : geom debug bufs bins l -> l_bufs l = bufs.
Proof. intros (_ & E & _). exact E. Qed.

Lemma geom_keep l l' : l_bin_count l' = l_bin_count l -> l_bufs l' = l_bufs l ->
  l_initial l' = l_initial l -> l_debug l' = l_debug l -> geom debug bufs bins l -> geom debug bufs bins l'.
Proof. unfold geom. intros -> -> -> ->. auto. Qed.

Lemma reach_inv l live : reach debug bufs bins l live -> geom debug bufs bins l /\ binv l live.
Proof.
  induction 1 as [|l live ok [b k] l' R [G B] E|l live ok l' R [G B] E|l live [b k] l' R [G B] Hin E].
  - split; [apply geom_init|apply binv_init].
  - pose proof (geom_facts l G) as (F1 & F2 & F3 & F4).
    apply lba_alloc_cases in E. destruct E as [E|(c & j & Hc & E)].
    + destruct (block_alloc_ok l live ok b k l' F1 F4 B E) as (_ & _ & _ & B' & _ & E1 & E2 & E3 & E4).
      split; [eapply geom_keep; eassumption|exact B'].
    + destruct (alloc_buf_ok l live c j b k l' B Hc E) as (-> & _ & B' & _ & E1 & E2 & E3 & E4).
      split; [eapply geom_keep; eassumption|exact B'].
  - apply lba_alloc_null in E. subst l'. auto.
  - pose proof (geom_facts l G) as (F1 & F2 & F3 & F4).
    destruct (free_buf_ok l live b k l' F1 F2 B Hin E) as (B' & _ & _ & E1 & E2 & E3 & E4).
    split; [eapply geom_keep; eassumption|exact B'].
Qed.

(* the block numbers never come back *)
Lemma alloc_fresh l live ok b l' : reach debug bufs bins l live -> lba_alloc l ok = LBuf b l' -> ~ In b live.
Proof.
  intros R E. destruct (reach_inv l live R) as [G B]. pose proof (geom_facts l G) as (F1 & F2 & F3 & F4).
  destruct b as [b k]. apply lba_alloc_cases in E. destruct E as [E|(c & j & Hc & E)].
  - destruct (block_alloc_ok l live ok b k l' F1 F4 B E) as (_ & _ & H & _). exact H.
  - destruct (alloc_buf_ok l live c j b k l' B Hc E) as (-> & H & _). exact H.
Qed.

Lemma mapped_bin l live b i : geom debug bufs bins l -> binv l live -> In b (l_blocks l i) -> i <= l_bin_count l.
Proof.
  intros G B Hi. pose proof (geom_facts l G) as (F1 & F2 & F3 & F4).
  destruct (b_good _ _ B i b Hi) as [E [G1 G2 G3 G4 _ _ _]]. rewrite <- E, G2. apply bin_le; lia.
Qed.

(* ---- debug builds, at least two buffers in a block ---- *)
Lemma rinv_init : debug = true -> rinv (lba_create debug bufs bins) [].
Proof.
  intros Hd. set (l := lba_create debug bufs bins). constructor.
  - unfold ring, l, lba_create. cbn [l_next l_prev l_bin_count]. set (bc := if bufs <? bins then _ else _).
    split; [|split].
    + cbn [app path]. unfold link. rewrite !Nat.eqb_refl. auto.
    + constructor; [intros []|constructor].
    + intros j Hj. cbn in Hj. destruct (Nat.eqb_spec j bc); [exfalso; apply Hj; auto|auto].
  - constructor.
  - intros j. unfold l, lba_create. cbn. intuition.
Qed.

Lemma sized_of l : debug = true -> 2 <= bufs -> geom debug bufs bins l -> sized l.
Proof.
  intros Hd H2 G. pose proof (geom_facts l G) as (F1 & F2 & F3 & F4).
  pose proof G as (E1 & E2 & _). unfold sized. rewrite E1, E2 in *. repeat split; auto; lia.
Qed.

Lemma reach_rinv l live : debug = true -> 2 <= bufs -> reach debug bufs bins l live -> exists act, rinv l act.
Proof.
  intros Hd H2. induction 1 as [|l live ok b l' R [act I] E|l live ok l' R [act I] E|l live [b k] l' R [act I] Hin E].
  - exists []. apply rinv_init. exact Hd.
  - destruct (reach_inv l live R) as [G B]. pose proof (sized_of l Hd H2 G) as Hs.
    pose proof (alloc_queue l live act ok Hs B I) as Q. destruct act as [|a r].
    + destruct Q as [Q1 Q2]. destruct ok.
      * destruct (Q2 eq_refl) as (b' & l'' & act' & Q3 & Q4). rewrite Q3 in E. injection E as _ <-. eauto.
      * rewrite Q1 in E. discriminate.
    + destruct Q as (b' & k & l'' & act' & Q3 & Q4 & _). rewrite Q3 in E. injection E as _ <-. eauto.
  - apply lba_alloc_null in E. subst l'. eauto.
  - destruct (reach_inv l live R) as [G B]. pose proof (sized_of l Hd H2 G) as Hs.
    destruct (free_queue l live act b k Hs B I Hin) as (l'' & act' & Q1 & Q2).
    rewrite Q1 in E. injection E as <-. eauto.
Qed.

End Reach.

(* ---- release builds: the pointers that are followed are not NULL ---- *)
Definition N (l : lba) (j : nat) : Prop := l_next l j <> None.
Definition P (l : lba) (j : nat) : Prop := l_prev l j <> None.

Record pinv (l : lba) : Prop := {
  p_release : l_debug l = false;
  p_next : forall j, N l j -> P l j;
  p_prev : forall j p, l_prev l j = Some p -> P l p
}.

Lemma upd_some {A} (f : nat -> option A) i x j : f j <> None -> upd f i (Some x) j <> None.
Proof. unfold upd. destruct (i =? j); congruence. Qed.
Lemma upd_here {A} (f : nat -> option A) i x : upd f i (Some x) i <> None.
Proof. rewrite upd_eq. discriminate. Qed.

Lemma insert_head_p l h x : pinv l -> N l h ->
  exists l', insert_head l h x = Some l' /\ pinv l' /\ (forall j, N l j -> N l' j) /\ N l' x.
Proof.
  intros [R D1 D2] Hh. unfold insert_head. destruct (l_next l h) as [n|] eqn:En; [|contradiction].
  eexists. split; [reflexivity|]. split; [|split].
  - constructor; unfold N, P in *; cbn.
    + exact R.
    + intros j. unfold upd. destruct (Nat.eqb_spec x j) as [->|]; [discriminate|].
      destruct (Nat.eqb_spec n j) as [->|]; [discriminate|].
      destruct (Nat.eqb_spec h j) as [->|]; [intros _; apply D1; congruence|]. apply D1.
    + intros j p. unfold upd at 1. destruct (Nat.eqb_spec x j) as [->|].
      * intros [= <-]. apply upd_some. apply upd_some. apply D1. exact Hh.
      * unfold upd at 1. destruct (Nat.eqb_spec n j) as [->|]; [intros [= <-]; apply upd_here|].
        intros H. apply upd_some, upd_some. apply (D2 j). exact H.
  - intros j Hj. unfold N. cbn. apply upd_some, upd_some. exact Hj.
  - unfold N. cbn. apply upd_some. apply upd_here.
Qed.

Lemma insert_tail_p l h x : pinv l -> N l h ->
  exists l', insert_tail l h x = Some l' /\ pinv l' /\ (forall j, N l j -> N l' j) /\ N l' x.
Proof.
  intros [R D1 D2] Hh. pose proof (D1 h Hh) as Ph. unfold insert_tail.
  destruct (l_prev l h) as [p|] eqn:Ep; [|contradiction].
  eexists. split; [reflexivity|]. split; [|split].
  - constructor; unfold N, P in *; cbn.
    + exact R.
    + intros j. destruct (Nat.eq_dec x j) as [->|Hx]; [intros _; apply upd_some, upd_here|].
      rewrite (upd_neq _ x _ j) by auto. destruct (Nat.eq_dec p j) as [->|Hp].
      * intros _. apply upd_some, upd_some. apply (D2 h). exact Ep.
      * rewrite upd_neq by auto. intros Hj. apply upd_some, upd_some, D1. exact Hj.
    + intros j q. unfold upd at 1. destruct (Nat.eqb_spec h j) as [->|].
      * intros [= <-]. apply upd_some, upd_here.
      * unfold upd at 1. destruct (Nat.eqb_spec x j) as [->|].
        -- intros [= <-]. apply upd_some, upd_some. apply (D2 h). exact Ep.
        -- intros H. apply upd_some, upd_some. apply (D2 j). exact H.
  - intros j Hj. unfold N. cbn. apply upd_some, upd_some. exact Hj.
  - unfold N. cbn. apply upd_here.
Qed.

Lemma remove_p l x : pinv l -> N l x ->
  exists l', queue_remove l x = Some l' /\ pinv l' /\ (forall j, N l j -> N l' j).
Proof.
  intros [R D1 D2] Hx. pose proof (D1 x Hx) as Px. unfold queue_remove. unfold N in Hx. unfold P in Px.
  destruct (l_next l x) as [n|] eqn:En; [|contradiction]. destruct (l_prev l x) as [p|] eqn:Ep; [|contradiction].
  rewrite R. eexists. split; [reflexivity|]. split.
  - constructor; unfold N, P in *; cbn.
    + exact R.
    + intros j. destruct (Nat.eq_dec p j) as [->|Hp].
      * intros _. apply upd_some. apply (D2 x). exact Ep.
      * rewrite upd_neq by auto. intros Hj. apply upd_some, D1. exact Hj.
    + intros j q. unfold upd at 1. destruct (Nat.eqb_spec n j) as [->|].
      * intros [= <-]. apply upd_some. apply (D2 x). exact Ep.
      * intros H. apply upd_some. apply (D2 j). exact H.
  - intros j Hj. unfold N. cbn. apply upd_some. exact Hj.
Qed.

Record dinv (l : lba) : Prop := {
  d_p : pinv l;
  d_active : N l (l_bin_count l);
  d_bins : forall j, l_blocks l j <> [] -> N l j
}.

Lemma pinv_same l l' : l_debug l' = l_debug l -> l_next l' = l_next l -> l_prev l' = l_prev l -> pinv l -> pinv l'.
Proof. intros E0 E1 E2 [R A B]. constructor; unfold N, P in *; rewrite ?E0, ?E1, ?E2; auto. Qed.

Lemma dinv_init bufs bins : dinv (lba_create false bufs bins).
Proof.
  set (l := lba_create false bufs bins).
  constructor; [constructor| |]; unfold N, P, l, lba_create; cbn [l_next l_prev l_debug l_bin_count l_blocks]; set (bc := if bufs <? bins then bufs else bins).
  - reflexivity.
  - intros j. destruct (j =? bc); auto.
  - intros j p. destruct (j =? bc); intros E; [|discriminate E]. injection E as <-. rewrite Nat.eqb_refl. discriminate.
  - rewrite Nat.eqb_refl. discriminate.
  - congruence.
Qed.

Lemma dinv_of l l' : pinv l' -> N l' (l_bin_count l) -> same_blocks l l' ->
  (forall j, l_blocks l j <> [] -> N l' j) -> dinv l'.
Proof.
  intros Hp Ha (_ & E1 & _ & _ & E4 & _) Hb. constructor; [exact Hp|rewrite E1; exact Ha|rewrite E4; exact Hb].
Qed.

Definition fine (r : lres) : Prop :=
  match r with LBuf _ l | LNull l | LDone l => dinv l | LUB => False end.

Lemma block_alloc_fine l ok : dinv l -> fine (block_alloc l ok).
Proof.
  intros H. pose proof H as [Hp Ha Hb]. unfold block_alloc. destruct ok; cbn [negb]; [|exact H].
  set (l1 := mk_lba _ _ _ _ _ _ _ _ _). change (l_next l1 (l_initial l)) with (l_next l (l_initial l)).
  assert (Hp1 : pinv l1) by (eapply pinv_same; [| | |exact Hp]; reflexivity).
  assert (Hb1 : forall j, l_blocks l1 j <> [] -> j <> l_initial l -> N l j).
  { intros j Hj Hne. apply Hb. unfold l1 in Hj. cbn in Hj. rewrite upd_neq in Hj by auto. exact Hj. }
  destruct (l_next l (l_initial l)) eqn:En.
  - apply (dinv_of l1); [exact Hp1|exact Ha|apply same_refl|]. intros j Hj.
    destruct (Nat.eq_dec j (l_initial l)) as [->|Hne]; [|apply Hb1; assumption].
    unfold N. cbn. congruence.
  - destruct (insert_head_p l1 (l_bin_count l1) (l_initial l) Hp1 Ha) as (l2 & E & Hp2 & Hm & Hx).
    rewrite E. apply (dinv_of l1); [exact Hp2|apply Hm; exact Ha|eapply insert_head_same; exact E|].
    intros j Hj. destruct (Nat.eq_dec j (l_initial l)) as [->|Hne]; [exact Hx|].
    apply Hm. apply Hb1; assumption.
Qed.

Lemma move_fine l b o n : dinv l -> N l o -> forall head : bool,
  let l2 := move_block l b o n in
  exists l3, match l_next l2 n with None => (if head then insert_head else insert_tail) l2 o n | Some _ => Some l2 end = Some l3 /\
  dinv l3 /\ N l3 o.
Proof.
  intros [Hp Ha Hb] Ho head l2.
  assert (Hp2 : pinv l2) by (eapply pinv_same; [| | |exact Hp]; reflexivity).
  assert (Hb2 : forall j, l_blocks l2 j <> [] -> j <> n -> N l j).
  { intros j Hj Hne. destruct (Nat.eq_dec j o) as [->|No]; [exact Ho|]. apply Hb.
    unfold l2 in Hj. rewrite move_other in Hj by auto. exact Hj. }
  destruct (l_next l2 n) eqn:En.
  - exists l2. split; [reflexivity|]. split; [|exact Ho].
    apply (dinv_of l2); [exact Hp2|exact Ha|apply same_refl|]. intros j Hj.
    destruct (Nat.eq_dec j n) as [->|Hne]; [unfold N; congruence|apply Hb2; assumption].
  - assert (exists l3, (if head then insert_head else insert_tail) l2 o n = Some l3 /\ pinv l3 /\
      (forall j, N l2 j -> N l3 j) /\ N l3 n /\ same_blocks l2 l3) as (l3 & E & Hp3 & Hm & Hn & Hsame).
    { destruct head.
      - destruct (insert_head_p l2 o n Hp2 Ho) as (l3 & E & A & B & C). exists l3.
        exact (conj E (conj A (conj B (conj C (insert_head_same _ _ _ _ E))))).
      - destruct (insert_tail_p l2 o n Hp2 Ho) as (l3 & E & A & B & C). exists l3.
        exact (conj E (conj A (conj B (conj C (insert_tail_same _ _ _ _ E))))). }
    exists l3. split; [exact E|]. split; [|apply Hm; exact Ho].
    apply (dinv_of l2); [exact Hp3|apply Hm; exact Ha|exact Hsame|]. intros j Hj.
    destruct (Nat.eq_dec j n) as [->|Hne]; [exact Hn|]. apply Hm. apply Hb2; assumption.
Qed.

Lemma remove_fine l o : dinv l -> N l o -> exists l', queue_remove l o = Some l' /\ dinv l'.
Proof.
  intros [Hp Ha Hb] Ho. destruct (remove_p l o Hp Ho) as (l' & E & Hp' & Hm). exists l'. split; [exact E|].
  apply (dinv_of l); [exact Hp'|apply Hm; exact Ha|eapply remove_same; exact E|]. intros j Hj. apply Hm, Hb. exact Hj.
Qed.

Lemma dinv_blocks l l' : l_debug l' = l_debug l -> l_next l' = l_next l -> l_prev l' = l_prev l ->
  l_bin_count l' = l_bin_count l -> (forall j, l_blocks l' j <> [] -> l_blocks l j <> []) -> dinv l -> dinv l'.
Proof.
  intros E0 E1 E2 E3 Hj [Hp Ha Hb]. constructor.
  - eapply pinv_same; eassumption.
  - unfold N. rewrite E1, E3. exact Ha.
  - intros j H. unfold N. rewrite E1. apply Hb, Hj. exact H.
Qed.

Lemma alloc_buf_fine l b : dinv l -> N l (bk_bin (l_block l b)) -> fine (block_alloc_buf l b).
Proof.
  intros H Ho. unfold block_alloc_buf. fold (take l b). destruct (take l b) as [[k bk']|]; [|exact H].
  set (l1 := with_blocks l (l_blocks l) (upd (l_block l) b bk')).
  assert (H1 : dinv l1) by (eapply dinv_blocks; [| | | | |exact H]; try reflexivity; auto).
  destruct (bin_of l (bk_used bk') =? bk_bin (l_block l b)); [exact H1|].
  destruct (move_fine l1 b (bk_bin (l_block l b)) (bin_of l (bk_used bk')) H1 Ho true) as (l3 & E & H3 & N3).
  cbn [negb] in E. rewrite E. destruct (is_nil _); [|exact H3].
  destruct (remove_fine l3 _ H3 N3) as (l4 & E4 & H4). rewrite E4. exact H4.
Qed.

Lemma free_buf_fine l b k : dinv l -> N l (bk_bin (l_block l b)) -> fine (block_free_buf l b k).
Proof.
  intros H Ho. unfold block_free_buf. set (o := bk_bin (l_block l b)) in *. set (u := bk_used (l_block l b) - 1).
  set (l1 := with_blocks l (l_blocks l) _).
  assert (H1 : dinv l1) by (eapply dinv_blocks; [| | | | |exact H]; try reflexivity; auto).
  destruct ((u =? 0) && other_in_bin0 l1 b).
  - unfold block_free. cbn [l1 with_blocks l_block]. rewrite upd_eq. cbn [bk_bin].
    set (l2 := with_blocks l1 (upd (l_blocks l1) o (remove_block b (l_blocks l1 o))) (l_block l1)).
    assert (H2 : dinv l2).
    { eapply dinv_blocks; [| | | | |exact H1]; try reflexivity. intros j. cbn [l2 with_blocks l_blocks].
      destruct (Nat.eq_dec o j) as [<-|]; [|rewrite upd_neq by auto; auto]. rewrite upd_eq.
      intros X Y. apply X. rewrite Y. reflexivity. }
    change (fine (if is_nil (l_blocks l2 o) then match queue_remove l2 o with Some l3 => LDone l3 | None => LUB end else LDone l2)).
    destruct (is_nil (l_blocks l2 o)); [|exact H2].
    destruct (remove_fine l2 o H2 Ho) as (l3 & E & H3). rewrite E. exact H3.
  - set (l2 := with_blocks l1 _ _).
    assert (H2 : dinv l2) by (eapply dinv_blocks; [| | | | |exact H1]; try reflexivity; auto).
    destruct (bin_of l u =? o); [exact H2|].
    destruct (move_fine l2 b o (bin_of l u) H2 Ho false) as (l4 & E & H4 & N4). rewrite E.
    destruct (_ && _); [|exact H4].
    destruct (remove_fine l4 o H4 N4) as (l5 & E5 & H5). rewrite E5. exact H5.
Qed.

Lemma alloc_fine l live ok : dinv l -> binv l live -> fine (lba_alloc l ok).
Proof.
  intros H B. unfold lba_alloc. destruct (l_prev l (l_bin_count l)) as [q|] eqn:Eq.
  - destruct (q =? l_bin_count l); [apply block_alloc_fine; exact H|].
    destruct (rev (l_blocks l q)) as [|b r] eqn:Er; [exact H|].
    assert (Hb : In b (l_blocks l q)) by (apply in_rev; rewrite Er; left; reflexivity).
    apply alloc_buf_fine; [exact H|]. destruct (b_good _ _ B q b Hb) as [-> _].
    apply (d_bins _ H). intros X. rewrite X in Hb. exact Hb.
  - destruct H as [[_ D1 _] Ha _]. exfalso. apply (D1 _ Ha). exact Eq.
Qed.

Lemma free_fine l live b : dinv l -> binv l live -> In b live -> fine (lba_free l b).
Proof.
  intros H B Hin. destruct b as [b k]. unfold lba_free. cbn [fst snd]. apply free_buf_fine; [exact H|].
  destruct (b_live _ _ B b k Hin) as (Hm & _). apply (d_bins _ H). intros X. rewrite X in Hm. exact Hm.
Qed.

Lemma reach_dinv bufs bins l live : 1 <= bufs -> 1 <= bins -> reach false bufs bins l live -> dinv l.
Proof.
  intros Hb Hi. induction 1 as [|l live ok b l' R D E|l live ok l' R D E|l live b l' R D Hin E].
  - apply dinv_init.
  - destruct (reach_inv false bufs bins Hb Hi l live R) as [_ B]. pose proof (alloc_fine l live ok D B) as F. rewrite E in F. exact F.
  - apply lba_alloc_null in E. subst l'. exact D.
  - destruct (reach_inv false bufs bins Hb Hi l live R) as [_ B]. pose proof (free_fine l live b D B Hin) as F. rewrite E in F. exact F.
Qed.
